(** [serde_json::to_string] and [serde_json::from_str] at the types a user of
    the crate sends or receives. The crate calls them at
    credential_issuer/mod.rs:243 (offer), types/credential.rs:185 (credential)
    and error.rs:35; for the other types the caller does. *)
From Verif Require Import Model.Prelude Model.Json Model.Types Model.Deps Model.Serde Model.Errors.

(** jwt/mod.rs:318-332; a struct with a flattened field reads every member. *)
Definition header_to_json (h : jwt_header) : str := print (ser_header h).
Definition header_from_json (s : str) : option jwt_header := opt_bind (parse_json s) de_header.

(** jwt/mod.rs:496-538. *)
Definition claims_to_json (d : deps) (b : jwt_body) : str := print (ser_body d b).
Definition claims_from_json (d : deps) (s : str) : option jwt_body :=
  opt_bind (parse_struct body_fields s) (de_body d).

(** access_token/mod.rs:125-129. *)
Definition token_request_to_json (r : token_request) : str := print (ser_token_request r).
Definition token_request_from_json (s : str) : option token_request :=
  opt_bind (parse_struct [lit "grant_type"] s) de_token_request.

(** access_token/mod.rs:31-64. *)
Definition token_success_to_json (t : token_success) : str := print (ser_token_success t).
Definition token_success_from_json (s : str) : option token_success :=
  opt_bind (parse_struct token_success_fields s) de_token_success.

(** error_response.rs:4-23 at the two code enums; [None] is a serialization
    error. *)
Definition token_error_response_to_json (d : deps) (r : error_response token_error_code) : option str :=
  option_map print (ser_error_response d ser_token_code r).
Definition issuer_error_response_to_json (d : deps) (r : error_response issuer_error_code) : option str :=
  option_map print (ser_error_response d ser_issuer_code r).

(** credential_issuer/mod.rs:170-194. *)
Definition offer_to_json (o : credential_offer) : str := print (ser_offer o).
Definition offer_from_json (s : str) : option credential_offer :=
  opt_bind (parse_doc offer_shape s) de_offer.

(** types/credential.rs:23-119; an internally tagged enum reads every member. *)
Definition cfp_to_json (c : cfp) : str := print (ser_cfp c).
Definition cfp_from_json (s : str) : option cfp := opt_bind (parse_json s) de_cfp.

(** credential_issuer/mod.rs:325-350. *)
Definition credential_success_to_json (r : credential_success) : str := print (ser_credential_success r).
Definition credential_success_from_json (s : str) : option credential_success :=
  opt_bind (parse_struct credential_success_fields s) de_credential_success.

(** types/credential_request.rs:17-35; a struct with a flattened field reads
    every member, the proof only its two. *)
Definition credential_request_to_json (r : credential_request) : str := print (ser_request r).
Definition credential_request_from_json (s : str) : option credential_request :=
  opt_bind (parse_doc request_shape s) de_request.

(** types/credential_issuer_metadata.rs:12-41, likewise. *)
Definition metadata_to_json (m : issuer_metadata) : str := print (ser_metadata m).
Definition metadata_from_json (s : str) : option issuer_metadata :=
  opt_bind (parse_doc metadata_shape s) de_metadata.

(** return_object.rs:4-21 with error.rs:15-31 as error and strings as warnings. *)
Definition return_object_to_json {T : Type} (f : T -> json)
    (r : return_object T error_information str) : str :=
  print (ser_return_object f ser_error_information JStr r).

(** credential_issuer/mod.rs:286-322: the two results of evaluation are written,
    never read. *)
Definition eval_response_to_json (r : eval_response) : str := print (ser_eval_response r).
Definition pre_eval_response_to_json (did : option str) : str := print (ser_pre_eval_response did).
