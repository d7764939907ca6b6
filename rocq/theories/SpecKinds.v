(** Vocabulary for C113: the documents that wallets and issuers exchange. *)
From Verif Require Import Model.Prelude Model.Json Model.Types Model.Deps Model.AccessToken Model.CredentialIssuer
  Model.Serde Model.Wire Spec SpecDocuments SpecJwt SpecRelay.

Inductive kind : Type :=
| KOffer | KMetadata | KRequest | KResponse | KCredentialError
| KTokenRequest | KTokenResponse | KTokenError
| KProofHeader | KProofClaims.

(** The names of their members. *)
Definition protocol_names : list string :=
  ["credential_issuer"; "credentials"; "grants";
   "authorization_server"; "credential_endpoint"; "batch_credential_endpoint"; "credentials_supported";
   "format"; "types"; "@context"; "doctype"; "claims"; "credentialSubject"; "order"; "proof";
   "credential"; "acceptance_token"; "c_nonce"; "c_nonce_expires_in";
   "error"; "error_description"; "error_uri";
   "grant_type"; "access_token"; "token_type"; "expires_in"; "scope"; "authorization_pending"; "interval";
   "typ"; "alg"; "kid"; "jwk"; "x5c";
   "iss"; "aud"; "sub"; "iat"; "nonce"; "nbf"; "exp"]%string.
Definition protocol_name (k : str) : Prop := exists n, In n protocol_names /\ k = lit n.

(** Members of the caller's choice have other names. *)
Definition own_names (m : list (str * json)) : Prop := forall k, In k (map fst m) -> ~ protocol_name k.

(** The texts the library writes for each kind: from any value Rust can hold, with
    free-form values of any numbers, nested as deep as can be read. *)
Inductive written_as (d : deps) : kind -> str -> Prop :=
| wr_offer x : offer_with (value_any 122) x -> written_as d KOffer (offer_to_json x)
| wr_metadata x : metadata_with (value_any 122) (value_any 126) x -> on_some own_names (im_additional_fields x) ->
    written_as d KMetadata (metadata_to_json x)
| wr_request x : request_with (value_any 124) x -> written_as d KRequest (credential_request_to_json x)
| wr_response x : credential_success_with (value_any 122) x -> written_as d KResponse (credential_success_to_json x)
| wr_credential_error x s : on_some rust_string (resp_description x) -> on_some rust_string (resp_uri x) ->
    on_some (value_any 127) (resp_details x) -> (forall m, resp_details x = Some (JObj m) -> own_names m) ->
    issuer_error_response_to_json d x = Some s -> written_as d KCredentialError s
| wr_token_request x : token_request_ok x -> written_as d KTokenRequest (token_request_to_json x)
| wr_token_response x : token_success_ok x -> written_as d KTokenResponse (token_success_to_json x)
| wr_token_error x s : on_some rust_string (resp_description x) -> on_some rust_string (resp_uri x) ->
    on_some (value_any 127) (resp_details x) -> (forall m, resp_details x = Some (JObj m) -> own_names m) ->
    token_error_response_to_json d x = Some s -> written_as d KTokenError s
| wr_header x : header_ok x -> written_as d KProofHeader (header_to_json x)
| wr_claims x : body_ok x -> body_instants_ok x -> written_as d KProofClaims (claims_to_json d x).

(** The texts that are read as each kind. The library does not read errors. *)
Inductive read_as (d : deps) (s : str) : kind -> Prop :=
| rd_offer x : offer_from_json s = Some x -> read_as d s KOffer
| rd_metadata x : metadata_from_json s = Some x -> read_as d s KMetadata
| rd_request x : credential_request_from_json s = Some x -> read_as d s KRequest
| rd_response x : credential_success_from_json s = Some x -> read_as d s KResponse
| rd_token_request x : token_request_from_json s = Some x -> read_as d s KTokenRequest
| rd_token_response x : token_success_from_json s = Some x -> read_as d s KTokenResponse
| rd_header x : header_from_json s = Some x -> read_as d s KProofHeader
| rd_claims x : claims_from_json d s = Some x -> read_as d s KProofClaims.
