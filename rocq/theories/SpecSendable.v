(** RFC 6749 section 5.2, to which OpenID4VCI refers for the errors of the token
    endpoint and, for the form of the answer, of the credential endpoint: what
    may stand in [error_description] and [error_uri]. *)
From Verif Require Import Model.Prelude Model.Json Model.Types Model.Deps Spec SpecEvaluation SpecDraft.

(** %x20-21 / %x23-5B / %x5D-7E: printable ASCII without the double quote and the
    backslash. *)
Definition description_char (c : ascii) : Prop :=
  code c = 32 \/ code c = 33 \/ 35 <= code c <= 91 \/ 93 <= code c <= 126.
Definition sendable (s : str) : Prop := Forall description_char s.

(** %x21 / %x23-5B / %x5D-7E: the same without the blank. *)
Definition uri_char (c : ascii) : Prop := description_char c /\ code c <> 32.
Definition uri_sendable (s : str) : Prop := Forall uri_char s.

(** Texts that come from outside and that the description of an error repeats. *)
Inductive repeats : issuer_error -> str -> Prop :=
| rp_id id : repeats (ICredentialIdNotInIssuerMetadata id) id
| rp_jwk s m : repeats (IJwtError (JUnableToTransformIntoJoseItem s m)) s
| rp_algorithm s : repeats (IJwtError (JUnsupportedAlgorithm s)) s
| rp_coordinate s x y : repeats (IJwtError (JESXXXHasNoXOrYCoordinate s x y)) s
| rp_key_type n s : repeats (IJwtError (JUnsupportedKeyTypeInJwtHeader n s)) s.

(** Where the repeated text is from, when a request is evaluated: the [jwk] or
    [x5c] of the wallet's own token, or the name of a key's algorithm in quotes. *)
Inductive repeated_from : option additional_header -> str -> Prop :=
| rf_jwk s : repeated_from (Some (Jwk s)) s
| rf_x5c s : repeated_from (Some (X5c s)) s
| rf_algorithm h n : repeated_from h (lit """" ++ n ++ lit """").

(** An error answer, leaving its code aside: the members occur once, and the two
    optional ones hold texts that may stand there. *)
Definition error_answer (v : json) : Prop :=
  an_object (fun m =>
    must m "error" a_text
    /\ may m "error_description" (fun w => exists t, w = JStr t /\ sendable t)
    /\ may m "error_uri" (fun w => exists t, w = JStr t /\ uri_sendable t)) v.

(** The code is one of a list. *)
Definition error_is_one_of (names : list string) (v : json) : Prop :=
  an_object (fun m => must m "error" (fun w => exists n, In n names /\ w = JStr (lit n))) v.

(** RFC 6749 5.2 and 4.1.2.1, with what OpenID4VCI adds (6.3), and 7.3.1. *)
Definition token_codes : list string :=
  ["invalid_request"; "invalid_client"; "invalid_grant"; "unauthorized_client"; "unsupported_grant_type";
   "invalid_scope"; "access_denied"; "unsupported_response_type"; "server_error"; "temporarily_unavailable";
   "authorization_pending"; "slow_down"]%string.
Definition credential_codes : list string :=
  ["invalid_request"; "invalid_token"; "unsupported_credential_type"; "unsupported_credential_format";
   "invalid_or_missing_proof"; "insufficient_scope"]%string.

(** What the caller must give for the answer to be of that form: both texts, of
    the right characters, and details without the names of the standard members. *)
Definition answerable (description uri : option str) (details : option json) : Prop :=
  (exists t, description = Some t /\ sendable t)
  /\ (exists t, uri = Some t /\ uri_sendable t)
  /\ forall m, details = Some (JObj m) ->
       not_defined m ["error"; "error_description"; "error_uri"]%string.

(** Details are a Rust map: no two members have the same name. *)
Definition distinct_details (details : option json) : Prop :=
  forall m, details = Some (JObj m) -> NoDup (map fst m).
