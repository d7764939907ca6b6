(** Evidence that can be checked. *)
From Verif Require Import Model.Prelude Model.Types Model.Deps Model.CredentialIssuer
  Spec SpecToken SpecOffer SpecJwt SpecEvaluation SpecCareful.

(** The issuer evaluates a request of this session and can decode the signature of the
    evidence. *)
Definition checkable (d : deps) (now : instant) (m : issuer_metadata) (o : credential_offer) (doc : Document d)
    (n : c_nonce_options) (client : option str) (pop : proof_of_possession) (signature : str) : Prop :=
  exists r resp, evaluate_credential_request d now m r (Some o) None (Some doc) (with_nonce n client) = Ok resp
    /\ er_pop resp = Some pop /\ base64_text url_alphabet false signature (pop_signature pop).

(** The session can go on: the metadata are valid, and the nonce has not expired. *)
Definition can_go_on (now : instant) (m : issuer_metadata) (n : c_nonce_options) (client : option str) : Prop :=
  ids_distinct (im_credentials_supported m) /\ representable (nonce_expiry n) /\ (now <= nonce_expiry n)%Z
  /\ rust_string (cno_expected n) /\ on_some rust_string client /\ rust_string (im_credential_issuer m).

(** A key that can be used, by its key id. *)
Definition usable_key (d : deps) (doc : Document d) (kid key : str) : Prop :=
  rust_string kid /\ exists k, document_key d doc kid k /\ public_key k key.

(** Timestamps of some instant are written without a fraction. *)
Definition whole_seconds (d : deps) : Prop := exists t, in_instant_range t = true /\ dotless (dt_print d t).
