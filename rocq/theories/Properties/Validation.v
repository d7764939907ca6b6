(** What validating a document on its own accepts. Theorems only; proofs are in
    Proofs/ValidationFacts.v. *)
From Verif Require Import Model.Prelude Model.Json Model.Types Model.Deps Model.Errors Model.AccessToken Model.Jwt
  Model.CredentialIssuer
  Spec SpecToken SpecJwt SpecEvaluation SpecErrors
  Proofs.ValidationFacts Examples Properties.Offers Properties.Jwt Properties.Evaluation.

(** * C95 *)
(** A token request: a PIN of at most nine digits. *)
Theorem C95_token_request : forall r,
  (token_request_validate r = Ok tt <->
     forall code pin, tr_grant_type r = GPreAuthorized code (Some pin) -> pin < 10 ^ 9)
  /\ token_request_validate r <> Panic.
Proof. exact token_request_validates. Qed.
Print Assumptions C95_token_request.

(** A credential request: every check of its proof, in order. *)
Theorem C95_credential_request : forall d r,
  lower_case_facts d -> upper_case_facts d -> on_some (fun p => rust_string (rp_proof_type p)) (cr_proof r) ->
  (request_validate d r = Ok tt <-> valid_request d r)
  /\ (forall e, request_validate d r = Err e <-> request_error d r (IValidationError e)).
Proof. exact request_validates. Qed.
Print Assumptions C95_credential_request.

(** The key of a proof: only [kid] is valid. *)
Theorem C95_key_form : forall a,
  (additional_header_validate a = Ok tt <-> exists kid, a = KeyId kid)
  /\ (forall s, a = Jwk s -> additional_header_validate a
        = Err (VAny (lit "JWK is not supported as key type in the JWT header")))
  /\ (forall s, a = X5c s -> additional_header_validate a
        = Err (VAny (lit "X5c is not supported as key type in the JWT header"))).
Proof. exact key_form_validates. Qed.
Print Assumptions C95_key_form.

(** The header of a token: its type, up to ASCII case. *)
Theorem C95_header : forall d h, lower_case_facts d -> rust_string (h_typ h) ->
  (header_validate d h = Ok tt <-> ascii_ci (h_typ h) (lit "openid4vci-proof+jwt"))
  /\ (forall e, header_validate d h = Err e <->
      ~ ascii_ci (h_typ h) (lit "openid4vci-proof+jwt") /\ e = typ_error).
Proof. exact header_validates. Qed.
Print Assumptions C95_header.

(** Claims, offers, credentials, how they are displayed and authorization server
    metadata are never rejected, nor is anything in a published credential. *)
Theorem C95_unchecked :
  (forall b, body_validate b = Ok tt) /\ (forall o, offer_validate o = Ok tt)
  /\ (forall c, cfp_validate c = Ok tt) /\ (forall p, display_validate p = Ok tt)
  /\ (forall l, logo_validate l = Ok tt) /\ (forall a, auth_server_metadata_validate a = Ok tt)
  /\ (forall s, supported_validate s = Ok tt).
Proof. exact unchecked_always. Qed.
Print Assumptions C95_unchecked.

(** A token with a JWK passes its own validation although the key form does not. *)
Example C95_case :
  jwt_validate example_deps ev_with_jwk = Ok tt
  /\ (exists a, h_additional (j_header ev_with_jwk) = Some a /\ additional_header_validate a <> Ok tt)
  /\ token_request_validate {| tr_grant_type := GPreAuthorized [] (Some 999999999) |} = Ok tt
  /\ token_request_validate {| tr_grant_type := GPreAuthorized [] (Some 1000000000) |} <> Ok tt.
Proof.
  split; [reflexivity|]. split; [eexists; split; [reflexivity|discriminate]|].
  split; [reflexivity|]. vm_compute. discriminate.
Qed.
