(** A wallet that has a key but was told neither the nonce, its client id nor the
    issuer's URL, and sends credential requests until one is accepted. *)
From Verif Require Import Model.Prelude Model.Json Model.Types Model.Deps Model.Errors Model.CredentialIssuer Model.Wire
  Spec SpecToken SpecJwt SpecEvaluation SpecSession SpecEvidence SpecGuess.

Definition verdict := res issuer_error eval_response.

(** The issuer evaluates request number [i] at [clock i], with one document and
    one expected nonce, and shows what [show] leaves of the outcome. *)
Definition issuer_shows {A : Type} (show : verdict -> A) (d : deps) (clock : nat -> instant) (m : issuer_metadata)
    (o : credential_offer) (doc : option (Document d)) (options : option eval_options)
    (i : nat) (r : credential_request) : A :=
  show (evaluate_credential_request d (clock i) m r (Some o) None doc options).

(** Everything is shown. *)
Definition everything (x : verdict) : verdict := x.

(** Only whether the request was accepted, and the number of the error. *)
Definition number_only (x : verdict) : res N unit :=
  match x with
  | Ok _ => Ok tt
  | Err e => Err (issuer_error_code_num e)
  | Panic => Panic
  end.

(** The request is a proof signed by the wallet, as [compact_text]: the signature
    is that of the signing input. *)
Definition signed_request (d : deps) (alg : proof_alg) (kid : str) (iat : instant) (sign : str -> str) (c : cfp)
    (r : credential_request) : Prop :=
  exists nonce iss aud hs bs,
    let sig := sign (hs ++ lit "." ++ bs) in
    let token := hs ++ lit "." ++ bs ++ lit "." ++ sig in
    base64_text url_alphabet false (header_to_json (j_header (wallet_proof alg kid aud nonce iss iat sig))) hs
    /\ base64_text url_alphabet false (claims_to_json d (j_body (wallet_proof alg kid aud nonce iss iat sig))) bs
    /\ r = {| cr_format := c; cr_proof := Some {| rp_proof_type := lit "jwt"; rp_jwt := token |} |}.

(** The request carries a proof for this nonce. *)
Definition sends_nonce (d : deps) (r : credential_request) (e : str) : Prop :=
  exists p j, cr_proof r = Some p /\ proof_token d (rp_jwt p) j /\ b_nonce (j_body j) = e.

(** The request carries a proof that names this client. *)
Definition sends_client (d : deps) (r : credential_request) (x : str) : Prop :=
  exists p j, cr_proof r = Some p /\ proof_token d (rp_jwt p) j /\ b_iss (j_body j) = Some x.

(** The request carries a proof for this audience. *)
Definition sends_audience (d : deps) (r : credential_request) (x : str) : Prop :=
  exists p j, cr_proof r = Some p /\ proof_token d (rp_jwt p) j /\ b_aud (j_body j) = x.

(** An issuer at this URL, which otherwise publishes the same. *)
Definition at_url (u : str) (m : issuer_metadata) : issuer_metadata :=
  {| im_credential_issuer := u; im_authorization_server := im_authorization_server m;
     im_credential_endpoint := im_credential_endpoint m;
     im_batch_credential_endpoint := im_batch_credential_endpoint m;
     im_credentials_supported := im_credentials_supported m;
     im_additional_fields := im_additional_fields m |}.
