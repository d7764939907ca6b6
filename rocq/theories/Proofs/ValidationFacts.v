(** What [validate] accepts, type by type (C95). *)
From Coq Require Import Lia.
From Verif Require Import Model.Prelude Model.Json Model.Types Model.Deps Model.Errors Model.AccessToken Model.Jwt
  Model.CredentialIssuer
  Spec SpecToken SpecJwt SpecEvaluation SpecErrors
  Proofs.TokenFacts Proofs.JwtFacts Proofs.EvalFacts2.

Lemma key_form_validates a :
  (additional_header_validate a = Ok tt <-> exists kid, a = KeyId kid)
  /\ (forall s, a = Jwk s -> additional_header_validate a
        = Err (VAny (lit "JWK is not supported as key type in the JWT header")))
  /\ (forall s, a = X5c s -> additional_header_validate a
        = Err (VAny (lit "X5c is not supported as key type in the JWT header"))).
Proof.
  destruct a as [kid|s|s]; cbn [additional_header_validate].
  - split; [split; [now exists kid|reflexivity]|]. split; congruence.
  - split; [split; [congruence|intros (k & [=])]|]. split; [reflexivity|congruence].
  - split; [split; [congruence|intros (k & [=])]|]. split; [congruence|reflexivity].
Qed.

Lemma display_always p : display_validate p = Ok tt.
Proof. unfold display_validate. now destruct (dp_logo p). Qed.

Lemma for_each_display l : for_each display_validate l = Ok tt.
Proof. induction l as [|p l IH]; [reflexivity|]. cbn [for_each]. rewrite display_always. exact IH. Qed.

Lemma supported_always s : supported_validate s = Ok tt.
Proof.
  unfold supported_validate, cfp_validate. cbn [bind].
  destruct (sup_display s) as [l|]; [rewrite for_each_display|]; reflexivity.
Qed.

Lemma request_validates d r :
  lower_case_facts d -> upper_case_facts d -> on_some (fun p => rust_string (rp_proof_type p)) (cr_proof r) ->
  (request_validate d r = Ok tt <-> valid_request d r)
  /\ (forall e, request_validate d r = Err e <-> request_error d r (IValidationError e)).
Proof.
  intros HL HU HT. destruct (request_validate_outcomes d r HL HU HT) as (A & B & _).
  split.
  - rewrite <- A. destruct (request_validate d r) as [[]|e|]; cbn [map_err]; split; congruence.
  - intros e. rewrite <- B. destruct (request_validate d r) as [[]|e'|]; cbn [map_err]; split; congruence.
Qed.

Lemma token_request_validates r :
  (token_request_validate r = Ok tt <->
     forall code pin, tr_grant_type r = GPreAuthorized code (Some pin) -> pin < 10 ^ 9)
  /\ token_request_validate r <> Panic.
Proof.
  rewrite TokenFacts.request_validate_eq. split; [|apply TokenFacts.validate_no_panic].
  rewrite validate_ok. split.
  - intros H code pin E. destruct (decimal_digits_exists pin) as [k Hk]. pose proof (H code pin k E Hk) as L.
    destruct Hk as [[-> _]|(_ & _ & _ & U)]; [reflexivity|].
    eapply N.lt_le_trans; [exact U|]. apply N.pow_le_mono_r; lia.
  - intros H c n k E Hk. pose proof (H c n E) as L.
    destruct Hk as [[-> ->]|(_ & Hk0 & Lo & _)]; [lia|].
    destruct (N.le_gt_cases k 9) as [|G]; [assumption|]. exfalso.
    assert (10 ^ 9 <= 10 ^ (k - 1)) by (apply N.pow_le_mono_r; lia). lia.
Qed.

Lemma header_validates d h : lower_case_facts d -> rust_string (h_typ h) ->
  (header_validate d h = Ok tt <-> ascii_ci (h_typ h) (lit "openid4vci-proof+jwt"))
  /\ (forall e, header_validate d h = Err e <->
      ~ ascii_ci (h_typ h) (lit "openid4vci-proof+jwt") /\ e = typ_error).
Proof.
  intros L T.
  destruct (typ_exact d {| j_header := h; j_body := {| b_iss := None; b_aud := []; b_sub := None; b_iat := 0%Z;
    b_nonce := []; b_nbf := None; b_exp := None |}; j_signature := None |} L T) as [A B].
  cbn [j_header] in *. unfold jwt_validate, body_validate in *. cbn [j_header] in *.
  destruct (header_validate d h) as [[]|e0|] eqn:E; cbn [bind] in *.
  - split; [exact A|]. intros e. split; [discriminate|]. intros [N _]. exfalso. now apply N, A.
  - assert (~ ascii_ci (h_typ h) (lit "openid4vci-proof+jwt")) as N by (intros H; now apply A in H).
    split; [split; [discriminate|intros H; now apply A in H]|]. intros e. specialize (B N). split.
    + intros [= <-]. split; [exact N|]. now injection B.
    + intros [_ ->]. exact B.
  - exfalso. unfold header_validate in E. destruct (negb _); discriminate.
Qed.

Lemma unchecked_always :
  (forall b, body_validate b = Ok tt) /\ (forall o, offer_validate o = Ok tt)
  /\ (forall c, cfp_validate c = Ok tt) /\ (forall p, display_validate p = Ok tt)
  /\ (forall l, logo_validate l = Ok tt) /\ (forall a, auth_server_metadata_validate a = Ok tt)
  /\ (forall s, supported_validate s = Ok tt).
Proof.
  split; [reflexivity|]. split; [reflexivity|]. split; [reflexivity|]. split; [exact display_always|].
  split; [reflexivity|]. split; [reflexivity|]. exact supported_always.
Qed.
