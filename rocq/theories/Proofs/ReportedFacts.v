(** Proofs for C132. *)
From Verif Require Import Model.Prelude Model.Json Model.Types Model.Deps Model.Errors Model.Jwt
  Model.AccessToken Model.CredentialIssuer SpecErrors SpecToken SpecReported Proofs.TokenFacts.

Definition jwt_list (e : jwt_error) : list N :=
  jwt_error_code e :: match e with JValidationError _ => [1] | _ => [] end.
Definition issuer_list (e : issuer_error) : list N :=
  issuer_error_code_num e
  :: match e with IValidationError _ => [1] | IJwtError e => jwt_list e | _ => [] end.
Fixpoint token_list (e : token_error) : list N :=
  token_error_code_num e
  :: match e with
     | TValidationError _ => [1]
     | TInvalidAuthorizedAndPreAuthorizedCodeFlow a b => token_list a ++ token_list b
     | _ => []
     end.
Definition code_list (a : any_error) : list N :=
  match a with
  | AValidation _ => [1]
  | AJwt e => jwt_list e
  | AIssuer e => issuer_list e
  | AToken e => token_list e
  end.

Lemma within_list d a e : within a e -> In (code_shown d a) (code_list e).
Proof.
  intros H. induction H as [a|a v _ IH|a e _ IH|a v _ IH|a v _ IH|a e f _ IH|a e f _ IH].
  - destruct a as [[m]|e|e|e]; [now left|now left|now left|destruct e; now left].
  - right. exact IH.
  - right. exact IH.
  - right. exact IH.
  - right. exact IH.
  - right. apply in_or_app. left. exact IH.
  - right. apply in_or_app. right. exact IH.
Qed.

Lemma bind_err {E A B : Type} (x : res E A) (k : A -> res E B) e :
  bind x k = Err e -> x = Err e \/ exists a, x = Ok a /\ k a = Err e.
Proof. destruct x; cbn; intros H; [right; eauto|left; congruence|discriminate]. Qed.
Lemma map_err_err {E F A : Type} (f : E -> F) (x : res E A) e :
  map_err f x = Err e -> exists v, x = Err v /\ e = f v.
Proof. destruct x; cbn; intros H; [discriminate|injection H as <-; eauto|discriminate]. Qed.
Lemma ok_or_err {E A : Type} (x : option A) (e e' : E) : ok_or x e = Err e' -> e' = e.
Proof. destruct x; cbn; congruence. Qed.

Lemma key_codes d h doc e : header_extract_key_and_alg d h doc = Err e ->
  In (jwt_error_code e) (codes_of CExtractKey) /\ jwt_list e = [jwt_error_code e].
Proof.
  assert (forall k e, jwk_to_public_key_bytes k = Err e ->
    (In (jwt_error_code e) (codes_of CExtractKey)) /\ jwt_list e = [jwt_error_code e]) as K.
  { intros k e'. unfold jwk_to_public_key_bytes.
    destruct (jwk_parameters k) as [x| | |]; [|discriminate| |];
      [|intros [= <-]; split; [cbn; tauto|reflexivity]..].
    destruct (match jwk_algorithm k with Some a => a | None => jwk_alg_default end).
    - intros H. apply ok_or_err in H. subst. split; [cbn; tauto|reflexivity].
    - intros [= <-]. split; [cbn; tauto|reflexivity]. }
  unfold header_extract_key_and_alg. destruct (h_additional h) as [[kid|s|s]|].
  - destruct (did_url_try_from d kid) as [m|u]; [intros [= <-]; split; [cbn; tauto|reflexivity]|].
    intros H. apply bind_err in H as [H|(dc & _ & H)].
    { apply ok_or_err in H. subst. split; [cbn; tauto|reflexivity]. }
    destruct (select_object d dc u) as [m|[vm|]]; [| |discriminate].
    + injection H as <-. split; [cbn; tauto|reflexivity].
    + destruct (get_jwk d vm) as [m|k]; [injection H as <-; split; [cbn; tauto|reflexivity]|].
      apply bind_err in H as [H|(a & _ & H)]; [exact (K _ _ H)|discriminate].
  - destruct (jwk_from_str d s) as [m|k]; [intros [= <-]; split; [cbn; tauto|reflexivity]|].
    intros H. apply bind_err in H as [H|(a & _ & H)]; [exact (K _ _ H)|discriminate].
  - intros [= <-]. split; [cbn; tauto|reflexivity].
  - intros [= <-]. split; [cbn; tauto|reflexivity].
Qed.

Lemma did_codes d j e : jwt_extract_did d j = Err e ->
  In (jwt_error_code e) (codes_of CExtractDid) /\ jwt_list e = [jwt_error_code e].
Proof.
  unfold jwt_extract_did. destruct (h_additional (j_header j)) as [[kid|s|s]|]; [|intros [= <-]..|discriminate].
  - destruct (did_url_try_from d kid) as [m|u]; [|discriminate]. intros [= <-]. split; [cbn; tauto|reflexivity].
  - split; [cbn; tauto|reflexivity].
  - split; [cbn; tauto|reflexivity].
Qed.

Lemma signature_codes d j e : jwt_extract_signature d j = Err e -> jwt_list e = [313].
Proof.
  intros H. apply bind_err in H as [H|(t & _ & H)]; [discriminate|]. apply ok_or_err in H. now subst.
Qed.
Lemma message_codes d j e : jwt_to_signable_message d j <> Err e.
Proof.
  unfold jwt_to_signable_message. cbn [bind jwt_try_into_string].
  destruct (Nat.eqb _ _); [|discriminate].
  destruct (nth_error _ 0); [|discriminate]. destruct (nth_error _ 1); discriminate.
Qed.
Lemma nonce_codes j n e : jwt_check_nonce j n = Err e -> jwt_list e = [315].
Proof. unfold jwt_check_nonce. destruct (opt_str_eqb _ _); [discriminate|]. now intros [= <-]. Qed.
Lemma iss_codes j n e : jwt_check_iss j n = Err e -> jwt_list e = [303].
Proof. unfold jwt_check_iss. destruct (opt_str_eqb _ _); [discriminate|]. now intros [= <-]. Qed.
Lemma aud_codes j n e : jwt_check_aud j n = Err e -> jwt_list e = [316].
Proof. unfold jwt_check_aud. destruct (str_eqb _ _); [discriminate|]. now intros [= <-]. Qed.
Lemma resolve_codes m c e : resolve m c = Err e -> issuer_list e = [103].
Proof. destruct c; [|discriminate]. intros H. apply ok_or_err in H. now subst. Qed.
Lemma resolve_all_codes m l e : resolve_all m l = Err e -> issuer_list e = [103].
Proof.
  unfold resolve_all. generalize (@nil cfp). induction l as [|c l IH]; intros acc H; [discriminate|].
  cbn [resolve_all_loop] in H. apply bind_err in H as [H|(p & _ & H)]; [exact (resolve_codes _ _ _ H)|].
  exact (IH _ H).
Qed.

(** Of an error that wraps another. *)
Lemma validation_wrapped (l : list N) v : In 100 l -> In 1 l -> incl (issuer_list (IValidationError v)) l.
Proof. intros A B n [<-|[<-|[]]]; assumption. Qed.
Lemma jwt_wrapped (l : list N) e : In 101 l -> incl (jwt_list e) l -> incl (issuer_list (IJwtError e)) l.
Proof. intros A B n [<-|I]; [assumption|exact (B n I)]. Qed.
Lemma one_code (l : list N) (k : list N) n : k = [n] -> In n l -> incl k l.
Proof. intros -> H x [<-|[]]. exact H. Qed.

Ltac wrapped_validation H :=
  apply map_err_err in H as (? & _ & ->); apply validation_wrapped; cbn; tauto.

Lemma create_offer_codes m l u a p e :
  create_offer m l u a p = Err e -> incl (issuer_list e) (codes_of CCreateOffer).
Proof.
  intros H. unfold create_offer in H. apply bind_err in H as [H|(x & _ & H)]; [wrapped_validation H|].
  destruct (is_some a). { injection H as <-. apply (one_code _ _ 102); [reflexivity|cbn; tauto]. }
  apply bind_err in H as [H|(y & _ & H)].
  { apply (one_code _ _ _ (resolve_all_codes _ _ _ H)). cbn; tauto. }
  discriminate H.
Qed.

Lemma pre_evaluate_codes d r e :
  pre_evaluate_credential_request d r = Err e -> incl (issuer_list e) (codes_of CPreEvaluate).
Proof.
  intros H. unfold pre_evaluate_credential_request in H.
  apply bind_err in H as [H|(x & _ & H)]; [wrapped_validation H|].
  destruct (cr_proof r) as [p|]; [|discriminate].
  apply bind_err in H as [H|(j & _ & H)]; [wrapped_validation H|].
  apply bind_err in H as [H|(y & _ & H)]; [wrapped_validation H|].
  apply map_err_err in H as (v & H & ->). destruct (did_codes _ _ _ H) as [I S].
  apply jwt_wrapped; [cbn; tauto|]. rewrite S. intros n [<-|[]]. cbn in I |- *. tauto.
Qed.

Lemma evaluate_codes d now m r o s doc opts e :
  evaluate_credential_request d now m r o s doc opts = Err e -> incl (issuer_list e) (codes_of CEvaluate).
Proof.
  intros H. unfold evaluate_credential_request in H.
  apply bind_err in H as [H|(x & _ & H)]; [wrapped_validation H|].
  apply bind_err in H as [H|(oo & _ & H)].
  { apply ok_or_err in H. subst. apply (one_code _ _ 109); [reflexivity|cbn; tauto]. }
  apply bind_err in H as [H|(y & _ & H)]; [wrapped_validation H|].
  apply bind_err in H as [H|(z & _ & H)].
  { destruct s as [s|]; [|discriminate]. injection H as <-. apply (one_code _ _ 108); [reflexivity|cbn; tauto]. }
  apply bind_err in H as [H|(w & _ & H)].
  { unfold check_nonce_expiry in H. destruct (opt_bind opts eo_c_nonce) as [n|]; [|discriminate].
    apply bind_err in H as [H|(x' & _ & H)].
    - unfold add_seconds in H. destruct (in_instant_range _); discriminate H.
    - destruct (x' <? now)%Z; [|discriminate]. injection H as <-. apply (one_code _ _ 111); [reflexivity|cbn; tauto]. }
  destruct (cr_proof r) as [p|].
  2: { injection H as <-. apply (one_code _ _ 112); [reflexivity|cbn; tauto]. }
  apply bind_err in H as [H|(j & _ & H)]; [wrapped_validation H|].
  apply bind_err in H as [H|(x1 & _ & H)]; [wrapped_validation H|].
  assert (forall n v, jwt_list v = [n] -> In n (codes_of CEvaluate) ->
    incl (issuer_list (IJwtError v)) (codes_of CEvaluate)) as W.
  { intros n v E I. apply jwt_wrapped; [cbn; tauto|exact (one_code _ _ _ E I)]. }
  cbv zeta in H.
  apply bind_err in H as [H|(x2 & _ & H)].
  { apply map_err_err in H as (v & H & ->). apply (W _ _ (nonce_codes _ _ _ H)). cbn; tauto. }
  apply bind_err in H as [H|(x3 & _ & H)].
  { destruct (should_validate_iss opts oo); [|discriminate].
    apply map_err_err in H as (v & H & ->). apply (W _ _ (iss_codes _ _ _ H)). cbn; tauto. }
  apply bind_err in H as [H|(x4 & _ & H)].
  { apply map_err_err in H as (v & H & ->). apply (W _ _ (aud_codes _ _ _ H)). cbn; tauto. }
  apply bind_err in H as [H|(x5 & _ & H)].
  { apply map_err_err in H as (v & H & ->). destruct (key_codes _ _ _ _ H) as [I S].
    apply (W _ _ S). cbn in I |- *. tauto. }
  apply bind_err in H as [H|(x6 & _ & H)].
  { apply map_err_err in H as (v & H & ->). apply (W _ _ (signature_codes _ _ _ H)). cbn; tauto. }
  apply bind_err in H as [H|(x7 & _ & H)].
  { apply map_err_err in H as (v & H & ->). now apply message_codes in H. }
  apply bind_err in H as [H|(x8 & _ & H)]; [|discriminate].
  apply map_err_err in H as (v & H & ->). destruct (did_codes _ _ _ H) as [I S].
  apply (W _ _ S). cbn in I |- *. tauto.
Qed.

Lemma encode_codes c e : cfp_encode c <> Err e.
Proof. destruct c; discriminate. Qed.

Lemma success_codes d now r c n e :
  create_credential_success_response d now r c n = Err e -> incl (issuer_list e) (codes_of CSuccessResponse).
Proof.
  intros H. unfold create_credential_success_response in H.
  apply bind_err in H as [H|(x & _ & H)]; [wrapped_validation H|]. cbv zeta in H.
  apply bind_err in H as [H|(y & _ & H)]; [|discriminate].
  destruct c as [[c|t]|]; [|discriminate|discriminate].
  apply bind_err in H as [H|(z & _ & H)]; [|discriminate]. wrapped_validation H.
Qed.

Lemma token_codes r o opts e :
  evaluate_access_token_request r o opts = Err e -> incl (token_list e) (codes_of CEvaluateToken).
Proof.
  intros H. apply evaluate_err in H.
  assert (forall g code pin e, grant_error g code opts pin e ->
    incl (token_list e) (codes_of CEvaluateToken)) as G.
  { intros g code pin e' E. inversion E; subst; intros y [<-|[]]; cbn; tauto. }
  inversion H as [code n k offer opts' e' _ _ L| | | | |code pin offer opts' g e' _ _ _ E
                 |code pin offer opts' a g e' _ _ _ E]; subst; try (intros y [<-|[]]; cbn; tauto).
  - destruct L as (k' & text & _ & _ & ->). intros y [<-|[<-|[]]]; cbn; tauto.
  - exact (G _ _ _ _ E).
  - intros n [<-|I]; [cbn; tauto|]. cbn [token_list wrong_grant_error] in I.
    apply in_app_or in I as [[<-|[]]|I]; [cbn; tauto|exact (G _ _ _ _ E n I)].
Qed.

Lemma verify_codes now j e : jwt_verify now j = Err e -> incl (jwt_list e) (codes_of CVerify).
Proof.
  intros H. unfold jwt_verify in H. apply bind_err in H as [H|(x & _ & H)].
  { destruct (b_nbf (j_body j)); [|discriminate]. destruct (_ <? _)%Z; [|discriminate].
    injection H as <-. intros n [<-|[]]; cbn; tauto. }
  apply bind_err in H as [H|(y & _ & H)]; [|discriminate].
  destruct (b_exp (j_body j)); [|discriminate]. destruct (_ <? _)%Z; [|discriminate].
  injection H as <-. intros n [<-|[]]; cbn; tauto.
Qed.

Theorem reported_codes d c n : met d c n -> In n (codes_of c).
Proof.
  intros (e & a & R & W & <-). apply (within_list d) in W. revert W.
  enough (incl (code_list e) (codes_of c)) as I by exact (I _).
  destruct R as [m l u a' p e H|o e H|m c e H|m l e H|r e H|now m r o s doc opts e H|now r c n e H|code x y z e H
    |r o opts e H|now t1 t2 t3 t4 t5 t6 t7 t8 e H|code x y z e H|s e H|j e H|now j e H|j e H|h doc e H|j e H|j e H
    |j n e H|j i e H|j u e H|s e H|s e H|s e H|c e H|m e H|o e H|r e H|r e H|t e H|j e H|a' e H]; cbn [code_list].
  - exact (create_offer_codes _ _ _ _ _ _ H).
  - discriminate H.
  - rewrite (resolve_codes _ _ _ H). apply incl_refl.
  - rewrite (resolve_all_codes _ _ _ H). apply incl_refl.
  - exact (pre_evaluate_codes _ _ _ H).
  - exact (evaluate_codes _ _ _ _ _ _ _ _ _ H).
  - exact (success_codes _ _ _ _ _ _ H).
  - discriminate H.
  - exact (token_codes _ _ _ _ H).
  - discriminate H.
  - discriminate H.
  - apply incl_refl.
  - discriminate H.
  - exact (verify_codes _ _ _ H).
  - destruct (did_codes _ _ _ H) as [I S]. exact (one_code _ _ _ S I).
  - destruct (key_codes _ _ _ _ H) as [I S]. exact (one_code _ _ _ S I).
  - rewrite (signature_codes _ _ _ H). apply incl_refl.
  - now apply message_codes in H.
  - rewrite (nonce_codes _ _ _ H). apply incl_refl.
  - rewrite (iss_codes _ _ _ H). apply incl_refl.
  - rewrite (aud_codes _ _ _ H). apply incl_refl.
  - apply incl_refl.
  - apply incl_refl.
  - apply incl_refl.
  - now apply encode_codes in H.
  - apply incl_refl.
  - discriminate H.
  - apply incl_refl.
  - apply incl_refl.
  - apply incl_refl.
  - apply incl_refl.
  - apply incl_refl.
Qed.

Definition all_calls : list call := [
  CCreateOffer; CUrlEncode; CResolve; CResolveAll; CPreEvaluate; CEvaluate; CSuccessResponse;
  CErrorResponse; CEvaluateToken; CTokenSuccessResponse; CTokenErrorResponse;
  CProofFromText; CProofToText; CVerify; CExtractDid; CExtractKey; CSignature; CMessage;
  CCheckNonce; CCheckIss; CCheckAud; CIssuerCode; CTokenCode; CTokenType; CEncodeCredential;
  CValidateMetadata; CValidateOffer; CValidateRequest; CValidateToken; CValidateTokenSuccess;
  CValidateProof; CValidateKey].
Definition met_by_some (n : N) : bool :=
  existsb (fun c => existsb (N.eqb n) (codes_of c)) all_calls.
Lemma met_by_some_iff n : met_by_some n = true <-> exists c, In n (codes_of c).
Proof.
  unfold met_by_some. rewrite existsb_exists. split.
  - intros (c & _ & H). apply existsb_exists in H as (x & I & E). apply N.eqb_eq in E. subst. now exists c.
  - intros (c & I). exists c. split; [destruct c; cbn; tauto|]. apply existsb_exists. exists n. now rewrite N.eqb_refl.
Qed.

Lemma not_every_error : ~ (forall en n name, In (en, n, name) error_table -> exists d c, met d c n).
Proof.
  intros H. destruct (H EIssuer 106 "ExpiredCNonce"%string) as (d & c & M); [cbn; tauto|].
  apply reported_codes in M. assert (met_by_some 106 = true) as B by (apply met_by_some_iff; now exists c).
  vm_compute in B. discriminate B.
Qed.

Lemma published_errors d : (forall c n, In n (codes_of c) -> met d c n) ->
  forall en n name, In (en, n, name) error_table -> ((exists d c, met d c n) <-> ~ In n never_met).
Proof.
  intros O en n name I.
  assert (met_by_some n = negb (existsb (N.eqb n) never_met)) as B.
  { assert (forallb (fun x => Bool.eqb (met_by_some (snd (fst x)))
      (negb (existsb (N.eqb (snd (fst x))) never_met))) error_table = true) as F by (vm_compute; reflexivity).
    rewrite forallb_forall in F. apply Bool.eqb_prop. exact (F _ I). }
  split.
  - intros (d' & c & M) N. apply reported_codes in M.
    assert (met_by_some n = true) as T by (apply met_by_some_iff; now exists c).
    rewrite T in B. symmetry in B. apply Bool.negb_true_iff in B.
    assert (existsb (N.eqb n) never_met = true) as X by (apply existsb_exists; exists n; now rewrite N.eqb_refl).
    congruence.
  - intros N. destruct (met_by_some n) eqn:T.
    + apply met_by_some_iff in T as (c & T). exists d, c. exact (O _ _ T).
    + exfalso. symmetry in B. apply Bool.negb_false_iff in B. apply existsb_exists in B as (x & J & E).
      apply N.eqb_eq in E. subst x. exact (N J).
Qed.
