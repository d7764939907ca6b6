(** The property-level lemmas about evaluation, and the family of example tokens. *)
From Coq Require Import Lia ZifyBool ZifyN ZifyNat.
From Verif Require Import Model.Prelude Model.Utf8 Model.Base64 Model.Json Model.Types Model.Deps
  Model.Serde Model.Errors Model.Jwt Model.AccessToken Model.CredentialIssuer Model.Wire
  Spec SpecToken SpecOffer SpecJwt SpecEvaluation
  Proofs.StrFacts Proofs.Utf8Facts Proofs.Base64Facts Proofs.Base64Bits Proofs.JsonFacts
  Proofs.ReaderFacts Proofs.SerdeFacts Proofs.TokenFacts Proofs.OfferFacts Proofs.JwtFacts
  Proofs.EvalFacts Proofs.EvalFacts2.

Lemma agree_on_subject d now m r offer asm doc options resp did :
  lower_case_facts d ->
  evaluate_credential_request d now m r offer asm doc options = Ok resp ->
  pre_evaluate_credential_request d r = Ok did ->
  er_subject_id resp = did /\ did <> None.
Proof.
  intros HL HE HP. destruct (accepted_inv _ _ _ _ _ _ _ _ _ HL HE) as
    (_ & _ & o & p & j & n & doc' & kid & u & k & opts & pop & _ & _ & _ & _ & _ & Ep & T & _ & _ & _ & _ & Ek & Eu & _ & _ & _ & _ & _ & _ & _ & Es & _).
  unfold pre_evaluate_credential_request in HP.
  destruct (request_validate d r) as [[]|e|]; cbn [map_err bind] in HP; try discriminate.
  rewrite Ep in HP. apply proof_token_iff in T. rewrite T in HP. cbn [map_err bind] in HP.
  destruct (jwt_validate d j) as [[]|e|]; cbn [map_err bind] in HP; try discriminate.
  unfold jwt_extract_did in HP. rewrite Ek, Eu in HP. cbn [map_err] in HP. apply ok_inj in HP.
  subst did. split; [exact Es|discriminate].
Qed.

Lemma no_nonce_rejected d now m r offer asm doc options resp :
  lower_case_facts d -> (forall n, ~ nonce_options options n) ->
  evaluate_credential_request d now m r offer asm doc options <> Ok resp.
Proof.
  intros HL HN HE. destruct (accepted_inv _ _ _ _ _ _ _ _ _ HL HE) as
    (_ & _ & o & p & j & n & doc' & kid & u & k & opts & pop & _ & E1 & E2 & _).
  apply (HN n). now exists opts.
Qed.

Lemma request_checks_pass d now m r o options p j :
  ids_distinct (im_credentials_supported m) ->
  (forall n, nonce_options options n -> representable (nonce_expiry n) /\ (now <= nonce_expiry n)%Z) ->
  cr_proof r = Some p -> proof_token d (rp_jwt p) j ->
  Forall passes (request_checks d now m r (Some o) None options).
Proof.
  intros HD HN HP HT. unfold request_checks.
  apply Forall_cons; [exact HD|]. apply Forall_cons; [cbn; discriminate|].
  apply Forall_cons; [reflexivity|]. apply Forall_cons; [exact HN|].
  apply Forall_cons; [cbn; congruence|]. apply Forall_cons; [|constructor].
  cbn [passes]. intros p' E. rewrite HP in E. injection E as <-. eauto.
Qed.

Lemma no_nonce_error d now m r offer doc options p j :
  lower_case_facts d -> (forall n, ~ nonce_options options n) ->
  ids_distinct (im_credentials_supported m) -> offer <> None ->
  cr_proof r = Some p -> proof_token d (rp_jwt p) j -> ascii_ci (h_typ (j_header j)) proof_typ ->
  evaluate_credential_request d now m r offer None doc options
  = Err (IJwtError (JNonceMismatch None (b_nonce (j_body j)))).
Proof.
  intros HL HN HD HO HP HT HY. destruct offer as [o|]; [|easy].
  apply (proj1 (proj2 (evaluate_outcomes d now m r (Some o) None doc options HL))).
  right. split.
  - eapply request_checks_pass; eauto. intros n Hn. now apply HN in Hn.
  - exists p, j, o. repeat split; auto. unfold token_checks. apply first_reports_cons. right.
    split; [exact HY|]. apply first_reports_cons. left. cbn [reports]. left. split; [exact HN|reflexivity].
Qed.

Lemma client_id_required d now m r offer asm doc opts resp c p j :
  lower_case_facts d -> eo_client_id opts = Some c ->
  evaluate_credential_request d now m r offer asm doc (Some opts) = Ok resp ->
  cr_proof r = Some p -> proof_token d (rp_jwt p) j -> b_iss (j_body j) = Some c.
Proof.
  intros HL HC HE HP HT. destruct (accepted_inv _ _ _ _ _ _ _ _ _ HL HE) as
    (_ & _ & o & p' & j' & n & doc' & kid & u & k & opts' & pop & _ & _ & _ & _ & _ & Ep & T & _ & _ & _ & HI & _).
  rewrite HP in Ep. injection Ep as <-. rewrite (proof_token_det _ _ _ _ HT T).
  unfold iss_allowed in HI. now rewrite HC in HI.
Qed.

Lemma no_client_iss_absent d now m r o asm doc opts resp p j :
  lower_case_facts d -> eo_client_id opts = None -> ~ only_pre_authorized o ->
  evaluate_credential_request d now m r (Some o) asm doc (Some opts) = Ok resp ->
  cr_proof r = Some p -> proof_token d (rp_jwt p) j -> b_iss (j_body j) = None.
Proof.
  intros HL HC HO HE HP HT. destruct (accepted_inv _ _ _ _ _ _ _ _ _ HL HE) as
    (_ & _ & o' & p' & j' & n & doc' & kid & u & k & opts' & pop & Eo & _ & _ & _ & _ & Ep & T & _ & _ & _ & HI & _).
  rewrite HP in Ep. injection Ep as <-. rewrite (proof_token_det _ _ _ _ HT T).
  injection Eo as <-. unfold iss_allowed in HI. rewrite HC in HI. tauto.
Qed.

Lemma iss_not_examined d now m r r' o asm doc options p p' j iss :
  client_id options = None -> only_pre_authorized o ->
  cr_format r = cr_format r' -> cr_proof r = Some p -> cr_proof r' = Some p' ->
  proof_token d (rp_jwt p) j -> proof_token d (rp_jwt p') (with_iss iss j) -> j_signature j <> None ->
  same_verdict (evaluate_credential_request d now m r (Some o) asm doc options)
               (evaluate_credential_request d now m r' (Some o) asm doc options).
Proof.
  intros HC HO EF HP HP' T T' HS. eapply verdict_congruent; eauto.
  right. intros o' [= <-]. apply free_iss; [|exact HO]. now destruct options.
Qed.

Lemma alg_not_examined d now m r r' offer asm doc options p p' j alg :
  cr_format r = cr_format r' -> cr_proof r = Some p -> cr_proof r' = Some p' ->
  proof_token d (rp_jwt p) j -> proof_token d (rp_jwt p') (with_alg alg j) -> j_signature j <> None ->
  same_verdict (evaluate_credential_request d now m r offer asm doc options)
               (evaluate_credential_request d now m r' offer asm doc options).
Proof. intros EF HP HP' T T' HS. eapply verdict_congruent; eauto. Qed.

Lemma window_not_examined d now m r r' offer asm doc options p p' j nbf exp :
  cr_format r = cr_format r' -> cr_proof r = Some p -> cr_proof r' = Some p' ->
  proof_token d (rp_jwt p) j -> proof_token d (rp_jwt p') (with_window nbf exp j) -> j_signature j <> None ->
  same_verdict (evaluate_credential_request d now m r offer asm doc options)
               (evaluate_credential_request d now m r' offer asm doc options).
Proof. intros EF HP HP' T T' HS. eapply verdict_congruent; eauto. Qed.

Lemma panic_exact d now m r offer asm doc options :
  lower_case_facts d ->
  (evaluate_credential_request d now m r offer asm doc options = Panic <->
   eval_panics d now m r offer asm doc options).
Proof. intros HL. exact (proj2 (proj2 (evaluate_outcomes d now m r offer asm doc options HL))). Qed.

Lemma nothing_else_panics :
  (forall m creds ep a p, create_offer m creds ep a p <> Panic)
  /\ (forall m l, resolve_all m l <> Panic)
  /\ (forall o, offer_url_encode o <> Panic)
  /\ (forall d r, pre_evaluate_credential_request d r <> Panic)
  /\ (forall d now r ct n, create_credential_success_response d now r ct n <> Panic)
  /\ (forall e ds u dt, create_credential_error_response e ds u dt <> Panic)
  /\ (forall r offer opts, evaluate_access_token_request r offer opts <> Panic)
  /\ (forall now t ty e sc n ne ap i, create_access_token_success_response now t ty e sc n ne ap i <> Panic)
  /\ (forall e ds u dt, create_access_token_error_response e ds u dt <> Panic)
  /\ (forall m, metadata_validate m <> Panic) /\ (forall d r, request_validate d r <> Panic)
  /\ (forall r, token_request_validate r <> Panic) /\ (forall t, token_success_validate t <> Panic)
  /\ (forall d s, jwt_from_str d s <> Panic) /\ (forall d j, jwt_try_into_string d j <> Panic)
  /\ (forall now j, jwt_verify now j <> Panic) /\ (forall d j, jwt_extract_did d j <> Panic)
  /\ (forall d j, jwt_extract_signature d j <> Panic) /\ (forall d j, jwt_to_signable_message d j <> Panic)
  /\ (forall j x, jwt_check_nonce j x <> Panic) /\ (forall j x, jwt_check_iss j x <> Panic)
  /\ (forall j x, jwt_check_aud j x <> Panic) /\ (forall d j, jwt_validate d j <> Panic).
Proof.
  repeat match goal with |- _ /\ _ => split end.
  all: intros.
  - apply create_offer_no_panic.
  - apply resolve_all_no_panic.
  - discriminate.
  - apply pre_evaluate_no_panic.
  - apply success_no_panic.
  - discriminate.
  - apply evaluate_no_panic.
  - discriminate.
  - discriminate.
  - apply metadata_no_panic.
  - apply request_validate_no_panic.
  - unfold token_request_validate. pose proof (TokenFacts.validate_no_panic (tr_grant_type r)).
    destruct (grant_type_validate (tr_grant_type r)) as [[]|e|]; cbn [bind]; easy.
  - unfold token_success_validate. destruct (_ && _); discriminate.
  - apply from_str_no_panic.
  - rewrite raw_text_eq. discriminate.
  - unfold jwt_verify. destruct (b_nbf (j_body j)) as [x|]; [destruct (now <? x)%Z|]; cbn [bind]; try discriminate.
    all: destruct (b_exp (j_body j)) as [y|]; [destruct (y <? now)%Z|]; cbn [bind]; discriminate.
  - apply extract_did_no_panic.
  - destruct (extract_signature_cases d j) as [(sig & E & _)|[E _]]; rewrite E; discriminate.
  - destruct (signable d j) as (msg & E & _). rewrite E. discriminate.
  - unfold jwt_check_nonce. destruct (opt_str_eqb _ _); discriminate.
  - unfold jwt_check_iss. destruct (opt_str_eqb _ _); discriminate.
  - unfold jwt_check_aud. destruct (str_eqb _ _); discriminate.
  - apply validate_no_panic.
Qed.

(* ---------------- keys ---------------- *)

Lemma returned_key d now m r offer asm doc options resp :
  lower_case_facts d ->
  evaluate_credential_request d now m r offer asm doc options = Ok resp ->
  exists p j kid doc' k pop,
    cr_proof r = Some p /\ proof_token d (rp_jwt p) j /\ h_additional (j_header j) = Some (KeyId kid)
    /\ doc = Some doc' /\ document_key d doc' kid k /\ er_pop resp = Some pop
    /\ public_key k (pop_public_key pop).
Proof.
  intros HL HE. destruct (accepted_inv _ _ _ _ _ _ _ _ _ HL HE) as
    (_ & _ & o & p & j & n & doc' & kid & u & k & opts & pop & H).
  exists p, j, kid, doc', k, pop. tauto.
Qed.

Lemma key_depends_on_kid_only d doc now m r offer asm options resp pop now' m' r' offer' asm' options' resp' pop'
    p p' j j' :
  lower_case_facts d ->
  evaluate_credential_request d now m r offer asm doc options = Ok resp ->
  evaluate_credential_request d now' m' r' offer' asm' doc options' = Ok resp' ->
  cr_proof r = Some p -> cr_proof r' = Some p' -> proof_token d (rp_jwt p) j -> proof_token d (rp_jwt p') j' ->
  h_additional (j_header j) = h_additional (j_header j') ->
  er_pop resp = Some pop -> er_pop resp' = Some pop' ->
  pop_public_key pop = pop_public_key pop'.
Proof.
  intros HL HE HE' HP HP' HT HT' HK HR HR'.
  destruct (returned_key _ _ _ _ _ _ _ _ _ HL HE) as (q & i & kid & doc' & k & pop1 & A1 & A2 & A3 & A4 & A5 & A6 & A7).
  destruct (returned_key _ _ _ _ _ _ _ _ _ HL HE') as (q' & i' & kid' & doc'' & k' & pop2 & B1 & B2 & B3 & B4 & B5 & B6 & B7).
  rewrite HP in A1. injection A1 as <-. rewrite HP' in B1. injection B1 as <-.
  rewrite <- (proof_token_det _ _ _ _ HT A2) in *. rewrite <- (proof_token_det _ _ _ _ HT' B2) in *.
  rewrite A6 in HR. injection HR as <-. rewrite B6 in HR'. injection HR' as <-.
  apply (proof_key_det d doc (Some (KeyId kid))).
  - exact (key_of_kid d doc doc' kid k _ A4 A5 A7).
  - assert (kid' = kid) as -> by (rewrite HK, B3 in A3; now injection A3).
    exact (key_of_kid d doc doc'' kid k' _ B4 B5 B7).
Qed.

Lemma other_keys_rejected d now m r offer asm doc options p j kid doc' k e :
  lower_case_facts d ->
  cr_proof r = Some p -> proof_token d (rp_jwt p) j -> h_additional (j_header j) = Some (KeyId kid) ->
  doc = Some doc' -> document_key d doc' kid k -> public_key_error k e ->
  (forall resp, evaluate_credential_request d now m r offer asm doc options <> Ok resp)
  /\ (forall o n, offer = Some o -> asm = None -> ids_distinct (im_credentials_supported m) ->
       nonce_options options n -> representable (nonce_expiry n) -> (now <= nonce_expiry n)%Z ->
       ascii_ci (h_typ (j_header j)) proof_typ -> b_nonce (j_body j) = cno_expected n ->
       iss_allowed options o (b_iss (j_body j)) -> b_aud (j_body j) = im_credential_issuer m ->
       evaluate_credential_request d now m r offer asm doc options = Err (IJwtError e)).
Proof.
  intros HL HP HT HK HD HDK HE. split.
  - intros resp H. destruct (returned_key _ _ _ _ _ _ _ _ _ HL H) as
      (q & i & kid' & doc'' & k' & pop & A1 & A2 & A3 & A4 & A5 & A6 & A7).
    rewrite HP in A1. injection A1 as <-. rewrite <- (proof_token_det _ _ _ _ HT A2) in *.
    rewrite HK in A3. injection A3 as <-. rewrite HD in A4. injection A4 as <-.
    destruct HDK as (u & vm & E1 & E2 & E3), A5 as (u' & vm' & E1' & E2' & E3').
    assert (k' = k) as -> by congruence.
    destruct (jwk_bytes k) as [J1 J2]. destruct (jwk_to_public_key_bytes k) as [b|e'|]; [|now apply J1 in A7|easy].
    exact (J2 b eq_refl e HE).
  - intros o n -> -> HI HN HR HX HY Hn Hi Ha.
    apply (proj1 (proj2 (evaluate_outcomes d now m r (Some o) None doc options HL))).
    right. split.
    + eapply request_checks_pass; eauto. intros n' H.
      apply nonce_options_bind in HN, H. rewrite HN in H. injection H as <-. auto.
    + exists p, j, o. repeat split; auto. unfold token_checks.
      apply first_reports_cons. right. split; [exact HY|].
      apply first_reports_cons. right. split; [exists n; auto|].
      apply first_reports_cons. right. split; [exact Hi|].
      apply first_reports_cons. right. split; [exact Ha|].
      apply first_reports_cons. left. cbn [reports]. exists e. split; [|reflexivity]. rewrite HK.
      eapply ke_kid_key; eassumption.
Qed.

Lemma only_kid d now m r offer asm doc options resp p j :
  lower_case_facts d -> cr_proof r = Some p -> proof_token d (rp_jwt p) j ->
  (forall kid, h_additional (j_header j) <> Some (KeyId kid)) ->
  evaluate_credential_request d now m r offer asm doc options <> Ok resp.
Proof.
  intros HL HP HT HK HE. destruct (returned_key _ _ _ _ _ _ _ _ _ HL HE) as
    (q & i & kid & doc' & k & pop & A1 & A2 & A3 & _).
  rewrite HP in A1. injection A1 as <-. rewrite <- (proof_token_det _ _ _ _ HT A2) in *. now apply HK in A3.
Qed.

(* ---------------- message and signature ---------------- *)

Lemma returned_message d now m r offer asm doc options resp p j :
  lower_case_facts d -> evaluate_credential_request d now m r offer asm doc options = Ok resp ->
  cr_proof r = Some p -> proof_token d (rp_jwt p) j ->
  exists pop, er_pop resp = Some pop /\ message_of (raw_text d j) (pop_message pop)
    /\ after_second_dot (raw_text d j) (pop_signature pop) /\ pop_algorithm pop = h_alg (j_header j).
Proof.
  intros HL HE HP HT. destruct (accepted_inv _ _ _ _ _ _ _ _ _ HL HE) as
    (_ & _ & o & p' & j' & n & doc' & kid & u & k & opts & pop & _ & _ & _ & _ & _ & Ep & T & _ & _ & _ & _ & _ & _ & _ & _ & E & A & _ & M & S & _).
  rewrite HP in Ep. injection Ep as <-. rewrite (proof_token_det _ _ _ _ HT T). exists pop. auto.
Qed.

Lemma never_signing_input d now m r offer asm doc options resp p j hs bs tail pop :
  lower_case_facts d -> evaluate_credential_request d now m r offer asm doc options = Ok resp ->
  cr_proof r = Some p -> proof_token d (rp_jwt p) j -> token_parts (rp_jwt p) hs bs tail ->
  er_pop resp = Some pop -> pop_message pop <> hs ++ lit "." ++ bs.
Proof.
  intros HL HE HP HT HS HR. destruct (returned_message _ _ _ _ _ _ _ _ _ _ _ HL HE HP HT) as (pop' & E & M & _).
  rewrite HR in E. injection E as <-. eapply not_signing_input; eassumption.
Qed.

Lemma signature_iff_dotless d now m r offer asm doc options resp p j sig pop :
  lower_case_facts d -> evaluate_credential_request d now m r offer asm doc options = Ok resp ->
  cr_proof r = Some p -> proof_token d (rp_jwt p) j -> j_signature j = Some sig -> er_pop resp = Some pop ->
  (pop_signature pop = sig <->
   dotless (header_to_json (j_header j)) /\ dotless (claims_to_json d (j_body j))).
Proof.
  intros HL HE HP HT HS HR. destruct (returned_message _ _ _ _ _ _ _ _ _ _ _ HL HE HP HT) as (pop' & E & _ & S & _).
  rewrite HR in E. injection E as <-. rewrite <- (signature_segment d j sig HS). split.
  - now intros <-.
  - intros H. eapply after_second_dot_det; eassumption.
Qed.

Lemma unsigned_iff_dots d now m r offer asm doc options resp p j :
  lower_case_facts d -> evaluate_credential_request d now m r offer asm doc options = Ok resp ->
  cr_proof r = Some p -> proof_token d (rp_jwt p) j -> j_signature j = None ->
  ~ (dotless (header_to_json (j_header j)) /\ dotless (claims_to_json d (j_body j))).
Proof.
  intros HL HE HP HT HS. destruct (returned_message _ _ _ _ _ _ _ _ _ _ _ HL HE HP HT) as (pop' & E & _ & S & _).
  apply unsigned_exact; eauto.
Qed.

(** In the message case that signatures care about. *)
Lemma dotless_message d j sig :
  j_signature j = Some sig -> dotless sig ->
  dotless (header_to_json (j_header j)) -> dotless (claims_to_json d (j_body j)) ->
  message_of (raw_text d j) (header_to_json (j_header j) ++ lit "." ++ claims_to_json d (j_body j)).
Proof.
  intros HS H0 H1 H2. left. exists (header_to_json (j_header j)), (claims_to_json d (j_body j)), sig.
  unfold raw_text. rewrite HS. repeat split; auto.
Qed.

(* ---------------- proof_type ---------------- *)

Lemma bad_proof_type d r p :
  upper_case_facts d -> cr_proof r = Some p -> rust_string (rp_proof_type p) ->
  ~ ascii_ci (rp_proof_type p) (lit "jwt") ->
  pre_evaluate_credential_request d r = Err (IValidationError proof_type_error)
  /\ forall now ct n, create_credential_success_response d now r ct n = Err (IValidationError proof_type_error).
Proof.
  intros HU HP HT HN. rewrite <- ascii_ci_jwt in HN.
  assert (request_validate d r = Err proof_type_error) as E.
  { unfold request_validate, proof_validate. rewrite HP.
    pose proof (proof_type_check d (rp_proof_type p) HU HT) as HC.
    destruct (str_eqb _ _) eqn:E; [|reflexivity]. apply str_eqb_eq, HC in E. easy. }
  unfold pre_evaluate_credential_request, create_credential_success_response. rewrite E. split; reflexivity.
Qed.

Lemma good_proof_type d c p :
  upper_case_facts d -> rust_string (rp_proof_type p) -> ascii_ci (rp_proof_type p) (lit "jwt") ->
  let r := {| cr_format := c; cr_proof := Some p |} in
  let r' := {| cr_format := c; cr_proof := Some {| rp_proof_type := lit "jwt"; rp_jwt := rp_jwt p |} |} in
  pre_evaluate_credential_request d r = pre_evaluate_credential_request d r'
  /\ forall now ct n, create_credential_success_response d now r ct n
                       = create_credential_success_response d now r' ct n.
Proof.
  intros HU HT HC r r'.
  assert (request_validate d r = request_validate d r') as E.
  { unfold request_validate, r, r', proof_validate. change jwt_proof_type with (lit "JWT"). cbn [cr_proof rp_proof_type rp_jwt].
    pose proof (proof_type_check d (rp_proof_type p) HU HT) as H1.
    pose proof (proof_type_check d (lit "jwt") HU (rust_string_ascii (lit "jwt") eq_refl)) as H2.
    rewrite (proj2 (str_eqb_eq _ _) (proj2 H1 (proj2 (ascii_ci_jwt _) HC))).
    assert (ascii_ci (lit "jwt") (lit "JWT")) as H3.
    { apply ascii_ci_jwt. unfold ascii_ci. clear. induction (lit "jwt"); constructor; [now left|assumption]. }
    now rewrite (proj2 (str_eqb_eq _ _) (proj2 H2 H3)). }
  unfold pre_evaluate_credential_request, create_credential_success_response. rewrite E. split; reflexivity.
Qed.

Lemma message_determined t :
  (forall x y, message_of t x -> message_of t y -> x = y)
  /\ (forall x y, after_second_dot t x -> after_second_dot t y -> x = y)
  /\ exists x, message_of t x.
Proof.
  split; [apply message_of_det|]. split; [apply after_second_dot_det|].
  destruct (Nat.eq_dec (count "."%char t) 2) as [E|E].
  - apply two_dots_count in E. destruct E as [f H]. exists f. now left.
  - exists t. right. split; [now rewrite two_dots_count|reflexivity].
Qed.

Lemma unsigned_dotless_rejected d now m r offer asm doc options resp p j :
  lower_case_facts d -> cr_proof r = Some p -> proof_token d (rp_jwt p) j -> j_signature j = None ->
  dotless (header_to_json (j_header j)) -> dotless (claims_to_json d (j_body j)) ->
  evaluate_credential_request d now m r offer asm doc options <> Ok resp.
Proof. intros HL HP HT HS H1 H2 HE. now apply (unsigned_iff_dots _ _ _ _ _ _ _ _ _ _ _ HL HE HP HT HS). Qed.

Lemma keys_covered k : (exists bytes, public_key k bytes) \/ exists e, public_key_error k e.
Proof.
  destruct (jwk_bytes k) as [J _]. destruct (jwk_to_public_key_bytes k) as [b|e|]; [left|right|easy].
  - exists b. now apply J.
  - exists e. now apply J.
Qed.

Definition letter_eqb (a b : ascii) : bool :=
  Ascii.eqb a b
  || ((65 <=? code a) && (code a <=? 90) && (code b =? code a + 32))
  || ((65 <=? code b) && (code b <=? 90) && (code a =? code b + 32)).
Lemma same_ascii_ci s t :
  (Nat.eqb (List.length s) (List.length t) && forallb (fun p => letter_eqb (fst p) (snd p)) (combine s t))%bool = true ->
  ascii_ci s t.
Proof.
  revert t. induction s as [|a s IH]; intros [|b t]; cbn [List.length Nat.eqb combine forallb andb fst snd]; try discriminate.
  - constructor.
  - intros H. apply andb_true_iff in H. destruct H as [HL H]. apply andb_true_iff in H. destruct H as [H HF].
    constructor; [|apply IH; now rewrite HL, HF].
    unfold letter_eqb in H. unfold same_letter, upper_letter.
    destruct (Ascii.eqb a b) eqn:E; [apply Ascii.eqb_eq in E; now left|]. cbn [orb] in H. right. lia.
Qed.

Lemma ascii_ci_length s t : ascii_ci s t -> List.length s = List.length t.
Proof. induction 1; cbn; congruence. Qed.

(** With a dot in the header or the claims, an unsigned token is evaluated like a
    signed one. *)
Lemma unsigned_like_signed d now m r r' offer asm doc options p p' j sig :
  cr_format r = cr_format r' -> cr_proof r = Some p -> cr_proof r' = Some p' ->
  proof_token d (rp_jwt p) j -> proof_token d (rp_jwt p') (with_signature (Some sig) j) ->
  ~ (dotless (header_to_json (j_header j)) /\ dotless (claims_to_json d (j_body j))) ->
  same_verdict (evaluate_credential_request d now m r offer asm doc options)
               (evaluate_credential_request d now m r' offer asm doc options).
Proof.
  intros EF HP HP' T T' N. eapply verdict_congruent_gen; eauto.
  - destruct (j_signature j) as [s|] eqn:E.
    + destruct (extract_signature_cases d j) as [(x & _ & H)|[_ H]]; [eauto|exfalso; apply H].
      apply raw_signed. congruence.
    + now apply unsigned_exact.
  - destruct (extract_signature_cases d (with_signature (Some sig) j)) as [(x & _ & H)|[_ H]];
      [eauto|exfalso; now apply H, raw_signed].
Qed.
