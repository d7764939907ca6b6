(** Consequences of the description of the evaluation in EvalFacts.v. *)
From Coq Require Import Lia ZifyBool ZifyN ZifyNat.
From Verif Require Import Model.Prelude Model.Utf8 Model.Base64 Model.Json Model.Types Model.Deps
  Model.Serde Model.Errors Model.Jwt Model.AccessToken Model.CredentialIssuer Model.Wire
  Spec SpecToken SpecOffer SpecJwt SpecEvaluation
  Proofs.StrFacts Proofs.Utf8Facts Proofs.Base64Facts Proofs.Base64Bits Proofs.JsonFacts
  Proofs.ReaderFacts Proofs.SerdeFacts Proofs.TokenFacts Proofs.OfferFacts Proofs.JwtFacts Proofs.EvalFacts.

(* ---------------- request validation ---------------- *)

Lemma ascii_ci_jwt s : ascii_ci s (lit "JWT") <-> ascii_ci s (lit "jwt").
Proof.
  assert (forall a u l, code l = code u + 32 -> upper_letter u -> same_letter a u <-> same_letter a l) as K.
  { intros a u l El Hu. unfold same_letter, upper_letter in *. split.
    - intros [->|[[H1 H2]|[H1 H2]]]; [right; left; lia|lia|]. left. apply code_inj. lia.
    - intros [->|[[H1 H2]|[H1 H2]]]; [right; right; lia| |lia]. left. apply code_inj. lia. }
  assert (forall (P Q : ascii -> ascii -> Prop), True) as _ by auto.
  change (lit "JWT") with ["J"%char; "W"%char; "T"%char].
  change (lit "jwt") with ["j"%char; "w"%char; "t"%char].
  unfold ascii_ci. split; intros H.
  - inversion H as [|a ? ? ? H1 H']; subst. inversion H' as [|b ? ? ? H2 H'']; subst.
    inversion H'' as [|c ? ? ? H3 H''']; subst. inversion H'''; subst.
    constructor; [eapply (K _ "J"%char); [reflexivity| |exact H1]; now vm_compute|].
    constructor; [eapply (K _ "W"%char); [reflexivity| |exact H2]; now vm_compute|].
    constructor; [eapply (K _ "T"%char); [reflexivity| |exact H3]; now vm_compute|]. constructor.
  - inversion H as [|a ? ? ? H1 H']; subst. inversion H' as [|b ? ? ? H2 H'']; subst.
    inversion H'' as [|c ? ? ? H3 H''']; subst. inversion H'''; subst.
    constructor; [eapply (K _ "J"%char "j"%char); [reflexivity| |exact H1]; now vm_compute|].
    constructor; [eapply (K _ "W"%char "w"%char); [reflexivity| |exact H2]; now vm_compute|].
    constructor; [eapply (K _ "T"%char "t"%char); [reflexivity| |exact H3]; now vm_compute|]. constructor.
Qed.

Lemma proof_chain d p :
  lower_case_facts d -> upper_case_facts d -> rust_string (rp_proof_type p) ->
  chain (proof_checks d p) (map_err IValidationError (proof_validate d p)).
Proof.
  intros HL HU HT. unfold proof_checks.
  assert (map_err IValidationError (proof_validate d p) =
    (let? _ := (if negb (str_eqb (to_uppercase (upper_table d) (rp_proof_type p)) (lit "JWT"))
                then Err (IValidationError proof_type_error) else Ok tt) in
     let? j := map_err IValidationError (jwt_from_str d (rp_jwt p)) in
     let? _ := map_err IValidationError (jwt_validate d j) in Ok tt)) as ->.
  { unfold proof_validate. destruct (negb _); cbn [bind map_err]; [reflexivity|].
    destruct (jwt_from_str d (rp_jwt p)) as [j|e|]; cbn [bind map_err]; try reflexivity.
    now destruct (jwt_validate d j) as [[]|e|]. }
  pose proof (proof_type_check d (rp_proof_type p) HU HT) as HC. rewrite ascii_ci_jwt in HC.
  apply chain_bind.
  { destruct (str_eqb (to_uppercase (upper_table d) (rp_proof_type p)) (lit "JWT")) eqn:E; cbn [negb step].
    - apply str_eqb_eq, HC in E. cbn. split; [exact E|]. split; [|easy]. intros e [N _]. auto.
    - apply str_eqb_neq in E. cbn. split; [tauto|]. split; [|easy]. intros e'. tauto. }
  intros _ _. apply chain_bind.
  { destruct (jwt_from_str d (rp_jwt p)) as [j|e|] eqn:E; cbn.
    - split; [exists j; now apply proof_token_iff|]. split; [|easy].
      intros e (v & H & _). apply from_str_err in H. congruence.
    - split; [intros (j & H); apply proof_token_iff in H; congruence|]. split; [|easy].
      intros e'. split.
      + intros (v & H & ->). apply from_str_err in H. congruence.
      + intros ->. exists e. split; [now apply from_str_err|reflexivity].
    - now apply from_str_no_panic in E. }
  intros j Hj. apply chain_bind; [|intros; apply chain_nil].
  assert (proof_token d (rp_jwt p) j) as T.
  { apply proof_token_iff. destruct (jwt_from_str d (rp_jwt p)) as [j'|e|]; cbn in Hj; try discriminate.
    apply ok_inj in Hj. now subst. }
  destruct (typ_exact d j HL (proj1 (token_header_ok _ _ _ T))) as [H1 H2]. fold proof_typ in H1, H2.
  assert (forall j', proof_token d (rp_jwt p) j' -> j' = j) as U.
  { intros j' Hj'. eapply proof_token_det; eassumption. }
  destruct (jwt_validate d j) as [[]|e|] eqn:E; cbn.
  - split; [exists j; split; [exact T|now apply H1]|]. split; [|easy].
    intros e (j' & Hj' & N & _). apply U in Hj'. subst. apply N. now apply H1.
  - assert (~ ascii_ci (h_typ (j_header j)) proof_typ) as N by (intros H; apply H1 in H; discriminate).
    split; [intros (j' & Hj' & H); apply U in Hj'; now subst|]. split; [|easy].
    intros e'. specialize (H2 N). injection H2 as ->. split.
    + intros (j' & Hj' & _ & ->). reflexivity.
    + intros ->. exists j. auto.
  - assert (~ ascii_ci (h_typ (j_header j)) proof_typ) as N by (intros H; apply H1 in H; discriminate).
    specialize (H2 N). discriminate.
Qed.

Lemma request_validate_outcomes d r :
  lower_case_facts d -> upper_case_facts d -> on_some (fun p => rust_string (rp_proof_type p)) (cr_proof r) ->
  (map_err IValidationError (request_validate d r) = Ok tt <-> valid_request d r)
  /\ (forall e, map_err IValidationError (request_validate d r) = Err e <-> request_error d r e)
  /\ map_err IValidationError (request_validate d r) <> Panic.
Proof.
  intros HL HU HT. unfold request_validate, valid_request, request_error.
  destruct (cr_proof r) as [p|] eqn:Ep; cbn [bind map_err].
  - pose proof (proof_chain d p HL HU (HT p eq_refl)) as C.
    destruct (proof_validate d p) as [[]|e|]; cbn [bind map_err chain] in *; destruct C as (P & R & N).
    + split; [split; [intros _ p' [= <-]; exact P|reflexivity]|]. split; [|discriminate].
      intros e. split; [discriminate|]. intros (p' & [= <-] & H). now apply R in H.
    + split; [split; [discriminate|]|].
      { intros H. specialize (H p eq_refl). tauto. }
      split; [|discriminate]. intros e'. split.
      * intros [= <-]. exists p. split; [reflexivity|]. now apply R.
      * intros (p' & [= <-] & H). apply R in H. now subst.
    + destruct N as (before & c & after & E & _ & Hp). exfalso.
      unfold proof_checks in E.
      destruct before as [|? [|? [|? before]]]; injection E; intros; subst; cbn in Hp; try easy.
      destruct before; discriminate.
  - split; [split; [intros _ p' [=]|reflexivity]|]. split; [|discriminate].
    intros e. split; [discriminate|]. intros (p' & [=] & _).
Qed.

Lemma first_reports_app l1 l2 e :
  first_reports (l1 ++ l2) e <-> first_reports l1 e \/ (Forall passes l1 /\ first_reports l2 e).
Proof.
  induction l1 as [|c l1 IH]; cbn [app].
  - split; [right; split; [constructor|assumption]|].
    intros [([|? ?] & x & after & E & _)|[_ H]]; try discriminate. exact H.
  - rewrite !first_reports_cons, IH. split.
    + intros [H|[P [H|[F H]]]]; auto.
    + intros [[H|[P H]]|[F H]]; auto. inversion F; subst. auto.
Qed.

Lemma pre_evaluate_outcomes d r :
  lower_case_facts d -> upper_case_facts d -> on_some (fun p => rust_string (rp_proof_type p)) (cr_proof r) ->
  (forall did, pre_evaluate_credential_request d r = Ok did <-> pre_answer d r did)
  /\ (forall e, pre_evaluate_credential_request d r = Err e <-> pre_error d r e).
Proof.
  intros HL HU HT. pose proof (request_validate_outcomes d r HL HU HT) as (V1 & V2 & V3).
  unfold pre_evaluate_credential_request, pre_answer, pre_error.
  destruct (map_err IValidationError (request_validate d r)) as [[]|e|]; [| |easy]; cbn [bind].
  - assert (valid_request d r) as V by now apply V1. clear V1 V3.
    destruct (cr_proof r) as [p|] eqn:Ep.
    + specialize (V p Ep). unfold proof_checks in V.
      inversion V as [|? ? _ V']; subst. inversion V' as [|? ? HJ V'']; subst.
      inversion V'' as [|? ? HJ' _]; subst. cbn [passes] in HJ, HJ'.
      destruct HJ as (j & Hj), HJ' as (j' & Hj' & Ht).
      assert (j' = j) as -> by (eapply proof_token_det; eassumption).
      clear Hj'. pose proof Hj as E. apply proof_token_iff in E. rewrite E. cbn [map_err bind].
      destruct (typ_exact d j HL (proj1 (token_header_ok _ _ _ Hj))) as [T1 _]. fold proof_typ in T1.
      rewrite (proj2 T1 Ht). cbn [map_err bind].
      assert (forall j', proof_token d (rp_jwt p) j' -> j' = j) as U.
      { intros j'' H. eapply proof_token_det; eassumption. }
      destruct (did_cases d j) as [HD HD2]. split.
      * intros did. split.
        -- destruct (jwt_extract_did d j) as [did'|e|]; cbn [map_err]; try discriminate.
           intros H. apply ok_inj in H. subst did'. right. exists p, j. repeat split; auto. now apply HD.
        -- intros [[H _]|(p' & j'' & [= <-] & _ & H1 & H2)]; [discriminate|]. apply U in H1. subst j''.
           destruct (jwt_extract_did d j) as [did'|e|]; cbn [map_err]; [apply HD in H2; now subst| |easy].
           destruct HD as [HN _]. now apply HN in H2.
      * intros e. split.
        -- destruct (jwt_extract_did d j) as [did'|e'|]; cbn [map_err]; try discriminate.
           intros [= <-]. exists p. split; [reflexivity|]. apply first_reports_app. right. split; [exact V|].
           apply first_reports_cons. left. exists j, e'. repeat split; auto. now apply HD.
        -- intros (p' & [= <-] & H). apply first_reports_app in H. destruct H as [H|[_ H]].
           ++ assert (request_error d r e) as RE by (exists p; auto). apply V2 in RE. discriminate.
           ++ apply first_reports_cons in H. destruct H as [(j'' & v & H1 & H2 & ->)|[_ ([|? ?] & x & after & E' & _)]];
                try discriminate. apply U in H1. subst j''.
              destruct (jwt_extract_did d j) as [did'|e'|]; cbn [map_err]; [|apply HD in H2; now subst|easy].
              exfalso. eapply HD2; [reflexivity|exact H2].
    + split.
      * intros did. split; [intros H; apply ok_inj in H; auto|]. intros [[_ ->]|(p & j & [=] & _)]. reflexivity.
      * intros e. split; [discriminate|]. intros (p & [=] & _).
  - assert (request_error d r e) as RE by now apply V2.
    assert (~ valid_request d r) as NV by (intros H; apply V1 in H; discriminate).
    split.
    + intros did. split; [discriminate|]. intros [[H _]|(p & j & H & F & _)].
      * destruct RE as (p & H' & _). congruence.
      * exfalso. apply NV. intros p' H'. rewrite H in H'. now injection H' as <-.
    + intros e'. split.
      * intros [= <-]. destruct RE as (p & H & F). exists p. split; [exact H|]. apply first_reports_app. now left.
      * intros (p & H & F). apply first_reports_app in F. destruct F as [F|[F _]].
        -- assert (request_error d r e') as RE' by (exists p; auto). apply V2 in RE'. injection RE' as ->. reflexivity.
        -- exfalso. apply NV. intros p' H'. rewrite H in H'. now injection H' as <-.
Qed.

Lemma validate_no_panic d j : jwt_validate d j <> Panic.
Proof. unfold jwt_validate, header_validate. destruct (negb _); discriminate. Qed.

Lemma request_validate_no_panic d r : request_validate d r <> Panic.
Proof.
  unfold request_validate, proof_validate. destruct (cr_proof r) as [p|]; [|discriminate].
  destruct (negb _); [discriminate|]. pose proof (from_str_no_panic d (rp_jwt p)).
  destruct (jwt_from_str d (rp_jwt p)) as [j|e|]; cbn [bind]; try discriminate; try easy.
  pose proof (validate_no_panic d j). destruct (jwt_validate d j) as [[]|e|]; cbn [bind]; easy.
Qed.

Lemma extract_did_no_panic d j : jwt_extract_did d j <> Panic.
Proof.
  unfold jwt_extract_did. destruct (h_additional (j_header j)) as [[kid|s|s]|]; try discriminate.
  destruct (did_url_try_from d kid); discriminate.
Qed.

Lemma pre_evaluate_no_panic d r : pre_evaluate_credential_request d r <> Panic.
Proof.
  unfold pre_evaluate_credential_request. pose proof (request_validate_no_panic d r).
  destruct (request_validate d r) as [[]|e|]; cbn [map_err bind]; try discriminate; try easy.
  destruct (cr_proof r) as [p|]; [|discriminate]. pose proof (from_str_no_panic d (rp_jwt p)).
  destruct (jwt_from_str d (rp_jwt p)) as [j|e|]; cbn [map_err bind]; try discriminate; try easy.
  pose proof (validate_no_panic d j). destruct (jwt_validate d j) as [[]|e|]; cbn [map_err bind]; try discriminate; try easy.
  pose proof (extract_did_no_panic d j). destruct (jwt_extract_did d j); easy.
Qed.

Lemma success_no_panic d now r ct n : create_credential_success_response d now r ct n <> Panic.
Proof.
  unfold create_credential_success_response. pose proof (request_validate_no_panic d r).
  destruct (request_validate d r) as [[]|e|]; cbn [map_err bind]; try discriminate; try easy.
  destruct ct as [[c|t]|]; cbn [bind]; try discriminate. destruct c; discriminate.
Qed.

(* ---------------- accepted requests ---------------- *)

(** What success means, spelled out. *)
Lemma accepted_inv d now m r offer asm doc options resp :
  lower_case_facts d ->
  evaluate_credential_request d now m r offer asm doc options = Ok resp ->
  ids_distinct (im_credentials_supported m) /\ asm = None
  /\ exists o p j n doc' kid u k opts pop,
       offer = Some o /\ options = Some opts /\ eo_c_nonce opts = Some n
       /\ (now <= nonce_expiry n)%Z /\ representable (nonce_expiry n)
       /\ cr_proof r = Some p /\ proof_token d (rp_jwt p) j
       /\ ascii_ci (h_typ (j_header j)) (lit "openid4vci-proof+jwt")
       /\ b_nonce (j_body j) = cno_expected n
       /\ b_aud (j_body j) = im_credential_issuer m
       /\ iss_allowed options o (b_iss (j_body j))
       /\ h_additional (j_header j) = Some (KeyId kid) /\ did_url_try_from d kid = inr u
       /\ doc = Some doc' /\ document_key d doc' kid k
       /\ er_pop resp = Some pop /\ pop_algorithm pop = h_alg (j_header j)
       /\ public_key k (pop_public_key pop)
       /\ message_of (raw_text d j) (pop_message pop)
       /\ after_second_dot (raw_text d j) (pop_signature pop)
       /\ er_subject_id resp = Some (du_did u) /\ er_credential resp = cr_format r.
Proof.
  intros HL H. apply (proj1 (evaluate_outcomes d now m r offer asm doc options HL)) in H.
  destruct H as (F & p & j & o & key & msg & sig & did & Hp & Ht & Ho & TF & K1 & K2 & K3 & K4 & R1 & R2 & R3).
  unfold request_checks in F. unfold token_checks in TF.
  repeat match goal with
  | X : Forall passes (_ :: _) |- _ => inversion X; clear X; subst
  | X : Forall passes [] |- _ => clear X
  end. cbn [passes] in *.
  match goal with X : exists n, nonce_options options n /\ _ |- _ =>
    destruct X as (n & Hn & En); rename Hn into HN end.
  match goal with X : forall n, nonce_options options n -> _ |- _ => destruct (X n HN) as [HR HE] end.
  destruct HN as (opts & -> & HN).
  split; [assumption|]. split; [assumption|].
  inversion K1 as [doc' kid k ? D DK PK E1|t k ? J PK E1]; subst.
  - rewrite <- E1 in K2. inversion K2 as [|? u Hu]; subst.
    eexists o, p, j, n, doc', kid, u, k, opts, _. rewrite R3. cbn [pop_algorithm pop_public_key pop_message pop_signature].
    repeat split; auto; try apply HR.
  - rewrite <- E1 in K2. inversion K2.
Qed.

Lemma metadata_no_panic m : metadata_validate m <> Panic.
Proof. destruct (metadata_validate_cases m) as [[_ ->]|[_ ->]]; discriminate. Qed.

Lemma evaluate_no_panic_if d now m r offer asm doc options :
  (forall n, nonce_options options n -> representable (nonce_expiry n)) ->
  (forall doc' u, doc = Some doc' -> select_object d doc' u <> inr ROther) ->
  evaluate_credential_request d now m r offer asm doc options <> Panic.
Proof.
  intros HN HS. rewrite evaluate_split.
  assert (request_part d now m r offer asm options <> Panic) as HR.
  { intros E. pose proof (request_chain d now m r offer asm options) as C. rewrite E in C.
    destruct C as (_ & _ & before & c & after & E' & _ & P). unfold request_checks in E'.
    destruct before as [|? [|? [|? [|? [|? [|? before]]]]]]; injection E'; intros; subst; cbn in P; try easy.
    - destruct P as (n & H1 & H2). now apply H2, HN.
    - destruct before; discriminate. }
  destruct (request_part d now m r offer asm options) as [[j o]|e|]; cbn [bind fst snd]; try discriminate; try easy.
  unfold token_part. pose proof (validate_no_panic d j).
  destruct (jwt_validate d j) as [[]|e|]; cbn [map_err bind]; try discriminate; try easy.
  unfold jwt_check_nonce. destruct (opt_str_eqb _ _); cbn [map_err bind]; try discriminate.
  unfold jwt_check_iss. destruct (if should_validate_iss options o then _ else _) as [[]|e|] eqn:Ei; cbn [bind]; try discriminate.
  2: { exfalso. destruct (should_validate_iss options o); [|discriminate]. destruct (opt_str_eqb _ _) in Ei; discriminate. }
  unfold jwt_check_aud. destruct (str_eqb _ _); cbn [map_err bind]; try discriminate.
  destruct (key_step d (j_header j) doc) as [K _].
  destruct (header_extract_key_and_alg d (j_header j) doc) as [ka|e|]; cbn [map_err bind]; try discriminate.
  2: { destruct K as (_ & _ & kid & u & doc' & _ & _ & Hd & Hs). exfalso. eapply HS; eassumption. }
  destruct (extract_signature_cases d j) as [(sig & E & _)|[E _]]; rewrite E; cbn [map_err bind]; try discriminate.
  destruct (signable d j) as (msg & E2 & _). rewrite E2. cbn [map_err bind].
  pose proof (extract_did_no_panic d j). destruct (jwt_extract_did d j); cbn [map_err bind]; easy.
Qed.

(* ---------------- clock ---------------- *)

Lemma expiry_exact d now m r offer asm doc options a b :
  evaluate_credential_request d now m r offer asm doc options = Err (ICNonceIsExpired a b) <->
  ids_distinct (im_credentials_supported m) /\ offer <> None /\ asm = None
  /\ exists n, nonce_options options n /\ representable (nonce_expiry n) /\ (nonce_expiry n < now)%Z
     /\ a = now /\ b = nonce_expiry n.
Proof.
  rewrite evaluate_split. pose proof (request_chain d now m r offer asm options) as C.
  assert (forall A (x : res issuer_error A), chain (request_checks d now m r offer asm options) x ->
    x = Err (ICNonceIsExpired a b) <->
    ids_distinct (im_credentials_supported m) /\ offer <> None /\ asm = None
    /\ exists n, nonce_options options n /\ representable (nonce_expiry n) /\ (nonce_expiry n < now)%Z
       /\ a = now /\ b = nonce_expiry n) as K.
  { intros A x Cx.
    assert (x = Err (ICNonceIsExpired a b) <->
            first_reports (request_checks d now m r offer asm options) (ICNonceIsExpired a b)) as ->.
    { destruct x as [y|e|]; destruct Cx as (_ & R & _).
      - split; [discriminate|]. intros H. now apply R in H.
      - rewrite R. split; [now intros [= ->]|now intros ->].
      - split; [discriminate|]. intros H. now apply R in H. }
    unfold request_checks. rewrite !first_reports_cons. cbn [passes reports]. split.
    - intros [[_ H]|[H1 [[_ H]|[H2 [[_ H]|[H3 [H|[_ [[_ H]|[_ [H|[_ H]]]]]]]]]]]]; try discriminate.
      + destruct H as (n & Hn & HR & HE & [= -> ->]). repeat split; auto. exists n. auto.
      + destruct H as (p & v & _ & _ & H). discriminate.
      + destruct H as ([|? ?] & x' & after & E & _); discriminate.
    - intros (H1 & H2 & H3 & n & Hn & HR & HE & -> & ->). right. split; [exact H1|]. right. split; [exact H2|].
      right. split; [exact H3|]. left. exists n. auto. }
  destruct (request_part d now m r offer asm options) as [[j o]|e|] eqn:E; cbn [bind fst snd].
  - split.
    + intros H. exfalso. revert H. unfold token_part.
      destruct (jwt_validate d j) as [[]|e|]; cbn [map_err bind]; try discriminate.
      destruct (jwt_check_nonce j _) as [[]|e|]; cbn [map_err bind]; try discriminate.
      assert ((if should_validate_iss options o
               then map_err IJwtError (jwt_check_iss j (opt_bind options eo_client_id)) else Ok tt)
              <> Err (ICNonceIsExpired a b)) as NI.
      { destruct (should_validate_iss options o); [|discriminate].
        destruct (jwt_check_iss j _) as [[]|e|]; discriminate. }
      destruct (if should_validate_iss options o then _ else _) as [[]|e|]; cbn [bind]; try discriminate; [|congruence].
      destruct (jwt_check_aud j _) as [[]|e|]; cbn [map_err bind]; try discriminate.
      destruct (header_extract_key_and_alg d (j_header j) doc) as [ka|e|]; cbn [map_err bind]; try discriminate.
      destruct (jwt_extract_signature d j) as [sig|e|]; cbn [map_err bind]; try discriminate.
      destruct (jwt_to_signable_message d j) as [msg|e|]; cbn [map_err bind]; try discriminate.
      destruct (jwt_extract_did d j) as [did|e|]; cbn [map_err bind]; discriminate.
    + intros H. apply (K _ _ C) in H. discriminate.
  - apply (K _ _) in C. rewrite <- C. split; intros [= ->]; reflexivity.
  - apply (K _ _) in C. rewrite <- C. split; discriminate.
Qed.

Lemma expiry_later d now now' m r offer asm doc options t x :
  evaluate_credential_request d now m r offer asm doc options = Err (ICNonceIsExpired t x) ->
  (now <= now')%Z ->
  evaluate_credential_request d now' m r offer asm doc options = Err (ICNonceIsExpired now' x).
Proof.
  rewrite !expiry_exact. intros (H1 & H2 & H3 & n & Hn & HR & HE & -> & ->) L.
  repeat split; auto. exists n. repeat split; auto; try apply HR. lia.
Qed.

Lemma evaluate_clock d now now' m r offer asm doc options :
  check_nonce_expiry now options = Ok tt -> check_nonce_expiry now' options = Ok tt ->
  evaluate_credential_request d now' m r offer asm doc options
  = evaluate_credential_request d now m r offer asm doc options.
Proof. intros H H'. rewrite !evaluate_split. unfold request_part. now rewrite H, H'. Qed.

Lemma success_earlier d now now' m r offer asm doc options resp :
  evaluate_credential_request d now m r offer asm doc options = Ok resp ->
  (now' <= now)%Z ->
  evaluate_credential_request d now' m r offer asm doc options = Ok resp.
Proof.
  intros H L.
  assert (check_nonce_expiry now options = Ok tt) as E.
  { rewrite evaluate_split in H. unfold request_part in H.
    destruct (metadata_validate m) as [[]|e|]; cbn [map_err bind] in H; try discriminate.
    destruct offer as [o|]; cbn [ok_or bind] in H; try discriminate.
    destruct asm; cbn [bind] in H; try discriminate.
    now destruct (check_nonce_expiry now options) as [[]|e|]. }
  rewrite <- H. apply evaluate_clock; [exact E|].
  unfold check_nonce_expiry in *. destruct (opt_bind options eo_c_nonce) as [n|]; [|reflexivity].
  destruct (add_seconds (cno_created_at n) (cno_expires_in n)) as [x|e|]; cbn [bind] in *; try discriminate.
  destruct (x <? now)%Z eqn:E1; [discriminate|]. destruct (x <? now')%Z eqn:E2; [lia|reflexivity].
Qed.

(* ---------------- tokens that differ in unexamined parts ---------------- *)

Lemma raw_signed d j : j_signature j <> None -> exists sig, after_second_dot (raw_text d j) sig.
Proof.
  intros H. destruct (splitn3 (raw_text d j)) as [(sig & _ & S)|[_ N]]; [eauto|].
  exfalso. apply N. unfold raw_text. destruct (j_signature j) as [s|]; [|easy].
  assert (forall (x y z : str), exists sig, after_second_dot (x ++ lit "." ++ y ++ lit "." ++ z) sig) as K.
  { intros x y z. destruct (splitn3 (x ++ lit "." ++ y ++ lit "." ++ z)) as [(sig & _ & S)|[E _]]; [eauto|].
    exfalso. cbn [splitn_on] in E.
    destruct (cut "."%char (x ++ lit "." ++ y ++ lit "." ++ z)) as [[a r]|] eqn:C.
    - destruct (cut "."%char r) as [[b c]|] eqn:C2; [discriminate|].
      apply cut_some in C. destruct C as [C Ha]. apply cut_none in C2. apply count_zero in Ha, C2.
      apply (f_equal (count "."%char)) in C. rewrite !count_app in C. cbn [count] in C.
      rewrite ascii_eqb_refl, C2, Ha in C. change (count "." (lit ".")) with 1%nat in C. lia.
    - apply cut_none, count_zero in C. rewrite !count_app in C.
      change (count "." (lit ".")) with 1%nat in C. lia. }
  apply K.
Qed.

Lemma verdict_congruent_gen d now m r r' offer asm doc options p p' j j' :
  cr_format r = cr_format r' -> cr_proof r = Some p -> cr_proof r' = Some p' ->
  proof_token d (rp_jwt p) j -> proof_token d (rp_jwt p') j' ->
  h_typ (j_header j) = h_typ (j_header j') -> h_additional (j_header j) = h_additional (j_header j') ->
  b_nonce (j_body j) = b_nonce (j_body j') -> b_aud (j_body j) = b_aud (j_body j') ->
  (b_iss (j_body j) = b_iss (j_body j') \/ forall o, offer = Some o -> should_validate_iss options o = false) ->
  (exists sig, after_second_dot (raw_text d j) sig) -> (exists sig, after_second_dot (raw_text d j') sig) ->
  same_verdict (evaluate_credential_request d now m r offer asm doc options)
               (evaluate_credential_request d now m r' offer asm doc options).
Proof.
  intros EF Ep Ep' T T' Et Ea En Eu Ei S S'. rewrite !evaluate_split. unfold request_part.
  destruct (metadata_validate m) as [[]|e|]; cbn [map_err bind same_verdict]; try exact I; try reflexivity.
  destruct offer as [o|]; cbn [ok_or bind same_verdict]; try reflexivity.
  destruct asm; cbn [bind same_verdict]; try reflexivity.
  destruct (check_nonce_expiry now options) as [[]|e|]; cbn [bind same_verdict]; try exact I; try reflexivity.
  rewrite Ep, Ep'. cbn [ok_or bind]. apply proof_token_iff in T, T'. rewrite T, T'. cbn [map_err bind fst snd].
  unfold token_part.
  assert (jwt_validate d j' = jwt_validate d j) as ->.
  { unfold jwt_validate, header_validate. now rewrite Et. }
  destruct (jwt_validate d j) as [[]|e|]; cbn [map_err bind same_verdict]; try exact I; try reflexivity.
  unfold jwt_check_nonce. rewrite <- En. destruct (opt_str_eqb (Some (b_nonce (j_body j))) _);
    cbn [map_err bind same_verdict]; try reflexivity.
  assert ((if should_validate_iss options o
           then map_err IJwtError (jwt_check_iss j' (opt_bind options eo_client_id)) else Ok tt)
          = (if should_validate_iss options o
             then map_err IJwtError (jwt_check_iss j (opt_bind options eo_client_id)) else Ok tt)) as ->.
  { destruct Ei as [E|E]; [unfold jwt_check_iss; now rewrite E|]. now rewrite (E o eq_refl). }
  destruct (if should_validate_iss options o then _ else _) as [[]|e|]; cbn [bind same_verdict];
    try exact I; try reflexivity.
  unfold jwt_check_aud. rewrite <- Eu. destruct (str_eqb _ _); cbn [map_err bind same_verdict]; try reflexivity.
  assert (match header_extract_key_and_alg d (j_header j) doc, header_extract_key_and_alg d (j_header j') doc with
          | Ok a, Ok b => fst a = fst b
          | Err e, Err f => e = f
          | Panic, Panic => True
          | _, _ => False
          end) as HK.
  { unfold header_extract_key_and_alg. rewrite <- Ea.
    destruct (h_additional (j_header j)) as [[kid|s|s]|]; try reflexivity.
    - destruct (did_url_try_from d kid); [reflexivity|]. destruct doc as [doc|]; cbn [ok_or bind]; [|reflexivity].
      destruct (select_object d doc d0) as [|[vm|]]; try reflexivity; try exact I.
      destruct (get_jwk d vm); [reflexivity|]. destruct (jwk_to_public_key_bytes _); cbn [bind]; reflexivity.
    - destruct (jwk_from_str d s); [reflexivity|]. destruct (jwk_to_public_key_bytes _); cbn [bind]; reflexivity. }
  destruct (header_extract_key_and_alg d (j_header j) doc) as [ka|e|],
    (header_extract_key_and_alg d (j_header j') doc) as [ka'|e'|]; cbn [map_err bind same_verdict]; try easy.
  2: now rewrite HK.
  destruct (extract_signature_cases d j) as [(sig & E & _)|[_ N]]; [|easy].
  destruct (extract_signature_cases d j') as [(sig' & E' & _)|[_ N]]; [|easy].
  rewrite E, E'. cbn [map_err bind].
  destruct (signable d j) as (msg & Em & _). destruct (signable d j') as (msg' & Em' & _).
  rewrite Em, Em'. cbn [map_err bind].
  assert (jwt_extract_did d j' = jwt_extract_did d j) as ->.
  { unfold jwt_extract_did. now rewrite Ea. }
  destruct (jwt_extract_did d j) as [did|e|]; cbn [map_err bind same_verdict]; try exact I; try reflexivity.
  cbn [er_subject_id er_credential er_pop option_map pop_public_key]. rewrite HK. auto.
Qed.

Lemma verdict_congruent d now m r r' offer asm doc options p p' j j' :
  cr_format r = cr_format r' -> cr_proof r = Some p -> cr_proof r' = Some p' ->
  proof_token d (rp_jwt p) j -> proof_token d (rp_jwt p') j' ->
  h_typ (j_header j) = h_typ (j_header j') -> h_additional (j_header j) = h_additional (j_header j') ->
  b_nonce (j_body j) = b_nonce (j_body j') -> b_aud (j_body j) = b_aud (j_body j') ->
  (b_iss (j_body j) = b_iss (j_body j') \/ forall o, offer = Some o -> should_validate_iss options o = false) ->
  j_signature j <> None -> j_signature j' <> None ->
  same_verdict (evaluate_credential_request d now m r offer asm doc options)
               (evaluate_credential_request d now m r' offer asm doc options).
Proof.
  intros EF Ep Ep' T T' Et Ea En Eu Ei S S'. eapply verdict_congruent_gen; eauto.
  - destruct (extract_signature_cases d j) as [(sig & _ & E)|[_ N]]; [eauto|exfalso; now apply N, raw_signed].
  - destruct (extract_signature_cases d j') as [(sig & _ & E)|[_ N]]; [eauto|exfalso; now apply N, raw_signed].
Qed.

Lemma free_iss options o :
  match options with None => True | Some opts => eo_client_id opts = None end ->
  only_pre_authorized o -> should_validate_iss options o = false.
Proof.
  intros H (P & A). unfold should_validate_iss. destruct options as [opts|]; [|reflexivity].
  rewrite H, A. destruct (og_pre (co_grants o)); [reflexivity|easy].
Qed.

Lemma evaluate_at d now m r o doc options p j :
  metadata_validate m = Ok tt -> check_nonce_expiry now options = Ok tt ->
  cr_proof r = Some p -> jwt_from_str d (rp_jwt p) = Ok j ->
  evaluate_credential_request d now m r (Some o) None doc options
  = token_part d m o doc options (cr_format r) j.
Proof.
  intros H1 H2 H3 H4. rewrite evaluate_split. unfold request_part.
  rewrite H1, H2, H3. cbn [map_err ok_or bind]. now rewrite H4.
Qed.

(** The requested format and the proof type are not looked at. *)
Lemma format_unexamined d now m r offer asm doc options c :
  evaluate_credential_request d now m {| cr_format := c; cr_proof := cr_proof r |} offer asm doc options
  = (let? resp := evaluate_credential_request d now m r offer asm doc options in
     Ok {| er_pop := er_pop resp; er_subject_id := er_subject_id resp; er_credential := c |}).
Proof.
  rewrite !evaluate_split.
  change (request_part d now m {| cr_format := c; cr_proof := cr_proof r |} offer asm options)
    with (request_part d now m r offer asm options).
  destruct (request_part d now m r offer asm options) as [[j o]|e|]; cbn [bind fst snd cr_format]; try reflexivity.
  unfold token_part.
  destruct (jwt_validate d j) as [[]|e|]; cbn [map_err bind]; try reflexivity.
  destruct (jwt_check_nonce j _) as [[]|e|]; cbn [map_err bind]; try reflexivity.
  destruct (if should_validate_iss options o then _ else _) as [[]|e|]; cbn [bind]; try reflexivity.
  destruct (jwt_check_aud j _) as [[]|e|]; cbn [map_err bind]; try reflexivity.
  destruct (header_extract_key_and_alg d (j_header j) doc) as [ka|e|]; cbn [map_err bind]; try reflexivity.
  destruct (jwt_extract_signature d j) as [sig|e|]; cbn [map_err bind]; try reflexivity.
  destruct (jwt_to_signable_message d j) as [msg|e|]; cbn [map_err bind]; try reflexivity.
  destruct (jwt_extract_did d j) as [did|e|]; cbn [map_err bind]; reflexivity.
Qed.

Lemma proof_type_unexamined d now m c p t offer asm doc options :
  evaluate_credential_request d now m
    {| cr_format := c; cr_proof := Some {| rp_proof_type := t; rp_jwt := rp_jwt p |} |} offer asm doc options
  = evaluate_credential_request d now m {| cr_format := c; cr_proof := Some p |} offer asm doc options.
Proof. reflexivity. Qed.

(** Neither are the formats in the metadata and the credentials in the offer. *)
Lemma supported_unexamined d now m m' r o o' asm doc options :
  ids_distinct (im_credentials_supported m) -> ids_distinct (im_credentials_supported m') ->
  im_credential_issuer m = im_credential_issuer m' -> co_grants o = co_grants o' ->
  evaluate_credential_request d now m r (Some o) asm doc options
  = evaluate_credential_request d now m' r (Some o') asm doc options.
Proof.
  intros D D' EI EG. rewrite !evaluate_split. unfold request_part.
  rewrite (proj2 (metadata_validate_ok m) D), (proj2 (metadata_validate_ok m') D'). cbn [map_err ok_or bind].
  destruct asm; [reflexivity|]. cbn [bind].
  destruct (check_nonce_expiry now options) as [[]|e|]; cbn [bind]; try reflexivity.
  destruct (cr_proof r) as [p|]; cbn [ok_or bind]; try reflexivity.
  destruct (jwt_from_str d (rp_jwt p)) as [j|e|]; cbn [map_err bind fst snd]; try reflexivity.
  unfold token_part, should_validate_iss. now rewrite EI, EG.
Qed.

(* ---------------- message and signature ---------------- *)

Lemma header_json_brace h : exists r, header_to_json h = "{"%char :: r.
Proof. unfold header_to_json, ser_header. cbn [print]. eexists. reflexivity. Qed.

Lemma raw_text_brace d j : exists r, raw_text d j = "{"%char :: r.
Proof.
  unfold raw_text. destruct (header_json_brace (j_header j)) as [r ->]. cbn [app]. eauto.
Qed.

Lemma message_brace t m : message_of t m -> (exists r, t = "{"%char :: r) -> exists r, m = "{"%char :: r.
Proof.
  intros [(a & b & c & _ & _ & _ & -> & ->)|[_ ->]] [r E]; [|eauto].
  destruct a as [|x a]; cbn [app] in *; [discriminate|]. injection E as -> E. eauto.
Qed.

Lemma not_signing_input d s j hs bs tail m :
  proof_token d s j -> token_parts s hs bs tail -> message_of (raw_text d j) m -> m <> hs ++ lit "." ++ bs.
Proof.
  intros (hs' & bs' & tail' & ht & bt & T' & B & _ & H & _) T M E.
  destruct (token_parts_det _ _ _ _ _ _ _ T T') as (<- & <- & <-).
  apply is_base64 in B.
  destruct (message_brace _ _ M (raw_text_brace d j)) as [r Er]. rewrite Er in E.
  destruct hs as [|x hs]; cbn [app] in E; [discriminate|]. injection E as <- _.
  rewrite brace_not_base64 in B. discriminate.
Qed.

Lemma signature_segment d j sig :
  j_signature j = Some sig ->
  (after_second_dot (raw_text d j) sig <->
   dotless (header_to_json (j_header j)) /\ dotless (claims_to_json d (j_body j))).
Proof.
  intros Hs. unfold raw_text. rewrite Hs. split.
  - intros (a & b & Ha & Hb & E).
    assert (header_to_json (j_header j) ++ lit "." ++ claims_to_json d (j_body j) = a ++ lit "." ++ b) as E'.
    { apply (app_inv_tail (lit "." ++ sig)). rewrite <- !app_assoc. exact E. }
    apply (f_equal (count "."%char)) in E'. rewrite !count_app in E'.
    apply count_zero in Ha, Hb. change (count "." (lit ".")) with 1%nat in E'.
    split; apply count_zero; lia.
  - intros [H1 H2]. exists (header_to_json (j_header j)), (claims_to_json d (j_body j)). auto.
Qed.

Lemma unsigned_no_signature d j :
  j_signature j = None ->
  dotless (header_to_json (j_header j)) -> dotless (claims_to_json d (j_body j)) ->
  ~ exists sig, after_second_dot (raw_text d j) sig.
Proof.
  intros Hs H1 H2 (sig & a & b & Ha & Hb & E). unfold raw_text in E. rewrite Hs, app_nil_r in E.
  apply (f_equal (count "."%char)) in E. rewrite !count_app in E.
  apply count_zero in Ha, Hb, H1, H2. change (count "." (lit ".")) with 1%nat in E. lia.
Qed.

Lemma unsigned_exact d j :
  j_signature j = None ->
  (exists sig, after_second_dot (raw_text d j) sig) <->
  ~ (dotless (header_to_json (j_header j)) /\ dotless (claims_to_json d (j_body j))).
Proof.
  intros Hs. split.
  - intros H [H1 H2]. now apply (unsigned_no_signature d j Hs H1 H2).
  - intros N. destruct (splitn3 (raw_text d j)) as [(sig & _ & S)|[E _]]; [eauto|].
    exfalso. apply N. unfold raw_text in E. rewrite Hs, app_nil_r in E. cbn [splitn_on] in E.
    destruct (cut "."%char _) as [[a r]|] eqn:C in E.
    + destruct (cut "."%char r) as [[b c]|] eqn:C2; [discriminate|].
      apply cut_some in C. destruct C as [C Ha]. apply cut_none, count_zero in C2. apply count_zero in Ha.
      apply (f_equal (count "."%char)) in C. rewrite !count_app in C. cbn [count] in C.
      rewrite ascii_eqb_refl in C. change (count "." (lit ".")) with 1%nat in C.
      split; apply count_zero; lia.
    + apply cut_none, count_zero in C. rewrite !count_app in C.
      change (count "." (lit ".")) with 1%nat in C. lia.
Qed.
