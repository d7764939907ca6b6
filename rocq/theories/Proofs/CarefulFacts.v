(** Proofs about a caller that adds the checks evaluation leaves out. *)
From Verif Require Import Model.Prelude Model.Base64 Model.Json Model.Types Model.Deps Model.Equality Model.Jwt
  Model.AccessToken Model.CredentialIssuer Model.Wire
  Spec SpecToken SpecOffer SpecJwt SpecEvaluation SpecRelay SpecEquality SpecEvidence SpecCareful
  Proofs.OfferFacts Proofs.JwtFacts Proofs.EvalFacts Proofs.EvalFacts2 Proofs.EvalFacts3 Proofs.EvidenceFacts
  Proofs.EqualityFacts Proofs.AgreeFacts Proofs.AgreementFacts.

Lemma resolves_held m r o entry c : credentials_held m r o -> In entry (co_credentials o) -> resolves m entry c ->
  cfp_with held c.
Proof.
  intros (_ & H2 & H3) I R. destruct R as [c|id c (before & after & E & _)]; [auto|].
  apply H2. rewrite E. apply in_or_app. right. now left.
Qed.

Lemma resolved_in m l ps c : Forall2 (resolves m) l ps -> In c ps -> exists entry, In entry l /\ resolves m entry c.
Proof.
  intros F. induction F as [|e c' l ps R F IH]; [intros []|]. intros [->|I]; [exists e; split; [now left|exact R]|].
  destruct (IH I) as (e' & I' & R'). exists e'. split; [now right|exact R'].
Qed.

Lemma in_resolved m l ps entry c : Forall2 (resolves m) l ps -> In entry l -> resolves m entry c -> In c ps.
Proof.
  intros F. induction F as [|e c' l ps R F IH]; [intros []|]. intros [->|I] R'; [|right; auto].
  left. apply resolve_ok in R, R'. congruence.
Qed.

Lemma careful_exact d now m r o doc n client resp :
  lower_case_facts d -> upper_case_facts d -> on_some (fun p => rust_string (rp_proof_type p)) (cr_proof r) ->
  credentials_held m r o ->
  (careful d now m r o doc n client resp <->
   eval_answer d now m r (Some o) None (Some doc) (with_nonce n client) resp /\ beyond_evaluation d now m r o).
Proof.
  intros HL HU HR HH. split.
  - intros (E & (did & P) & (p & j & Ep & Ej & Ev) & (pop & sg & Er & Ed & Na) & Es & offered & Eo & Ex).
    split; [now apply (evaluate_outcomes d _ _ _ _ _ _ _ HL)|].
    pose proof (accepted_inv _ _ _ _ _ _ _ _ _ HL E) as A.
    destruct A as (_ & _ & o' & p' & j' & n' & doc' & kid & u & k & opts & pop' & _ & _ & _ & _ & _ & Ep' & T & _ & _ & _ & _
      & _ & _ & _ & _ & Er' & Ea & _ & _ & _ & _ & Ec).
    rewrite Ep in Ep'. injection Ep' as <-. rewrite Er in Er'. injection Er' as <-.
    assert (T' := T). apply proof_token_iff in T'. rewrite Ej in T'. injection T' as <-.
    rewrite Ec in Es, Ex. split; [|split; [|split]].
    + exists p, j. split; [exact Ep|]. split; [exact T|]. split; [|split; [|split]].
      * apply (proj1 (pre_evaluate_outcomes d r HL HU HR)) in P. destruct P as [[P _]|(q & j2 & Q & F & _)]; [congruence|].
        rewrite Ep in Q. injection Q as <-. unfold proof_checks in F. apply Forall_inv in F. exact F.
      * now apply verify_exact in Ev.
      * now rewrite <- Ea.
      * apply is_base64 in Ed.
        assert (V : evidence_for d (rp_jwt p) j pop) by (exists now, m, r, (Some o), None, (Some doc); do 3 eexists; eauto).
        destruct (proj1 (proj1 (decodable _ _ _ _ HL V) sg) Ed) as (J1 & J2 & J3 & J4). eauto 10.
    + apply existsb_exists in Es as (s & I & Q). exists s. split; [exact I|].
      now apply (cfp_decides _ _ (proj1 HH) (proj1 (proj2 HH) s I)) in Q.
    + apply resolve_all_iff. eauto.
    + apply existsb_exists in Ex as (c & I & Q). apply resolve_all_ok in Eo.
      destruct (resolved_in _ _ _ _ Eo I) as (entry & I' & R). exists entry, c. split; [exact I'|]. split; [exact R|].
      now apply (cfp_decides _ _ (proj1 HH) (resolves_held m r o entry c HH I' R)) in Q.
  - intros [A ((p & j & Ep & T & Et & Ew & Na & (sg & text & Es & B) & D1 & D2) & (s & Is & Qs) & F & entry & c & Ie & Re & Qc)].
    assert (E := A). apply (evaluate_outcomes d _ _ _ _ _ _ _ HL) in E.
    pose proof (accepted_inv _ _ _ _ _ _ _ _ _ HL E) as X.
    destruct X as (_ & _ & o' & p' & j' & n' & doc' & kid & u & k & opts & pop & _ & _ & _ & _ & _ & Ep' & T' & _ & _ & _ & _
      & _ & _ & _ & _ & Er & Ea & _ & _ & _ & _ & Ec).
    rewrite Ep in Ep'. injection Ep' as <-.
    assert (J := T). apply proof_token_iff in J. apply proof_token_iff in T'. rewrite J in T'. injection T' as <-.
    split; [exact E|]. split.
    { exists (er_subject_id resp). apply (accepted_pre_evaluated d now m r (Some o) None (Some doc) (with_nonce n client) resp p HL HU E Ep); [|exact Et].
      now apply HR. }
    split; [exists p, j; split; [exact Ep|]; split; [exact J|]; now apply verify_exact|].
    split; [|split].
    + exists pop, sg. split; [exact Er|]. split; [|now rewrite Ea].
      rewrite (proj2 (signature_iff_dotless d now m r (Some o) None (Some doc) (with_nonce n client) resp p j text pop HL E Ep T Es Er)
        (conj D1 D2)). now apply is_base64.
    + apply existsb_exists. exists s. split; [exact Is|]. rewrite Ec. now apply (cfp_decides _ _ (proj1 HH) (proj1 (proj2 HH) s Is)).
    + apply resolve_all_iff in F as [ps Ps]. exists ps. split; [exact Ps|]. apply existsb_exists. exists c. rewrite Ec.
      apply resolve_all_ok in Ps. split; [now apply (in_resolved m (co_credentials o) ps entry)|].
      now apply (cfp_decides _ _ (proj1 HH) (resolves_held m r o entry c HH Ie Re)).
Qed.
