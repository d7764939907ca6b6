(** Interleaved sessions and crashes (C100, C101). *)
From Coq Require Import Lia Permutation Ascii.
From Verif Require Import Model.Prelude Model.Json Model.Types Model.Deps Model.Jwt Model.AccessToken Model.CredentialIssuer Model.Wire Model.SerdeOptions
  Spec SpecToken SpecOffer SpecJwt SpecEvaluation SpecDocuments SpecSession SpecServer
  Proofs.TokenFacts Proofs.EvalFacts Proofs.EvalFacts2 Proofs.EvalFacts3 Proofs.DocumentFacts Proofs.SessionFacts.

(* ---------------- many sessions ---------------- *)

Lemma seen_app k a b : seen_by k (a ++ b) = seen_by k a ++ seen_by k b.
Proof.
  induction a as [|(x & e) a IH]; cbn [app seen_by]; [reflexivity|]. destruct (x =? k); [|exact IH].
  cbn [app]. now rewrite IH.
Qed.

Lemma seen_same k e : seen_by k [(k, e)] = [e].
Proof. cbn [seen_by]. now rewrite N.eqb_refl. Qed.
Lemma seen_other k x e : x <> k -> seen_by k [(x, e)] = [].
Proof. intros H. cbn [seen_by]. destruct (N.eqb_spec x k); [contradiction|reflexivity]. Qed.

Lemma server_sessions d tr st : server d tr st -> forall k, history d (seen_by k tr) (st k).
Proof.
  induction 1 as [st H|tr st k e st' _ IH S O]; intros q.
  - rewrite H. constructor.
  - rewrite seen_app. destruct (N.eq_dec k q) as [<-|D].
    + rewrite seen_same. apply history_step with (st k); [apply IH|exact S].
    + rewrite seen_other by exact D. rewrite app_nil_r, O by congruence. apply IH.
Qed.

(** The state after a prefix. *)
Lemma sessions_server d tr : forall st, (forall k, history d (seen_by k tr) (st k)) -> server d tr st.
Proof.
  induction tr as [|(k & e) tr IH] using rev_ind; intros st H.
  - constructor. intros k. specialize (H k). now inversion H as [E|h e s s' _ _ E]; [|destruct h].
  - pose proof (H k) as Hk. rewrite seen_app, seen_same in Hk.
    inversion Hk as [E|h e' s s' Hs S E]; [destruct (seen_by k tr); discriminate|].
    apply app_inj_tail in E. destruct E as [-> ->]. subst s'.
    set (st0 := fun x => if x =? k then s else st x).
    apply server_step with st0.
    + apply IH. intros q. unfold st0. destruct (N.eqb_spec q k) as [->|D]; [exact Hs|].
      specialize (H q). now rewrite seen_app, seen_other, app_nil_r in H by congruence.
    + unfold st0. now rewrite N.eqb_refl.
    + intros x D. unfold st0. destruct (N.eqb_spec x k); [contradiction|reflexivity].
Qed.

Lemma server_iff d tr st : server d tr st <-> forall k, history d (seen_by k tr) (st k).
Proof. split; [apply server_sessions|apply sessions_server]. Qed.

Lemma seen_split k x e tr tr' : seen_by k (tr ++ (x, e) :: tr') = seen_by k tr ++ seen_by k [(x, e)] ++ seen_by k tr'.
Proof. change ((x, e) :: tr') with ([(x, e)] ++ tr'). now rewrite !seen_app. Qed.

Lemma seen_nonces k tr n : In n (nonces (seen_by k tr)) ->
  exists a t l b, tr = a ++ (k, Issued t n l) :: b.
Proof.
  induction tr as [|(x & e) tr IH]; cbn [seen_by]; [intros []|]. destruct (N.eqb_spec x k) as [->|D].
  - intros H. destruct e as [t q l|t q|q|]; cbn [nonces] in H.
    2-4: destruct (IH H) as (a & t' & l' & b & ->); eexists (_ :: a), t', l', b; reflexivity.
    destruct H as [->|H]; [exists [], t, l, tr; reflexivity|].
    destruct (IH H) as (a & t' & l' & b & ->). exists ((k, Issued t q l) :: a), t', l', b. reflexivity.
  - intros H. destruct (IH H) as (a & t' & l' & b & ->). exists ((x, e) :: a), t', l', b. reflexivity.
Qed.

Lemma last_issue_in h t n l : last_issue h t n l -> In n (nonces h).
Proof. intros (b & a & -> & _). rewrite nonces_app. apply in_or_app. right. now left. Qed.

Lemma nonces_cons e h : nonces (e :: h) = nonces [e] ++ nonces h.
Proof. now destruct e. Qed.

(** A nonce that is issued once was issued to one session. *)
Lemma issued_once (tr : trace) k k' a t n l b a' t' l' b' : NoDup (nonces (map snd tr)) ->
  tr = a ++ (k, Issued t n l) :: b -> tr = a' ++ (k', Issued t' n l') :: b' -> k = k'.
Proof.
  intros ND E E'. revert tr a' ND E E'. induction a as [|x a IH]; intros tr a' ND E E'.
  - subst tr. destruct a' as [|y a'].
    + now injection E'.
    + injection E' as _ ->. exfalso. cbn [app map snd nonces] in ND. inversion ND as [|q u X _]; subst.
      apply X. rewrite map_app, nonces_app. apply in_or_app. right. now left.
  - destruct a' as [|y a'].
    + subst tr. injection E' as -> _. exfalso. cbn [app map snd nonces] in ND. inversion ND as [|q u X _]; subst.
      apply X. rewrite map_app, nonces_app. apply in_or_app. right. now left.
    + subst tr. injection E' as _ E'. apply (IH (a ++ (k, Issued t n l) :: b) a'); [|reflexivity|exact E'].
      cbn [app map] in ND. rewrite nonces_cons in ND. revert ND. generalize (nonces [snd x]).
      intros u. induction u; [exact (fun h => h)|]. cbn [app]. inversion 1; auto.
Qed.

Lemma one_session d tr st k k' t t' token a b a' b' :
  lower_case_facts d -> server d tr st -> NoDup (nonces (map snd tr)) ->
  tr = a ++ (k, Accepted t token) :: b -> tr = a' ++ (k', Accepted t' token) :: b' -> k = k'.
Proof.
  intros HL S ND E E'. pose proof (server_sessions d tr st S) as H.
  assert (forall q u x y, tr = x ++ (q, Accepted u token) :: y ->
    exists n j, In n (nonces (seen_by q tr)) /\ proof_token d token j /\ b_nonce (j_body j) = n) as K.
  { intros q u x y Eq. pose proof (H q) as Hq.
    pose proof (seen_split q q (Accepted u token) x y) as Es. rewrite seen_same, <- Eq in Es. cbn [app] in Es.
    destruct (accepted_current d _ _ _ _ _ _ HL Hq Es) as (t0 & n & l & j & L & P & N0 & _).
    exists n, j. split; [|split; assumption]. rewrite Es, nonces_app. apply in_or_app. left.
    now apply last_issue_in with t0 l. }
  destruct (K _ _ _ _ E) as (n & j & I & P & Nn). destruct (K _ _ _ _ E') as (n' & j' & I' & P' & Nn').
  rewrite (proof_token_det _ _ _ _ P' P) in Nn'. rewrite Nn in Nn'. subst n'.
  destruct (seen_nonces _ _ _ I) as (x & u & v & y & Ex). destruct (seen_nonces _ _ _ I') as (x' & u' & v' & y' & Ex').
  exact (issued_once tr k k' x u n v y x' u' v' y' ND Ex Ex').
Qed.

(* ---------------- crashes ---------------- *)

Definition state_ok (s : option c_nonce_options) : Prop := on_some c_nonce_options_ok s.

Lemma restart_id d s s' : dt_round_trips d -> state_ok s -> (restart d s s' <-> s' = s).
Proof.
  intros Hd K. assert (forall c, on_some rust_string c ->
    eval_options_from_json d (eval_options_to_json d {| eo_c_nonce := s; eo_client_id := c |})
    = Some {| eo_c_nonce := s; eo_client_id := c |}) as R.
  { intros c Hc. apply eval_options_json_rt; [exact Hd|]. split; assumption. }
  split.
  - intros [c o Hc E]. rewrite (R c Hc) in E. now injection E as <-.
  - intros ->. apply (restart_read d s None {| eo_c_nonce := s; eo_client_id := None |}).
    + intros x [=].
    + apply R. intros x [=].
Qed.

Definition issued_before (h : list event) (s : option c_nonce_options) : Prop :=
  forall n, s = Some n -> In (Issued (cno_created_at n) (cno_expected n) (cno_expires_in n)) h.

Lemma issued_ok h s : Forall event_ok h -> issued_before h s -> state_ok s.
Proof.
  intros F I n E. specialize (I n E). rewrite Forall_forall in F. specialize (F _ I).
  destruct F as (A & B & C). split; [exact B|]. split; [exact A|exact C].
Qed.

Lemma issued_step d h s e s' : issued_before h s -> session_step d s e s' -> issued_before (h ++ [e]) s'.
Proof.
  intros I S n E. apply step_next in S. apply in_or_app. subst s'.
  destruct e as [t x l|t x|x|]; [|left; now apply I..].
  injection E as <-. right. now left.
Qed.

Lemma issued_more h s e : issued_before h s -> issued_before (h ++ [e]) s.
Proof. intros I n E. apply in_or_app. left. now apply I. Qed.

Lemma crashing_issued d h s n : dt_round_trips d -> crashing_history d h s n -> Forall event_ok h -> issued_before h s.
Proof.
  intros Hd. induction 1 as [|h e s s' n _ IH S|h s s' n _ IH R|h e s s' s'' n _ IH S R]; intros F.
  - intros q [=].
  - apply Forall_app in F. destruct F as [F _]. now apply issued_step with d s; auto.
  - specialize (IH F). apply restart_id in R; [now subst|exact Hd|now apply issued_ok with h].
  - apply Forall_app in F. destruct F as [F _]. specialize (IH F).
    apply restart_id in R; [subst s''; now apply issued_more|exact Hd|now apply issued_ok with h].
Qed.

Lemma restarted_crashing d h s : restarted_history d h s -> crashing_history d h s 0.
Proof. induction 1; [constructor|eapply crashing_step; eassumption|eapply crashing_restart; eassumption]. Qed.

Lemma restarts_invisible d h s : dt_round_trips d -> Forall event_ok h ->
  (restarted_history d h s <-> history d h s).
Proof.
  intros Hd F. split.
  - intros H. induction H as [|h e s s' H IH S|h s s' H IH R].
    + constructor.
    + apply Forall_app in F. destruct F as [F _]. apply history_step with s; auto.
    + apply restart_id in R; [subst; auto|exact Hd|]. apply issued_ok with h; [exact F|].
      apply crashing_issued with d 0%nat; [exact Hd|now apply restarted_crashing|exact F].
  - intros H. induction H as [|h e s s' H IH S]; [constructor|].
    apply Forall_app in F. destruct F as [F _]. apply restarted_step with s; auto.
Qed.

Lemma restart_possible d h s n client : dt_round_trips d -> crashing_history d h s n -> Forall event_ok h ->
  on_some rust_string client ->
  eval_options_from_json d (eval_options_to_json d {| eo_c_nonce := s; eo_client_id := client |})
  = Some {| eo_c_nonce := s; eo_client_id := client |}.
Proof.
  intros Hd H F Hc. apply eval_options_json_rt; [exact Hd|]. split; [|exact Hc].
  apply issued_ok with h; [exact F|]. now apply crashing_issued with d n.
Qed.

Lemma crashing_prefix d : forall a h s n, crashing_history d h s n ->
  forall b, h = a ++ b -> exists s' n', crashing_history d a s' n'.
Proof.
  intros a h s n H. induction H as [|h e s s' n H IH S|h s s' n H IH R|h e s s' s'' n H IH S R]; intros b E.
  - destruct a; [|discriminate]. exists None, 0%nat. constructor.
  - destruct b as [|x b _] using rev_ind.
    + rewrite app_nil_r in E. subst a. exists s', n. eapply crashing_step; eassumption.
    + rewrite app_assoc in E. apply app_inj_tail in E. destruct E as [E _]. now apply (IH b).
  - now apply (IH b).
  - destruct b as [|x b _] using rev_ind.
    + rewrite app_nil_r in E. subst a. exists s'', (Datatypes.S n). eapply crashing_lost; eassumption.
    + rewrite app_assoc in E. apply app_inj_tail in E. destruct E as [E _]. now apply (IH b).
Qed.

(** An acceptance was a step from some state of the history before it. *)
Lemma crashing_accepted d h s n : crashing_history d h s n -> forall a now token, h = a ++ [Accepted now token] ->
  exists s0 s1 n0, crashing_history d a s0 n0 /\ session_step d s0 (Accepted now token) s1.
Proof.
  induction 1 as [|h e s s' n H IH S|h s s' n H IH R|h e s s' s'' n H IH S R]; intros a now token E.
  - destruct a; discriminate.
  - apply app_inj_tail in E. destruct E as [-> ->]. eauto.
  - now apply IH.
  - apply app_inj_tail in E. destruct E as [-> ->]. eauto.
Qed.

Lemma accept_nonce d s now token s' : lower_case_facts d -> session_step d s (Accepted now token) s' ->
  exists n j, s = Some n /\ proof_token d token j /\ b_nonce (j_body j) = cno_expected n
    /\ (now <= cno_created_at n + 1000000000 * Z.of_N (cno_expires_in n))%Z.
Proof.
  intros HL S. inversion S as [| | | |s3 now2 m r offer asm doc client resp p Ev P| | |]; subst.
  apply (accepted_inv d now m r offer asm doc _ resp HL) in Ev.
  destruct Ev as (_ & _ & o & p' & j & n & doc' & kid & u & k & opts & pop & _ & Eo & En & Ex & _ & Ep & Pt & _ & Nn & _).
  injection Eo as <-. cbn [eo_c_nonce] in En. rewrite P in Ep. injection Ep as <-.
  exists n, j. auto.
Qed.

Lemma crashing_current d h s k before now token after :
  lower_case_facts d -> dt_round_trips d -> Forall event_ok h ->
  crashing_history d h s k -> h = before ++ Accepted now token :: after ->
  exists t n l j, In (Issued t n l) before /\ proof_token d token j /\ b_nonce (j_body j) = n
    /\ (now <= t + 1000000000 * Z.of_N l)%Z.
Proof.
  intros HL Hd F H E. change (before ++ Accepted now token :: after) with (before ++ [Accepted now token] ++ after) in E.
  rewrite app_assoc in E. destruct (crashing_prefix d _ _ _ _ H _ E) as (s1 & k1 & H1).
  rewrite E in F. apply Forall_app in F. destruct F as [F _]. apply Forall_app in F. destruct F as [F _].
  destruct (crashing_accepted d _ _ _ H1 _ _ _ eq_refl) as (s0 & s2 & k0 & H0 & S).
  destruct (accept_nonce d s0 now token s2 HL S) as (n & j & En & Pt & Nn & Ex).
  apply crashing_issued in H0; [|exact Hd|exact F].
  exists (cno_created_at n), (cno_expected n), (cno_expires_in n), j.
  split; [exact (H0 n En)|]. auto.
Qed.

(* ---------------- single use ---------------- *)

Lemma accepted_in h token : In token (accepted_tokens h) -> exists a t b, h = a ++ Accepted t token :: b.
Proof.
  induction h as [|e h IH]; [intros []|]. destruct e as [t n l|t k|k|]; cbn [accepted_tokens]; intros H.
  1,3,4: destruct (IH H) as (a & t' & b & ->); eexists (_ :: a), t', b; reflexivity.
  destruct H as [->|H]; [exists [], t, h; reflexivity|].
  destruct (IH H) as (a & t' & b & ->). exists (Accepted t k :: a), t', b. reflexivity.
Qed.

Lemma accepted_twice h : NoDup (accepted_tokens h) \/
  exists a t1 token b t2 c, h = a ++ Accepted t1 token :: b ++ Accepted t2 token :: c.
Proof.
  induction h as [|e h IH]; [left; constructor|].
  destruct IH as [IH|(a & t1 & k & b & t2 & c & ->)]; [|right; exists (e :: a), t1, k, b, t2, c; reflexivity].
  destruct e as [t n l|t k|k|]; cbn [accepted_tokens]; try (left; exact IH).
  destruct (in_dec (list_eq_dec ascii_dec) k (accepted_tokens h)) as [I|I]; [|left; constructor; assumption].
  right. destruct (accepted_in _ _ I) as (a & t' & b & ->). exists [], t, k, a, t', b. reflexivity.
Qed.

Lemma proofs_once d h s : lower_case_facts d -> history d h s -> NoDup (nonces h) -> rotates h ->
  NoDup (accepted_tokens h).
Proof.
  intros HL H ND R. destruct (accepted_twice h) as [K|(a & t1 & k & b & t2 & c & E)]; [exact K|exfalso].
  pose proof (no_replay d h s a t1 k b t2 c HL H E ND) as F. specialize (R _ _ _ _ _ _ _ E).
  apply Exists_exists in R. destruct R as (e & Ie & He). rewrite Forall_forall in F. exact (F e Ie He).
Qed.

(** With crashes: how often a token is accepted. *)
Definition uses (token : str) (h : list event) : nat :=
  count_occ (list_eq_dec ascii_dec) (accepted_tokens h) token.

Lemma accepted_app a b : accepted_tokens (a ++ b) = accepted_tokens a ++ accepted_tokens b.
Proof. induction a as [|[t n l|t k|k|] a IH]; cbn [app accepted_tokens]; [reflexivity|exact IH|now rewrite IH|exact IH..]. Qed.

Lemma uses_app token a b : uses token (a ++ b) = (uses token a + uses token b)%nat.
Proof. unfold uses. rewrite accepted_app. apply count_occ_app. Qed.

Lemma rotates_prefix a b : rotates (a ++ b) -> rotates a.
Proof.
  intros R x t1 k1 y t2 k2 z E. apply (R x t1 k1 y t2 k2 (z ++ b)). rewrite E, <- !app_assoc. cbn [app].
  now rewrite <- app_assoc.
Qed.

(** The token was accepted and nothing issued since. *)
Definition spent (token : str) (h : list event) : Prop :=
  exists a t b, h = a ++ Accepted t token :: b /\ Forall (fun e => ~ is_issue e) b.

Lemma spent_more token h e : ~ is_issue e -> spent token h -> spent token (h ++ [e]).
Proof.
  intros Ne (a & t & b & -> & F). exists a, t, (b ++ [e]). split; [now rewrite <- app_assoc|].
  apply Forall_app. split; [exact F|]. constructor; [exact Ne|constructor].
Qed.

Lemma nonces_in h t n l : In (Issued t n l) h -> In n (nonces h).
Proof.
  induction h as [|e h IH]; [intros []|]. intros [->|H]; [now left|]. destruct e; cbn [nonces]; auto. right. auto.
Qed.

Lemma uses_bound d token j : lower_case_facts d -> dt_round_trips d -> proof_token d token j ->
  forall h s k, crashing_history d h s k -> Forall event_ok h -> NoDup (nonces h) -> rotates h ->
  (uses token h <= 1 + k)%nat
  /\ ((exists n, s = Some n /\ cno_expected n = b_nonce (j_body j)) -> spent token h \/ (uses token h <= k)%nat).
Proof.
  intros HL Hd Pt h s k H. induction H as [|h e s s' k H IH S|h s s' k H IH R|h e s s' s'' k H IH S R]; intros F ND Ro.
  - split; [apply Nat.le_0_l|]. intros _. right. apply Nat.le_0_l.
  - apply Forall_app in F. destruct F as [F Fe]. rewrite nonces_app in ND.
    assert (NoDup (nonces h)) as ND1.
    { revert ND. generalize (nonces [e]). clear. intros u. induction (nonces h) as [|x y IH]; [constructor|].
      cbn [app]. inversion 1 as [|q v A B]; subst. constructor; [|auto]. intros K. apply A. apply in_or_app. now left. }
    specialize (IH F ND1 (rotates_prefix _ _ Ro)). destruct IH as [U1 U2]. rewrite uses_app.
    destruct e as [t n l|t x|x|].
    + cbn [uses accepted_tokens count_occ]. rewrite Nat.add_0_r. split; [exact U1|].
      intros (q & Eq & En). right. apply step_next in S. subst s'. injection Eq as <-. cbn [cno_expected] in En.
      assert (uses token h = 0%nat) as ->; [|apply Nat.le_0_l].
      apply count_occ_not_In. intros K. apply accepted_in in K. destruct K as (a & t1 & b & Eh).
      destruct (crashing_current d h s k a t1 token b HL Hd F H Eh) as (t2 & n2 & l2 & j2 & I2 & P2 & N2 & _).
      rewrite (proof_token_det _ _ _ _ P2 Pt) in N2. subst n2. rewrite <- En in I2.
      apply nonces_in in I2. cbn [nonces] in ND. apply NoDup_remove_2 in ND. apply ND. rewrite app_nil_r, Eh, nonces_app.
      apply in_or_app. now left.
    + pose proof (step_next d s _ s' S) as Es. cbv beta iota in Es. subst s'.
      unfold uses at 2 4. cbn [accepted_tokens count_occ].
      destruct (list_eq_dec ascii_dec x token) as [->|D].
      * assert ((uses token h <= k)%nat) as U.
        { destruct (accept_nonce d s t token s HL S) as (n & j' & En & P' & Nn & _).
          rewrite (proof_token_det _ _ _ _ P' Pt) in Nn.
          destruct U2 as [(a & t1 & b & Eh & Fb)|U]; [exists n; split; [exact En|now symmetry]| |exact U].
          exfalso. assert (Exists is_issue b) as X.
          { apply (Ro a t1 token b t token []). rewrite Eh, <- app_assoc. reflexivity. }
          apply Exists_exists in X. destruct X as (e & Ie & He). rewrite Forall_forall in Fb. exact (Fb e Ie He). }
        split; [lia|]. intros _. left. exists h, t, []. split; [reflexivity|constructor].
      * rewrite Nat.add_0_r. split; [exact U1|]. intros K. destruct (U2 K) as [Sp|U]; [left|now right].
        apply spent_more; [now intros (? & ? & ? & ?)|exact Sp].
    + pose proof (step_next d s _ s' S) as Es. cbv beta iota in Es. subst s'.
      cbn [uses accepted_tokens count_occ]. rewrite Nat.add_0_r. split; [exact U1|].
      intros K. destruct (U2 K) as [Sp|U]; [left|now right]. apply spent_more; [now intros (? & ? & ? & ?)|exact Sp].
    + pose proof (step_next d s _ s' S) as Es. cbv beta iota in Es. subst s'.
      cbn [uses accepted_tokens count_occ]. rewrite Nat.add_0_r. split; [exact U1|].
      intros K. destruct (U2 K) as [Sp|U]; [left|now right]. apply spent_more; [now intros (? & ? & ? & ?)|exact Sp].
  - destruct (IH F ND Ro) as [U1 U2]. split; [exact U1|].
    apply restart_id in R; [now subst s'|exact Hd|]. apply issued_ok with h; [exact F|now apply crashing_issued with d k].
  - apply Forall_app in F. destruct F as [F Fe]. rewrite nonces_app in ND.
    assert (NoDup (nonces h)) as ND1.
    { revert ND. generalize (nonces [e]). clear. intros u. induction (nonces h) as [|x y IH]; [constructor|].
      cbn [app]. inversion 1 as [|q v A B]; subst. constructor; [|auto]. intros K. apply A. apply in_or_app. now left. }
    specialize (IH F ND1 (rotates_prefix _ _ Ro)). destruct IH as [U1 U2].
    assert ((uses token (h ++ [e]) <= 1 + k)%nat \/
            exists t, e = Accepted t token) as [U|(t & ->)].
    { rewrite uses_app. destruct e as [t n l|t x|x|]; [left; cbn; lia| |left; cbn; lia..].
      unfold uses at 2. cbn [accepted_tokens count_occ]. destruct (list_eq_dec ascii_dec x token) as [->|D]; [|left; lia].
      right. eauto. }
    + split; [lia|]. intros _. right. lia.
    + destruct (accept_nonce d s t token s' HL S) as (n & j' & En & P' & Nn & _).
      rewrite (proof_token_det _ _ _ _ P' Pt) in Nn.
      destruct U2 as [(a & t1 & b & Eh & Fb)|U]; [exists n; split; [exact En|now symmetry]| |].
      * exfalso. assert (Exists is_issue b) as X.
        { apply (Ro a t1 token b t token []). rewrite Eh, <- app_assoc. reflexivity. }
        apply Exists_exists in X. destruct X as (e & Ie & He). rewrite Forall_forall in Fb. exact (Fb e Ie He).
      * rewrite uses_app. unfold uses at 2 4. cbn [accepted_tokens count_occ].
        destruct (list_eq_dec ascii_dec token token) as [_|D]; [|now destruct D]. split; [lia|]. intros _. right. lia.
Qed.

Lemma proofs_per_loss d h s k token : lower_case_facts d -> dt_round_trips d -> Forall event_ok h ->
  crashing_history d h s k -> NoDup (nonces h) -> rotates h ->
  (count_occ (list_eq_dec ascii_dec) (accepted_tokens h) token <= 1 + k)%nat.
Proof.
  intros HL Hd F H ND R. destruct (in_dec (list_eq_dec ascii_dec) token (accepted_tokens h)) as [I|I].
  - destruct (accepted_in _ _ I) as (a & t & b & E).
    destruct (crashing_current d h s k a t token b HL Hd F H E) as (_ & _ & _ & j & _ & P & _).
    exact (proj1 (uses_bound d token j HL Hd P h s k H F ND R)).
  - apply (count_occ_not_In (list_eq_dec ascii_dec)) in I. rewrite I. apply Nat.le_0_l.
Qed.

Lemma codes_app a b : codes_of (a ++ b) = codes_of a ++ codes_of b.
Proof. apply flat_map_app. Qed.

Lemma till_balance created redeemed kept : till created redeemed kept ->
  Permutation created (redeemed ++ codes_of kept).
Proof.
  induction 1 as [|created redeemed kept m creds ep a p o url _ IH _|created redeemed l o l' code pin opts _ IH E
    |created redeemed kept code pin opts _ IH E|created redeemed kept r offer opts e _ IH _].
  - constructor.
  - cbn [codes_of flat_map]. fold (codes_of kept). rewrite IH. apply Permutation_app_swap_app.
  - apply evaluate_ok in E. inversion E as [c0 pin0 offer0 g opts0 Hp Eg (Ec & _)]; subst.
    rewrite IH. rewrite !codes_app. cbn [codes_of flat_map]. fold (codes_of l').
    unfold code_of at 1. rewrite Eg. cbn [app]. symmetry.
    rewrite !app_assoc. apply Permutation_cons_app. reflexivity.
  - apply evaluate_ok in E. inversion E.
  - exact IH.
Qed.

Lemma codes_once created redeemed kept : till created redeemed kept ->
  Permutation created (redeemed ++ codes_of kept) /\ (NoDup created -> NoDup redeemed).
Proof.
  intros H. pose proof (till_balance _ _ _ H) as P. split; [exact P|]. intros N.
  apply (Permutation_NoDup P) in N. revert N. generalize (codes_of kept). clear. intros l.
  induction redeemed as [|x r IH]; [constructor|]. cbn [app]. inversion 1 as [|y u A B]; subst.
  constructor; [|auto]. intros I. apply A. apply in_or_app. now left.
Qed.

Lemma codes_cons o l : codes_of (o :: l) = code_of o ++ codes_of l.
Proof. reflexivity. Qed.

Lemma crashing_balance created redeemed kept k : crashing_till created redeemed kept k ->
  forall code, (count_occ (list_eq_dec ascii_dec) (redeemed ++ codes_of kept) code
                <= count_occ (list_eq_dec ascii_dec) created code + k)%nat.
Proof.
  induction 1 as [|created redeemed kept k m creds ep a p o url _ IH _|created redeemed kept k m creds ep a p o url _ IH _
    |created redeemed l o l' k code0 pin opts _ IH E|created redeemed l o l' k code0 pin opts _ IH E
    |created redeemed kept k r offer opts e _ IH _]; intros code.
  - apply Nat.le_0_l.
  - specialize (IH code). rewrite codes_cons, !count_occ_app in *. unfold str in *; lia.
  - specialize (IH code). rewrite !count_occ_app in *. unfold str in *; lia.
  - apply evaluate_ok in E. inversion E as [c0 pin0 offer0 g opts0 Hp Eg (Ec & _)]; subst.
    specialize (IH code). rewrite !codes_app in *. rewrite codes_cons in IH.
    unfold code_of in IH. rewrite Eg in IH. cbn [app count_occ] in IH. rewrite !count_occ_app in *. cbn [count_occ] in *.
    destruct (list_eq_dec ascii_dec (pf_code g) code); unfold str in *; lia.
  - specialize (IH code). cbn [app count_occ]. destruct (list_eq_dec ascii_dec code0 code); unfold str in *; lia.
  - apply IH.
Qed.

Lemma codes_per_loss created redeemed kept k : crashing_till created redeemed kept k -> NoDup created ->
  forall code, (count_occ (list_eq_dec ascii_dec) redeemed code <= 1 + k)%nat.
Proof.
  intros H N code. pose proof (crashing_balance _ _ _ _ H code) as B. rewrite count_occ_app in B.
  rewrite (NoDup_count_occ (list_eq_dec ascii_dec)) in N. specialize (N code). unfold str in *; lia.
Qed.

(* ---------------- what a session takes ---------------- *)

Lemma second_dot_iff d j : (exists sig, after_second_dot (raw_text d j) sig)
  <-> (j_signature j <> None
       \/ ~ (dotless (header_to_json (j_header j)) /\ dotless (claims_to_json d (j_body j)))).
Proof.
  destruct (j_signature j) as [s|] eqn:E.
  - split; [intros _; left; discriminate|]. intros _. apply raw_signed. congruence.
  - rewrite <- (unsigned_exact d j E). split; [now right|]. intros [H|H]; [easy|exact H].
Qed.

Lemma history_last d h s t n l : history d h s -> last_issue h t n l ->
  s = Some {| cno_expires_in := l; cno_expected := n; cno_created_at := t |}.
Proof.
  intros H L. apply history_remembered in H. destruct s as [q|]; cbn [remembered] in H.
  - destruct (last_issue_det _ _ _ _ _ _ _ H L) as (E1 & E2 & E3). destruct q. cbn in *. now subst.
  - destruct L as (b & a & -> & _). apply Forall_app in H. destruct H as [_ H].
    inversion H as [|x u K _]; subst. exfalso. apply K. repeat eexists.
Qed.

Lemma session_accepts d h s t n l now m r o doc client :
  lower_case_facts d -> history d h s -> last_issue h t n l ->
  representable (t + 1000000000 * Z.of_N l)%Z -> ids_distinct (im_credentials_supported m) ->
  ((exists resp, evaluate_credential_request d now m r (Some o) None (Some doc)
       (Some {| eo_c_nonce := s; eo_client_id := client |}) = Ok resp)
   <-> (now <= t + 1000000000 * Z.of_N l)%Z
       /\ exists p, cr_proof r = Some p /\ takes d m o doc client n (rp_jwt p)).
Proof.
  intros HL H L R I. rewrite (history_last d h s t n l H L). split.
  - intros (resp & E).
    apply (accepted_inv d now m r _ _ _ _ resp HL) in E.
    destruct E as (_ & _ & o' & p & j & q & doc' & kid & u & k & opts & pop & Eo & Eop & En & Ex & _ & Ep & Pt & Ty & Nn
      & Au & Is & Ha & Hu & Ed & Dk & _ & _ & Pk & _ & Sd & _).
    injection Eo as <-. injection Eop as <-. injection En as <-. injection Ed as <-.
    split; [exact Ex|]. exists p. split; [exact Ep|]. exists j, kid, k, (pop_public_key pop).
    split; [exact Pt|]. split; [exact Ty|]. split; [exact Nn|]. split; [exact Au|]. split; [exact Is|].
    split; [exact Ha|]. split; [exact Dk|]. split; [exact Pk|]. apply second_dot_iff. eauto.
  - intros (Ex & p & Ep & j & kid & k & bytes & Pt & Ty & Nn & Au & Is & Ha & Dk & Pk & Sd).
    apply second_dot_iff in Sd. destruct Sd as [sig Sd].
    destruct (proj2 (proj2 (message_determined (raw_text d j)))) as [msg Sm].
    pose proof Dk as (u & vm & Hu & _ & _).
    eexists {| er_pop := Some {| pop_algorithm := h_alg (j_header j); pop_public_key := bytes;
                                 pop_message := msg; pop_signature := sig |};
               er_subject_id := Some (du_did u); er_credential := cr_format r |}.
    apply (evaluate_outcomes d _ _ _ _ _ _ _ HL). split.
    + unfold request_checks. repeat apply Forall_cons; try apply Forall_nil; cbn [passes]; try discriminate; auto.
      * intros q (op & E1 & E2). injection E1 as <-. injection E2 as <-. exact (conj R Ex).
      * rewrite Ep. discriminate.
      * intros p' E. rewrite Ep in E. injection E as <-. eauto.
    + assert (proof_key d (Some doc) (h_additional (j_header j)) bytes) as K1
        by (rewrite Ha; now apply key_of_kid with doc k).
      assert (proof_did d (h_additional (j_header j)) (Some (du_did u))) as K2
        by (rewrite Ha; now constructor).
      exists p, j, o, bytes, msg, sig, (Some (du_did u)).
      do 3 (split; [assumption || reflexivity|]). split.
      * unfold token_checks. repeat apply Forall_cons; try apply Forall_nil; cbn [passes]; eauto.
        eexists. split; [eexists; split; reflexivity|]. exact Nn.
      * do 4 (split; [assumption|]). do 2 (split; [reflexivity|]). reflexivity.
Qed.

Lemma nothing_before_a_nonce d h s now m r offer asm doc client resp :
  lower_case_facts d -> history d h s -> Forall (fun e => ~ is_issue e) h ->
  evaluate_credential_request d now m r offer asm doc (Some {| eo_c_nonce := s; eo_client_id := client |}) <> Ok resp.
Proof.
  intros HL H F. apply no_nonce_rejected; [exact HL|]. intros q (op & E1 & E2). injection E1 as <-.
  cbn [eo_c_nonce] in E2. subst s. apply history_remembered in H. destruct H as (b & a & -> & _).
  apply Forall_app in F. destruct F as [_ F]. inversion F as [|x u K _]; subst. apply K. repeat eexists.
Qed.

Lemma issue_step d s t n l : session_step d s (Issued t n l)
  (Some {| cno_expires_in := l; cno_expected := n; cno_created_at := t |}).
Proof. eapply (step_token d s t [] Bearer None None n l None None). reflexivity. Qed.

Lemma fetch_any_number d m o doc client t n l rest :
  lower_case_facts d -> ids_distinct (im_credentials_supported m) ->
  fetches d m o doc client t n l rest ->
  forall h s, history d h s -> last_issue h t n l -> exists s', history d (h ++ rest) s'.
Proof.
  intros HL I F. induction F as [t n l|t n l now token t' n' l' rest T N0 R F IH]; intros h s H L.
  - rewrite app_nil_r. eauto.
  - assert (history d (h ++ [Accepted now token]) s) as H1.
    { apply history_step with s; [exact H|].
      set (r := {| cr_format := JwtVcJson [] None None;
                   cr_proof := Some {| rp_proof_type := lit "jwt"; rp_jwt := token |} |}).
      destruct (proj2 (session_accepts d h s t n l now m r o doc client HL H L R I)) as [resp E].
      { split; [exact N0|]. eexists. split; [reflexivity|]. exact T. }
      exact (step_accept d s now m r (Some o) None (Some doc) client resp _ E eq_refl). }
    change (h ++ Accepted now token :: Issued t' n' l' :: rest)
      with (h ++ [Accepted now token] ++ [Issued t' n' l'] ++ rest).
    rewrite !app_assoc. apply (IH _ (Some {| cno_expires_in := l'; cno_expected := n'; cno_created_at := t' |})).
    + apply history_step with s; [exact H1|apply issue_step].
    + apply last_issue_new.
Qed.
