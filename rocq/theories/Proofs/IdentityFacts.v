(** Proofs about wallets, issuers and a registry. *)
From Verif Require Import Model.Prelude Model.Base64 Model.Json Model.Types Model.Deps Model.Jwt Model.AccessToken
  Model.CredentialIssuer Model.Wire
  Spec SpecToken SpecOffer SpecJwt SpecEvaluation SpecDocuments SpecEvidence SpecRelay SpecAgreement SpecRegistry SpecIdentity
  Proofs.EvalFacts Proofs.EvalFacts2 Proofs.EvalFacts3 Proofs.AgreementFacts Proofs.RegistryFacts.

Lemma happened_app {d} (h h' : list (entry d)) : happened (h ++ h') = happened h ++ happened h'.
Proof. induction h as [|[did doc|e] h IH]; cbn [app happened]; [reflexivity|exact IH|now rewrite IH]. Qed.

Lemma happened_in {d} (h : list (entry d)) e : In e (happened h) <-> In (Happens e) h.
Proof.
  induction h as [|[did doc|e'] h IH]; cbn [happened In]; [tauto| |].
  - rewrite IH. split; [now right|]. now intros [X|X].
  - rewrite IH. split; (intros [X|X]; [left|now right]); [now subst|now injection X].
Qed.

Lemma world_network d safe p h st : world d safe p h st -> network d safe (happened h) st.
Proof.
  intros W. induction W as [|h st did doc W IH|h st key j text W IH O S|h st k n W IH F
    |h st k n now m r offer asm doc client resp pop sg W IH K D E R B U]; try rewrite happened_app; cbn [happened].
  - constructor.
  - now rewrite app_nil_r.
  - now constructor.
  - now constructor.
  - eapply net_trusts; try eassumption. intros X. destruct (U X) as [j J]. exists j. now apply happened_in.
Qed.

Lemma world_prefix d safe p h st a b : world d safe p h st -> h = a ++ b -> exists st', world d safe p a st'.
Proof.
  intros W. revert a b. induction W as [|h st did doc W IH|h st key j text W IH O S|h st k n W IH F
    |h st k n now m r offer asm doc client resp pop sg W IH K D E R B U]; intros a b X;
    [symmetry in X; apply app_eq_nil in X as [-> ->]; eexists; constructor|..];
    (destruct b as [|y b] using rev_ind;
     [rewrite app_nil_r in X; subst a|clear IHb; rewrite app_assoc in X; apply app_inj_tail in X as [X _]; eauto]).
  - eexists. constructor. eassumption.
  - eexists. constructor; eassumption.
  - eexists. constructor; eassumption.
  - eexists. eapply world_trusts; eassumption.
Qed.

Lemma world_trusts_inv d safe p h st a k key url n c s : world d safe p h st ->
  h = a ++ [Happens (Trusts k key url n c s)] ->
  exists st' x now m r offer asm doc resp pop sg, world d safe p a st' /\ st' k = Some x /\ n = cno_expected x
    /\ url = im_credential_issuer m /\ s = er_subject_id resp /\ key = pop_public_key pop /\ supplied p a r doc
    /\ evaluate_credential_request d now m r offer asm (Some doc) (Some {| eo_c_nonce := Some x; eo_client_id := c |}) = Ok resp
    /\ er_pop resp = Some pop /\ base64_text url_alphabet false sg (pop_signature pop)
    /\ (safe key -> exists j, In (Happens (Signs key j (pop_message pop))) a).
Proof.
  intros W X. destruct W as [|h st did doc W|h st key' j text W O S|h st k' n' W F
    |h st k' n' now m r offer asm doc client resp pop sg W K D E R B U].
  - symmetry in X. apply app_eq_nil in X as [_ X]. discriminate.
  - apply app_inj_tail in X as [_ X]. discriminate.
  - apply app_inj_tail in X as [_ X]. discriminate.
  - apply app_inj_tail in X as [_ X]. discriminate.
  - apply app_inj_tail in X as [<- X]. injection X as <- <- <- <- <- <-. rewrite K in E.
    exists st, n', now, m, r, offer, asm, doc, resp, pop, sg. repeat split; assumption.
Qed.

Lemma trusted_inv d safe p h st a k key url n c s b : world d safe p h st ->
  h = a ++ Happens (Trusts k key url n c s) :: b ->
  exists st' x now m r offer asm doc resp pop sg, world d safe p a st' /\ st' k = Some x /\ n = cno_expected x
    /\ url = im_credential_issuer m /\ s = er_subject_id resp /\ key = pop_public_key pop /\ supplied p a r doc
    /\ evaluate_credential_request d now m r offer asm (Some doc) (Some {| eo_c_nonce := Some x; eo_client_id := c |}) = Ok resp
    /\ er_pop resp = Some pop /\ base64_text url_alphabet false sg (pop_signature pop)
    /\ (safe key -> exists j, In (Happens (Signs key j (pop_message pop))) a).
Proof.
  intros W X.
  destruct (world_prefix d safe p h st (a ++ [Happens (Trusts k key url n c s)]) b W) as [st' W']; [now rewrite <- app_assoc|].
  exact (world_trusts_inv _ _ _ _ _ _ _ _ _ _ _ _ W' eq_refl).
Qed.

(** The key is one that the subject has or had. *)
Lemma key_then d safe p h st a k key url n c s b : lower_case_facts d -> p <> AnyDocument -> world d safe p h st ->
  h = a ++ Happens (Trusts k key url n c s) :: b ->
  exists did doc before since, s = Some did /\ a = before ++ since /\ current before did doc /\ has_key d did doc key
    /\ (p <> Cached -> since = []).
Proof.
  intros L N W X.
  destruct (trusted_inv _ _ _ _ _ _ _ _ _ _ _ _ _ W X)
    as (st1 & x & now & m & r & offer & asm & doc & resp & pop & sg & _ & _ & _ & _ & -> & -> & (did & a1 & a2 & Y & C & P & Q)
        & E & R & _).
  destruct (agree_on_subject _ _ _ _ _ _ _ _ _ _ L E (P N)) as [S _].
  destruct (key_for _ _ _ _ _ _ _ _ _ L E) as (kid & u & j & pop' & _ & U & K & R' & B & S').
  rewrite R in R'. injection R' as <-. rewrite S in S'. injection S' as ->.
  exists (du_did u), doc, a1, a2. split; [exact S|]. split; [exact Y|]. split; [exact C|].
  split; [|exact Q]. exists kid, u, j. auto.
Qed.

Lemma current_key d safe h st a k key url n c s b : lower_case_facts d -> world d safe AsTold h st ->
  h = a ++ Happens (Trusts k key url n c s) :: b ->
  exists did doc, s = Some did /\ current a did doc /\ has_key d did doc key.
Proof.
  intros L W X.
  destruct (key_then d safe AsTold h st a k key url n c s b L ltac:(discriminate) W X) as (did & doc & a1 & a2 & E & Y & C & H & Q).
  rewrite (Q ltac:(discriminate)), app_nil_r in Y. subst a1. exists did, doc. auto.
Qed.

Lemma signed_before d safe p h st a k key url n c did b :
  lower_case_facts d -> dt_round_trips d -> dates_in_range d -> world d safe p h st ->
  h = a ++ Happens (Trusts k key url n c (Some did)) :: b -> safe key -> signed_for a did key url n c.
Proof.
  intros L T D W X S. pose proof (world_network _ _ _ _ _ W) as N.
  destruct (agreement d safe (happened h) st (happened a) k key url n c (Some did) (happened b) L T D N)
    as (j & text & kid & u & I & A1 & A2 & A3 & A4 & A5 & A6).
  - rewrite X, happened_app. reflexivity.
  - exact S.
  - injection A6 as A6. exists j, text, kid, u. apply happened_in in I. auto 10.
Qed.

Lemma current_in {d} (h : list (entry d)) did doc : current h did doc -> In (Registers did doc) h.
Proof. intros (a & b & -> & _). apply in_or_app. right. now left. Qed.

Lemma asked_for d safe h st a k key url n c did b :
  lower_case_facts d -> dt_round_trips d -> dates_in_range d -> world d safe AsTold h st ->
  h = a ++ Happens (Trusts k key url n c (Some did)) :: b -> keeps_its_keys safe a did -> asked a did key url n c.
Proof.
  intros L T D W X K. destruct (current_key _ _ _ _ _ _ _ _ _ _ _ _ L W X) as (did' & doc & E & C & H).
  injection E as <-. split; [now exists doc|].
  apply (signed_before d safe AsTold h st a k key url n c did b L T D W X). exact (K doc key (current_in _ _ _ C) H).
Qed.

Lemma asked_for_once d safe h st a k key url n c did b :
  lower_case_facts d -> dt_round_trips d -> dates_in_range d -> world d safe Cached h st ->
  h = a ++ Happens (Trusts k key url n c (Some did)) :: b -> keeps_its_keys safe a did -> asked_once a did key url n c.
Proof.
  intros L T D W X K.
  destruct (key_then d safe Cached h st a k key url n c (Some did) b L ltac:(discriminate) W X)
    as (did' & doc & a1 & a2 & E & Y & C & H & _).
  injection E as <-.
  assert (I : In (Registers did doc) a) by (rewrite Y; apply in_or_app; left; now apply current_in).
  split; [now exists doc|].
  apply (signed_before d safe Cached h st a k key url n c did b L T D W X). exact (K doc key I H).
Qed.

(** A key is of no use once the DID has a document without it. *)
Lemma replaced d safe h st a did doc b k key url n c : lower_case_facts d -> world d safe AsTold h st ->
  h = a ++ Registers did doc :: b -> (forall doc', In (Registers did doc') b -> ~ has_key d did doc' key) ->
  ~ has_key d did doc key -> ~ In (Happens (Trusts k key url n c (Some did))) b.
Proof.
  intros L W X F N I. apply in_split in I as (b1 & b2 & ->).
  destruct (current_key d safe h st (a ++ Registers did doc :: b1) k key url n c (Some did) b2 L W)
    as (did' & doc' & E & (a3 & b3 & Y & Z) & H).
  { rewrite X, <- app_assoc. reflexivity. }
  injection E as <-.
  assert (J : In (Registers did doc') b1 \/ doc' = doc).
  { clear - Y Z. revert a3 Y. induction a as [|x a IH]; intros [|y a3] Y; cbn [app] in Y.
    - injection Y as -> _. now right.
    - injection Y as _ ->. left. apply in_or_app. right. now left.
    - injection Y as _ <-. exfalso. apply (Z doc). apply in_or_app. right. now left.
    - injection Y as _ Y. exact (IH a3 Y). }
  destruct J as [J| ->]; [|exact (N H)].
  apply (F doc'); [|exact H]. apply in_or_app. now left.
Qed.

(** Who asks every time also does what somebody with a cache does. *)
Lemma told_cached d safe h st : world d safe AsTold h st -> world d safe Cached h st.
Proof.
  intros W. induction W as [|h st did doc W IH|h st key j text W IH O S|h st k n W IH F
    |h st k n now m r offer asm doc client resp pop sg W IH K D E R B U].
  - constructor.
  - now constructor.
  - now constructor.
  - now constructor.
  - eapply world_trusts; try eassumption. destruct D as (did & a1 & a2 & X & C & P & Q).
    exists did, a1, a2. split; [exact X|]. split; [exact C|]. split; [intros _; apply P; discriminate|].
    intros N. now contradiction N.
Qed.
