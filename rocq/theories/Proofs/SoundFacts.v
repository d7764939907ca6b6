(** Proofs about issuers that ask the registry and check the token. *)
From Verif Require Import Model.Prelude Model.Base64 Model.Json Model.Types Model.Deps Model.Serde Model.Jwt
  Model.AccessToken Model.CredentialIssuer Model.Wire
  Spec SpecToken SpecOffer SpecJwt SpecSession SpecEvaluation SpecDocuments SpecEvidence SpecRelay SpecAgreement SpecCareful
  SpecDots SpecDirect SpecRegistry SpecIdentity SpecSound
  Proofs.StrFacts Proofs.Base64Facts Proofs.Base64Bits Proofs.JsonFacts Proofs.JwtFacts Proofs.EvalFacts Proofs.EvalFacts2
  Proofs.EvalFacts3 Proofs.SessionFacts Proofs.AgreementFacts Proofs.ProbeFacts Proofs.SuitsFacts
  Proofs.RegistryFacts Proofs.IdentityFacts Proofs.DirectFacts.

Lemma sound_checking d safe h st : sound_world d safe h st -> checking d safe (happened h) st.
Proof.
  intros W. induction W as [|h st did doc W IH|h st key j text W IH O S|h st k n W IH F
    |h st k n now m r offer asm did doc client resp pop p i sg W IH K D U E R C V]; try rewrite happened_app; cbn [happened].
  - constructor.
  - now rewrite app_nil_r.
  - now constructor.
  - now constructor.
  - eapply chk_trusts; try eassumption. destruct V as (hs & bs & sig & V1 & V2 & V3 & V4 & V5 & V).
    exists hs, bs, sig. do 5 (split; [eassumption|]). intros X. destruct (V X) as [j J]. exists j. now apply happened_in.
Qed.

Lemma sound_prefix d safe h st a b : sound_world d safe h st -> h = a ++ b -> exists st', sound_world d safe a st'.
Proof.
  intros W. revert a b. induction W as [|h st did doc W IH|h st key j text W IH O S|h st k n W IH F
    |h st k n now m r offer asm did doc client resp pop p i sg W IH K D U E R C V]; intros a b X;
    [symmetry in X; apply app_eq_nil in X as [-> ->]; eexists; constructor|..];
    (destruct b as [|y b] using rev_ind;
     [rewrite app_nil_r in X; subst a|clear IHb; rewrite app_assoc in X; apply app_inj_tail in X as [X _]; eauto]).
  - eexists. constructor. eassumption.
  - eexists. constructor; eassumption.
  - eexists. constructor; eassumption.
  - eexists. eapply sound_trusts; eassumption.
Qed.

Lemma sound_key d safe h st a k key url n c s b : lower_case_facts d -> sound_world d safe h st ->
  h = a ++ Happens (Trusts k key url n c s) :: b ->
  exists did doc, s = Some did /\ current a did doc /\ has_key d did doc key.
Proof.
  intros L W X.
  destruct (sound_prefix d safe h st (a ++ [Happens (Trusts k key url n c s)]) b W) as [st' W']; [now rewrite <- app_assoc|].
  clear W X. remember (a ++ [Happens (Trusts k key url n c s)]) as h' eqn:X.
  destruct W' as [|h' st' did doc W|h' st' key' j text W O S|h' st' k' n' W F
    |h' st' k' n' now m r offer asm did doc client resp pop p i sg W K D U E R C V].
  - symmetry in X. apply app_eq_nil in X as [_ X]. discriminate.
  - apply app_inj_tail in X as [_ X]. discriminate.
  - apply app_inj_tail in X as [_ X]. discriminate.
  - apply app_inj_tail in X as [_ X]. discriminate.
  - apply app_inj_tail in X as [<- X]. injection X as <- <- <- <- <- <-.
    destruct (agree_on_subject _ _ _ _ _ _ _ _ _ _ L E D) as [S _].
    destruct (key_for _ _ _ _ _ _ _ _ _ L E) as (kid & u & j & pop' & _ & Du & Dk & R' & B & S').
    rewrite R in R'. injection R' as <-. rewrite S in S'. injection S' as ->.
    exists (du_did u), doc. split; [exact S|]. split; [exact U|]. exists kid, u, j. auto.
Qed.

Lemma sound_asked d safe h st a k key url n c did b :
  lower_case_facts d -> sound_world d safe h st ->
  h = a ++ Happens (Trusts k key url n c (Some did)) :: b -> keeps_its_keys safe a did -> asked a did key url n c.
Proof.
  intros L W X K. destruct (sound_key _ _ _ _ _ _ _ _ _ _ _ _ L W X) as (did' & doc & E & C & H).
  injection E as <-. split; [now exists doc|].
  pose proof (sound_checking _ _ _ _ W) as N.
  destruct (chk_agreement d safe (happened h) st (happened a) k key url n c (Some did) (happened b) L N)
    as (j & text & kid & u & I & _ & A1 & A2 & A3 & A4 & A5 & A6).
  - rewrite X, happened_app. reflexivity.
  - exact (K doc key (current_in _ _ _ C) H).
  - injection A6 as A6. exists j, text, kid, u. apply happened_in in I. auto 10.
Qed.

Lemma sound_once d safe h st a k key url n c s b : sound_world d safe h st ->
  h = a ++ Happens (Trusts k key url n c s) :: b ->
  In (Happens (Gives k n)) a /\ forall k' key' url' c' s', ~ In (Happens (Trusts k' key' url' n c' s')) (a ++ b).
Proof.
  intros W X. pose proof (sound_checking _ _ _ _ W) as N.
  destruct (chk_once d safe (happened h) st (happened a) k key url n c s (happened b) N) as [G F].
  - rewrite X, happened_app. reflexivity.
  - split; [now apply happened_in|]. intros k' key' url' c' s' I. apply (F k' key' url' c' s').
    rewrite <- happened_app. now apply happened_in.
Qed.

Lemma sound_lost d safe h st a did doc b k key url n c : lower_case_facts d -> sound_world d safe h st ->
  h = a ++ Registers did doc :: b -> (forall doc', In (Registers did doc') b -> ~ has_key d did doc' key) ->
  ~ has_key d did doc key -> ~ In (Happens (Trusts k key url n c (Some did))) b.
Proof.
  intros L W X F N I. apply in_split in I as (b1 & b2 & ->).
  destruct (sound_key d safe h st (a ++ Registers did doc :: b1) k key url n c (Some did) b2 L W)
    as (did' & doc' & E & (a3 & b3 & Y & Z) & H).
  { rewrite X, <- app_assoc. reflexivity. }
  injection E as <-.
  assert (J : In (Registers did doc') b1 \/ doc' = doc).
  { clear - Y Z. revert a3 Y. induction a as [|x a IH]; intros [|y a3] Y; cbn [app] in Y.
    - injection Y as -> _. now right.
    - injection Y as _ ->. left. apply in_or_app. right. now left.
    - injection Y as _ <-. exfalso. apply (Z doc). apply in_or_app. right. now left.
    - injection Y as _ Y. exact (IH a3 Y). }
  destruct J as [J| ->]; [|exact (N H)].
  apply (F doc'); [|exact H]. apply in_or_app. now left.
Qed.

(** The token of a wallet, evaluated. *)
Lemma served_eval d now m (o : credential_offer) doc n client kid u kk key (sign : str -> str) :
  lower_case_facts d -> dt_round_trips d -> can_go_on now m n client -> rust_string kid ->
  did_url_try_from d kid = inr u -> document_key d doc kid kk -> public_key kk key ->
  exists j text r p resp pop, standard_text d j text /\ proof_jwt_ok j
    /\ evaluate_credential_request d now m r (Some o) None (Some doc) (with_nonce n client) = Ok resp
    /\ er_pop resp = Some pop /\ cr_proof r = Some p /\ rp_proof_type p = lit "jwt"
    /\ rp_jwt p = text ++ lit "." ++ base64url_encode (sign text)
    /\ pop_public_key pop = key /\ er_subject_id resp = Some (du_did u)
    /\ forall V : str -> str -> str -> Prop, V key text (sign text) -> jws_signed V key (rp_jwt p) text (sign text).
Proof.
  intros L D (M & R & T & N & C & I) KR U Y B.
  set (kn := {| k_nonce := cno_expected n; k_iss := client; k_aud := im_credential_issuer m |}).
  set (sg := fun text => base64url_encode (sign text)).
  assert (BT : forall s, base64_text url_alphabet false (sign s) (sg s)) by (intros s; apply base64_text_url; reflexivity).
  assert (S : forall s : str, rust_string (sg s) /\ dotless (sg s)).
  { intros s. split; [exact (base64_rust_string _ _ (BT s))|apply base64url_no_dot]. }
  assert (T1 : in_instant_range 0%Z = true) by reflexivity.
  destruct (all_known d EdDSA kid 0%Z sg (JwtVcJson [] None None) L D KR T1 S m o doc n client u kk key M R C U Y B
    now kn T (conj N (conj C I)) eq_refl eq_refl eq_refl) as (resp & E & F & _).
  pose proof (token_read d EdDSA kid 0%Z sg D KR T1 S kn (conj N (conj C I))) as TR.
  pose proof (accepted_inv _ _ _ _ _ _ _ _ _ L E) as A.
  destruct A as (_ & _ & o' & p & j' & n' & doc' & kid' & u' & k' & opts & pop & _ & _ & _ & _ & _ & P & T' & _ & _ & _ & _
    & Ad & Du & Ed & Dk & Ep & _ & Pk & _ & _ & Su & _).
  injection P as <-. cbn [rp_jwt] in T'.
  pose proof (proof_token_det _ _ _ _ T' TR) as ->. injection Ad as <-. injection Ed as <-.
  set (text := input_of d EdDSA kid 0%Z kn) in *.
  assert (V : forall V : str -> str -> str -> Prop, V key text (sign text) ->
    jws_signed V key (text ++ lit "." ++ sg text) text (sign text)).
  { intros V X. exists (base64url_encode (header_to_json (j_header (proof_of EdDSA kid 0%Z kn [])))),
      (base64url_encode (claims_to_json d (j_body (proof_of EdDSA kid 0%Z kn [])))), (sg text).
    split; [apply base64url_no_dot|]. split; [apply base64url_no_dot|]. split; [reflexivity|]. split; [reflexivity|].
    split; [apply BT|exact X]. }
  exists (proof_of EdDSA kid 0%Z kn (sg text)), text, (request_of d EdDSA kid 0%Z sg (JwtVcJson [] None None) kn).
  eexists. exists resp, pop. split.
  { exact (token_input _ _ _ _ _ _ _ TR (V (fun _ _ _ => True) Logic.I)). }
  split.
  { split; [|split; [|split]].
    - split; [apply rust_string_ascii; reflexivity|]. intros s [X|[X|X]]; try discriminate X. injection X as <-. exact KR.
    - repeat split; cbn; try assumption. now intros ? [=].
    - repeat split; cbn; try assumption; now intros ? [=].
    - intros s [= <-]. apply S. }
  split; [exact E|]. split; [exact Ep|]. split; [reflexivity|]. split; [reflexivity|]. split; [reflexivity|].
  split; [|split; [exact F|exact V]].
  rewrite (document_key_det _ _ _ _ _ Dk Y) in Pk. clear - Pk B.
  destruct B as [? ? B|? ? B]; inversion Pk as [? ? Q|? ? Q]; congruence.
Qed.

Lemma current_happens {d} (h : list (entry d)) did doc e : current h did doc -> current (h ++ [Happens e]) did doc.
Proof.
  intros (a & b & -> & N). exists a, (b ++ [Happens e]). rewrite <- app_assoc. split; [reflexivity|].
  intros doc' I. apply in_app_or in I as [I|[I|[]]]; [exact (N _ I)|discriminate].
Qed.

Lemma sound_served d safe h st k n now m (o : credential_offer) client did key (sign : str -> str) :
  lower_case_facts d -> upper_case_facts d -> dt_round_trips d -> sound_world d safe h st -> st k = Some n ->
  can_go_on now m n client -> owns h did key ->
  exists j text st', standard_text d j text
    /\ sound_world d safe ((h ++ [Happens (Signs key j text)])
         ++ [Happens (Trusts k key (im_credential_issuer m) (cno_expected n) client (Some did))]) st'.
Proof.
  intros L UC D W K G (doc & kid & u & kk & Cu & KR & U & Ed & Y & B).
  destruct (served_eval d now m o doc n client kid u kk key sign L D G KR U Y B)
    as (j & text & r & p & resp & pop & S & O & E & R & C & PT & _ & PK & SU & V).
  exists j, text, (store st k None). split; [exact S|]. rewrite <- Ed, <- SU, <- PK.
  destruct (can_be_told d now m r _ None doc _ resp p L UC E C) as (did' & PE & SD).
  { rewrite PT. apply rust_string_ascii. reflexivity. }
  { rewrite PT. apply same_ascii_ci. reflexivity. }
  rewrite SU in SD. injection SD as <-.
  eapply sound_trusts; [constructor; [exact W|exact O|now left]|exact K|exact PE| |exact E|exact R|exact C|].
  - rewrite Ed. now apply current_happens.
  - rewrite PK. apply V. intros _. exists j. apply in_or_app. right. now left.
Qed.
