(** Proofs about issuers that check the signature of the token themselves. *)
From Coq Require Import Lia.
From Verif Require Import Model.Prelude Model.Base64 Model.Json Model.Types Model.Deps Model.Serde Model.Jwt
  Model.AccessToken Model.CredentialIssuer Model.Wire
  Spec SpecToken SpecOffer SpecJwt SpecSession SpecEvaluation SpecDocuments SpecEvidence SpecRelay SpecAgreement SpecCareful SpecDots SpecDirect
  Proofs.StrFacts Proofs.Base64Facts Proofs.Base64Bits Proofs.JsonFacts Proofs.JwtFacts Proofs.EvalFacts Proofs.EvalFacts2
  Proofs.EvalFacts3 Proofs.EvidenceFacts Proofs.MethodFacts Proofs.FormedFacts Proofs.SessionFacts Proofs.AgreementFacts Proofs.ProbeFacts Proofs.SuitsFacts.

Lemma base64_dotless t s : base64_text url_alphabet false t s -> dotless s.
Proof. intros B. apply base64_text_url in B. rewrite B. apply base64url_no_dot. Qed.

Lemma base64_same t t' s : base64_text url_alphabet false t s -> base64_text url_alphabet false t' s -> t = t'.
Proof. rewrite <- !is_base64. congruence. Qed.

Lemma input_parts hs bs : dotless hs -> dotless bs -> token_parts (hs ++ lit "." ++ bs) hs bs None.
Proof. intros H B. now constructor. Qed.

(** Two proofs with the same signing input are the same, but for the signature. *)
Lemma standard_same d j j' text : standard_text d j text -> standard_text d j' text ->
  j_header j = j_header j' /\ j_body j = j_body j'.
Proof.
  intros (h & b & hs & bs & H & B & Eh & Eb & ->) (h' & b' & hs' & bs' & H' & B' & Eh' & Eb' & E).
  pose proof (input_parts hs bs (base64_dotless _ _ Eh) (base64_dotless _ _ Eb)) as P.
  pose proof (input_parts hs' bs' (base64_dotless _ _ Eh') (base64_dotless _ _ Eb')) as P'. rewrite <- E in P'.
  destruct (token_parts_det _ _ _ _ _ _ _ P P') as (-> & -> & _).
  rewrite (base64_same _ _ _ Eh Eh') in H. rewrite (base64_same _ _ _ Eb Eb') in B. split; congruence.
Qed.

(** A signing input is none of the other texts that wallets sign. *)
Lemma signed_standard d j j' text : standard_text d j' text -> signing_text d j text -> standard_text d j text.
Proof.
  intros S [H|[H|H]]; [exact H|exfalso; exact (not_standard _ _ j _ S H)|exfalso].
  apply (proj1 (message_method d j)) in H. apply message_prefix in H as [r H].
  destruct S as (h & b & hs & bs & _ & _ & B & _ & ->). unfold raw_text in H.
  destruct (header_json_brace (j_header j)) as [x X]. rewrite X in H.
  destruct hs as [|y hs]; cbn [app] in H; [discriminate|]. injection H as <- _.
  apply is_base64 in B. rewrite brace_not_base64 in B. discriminate.
Qed.

(** The signing input of a token that is read. *)
Lemma token_input d verifies key token j input sg : proof_token d token j -> jws_signed verifies key token input sg ->
  standard_text d j input.
Proof.
  intros T (hs & bs & sig & H & B & -> & -> & _).
  apply proof_token_iff, from_str_iff in T. destruct T as (hs' & bs' & tail & ht & bt & P & E1 & E2 & H1 & H2 & _).
  assert (P' : token_parts ((hs ++ lit "." ++ bs) ++ lit "." ++ sig) hs bs (Some sig)).
  { rewrite <- !app_assoc. now constructor. }
  destruct (token_parts_det _ _ _ _ _ _ _ P P') as (-> & -> & _).
  exists ht, bt, hs, bs. auto.
Qed.

Lemma chk_signs_ok d safe h st key j text : checking d safe h st -> In (Signs key j text) h ->
  proof_jwt_ok j /\ signing_text d j text.
Proof.
  intros H. induction H as [|h st key' j' text' H IH P S|h st k n H IH F|h st k n now m r offer asm doc client resp pop p i sg H IH K E R C U].
  - intros [].
  - intros I. apply in_app_or in I as [I|[I|[]]]; [auto|]. now injection I as -> -> ->.
  - intros I. apply in_app_or in I as [I|[I|[]]]; [auto|discriminate].
  - intros I. apply in_app_or in I as [I|[I|[]]]; [auto|discriminate].
Qed.

Lemma chk_invariant d safe h st : checking d safe h st ->
  (forall k n, st k = Some n -> In (Gives k (cno_expected n)) h /\ ~ trusted_nonce (cno_expected n) h)
  /\ (forall k k' n n', st k = Some n -> st k' = Some n' -> cno_expected n = cno_expected n' -> k = k')
  /\ (forall n, trusted_nonce n h -> In n (nonces_given h)).
Proof.
  intros H. induction H as [|h st key j text H IH P S|h st k n H IH F|h st k n now m r offer asm doc client resp pop p i sg H IH K E R C U].
  - split; [|split]; try discriminate. intros n (k & key & url & c & s & []).
  - destruct IH as (I1 & I2 & I3).
    assert (T : forall n, trusted_nonce n (h ++ [Signs key j text]) -> trusted_nonce n h).
    { intros n (k & key' & url & c & s & I). apply in_app_or in I as [I|[I|[]]]; [|discriminate]. now exists k, key', url, c, s. }
    split; [|split; [exact I2|]].
    + intros k n K. destruct (I1 k n K) as [J1 J2]. split; [now apply in_or_app; left|]. intros X. now apply J2, T.
    + intros n X. rewrite nonces_given_app. apply in_or_app. left. auto.
  - destruct IH as (I1 & I2 & I3).
    assert (T : forall x, trusted_nonce x (h ++ [Gives k (cno_expected n)]) -> trusted_nonce x h).
    { intros x (k' & key' & url & c & s & I). apply in_app_or in I as [I|[I|[]]]; [|discriminate]. now exists k', key', url, c, s. }
    split; [|split].
    + intros k' n' K. unfold store in K. destruct (N.eqb_spec k' k) as [->|D].
      * injection K as <-. split; [apply in_or_app; right; now left|]. intros X. now apply F, I3, T.
      * destruct (I1 k' n' K) as [J1 J2]. split; [now apply in_or_app; left|]. intros X. now apply J2, T.
    + intros k1 k2 n1 n2 K1 K2 E. unfold store in K1, K2.
      destruct (N.eqb_spec k1 k) as [->|D1]; destruct (N.eqb_spec k2 k) as [->|D2]; [reflexivity| | |eauto].
      * injection K1 as <-. exfalso. apply F. rewrite E. apply (given_in h k2). now apply I1.
      * injection K2 as <-. exfalso. apply F. rewrite <- E. apply (given_in h k1). now apply I1.
    + intros x X. rewrite nonces_given_app. apply in_or_app. left. auto.
  - destruct IH as (I1 & I2 & I3). split; [|split].
    + intros k' n' K'. unfold store in K'. destruct (N.eqb_spec k' k) as [->|D]; [discriminate|].
      destruct (I1 k' n' K') as [J1 J2]. split; [now apply in_or_app; left|].
      intros (k2 & key & url & c & s & I). apply in_app_or in I as [I|[I|[]]].
      * apply J2. now exists k2, key, url, c, s.
      * injection I as _ _ _ I _ _. apply D. symmetry. exact (I2 k k' n n' K K' I).
    + intros k1 k2 n1 n2 K1 K2. unfold store in K1, K2.
      destruct (N.eqb_spec k1 k) as [->|D1]; destruct (N.eqb_spec k2 k) as [->|D2]; try discriminate. eauto.
    + intros x (k2 & key & url & c & s & I). rewrite nonces_given_app. apply in_or_app. left.
      apply in_app_or in I as [I|[I|[]]]; [apply I3; now exists k2, key, url, c, s|].
      injection I as _ _ _ <- _ _. apply (given_in h k). now apply I1.
Qed.

Lemma chk_prefix d safe h st a b : checking d safe h st -> h = a ++ b -> exists st', checking d safe a st'.
Proof.
  intros H. revert a b. induction H as [|h st key' j' text' H IH P S|h st k n H IH F|h st k n now m r offer asm doc client resp pop p i sg H IH K E R C U];
    intros a b X.
  - symmetry in X. apply app_eq_nil in X as [-> ->]. eexists. constructor.
  - destruct b as [|y b] using rev_ind; [rewrite app_nil_r in X; subst a; eexists; constructor; eassumption|].
    clear IHb. rewrite app_assoc in X. apply app_inj_tail in X as [X _]. eauto.
  - destruct b as [|y b] using rev_ind; [rewrite app_nil_r in X; subst a; eexists; constructor; eassumption|].
    clear IHb. rewrite app_assoc in X. apply app_inj_tail in X as [X _]. eauto.
  - destruct b as [|y b] using rev_ind; [rewrite app_nil_r in X; subst a; eexists; eapply chk_trusts; eassumption|].
    clear IHb. rewrite app_assoc in X. apply app_inj_tail in X as [X _]. eauto.
Qed.

Lemma chk_inv d safe h st a k key url n c s : checking d safe h st -> h = a ++ [Trusts k key url n c s] ->
  exists st' x now m r offer asm doc resp pop p i sg, checking d safe a st' /\ st' k = Some x /\ n = cno_expected x
    /\ url = im_credential_issuer m /\ s = er_subject_id resp /\ key = pop_public_key pop
    /\ evaluate_credential_request d now m r offer asm doc (with_nonce x c) = Ok resp
    /\ er_pop resp = Some pop /\ cr_proof r = Some p
    /\ jws_signed (fun key text _ => safe key -> exists j, In (Signs key j text) a) key (rp_jwt p) i sg.
Proof.
  intros H X. destruct H as [|h st key' j' text' H P S|h st k' n' H F|h st k' n' now m r offer asm doc client resp pop p i sg H K E R C U].
  - symmetry in X. apply app_eq_nil in X as [_ X]. discriminate.
  - apply app_inj_tail in X as [_ X]. discriminate.
  - apply app_inj_tail in X as [_ X]. discriminate.
  - apply app_inj_tail in X as [<- X]. injection X as <- <- <- <- <- <-.
    exists st, n', now, m, r, offer, asm, doc, resp, pop, p, i, sg. repeat split; assumption.
Qed.

Lemma chk_agreement d safe h st a k key url n c s b :
  lower_case_facts d -> checking d safe h st -> h = a ++ Trusts k key url n c s :: b -> safe key ->
  exists j text kid u, In (Signs key j text) a /\ standard_text d j text
     /\ b_aud (j_body j) = url /\ b_nonce (j_body j) = n /\ (forall x, c = Some x -> b_iss (j_body j) = Some x)
     /\ h_additional (j_header j) = Some (KeyId kid) /\ did_url_try_from d kid = inr u /\ s = Some (du_did u).
Proof.
  intros HL H X SK.
  destruct (chk_prefix d safe h st (a ++ [Trusts k key url n c s]) b H) as [st' H']; [now rewrite <- app_assoc|].
  destruct (chk_inv _ _ _ _ _ _ _ _ _ _ _ H' eq_refl)
    as (st1 & x & now & m & r & offer & asm & doc & resp & pop & p & i & sg & H1 & _ & -> & -> & -> & -> & E & R & C & U).
  pose proof (accepted_inv _ _ _ _ _ _ _ _ _ HL E) as A.
  destruct A as (_ & _ & o & p' & j' & n' & doc' & kid & u & k' & opts & pop' & _ & Eo & En & _ & _ & P & T & _ & Nn & Au & Is
    & Ad & Du & _ & _ & Ep & _ & _ & _ & _ & Su & _).
  injection Eo as <-. cbn [eo_c_nonce] in En. injection En as <-. rewrite C in P. injection P as <-.
  pose proof (token_input _ _ _ _ _ _ _ T U) as S'. destruct U as (_ & _ & _ & _ & _ & _ & _ & _ & U).
  destruct (U SK) as [j I]. destruct (chk_signs_ok _ _ _ _ _ _ _ H1 I) as [_ S].
  apply (signed_standard _ _ _ _ S') in S. destruct (standard_same _ _ _ _ S S') as [E1 E2].
  exists j, i, kid, u. rewrite E1, E2. repeat split; try assumption. intros y ->. exact Is.
Qed.

Lemma chk_once d safe h st a k key url n c s b : checking d safe h st -> h = a ++ Trusts k key url n c s :: b ->
  In (Gives k n) a /\ forall k' key' url' c' s', ~ In (Trusts k' key' url' n c' s') (a ++ b).
Proof.
  intros H X.
  destruct (chk_prefix d safe h st (a ++ [Trusts k key url n c s]) b H) as [st' H']; [now rewrite <- app_assoc|].
  destruct (chk_inv _ _ _ _ _ _ _ _ _ _ _ H' eq_refl)
    as (st1 & x & now & m & r & offer & asm & doc & resp & pop & p & i & sg & H1 & K & -> & _).
  destruct (chk_invariant d safe a st1 H1) as (I1 & _ & _). destruct (I1 k x K) as [J1 J2].
  split; [exact J1|]. intros k' key' url' c' s' I. apply in_app_or in I as [I|I].
  - apply J2. now exists k', key', url', c', s'.
  - apply in_split in I as (b1 & b2 & ->).
    destruct (chk_prefix d safe h st (a ++ Trusts k key url (cno_expected x) c s :: b1
      ++ [Trusts k' key' url' (cno_expected x) c' s']) b2 H) as [st2 H2].
    { rewrite X, <- app_assoc. cbn [app]. now rewrite <- app_assoc. }
    destruct (chk_inv d safe _ st2 (a ++ Trusts k key url (cno_expected x) c s :: b1) k' key' url' (cno_expected x) c' s' H2)
      as (st3 & y & now' & m' & r' & offer' & asm' & doc' & resp' & pop' & p' & i' & sg' & H3 & K3 & Ey & _).
    { now rewrite <- app_assoc. }
    destruct (chk_invariant d safe _ st3 H3) as (I3 & _ & _). destruct (I3 k' y K3) as [_ N].
    apply N. rewrite <- Ey. exists k, key, url, c, s. apply in_or_app. right. now left.
Qed.

(** Everyone who has a key is served. *)
Lemma chk_served d safe h st k n now m (o : credential_offer) doc client kid key (sign : str -> str) :
  lower_case_facts d -> dt_round_trips d -> checking d safe h st -> st k = Some n -> can_go_on now m n client ->
  usable_key d doc kid key ->
  exists j text r p resp subject st', standard_text d j text /\ j_signature j = Some (base64url_encode (sign text))
    /\ evaluate_credential_request d now m r (Some o) None (Some doc) (with_nonce n client) = Ok resp
    /\ cr_proof r = Some p /\ rp_jwt p = text ++ lit "." ++ base64url_encode (sign text)
    /\ er_subject_id resp = subject
    /\ checking d safe ((h ++ [Signs key j text])
         ++ [Trusts k key (im_credential_issuer m) (cno_expected n) client subject]) st'.
Proof.
  intros L D H K (M & R & T & N & C & I) (KR & kk & Y & B).
  set (kn := {| k_nonce := cno_expected n; k_iss := client; k_aud := im_credential_issuer m |}).
  set (sg := fun text => base64url_encode (sign text)).
  assert (BT : forall s, base64_text url_alphabet false (sign s) (sg s)) by (intros s; apply base64_text_url; reflexivity).
  assert (S : forall s : str, rust_string (sg s) /\ dotless (sg s)).
  { intros s. split; [exact (base64_rust_string _ _ (BT s))|apply base64url_no_dot]. }
  destruct Y as (u & vm & U & Y1 & Y2). assert (Y : document_key d doc kid kk) by (exists u, vm; auto).
  assert (T1 : in_instant_range 0%Z = true) by reflexivity.
  destruct (all_known d EdDSA kid 0%Z sg (JwtVcJson [] None None) L D KR T1 S m o doc n client u kk key M R C U Y B
    now kn T (conj N (conj C I)) eq_refl eq_refl eq_refl) as (resp & E & F & _).
  pose proof (token_read d EdDSA kid 0%Z sg D KR T1 S kn (conj N (conj C I))) as TR.
  pose proof (accepted_inv _ _ _ _ _ _ _ _ _ L E) as A.
  destruct A as (_ & _ & o' & p & j' & n' & doc' & kid' & u' & k' & opts & pop & _ & _ & _ & _ & _ & P & T' & _ & _ & _ & _
    & Ad & Du & Ed & Dk & Ep & _ & Pk & _ & _ & Su & _).
  injection P as <-. cbn [rp_jwt] in T'.
  pose proof (proof_token_det _ _ _ _ T' TR) as ->. injection Ad as <-. injection Ed as <-.
  set (text := input_of d EdDSA kid 0%Z kn) in *.
  assert (PK : pop_public_key pop = key).
  { rewrite (document_key_det _ _ _ _ _ Dk Y) in Pk. clear - Pk B.
    destruct B as [? ? B|? ? B]; inversion Pk as [? ? Q|? ? Q]; congruence. }
  assert (ST : standard_text d (proof_of EdDSA kid 0%Z kn (sg text)) text).
  { eapply token_input; [exact TR|].
    exists (base64url_encode (header_to_json (j_header (proof_of EdDSA kid 0%Z kn [])))),
      (base64url_encode (claims_to_json d (j_body (proof_of EdDSA kid 0%Z kn [])))), (sg text).
    split; [apply base64url_no_dot|]. split; [apply base64url_no_dot|]. split; [reflexivity|]. split; [reflexivity|].
    split; [apply BT|]. instantiate (1 := []). instantiate (1 := fun _ _ _ => True). exact Logic.I. }
  exists (proof_of EdDSA kid 0%Z kn (sg text)), text, (request_of d EdDSA kid 0%Z sg (JwtVcJson [] None None) kn).
  eexists. exists resp, (er_subject_id resp), (store st k None).
  split; [exact ST|]. split; [reflexivity|]. split; [exact E|]. split; [reflexivity|]. split; [reflexivity|].
  split; [reflexivity|]. rewrite <- PK.
  eapply (chk_trusts d safe _ st k n now m _ (Some o) None (Some doc) client resp pop); [|exact K|exact E|exact Ep|reflexivity|].
  - constructor; [exact H| |now left].
    split; [|split; [|split]].
    + split; [apply rust_string_ascii; reflexivity|]. intros s [X|[X|X]]; try discriminate X. injection X as <-. exact KR.
    + repeat split; cbn; try assumption. now intros ? [=].
    + repeat split; cbn; try assumption; now intros ? [=].
    + intros s [= <-]. apply S.
  - exists (base64url_encode (header_to_json (j_header (proof_of EdDSA kid 0%Z kn [])))),
      (base64url_encode (claims_to_json d (j_body (proof_of EdDSA kid 0%Z kn [])))), (sg text).
    split; [apply base64url_no_dot|]. split; [apply base64url_no_dot|]. split; [reflexivity|]. split; [reflexivity|].
    split; [apply BT|]. intros _. eexists. apply in_or_app. right. now left.
Qed.

Lemma chk_at_most d safe h st key : lower_case_facts d -> checking d safe h st -> safe key ->
  (List.length (filter (trusts_in key) h) <= List.length (filter (signs_with key) h))%nat.
Proof.
  intros HL H SK.
  rewrite <- (map_length trust_nonce (filter (trusts_in key) h)), <- (map_length sign_nonce (filter (signs_with key) h)).
  apply NoDup_incl_length.
  - apply nodup_map_filter. intros a x b X P y I Q E.
    destruct x as [| |k key1 url n c s]; try discriminate. destruct y as [| |k2 key2 url2 n2 c2 s2]; try discriminate.
    cbn [trust_nonce] in E. subst n2.
    destruct (chk_once d safe h st a k key1 url n c s b H X) as [_ N]. exact (N _ _ _ _ _ I).
  - intros n I. apply in_map_iff in I as (x & <- & I). apply filter_In in I as [I P].
    destruct x as [| |k key1 url n c s]; try discriminate. cbn [trusts_in] in P. apply str_eqb_eq in P. subst key1.
    apply in_split in I as (a & b & X).
    destruct (chk_agreement d safe h st a k key url n c s b HL H X SK) as (j & text & kid & u & J & _ & _ & J2 & _).
    apply in_map_iff. exists (Signs key j text). split; [exact J2|]. apply filter_In.
    split; [rewrite X; apply in_or_app; now left|]. cbn [signs_with]. now apply str_eqb_eq.
Qed.
