(** Proofs about wallets that sign and issuers that check. *)
From Coq Require Import Lia.
From Verif Require Import Model.Prelude Model.Base64 Model.Json Model.Types Model.Deps Model.Serde Model.Jwt
  Model.AccessToken Model.CredentialIssuer Model.Wire
  Spec SpecToken SpecOffer SpecJwt SpecEvaluation SpecDocuments SpecEvidence SpecRelay SpecAgreement
  Proofs.StrFacts Proofs.Base64Facts Proofs.Base64Bits Proofs.JwtFacts Proofs.EvalFacts Proofs.EvalFacts2
  Proofs.EvalFacts3 Proofs.EvidenceFacts Proofs.MethodFacts Proofs.FormedFacts.

(* ---------------- evidence whose signature can be decoded ---------------- *)

Lemma claims_close d b : exists r, claims_to_json d b = r ++ ["}"%char].
Proof. unfold claims_to_json, ser_body. cbn [print]. eexists. rewrite app_assoc. reflexivity. Qed.

Lemma brace_end s r : base64url_encode s <> r ++ ["}"%char].
Proof.
  intros E. pose proof (base64url_chars s) as B. rewrite E, forallb_forall in B.
  assert (I : In "}"%char (r ++ ["}"%char])) by (apply in_or_app; right; now left). apply B in I. discriminate.
Qed.

Lemma last_split (x y : str) c r : x ++ lit "." ++ y = r ++ [c] -> c <> "."%char -> exists y', y = y' ++ [c].
Proof.
  intros E N. destruct y as [|z y] using rev_ind.
  - exfalso. rewrite app_nil_r in E. change (lit ".") with ["."%char] in E.
    apply app_inj_tail in E as [_ E]. now apply N.
  - clear IHy. rewrite !app_assoc in E. apply app_inj_tail in E as [_ E]. subst z. eauto.
Qed.

Lemma decodable d s j pop : lower_case_facts d -> evidence_for d s j pop ->
  (forall sg, base64_text url_alphabet false sg (pop_signature pop) <->
     j_signature j = Some (pop_signature pop) /\ base64_text url_alphabet false sg (pop_signature pop)
     /\ dotless (header_to_json (j_header j)) /\ dotless (claims_to_json d (j_body j)))
  /\ (forall sg, base64_text url_alphabet false sg (pop_signature pop) -> pop_message pop = both_documents d j).
Proof.
  intros HL HE. destruct (evidence_for_inv _ _ _ _ HL HE) as (T & M & A).
  assert (H : forall sg, base64_text url_alphabet false sg (pop_signature pop) ->
     j_signature j = Some (pop_signature pop)
     /\ dotless (header_to_json (j_header j)) /\ dotless (claims_to_json d (j_body j))).
  { intros sg B. apply base64_text_url in B. destruct (j_signature j) as [sig|] eqn:E.
    - pose proof (token_signature_dotless d s j sig T E) as D.
      destruct (signature_suffix _ _ _ _ E D A) as [R|(l & R)].
      + rewrite R. split; [reflexivity|]. apply (signature_segment d j sig E). now rewrite <- R.
      + exfalso. apply (base64url_no_dot sg). rewrite <- B, R. apply in_or_app. right. now left.
    - exfalso. destruct A as (a & b & _ & _ & R). unfold raw_text in R. rewrite E, app_nil_r in R.
      destruct (claims_close d (j_body j)) as [c C]. rewrite C in R. symmetry in R.
      assert (R' : (a ++ lit "." ++ b) ++ lit "." ++ pop_signature pop
                 = (header_to_json (j_header j) ++ lit "." ++ c) ++ ["}"%char]) by (rewrite <- !app_assoc; exact R).
      clear R. rename R' into R. apply last_split in R as [y Y]; [|discriminate]. rewrite Y in B. symmetry in B. now apply brace_end in B. }
  split.
  - intros sg. split; [|now intros (_ & B & _)]. intros B. destruct (H sg B) as (H1 & H2 & H3). auto.
  - intros sg B. destruct (H sg B) as (E & H1 & H2).
    eapply message_of_det; [exact M|]. apply (dotless_message d j _ E); [|exact H1|exact H2].
    exact (token_signature_dotless d s j _ T E).
Qed.

(* ---------------- what was signed ---------------- *)

Lemma not_standard d j j' text : standard_text d j text -> text <> both_documents d j'.
Proof.
  intros (h & b & hs & bs & _ & _ & B & _ & ->) E. unfold both_documents in E.
  destruct (header_json_brace (j_header j')) as [r R]. rewrite R in E.
  destruct hs as [|x hs]; cbn [app] in E; [discriminate|]. injection E as -> _.
  apply is_base64 in B. rewrite brace_not_base64 in B. discriminate.
Qed.

Lemma signed_same d j j' : dt_round_trips d -> proof_jwt_ok j -> header_ok (j_header j') -> body_ok (j_body j') ->
  body_instants_ok (j_body j') -> signing_text d j (both_documents d j') ->
  j_header j = j_header j' /\ j_body j = j_body j'.
Proof.
  intros Hd (H1 & H2 & H3 & _) H4 H5 H6 [S|[S|S]].
  - exfalso. exact (not_standard d j j' _ S eq_refl).
  - unfold both_documents in S. symmetry in S.
    destruct (documents_prefix d (j_header j) (j_header j') (j_body j) (j_body j') [] [] Hd H1 H4 H2 H5 H3 H6)
      as (E1 & E2 & _); [now rewrite !app_nil_r|auto].
  - apply (proj1 (message_method d j)) in S. apply message_prefix in S as [r S].
    unfold raw_text, both_documents in S. rewrite <- !app_assoc in S.
    destruct (documents_prefix d _ _ _ _ _ _ Hd H1 H4 H2 H5 H3 H6 S) as (E1 & E2 & _). auto.
Qed.

(* ---------------- the network ---------------- *)

Lemma nonces_given_app h h' : nonces_given (h ++ h') = nonces_given h ++ nonces_given h'.
Proof. induction h as [|[k j t|k n|k x i n c s] h IH]; cbn [app nonces_given]; [reflexivity|exact IH|now rewrite IH|exact IH]. Qed.

Lemma given_in h k n : In (Gives k n) h -> In n (nonces_given h).
Proof.
  induction h as [|e h IH]; [intros []|]. intros [->|H]; [now left|].
  destruct e; cbn [nonces_given]; auto. right. auto.
Qed.

Definition trusted_nonce (n : str) (h : list happening) : Prop :=
  exists k key url c s, In (Trusts k key url n c s) h.

(** What is stored was given, has not been used and belongs to one session. *)
Lemma network_invariant d safe h st : lower_case_facts d -> network d safe h st ->
  (forall k n, st k = Some n -> In (Gives k (cno_expected n)) h /\ ~ trusted_nonce (cno_expected n) h)
  /\ (forall k k' n n', st k = Some n -> st k' = Some n' -> cno_expected n = cno_expected n' -> k = k')
  /\ (forall n, trusted_nonce n h -> In n (nonces_given h)).
Proof.
  intros HL H. induction H as [|h st key j text H IH P S|h st k n H IH F|h st k n now m r offer asm doc client resp pop sg H IH K E R B U].
  - split; [|split]; try discriminate. intros n (k & key & url & c & s & []).
  - destruct IH as (I1 & I2 & I3).
    assert (T : forall n, trusted_nonce n (h ++ [Signs key j text]) -> trusted_nonce n h).
    { intros n (k & key' & url & c & s & I). apply in_app_or in I as [I|[I|[]]]; [|discriminate]. now exists k, key', url, c, s. }
    split; [|split; [exact I2|]].
    + intros k n K. destruct (I1 k n K) as [J1 J2]. split; [now apply in_or_app; left|]. intros X. now apply J2, T.
    + intros n X. rewrite nonces_given_app. apply in_or_app. left. auto.
  - destruct IH as (I1 & I2 & I3).
    assert (T : forall x, trusted_nonce x (h ++ [Gives k (cno_expected n)]) -> trusted_nonce x h).
    { intros x (k' & key' & url & c & s & I). apply in_app_or in I as [I|[I|[]]]; [|discriminate]. now exists k', key', url, c, s. }
    split; [|split].
    + intros k' n' K. unfold store in K. destruct (N.eqb_spec k' k) as [->|D].
      * injection K as <-. split; [apply in_or_app; right; now left|]. intros X. now apply F, I3, T.
      * destruct (I1 k' n' K) as [J1 J2]. split; [now apply in_or_app; left|]. intros X. now apply J2, T.
    + intros k1 k2 n1 n2 K1 K2 E. unfold store in K1, K2.
      destruct (N.eqb_spec k1 k) as [->|D1]; destruct (N.eqb_spec k2 k) as [->|D2]; [reflexivity| | |eauto].
      * injection K1 as <-. exfalso. apply F. rewrite E. apply (given_in h k2). now apply I1.
      * injection K2 as <-. exfalso. apply F. rewrite <- E. apply (given_in h k1). now apply I1.
    + intros x X. rewrite nonces_given_app. apply in_or_app. left. auto.
  - destruct IH as (I1 & I2 & I3). split; [|split].
    + intros k' n' K'. unfold store in K'. destruct (N.eqb_spec k' k) as [->|D]; [discriminate|].
      destruct (I1 k' n' K') as [J1 J2]. split; [now apply in_or_app; left|].
      intros (k2 & key & url & c & s & I). apply in_app_or in I as [I|[I|[]]].
      * apply J2. now exists k2, key, url, c, s.
      * injection I as _ _ _ I _ _. apply D. symmetry. exact (I2 k k' n n' K K' I).
    + intros k1 k2 n1 n2 K1 K2. unfold store in K1, K2.
      destruct (N.eqb_spec k1 k) as [->|D1]; destruct (N.eqb_spec k2 k) as [->|D2]; try discriminate. eauto.
    + intros x (k2 & key & url & c & s & I). rewrite nonces_given_app. apply in_or_app. left.
      apply in_app_or in I as [I|[I|[]]]; [apply I3; now exists k2, key, url, c, s|].
      injection I as _ _ _ <- _ _. apply (given_in h k). now apply I1.
Qed.

Lemma signs_ok d safe h st key j text : network d safe h st -> In (Signs key j text) h ->
  proof_jwt_ok j /\ signing_text d j text.
Proof.
  intros H. induction H as [|h st key' j' text' H IH P S|h st k n H IH F|h st k n now m r offer asm doc client resp pop sg H IH K E R B U].
  - intros [].
  - intros I. apply in_app_or in I as [I|[I|[]]]; [auto|]. now injection I as -> -> ->.
  - intros I. apply in_app_or in I as [I|[I|[]]]; [auto|discriminate].
  - intros I. apply in_app_or in I as [I|[I|[]]]; [auto|discriminate].
Qed.

(** One step that trusts. *)
Lemma trust_step d safe h st n now m r offer asm doc client resp pop sg :
  lower_case_facts d -> dt_round_trips d -> dates_in_range d -> network d safe h st ->
  evaluate_credential_request d now m r offer asm doc (Some {| eo_c_nonce := Some n; eo_client_id := client |}) = Ok resp ->
  er_pop resp = Some pop -> base64_text url_alphabet false sg (pop_signature pop) ->
  (exists j, In (Signs (pop_public_key pop) j (pop_message pop)) h) ->
  exists j kid u, In (Signs (pop_public_key pop) j (pop_message pop)) h /\ pop_message pop = both_documents d j
    /\ ~ standard_text d j (pop_message pop)
    /\ b_aud (j_body j) = im_credential_issuer m /\ b_nonce (j_body j) = cno_expected n
    /\ (forall c, client = Some c -> b_iss (j_body j) = Some c)
    /\ h_additional (j_header j) = Some (KeyId kid) /\ did_url_try_from d kid = inr u
    /\ er_subject_id resp = Some (du_did u).
Proof.
  intros HL Hd Hr H E R B (j & I). pose proof (accepted_inv _ _ _ _ _ _ _ _ _ HL E) as A.
  destruct A as (_ & _ & o & p & j' & n' & doc' & kid & u & key & opts & pop' & _ & Eo & En & _ & _ & P & T & _ & Nn & Au & Is
    & Ad & Du & _ & _ & Ep & _ & _ & _ & _ & Su & _).
  injection Eo as <-. cbn [eo_c_nonce] in En. injection En as <-. rewrite R in Ep. injection Ep as <-.
  assert (V : evidence_for d (rp_jwt p) j' pop) by (exists now, m, r, offer, asm, doc; do 3 eexists; eauto).
  pose proof (proj2 (decodable _ _ _ _ HL V) sg B) as M.
  destruct (signs_ok _ _ _ _ _ _ _ H I) as [O S].
  assert (G := T). apply proof_token_iff in G. destruct (token_formed _ _ _ Hr G) as (G1 & G2 & G3 & _).
  rewrite M in S. destruct (signed_same d j j' Hd O G1 G2 G3 S) as [E1 E2].
  exists j, kid, u. split; [exact I|]. rewrite M. unfold both_documents. rewrite E1, E2. split; [reflexivity|].
  split; [intros X; exact (not_standard _ _ j' _ X eq_refl)|].
  repeat split; try assumption. intros c ->. exact Is.
Qed.

Lemma network_prefix d safe h st a b : network d safe h st -> h = a ++ b -> exists st', network d safe a st'.
Proof.
  intros H. revert a b. induction H as [|h st key' j' text' H IH P S|h st k n H IH F|h st k n now m r offer asm doc client resp pop sg H IH K E R B U];
    intros a b X.
  - symmetry in X. apply app_eq_nil in X as [-> ->]. eexists. constructor.
  - destruct b as [|y b] using rev_ind; [rewrite app_nil_r in X; subst a; eexists; constructor; eassumption|].
    clear IHb. rewrite app_assoc in X. apply app_inj_tail in X as [X _]. eauto.
  - destruct b as [|y b] using rev_ind; [rewrite app_nil_r in X; subst a; eexists; constructor; eassumption|].
    clear IHb. rewrite app_assoc in X. apply app_inj_tail in X as [X _]. eauto.
  - destruct b as [|y b] using rev_ind; [rewrite app_nil_r in X; subst a; eexists; eapply net_trusts; eassumption|].
    clear IHb. rewrite app_assoc in X. apply app_inj_tail in X as [X _]. eauto.
Qed.

Lemma trusts_inv d safe h st a k key url n c s : network d safe h st -> h = a ++ [Trusts k key url n c s] ->
  exists st' x now m r offer asm doc resp pop sg, network d safe a st' /\ st' k = Some x /\ n = cno_expected x
    /\ url = im_credential_issuer m /\ s = er_subject_id resp /\ key = pop_public_key pop
    /\ evaluate_credential_request d now m r offer asm doc (Some {| eo_c_nonce := Some x; eo_client_id := c |}) = Ok resp
    /\ er_pop resp = Some pop /\ base64_text url_alphabet false sg (pop_signature pop)
    /\ (safe key -> exists j, In (Signs key j (pop_message pop)) a).
Proof.
  intros H X. destruct H as [|h st key' j' text' H P S|h st k' n' H F|h st k' n' now m r offer asm doc client resp pop sg H K E R B U].
  - symmetry in X. apply app_eq_nil in X as [_ X]. discriminate.
  - apply app_inj_tail in X as [_ X]. discriminate.
  - apply app_inj_tail in X as [_ X]. discriminate.
  - apply app_inj_tail in X as [<- X]. injection X as <- <- <- <- <- <-. rewrite K in E.
    exists st, n', now, m, r, offer, asm, doc, resp, pop, sg. repeat split; assumption.
Qed.

Lemma agreement d safe h st a k key url n c s b :
  lower_case_facts d -> dt_round_trips d -> dates_in_range d -> network d safe h st ->
  h = a ++ Trusts k key url n c s :: b -> safe key ->
  (exists j text kid u, In (Signs key j text) a
     /\ b_aud (j_body j) = url /\ b_nonce (j_body j) = n /\ (forall x, c = Some x -> b_iss (j_body j) = Some x)
     /\ h_additional (j_header j) = Some (KeyId kid) /\ did_url_try_from d kid = inr u /\ s = Some (du_did u)).
Proof.
  intros HL Hd Hr H X SK.
  destruct (network_prefix d safe h st (a ++ [Trusts k key url n c s]) b H) as [st' H']; [now rewrite <- app_assoc|].
  destruct (trusts_inv _ _ _ _ _ _ _ _ _ _ _ H' eq_refl)
    as (st1 & x & now & m & r & offer & asm & doc & resp & pop & sg & H1 & _ & -> & -> & -> & -> & E & R & B & U).
  destruct (trust_step d safe a st1 x now m r offer asm doc c resp pop sg HL Hd Hr H1 E R B (U SK))
    as (j & kid & u & J1 & _ & _ & J2 & J3 & J4 & J5 & J6 & J7).
  exists j, (pop_message pop), kid, u. auto 10.
Qed.

Lemma agreement_once d safe h st a k key url n c s b :
  lower_case_facts d -> network d safe h st -> h = a ++ Trusts k key url n c s :: b ->
  In (Gives k n) a /\ forall k' key' url' c' s', ~ In (Trusts k' key' url' n c' s') (a ++ b).
Proof.
  intros HL H X.
  destruct (network_prefix d safe h st (a ++ [Trusts k key url n c s]) b H) as [st' H']; [now rewrite <- app_assoc|].
  destruct (trusts_inv _ _ _ _ _ _ _ _ _ _ _ H' eq_refl)
    as (st1 & x & now & m & r & offer & asm & doc & resp & pop & sg & H1 & K & -> & _).
  destruct (network_invariant d safe a st1 HL H1) as (I1 & _ & _). destruct (I1 k x K) as [J1 J2].
  split; [exact J1|]. intros k' key' url' c' s' I. apply in_app_or in I as [I|I].
  - apply J2. now exists k', key', url', c', s'.
  - apply in_split in I as (b1 & b2 & ->).
    destruct (network_prefix d safe h st (a ++ Trusts k key url (cno_expected x) c s :: b1
      ++ [Trusts k' key' url' (cno_expected x) c' s']) b2 H) as [st2 H2].
    { rewrite X, <- app_assoc. cbn [app]. now rewrite <- app_assoc. }
    destruct (trusts_inv d safe _ st2 (a ++ Trusts k key url (cno_expected x) c s :: b1) k' key' url' (cno_expected x) c' s' H2)
      as (st3 & y & now' & m' & r' & offer' & asm' & doc' & resp' & pop' & sg' & H3 & K3 & Ey & _).
    { now rewrite <- app_assoc. }
    destruct (network_invariant d safe _ st3 HL H3) as (I3 & _ & _). destruct (I3 k' y K3) as [_ N].
    apply N. rewrite <- Ey. exists k, key, url, c, s. apply in_or_app. right. now left.
Qed.

Lemma standard_never d safe h st key :
  lower_case_facts d -> dt_round_trips d -> dates_in_range d -> network d safe h st -> safe key ->
  (forall j text, In (Signs key j text) h -> standard_text d j text) ->
  forall k url n c s, ~ In (Trusts k key url n c s) h.
Proof.
  intros HL Hd Hr H SK F k url n c s I. apply in_split in I as (a & b & X).
  destruct (network_prefix d safe h st (a ++ [Trusts k key url n c s]) b H) as [st' H']; [now rewrite <- app_assoc|].
  destruct (trusts_inv _ _ _ _ _ _ _ _ _ _ _ H' eq_refl)
    as (st1 & x & now & m & r & offer & asm & doc & resp & pop & sg & H1 & _ & -> & -> & -> & -> & E & R & B & U).
  destruct (trust_step d safe a st1 x now m r offer asm doc c resp pop sg HL Hd Hr H1 E R B (U SK))
    as (j & kid & u & J1 & _ & J & _).
  apply J, F. rewrite X. apply in_or_app. now left.
Qed.

(* ---------------- counting ---------------- *)

Definition trust_nonce (e : happening) : str := match e with Trusts _ _ _ n _ _ => n | _ => [] end.
Definition sign_nonce (e : happening) : str := match e with Signs _ j _ => b_nonce (j_body j) | _ => [] end.

Lemma nodup_map_filter {A B} (f : A -> B) (p : A -> bool) l :
  (forall a x b, l = a ++ x :: b -> p x = true -> forall y, In y (a ++ b) -> p y = true -> f y <> f x) ->
  NoDup (map f (filter p l)).
Proof.
  induction l as [|x l IH]; intros H; [constructor|]. cbn [filter]. 
  assert (R : NoDup (map f (filter p l))).
  { apply IH. intros a z b -> Pz y I Py. apply (H (x :: a) z b); auto. now right. }
  destruct (p x) eqn:P; [|exact R]. constructor; [|exact R].
  intros I. apply in_map_iff in I as (y & E & I). apply filter_In in I as [I Py].
  exact (H [] x l eq_refl P y I Py E).
Qed.

Lemma trusted_at_most d safe h st key :
  lower_case_facts d -> dt_round_trips d -> dates_in_range d -> network d safe h st -> safe key ->
  (List.length (filter (trusts_in key) h) <= List.length (filter (signs_with key) h))%nat.
Proof.
  intros HL Hd Hr H SK.
  rewrite <- (map_length trust_nonce (filter (trusts_in key) h)), <- (map_length sign_nonce (filter (signs_with key) h)).
  apply NoDup_incl_length.
  - apply nodup_map_filter. intros a x b X P y I Q E.
    destruct x as [| |k key1 url n c s]; try discriminate. destruct y as [| |k2 key2 url2 n2 c2 s2]; try discriminate.
    cbn [trust_nonce] in E. subst n2.
    destruct (agreement_once d safe h st a k key1 url n c s b HL H X) as [_ N]. exact (N _ _ _ _ _ I).
  - intros n I. apply in_map_iff in I as (x & <- & I). apply filter_In in I as [I P].
    destruct x as [| |k key1 url n c s]; try discriminate. cbn [trusts_in] in P. apply str_eqb_eq in P. subst key1.
    apply in_split in I as (a & b & X).
    destruct (agreement d safe h st a k key url n c s b HL Hd Hr H X SK) as (j & text & kid & u & J & _ & J2 & _).
    apply in_map_iff. exists (Signs key j text). split; [exact J2|]. apply filter_In.
    split; [rewrite X; apply in_or_app; now left|]. cbn [signs_with]. now apply str_eqb_eq.
Qed.
