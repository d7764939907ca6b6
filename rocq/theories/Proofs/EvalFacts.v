From Coq Require Import Lia ZifyBool ZifyN ZifyNat.
From Verif Require Import Model.Prelude Model.Utf8 Model.Base64 Model.Json Model.Types Model.Deps
  Model.Serde Model.Errors Model.Jwt Model.AccessToken Model.CredentialIssuer Model.Wire
  Spec SpecToken SpecOffer SpecJwt SpecEvaluation
  Proofs.StrFacts Proofs.Utf8Facts Proofs.Base64Facts Proofs.Base64Bits Proofs.JsonFacts
  Proofs.ReaderFacts Proofs.SerdeFacts Proofs.TokenFacts Proofs.OfferFacts Proofs.JwtFacts.

(* ---------------- chains of checks ---------------- *)

Definition step {A} (c : check) (x : res issuer_error A) : Prop :=
  match x with
  | Ok _ => passes c /\ (forall e, ~ reports c e) /\ ~ panics c
  | Err e => ~ passes c /\ (forall e', reports c e' <-> e' = e) /\ ~ panics c
  | Panic => ~ passes c /\ (forall e, ~ reports c e) /\ panics c
  end.

Definition chain {A} (l : list check) (x : res issuer_error A) : Prop :=
  match x with
  | Ok _ => Forall passes l /\ (forall e, ~ first_reports l e) /\ ~ first_panics l
  | Err e => ~ Forall passes l /\ (forall e', first_reports l e' <-> e' = e) /\ ~ first_panics l
  | Panic => ~ Forall passes l /\ (forall e, ~ first_reports l e) /\ first_panics l
  end.

Lemma first_reports_cons c l e :
  first_reports (c :: l) e <-> reports c e \/ (passes c /\ first_reports l e).
Proof.
  split.
  - intros ([|c' before] & x & after & E & F & R).
    + injection E as <- <-. now left.
    + injection E as <- ->. inversion F; subst. right. split; [assumption|]. now exists before, x, after.
  - intros [R|(P & before & x & after & -> & F & R)].
    + now exists [], c, l.
    + exists (c :: before), x, after. repeat split; auto.
Qed.

Lemma first_panics_cons c l :
  first_panics (c :: l) <-> panics c \/ (passes c /\ first_panics l).
Proof.
  split.
  - intros ([|c' before] & x & after & E & F & R).
    + injection E as <- <-. now left.
    + injection E as <- ->. inversion F; subst. right. split; [assumption|]. now exists before, x, after.
  - intros [R|(P & before & x & after & -> & F & R)].
    + now exists [], c, l.
    + exists (c :: before), x, after. repeat split; auto.
Qed.

Lemma chain_nil {A} (a : A) : chain [] (Ok a).
Proof.
  split; [constructor|split].
  - intros e ([|? ?] & x & after & E & _); discriminate.
  - intros ([|? ?] & x & after & E & _); discriminate.
Qed.

Lemma chain_bind {A B} c l (x : res issuer_error A) (k : A -> res issuer_error B) :
  step c x -> (forall a, x = Ok a -> chain l (k a)) -> chain (c :: l) (bind x k).
Proof.
  destruct x as [a|e|]; cbn [step bind]; intros (P & R & N) K.
  - specialize (K a eq_refl). destruct (k a) as [b|e|]; cbn [chain] in *; destruct K as (P' & R' & N').
    + split; [now constructor|]. split.
      * intros e. rewrite first_reports_cons. intros [H|[_ H]]; [now apply (R e)|now apply (R' e)].
      * rewrite first_panics_cons. tauto.
    + split; [intros F; inversion F; subst; tauto|]. split.
      * intros e'. rewrite first_reports_cons, R'. specialize (R e'). tauto.
      * rewrite first_panics_cons. tauto.
    + split; [intros F; inversion F; subst; tauto|]. split.
      * intros e'. rewrite first_reports_cons. specialize (R e'). specialize (R' e'). tauto.
      * rewrite first_panics_cons. tauto.
  - split; [intros F; inversion F; subst; tauto|]. split.
    + intros e'. rewrite first_reports_cons, R. tauto.
    + rewrite first_panics_cons. tauto.
  - split; [intros F; inversion F; subst; tauto|]. split.
    + intros e'. rewrite first_reports_cons. specialize (R e'). tauto.
    + rewrite first_panics_cons. tauto.
Qed.

(** A last step whose value is the result. *)
Lemma chain_last {A} c (x : res issuer_error A) : step c x -> chain [c] x.
Proof.
  intros H. assert (chain [c] (bind x (fun a => Ok a))) as K.
  { apply chain_bind; [exact H|]. intros. apply chain_nil. }
  now destruct x.
Qed.

(* ---------------- token syntax and errors ---------------- *)

Lemma proof_token_iff d s j : jwt_from_str d s = Ok j <-> proof_token d s j.
Proof. apply from_str_iff. Qed.

Lemma proof_token_det d s j j' : proof_token d s j -> proof_token d s j' -> j = j'.
Proof. rewrite <- !proof_token_iff. intros H1 H2. rewrite H1 in H2. now apply ok_inj in H2. Qed.

Lemma not_base64 hs : base64url_decode hs = None <-> forall t, ~ base64_text url_alphabet false t hs.
Proof.
  destruct (base64url_decode hs) as [t|] eqn:E.
  - split; [discriminate|]. intros H. exfalso. apply (H t). now apply base64_text_url, base64url_decode_iff.
  - split; [|reflexivity]. intros _ t H. apply base64_text_url, base64url_decode_iff in H. congruence.
Qed.

Lemma is_base64 hs t : base64url_decode hs = Some t <-> base64_text url_alphabet false t hs.
Proof. now rewrite base64_text_url, base64url_decode_iff. Qed.

Lemma from_str_err d s e : jwt_from_str d s = Err e <-> token_error d s e.
Proof.
  split.
  - intros H. destruct (token_parts_split s) as [[Hd E]|P].
    + rewrite from_str_no_dot in H by exact Hd. injection H as <-. now apply te_no_body.
    + assert (exists hs bs tail, token_parts s hs bs tail) as (hs & bs & tail & T)
        by (destruct P as [(? & ? & ? & _)|(? & ? & ? & ? & _)]; eauto). clear P.
      rewrite (from_str_split d s _ _ _ T) in H.
      destruct (base64url_decode hs) as [ht|] eqn:Eh; cbn [ok_or bind] in H.
      2: { injection H as <-. eapply te_header_base64; [exact T|now apply not_base64]. }
      apply is_base64 in Eh.
      destruct (base64url_decode bs) as [bt|] eqn:Eb; cbn [ok_or bind] in H.
      2: { injection H as <-. eapply te_claims_base64; [exact T|exact Eh|now apply not_base64]. }
      apply is_base64 in Eb.
      destruct (header_from_json ht) as [h|] eqn:Fh; cbn [ok_or bind] in H.
      2: { injection H as <-. eapply te_header_json; eassumption. }
      destruct (claims_from_json d bt) as [b|] eqn:Fb; cbn [ok_or bind] in H; [discriminate|].
      injection H as <-. eapply te_claims_json; eassumption.
  - intros [Hd|hs bs tail T N|hs bs tail ht T Eh N|hs bs tail ht bt T Eh Eb Fh|hs bs tail ht bt h T Eh Eb Fh Fb].
    + now apply from_str_no_dot.
    + rewrite (from_str_split d s _ _ _ T). apply not_base64 in N. now rewrite N.
    + rewrite (from_str_split d s _ _ _ T). apply is_base64 in Eh. apply not_base64 in N. now rewrite Eh, N.
    + rewrite (from_str_split d s _ _ _ T). apply is_base64 in Eh, Eb. rewrite Eh, Eb. cbn [ok_or bind].
      now rewrite Fh.
    + rewrite (from_str_split d s _ _ _ T). apply is_base64 in Eh, Eb. rewrite Eh, Eb. cbn [ok_or bind].
      rewrite Fh. cbn [ok_or bind]. now rewrite Fb.
Qed.

(** Texts inside a token are texts. *)
Lemma header_text h ht : header_from_json ht = Some h -> header_ok h.
Proof.
  intros H. apply header_from_json_iff in H. destruct H as (m & Hp & (T & _) & _ & K).
  apply parse_json_ok in Hp. inversion Hp as [| | | | | |m' Hk Hv]; subst.
  assert (forall k s, In (k, JStr s) m -> rust_string s) as HS.
  { intros k s Hin. specialize (Hv _ _ Hin). now inversion Hv. }
  split; [now apply HS in T|].
  intros s Hs. destruct K as [_|before after n s' key E _ KI|before after k v _ _ _ _].
  - destruct Hs as [E|[E|E]]; discriminate.
  - apply (HS (lit n)). rewrite E. apply in_or_app. right. left.
    destruct KI; destruct Hs as [E'|[E'|E']]; try discriminate; now injection E' as ->.
  - destruct Hs as [E|[E|E]]; discriminate.
Qed.

Lemma token_header_ok d s j : proof_token d s j -> header_ok (j_header j).
Proof. intros (hs & bs & tail & ht & bt & _ & _ & _ & H & _). now apply header_text in H. Qed.

(* ---------------- message and signature ---------------- *)

Lemma raw_text_eq d j : jwt_try_into_string d j = Ok (raw_text d j).
Proof. apply try_into_string_text. Qed.

Lemma splitn3 t :
  (exists sig, nth_error (splitn_on 3 "."%char t) 2 = Some sig /\ after_second_dot t sig)
  \/ (nth_error (splitn_on 3 "."%char t) 2 = None /\ ~ exists sig, after_second_dot t sig).
Proof.
  cbn [splitn_on]. destruct (cut "."%char t) as [[a r]|] eqn:E.
  - apply cut_some in E. destruct E as [-> Ha]. destruct (cut "."%char r) as [[b c]|] eqn:E2.
    + apply cut_some in E2. destruct E2 as [-> Hb]. left. exists c. split; [reflexivity|]. now exists a, b.
    + apply cut_none in E2. right. split; [reflexivity|]. intros (sig & a' & b' & Ha' & Hb' & E').
      assert (cut "."%char (a ++ "."%char :: r) = Some (a, r)) as C1 by now apply cut_some.
      assert (cut "."%char (a ++ "."%char :: r) = Some (a', b' ++ "."%char :: sig)) as C2
        by (rewrite E'; now apply cut_some).
      rewrite C1 in C2. injection C2 as _ ->. apply E2, in_or_app. right. now left.
  - apply cut_none in E. right. split; [reflexivity|]. intros (sig & a' & b' & Ha' & Hb' & ->).
    apply E, in_or_app. right. now left.
Qed.

Lemma after_second_dot_det t s1 s2 : after_second_dot t s1 -> after_second_dot t s2 -> s1 = s2.
Proof.
  intros (a & b & Ha & Hb & ->) (a' & b' & Ha' & Hb' & E).
  assert (token_parts (a ++ lit "." ++ b ++ lit "." ++ s1) a b (Some s1)) as T by now constructor.
  assert (token_parts (a ++ lit "." ++ b ++ lit "." ++ s1) a' b' (Some s2)) as T'
    by (rewrite E; now constructor).
  destruct (token_parts_det _ _ _ _ _ _ _ T T') as (_ & _ & H). now injection H.
Qed.

Lemma two_dots_count t : (exists front, two_dots t front) <-> count "."%char t = 2%nat.
Proof.
  split.
  - intros (front & a & b & c & Ha & Hb & Hc & -> & _). rewrite !count_app.
    apply count_zero in Ha, Hb, Hc. rewrite Ha, Hb, Hc. reflexivity.
  - intros H. destruct (cut "."%char t) as [[a r]|] eqn:E.
    + apply cut_some in E. destruct E as [-> Ha]. rewrite count_app in H.
      apply count_zero in Ha as Ca. rewrite Ca in H. cbn [count] in H.
      rewrite ascii_eqb_refl in H.
      destruct (cut "."%char r) as [[b c]|] eqn:E2.
      * apply cut_some in E2. destruct E2 as [-> Hb]. rewrite count_app in H.
        apply count_zero in Hb as Cb. rewrite Cb in H. cbn [count] in H. rewrite ascii_eqb_refl in H.
        exists (a ++ lit "." ++ b), a, b, c. repeat split; auto. apply count_zero. lia.
      * apply cut_none, count_zero in E2. lia.
    + apply cut_none, count_zero in E. lia.
Qed.

Lemma signable d j : exists m, jwt_to_signable_message d j = Ok m /\ message_of (raw_text d j) m.
Proof.
  unfold jwt_to_signable_message. rewrite raw_text_eq. cbn [bind].
  destruct (Nat.eqb (count "."%char (raw_text d j)) 2) eqn:E.
  - apply Nat.eqb_eq in E. apply two_dots_count in E. destruct E as (front & H).
    exists front. split; [|now left]. destruct H as (a & b & c & Ha & Hb & Hc & -> & ->).
    change (lit "." ++ b ++ lit "." ++ c) with ("."%char :: b ++ "."%char :: c).
    now rewrite !split_on_app by assumption.
  - exists (raw_text d j). split; [reflexivity|]. right. split; [|reflexivity].
    rewrite two_dots_count. now apply Nat.eqb_neq.
Qed.

Lemma two_dots_det t f1 f2 : two_dots t f1 -> two_dots t f2 -> f1 = f2.
Proof.
  intros (a & b & c & Ha & Hb & Hc & -> & ->) (a' & b' & c' & Ha' & Hb' & Hc' & E & ->).
  assert (token_parts (a ++ lit "." ++ b ++ lit "." ++ c) a b (Some c)) as T by now constructor.
  assert (token_parts (a ++ lit "." ++ b ++ lit "." ++ c) a' b' (Some c')) as T'
    by (rewrite E; now constructor).
  destruct (token_parts_det _ _ _ _ _ _ _ T T') as (-> & -> & _). reflexivity.
Qed.

Lemma message_of_det t m1 m2 : message_of t m1 -> message_of t m2 -> m1 = m2.
Proof.
  intros [H1|[N1 ->]] [H2|[N2 ->]].
  - eapply two_dots_det; eassumption.
  - exfalso. eauto.
  - exfalso. eauto.
  - reflexivity.
Qed.

Lemma extract_signature_cases d j :
  (exists sig, jwt_extract_signature d j = Ok sig /\ after_second_dot (raw_text d j) sig)
  \/ (jwt_extract_signature d j = Err (JSignatureNotInJwt (raw_text d j))
      /\ ~ exists sig, after_second_dot (raw_text d j) sig).
Proof.
  unfold jwt_extract_signature. rewrite raw_text_eq. cbn [bind].
  destruct (splitn3 (raw_text d j)) as [(sig & E & H)|[E H]]; rewrite E; cbn [ok_or]; eauto.
Qed.

(* ---------------- keys ---------------- *)

Lemma jwk_bytes k :
  match jwk_to_public_key_bytes k with
  | Ok b => forall b', public_key k b' <-> b' = b
  | Err e => (forall b, ~ public_key k b) /\ (forall e', public_key_error k e' <-> e' = e)
  | Panic => False
  end
  /\ (forall b, jwk_to_public_key_bytes k = Ok b -> forall e, ~ public_key_error k e).
Proof.
  unfold jwk_to_public_key_bytes. destruct k as [alg [[x|]|pk| |]]; cbn [jwk_algorithm jwk_parameters].
  all: destruct alg as [[|n]|]; cbn [ok_or jwk_alg_default jwk_alg_name]; split.
  all: try (intros b' Hb' e He; discriminate Hb').
  all: try (intros b'; split; [intros H; inversion H; cbn in *; congruence|intros ->; constructor; reflexivity]).
  all: try (intros b' Hb' e He; inversion He; cbn in *;
            try match goal with H : _ \/ _ |- _ => destruct H end; congruence).
  all: split; [intros b' H; inversion H; cbn in *; congruence|].
  all: intros e'; split;
    [ intros H; inversion H as [|? ? ? ? T|? O T]; cbn in *; try congruence;
      try (destruct O; congruence); inversion T; cbn in *; congruence
    | intros ->; cbn ].
  all: try (apply pe_no_x; reflexivity).
  all: try (eapply pe_curve; [reflexivity|cbn; congruence|constructor; reflexivity]).
  all: try (eapply pe_type; [cbn; tauto|constructor; reflexivity]).
Qed.

Definition key_check (d : deps) (doc : option (Document d)) (h : jwt_header) : check :=
  {| passes := exists key, proof_key d doc (h_additional h) key;
     reports := fun e => exists v, key_error d doc (h_additional h) v /\ e = IJwtError v;
     panics := key_panics d doc (h_additional h) |}.

Lemma did_url_text_iff u t : did_url_text u t <-> t = didurl_to_string u.
Proof.
  split.
  - intros H. destruct H; unfold didurl_to_string; cbn [du_did du_path du_query du_fragment];
      now rewrite ?app_nil_r, <- ?app_assoc.
  - intros ->. destruct u as [did path [q|] [f|]]; unfold didurl_to_string; cbn [du_did du_path du_query du_fragment];
      rewrite ?app_nil_r, <- ?app_assoc; constructor.
Qed.

Lemma key_step d h doc :
  step (key_check d doc h) (map_err IJwtError (header_extract_key_and_alg d h doc))
  /\ (forall ka, header_extract_key_and_alg d h doc = Ok ka ->
        proof_key d doc (h_additional h) (fst ka) /\ snd ka = h_alg h).
Proof.
  unfold header_extract_key_and_alg, key_check, key_panics.
  destruct (h_additional h) as [[kid|s|s]|].
  - destruct (did_url_try_from d kid) as [m|u] eqn:Ed.
    { split; [|discriminate]. cbn. split; [|split].
      - intros (key & H). inversion H as [doc' ? k ? _ (u & vm & E & _)|]; subst. congruence.
      - intros e'. split.
        + intros (v & H & ->). inversion H; subst; try congruence.
          destruct H2 as (u & vm & E & _). congruence.
        + intros ->. eexists. split; [|reflexivity]. now constructor.
      - intros (kid' & u & doc' & [= <-] & E & _). congruence. }
    destruct doc as [doc|]; cbn [ok_or bind].
    2: { split; [|discriminate]. cbn. split; [|split].
      - intros (key & H). inversion H; congruence.
      - intros e'. split.
        + intros (v & H & ->). inversion H; subst; try congruence.
        + intros ->. eexists. split; [|reflexivity]. now apply (ke_no_document d None kid u).
      - intros (kid' & u' & doc' & [= <-] & E & H & _). congruence. }
    destruct (select_object d doc u) as [m|[vm|]] eqn:Es.
    + split; [|discriminate]. cbn. split; [|split].
      * intros (key & H). inversion H as [doc' ? k ? Hd (u' & vm & E & E2 & _)|]; subst.
        injection Hd as <-. congruence.
      * intros e'. split.
        -- intros (v & H & ->).
           inversion H as [| |? ? E|? ? E En|? ? ? ? ? E En E2 Dt|? ? ? ? ? E En E2 E3|? ? ? ? En (u' & vm' & E & E2 & E3)|?|?];
             subst; try injection En as <-; try congruence.
           apply did_url_text_iff in Dt. congruence.
        -- intros ->. eexists. split; [|reflexivity]. apply (ke_not_found d _ kid u _ doc m); auto. now apply did_url_text_iff.
      * intros (kid' & u' & doc' & [= <-] & E & H & E2). injection H as <-. congruence.
    + destruct (get_jwk d vm) as [m|k] eqn:Eg.
      { split; [|discriminate]. cbn. split; [|split].
        - intros (key & H). inversion H as [doc' ? k ? Hd (u' & vm' & E & E2 & E3)|]; subst.
          injection Hd as <-. congruence.
        - intros e'. split.
          + intros (v & H & ->).
            inversion H as [| |? ? E|? ? E En|? ? ? ? ? E En E2 Dt|? ? ? ? ? E En E2 E3|? ? ? ? En (u' & vm' & E & E2 & E3)|?|?];
              subst; try injection En as <-; try congruence.
          + intros ->. eexists. split; [|reflexivity]. now apply (ke_no_jwk d _ kid u doc vm m).
        - intros (kid' & u' & doc' & [= <-] & E & H & E2). injection H as <-. congruence. }
      assert (forall k', document_key d doc kid k' <-> k' = k) as HK.
      { intros k'. split.
        - intros (u' & vm' & E & E2 & E3). congruence.
        - intros ->. exists u, vm. auto. }
      assert (~ exists kid' u' doc', Some (KeyId kid) = Some (KeyId kid') /\ did_url_try_from d kid' = inr u'
                /\ Some doc = Some doc' /\ select_object d doc' u' = inr ROther) as HP.
      { intros (kid' & u' & doc' & [= <-] & E & [= <-] & E2). congruence. }
      destruct (jwk_bytes k) as [HJ HJ2].
      destruct (jwk_to_public_key_bytes k) as [b|e|]; [| |easy]; cbn [bind map_err].
      * split.
        -- cbn [step passes reports panics]. split; [|split; [|exact HP]].
           ++ exists b. econstructor; [reflexivity|now apply HK|now apply HJ].
           ++ intros e (v & H & ->). specialize (HJ2 b eq_refl).
              inversion H as [| |? ? E|? ? E En|? ? ? ? ? E En E2 Dt|? ? ? ? ? E En E2 E3|? ? ? ? En DK PE|?|?];
                subst; try injection En as <-; try congruence.
              apply HK in DK. subst. eapply HJ2, PE.
        -- intros ka [= <-]. cbn [fst snd]. split; [|reflexivity].
           econstructor; [reflexivity|now apply HK|now apply HJ].
      * split; [|discriminate]. cbn [step passes reports panics]. destruct HJ as [HJ HJe].
        split; [|split; [|exact HP]].
        -- intros (key & H). inversion H as [doc' ? k' ? Hd DK PK|]; subst. injection Hd as <-.
           apply HK in DK. subst. eapply HJ, PK.
        -- intros e'. split.
           ++ intros (v & H & ->). f_equal.
              inversion H as [| |? ? E|? ? E En|? ? ? ? ? E En E2 Dt|? ? ? ? ? E En E2 E3|? ? ? ? En DK PE|?|?];
                subst; try injection En as <-; try congruence.
              apply HK in DK. subst. now apply HJe.
           ++ intros ->. eexists. split; [|reflexivity].
              eapply ke_kid_key; [reflexivity|now apply HK|now apply HJe].
    + split; [|discriminate]. cbn. split; [|split].
      * intros (key & H). inversion H as [doc' ? k ? Hd (u' & vm & E & E2 & _)|]; subst.
        injection Hd as <-. congruence.
      * intros e' (v & H & ->).
        inversion H as [| |? ? E|? ? E En|? ? ? ? ? E En E2 Dt|? ? ? ? ? E En E2 E3|? ? ? ? En (u' & vm' & E & E2 & E3)|?|?];
          subst; try injection En as <-; try congruence.
      * now exists kid, u, doc.
  - destruct (jwk_from_str d s) as [m|k] eqn:Ej.
    { split; [|discriminate]. cbn. split; [|split].
      - intros (key & H). inversion H; subst. congruence.
      - intros e'. split.
        + intros (v & H & ->). inversion H; subst; congruence.
        + intros ->. eexists. split; [|reflexivity]. now constructor.
      - intros (kid' & u & doc' & H & _). discriminate. }
    destruct (jwk_bytes k) as [HJ HJ2].
    destruct (jwk_to_public_key_bytes k) as [b|e|]; [| |easy]; cbn [bind map_err].
    + split.
      * cbn [step passes reports panics]. split; [|split].
        -- exists b. econstructor; [eassumption|now apply HJ].
        -- intros e (v & H & ->). specialize (HJ2 b eq_refl). inversion H; subst; try congruence.
           replace k0 with k in * by congruence. eapply HJ2. eassumption.
        -- intros (kid' & u & doc' & H & _). discriminate.
      * intros ka [= <-]. cbn [fst snd]. split; [|reflexivity]. econstructor; [eassumption|now apply HJ].
    + split; [|discriminate]. cbn [step passes reports panics]. destruct HJ as [HJ HJe]. split; [|split].
      * intros (key & H). inversion H; subst. replace k0 with k in * by congruence. eapply HJ. eassumption.
      * intros e'. split.
        -- intros (v & H & ->). f_equal. inversion H; subst; try congruence.
           replace k0 with k in * by congruence. now apply HJe.
        -- intros ->. eexists. split; [|reflexivity]. eapply ke_jwk_key; [eassumption|now apply HJe].
      * intros (kid' & u & doc' & H & _). discriminate.
  - split; [|discriminate]. cbn. split; [|split].
    + intros (key & H). inversion H.
    + intros e'. split.
      * intros (v & H & ->). now inversion H.
      * intros ->. eexists. split; [|reflexivity]. constructor.
    + intros (kid' & u & doc' & H & _). discriminate.
  - split; [|discriminate]. cbn. split; [|split].
    + intros (key & H). inversion H.
    + intros e'. split.
      * intros (v & H & ->). now inversion H.
      * intros ->. eexists. split; [|reflexivity]. constructor.
    + intros (kid' & u & doc' & H & _). discriminate.
Qed.

Lemma did_cases d h :
  match jwt_extract_did d h with
  | Ok did => forall did', proof_did d (h_additional (j_header h)) did' <-> did' = did
  | Err e => (forall did, ~ proof_did d (h_additional (j_header h)) did)
             /\ (forall e', did_error d (h_additional (j_header h)) e' <-> e' = e)
  | Panic => False
  end
  /\ (forall did, jwt_extract_did d h = Ok did -> forall e, ~ did_error d (h_additional (j_header h)) e).
Proof.
  unfold jwt_extract_did. destruct (h_additional (j_header h)) as [[kid|s|s]|].
  - destruct (did_url_try_from d kid) as [m|u] eqn:Ed.
    + split; [|discriminate]. split.
      * intros did H. inversion H; congruence.
      * intros e'. split; [intros H; inversion H; congruence|intros ->; now constructor].
    + split.
      * intros did'. split; [intros H; inversion H; congruence|intros ->; now constructor].
      * intros did _ e H. inversion H; congruence.
  - split; [|discriminate]. split; [intros did H; inversion H|].
    intros e'. split; [now intros H; inversion H|intros ->; constructor].
  - split; [|discriminate]. split; [intros did H; inversion H|].
    intros e'. split; [now intros H; inversion H|intros ->; constructor].
  - split.
    + intros did'. split; [now intros H; inversion H|intros ->; constructor].
    + intros did _ e H. inversion H.
Qed.

(* ---------------- the two halves of the evaluation ---------------- *)

Definition request_part (d : deps) (now : instant) (m : issuer_metadata) (r : credential_request)
    (offer : option credential_offer) (asm : option auth_server_metadata)
    (options : option eval_options) : res issuer_error (proof_jwt * credential_offer) :=
  let? _ := map_err IValidationError (metadata_validate m) in
  let? o := ok_or offer ICredentialOfferMustBeSupplied in
  let? _ := match asm with Some _ => Err IAuthorizationServerMetadataNotSupported | None => Ok tt end in
  let? _ := check_nonce_expiry now options in
  let? p := ok_or (cr_proof r) INoProofInCredentialRequest in
  let? jwt := map_err IValidationError (jwt_from_str d (rp_jwt p)) in
  Ok (jwt, o).

Definition token_part (d : deps) (m : issuer_metadata) (o : credential_offer)
    (doc : option (Document d)) (options : option eval_options) (c : cfp) (jwt : proof_jwt)
    : res issuer_error eval_response :=
  let? _ := map_err IValidationError (jwt_validate d jwt) in
  let? _ := map_err IJwtError (jwt_check_nonce jwt (option_map cno_expected (opt_bind options eo_c_nonce))) in
  let? _ := (if should_validate_iss options o
             then map_err IJwtError (jwt_check_iss jwt (opt_bind options eo_client_id)) else Ok tt) in
  let? _ := map_err IJwtError (jwt_check_aud jwt (im_credential_issuer m)) in
  let? ka := map_err IJwtError (header_extract_key_and_alg d (j_header jwt) doc) in
  let? signature := map_err IJwtError (jwt_extract_signature d jwt) in
  let? message := map_err IJwtError (jwt_to_signable_message d jwt) in
  let? did := map_err IJwtError (jwt_extract_did d jwt) in
  Ok {| er_pop := Some {| pop_algorithm := snd ka; pop_public_key := fst ka;
                          pop_message := message; pop_signature := signature |};
        er_subject_id := did; er_credential := c |}.

Lemma evaluate_split d now m r offer asm doc options :
  evaluate_credential_request d now m r offer asm doc options =
  (let? jo := request_part d now m r offer asm options in
   token_part d m (snd jo) doc options (cr_format r) (fst jo)).
Proof.
  unfold evaluate_credential_request, request_part, token_part, offer_validate,
    auth_server_metadata_validate. cbv zeta.
  destruct (metadata_validate m) as [[]|e|]; cbn [map_err bind]; try reflexivity.
  destruct offer as [o|]; cbn [ok_or bind]; try reflexivity.
  destruct asm; cbn [map_err bind]; try reflexivity.
  destruct (check_nonce_expiry now options) as [[]|e|]; cbn [bind]; try reflexivity.
  destruct (cr_proof r) as [p|]; cbn [ok_or bind]; try reflexivity.
  destruct (jwt_from_str d (rp_jwt p)) as [j|e|]; reflexivity.
Qed.

Lemma nonce_options_bind options n : nonce_options options n <-> opt_bind options eo_c_nonce = Some n.
Proof.
  unfold nonce_options. destruct options as [o|]; cbn [opt_bind].
  - split; [intros (o' & [= <-] & H); exact H|intros H; now exists o].
  - split; [intros (o' & H & _)|]; discriminate.
Qed.

Lemma representable_iff t : representable t <-> in_instant_range t = true.
Proof. unfold representable, in_instant_range. lia. Qed.

Lemma request_chain d now m r offer asm options :
  chain (request_checks d now m r offer asm options) (request_part d now m r offer asm options).
Proof.
  unfold request_checks, request_part.
  apply chain_bind.
  { destruct (metadata_validate m) as [[]|e|] eqn:E; cbn.
    - apply metadata_validate_ok in E. split; [exact E|]. split; [|easy]. intros e [N _]. auto.
    - pose proof E as E'. apply metadata_validate_err in E'. destruct E' as [N Ee].
      split; [exact N|]. split; [|easy]. intros e'. split.
      + intros [_ ->]. unfold duplicate_ids_error. now subst e.
      + intros ->. split; [exact N|]. unfold duplicate_ids_error. now subst e.
    - destruct (metadata_validate_cases m) as [[_ H]|[_ H]]; rewrite H in E; discriminate. }
  intros _ _. apply chain_bind.
  { destruct offer as [o|]; cbn.
    - split; [discriminate|]. split; [|easy]. intros e [H _]. discriminate.
    - split; [congruence|]. split; [|easy]. intros e'. intuition congruence. }
  intros o Ho. apply chain_bind.
  { destruct asm; cbn.
    - split; [discriminate|]. split; [|easy]. intros e'. split; [tauto|]. intros ->. split; [discriminate|reflexivity].
    - split; [reflexivity|]. split; [|easy]. intros e [H _]. congruence. }
  intros _ _. apply chain_bind.
  { unfold check_nonce_expiry. destruct (opt_bind options eo_c_nonce) as [n|] eqn:En.
    - assert (forall n', nonce_options options n' <-> n' = n) as HN.
      { intros n'. rewrite nonce_options_bind, En. split; [congruence|intros ->; reflexivity]. }
      unfold add_seconds. replace (cno_created_at n + Z.of_N (cno_expires_in n) * 1000000000)%Z
        with (nonce_expiry n) by (unfold nonce_expiry; lia).
      destruct (in_instant_range (nonce_expiry n)) eqn:Er; cbn [bind].
      + apply representable_iff in Er. destruct (nonce_expiry n <? now)%Z eqn:El; cbn.
        * split; [|split].
          -- intros H. destruct (H n) as [_ H']; [now apply HN|]. lia.
          -- intros e'. split.
             ++ intros (n' & H & _ & _ & ->). apply HN in H. now subst.
             ++ intros ->. exists n. split; [now apply HN|]. repeat split; [apply Er|apply Er|lia].
          -- intros (n' & H & NR). apply HN in H. subst. auto.
        * split; [|split].
          -- intros n' H. apply HN in H. subst. split; [exact Er|lia].
          -- intros e (n' & H & _ & L & _). apply HN in H. subst. lia.
          -- intros (n' & H & NR). apply HN in H. subst. auto.
      + assert (~ representable (nonce_expiry n)) as NR by (rewrite representable_iff; congruence). cbn.
        split; [|split].
        * intros H. destruct (H n) as [H' _]; [now apply HN|]. auto.
        * intros e (n' & H & R & _). apply HN in H. subst. auto.
        * exists n. split; [now apply HN|exact NR].
    - assert (forall n', ~ nonce_options options n') as HN.
      { intros n'. rewrite nonce_options_bind, En. discriminate. }
      cbn. split; [|split].
      + intros n H. now apply HN in H.
      + intros e (n & H & _). now apply HN in H.
      + intros (n & H & _). now apply HN in H. }
  intros _ _. apply chain_bind.
  { destruct (cr_proof r) as [p|]; cbn.
    - split; [discriminate|]. split; [|easy]. intros e [H _]. discriminate.
    - split; [congruence|]. split; [|easy]. intros e'. intuition congruence. }
  intros p Hp. destruct (cr_proof r) as [p'|] eqn:Ep; [|discriminate]. apply ok_inj in Hp. subst p'.
  apply chain_bind; [|intros; apply chain_nil].
  destruct (jwt_from_str d (rp_jwt p)) as [j|e|] eqn:E; cbn.
  - split; [|split; [|easy]].
    + intros p' [= <-]. exists j. now apply proof_token_iff.
    + intros e (p' & v & [= <-] & H & _). apply from_str_err in H. congruence.
  - split; [|split; [|easy]].
    + intros H. destruct (H p eq_refl) as [j Hj]. apply proof_token_iff in Hj. congruence.
    + intros e'. split.
      * intros (p' & v & [= <-] & H & ->). apply from_str_err in H. congruence.
      * intros ->. exists p, e. split; [reflexivity|]. split; [now apply from_str_err|reflexivity].
  - now apply from_str_no_panic in E.
Qed.

Lemma iss_allowed_iff options o iss :
  iss_allowed options o iss <->
  (should_validate_iss options o = false \/ iss = opt_bind options eo_client_id).
Proof.
  unfold iss_allowed, should_validate_iss, only_pre_authorized.
  destruct options as [opts|]; [|tauto]. cbn [opt_bind]. cbv zeta.
  destruct (eo_client_id opts) as [c|]; cbn [is_some is_none negb orb andb].
  - split; [intros ->; auto|]. intros [H|H]; [discriminate|exact H].
  - destruct (og_auth (co_grants o)), (og_pre (co_grants o)); cbn [is_some orb negb]; intuition congruence.
Qed.

Lemma token_chain d m o doc options c j :
  lower_case_facts d -> rust_string (h_typ (j_header j)) ->
  chain (token_checks d m o doc options j) (token_part d m o doc options c j).
Proof.
  intros HL HT. unfold token_checks, token_part.
  apply chain_bind.
  { destruct (typ_exact d j HL HT) as [H1 H2]. fold proof_typ in H1, H2.
    destruct (jwt_validate d j) as [[]|e|] eqn:E; cbn.
    - split; [now apply H1|]. split; [|easy]. intros e [N _]. apply N. now apply H1.
    - assert (~ ascii_ci (h_typ (j_header j)) proof_typ) as N.
      { intros H. apply H1 in H. discriminate. }
      split; [exact N|]. split; [|easy]. intros e'. specialize (H2 N). unfold typ_error.
      injection H2 as ->. tauto.
    - assert (~ ascii_ci (h_typ (j_header j)) proof_typ) as N.
      { intros H. apply H1 in H. discriminate. }
      specialize (H2 N). discriminate. }
  intros _ _. apply chain_bind.
  { unfold jwt_check_nonce.
    destruct (opt_bind options eo_c_nonce) as [n|] eqn:En; cbn [option_map].
    - assert (forall n', nonce_options options n' <-> n' = n) as HN.
      { intros n'. rewrite nonce_options_bind, En. split; [congruence|intros ->; reflexivity]. }
      destruct (opt_str_eqb (Some (b_nonce (j_body j))) (Some (cno_expected n))) eqn:E; cbn [map_err step].
      + apply opt_str_eqb_eq in E. injection E as E. cbn. split; [|split; [|easy]].
        * exists n. split; [now apply HN|exact E].
        * intros e [[H _]|(n' & H & N & _)]; [now apply (H n), HN|]. apply HN in H. subst. auto.
      + apply opt_str_eqb_neq in E. cbn. split; [|split; [|easy]].
        * intros (n' & H & E'). apply HN in H. subst. congruence.
        * intros e'. split.
          -- intros [[H _]|(n' & H & _ & ->)]; [now exfalso; apply (H n), HN|]. apply HN in H. now subst.
          -- intros ->. right. exists n. split; [now apply HN|]. split; [congruence|reflexivity].
    - assert (forall n', ~ nonce_options options n') as HN.
      { intros n'. rewrite nonce_options_bind, En. discriminate. }
      cbn. split; [|split; [|easy]].
      + intros (n & H & _). now apply HN in H.
      + intros e'. split.
        * intros [[_ ->]|(n & H & _)]; [reflexivity|now apply HN in H].
        * intros ->. now left. }
  intros _ _. apply chain_bind.
  { pose proof (iss_allowed_iff options o (b_iss (j_body j))) as HI.
    unfold jwt_check_iss. destruct (should_validate_iss options o); cbn [map_err].
    - destruct (opt_str_eqb (b_iss (j_body j)) (opt_bind options eo_client_id)) eqn:E; cbn.
      + apply opt_str_eqb_eq in E. split; [now apply HI; right|]. split; [|easy].
        intros e [N _]. apply N, HI. now right.
      + apply opt_str_eqb_neq in E.
        assert (~ iss_allowed options o (b_iss (j_body j))) as N.
        { rewrite HI. intros [H|H]; [discriminate|auto]. }
        split; [exact N|]. split; [|easy]. intros e'.
        assert (client_id options = opt_bind options eo_client_id) as -> by now destruct options.
        tauto.
    - cbn. split; [apply HI; now left|]. split; [|easy]. intros e [N _]. apply N, HI. now left. }
  intros _ _. apply chain_bind.
  { unfold jwt_check_aud. destruct (str_eqb (b_aud (j_body j)) (im_credential_issuer m)) eqn:E; cbn.
    - apply str_eqb_eq in E. split; [exact E|]. split; [|easy]. intros e [N _]. auto.
    - apply str_eqb_neq in E. split; [exact E|]. split; [|easy]. intros e'. tauto. }
  intros _ _. apply chain_bind.
  { apply key_step. }
  intros ka _. apply chain_bind.
  { destruct (extract_signature_cases d j) as [(sig & E & H)|[E H]]; rewrite E; cbn.
    - split; [now exists sig|]. split; [|easy]. intros e [N _]. apply N. now exists sig.
    - split; [exact H|]. split; [|easy]. intros e'. tauto. }
  intros sig _. destruct (signable d j) as (msg & E & _). rewrite E. cbn [map_err bind].
  apply chain_bind; [|intros; apply chain_nil].
  destruct (did_cases d j) as [HD HD2].
  destruct (jwt_extract_did d j) as [did|e|]; [| |easy]; cbn.
  - split; [exists did; now apply HD|]. split; [|easy].
    intros e (v & H & _). eapply HD2; [reflexivity|exact H].
  - destruct HD as [HN HE]. split; [intros (did & H); now apply HN in H|]. split; [|easy].
    intros e'. split.
    + intros (v & H & ->). apply HE in H. now subst.
    + intros ->. exists e. split; [now apply HE|reflexivity].
Qed.

Lemma token_part_answer d m o doc options c j resp :
  token_part d m o doc options c j = Ok resp ->
  exists key message signature did,
    proof_key d doc (h_additional (j_header j)) key
    /\ proof_did d (h_additional (j_header j)) did
    /\ message_of (raw_text d j) message
    /\ after_second_dot (raw_text d j) signature
    /\ resp = {| er_pop := Some {| pop_algorithm := h_alg (j_header j); pop_public_key := key;
                                   pop_message := message; pop_signature := signature |};
                 er_subject_id := did; er_credential := c |}.
Proof.
  unfold token_part.
  destruct (jwt_validate d j) as [[]|e|]; cbn [map_err bind]; try discriminate.
  destruct (jwt_check_nonce j _) as [[]|e|]; cbn [map_err bind]; try discriminate.
  destruct (if should_validate_iss options o then _ else _) as [[]|e|]; cbn [bind]; try discriminate.
  destruct (jwt_check_aud j _) as [[]|e|]; cbn [map_err bind]; try discriminate.
  destruct (key_step d (j_header j) doc) as [_ HK].
  destruct (header_extract_key_and_alg d (j_header j) doc) as [ka|e|]; cbn [map_err bind]; try discriminate.
  specialize (HK ka eq_refl). destruct HK as [HK HA].
  destruct (extract_signature_cases d j) as [(sig & E & HS)|[E _]]; rewrite E; cbn [map_err bind]; [|discriminate].
  destruct (signable d j) as (msg & Em & HM). rewrite Em. cbn [map_err bind].
  destruct (did_cases d j) as [HD _].
  destruct (jwt_extract_did d j) as [did|e|]; cbn [map_err bind]; try discriminate.
  intros H. apply ok_inj in H. subst resp. exists (fst ka), msg, sig, did. rewrite HA.
  repeat split; auto. now apply HD.
Qed.

Lemma proof_key_det d doc a k1 k2 : proof_key d doc a k1 -> proof_key d doc a k2 -> k1 = k2.
Proof.
  intros H1 H2.
  assert (forall k a b, public_key k a -> public_key k b -> a = b) as HP.
  { intros k x y Hx Hy. destruct (jwk_bytes k) as [HJ _].
    destruct (jwk_to_public_key_bytes k); [|destruct HJ as [HJ _]; now apply HJ in Hx|easy].
    apply HJ in Hx, Hy. congruence. }
  inversion H1 as [doc1 kid1 ka ? D1 (u & vm & E1 & E2 & E3) P1|t1 ka ? J1 P1]; subst;
    inversion H2 as [doc2 kid2 kb ? D2 (u' & vm' & E1' & E2' & E3') P2|t2 kb ? J2 P2]; subst.
  - injection D2 as <-. assert (ka = kb) by congruence. subst. eauto.
  - assert (ka = kb) by congruence. subst. eauto.
Qed.

Lemma proof_did_det d a k1 k2 : proof_did d a k1 -> proof_did d a k2 -> k1 = k2.
Proof. intros H1 H2. inversion H1; subst; inversion H2; subst; congruence. Qed.

Lemma request_part_ok d now m r offer asm options jo :
  request_part d now m r offer asm options = Ok jo ->
  exists p, cr_proof r = Some p /\ proof_token d (rp_jwt p) (fst jo) /\ offer = Some (snd jo).
Proof.
  unfold request_part.
  destruct (metadata_validate m) as [[]|e|]; cbn [map_err bind]; try discriminate.
  destruct offer as [o|]; cbn [ok_or bind]; try discriminate.
  destruct asm; cbn [map_err bind]; try discriminate.
  destruct (check_nonce_expiry now options) as [[]|e|]; cbn [bind]; try discriminate.
  destruct (cr_proof r) as [p|]; cbn [ok_or bind]; try discriminate.
  destruct (jwt_from_str d (rp_jwt p)) as [j|e|] eqn:E; cbn [map_err bind]; try discriminate.
  intros H. apply ok_inj in H. subst jo. exists p. cbn [fst snd].
  split; [reflexivity|]. split; [now apply proof_token_iff|reflexivity].
Qed.

(** The three outcomes. *)
Lemma evaluate_outcomes d now m r offer asm doc options :
  lower_case_facts d ->
  (forall resp, evaluate_credential_request d now m r offer asm doc options = Ok resp <->
                eval_answer d now m r offer asm doc options resp)
  /\ (forall e, evaluate_credential_request d now m r offer asm doc options = Err e <->
                eval_error d now m r offer asm doc options e)
  /\ (evaluate_credential_request d now m r offer asm doc options = Panic <->
      eval_panics d now m r offer asm doc options).
Proof.
  intros HL. rewrite evaluate_split.
  pose proof (request_chain d now m r offer asm options) as RC.
  unfold eval_answer, eval_error, eval_panics.
  destruct (request_part d now m r offer asm options) as [jo|e0|] eqn:ER; cbn [bind]; destruct RC as (P & R & N).
  2: { split; [|split].
    - intros resp. split; [discriminate|tauto].
    - intros e. rewrite R. split; [intros [= ->]; auto|]. intros [->|[H _]]; tauto.
    - split; [discriminate|tauto]. }
  2: { split; [|split].
    - intros resp. split; [discriminate|tauto].
    - intros e. split; [discriminate|]. intros [H|[H _]]; [now apply R in H|tauto].
    - tauto. }
  destruct (request_part_ok _ _ _ _ _ _ _ _ ER) as (p & Hp & Ht & Ho).
  assert (TC := token_chain d m (snd jo) doc options (cr_format r) (fst jo) HL
                  (proj1 (token_header_ok _ _ _ Ht))).
  assert (forall p' j' o', cr_proof r = Some p' -> proof_token d (rp_jwt p') j' -> offer = Some o' ->
            p' = p /\ j' = fst jo /\ o' = snd jo) as U.
  { intros p' j' o' Hp' Ht' Ho'. rewrite Hp in Hp'. injection Hp' as <-. rewrite Ho in Ho'. injection Ho' as <-.
    repeat split. eapply proof_token_det; eassumption. }
  remember (token_part d m (snd jo) doc options (cr_format r) (fst jo)) as x eqn:EX. symmetry in EX.
  split; [|split].
  - intros resp. split.
    + intros ->. split; [exact P|]. destruct (token_part_answer _ _ _ _ _ _ _ _ EX)
        as (key & msg & sig & did & K1 & K2 & K3 & K4 & ->).
      exists p, (fst jo), (snd jo), key, msg, sig, did. destruct TC as (TP & _). repeat split; auto.
    + intros (_ & p' & j' & o' & key & msg & sig & did & Hp' & Ht' & Ho' & TP & K1 & K2 & K3 & K4 & R1 & R2 & R3).
      destruct (U _ _ _ Hp' Ht' Ho') as (-> & -> & ->).
      destruct x as [resp'|e|]; destruct TC as (TP' & _); try tauto.
      destruct (token_part_answer _ _ _ _ _ _ _ _ EX) as (key' & msg' & sig' & did' & K1' & K2' & K3' & K4' & ->).
      f_equal. destruct resp as [rp rs rc]; cbn [er_pop er_subject_id er_credential] in *. subst.
      rewrite (proof_key_det _ _ _ _ _ K1 K1'), (proof_did_det _ _ _ _ K2 K2'),
        (message_of_det _ _ _ K3 K3'), (after_second_dot_det _ _ _ K4 K4'). reflexivity.
  - intros e. split.
    + intros ->. right. split; [exact P|]. exists p, (fst jo), (snd jo). destruct TC as (_ & TR & _).
      repeat split; auto. now apply TR.
    + intros [H|(_ & p' & j' & o' & Hp' & Ht' & Ho' & H)]; [now apply R in H|].
      destruct (U _ _ _ Hp' Ht' Ho') as (-> & -> & ->).
      destruct x as [resp'|e'|]; destruct TC as (_ & TR & _); apply TR in H; [easy|now subst|easy].
  - split.
    + intros ->. right. split; [exact P|]. exists p, (fst jo), (snd jo). destruct TC as (_ & _ & TN).
      repeat split; auto.
    + intros [H|(_ & p' & j' & o' & Hp' & Ht' & Ho' & H)]; [now apply N in H|].
      destruct (U _ _ _ Hp' Ht' Ho') as (-> & -> & ->).
      destruct x as [resp'|e'|]; destruct TC as (_ & _ & TN); tauto.
Qed.
