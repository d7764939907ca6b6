(** Histories and complete runs. *)
From Coq Require Import Lia.
From Verif Require Import Model.Prelude Model.Json Model.Types Model.Deps Model.Errors Model.Jwt Model.AccessToken
  Model.CredentialIssuer Model.Wire Spec SpecToken SpecOffer SpecJwt SpecEvaluation SpecResponse SpecSession
  Proofs.StrFacts Proofs.Utf8Facts Proofs.Base64Facts Proofs.Base64Bits Proofs.JsonFacts Proofs.SerdeFacts Proofs.TokenFacts Proofs.OfferFacts Proofs.JwtFacts
  Proofs.EvalFacts Proofs.EvalFacts2 Proofs.EvalFacts3 Proofs.ResponseFacts Proofs.DocumentFacts.

(* ---------------- histories ---------------- *)

Definition remembered (h : list event) (s : option c_nonce_options) : Prop :=
  match s with
  | None => Forall (fun e => ~ is_issue e) h
  | Some n => last_issue h (cno_created_at n) (cno_expected n) (cno_expires_in n)
  end.

Lemma token_time now access ty ei sc n life ap iv resp t :
  create_access_token_success_response now access ty ei sc n life ap iv = Ok (resp, t) -> t = now.
Proof. now intros [= _ <-]. Qed.

Lemma credential_time d now r ct n resp t :
  create_credential_success_response d now r ct n = Ok (resp, t) -> t = now.
Proof.
  unfold create_credential_success_response. destruct (request_validate d r); cbn [map_err bind]; try discriminate.
  destruct ct as [[c|tok]|]; cbn [bind fst snd].
  - destruct (cfp_encode c); cbn [map_err bind]; try discriminate. now intros [= _ <-].
  - now intros [= _ <-].
  - now intros [= _ <-].
Qed.

Lemma last_issue_new h t n l : last_issue (h ++ [Issued t n l]) t n l.
Proof. exists h, []. split; [reflexivity|constructor]. Qed.

Lemma last_issue_det h t n l t' n' l' : last_issue h t n l -> last_issue h t' n' l' -> t = t' /\ n = n' /\ l = l'.
Proof.
  intros (b & a & -> & Ha) (b' & a' & E & Ha'). revert b' E. induction b as [|x b IH]; intros [|x' b'] E; cbn [app] in E.
  - injection E as <- <- <- _. auto.
  - injection E as _ ->. exfalso. apply Forall_app in Ha. destruct Ha as [_ Ha]. inversion Ha as [|? ? Hx _]; subst.
    apply Hx. repeat eexists.
  - injection E as _ <-. exfalso. apply Forall_app in Ha'. destruct Ha' as [_ Ha']. inversion Ha' as [|? ? Hx _]; subst.
    apply Hx. repeat eexists.
  - injection E as _ E. now apply (IH b').
Qed.

Lemma remembered_other h s e : ~ is_issue e -> remembered h s -> remembered (h ++ [e]) s.
Proof.
  intros He. destruct s as [n|]; cbn [remembered].
  - intros (b & a & -> & Ha). exists b, (a ++ [e]). split.
    + rewrite <- app_assoc. reflexivity.
    + apply Forall_app. auto.
  - intros H. apply Forall_app. auto.
Qed.

Lemma history_remembered d h s : history d h s -> remembered h s.
Proof.
  induction 1 as [|h e s s' _ IH S]; [constructor|].
  destruct S as [s now access ty ei sc n life ap iv resp t E|s now access ty ei sc ap iv resp t E
    |s now r ct n life resp t E|s now r ct resp t E|s now m r offer asm doc client resp p E P
    |s now m r offer asm doc client e E|s co pin offer opts E|s r offer opts e E].
  - apply token_time in E. subst t. apply last_issue_new.
  - apply remembered_other; [now intros (? & ? & ? & ?)|exact IH].
  - apply credential_time in E. subst t. apply last_issue_new.
  - apply remembered_other; [now intros (? & ? & ? & ?)|exact IH].
  - apply remembered_other; [now intros (? & ? & ? & ?)|exact IH].
  - apply remembered_other; [now intros (? & ? & ? & ?)|exact IH].
  - apply remembered_other; [now intros (? & ? & ? & ?)|exact IH].
  - apply remembered_other; [now intros (? & ? & ? & ?)|exact IH].
Qed.

Lemma history_prefix d : forall a h s, history d h s -> forall b, h = a ++ b -> exists s', history d a s'.
Proof.
  intros a h s H. induction H as [|h e s s' H IH S]; intros b E.
  - destruct a; [|discriminate]. exists None. constructor.
  - destruct b as [|x b _] using rev_ind.
    + rewrite app_nil_r in E. subst a. exists s'. econstructor; eassumption.
    + rewrite app_assoc in E. apply app_inj_tail in E. destruct E as [E _]. now apply (IH b).
Qed.

Lemma accepted_step d a now token s : history d (a ++ [Accepted now token]) s ->
  exists h s0, h = a /\ history d a s0 /\ session_step d s0 (Accepted now token) s.
Proof.
  intros H. inversion H as [E|h e s0 s' H0 S E]; subst.
  - destruct a; discriminate.
  - apply app_inj_tail in E. destruct E as [-> ->]. exists a, s0. auto.
Qed.

Lemma accepted_current d h s before now token after :
  lower_case_facts d -> history d h s -> h = before ++ Accepted now token :: after ->
  exists t n l j, last_issue before t n l /\ proof_token d token j /\ b_nonce (j_body j) = n
    /\ (now <= t + 1000000000 * Z.of_N l)%Z.
Proof.
  intros HL H E. change (before ++ Accepted now token :: after) with (before ++ [Accepted now token] ++ after) in E.
  rewrite app_assoc in E. destruct (history_prefix d _ _ _ H _ E) as (s1 & H1).
  apply accepted_step in H1. destruct H1 as (h0 & s0 & -> & H0 & S).
  inversion S as [| | | |s2 now2 m r offer asm doc client resp p Ev P| | |]; subst.
  apply (accepted_inv d now m r offer asm doc _ resp HL) in Ev.
  apply history_remembered in H0.
  destruct Ev as (_ & _ & o & p' & j & n & doc' & kid & u & k & opts & pop & _ & Eo & En & Ex & _ & Ep & Pt & _ & Nn & _).
  injection Eo as <-. cbn [eo_c_nonce] in En. rewrite En in H0.
  rewrite P in Ep. injection Ep as <-.
  exists (cno_created_at n), (cno_expected n), (cno_expires_in n), j. auto.
Qed.

Lemma nonces_app a b : nonces (a ++ b) = nonces a ++ nonces b.
Proof. induction a as [|[t n l|t k|k|] a IH]; cbn [app nonces]; [reflexivity|now rewrite IH|exact IH..]. Qed.

Lemma no_replay d h s a t1 token b t2 c :
  lower_case_facts d -> history d h s ->
  h = a ++ Accepted t1 token :: b ++ Accepted t2 token :: c ->
  NoDup (nonces h) -> Forall (fun e => ~ is_issue e) b.
Proof.
  intros HL H E ND.
  destruct (accepted_current d h s a t1 token (b ++ Accepted t2 token :: c) HL H E) as (t & n & l & j & L1 & P1 & N1 & _).
  assert (h = (a ++ Accepted t1 token :: b) ++ Accepted t2 token :: c) as E2
    by (rewrite E, <- app_assoc; reflexivity).
  destruct (accepted_current d h s _ t2 token c HL H E2) as (t' & n' & l' & j' & L2 & P2 & N2 & _).
  rewrite (proof_token_det _ _ _ _ P2 P1) in N2. rewrite N1 in N2. subst n'.
  destruct L2 as (x & y & E3 & Hy). destruct L1 as (x1 & y1 & E1 & Hy1).
  apply Forall_forall. intros e He Hi.
  (* the last issue before the second acceptance lies in [b], with nonce [n] again *)
  assert (In n (nonces b)) as Hin.
  { clear - E3 Hy He Hi. revert x E3. induction a as [|q a IH]; intros x E3.
    - destruct x as [|q x]; [discriminate|]. injection E3 as <- E3.
      rewrite E3, nonces_app. apply in_or_app. right. now left.
    - destruct x as [|q' x].
      + injection E3 as -> E3. subst y. exfalso.
        rewrite Forall_forall in Hy. apply (Hy e); [|exact Hi]. apply in_or_app. right. now right.
      + injection E3 as _ E3. now apply (IH x). }
  assert (In n (nonces a)) as Hin1.
  { rewrite E1, nonces_app. apply in_or_app. right. now left. }
  rewrite E in ND. rewrite nonces_app in ND. cbn [nonces] in ND. rewrite nonces_app in ND.
  apply in_split in Hin1. destruct Hin1 as (u & v & Eu). rewrite Eu in ND.
  rewrite <- app_assoc in ND. cbn [app] in ND. apply NoDup_remove_2 in ND. apply ND.
  apply in_or_app. right. apply in_or_app. right. apply in_or_app. now left.
Qed.

(** Nothing but an issue changes the state. *)
Lemma step_next d s e s' : session_step d s e s' ->
  s' = match e with
       | Issued t n l => Some {| cno_expires_in := l; cno_expected := n; cno_created_at := t |}
       | _ => s
       end.
Proof.
  intros S. destruct S as [s now access ty ei sc n life ap iv resp t E| |s now r ct n life resp t E| | | | |]; try reflexivity.
  - apply token_time in E. now subst t.
  - apply credential_time in E. now subst t.
Qed.

Lemma history_state d h s : history d h s -> forall s0, history d h s0 -> s0 = s.
Proof.
  induction 1 as [|h e s s' _ IH S]; intros s0 H0; inversion H0 as [E|h' e' s1 s2 H1 S1 E]; subst.
  - reflexivity.
  - destruct h'; discriminate.
  - destruct h; discriminate.
  - apply app_inj_tail in E. destruct E as [-> ->]. apply step_next in S, S1. subst.
    now rewrite (IH s1 H1).
Qed.

Lemma history_quiet d h s b : history d h s -> forall s', history d (h ++ b) s' ->
  Forall (fun e => ~ is_issue e) b -> s' = s.
Proof.
  intros H. induction b as [|e b IH] using rev_ind; intros s' H' F.
  - rewrite app_nil_r in H'. now apply (history_state d h).
  - rewrite app_assoc in H'. apply Forall_app in F. destruct F as [F1 F2]. inversion F2; subst.
    inversion H' as [E|h' e' s1 s2 H1 S1 E]; subst; [destruct h, b; discriminate|].
    apply app_inj_tail in E. destruct E as [-> ->]. apply step_next in S1. rewrite <- (IH s1 H1 F1).
    destruct e; subst; try reflexivity. exfalso. match goal with K : ~ is_issue _ |- _ => apply K; repeat eexists end.
Qed.

Lemma accepted_again d h s b s' now now' m r offer asm doc client resp t n l :
  lower_case_facts d -> history d h s -> history d (h ++ b) s' -> Forall (fun e => ~ is_issue e) b ->
  evaluate_credential_request d now m r offer asm doc (Some {| eo_c_nonce := s; eo_client_id := client |}) = Ok resp ->
  last_issue h t n l -> (now' <= t + 1000000000 * Z.of_N l)%Z ->
  evaluate_credential_request d now' m r offer asm doc (Some {| eo_c_nonce := s'; eo_client_id := client |}) = Ok resp.
Proof.
  intros HL H H' F Ev LI Hn. rewrite (history_quiet d h s b H s' H' F).
  apply (evaluate_outcomes d _ _ _ _ _ _ _ HL) in Ev. apply (evaluate_outcomes d _ _ _ _ _ _ _ HL).
  destruct Ev as [C R]. split; [|exact R]. apply history_remembered in H.
  unfold request_checks in *. inversion C as [|? ? C1 D1]; subst. inversion D1 as [|? ? C2 D2]; subst.
  inversion D2 as [|? ? C3 D3]; subst. inversion D3 as [|? ? C4 D4]; subst.
  do 3 (apply Forall_cons; [assumption|]). apply Forall_cons; [|exact D4]. cbn [passes] in *.
  intros q Q. destruct (C4 q Q) as [Q1 _]. split; [exact Q1|].
  destruct Q as (op & [= <-] & E). cbn [eo_c_nonce] in E. subst s. cbn [remembered] in H.
  unfold nonce_expiry. destruct (last_issue_det _ _ _ _ _ _ _ H LI) as (-> & _ & ->). exact Hn.
Qed.

(* ---------------- a complete run ---------------- *)

Lemma base64_rust_string b t : base64_text url_alphabet false b t -> rust_string t.
Proof.
  intros H. apply base64_text_url in H. subst t. apply rust_string_ascii.
  pose proof (base64url_chars b) as B. unfold ascii_only. rewrite forallb_forall in *.
  intros c Hc. specialize (B c Hc). destruct c as [[] [] [] [] [] [] [] []]; vm_compute in B |- *; congruence.
Qed.

Lemma wallet_token d j sig token :
  dt_round_trips d -> header_ok (j_header j) -> body_ok (j_body j) -> body_instants_ok (j_body j) ->
  j_signature j = Some sig -> dotless sig -> rust_string sig -> compact_text d j sig token ->
  proof_token d token j /\ rust_string token.
Proof.
  intros Hd Hh Hb Hi Hs Ds Rs (hs & bs & Eh & Eb & ->). split.
  - apply proof_token_iff.
    replace (hs ++ lit "." ++ bs ++ lit "." ++ sig)
      with (hs ++ lit "." ++ bs ++ match j_signature j with Some sig => lit "." ++ sig | None => [] end)
      by now rewrite Hs.
    apply compact_round_trip; try assumption. rewrite Hs. now intros ? [= <-].
  - repeat apply rust_string_app; eauto using base64_rust_string; apply rust_string_ascii; reflexivity.
Qed.

Lemma honest_run d m creds ep g o url k :
  lower_case_facts d -> upper_case_facts d -> dt_round_trips d ->
  create_offer m creds ep None (Some g) = Ok (o, url) ->
  rust_string (im_credential_issuer m) -> Forall (credential_or_id_ok k) creds -> preauth_flow_ok g ->
  (k <= 122)%nat ->
  exists payload text o' g',
    url = offer_url_prefix ep ++ payload /\ percent_decoded payload text
    /\ offer_from_json text = Some o' /\ og_pre (co_grants o') = Some g'
    /\ forall pin opts, on_some u64 pin -> pin_length_ok pin -> grant_satisfied g (pf_code g) pin opts ->
    exists tr, token_request_from_json
                 (token_request_to_json {| tr_grant_type := GPreAuthorized (pf_code g') pin |}) = Some tr
    /\ evaluate_access_token_request tr (Some o) opts = Ok tt
    /\ forall t0 access ty ei sc nonce life ap iv,
      rust_string access -> on_some u32 ei -> on_some rust_string sc -> rust_string nonce -> u32 life ->
      on_some u32 iv -> representable (t0 + 1000000000 * Z.of_N life)%Z ->
    exists ts ts' n', create_access_token_success_response t0 access ty ei sc (Some nonce) (Some life) ap iv = Ok (ts, t0)
    /\ token_success_from_json (token_success_to_json ts) = Some ts' /\ ts_c_nonce ts' = Some n'
    /\ forall alg kid iss iat sig token u doc key bytes client c ptype i,
      rust_string kid -> on_some rust_string iss -> rust_string sig -> dotless sig ->
      in_instant_range iat = true ->
      compact_text d (wallet_proof alg kid (co_credential_issuer o') n' iss iat sig) sig token ->
      did_url_try_from d kid = inr u -> document_key d doc kid key -> public_key key bytes ->
      (forall x, client = Some x -> iss = Some x) ->
      ascii_ci ptype (lit "jwt") -> rust_string ptype -> cfp_ok i c -> (i <= 122)%nat ->
    exists r, credential_request_from_json (credential_request_to_json
        {| cr_format := c; cr_proof := Some {| rp_proof_type := ptype; rp_jwt := token |} |}) = Some r
    /\ pre_evaluate_credential_request d r = Ok (Some (du_did u))
    /\ forall t1, (t1 <= t0 + 1000000000 * Z.of_N life)%Z ->
    exists resp pop, evaluate_credential_request d t1 m r (Some o) None (Some doc)
        (Some {| eo_c_nonce := Some {| cno_expires_in := life; cno_expected := nonce; cno_created_at := t0 |};
                 eo_client_id := client |}) = Ok resp
    /\ er_subject_id resp = Some (du_did u) /\ er_credential resp = c /\ er_pop resp = Some pop
    /\ pop_algorithm pop = alg /\ pop_public_key pop = bytes
    /\ forall t2 issued_credential n2 q, cfp_ok q issued_credential -> (q <= 122)%nat ->
      on_some (fun n => rust_string (cn_c_nonce n) /\ on_some u32 (cn_expires_in n)) n2 ->
    exists cs cs' e, create_credential_success_response d t2 r (Some (CTCredential issued_credential)) n2 = Ok (cs, t2)
    /\ credential_success_from_json (credential_success_to_json cs) = Some cs'
    /\ cs_credential cs' = Some e /\ delivered e issued_credential.
Proof.
  intros HL HU HT HC HI HF HG Hk.
  assert (on_some preauth_flow_ok (Some g)) as HG' by (now intros ? [= <-]).
  destruct (offer_url_recover_args _ _ _ _ _ _ _ k HC HI HF HG' Hk) as (payload & text & E1 & E2 & _ & E3).
  destruct (create_offer_content _ _ _ _ _ _ _ HC) as (Ci & Cc & Ca & Cp).
  assert (ids_distinct (im_credentials_supported m)) as HD.
  { apply create_offer_iff with (creds := creds) (ep := ep) (a := None) (p := Some g). eauto. }
  exists payload, text, o, g. do 4 (split; [assumption|]).
  intros pin opts Hu Hl Hs. eexists. split.
  { apply token_request_json_rt. split; [exact HG|exact Hu]. }
  split.
  { apply evaluate_ok. now apply token_accept with g. }
  intros t0 access ty ei sc nonce life ap iv H1 H2 H3 H4 H5 H6 H7.
  assert (on_some rust_string (Some nonce)) as H4' by (now intros ? [= <-]).
  assert (on_some u32 (Some life)) as H5' by (now intros ? [= <-]).
  destruct (create_token_success t0 access ty ei sc (Some nonce) (Some life) ap iv)
    as (ts & T1 & _ & _ & _ & _ & T2 & _ & _ & _ & T3).
  exists ts, ts, nonce. split; [exact T1|]. split; [now apply T3|]. split; [exact T2|].
  intros alg kid iss iat sig token u doc key bytes client c ptype i
    K1 K2 K3 K4 K5 K6 K7 K8 K9 K10 K11 K12 K13 K14.
  rewrite Ci in K6. set (j := wallet_proof alg kid (im_credential_issuer m) nonce iss iat sig) in *.
  destruct (wallet_token d j sig token) as [P1 P2]; try assumption; try reflexivity.
  { split; [apply rust_string_ascii; reflexivity|]. intros s [E|[E|E]]; try discriminate E. injection E as <-. exact K1. }
  { repeat split; cbn; try assumption. now intros ? [=]. }
  { repeat split; cbn; try assumption; now intros ? [=]. }
  set (p := {| rp_proof_type := ptype; rp_jwt := token |}).
  set (r := {| cr_format := c; cr_proof := Some p |}).
  exists r. split.
  { apply request_json_rt with i; [|lia]. split; [exact K13|]. intros ? [= <-]. split; assumption. }
  assert (on_some (fun p => rust_string (rp_proof_type p)) (cr_proof r)) as HR by (now intros ? [= <-]).
  assert (ascii_ci (h_typ (j_header j)) proof_typ) as HTyp by (apply same_ascii_ci; reflexivity).
  assert (Forall passes (proof_checks d p)) as HP.
  { unfold proof_checks. repeat apply Forall_cons; try apply Forall_nil; cbn [passes]; eauto. }
  split.
  { apply (proj1 (pre_evaluate_outcomes d r HL HU HR)). right. exists p, j. repeat split; try assumption.
    now constructor. }
  intros t1 Ht1.
  destruct (raw_signed d j) as [s2 S2]; [discriminate|].
  destruct (proj2 (proj2 (message_determined (raw_text d j)))) as [msg S1].
  exists {| er_pop := Some {| pop_algorithm := alg; pop_public_key := bytes; pop_message := msg; pop_signature := s2 |};
            er_subject_id := Some (du_did u); er_credential := c |}.
  eexists. split.
  { apply (evaluate_outcomes d _ _ _ _ _ _ _ HL). split.
    - unfold request_checks. repeat apply Forall_cons; try apply Forall_nil; cbn [passes]; eauto; try discriminate.
      + intros n (op & [= <-] & [= <-]). exact (conj H7 Ht1).
      + intros ? [= <-]. eauto.
    - exists p, j, o, bytes, msg, s2, (Some (du_did u)). repeat split; try assumption.
      + unfold token_checks. repeat apply Forall_cons; try apply Forall_nil; cbn [passes]; eauto.
        * eexists. split; [exists {| eo_c_nonce := Some {| cno_expires_in := life; cno_expected := nonce; cno_created_at := t0 |}; eo_client_id := client |}; split; reflexivity|]. reflexivity.
        * unfold iss_allowed. cbn [eo_client_id]. destruct client as [x|]; [exact (K10 x eq_refl)|].
          left. split; [rewrite Cp; discriminate|exact Ca].
        * exists bytes. now apply key_of_kid with doc key.
        * exists (Some (du_did u)). now constructor.
      + now apply key_of_kid with doc key.
      + now constructor. }
  do 5 (split; [reflexivity|]).
  intros t2 ic n2 q Q1 Q2 Q3.
  destruct (create_credential_success_response d t2 r (Some (CTCredential ic)) n2) as [[cs t]| |] eqn:EC.
  2,3: exfalso; revert EC; unfold create_credential_success_response;
    rewrite (proj2 (proj1 (request_validate_outcomes d r HL HU HR))) by (intros ? [= <-]; exact HP);
    cbn [bind]; destruct (encode_ok ic) as (e0 & -> & _); discriminate.
  pose proof (success_shape _ _ _ _ _ _ _ EC) as (_ & HA & _ & HN & _ & HFm & HCr & ->).
  destruct (HCr ic eq_refl) as (e & Ee & Is).
  exists cs, cs, e. split; [reflexivity|]. split.
  - apply credential_success_json_rt with q; [|exact Q2].
    split; [rewrite HFm; destruct (cr_format r); apply rust_string_ascii; reflexivity|].
    split; [rewrite Ee; intros ? [= <-]; destruct Is as [F|f tx F N B]; [exact Q1|exact (base64_rust_string _ _ B)]|].
    split; [intros a Ha; apply HA in Ha; discriminate|].
    destruct n2 as [n|]; destruct HN as [-> ->].
    + destruct (Q3 n eq_refl). split; [now intros ? [= <-]|assumption].
    + split; now intros ? [=].
  - split; [exact Ee|]. pose proof (issued_recovered q ic e Q1 Is) as R.
    destruct e as [c'|tx]; [subst; constructor|]. destruct R as (b & R1 & R2). econstructor; eassumption.
Qed.
