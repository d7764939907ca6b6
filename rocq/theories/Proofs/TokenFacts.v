(** Lemmas about Model/AccessToken.v. *)
From Coq Require Import Lia ZifyBool ZifyN ZifyNat.
From Verif Require Import Model.Prelude Model.Json Model.Types Model.Deps Model.Serde Model.Errors
  Model.AccessToken Model.Wire Spec SpecToken Proofs.StrFacts Proofs.Utf8Facts Proofs.JsonFacts
  Proofs.SerdeFacts.

(* ---------------- decimal digits ---------------- *)

Lemma decimal_digits_unique n k1 k2 : decimal_digits n k1 -> decimal_digits n k2 -> k1 = k2.
Proof.
  intros [[-> ->]|(N1 & K1 & L1 & U1)] [[E ->]|(N2 & K2 & L2 & U2)]; try congruence.
  assert (10 ^ (k1 - 1) < 10 ^ k2) as A by lia. assert (10 ^ (k2 - 1) < 10 ^ k1) as B by lia.
  apply N.pow_lt_mono_r_iff in A; [|lia]. apply N.pow_lt_mono_r_iff in B; [|lia]. lia.
Qed.

Lemma decimal_digits_exists n : exists k, decimal_digits n k.
Proof.
  destruct (N.eq_dec n 0) as [->|Hn]; [exists 1; left; auto|].
  destruct (dec_spec n) as (_ & _ & (d & r & E & _) & U & L).
  exists (N.of_nat (List.length (dec n))). right. rewrite E in *. cbn [List.length] in *.
  split; [assumption|]. split; [lia|]. split; [now apply L|assumption].
Qed.

Lemma decimal_digits_lt n k m : decimal_digits n k -> m <> 0 -> (k <= m <-> n < 10 ^ m).
Proof.
  intros [[-> ->]|(N1 & K1 & L1 & U1)] Hm.
  - assert (0 < 10 ^ m) by (apply N.neq_0_lt_0, N.pow_nonzero; lia). lia.
  - split; intros H.
    + apply N.lt_le_trans with (10 ^ k); [assumption|]. apply N.pow_le_mono_r; lia.
    + assert (10 ^ (k - 1) < 10 ^ m) as A by lia. apply N.pow_lt_mono_r_iff in A; lia.
Qed.

(* ---------------- checked_ilog10 ---------------- *)

Lemma ilog10_spec fuel : forall n, n <> 0 -> (N.to_nat (N.size n) <= fuel)%nat ->
  10 ^ ilog10_fuel fuel n <= n /\ n < 10 ^ (ilog10_fuel fuel n + 1).
Proof.
  induction fuel as [|f IH]; intros n Hn Hf.
  - pose proof (size_pos n Hn). lia.
  - cbn [ilog10_fuel]. destruct (n <? 10) eqn:E.
    + apply N.ltb_lt in E. change (10 ^ 0) with 1. change (10 ^ (0 + 1)) with 10. lia.
    + apply N.ltb_ge in E. assert (n / 10 <> 0) as Hnz by (pose proof (N.div_str_pos n 10); lia).
      destruct (IH (n / 10) Hnz) as [L U]. { pose proof (size_div10 n E). lia. }
      pose proof (N.div_mod n 10 ltac:(lia)) as Hdm. pose proof (N.mod_lt n 10 ltac:(lia)) as Hm.
      set (k := ilog10_fuel f (n / 10)) in *.
      replace (1 + k + 1) with (1 + (k + 1)) by lia.
      rewrite (N.pow_add_r 10 1 k), (N.pow_add_r 10 1 (k + 1)), N.pow_1_r.
      set (P := 10 ^ k) in *. set (Q := 10 ^ (k + 1)) in *. nia.
Qed.

Lemma ilog10_digits n k : decimal_digits n k ->
  match checked_ilog10 n with Some l => l | None => 0 end = k - 1.
Proof.
  intros H. unfold checked_ilog10. destruct (N.eqb_spec n 0) as [->|Hn].
  - destruct H as [[_ ->]|[H _]]; [reflexivity|congruence].
  - destruct (ilog10_spec (N.to_nat (N.size n)) n Hn (Nat.le_refl _)) as [L U].
    set (l := ilog10_fuel _ n) in *.
    assert (decimal_digits n (l + 1)) as H'.
    { right. replace (l + 1 - 1) with l by lia. repeat split; try assumption; lia. }
    rewrite (decimal_digits_unique _ _ _ H H'). lia.
Qed.

Lemma validate_ok g :
  grant_type_validate g = Ok tt <->
  (forall c n k, g = GPreAuthorized c (Some n) -> decimal_digits n k -> k <= 9).
Proof.
  destruct g as [|c [n|]]; cbn [grant_type_validate].
  - split; [congruence|reflexivity].
  - cbv zeta. destruct (decimal_digits_exists n) as [k Hk]. rewrite (ilog10_digits n k Hk).
    destruct (8 <? k - 1) eqn:E; split; intros H; try congruence.
    + specialize (H c n k eq_refl Hk). lia.
    + intros c' n' k' [= <- <-] Hk'. rewrite (decimal_digits_unique _ _ _ Hk' Hk). lia.
  - split; [congruence|reflexivity].
Qed.

Lemma validate_err g e :
  grant_type_validate g = Err e <->
  (exists c n k, g = GPreAuthorized c (Some n) /\ decimal_digits n k /\ 9 < k
     /\ e = VAny (lit "user pin exeeded length. Maximum is 8, supplied is " ++ dec (k - 1))).
Proof.
  destruct g as [|c [n|]]; cbn [grant_type_validate].
  - split; [congruence|]. intros (?&?&?&?&_). congruence.
  - cbv zeta. destruct (decimal_digits_exists n) as [k Hk]. rewrite (ilog10_digits n k Hk).
    destruct (8 <? k - 1) eqn:E; split; intros H; try congruence.
    + injection H as <-. exists c, n, k. repeat split; try assumption; lia.
    + destruct H as (c' & n' & k' & [= <- <-] & Hk' & _ & ->).
      rewrite (decimal_digits_unique _ _ _ Hk' Hk). reflexivity.
    + destruct H as (c' & n' & k' & [= <- <-] & Hk' & Hl & ->).
      rewrite (decimal_digits_unique _ _ _ Hk' Hk) in Hl. lia.
  - split; [congruence|]. intros (?&?&?&?&_). congruence.
Qed.

Lemma validate_no_panic g : grant_type_validate g <> Panic.
Proof. destruct g as [|c [n|]]; cbn; [discriminate| |discriminate]. destruct (8 <? _); discriminate. Qed.

Lemma request_validate_eq r : token_request_validate r = grant_type_validate (tr_grant_type r).
Proof. unfold token_request_validate. destruct (grant_type_validate _) as [[]| |]; reflexivity. Qed.

(* ---------------- evaluate_access_token_request ---------------- *)

Lemma pin_length_ok_validate c pin :
  pin_length_ok pin <-> grant_type_validate (GPreAuthorized c pin) = Ok tt.
Proof.
  rewrite validate_ok. unfold pin_length_ok. split.
  - intros H c' n k [= <- ->]. now apply H.
  - intros H n k -> Hk. eapply H; eauto.
Qed.

Lemma some_true o : (match o with Some b => b | None => false end) = true <-> o = Some true.
Proof. destruct o as [[]|]; intuition congruence. Qed.

Lemma preauth_ok opts g c pin :
  validate_pre_authorized_code_flow opts g (GPreAuthorized c pin) = Ok tt <-> grant_satisfied g c pin opts.
Proof.
  unfold validate_pre_authorized_code_flow, grant_satisfied, pin_required, expected_pin. cbv zeta.
  destruct pin as [n|].
  - cbn [is_some]. destruct opts as [[[m|]]|]; cbn [opt_bind to_expected_user_pin ok_or bind].
    + destruct (N.eqb_spec n m) as [->|Hne]; cbn [negb bind].
      * destruct (pf_user_pin_required g) as [[]|], (str_eqb (pf_code g) c) eqn:E; cbn;
          first [apply str_eqb_eq in E | apply str_eqb_neq in E]; (split; [intros; try discriminate|]).
        1: { split; [congruence|]. split; [split; congruence|]. intros k [= <-]. eexists. split; reflexivity. }
        all: try reflexivity.
        all: intros (A & B & C); first [exfalso; apply E; congruence | exfalso; clear -B; intuition congruence].
      * split; [discriminate|]. intros (_ & _ & C). destruct (C n eq_refl) as (o & [= <-] & [= ->]). congruence.
    + split; [discriminate|]. intros (_ & _ & C). destruct (C n eq_refl) as (o & [= <-] & ?). discriminate.
    + split; [discriminate|]. intros (_ & _ & C). destruct (C n eq_refl) as (o & ? & ?). discriminate.
  - cbn [is_some bind]. destruct (pf_user_pin_required g) as [[]|], (str_eqb (pf_code g) c) eqn:E; cbn;
      first [apply str_eqb_eq in E | apply str_eqb_neq in E]; (split; [intros; try discriminate|]).
    all: try reflexivity.
    all: try (intros (A & B & C); first [exfalso; apply E; congruence | exfalso; clear -B; intuition congruence]).
    all: split; [congruence|]; split; [split; congruence|discriminate].
Qed.

Lemma preauth_err opts g c pin e :
  validate_pre_authorized_code_flow opts g (GPreAuthorized c pin) = Err e <-> grant_error g c opts pin e.
Proof.
  assert (forall req cm,
    (match pf_user_pin_required g with Some b => b | None => false end) = req ->
    str_eqb (pf_code g) c = cm ->
    (forall n, pin = Some n -> expected_pin opts n) ->
    (if Bool.eqb (is_some pin) req && cm then Ok tt else Err (TInvalidPreAuthorizedCodeFlowValues req cm))
     = Err e <-> grant_error g c opts pin e) as Main.
  { intros req cm Hreq Hcm Hexp.
    assert (req = true <-> pin_required g) as Hr by (rewrite <- Hreq; apply some_true).
    assert (cm = true <-> c = pf_code g) as Hc by (rewrite <- Hcm, str_eqb_eq; split; congruence).
    assert (is_some pin = true <-> pin <> None) as Hp by (destruct pin; cbn; intuition congruence).
    split.
    - destruct (Bool.eqb (is_some pin) req && cm) eqn:E; [discriminate|]. intros [= <-].
      apply ge_values; try assumption. intros [A B]. apply Hc in A. subst cm. rewrite A, andb_true_r in E.
      assert (is_some pin = true <-> req = true) as Heq by tauto.
      destruct (is_some pin), req; cbn in E; try discriminate; intuition congruence.
    - intros H. destruct H as [n H|n m H1 H2|pin required code_matches H1 H2 H3 H4].
      + exfalso. eapply H, Hexp, eq_refl.
      + exfalso. destruct (Hexp n eq_refl) as (o & Ho & Hn), H1 as (o' & Ho' & Hm). congruence.
      + assert (required = req) as -> by (destruct required, req; intuition congruence).
        assert (code_matches = cm) as -> by (destruct code_matches, cm; intuition congruence).
        destruct (Bool.eqb (is_some pin) req && cm) eqn:E; [|reflexivity]. exfalso. apply H4.
        apply andb_true_iff in E as [E1 E2]. apply eqb_prop in E1. split; [tauto|].
        rewrite <- Hp, <- Hr, E1. reflexivity. }
  unfold validate_pre_authorized_code_flow. cbv zeta. destruct pin as [n|].
  - destruct opts as [[[m|]]|]; cbn [opt_bind to_expected_user_pin ok_or bind].
    + destruct (N.eqb_spec n m) as [->|Hne]; cbn [negb bind].
      * apply Main; auto. intros k [= <-]. eexists; split; reflexivity.
      * split.
        -- intros [= <-]. apply ge_mismatch with m; [|assumption]. eexists; split; reflexivity.
        -- intros H. inversion H as [n' Hn|n' m' Hm Hne'|pin' req cm H1 H2 H3 H4]; subst.
           ++ exfalso. apply (Hn m). eexists; split; reflexivity.
           ++ reflexivity.
           ++ exfalso. destruct (H1 n eq_refl) as (o & [= <-] & [= ->]). congruence.
    + assert (forall m, ~ expected_pin (Some {| to_expected_user_pin := None |}) m) as Hn.
      { intros m (o & [= <-] & ?). discriminate. }
      split.
      * intros [= <-]. now apply ge_no_expected.
      * intros H. inversion H as [n' Hn'|n' m' Hm Hne'|pin' req cm H1 H2 H3 H4]; subst;
          [reflexivity|exfalso; eapply Hn; eassumption|exfalso; eapply Hn, H1; reflexivity].
    + assert (forall m, ~ expected_pin None m) as Hn. { intros m (o & ? & ?). discriminate. }
      split.
      * intros [= <-]. now apply ge_no_expected.
      * intros H. inversion H as [n' Hn'|n' m' Hm Hne'|pin' req cm H1 H2 H3 H4]; subst;
          [reflexivity|exfalso; eapply Hn; eassumption|exfalso; eapply Hn, H1; reflexivity].
  - cbn [bind]. apply Main; auto. discriminate.
Qed.

Lemma preauth_no_panic opts g gt : validate_pre_authorized_code_flow opts g gt <> Panic.
Proof.
  unfold validate_pre_authorized_code_flow. cbv zeta. destruct gt as [|c [n|]]; [discriminate| |].
  - destruct (opt_bind opts to_expected_user_pin); cbn [ok_or bind]; [|discriminate].
    destruct (negb _); cbn [bind]; [discriminate|]. destruct (_ && _); discriminate.
  - cbn [bind]. destruct (_ && _); discriminate.
Qed.

Lemma evaluate_no_panic r offer opts : evaluate_access_token_request r offer opts <> Panic.
Proof.
  unfold evaluate_access_token_request. rewrite request_validate_eq.
  pose proof (validate_no_panic (tr_grant_type r)) as Hv.
  destruct (grant_type_validate (tr_grant_type r)) as [[]| |]; cbn [map_err bind]; try congruence.
  destruct (tr_grant_type r) as [|c pin]; [discriminate|]. destruct offer as [o|]; [|discriminate].
  pose proof (preauth_no_panic opts) as Hp.
  destruct (og_auth _), (og_pre _) as [g|]; cbn [validate_authorized_code_flow]; try discriminate; auto.
  specialize (Hp g (GPreAuthorized c pin)). destruct (validate_pre_authorized_code_flow _ _ _); congruence.
Qed.

Lemma evaluate_ok r offer opts :
  evaluate_access_token_request r offer opts = Ok tt <-> token_accepted r offer opts.
Proof.
  unfold evaluate_access_token_request. rewrite request_validate_eq. destruct r as [gt]. cbn [tr_grant_type].
  split.
  - destruct (grant_type_validate gt) as [[]| |] eqn:Ev; cbn [map_err bind]; try congruence.
    destruct gt as [|c pin]; [discriminate|]. destruct offer as [o|]; [|discriminate].
    destruct (og_auth _) as [a|] eqn:Ea, (og_pre _) as [g|] eqn:Eg; cbn [validate_authorized_code_flow];
      try discriminate.
    + destruct (validate_pre_authorized_code_flow opts g (GPreAuthorized c pin)) as [[]| |] eqn:E; try discriminate.
      intros _. apply token_accept with g; [now apply (pin_length_ok_validate c)|assumption|now apply preauth_ok].
    + intros E. apply token_accept with g; [now apply (pin_length_ok_validate c)|assumption|now apply preauth_ok].
  - intros H. inversion H as [c pin o g opts' Hl Hg Hs]; subst.
    apply (pin_length_ok_validate c) in Hl. rewrite Hl. cbn [map_err bind]. rewrite Hg.
    apply preauth_ok in Hs. rewrite Hs. destruct (og_auth _); reflexivity.
Qed.

Lemma evaluate_err r offer opts e :
  evaluate_access_token_request r offer opts = Err e <-> token_rejected r offer opts e.
Proof.
  unfold evaluate_access_token_request. rewrite request_validate_eq. destruct r as [gt]. cbn [tr_grant_type].
  split.
  - destruct (grant_type_validate gt) as [[]|v|] eqn:Ev; cbn [map_err bind]; try congruence.
    + destruct gt as [|c pin]; [intros [= <-]; apply rej_authorization_code|].
      apply (pin_length_ok_validate c) in Ev.
      destruct offer as [o|]; [|intros [= <-]; now apply rej_no_offer].
      destruct (og_auth _) as [a|] eqn:Ea, (og_pre _) as [g|] eqn:Eg; cbn [validate_authorized_code_flow].
      * destruct (validate_pre_authorized_code_flow opts g (GPreAuthorized c pin)) as [[]|pe|] eqn:E; try discriminate.
        intros [= <-]. apply preauth_err in E. eapply rej_both; eassumption.
      * intros [= <-]. eapply rej_only_authorized; eassumption.
      * intros E. apply preauth_err in E. eapply rej_pre_authorized; eassumption.
      * intros [= <-]. now apply rej_no_grants.
    + intros [= <-]. apply validate_err in Ev as (c & n & k & -> & Hk & Hl & ->).
      eapply rej_pin_length; try eassumption. exists k, (dec (k - 1)).
      split; [assumption|]. split; [apply dec_text|reflexivity].
  - intros H.
    inversion H as [code n k of op e' Hk Hl He|of op|code pin op Hl|code pin o op Hl Ha Hp
      |code pin o op a Hl Ha Hp|code pin o op g e' Hl Ha Hp He|code pin o op a g e' Hl Ha Hp He]; subst;
      try reflexivity; try (apply (pin_length_ok_validate code) in Hl; rewrite Hl; cbn [map_err bind]).
    + destruct He as (k' & text & Hk' & Ht & ->).
      pose proof (decimal_text_unique _ _ _ Ht (dec_text _)) as ->.
      assert (grant_type_validate (GPreAuthorized code (Some n)) =
        Err (VAny (lit "user pin exeeded length. Maximum is 8, supplied is " ++ dec (k' - 1)))) as ->.
      { apply validate_err. exists code, n, k'. rewrite (decimal_digits_unique _ _ _ Hk' Hk) in *. auto. }
      reflexivity.
    + reflexivity.
    + rewrite Ha, Hp. reflexivity.
    + rewrite Ha, Hp. reflexivity.
    + rewrite Ha, Hp. now apply preauth_err.
    + rewrite Ha, Hp. apply preauth_err in He. rewrite He. reflexivity.
Qed.

Lemma same_grant_same_verdict r o1 o2 opts g :
  og_pre (co_grants o1) = Some g -> og_pre (co_grants o2) = Some g ->
  (evaluate_access_token_request r (Some o1) opts = Ok tt <->
   evaluate_access_token_request r (Some o2) opts = Ok tt)
  /\ (forall e1, evaluate_access_token_request r (Some o1) opts = Err e1 ->
      exists e2, evaluate_access_token_request r (Some o2) opts = Err e2
        /\ pre_authorized_reason e1 = pre_authorized_reason e2).
Proof.
  intros H1 H2. unfold evaluate_access_token_request. rewrite request_validate_eq.
  destruct (grant_type_validate (tr_grant_type r)) as [[]|v|] eqn:Ev; cbn [map_err bind].
  - destruct (tr_grant_type r) as [|c pin] eqn:Er.
    { split; [reflexivity|]. intros e [= <-]. eexists; split; reflexivity. }
    rewrite H1, H2. pose proof (preauth_no_panic opts g (GPreAuthorized c pin)) as Hp.
    destruct (validate_pre_authorized_code_flow opts g (GPreAuthorized c pin)) as [[]|pe|] eqn:E; [| |congruence].
    + destruct (og_auth _), (og_auth _); cbn [validate_authorized_code_flow]; (split; [reflexivity|discriminate]).
    + assert (pre_authorized_reason pe = pe) as Hpe.
      { apply preauth_err in E. inversion E; reflexivity. }
      destruct (og_auth _), (og_auth _); cbn [validate_authorized_code_flow];
        (split; [split; congruence|]); intros e [= <-]; eexists; (split; [reflexivity|]); cbn; congruence.
  - split; [reflexivity|]. intros e [= <-]. eexists; split; reflexivity.
  - split; [reflexivity|discriminate].
Qed.

(* ---------------- string tables ---------------- *)

Lemma lit_string s t : lit s = lit t -> s = t.
Proof.
  unfold lit. intros H. rewrite <- (string_of_list_ascii_of_string s), H. apply string_of_list_ascii_of_string.
Qed.

Lemma oauth_code_iff c s : oauth_code c s <-> lit s = token_code_to_str c.
Proof.
  split.
  - intros []; reflexivity.
  - destruct c; cbn [token_code_to_str]; intros H; apply lit_string in H; subst; constructor.
Qed.

Lemma token_code_try_from_ok s c : token_code_try_from s = Ok c <-> s = token_code_to_str c.
Proof.
  unfold token_code_try_from. split.
  - repeat match goal with |- context [if str_eqb s ?x then _ else _] =>
      destruct (str_eqb s x) eqn:?E; [apply str_eqb_eq in E; intros [= <-]; exact E|clear E] end.
    discriminate.
  - intros ->. destruct c; reflexivity.
Qed.

Lemma token_code_try_from_err s : (forall c, s <> token_code_to_str c) ->
  token_code_try_from s = Err (VAny (lit "Invalid access token error code")).
Proof.
  intros H. destruct (token_code_try_from s) as [c|e|] eqn:E.
  - apply token_code_try_from_ok in E. now apply H in E.
  - unfold token_code_try_from in E.
    repeat match type of E with context [if ?b then _ else _] => destruct b; [discriminate|] end. congruence.
  - unfold token_code_try_from in E.
    repeat match type of E with context [if ?b then _ else _] => destruct b; [discriminate|] end. discriminate.
Qed.

Lemma token_code_inj a b : token_code_to_str a = token_code_to_str b -> a = b.
Proof. destruct a, b; intros H; try reflexivity; vm_compute in H; discriminate. Qed.

(* ---------------- success response ---------------- *)

Lemma token_success_json_rt t : token_success_ok t ->
  token_success_from_json (token_success_to_json t) = Some t.
Proof.
  intros H. unfold token_success_from_json, token_success_to_json, parse_struct.
  destruct (good_token_success t H) as [J D]. rewrite parse_doc_print by (auto; lia). cbn [opt_bind].
  now apply token_success_rt.
Qed.

Lemma token_request_json_rt r : token_request_ok r ->
  token_request_from_json (token_request_to_json r) = Some r.
Proof.
  intros H. unfold token_request_from_json, token_request_to_json, parse_struct.
  destruct (good_token_request r H) as [J D]. rewrite parse_doc_print by (auto; lia). cbn [opt_bind].
  now apply token_request_rt.
Qed.

(* ---------------- statements used in Properties/AccessToken.v ---------------- *)

Lemma authorization_code_rejected offer opts :
  evaluate_access_token_request {| tr_grant_type := GAuthorizedCode |} offer opts
  = Err TAuthorizedFlowNotSupported.
Proof. reflexivity. Qed.

Lemma nine_digit_counterexample :
  ~ (forall code n k, u64 n -> decimal_digits n k -> 8 < k ->
     exists e, token_request_validate {| tr_grant_type := GPreAuthorized code (Some n) |} = Err e).
Proof.
  intros H. destruct (H [] 123456789 9) as [e He]; [reflexivity| |lia|].
  - right. vm_compute. repeat split; discriminate.
  - vm_compute in He. discriminate.
Qed.

Lemma pin_validate_ok code n k : decimal_digits n k -> k <= 9 ->
  token_request_validate {| tr_grant_type := GPreAuthorized code (Some n) |} = Ok tt.
Proof.
  intros Hk Hl. rewrite request_validate_eq. apply validate_ok. cbn [tr_grant_type].
  intros c n' k' [= <- <-] Hk'. now rewrite (decimal_digits_unique _ _ _ Hk' Hk).
Qed.

Lemma pin_validate_err code n k : decimal_digits n k -> 9 < k ->
  exists text, decimal_text (k - 1) text /\
    token_request_validate {| tr_grant_type := GPreAuthorized code (Some n) |}
    = Err (VAny (lit "user pin exeeded length. Maximum is 8, supplied is " ++ text)).
Proof.
  intros Hk Hl. exists (dec (k - 1)). split; [apply dec_text|].
  rewrite request_validate_eq. apply validate_err. exists code, n, k. auto.
Qed.

Lemma pin_validate_iff code pin :
  (exists e, token_request_validate {| tr_grant_type := GPreAuthorized code pin |} = Err e)
  <-> (exists n k, pin = Some n /\ decimal_digits n k /\ 10 <= k).
Proof.
  rewrite request_validate_eq. cbn [tr_grant_type]. split.
  - intros [e H]. apply validate_err in H as (c & n & k & [= <- ->] & Hk & Hl & _). exists n, k. repeat split; auto; lia.
  - intros (n & k & -> & Hk & Hl). destruct (pin_validate_err code n k Hk) as (t & _ & H); [lia|].
    rewrite request_validate_eq in H. eauto.
Qed.

Lemma create_token_success now access_token token_type expires_in scope c_nonce c_nonce_expires_in
    authorization_pending interval :
  exists t,
    create_access_token_success_response now access_token token_type expires_in scope c_nonce
      c_nonce_expires_in authorization_pending interval = Ok (t, now)
    /\ ts_access_token t = access_token /\ ts_token_type t = token_type
    /\ ts_expires_in t = expires_in /\ ts_scope t = scope /\ ts_c_nonce t = c_nonce
    /\ ts_c_nonce_expires_in t = c_nonce_expires_in
    /\ ts_authorization_pending t = authorization_pending /\ ts_interval t = interval
    /\ (rust_string access_token -> on_some u32 expires_in -> on_some rust_string scope ->
        on_some rust_string c_nonce -> on_some u32 c_nonce_expires_in -> on_some u32 interval ->
        token_success_from_json (token_success_to_json t) = Some t).
Proof.
  eexists. split; [reflexivity|]. repeat split.
  intros. apply token_success_json_rt. repeat split; assumption.
Qed.

Lemma token_success_validate_iff t :
  token_success_validate t = Ok tt <-> ~ (ts_c_nonce t = None /\ ts_c_nonce_expires_in t <> None).
Proof.
  unfold token_success_validate, is_none. destruct (ts_c_nonce t), (ts_c_nonce_expires_in t); cbn;
    intuition (congruence || discriminate).
Qed.

Lemma token_success_validate_err t e :
  token_success_validate t = Err e <->
  ts_c_nonce t = None /\ ts_c_nonce_expires_in t <> None
  /\ e = VAny (lit "c_nonce_expires_in is provided, but c_nonce is not").
Proof.
  unfold token_success_validate, is_none. destruct (ts_c_nonce t), (ts_c_nonce_expires_in t); cbn;
    intuition (congruence || discriminate).
Qed.

Lemma token_success_validate_refuted :
  ~ (forall now access_token token_type expires_in scope c_nonce c_nonce_expires_in
       authorization_pending interval t clock,
     create_access_token_success_response now access_token token_type expires_in scope c_nonce
       c_nonce_expires_in authorization_pending interval = Ok (t, clock) ->
     token_success_validate t = Ok tt).
Proof.
  intros H. specialize (H 0%Z [] Bearer None None None (Some 60) None None _ _ eq_refl). discriminate.
Qed.

Lemma token_codes_bijection :
  (forall c name, oauth_code c name -> token_code_to_str c = lit name)
  /\ (forall c, token_code_try_from (token_code_to_str c) = Ok c)
  /\ (forall a b, token_code_to_str a = token_code_to_str b -> a = b)
  /\ (forall s, (forall c name, oauth_code c name -> s <> lit name) ->
      token_code_try_from s = Err (VAny (lit "Invalid access token error code")))
  /\ token_type_to_str Bearer = lit "Bearer"
  /\ token_type_try_from (lit "Bearer") = Ok Bearer
  /\ (forall s, s <> lit "Bearer" -> token_type_try_from s = Err (VAny (lit "Invalid access token type"))).
Proof.
  split; [intros c name H; symmetry; now apply oauth_code_iff|].
  split; [intros; now apply token_code_try_from_ok|]. split; [apply token_code_inj|].
  split; [|split; [reflexivity|split; [reflexivity|]]].
  - intros s H. apply token_code_try_from_err. intros c E.
    assert (exists name, lit name = token_code_to_str c) as [name Hn] by (destruct c; eexists; reflexivity).
    eapply H; [apply oauth_code_iff; eassumption|congruence].
  - intros s H. unfold token_type_try_from. apply str_eqb_neq in H. now rewrite H.
Qed.

(** The members of a serialized token request. *)
Lemma token_request_wire r : token_request_ok r -> exists inner,
  parse_json (token_request_to_json r) = Some (JObj [(lit "grant_type", JObj inner)])
  /\ In (lit "grant_type", JStr (match tr_grant_type r with
       | GAuthorizedCode => lit "authorization_code"
       | GPreAuthorized _ _ => lit "urn:ietf:params:oauth:grant-type:pre-authorized_code" end)) inner.
Proof.
  intros H. unfold parse_json, token_request_to_json. destruct (good_token_request r H) as [J D].
  rewrite parse_doc_print by (auto; lia). unfold ser_token_request, ser_grant_type.
  destruct (tr_grant_type r); eexists; (split; [reflexivity|]); now left.
Qed.

Lemma token_request_wire_refuted r : token_request_ok r ->
  ~ (exists members name, parse_json (token_request_to_json r) = Some (JObj members)
       /\ In (lit "grant_type", JStr name) members).
Proof.
  intros H (members & name & P & I). destruct (token_request_wire r H) as (inner & P' & _).
  rewrite P in P'. injection P' as ->. cbn [In] in I. destruct I as [[=]|[]].
Qed.
