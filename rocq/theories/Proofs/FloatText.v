(** Lemmas about the texts of numbers (Model/Float.v). *)
From Coq Require Import QArith Lia ZifyBool ZifyN ZifyNat.
From Verif Require Import Model.Prelude Model.Float SpecNumber Proofs.StrFacts Proofs.FloatFacts.
Open Scope N_scope.

(* ---------------- decimal digits ---------------- *)

Lemma digits_val_acc s : digits_val s = val_acc 0 s.
Proof. reflexivity. Qed.

Lemma digits_value_acc a s : digits_value a s = val_acc a s.
Proof.
  revert a; induction s as [|b s IH]; intros a; cbn [digits_value]; [reflexivity|].
  rewrite IH. reflexivity.
Qed.

Lemma is_dig_digit b : is_dig b = true <-> digit b.
Proof. unfold is_dig, digit. lia. Qed.

Lemma forallb_digits d : forallb is_dig d = true <-> Forall digit d.
Proof.
  rewrite forallb_forall, Forall_forall. split; intros H x Hx; apply is_dig_digit; auto.
Qed.

Lemma dec_text n : decimal_text n (dec n).
Proof.
  destruct (dec_spec n) as (D & V & (d & r & E & Z) & _ & _). split; [|split].
  - split; [rewrite E; discriminate|]. now apply forallb_digits.
  - now rewrite digits_value_acc.
  - rewrite E. cbn. intros [= ->]. destruct (Z eq_refl) as [H _]. congruence.
Qed.

(** Texts of the same number are equal. *)
Lemma val_acc_bound s : forallb is_dig s = true -> forall a, val_acc a s < (a + 1) * 10 ^ N.of_nat (List.length s)
   /\ a * 10 ^ N.of_nat (List.length s) <= val_acc a s.
Proof.
  induction s as [|c s IH]; intros H a.
  - unfold val_acc. cbn. lia.
  - cbn [forallb] in H. apply andb_true_iff in H as [Hc H]. unfold is_dig in Hc.
    change (val_acc a (c :: s)) with (val_acc (a * 10 + (code c - 48)) s).
    destruct (IH H (a * 10 + (code c - 48))) as [U L].
    cbn [List.length]. rewrite Nat2N.inj_succ, N.pow_succ_r'. set (P := 10 ^ _) in *. nia.
Qed.

Lemma val_acc_inj s : forall t a b,
  forallb is_dig s = true -> forallb is_dig t = true -> List.length s = List.length t ->
  val_acc a s = val_acc b t -> a = b /\ s = t.
Proof.
  induction s as [|c s IH]; intros [|e t] a b Hs Ht Hl E; try discriminate; [cbn in E; auto|].
  cbn [forallb] in Hs, Ht. apply andb_true_iff in Hs as [Hc Hs]. apply andb_true_iff in Ht as [He Ht].
  change (val_acc a (c :: s)) with (val_acc (a * 10 + (code c - 48)) s) in E.
  change (val_acc b (e :: t)) with (val_acc (b * 10 + (code e - 48)) t) in E.
  injection Hl as Hl. destruct (IH _ _ _ Hs Ht Hl E) as [H1 ->]. unfold is_dig in Hc, He.
  assert (code c = code e) as Hce by lia. apply code_inj in Hce. subst. split; [lia|reflexivity].
Qed.

Lemma decimal_text_unique n s t : decimal_text n s -> decimal_text n t -> s = t.
Proof.
  intros ((Ns & Ds) & Vs & Zs) ((Nt & Dt) & Vt & Zt).
  rewrite digits_value_acc in Vs, Vt. apply forallb_digits in Ds, Dt.
  assert (forall u, u <> [] -> forallb is_dig u = true -> val_acc 0 u = n ->
          (hd_error u = Some "0"%char -> u = ["0"%char]) ->
          n = 0 /\ u = ["0"%char] \/ n < 10 ^ N.of_nat (List.length u) /\ 10 ^ (N.of_nat (List.length u) - 1) <= n) as A.
  { intros u Nu Du Vu Zu. destruct u as [|c u]; [congruence|].
    pose proof Du as Du'. cbn [forallb] in Du. apply andb_true_iff in Du as [Hc Du]. unfold is_dig in Hc.
    destruct (val_acc_bound u Du (code c - 48)) as [U L].
    change (val_acc 0 (c :: u)) with (val_acc (0 * 10 + (code c - 48)) u) in Vu.
    replace (0 * 10 + (code c - 48)) with (code c - 48) in Vu by lia.
    destruct (N.eq_dec (code c) 48) as [E|E].
    - left. assert (c = "0"%char) as -> by (apply code_inj; exact E).
      injection (Zu eq_refl) as ->. split; [|reflexivity]. rewrite <- Vu. reflexivity.
    - right. cbn [List.length]. rewrite Nat2N.inj_succ, N.pow_succ_r'.
      replace (N.succ (N.of_nat (List.length u)) - 1) with (N.of_nat (List.length u)) by lia.
      set (P := 10 ^ _) in *. nia. }
  destruct (A s Ns Ds Vs Zs) as [[Hn Hs]|[Us Ls]], (A t Nt Dt Vt Zt) as [[Hn' Ht]|[Ut Lt]]; subst.
  - reflexivity.
  - exfalso. rewrite Hn in Lt. pose proof (N.pow_nonzero 10 (N.of_nat (List.length t) - 1)). lia.
  - exfalso. rewrite Hn' in Ls. pose proof (N.pow_nonzero 10 (N.of_nat (List.length s) - 1)). lia.
  - destruct s as [|s0 s]; [congruence|]. destruct t as [|t0 t]; [congruence|].
    assert (List.length (s0 :: s) = List.length (t0 :: t)) as El.
    { assert (10 ^ (N.of_nat (List.length (s0 :: s)) - 1) < 10 ^ N.of_nat (List.length (t0 :: t))) as B by lia.
      assert (10 ^ (N.of_nat (List.length (t0 :: t)) - 1) < 10 ^ N.of_nat (List.length (s0 :: s))) as C by lia.
      apply N.pow_lt_mono_r_iff in B; [|lia]. apply N.pow_lt_mono_r_iff in C; [|lia].
      cbn [List.length] in *. lia. }
    eapply (val_acc_inj _ _ 0 0); eauto.
Qed.

Lemma decimal_text_iff n s : decimal_text n s <-> s = dec n.
Proof.
  split; [intros H; exact (decimal_text_unique _ _ _ H (dec_text n))|]. intros ->. apply dec_text.
Qed.

Lemma integer_text_iff z s : integer_text z s <-> s = decZ z.
Proof.
  unfold integer_text. split.
  - intros [[H T]|[H (t & -> & T)]]; apply decimal_text_iff in T; subst.
    + destruct z; [reflexivity|reflexivity|lia].
    + destruct z; [lia|lia|reflexivity].
  - intros ->. destruct z as [|p|p].
    + left. split; [lia|apply decimal_text_iff; reflexivity].
    + left. split; [lia|apply decimal_text_iff; reflexivity].
    + right. split; [lia|]. eexists. split; [reflexivity|apply decimal_text_iff; reflexivity].
Qed.

(* ---------------- layout ---------------- *)

Lemma zeros_repeat zs : Forall (eq "0"%char) zs -> zs = repeat "0"%char (List.length zs).
Proof. induction 1 as [|c zs <- _ IH]; [reflexivity|]. cbn [List.length repeat]. now rewrite <- IH. Qed.

Lemma repeat_zeros n : Forall (eq "0"%char) (repeat "0"%char n).
Proof. induction n; constructor; auto. Qed.

Lemma dec_length n : (1 <= List.length (dec n))%nat.
Proof. destruct (dec_spec n) as (_ & _ & (d & r & E & _) & _). rewrite E. cbn [List.length]. lia. Qed.

Lemma layout_spec d k : decimal_layout d k (layout d k).
Proof.
  unfold layout. cbv zeta. pose proof (dec_text d) as T. pose proof (dec_length d) as L.
  set (ds := dec d) in *. clearbody ds. set (n := Z.of_nat (List.length ds)) in *.
  destruct ((0 <=? k)%Z && (n + k <=? 16)%Z) eqn:E1.
  - apply (dl_integer d k ds); [exact T|lia|fold n; lia|apply repeat_zeros|rewrite repeat_length; lia].
  - destruct ((0 <? n + k)%Z && (n + k <=? 16)%Z) eqn:E2.
    + apply dl_point.
      * now rewrite firstn_skipn.
      * intros E. apply (f_equal (@List.length _)) in E. rewrite firstn_length in E. cbn in E. lia.
      * intros E. apply (f_equal (@List.length _)) in E. rewrite skipn_length in E. cbn in E. lia.
      * rewrite firstn_length. lia.
      * rewrite skipn_length. lia.
    + destruct ((-5 <? n + k)%Z && (n + k <=? 0)%Z) eqn:E3.
      * apply dl_fraction; [exact T|rewrite repeat_length; lia|apply repeat_zeros|rewrite repeat_length; lia].
      * destruct ds as [|c ds]; [cbn in L; lia|]. cbn [firstn skipn].
        assert (N : n = (Z.of_nat (List.length ds) + 1)%Z) by (unfold n; cbn [List.length]; lia).
        destruct (n =? 1)%Z eqn:E4.
        -- destruct ds; [|cbn [List.length] in N; lia]. cbn [app].
           change (c :: lit "e" ++ decZ (n + k - 1)) with ([c] ++ lit "e" ++ decZ (n + k - 1)).
           apply dl_scientific_1; [exact T|cbn [List.length] in N; lia|].
           apply integer_text_iff. f_equal. cbn [List.length] in N. lia.
        -- rewrite <- app_assoc. apply dl_scientific.
           ++ exact T.
           ++ intros ->. cbn [List.length] in N. lia.
           ++ lia.
           ++ apply integer_text_iff. f_equal. lia.
Qed.

Lemma layout_unique d k u : decimal_layout d k u -> u = layout d k.
Proof.
  intros H. unfold layout. cbv zeta.
  destruct H as [ds zs T K L Z Z'|a b T Na Nb L K|ds zs T L Z K|c ex T K X|c ds ex T N K X];
    apply decimal_text_iff in T; rewrite <- T.
  - replace ((0 <=? k)%Z && _) with true by lia. rewrite (zeros_repeat zs Z). do 3 f_equal. lia.
  - rewrite app_length. destruct a as [|a0 a]; [easy|]. destruct b as [|b0 b]; [easy|].
    cbn [List.length] in *. replace ((0 <=? k)%Z && _) with false by lia.
    replace ((0 <? _)%Z && _) with true by lia.
    replace (Z.to_nat (Z.of_nat (S (List.length a) + S (List.length b)) + k)) with (List.length (a0 :: a))
      by (cbn [List.length]; lia).
    rewrite firstn_app, Nat.sub_diag, firstn_all, firstn_O, app_nil_r.
    rewrite skipn_app, Nat.sub_diag, skipn_all. reflexivity.
  - pose proof (dec_length d) as D. rewrite <- T in D.
    replace ((0 <=? k)%Z && _) with false by lia.
    replace ((0 <? _)%Z && _) with false by lia. replace ((-5 <? _)%Z && _) with true by lia.
    rewrite (zeros_repeat zs Z). do 3 f_equal. lia.
  - apply integer_text_iff in X. subst ex. cbn [List.length].
    replace ((0 <=? k)%Z && _) with false by lia.
    replace ((0 <? _)%Z && _) with false by lia. replace ((-5 <? _)%Z && _) with false by lia.
    change (Z.of_nat 1 =? 1)%Z with true. cbn [firstn app]. do 3 f_equal. lia.
  - apply integer_text_iff in X. subst ex. destruct ds as [|c' ds]; [easy|]. cbn [List.length] in *.
    replace ((0 <=? k)%Z && _) with false by lia.
    replace ((0 <? _)%Z && _) with false by lia. replace ((-5 <? _)%Z && _) with false by lia.
    replace (_ =? 1)%Z with false by lia. cbn [firstn skipn]. rewrite <- app_assoc. do 4 f_equal.
    f_equal. lia.
Qed.

(* ---------------- the text written for a number ---------------- *)

Lemma write_f64_iff neg x t : finite_f64 x ->
  (write_f64 neg x = t <-> written_as (if neg then ["-"%char] else []) x t).
Proof.
  intros F. unfold write_f64, written_as. change (lit "-") with ["-"%char].
  destruct (mantissa x =? 0) eqn:E; [apply N.eqb_eq in E|apply N.eqb_neq in E].
  - split; [intros <-; left; auto|]. intros [[_ ->]|[H _]]; [reflexivity|easy].
  - destruct (shortest x) as [d k] eqn:S. split.
    + intros <-. right. split; [exact E|]. exists d, k, (layout d k). apply shortest_iff in S; [|assumption..].
      split; [exact S|]. split; [apply layout_spec|reflexivity].
    + intros [[H _]|[_ (d' & k' & u & S' & L & ->)]]; [easy|].
      apply shortest_iff in S'; [|assumption..]. rewrite S in S'. injection S' as -> ->.
      now rewrite (layout_unique _ _ _ L).
Qed.

Lemma float_text_iff neg int fr ex t :
  (ex = [] \/ exists e sign d,
     ex = e :: sign ++ d /\ (e = "e"%char \/ e = "E"%char)
     /\ (sign = [] \/ sign = ["+"%char] \/ sign = ["-"%char]) /\ digits d) ->
  (float_text neg int fr ex = Some t
   <-> exists x, read_as int fr ex x /\ written_as (if neg then ["-"%char] else []) x t).
Proof.
  intros He. unfold float_text. destruct (read_f64 int fr ex) as [x|] eqn:R; cbn [option_map].
  - apply read_f64_iff in R; [|exact He]. assert (F : finite_f64 x) by now apply read_finite in R. split.
    + intros [= W]. exists x. split; [exact R|]. now apply write_f64_iff.
    + intros (y & Ry & W). f_equal. apply write_f64_iff; [exact F|].
      apply read_f64_iff in R; [|exact He]. apply read_f64_iff in Ry; [|exact He]. rewrite R in Ry.
      injection Ry as ->. exact W.
  - split; [discriminate|]. intros (y & Ry & _). apply read_f64_iff in Ry; [|exact He]. rewrite R in Ry. discriminate.
Qed.
