(** The calendar and the text form of timestamps. *)
From Coq Require Import Lia ZifyBool ZifyN ZifyNat.
From Verif Require Import Model.Prelude Model.Json Model.Types Model.Deps Model.Chrono
  Spec SpecJwt SpecTime Proofs.StrFacts Proofs.Utf8Facts Proofs.JsonFacts.
Local Open Scope Z_scope.
Set Default Goal Selector "!".

(* ------------------------------------------------------------------ *)
(** * Years and months *)

Lemma dby_step y :
  days_before_year (y + 1) = days_before_year y + (if is_leap y then 366 else 365).
Proof.
  unfold days_before_year, is_leap.
  replace (y + 1 - 1) with y by lia.
  destruct (y mod 4 =? 0) eqn:E4; destruct (y mod 100 =? 0) eqn:E100;
    destruct (y mod 400 =? 0) eqn:E400; cbn [andb orb negb];
    Z.div_mod_to_equations; lia.
Qed.

Lemma year_bounds n :
  days_before_year (year_of_day n) <= n < days_before_year (year_of_day n + 1).
Proof.
  unfold year_of_day. cbv zeta.
  set (y := 400 * n / 146097 + 1).
  destruct (n <? days_before_year y) eqn:E1;
  [|destruct (days_before_year (y + 1) <=? n) eqn:E2]; try lia.
  - replace (y - 1 + 1) with y by lia. split; [|lia].
    unfold days_before_year in *. subst y. Z.div_mod_to_equations. lia.
  - split; [lia|]. unfold days_before_year in *. subst y. Z.div_mod_to_equations. lia.
Qed.

Lemma year_unique n y :
  days_before_year y <= n < days_before_year (y + 1) -> year_of_day n = y.
Proof.
  intros H. pose proof (year_bounds n) as B. set (z := year_of_day n) in *.
  assert (M : forall a b, a <= b -> days_before_year a <= days_before_year b).
  { intros a b L. unfold days_before_year. Z.div_mod_to_equations. lia. }
  destruct (Z.lt_trichotomy z y) as [L|[L|L]]; [|exact L|].
  - specialize (M (z + 1) y). lia.
  - specialize (M (y + 1) z). lia.
Qed.

Lemma is_leap_iff y : is_leap y = true <-> leap y.
Proof.
  assert (D : forall k, 0 < k -> (y mod k =? 0) = true <-> (k | y)).
  { intros k Hk. rewrite Z.eqb_eq. split; intros H; [apply Z.mod_divide; lia|now apply Z.mod_divide; [lia|]]. }
  unfold is_leap, leap. rewrite andb_true_iff, orb_true_iff, negb_true_iff, <- not_true_iff_false.
  rewrite !D by lia. split.
  - intros [H [N|N]]; [left|right]; auto.
  - intros [[H N]|H]; [auto|]. split; [|auto]. destruct H as [k ->]. exists (k * 100). lia.
Qed.

Definition month_days (y m : Z) : Z := nth (Z.to_nat (m - 1)) (month_lengths y) 0.
Definition days_before_month (y m : Z) : Z := sum (firstn (Z.to_nat (m - 1)) (month_lengths y)).

Lemma month_cases m : 1 <= m <= 12 ->
  m = 1 \/ m = 2 \/ m = 3 \/ m = 4 \/ m = 5 \/ m = 6 \/ m = 7 \/ m = 8 \/ m = 9 \/ m = 10 \/ m = 11 \/ m = 12.
Proof. lia. Qed.

Ltac months H :=
  apply month_cases in H; repeat (destruct H as [H|H]); subst.

Lemma month_length_range y m n : month_length y m n -> 1 <= m <= 12.
Proof. intros [k H|k H| |]; cbn in *; lia. Qed.

Lemma month_length_iff y m n : month_length y m n <-> 1 <= m <= 12 /\ month_days y m = n.
Proof.
  split.
  - intros H. split; [now apply month_length_range in H|].
    destruct H as [k H|k H|H|H].
    + cbn in H. repeat (destruct H as [<-|H]; [reflexivity|]). destruct H.
    + cbn in H. repeat (destruct H as [<-|H]; [reflexivity|]). destruct H.
    + apply is_leap_iff in H. unfold month_days, month_lengths. now rewrite H.
    + rewrite <- is_leap_iff, not_true_iff_false in H. unfold month_days, month_lengths. now rewrite H.
  - intros [H <-].
    months H;
      try (apply ml_long; cbn; tauto); try (apply ml_short; cbn; tauto).
    unfold month_days, month_lengths. destruct (is_leap y) eqn:E; cbn.
    + apply ml_leap. now apply is_leap_iff.
    + apply ml_common. rewrite <- is_leap_iff. now rewrite E.
Qed.

Definition days (x : date) : Z :=
  days_before_year (year x) + days_before_month (year x) (month x) + day x - 1 - epoch_days.

Lemma valid_date_iff x :
  valid_date x <-> 1 <= month x <= 12 /\ 1 <= day x <= month_days (year x) (month x).
Proof.
  unfold valid_date. split.
  - intros (H & n & L & D). apply month_length_iff in L. destruct L as [_ <-]. auto.
  - intros (H & D). split; [exact H|]. exists (month_days (year x) (month x)).
    split; [now apply month_length_iff|exact D].
Qed.

(** Months follow each other. *)
Lemma months_sum y m :
  1 <= m <= 12 ->
  0 <= days_before_month y m
  /\ days_before_month y m + month_days y m
     = (if m =? 12 then (if is_leap y then 366 else 365) else days_before_month y (m + 1))
  /\ 28 <= month_days y m <= 31
  /\ days_before_month y m + month_days y m <= (if is_leap y then 366 else 365).
Proof.
  intros H. unfold days_before_month, month_days, month_lengths.
  months H; destruct (is_leap y); cbv -[Z.le Z.lt]; lia.
Qed.

Lemma month_walk ls m o :
  0 <= o < sum ls ->
  exists k : nat, (k < List.length ls)%nat
    /\ month_and_day m o ls = (m + Z.of_nat k, o - sum (firstn k ls) + 1)
    /\ 0 <= o - sum (firstn k ls) < nth k ls 0.
Proof.
  revert m o. induction ls as [|l ls IH]; intros m o H; [cbn in H; lia|].
  cbn [month_and_day]. destruct (o <? l) eqn:E.
  - exists 0%nat. cbn. repeat split; try lia. f_equal; lia.
  - change (sum (l :: ls)) with (l + sum ls) in H.
    destruct (IH (m + 1) (o - l)) as (k & K & R & B); [lia|].
    exists (S k). cbn [List.length firstn nth]. change (sum (l :: firstn k ls)) with (l + sum (firstn k ls)).
    rewrite R. repeat split; try lia. f_equal; lia.
Qed.

Lemma month_and_day_spec y o :
  0 <= o < (if is_leap y then 366 else 365) ->
  let (m, d) := month_and_day 1 o (month_lengths y) in
  1 <= m <= 12 /\ 1 <= d <= month_days y m /\ o = days_before_month y m + d - 1.
Proof.
  intros H. destruct (month_walk (month_lengths y) 1 o) as (k & K & -> & B).
  - unfold month_lengths. destruct (is_leap y); cbn; lia.
  - unfold month_days, days_before_month. replace (Z.to_nat (1 + Z.of_nat k - 1)) with k by lia.
    change (List.length (month_lengths y)) with 12%nat in K. lia.
Qed.

Lemma month_and_day_unique y m d :
  1 <= m <= 12 -> 1 <= d <= month_days y m ->
  month_and_day 1 (days_before_month y m + d - 1) (month_lengths y) = (m, d).
Proof.
  intros H D.
  assert (0 <= days_before_month y m + d - 1 < (if is_leap y then 366 else 365)) as R.
  { pose proof (months_sum y m H). lia. }
  pose proof (month_and_day_spec y _ R) as S.
  destruct (month_and_day 1 (days_before_month y m + d - 1) (month_lengths y)) as [m' d'].
  destruct S as (H' & D' & S).
  assert (Mono : forall a b, 1 <= a <= 12 -> 1 <= b <= 12 -> a < b ->
             days_before_month y a + month_days y a <= days_before_month y b).
  { intros a b Ha Hb L. unfold days_before_month, month_days, month_lengths.
    months Ha; months Hb; try lia; destruct (is_leap y); cbv -[Z.le Z.lt]; lia. }
  destruct (Z.lt_trichotomy m m') as [L|[L|L]].
  - specialize (Mono _ _ H H' L). lia.
  - subst m'. f_equal. lia.
  - specialize (Mono _ _ H' H L). lia.
Qed.

Definition date_at (n : Z) : date := let '(y, m, d) := date_of_day n in Date y m d.

Lemma date_at_spec n : valid_date (date_at n) /\ days (date_at n) = n.
Proof.
  unfold date_at, date_of_day. cbv zeta.
  set (k := n + epoch_days). pose proof (year_bounds k) as B. rewrite dby_step in B.
  set (y := year_of_day k) in *.
  pose proof (month_and_day_spec y (k - days_before_year y)) as S.
  destruct (month_and_day 1 (k - days_before_year y) (month_lengths y)) as [m d].
  destruct S as (H & D & S); [lia|].
  split.
  - apply valid_date_iff. auto.
  - unfold days. cbn [year month day]. lia.
Qed.

Lemma days_year x : valid_date x ->
  days_before_year (year x) <= days x + epoch_days < days_before_year (year x + 1).
Proof.
  rewrite valid_date_iff. intros [M D]. rewrite dby_step. unfold days.
  pose proof (months_sum (year x) (month x) M). lia.
Qed.

Lemma date_at_days x : valid_date x -> date_at (days x) = x.
Proof.
  intros V. pose proof (days_year x V) as Y. apply year_unique in Y.
  unfold date_at, date_of_day. cbv zeta. rewrite Y.
  apply valid_date_iff in V. destruct V as [M D].
  replace (days x + epoch_days - days_before_year (year x))
    with (days_before_month (year x) (month x) + day x - 1) by (unfold days; lia).
  rewrite month_and_day_unique by assumption. now destruct x.
Qed.

Lemma next_day_spec x y : valid_date x -> next_day x y -> valid_date y /\ days y = days x + 1.
Proof.
  rewrite !valid_date_iff. intros V H. revert V. destruct H as [Y m d n L B|Y m n L B|Y];
    unfold days; cbn [year month day]; intros V.
  - apply month_length_iff in L. lia.
  - apply month_length_iff in L. destruct L as [M L].
    pose proof (months_sum Y m M) as S. pose proof (months_sum Y (m + 1) ltac:(lia)) as S'.
    replace (m =? 12) with false in S by lia. lia.
  - rewrite dby_step. pose proof (months_sum Y 12 ltac:(lia)) as S. cbn [Z.eqb Pos.eqb] in S.
    pose proof (months_sum (Y + 1) 1 ltac:(lia)) as S'.
    replace (days_before_month (Y + 1) 1) with 0 by reflexivity.
    replace (month_days Y 12) with 31 in * by reflexivity. lia.
Qed.

Lemma next_day_exists x : valid_date x -> exists y, next_day x y.
Proof.
  rewrite valid_date_iff. destruct x as [y m d]. cbn [year month day]. intros [M D].
  assert (month_length y m (month_days y m)) as L by now apply month_length_iff.
  destruct (Z.eq_dec d (month_days y m)) as [->|N].
  - destruct (Z.eq_dec m 12) as [->|N].
    + exists (Date (y + 1) 1 1). apply nd_year.
    + exists (Date y (m + 1) 1). apply nd_month; [exact L|lia].
  - exists (Date y m (d + 1)). eapply nd_day; [exact L|lia].
Qed.

Lemma day_number_valid x n : day_number x n -> valid_date x /\ days x = n.
Proof.
  intros H. induction H as [|x y n _ [V E] N|x y n _ [V E] N Vx].
  - split; [|reflexivity]. apply valid_date_iff. cbn. lia.
  - destruct (next_day_spec x y V N). split; [assumption|lia].
  - split; [exact Vx|]. destruct (next_day_spec x y Vx N). lia.
Qed.

Lemma day_number_total n : day_number (date_at n) n.
Proof.
  assert (Up : forall k, day_number (date_at (Z.of_nat k)) (Z.of_nat k)).
  { induction k as [|k IH]; [exact dn_epoch|].
    destruct (day_number_valid _ _ IH) as [V E]. destruct (next_day_exists _ V) as [y N].
    destruct (next_day_spec _ _ V N) as [Vy Ey].
    assert (date_at (Z.of_nat (S k)) = y) as ->.
    { rewrite <- (date_at_days y Vy). f_equal. lia. }
    replace (Z.of_nat (S k)) with (Z.of_nat k + 1) by lia. eapply dn_after; eassumption. }
  assert (Down : forall k, day_number (date_at (- Z.of_nat k)) (- Z.of_nat k)).
  { induction k as [|k IH]; [exact dn_epoch|].
    destruct (date_at_spec (- Z.of_nat (S k))) as [V E].
    destruct (next_day_exists _ V) as [y N]. destruct (next_day_spec _ _ V N) as [Vy Ey].
    assert (date_at (- Z.of_nat k) = y) as Hy.
    { rewrite <- (date_at_days y Vy). f_equal. lia. }
    replace (- Z.of_nat (S k)) with (- Z.of_nat k - 1) in * by lia.
    apply dn_before with (y := y); [now rewrite <- Hy|exact N|exact V]. }
  destruct (Z_le_dec 0 n).
  - specialize (Up (Z.to_nat n)). now rewrite Z2Nat.id in Up by lia.
  - specialize (Down (Z.to_nat (- n))). rewrite Z2Nat.id in Down by lia.
    now rewrite Z.opp_involutive in Down.
Qed.

Lemma day_number_iff x n : day_number x n <-> valid_date x /\ days x = n.
Proof.
  split; [apply day_number_valid|]. intros [V <-].
  rewrite <- (date_at_days x V) at 1. apply day_number_total.
Qed.

Lemma day_of_date_iff x n :
  day_of_date (year x) (month x) (day x) = Some n
  <-> day_number x n /\ -262144 <= year x <= 262143.
Proof.
  rewrite day_number_iff, valid_date_iff. unfold day_of_date.
  fold (month_days (year x) (month x)). fold (days_before_month (year x) (month x)).
  match goal with |- (if ?b then _ else _) = _ <-> _ => destruct b eqn:B end.
  - unfold days. split; [intros [= <-]|intros [[_ <-] _]; reflexivity]. lia.
  - split; [discriminate|]. lia.
Qed.

(* ------------------------------------------------------------------ *)
(** * Digits *)

Lemma digit_text_iff k n s :
  digit_text k n s <-> List.length s = k /\ forallb is_digit s = true /\ n = Z.of_N (digits_val s).
Proof.
  unfold digit_text. rewrite <- forallb_digits, digits_value_acc, <- digits_val_acc.
  change is_dig with is_digit. intuition.
Qed.

Lemma digit_text_range k n s : digit_text k n s -> 0 <= n < 10 ^ Z.of_nat k.
Proof.
  rewrite digit_text_iff. intros (<- & H & ->). rewrite digits_val_acc.
  induction s as [|b s IH] using rev_ind.
  - cbn. lia.
  - rewrite forallb_app in H. apply andb_true_iff in H. destruct H as [H Hb].
    cbn [forallb] in Hb. rewrite andb_true_r in Hb. specialize (IH H).
    rewrite app_length, val_acc_app. cbn [List.length].
    change (val_acc (val_acc 0 s) [b]) with (val_acc 0 s * 10 + (code b - 48))%N.
    replace (Z.of_nat (List.length s + 1)) with (Z.of_nat (List.length s) + 1) by lia.
    rewrite Z.pow_add_r by lia. unfold is_digit in Hb. lia.
Qed.

Lemma digits_fixed_text k n :
  (n < 10 ^ N.of_nat k)%N -> digit_text k (Z.of_N n) (digits_fixed k n).
Proof.
  rewrite digit_text_iff, digits_val_acc. revert n. induction k as [|k IH]; intros n H.
  - cbn in *. repeat split. lia.
  - replace (N.of_nat (S k)) with (N.of_nat k + 1)%N in H by lia. rewrite N.pow_add_r in H.
    change (10 ^ 1)%N with 10%N in H.
    destruct (IH (n / 10)%N) as (L & D & V).
    { apply N.div_lt_upper_bound; lia. }
    pose proof (N.mod_lt n 10 ltac:(lia)) as M.
    cbn [digits_fixed]. rewrite app_length, forallb_app, val_acc_app, L, D. cbn [List.length forallb].
    repeat split.
    + lia.
    + unfold is_digit. rewrite code_chr by lia. lia.
    + change (val_acc (val_acc 0 (digits_fixed k (n / 10))) [chr (48 + n mod 10)])
        with (val_acc 0 (digits_fixed k (n / 10)) * 10 + (code (chr (48 + n mod 10)) - 48))%N.
      rewrite code_chr by lia. pose proof (N.div_mod n 10 ltac:(lia)). lia.
Qed.

Lemma two_text n : 0 <= n < 100 -> digit_text 2 n (two n).
Proof.
  intros H. unfold two. rewrite <- (Z2N.id n) at 1 by lia. apply digits_fixed_text. cbn. lia.
Qed.

Lemma dec_text n : digit_text (List.length (dec n)) (Z.of_N n) (dec n).
Proof.
  destruct (dec_spec n) as (H & V & _). apply digit_text_iff. rewrite digits_val_acc, V. auto.
Qed.

Lemma read_fixed_app k n d r : digit_text k n d -> read_fixed k (d ++ r) = Some (n, r).
Proof.
  rewrite digit_text_iff. intros (L & D & ->). unfold read_fixed.
  replace (firstn k (d ++ r)) with d.
  - rewrite L, Nat.eqb_refl, D. cbn [andb]. do 2 f_equal.
    rewrite skipn_app, <- L, skipn_all, Nat.sub_diag. reflexivity.
  - rewrite firstn_app, <- L, firstn_all, Nat.sub_diag. cbn. now rewrite app_nil_r.
Qed.

Lemma read_fixed_inv k s n r : read_fixed k s = Some (n, r) -> exists d, digit_text k n d /\ s = d ++ r.
Proof.
  unfold read_fixed. destruct (Nat.eqb _ k && _) eqn:E; [|discriminate]. intros [= <- <-].
  apply andb_true_iff in E. destruct E as [L D]. exists (firstn k s). split.
  - apply digit_text_iff. apply Nat.eqb_eq in L. auto.
  - symmetry. apply firstn_skipn.
Qed.

Lemma expect_app w s : expect w (w ++ s) = Some s.
Proof.
  induction w as [|a w IH]; [now destruct s|]. cbn [app expect]. now rewrite Ascii.eqb_refl.
Qed.

Definition no_digit (s : str) : Prop := match s with [] => True | b :: _ => is_digit b = false end.

Lemma read_digits_app k n d r : (0 < k)%nat -> digit_text k n d -> no_digit r ->
  read_digits (d ++ r) = Some (d, r).
Proof.
  rewrite digit_text_iff. intros K (L & D & _) R. unfold read_digits.
  rewrite take_digits_app; [|exact D|exact R]. destruct d; [cbn in L; lia|reflexivity].
Qed.

Lemma read_digits_inv s d r : read_digits s = Some (d, r) ->
  s = d ++ r /\ (0 < List.length d)%nat /\ digit_text (List.length d) (Z.of_N (digits_val d)) d.
Proof.
  unfold read_digits. destruct (take_digits s) as [x y] eqn:E. apply take_digits_inv in E.
  destruct E as (-> & D & _). destruct x; [discriminate|]. intros [= <- <-].
  split; [reflexivity|]. split; [cbn; lia|]. apply digit_text_iff. auto.
Qed.

(* ------------------------------------------------------------------ *)
(** * Reading *)

Lemma lit1 a : lit (String a EmptyString) = [a].
Proof. reflexivity. Qed.

Lemma read_year_app y ys r : year_form y ys -> no_digit r -> read_year (ys ++ r) = Some (y, r).
Proof.
  intros [n s H|k n s K H|k n s K H] R.
  - pose proof (read_fixed_app 4 n s r H) as E. rewrite digit_text_iff in H. destruct H as (L & D & _).
    destruct s as [|b s]; [discriminate L|]. cbn [app read_year] in *.
    cbn [forallb] in D. apply andb_true_iff in D. destruct D as [D _]. unfold is_digit in D.
    assert (Ascii.eqb b "+" = false) as ->.
    { apply ascii_eqb_neq. intros ->. discriminate D. }
    assert (Ascii.eqb b "-" = false) as ->.
    { apply ascii_eqb_neq. intros ->. discriminate D. }
    exact E.
  - rewrite lit1. cbn [app read_year]. rewrite Ascii.eqb_refl.
    rewrite (read_digits_app k n) by assumption. cbn [opt_bind fst snd].
    apply digit_text_iff in H. now destruct H as (_ & _ & ->).
  - rewrite lit1. cbn [app read_year]. change (Ascii.eqb "-" "+") with false. rewrite Ascii.eqb_refl.
    rewrite (read_digits_app k n) by assumption. cbn [opt_bind fst snd].
    apply digit_text_iff in H. now destruct H as (_ & _ & ->).
Qed.

Lemma read_year_inv s y r : read_year s = Some (y, r) -> exists ys, year_form y ys /\ s = ys ++ r.
Proof.
  destruct s as [|b s]; [discriminate|]. cbn [read_year].
  destruct (Ascii.eqb b "+") eqn:E1; [|destruct (Ascii.eqb b "-") eqn:E2].
  - apply Ascii.eqb_eq in E1. subst b. destruct (read_digits s) as [[d u]|] eqn:E; [|discriminate].
    cbn [opt_bind fst snd]. intros [= <- <-]. apply read_digits_inv in E. destruct E as (-> & K & T).
    exists (lit "+" ++ d). split; [eapply yf_plus; eassumption|reflexivity].
  - apply Ascii.eqb_eq in E2. subst b. destruct (read_digits s) as [[d u]|] eqn:E; [|discriminate].
    cbn [opt_bind fst snd]. intros [= <- <-]. apply read_digits_inv in E. destruct E as (-> & K & T).
    exists (lit "-" ++ d). split; [eapply yf_minus; eassumption|reflexivity].
  - intros H. apply read_fixed_inv in H. destruct H as (d & T & ->). exists d. split; [now apply yf_plain|reflexivity].
Qed.

Lemma nanos_value n k : Z.of_N (n * 10 ^ 9 / 10 ^ N.of_nat k) = Z.of_N n * 10 ^ 9 / 10 ^ Z.of_nat k.
Proof. rewrite N2Z.inj_div, N2Z.inj_mul, !N2Z.inj_pow, nat_N_Z. reflexivity. Qed.

Definition no_fraction (s : str) : Prop :=
  match s with [] => True | b :: _ => is_digit b = false /\ b <> "."%char end.

Lemma read_fraction_app n fs r : fraction_form n fs -> no_fraction r -> read_fraction (fs ++ r) = Some (n, r).
Proof.
  intros [|k m s K H] R.
  - cbn [app]. destruct r as [|b r]; [reflexivity|]. cbn [read_fraction]. destruct R as [_ R].
    now rewrite ascii_eqb_neq.
  - rewrite lit1. cbn [app read_fraction]. rewrite Ascii.eqb_refl.
    rewrite (read_digits_app k m); [|assumption|assumption|destruct r; [exact I|apply R]].
    cbn [opt_bind fst snd]. apply digit_text_iff in H. destruct H as (-> & _ & ->).
    now rewrite nanos_value.
Qed.

Lemma read_fraction_inv s n r : read_fraction s = Some (n, r) ->
  exists fs, fraction_form n fs /\ s = fs ++ r.
Proof.
  assert (Some (0, s) = Some (n, r) -> exists fs, fraction_form n fs /\ s = fs ++ r) as Z.
  { intros [= <- <-]. exists []. split; [constructor|reflexivity]. }
  destruct s as [|b s]; [exact Z|]. cbn [read_fraction]. destruct (Ascii.eqb b ".") eqn:E; [|exact Z].
  apply Ascii.eqb_eq in E. subst b. destruct (read_digits s) as [[d u]|] eqn:E; [|discriminate].
  cbn [opt_bind fst snd]. intros [= <- <-]. apply read_digits_inv in E. destruct E as (-> & K & T).
  rewrite nanos_value. exists (lit "." ++ d). split; [now constructor|reflexivity].
Qed.

Lemma read_offset_app o os : offset_form o os -> read_offset os = Some (o, []).
Proof.
  intros [|h m hs ms H M LH LM|h m hs ms H M LH LM].
  - reflexivity.
  - rewrite !lit1. cbn [app read_offset]. change (Ascii.eqb "+" "Z") with false.
    change (Ascii.eqb "+" "+") with true. change (Ascii.eqb "+" "-") with false. cbn [orb].
    rewrite (read_fixed_app 2 h) by exact H. cbn [opt_bind fst snd].
    change (":"%char :: ms) with (lit ":" ++ ms). rewrite expect_app. cbn [opt_bind].
    rewrite <- (app_nil_r ms), (read_fixed_app 2 m) by exact M. cbn [opt_bind fst snd].
    replace ((h <? 24) && (m <? 60)) with true by lia. reflexivity.
  - rewrite !lit1. cbn [app read_offset]. change (Ascii.eqb "-" "Z") with false.
    change (Ascii.eqb "-" "+") with false. change (Ascii.eqb "-" "-") with true. cbn [orb].
    rewrite (read_fixed_app 2 h) by exact H. cbn [opt_bind fst snd].
    change (":"%char :: ms) with (lit ":" ++ ms). rewrite expect_app. cbn [opt_bind].
    rewrite <- (app_nil_r ms), (read_fixed_app 2 m) by exact M. cbn [opt_bind fst snd].
    replace ((h <? 24) && (m <? 60)) with true by lia. reflexivity.
Qed.

Lemma expect_inv w s t : expect w s = Some t -> s = w ++ t.
Proof.
  revert s; induction w as [|a w IH]; intros s; cbn [expect].
  - destruct s; intros [= <-]; reflexivity.
  - destruct s as [|b s]; [discriminate|]. destruct (Ascii.eqb a b) eqn:E; [|discriminate].
    apply Ascii.eqb_eq in E. subst b. intros H. apply IH in H. now subst s.
Qed.

Lemma read_offset_inv s o : read_offset s = Some (o, []) -> offset_form o s.
Proof.
  destruct s as [|b s]; [discriminate|]. cbn [read_offset].
  destruct (Ascii.eqb b "Z") eqn:EZ.
  { apply Ascii.eqb_eq in EZ. subst b. intros [= <- ->]. apply of_utc. }
  destruct (Ascii.eqb b "+" || Ascii.eqb b "-") eqn:ES; [|discriminate].
  destruct (read_fixed 2 s) as [[h r]|] eqn:EH; [|discriminate]. cbn [opt_bind fst snd].
  apply read_fixed_inv in EH. destruct EH as (hs & TH & ->).
  destruct (expect (lit ":") r) as [r'|] eqn:EC; [|discriminate]. apply expect_inv in EC. subst r.
  cbn [opt_bind]. destruct (read_fixed 2 r') as [[m r]|] eqn:EM; [|discriminate]. cbn [opt_bind fst snd].
  apply read_fixed_inv in EM. destruct EM as (ms & TM & ->).
  destruct ((h <? 24) && (m <? 60)) eqn:EL; [|discriminate].
  intros [= <- ->]. rewrite app_nil_r.
  destruct (Ascii.eqb b "-") eqn:E.
  - apply Ascii.eqb_eq in E. subst b. apply (of_behind h m hs ms); try assumption; lia.
  - rewrite orb_false_r in ES. apply Ascii.eqb_eq in ES. subst b.
    apply (of_ahead h m hs ms); try assumption; lia.
Qed.

Lemma offset_no_fraction o os : offset_form o os -> no_fraction os.
Proof. intros [| |]; cbn; split; try reflexivity; discriminate. Qed.

Lemma fraction_form_range n fs : fraction_form n fs -> 0 <= n < 1000000000.
Proof.
  intros [|k m s K H]; [lia|]. apply digit_text_range in H.
  assert (0 < 10 ^ Z.of_nat k) by (apply Z.pow_pos_nonneg; lia).
  split; [apply Z.div_pos; lia|]. apply Z.div_lt_upper_bound; [assumption|].
  change 1000000000 with (10 ^ 9). nia.
Qed.

Lemma chrono_parse_iff s t : chrono_parse s = Some t <-> timestamp s t.
Proof.
  split.
  - unfold chrono_parse.
    destruct (read_year s) as [[y r1]|] eqn:E1; [|discriminate]. cbn [opt_bind fst snd].
    apply read_year_inv in E1. destruct E1 as (ys & Ty & ->).
    destruct (expect (lit "-") r1) as [r2|] eqn:E2; [|discriminate]. cbn [opt_bind fst snd].
    apply expect_inv in E2. subst r1.
    destruct (read_fixed 2 r2) as [[mo r3]|] eqn:E3; [|discriminate]. cbn [opt_bind fst snd].
    apply read_fixed_inv in E3. destruct E3 as (ms & Tm & ->).
    destruct (expect (lit "-") r3) as [r4|] eqn:E4; [|discriminate]. cbn [opt_bind fst snd].
    apply expect_inv in E4. subst r3.
    destruct (read_fixed 2 r4) as [[da r5]|] eqn:E5; [|discriminate]. cbn [opt_bind fst snd].
    apply read_fixed_inv in E5. destruct E5 as (ds & Td & ->).
    destruct (expect (lit "T") r5) as [r6|] eqn:E6; [|discriminate]. cbn [opt_bind fst snd].
    apply expect_inv in E6. subst r5.
    destruct (read_fixed 2 r6) as [[h r7]|] eqn:E7; [|discriminate]. cbn [opt_bind fst snd].
    apply read_fixed_inv in E7. destruct E7 as (hs & Th & ->).
    destruct (expect (lit ":") r7) as [r8|] eqn:E8; [|discriminate]. cbn [opt_bind fst snd].
    apply expect_inv in E8. subst r7.
    destruct (read_fixed 2 r8) as [[mi r9]|] eqn:E9; [|discriminate]. cbn [opt_bind fst snd].
    apply read_fixed_inv in E9. destruct E9 as (mis & Tmi & ->).
    destruct (expect (lit ":") r9) as [r10|] eqn:E10; [|discriminate]. cbn [opt_bind fst snd].
    apply expect_inv in E10. subst r9.
    destruct (read_fixed 2 r10) as [[se r11]|] eqn:E11; [|discriminate]. cbn [opt_bind fst snd].
    apply read_fixed_inv in E11. destruct E11 as (ss & Ts & ->).
    destruct (read_fraction r11) as [[na r12]|] eqn:E12; [|discriminate]. cbn [opt_bind fst snd].
    apply read_fraction_inv in E12. destruct E12 as (fs & Tf & ->).
    destruct (read_offset r12) as [[off r13]|] eqn:E13; [|discriminate]. cbn [opt_bind fst snd].
    destruct r13; [|discriminate]. apply read_offset_inv in E13.
    destruct (day_of_date y mo da) as [n|] eqn:ED; [|discriminate]. cbn [opt_bind].
    destruct ((h <? 24) && (mi <? 60) && (se <? 60)) eqn:EB; [|discriminate].
    match goal with |- context [in_instant_range ?x] => destruct (in_instant_range x) eqn:ER; [|discriminate] end.
    intros [= <-].
    change (day_of_date (year (Date y mo da)) (month (Date y mo da)) (day (Date y mo da)) = Some n) in ED.
    apply day_of_date_iff in ED. destruct ED as [DN YR].
    exists (Date y mo da), (Clock h mi se na), off, n.
    split.
    { exists ys, ms, ds, hs, mis, ss, fs, r12. cbn [year month day hour minute second nanosecond]. auto 20. }
    split; [now apply day_number_valid in DN|]. split.
    { unfold valid_clock. cbn [hour minute second nanosecond].
      apply digit_text_range in Th, Tmi, Ts. apply fraction_form_range in Tf. lia. }
    split; [exact DN|]. split; [exact YR|]. split; [reflexivity|exact ER].
  - intros (x & c & off & n & (ys & ms & ds & hs & mis & ss & fs & os & -> & Ty & Tm & Td & Th & Tmi & Ts & Tf & To)
              & V & C & DN & YR & -> & ER).
    unfold chrono_parse.
    rewrite (read_year_app (year x)); [|exact Ty|reflexivity]. cbn [opt_bind fst snd].
    rewrite expect_app. cbn [opt_bind fst snd].
    rewrite (read_fixed_app 2 (month x)) by exact Tm. cbn [opt_bind fst snd].
    rewrite expect_app. cbn [opt_bind fst snd].
    rewrite (read_fixed_app 2 (day x)) by exact Td. cbn [opt_bind fst snd].
    rewrite expect_app. cbn [opt_bind fst snd].
    rewrite (read_fixed_app 2 (hour c)) by exact Th. cbn [opt_bind fst snd].
    rewrite expect_app. cbn [opt_bind fst snd].
    rewrite (read_fixed_app 2 (minute c)) by exact Tmi. cbn [opt_bind fst snd].
    rewrite expect_app. cbn [opt_bind fst snd].
    rewrite (read_fixed_app 2 (second c)) by exact Ts. cbn [opt_bind fst snd].
    rewrite (read_fraction_app (nanosecond c)); [|exact Tf|now apply offset_no_fraction in To].
    cbn [opt_bind fst snd]. rewrite (read_offset_app off) by exact To. cbn [opt_bind fst snd].
    rewrite (proj2 (day_of_date_iff x n)) by auto. cbn [opt_bind].
    replace ((hour c <? 24) && (minute c <? 60) && (second c <? 60)) with true
      by (unfold valid_clock in C; lia).
    fold (instant_of n c off). now rewrite ER.
Qed.

(* ------------------------------------------------------------------ *)
(** * Writing *)

Definition day_of (t : instant) : Z := t / 1000000000 / 86400.
Definition clock_of (t : instant) : clock :=
  let s := (t / 1000000000) mod 86400 in
  Clock (s / 3600) (s / 60 mod 60) (s mod 60) (t mod 1000000000).

Lemma clock_of_spec t : valid_clock (clock_of t) /\ t = instant_of (day_of t) (clock_of t) 0.
Proof.
  unfold valid_clock, instant_of, clock_of, day_of. cbv zeta. cbn [hour minute second nanosecond].
  Z.div_mod_to_equations. lia.
Qed.

Lemma chrono_print_eq t :
  chrono_print t =
  let x := date_at (day_of t) in let c := clock_of t in
  year_text (year x) ++ lit "-" ++ two (month x) ++ lit "-" ++ two (day x) ++ lit "T"
  ++ two (hour c) ++ lit ":" ++ two (minute c) ++ lit ":" ++ two (second c)
  ++ fraction_text (nanosecond c) ++ lit "Z".
Proof.
  unfold chrono_print, chrono_date, chrono_time, date_at, day_of, clock_of.
  destruct (date_of_day (t / 1000000000 / 86400)) as [[y m] d].
  cbv zeta. cbn [year month day hour minute second nanosecond]. now rewrite <- !app_assoc.
Qed.

Lemma year_text_form y :
  0 <= y <= 9999 /\ digit_text 4 y (year_text y)
  \/ 9999 < y /\ (exists k r, digit_text k y r /\ (4 < k)%nat
                    /\ 10 ^ (Z.of_nat k - 1) <= y /\ year_text y = lit "+" ++ r)
  \/ y < 0 /\ (exists k r, digit_text k (- y) r /\ (4 <= k)%nat
                 /\ (k = 4%nat \/ 10 ^ (Z.of_nat k - 1) <= - y) /\ year_text y = lit "-" ++ r).
Proof.
  assert (Long : forall n : N, (10000 <= n)%N ->
            (4 < List.length (dec n))%nat /\ 10 ^ (Z.of_nat (List.length (dec n)) - 1) <= Z.of_N n).
  { intros n H. destruct (dec_spec n) as (_ & _ & _ & U & L). specialize (L ltac:(lia)).
    assert (4 < List.length (dec n))%nat as K.
    { destruct (le_lt_dec (List.length (dec n)) 4) as [G|G]; [|exact G].
      assert (10 ^ N.of_nat (List.length (dec n)) <= 10 ^ 4)%N by (apply N.pow_le_mono_r; lia).
      change (10 ^ 4)%N with 10000%N in *. lia. }
    split; [exact K|]. apply N2Z.inj_le in L. rewrite N2Z.inj_pow in L.
    replace (Z.of_N (N.of_nat (List.length (dec n)) - 1)) with (Z.of_nat (List.length (dec n)) - 1) in L by lia.
    exact L. }
  unfold year_text. cbv zeta. set (n := Z.to_N (Z.abs y)).
  destruct (y <? 0) eqn:E1; [|destruct (y <=? 9999) eqn:E2].
  - right; right. split; [lia|]. assert (- y = Z.of_N n) as -> by lia.
    destruct (n <? 10000)%N eqn:E.
    + exists 4%nat, (digits_fixed 4 n). split; [apply digits_fixed_text; change (10 ^ N.of_nat 4)%N with 10000%N; lia|].
      split; [lia|]. split; [now left|reflexivity].
    + exists (List.length (dec n)), (dec n). destruct (Long n) as [K L]; [lia|].
      split; [apply dec_text|]. split; [lia|]. split; [now right|reflexivity].
  - left. split; [lia|]. assert (n <? 10000 = true)%N as -> by lia.
    assert (Ey : y = Z.of_N n) by lia. clearbody n. subst y. apply digits_fixed_text. change (10 ^ N.of_nat 4)%N with 10000%N. lia.
  - right; left. split; [lia|]. assert (n <? 10000 = false)%N as -> by lia.
    assert (Ey : y = Z.of_N n) by lia. clearbody n. subst y.
    exists (List.length (dec n)), (dec n). destruct (Long n) as [K L]; [lia|].
    split; [apply dec_text|]. auto.
Qed.

Lemma fraction_text_form nano : 0 <= nano < 1000000000 ->
  nano = 0 /\ fraction_text nano = []
  \/ exists k n r, fraction_text nano = lit "." ++ r /\ digit_text k n r
       /\ (k = 3%nat \/ k = 6%nat \/ k = 9%nat)
       /\ nano = n * 10 ^ (9 - Z.of_nat k) /\ n <> 0 /\ (k = 3%nat \/ ~ (1000 | n)).
Proof.
  intros H. unfold fraction_text.
  destruct (nano =? 0) eqn:E0; [left; split; [lia|reflexivity]|]. right.
  assert (Fix : forall k m, 0 <= m -> m < 10 ^ Z.of_nat k -> digit_text k m (digits_fixed k (Z.to_N m))).
  { intros k m P L. rewrite <- (Z2N.id m) at 1 by exact P. apply digits_fixed_text.
    apply N2Z.inj_lt. rewrite N2Z.inj_pow, Z2N.id, nat_N_Z by exact P. exact L. }
  destruct (nano mod 1000000 =? 0) eqn:E3; [|destruct (nano mod 1000 =? 0) eqn:E6].
  - exists 3%nat, (nano / 1000000), (digits_fixed 3 (Z.to_N (nano / 1000000))).
    split; [reflexivity|]. split; [apply Fix; change (10 ^ Z.of_nat 3) with 1000; Z.div_mod_to_equations; lia|].
    split; [now left|]. change (10 ^ (9 - Z.of_nat 3)) with 1000000.
    split; [Z.div_mod_to_equations; lia|]. split; [Z.div_mod_to_equations; lia|now left].
  - exists 6%nat, (nano / 1000), (digits_fixed 6 (Z.to_N (nano / 1000))).
    split; [reflexivity|]. split; [apply Fix; change (10 ^ Z.of_nat 6) with 1000000; Z.div_mod_to_equations; lia|].
    split; [tauto|]. change (10 ^ (9 - Z.of_nat 6)) with 1000.
    split; [Z.div_mod_to_equations; lia|]. split; [Z.div_mod_to_equations; lia|right].
    intros [q Q]. Z.div_mod_to_equations. lia.
  - exists 9%nat, nano, (digits_fixed 9 (Z.to_N nano)).
    split; [reflexivity|]. split; [apply Fix; change (10 ^ Z.of_nat 9) with 1000000000; lia|].
    split; [tauto|]. change (10 ^ (9 - Z.of_nat 9)) with 1.
    split; [lia|]. split; [lia|right]. intros [q Q]. Z.div_mod_to_equations. lia.
Qed.

Lemma chrono_print_form t : written_form (chrono_print t) t.
Proof.
  destruct (clock_of_spec t) as [C E]. destruct (date_at_spec (day_of t)) as [V D].
  pose proof (day_number_total (day_of t)) as N. rewrite chrono_print_eq. cbv zeta.
  set (x := date_at (day_of t)) in *. set (c := clock_of t) in *.
  exists x, c, (day_of t), (year_text (year x)), (two (month x)), (two (day x)), (two (hour c)),
    (two (minute c)), (two (second c)), (fraction_text (nanosecond c)).
  split; [reflexivity|]. split; [exact V|]. split; [exact N|]. split; [exact C|]. split; [exact E|].
  split; [apply year_text_form|].
  apply valid_date_iff in V. destruct V as [M V]. pose proof (months_sum (year x) (month x) M) as S.
  unfold valid_clock in C.
  split; [apply two_text; lia|]. split; [apply two_text; lia|]. split; [apply two_text; lia|].
  split; [apply two_text; lia|]. split; [apply two_text; lia|]. apply fraction_text_form. lia.
Qed.

Lemma year_range x n : day_number x n -> instant_min / 1000000000 / 86400 <= n <= instant_max / 1000000000 / 86400 ->
  -262144 <= year x <= 262143.
Proof.
  intros H B. apply day_number_valid in H. destruct H as [V <-]. apply days_year in V.
  change (instant_min / 1000000000 / 86400) with (-96465658) in B.
  change (instant_max / 1000000000 / 86400) with 95026601 in B.
  unfold days_before_year, epoch_days in V. Z.div_mod_to_equations. lia.
Qed.

Lemma written_timestamp s t : in_instant_range t = true -> written_form s t -> timestamp s t.
Proof.
  intros R (x & c & n & ys & ms & ds & hs & mis & ss & fs & -> & V & DN & C & -> & Y & M & D & H & MI & S & F).
  exists x, c, 0, n. split.
  { exists ys, ms, ds, hs, mis, ss, fs, (lit "Z"). split; [reflexivity|].
    split.
    { destruct Y as [[_ Y]|[[_ (k & r & T & K & _ & ->)]|[_ (k & r & T & K & _ & ->)]]].
      - now apply yf_plain.
      - apply (yf_plus k); [lia|exact T].
      - rewrite <- (Z.opp_involutive (year x)). apply (yf_minus k); [lia|exact T]. }
    split; [exact M|]. split; [exact D|]. split; [exact H|]. split; [exact MI|]. split; [exact S|].
    split; [|apply of_utc].
    destruct F as [[-> ->]|(k & m & r & -> & T & K & -> & _)]; [constructor|].
    replace (m * 10 ^ (9 - Z.of_nat k)) with (m * 10 ^ 9 / 10 ^ Z.of_nat k).
    { constructor; [lia|exact T]. }
    replace (m * 10 ^ 9) with (m * 10 ^ (9 - Z.of_nat k) * 10 ^ Z.of_nat k).
    { apply Z.div_mul. apply Z.pow_nonzero; lia. }
    rewrite <- Z.mul_assoc, <- Z.pow_add_r by lia. do 2 f_equal. lia. }
  split; [exact V|]. split; [exact C|]. split; [exact DN|]. split; [|split; [reflexivity|exact R]].
  apply (year_range x n DN). unfold in_instant_range, instant_of, valid_clock in *.
  change (instant_min / 1000000000 / 86400) with (-96465658).
  change (instant_max / 1000000000 / 86400) with 95026601.
  unfold instant_min, instant_max in R. lia.
Qed.

Lemma digit_text_ascii k n s : digit_text k n s -> ascii_only s = true.
Proof.
  rewrite digit_text_iff. intros (_ & D & _). unfold ascii_only. rewrite forallb_forall in *.
  intros b Hb. specialize (D b Hb). unfold is_digit in D. lia.
Qed.

Lemma rfc3339_ascii s x c o : rfc3339 s x c o -> ascii_only s = true.
Proof.
  intros (ys & ms & ds & hs & mis & ss & fs & os & -> & Y & M & D & H & MI & S & F & O).
  unfold ascii_only. rewrite !forallb_app, !andb_true_iff.
  assert (A : forall k n s, digit_text k n s -> forallb (fun b => (code b <? 128)%N) s = true) by exact digit_text_ascii.
  repeat split; try reflexivity; try (eapply A; eassumption).
  - destruct Y; rewrite ?forallb_app, ?andb_true_iff; try split; try reflexivity; eapply A; eassumption.
  - destruct F; [reflexivity|]. rewrite forallb_app, andb_true_iff. split; [reflexivity|eapply A; eassumption].
  - destruct O; [reflexivity| |]; rewrite !forallb_app, !andb_true_iff; repeat split; try reflexivity; eapply A; eassumption.
Qed.

Lemma chrono_round_trip t : in_instant_range t = true -> chrono_parse (chrono_print t) = Some t.
Proof. intros R. apply chrono_parse_iff, written_timestamp; [exact R|apply chrono_print_form]. Qed.

Lemma chrono_round_trips d : dt_round_trips (with_chrono d).
Proof.
  intros t R. split; [now apply chrono_round_trip|].
  apply rust_string_ascii. cbn [dt_print with_chrono].
  destruct (written_timestamp _ _ R (chrono_print_form t)) as (x & c & o & n & F & _).
  exact (rfc3339_ascii _ _ _ _ F).
Qed.

Lemma calendar_bijective n : exists x, day_number x n /\ forall y, day_number y n -> y = x.
Proof.
  exists (date_at n). split; [apply day_number_total|]. intros y H. apply day_number_valid in H.
  destruct H as [V <-]. symmetry. now apply date_at_days.
Qed.

Lemma date_has_one_day x : valid_date x -> exists n, day_number x n /\ forall k, day_number x k -> k = n.
Proof.
  intros V. exists (days x). split; [now apply day_number_iff|]. intros k H.
  apply day_number_valid in H. now destruct H.
Qed.

Lemma timestamp_unique s t t' : timestamp s t -> timestamp s t' -> t = t'.
Proof. rewrite <- !chrono_parse_iff. intros -> [= ->]. reflexivity. Qed.

Lemma chrono_display_form t : exists on at_time,
  written_form (on ++ lit "T" ++ at_time ++ lit "Z") t
  /\ chrono_display t = on ++ lit " " ++ at_time ++ lit " UTC".
Proof. exists (chrono_date t), (chrono_time t). split; [apply chrono_print_form|reflexivity]. Qed.
