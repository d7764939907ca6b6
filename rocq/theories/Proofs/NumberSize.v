(** How long the text of a number is (C111). *)
From Coq Require Import QArith Qabs Qpower Qround Lia Lqa ZifyBool ZifyN ZifyNat.
From Verif Require Import Model.Prelude Model.Float Model.Json SpecNumber Spec SpecRelay Proofs.StrFacts Proofs.FloatFacts
  Proofs.FloatText Proofs.NumberFacts Proofs.JsonFacts Proofs.NumberValues Proofs.NumberAgain.
Open Scope N_scope.

(* ---------------- seventeen digits ---------------- *)

(** The numbers that are rounded to [x] reach farther than its seventeenth digit. *)
Lemma reach x : finite_f64 x -> (highZ x < 10 ^ 16 * (highZ x - lowZ x))%Z.
Proof.
  intros F. assert (M : mantissa x < 2 ^ 53) by (destruct F; lia).
  change (2 ^ 53) with 9007199254740992 in M. unfold highZ, lowZ.
  destruct ((mantissa x =? 2 ^ 52) && negb (exponent x =? -1074)%Z) eqn:B.
  - apply andb_true_iff in B as (B & _). apply N.eqb_eq in B. rewrite B. vm_compute. reflexivity.
  - change (10 ^ 16)%Z with 10000000000000000%Z. lia.
Qed.

Lemma multiple_between l u h : (0 <= l)%Q -> (0 < u)%Q -> (u < h - l)%Q ->
  exists n, (l < Q_of_N n * u)%Q /\ (Q_of_N n * u < h)%Q.
Proof.
  intros L U H. set (z := (Qfloor (l / u) + 1)%Z).
  assert (A : (inject_Z (Qfloor (l / u)) <= l / u)%Q) by apply Qfloor_le.
  assert (B : (l / u < inject_Z z)%Q) by apply Qlt_floor.
  assert (E : (l == l / u * u)%Q) by (field; lra).
  assert (D0 : (0 <= l / u)%Q) by (apply Qle_shift_div_l; lra).
  assert (Z0 : (0 <= z)%Z).
  { assert (0 < inject_Z z)%Q as P by lra. change 0%Q with (inject_Z 0) in P. rewrite <- Zlt_Qlt in P. lia. }
  exists (Z.to_N z). unfold Q_of_N. rewrite Z2N.id by exact Z0.
  assert (C : inject_Z z == inject_Z (Qfloor (l / u)) + 1) by (unfold z; rewrite inject_Z_plus; reflexivity).
  set (q := (l / u)%Q) in *. set (f := inject_Z (Qfloor q)) in *. set (w := inject_Z z) in *. clearbody w f q.
  split.
  - rewrite E. now apply Qmult_lt_r.
  - rewrite C. assert (f * u <= q * u)%Q by (apply Qmult_le_compat_r; lra). lra.
Qed.

Lemma few_digits x d k : mantissa x <> 0 -> shortest_decimal x d k -> d < 10 ^ 17.
Proof.
  intros M (R & Best & _). destruct (N.lt_ge_cases d (10 ^ 17)) as [|G]; [assumption|exfalso].
  assert (F : finite_f64 x) by apply R. pose proof (rounds_high _ _ R) as U. pose proof (reach x F) as W.
  pose proof (lowZ_bound x M) as LB. pose proof (Qpow2_pos (exponent x)) as P. pose proof (Qpow10_pos k) as T.
  assert (E10 : 10 ^ (k + 1) == 10 * 10 ^ k).
  { rewrite Qpower_plus by discriminate. change (10 ^ 1)%Q with 10%Q. ring. }
  apply Q_of_N_le in G. change (Q_of_N (10 ^ 17)) with (100000000000000000 # 1)%Q in G.
  rewrite Zlt_Qlt, inject_Z_mult in W. change (inject_Z (10 ^ 16)) with (10000000000000000 # 1)%Q in W.
  unfold Z.sub in W. rewrite inject_Z_plus, inject_Z_opp in W.
  assert (L0 : (0 <= inject_Z (lowZ x))%Q) by (change 0%Q with (inject_Z 0); rewrite <- Zle_Qle; lia).
  unfold decimal_value in U.
  set (b := (2 ^ exponent x)%Q) in *. set (t := (10 ^ k)%Q) in *. set (l := inject_Z (lowZ x)) in *.
  set (h := inject_Z (highZ x)) in *. set (q := Q_of_N d) in *.
  assert (U' : ((100000000000000000 # 1) * t <= h * (1 # 4) * b)%Q).
  { apply Qle_trans with (q * t)%Q; [|exact U]. apply Qmult_le_compat_r; lra. }
  assert (W' : (h * b < (10000000000000000 # 1) * (h - l) * b)%Q) by (apply Qmult_lt_r; lra).
  assert (L1 : (0 <= l * (1 # 4) * b)%Q).
  { apply Qmult_le_0_compat; [|lra]. lra. }
  destruct (multiple_between (l * (1 # 4) * b) (10 * t) (h * (1 # 4) * b)) as (n & A & B); [exact L1|lra|lra|].
  assert (k + 1 <= k)%Z; [|lia]. apply (Best n (k + 1)%Z). split; [exact F|].
  exists (l * (1 # 4) * b)%Q, (h * (1 # 4) * b)%Q.
  split; [now apply half_below_iff|]. split; [now apply half_above_iff|].
  unfold decimal_value. rewrite E10. split; left; assumption.
Qed.

(* ---------------- the exponent ---------------- *)

Lemma decimal_not_zero x d k : mantissa x <> 0 -> rounds_to (decimal_value d k) x -> d <> 0.
Proof. intros M R ->. apply M. apply (zero_rounds (10 ^ k) x). exact R. Qed.

Lemma Qpow10_le a b : (a <= b)%Z -> (10 ^ a <= 10 ^ b)%Q.
Proof.
  intros H. replace b with (a + (b - a))%Z by lia. rewrite Qpower_plus by discriminate.
  assert (1 <= 10 ^ (b - a))%Q as Y by (apply Qpow10_ge; lia).
  pose proof (Qpow10_pos a) as P0. set (x := (10 ^ a)%Q) in *. set (y := (10 ^ (b - a))%Q) in *.
  clearbody x y. apply (Qmult_le_compat_r _ _ x) in Y; lra.
Qed.

Lemma exponent_range x d k : mantissa x <> 0 -> shortest_decimal x d k -> (-400 < k < 400)%Z.
Proof.
  intros M S. pose proof (few_digits x d k M S) as D. destruct S as (R & _). pose proof (decimal_not_zero x d k M R) as D0.
  pose proof (rounds_top _ _ R) as T. pose proof (rounds_low _ _ R) as L. pose proof (lowZ_bound x M) as LB.
  assert (F : finite_f64 x) by apply R. split.
  - destruct (Z_lt_le_dec (-400) k) as [|G]; [assumption|exfalso].
    assert (E : (-1074 <= exponent x)%Z) by (destruct F; lia). apply Qpow2_le in E.
    assert (A : (2 <= inject_Z (lowZ x))%Q) by (change 2%Q with (inject_Z 2); rewrite <- Zle_Qle; lia).
    assert (K : (10 ^ k <= 10 ^ (-400))%Q).
    { now apply Qpow10_le. }
    apply Q_of_N_lt in D. unfold decimal_value in L. pose proof (Qpow10_pos k) as K0.
    assert (C : (Q_of_N (10 ^ 17) * 10 ^ (-400) < 2 * (1 # 4) * 2 ^ (-1074))%Q) by (vm_compute; reflexivity).
    set (b := (2 ^ exponent x)%Q) in *. set (c := (2 ^ (-1074))%Q) in *. set (t := (10 ^ k)%Q) in *.
    set (t' := (10 ^ (-400))%Q) in *. set (q := Q_of_N d) in *. set (g := Q_of_N (10 ^ 17)) in *.
    set (l := inject_Z (lowZ x)) in *.
    assert (C0 : (0 < c)%Q) by (vm_compute; reflexivity). assert (G0 : (0 < g)%Q) by (vm_compute; reflexivity).
    clearbody b c t t' q g l.
    assert (A1 : (2 * (1 # 4) * b <= l * (1 # 4) * b)%Q) by (apply Qmult_le_compat_r; lra).
    assert (A2 : (q * t <= g * t)%Q) by (apply Qmult_le_compat_r; lra).
    assert (A3 : (t * g <= t' * g)%Q) by (apply Qmult_le_compat_r; lra). lra.
  - destruct (Z_lt_le_dec k 400) as [|G]; [assumption|exfalso].
    assert (D1 : (1 <= Q_of_N d)%Q) by (apply (Q_of_N_le 1); lia).
    assert (B : (10 ^ 400 <= decimal_value d k)%Q).
    { unfold decimal_value. apply Qle_trans with (1 * 10 ^ k)%Q.
      - rewrite Qmult_1_l. change 10%Q with (inject_Z 10). rewrite <- !Zpower_Qpower by lia.
        rewrite <- Zle_Qle. apply Z.pow_le_mono_r; lia.
      - apply Qmult_le_compat_r; [exact D1|]. apply Qlt_le_weak, Qpow10_pos. }
    assert (C : (Q_of_N top < 10 ^ 400)%Q) by (vm_compute; reflexivity). lra.
Qed.

(* ---------------- twenty-four characters ---------------- *)

Lemma decimal_length n s m : decimal_text n s -> n < 10 ^ N.of_nat m -> (0 < m)%nat -> (List.length s <= m)%nat.
Proof.
  intros ((N0 & D) & V & Z) B Hm. destruct s as [|c s]; [congruence|]. cbn [List.length].
  destruct (Ascii.eqb_spec c "0"%char) as [->|C].
  - specialize (Z eq_refl). injection Z as ->. cbn [List.length]. lia.
  - apply Forall_cons_iff in D as (Dc & D). cbn [digits_value] in V. rewrite N.add_0_l in V.
    assert (1 <= code c - 48) as C1.
    { destruct Dc as (A & _). assert (code c <> 48) as X; [|lia].
      intros X. apply C. apply code_inj. rewrite X. reflexivity. }
    destruct (digits_value_bounds s (code c - 48) D) as (L & _). rewrite V in L.
    assert (10 ^ N.of_nat (List.length s) < 10 ^ N.of_nat m) as P.
    { eapply N.le_lt_trans; [|exact B]. eapply N.le_trans; [|exact L].
      rewrite <- (N.mul_1_l (10 ^ _)) at 1. now apply N.mul_le_mono_r. }
    apply N.pow_lt_mono_r_iff in P; lia.
Qed.

Lemma exponent_length z s : (-1000 < z < 1000)%Z -> integer_text z s -> (List.length s <= 4)%nat.
Proof.
  intros R [(P & D)|(P & t & -> & D)].
  - assert (List.length s <= 3)%nat; [|lia]. apply (decimal_length _ s 3 D); [|lia]. change (10 ^ N.of_nat 3) with 1000. lia.
  - cbn [List.length]. assert (List.length t <= 3)%nat; [|lia]. apply (decimal_length _ t 3 D); [|lia].
    change (10 ^ N.of_nat 3) with 1000. lia.
Qed.

Lemma layout_length d k u : d < 10 ^ 17 -> (-400 < k < 400)%Z -> decimal_layout d k u -> (List.length u <= 23)%nat.
Proof.
  intros D K H.
  assert (Len : forall s, decimal_text d s -> (List.length s <= 17)%nat) by (intros s S; apply (decimal_length d s 17 S D); lia).
  destruct H as [ds zeros T K0 N _ Z|a b T _ _ A _|ds zeros T Z _ _|c ex T _ X|c ds ex T _ _ X];
    specialize (Len _ T); rewrite ?app_length in *; cbn [List.length lit] in *.
  - change (List.length (lit ".0")) with 2%nat. lia.
  - change (List.length (lit ".")) with 1%nat. lia.
  - change (List.length (lit "0.")) with 2%nat. lia.
  - change (List.length (lit "e")) with 1%nat. assert (List.length ex <= 4)%nat; [|lia]. apply (exponent_length k); [lia|exact X].
  - change (List.length (lit "e")) with 1%nat. change (List.length (lit ".")) with 1%nat.
    assert (List.length ex <= 4)%nat; [|lia]. eapply exponent_length; [|exact X]. lia.
Qed.

Lemma written_length neg x t : (neg = [] \/ neg = ["-"%char]) -> written_as neg x t -> (List.length t <= 24)%nat.
Proof.
  intros Hn [(_ & ->)|(M & d & k & u & S & L & ->)]; rewrite app_length.
  - change (List.length (lit "0.0")) with 3%nat. destruct Hn as [->| ->]; cbn [List.length]; lia.
  - pose proof (layout_length d k u (few_digits x d k M S) (exponent_range x d k M S) L) as B.
    destruct Hn as [->| ->]; cbn [List.length]; lia.
Qed.

Lemma f64_length t : f64_text t -> (List.length t <= 24)%nat.
Proof. intros (neg & x & Hn & W). exact (written_length neg x t Hn W). Qed.

Lemma becomes_length s t : float_becomes s t -> (List.length t <= 24)%nat.
Proof. intros (neg & int & frac & exp & x & (_ & Hn & _) & _ & _ & W). exact (written_length neg x t Hn W). Qed.
