(** [f64] arithmetic against the rounding intervals of SpecNumber.v. *)
From Coq Require Import QArith Qabs Qpower Lia Lqa.
From Verif Require Import Model.Prelude Model.Float SpecNumber.
Open Scope N_scope.

(* ------------------------------------------------------------------ *)
(** * Powers *)

Lemma pow2_pos z : 0 < pow2 z.
Proof. unfold pow2. apply N.neq_0_lt_0, N.pow_nonzero. discriminate. Qed.
Lemma pow10_pos z : 0 < pow10 z.
Proof. unfold pow10. apply N.neq_0_lt_0, N.pow_nonzero. discriminate. Qed.

Lemma pow2_nonneg z : (0 <= z)%Z -> Z.of_N (pow2 z) = (2 ^ z)%Z.
Proof. intros H. unfold pow2. rewrite N2Z.inj_pow, Z2N.id; [reflexivity|exact H]. Qed.
Lemma pow10_nonneg z : (0 <= z)%Z -> Z.of_N (pow10 z) = (10 ^ z)%Z.
Proof. intros H. unfold pow10. rewrite N2Z.inj_pow, Z2N.id; [reflexivity|exact H]. Qed.
Lemma pow2_neg z : (z <= 0)%Z -> pow2 z = 1.
Proof. intros H. unfold pow2. destruct z; [reflexivity|lia|reflexivity]. Qed.
Lemma pow10_neg z : (z <= 0)%Z -> pow10 z = 1.
Proof. intros H. unfold pow10. destruct z; [reflexivity|lia|reflexivity]. Qed.

Lemma pow2_add a b : (0 <= a)%Z -> (0 <= b)%Z -> pow2 (a + b) = pow2 a * pow2 b.
Proof. intros Ha Hb. unfold pow2. rewrite Z2N.inj_add, N.pow_add_r by assumption. reflexivity. Qed.
Lemma pow10_add a b : (0 <= a)%Z -> (0 <= b)%Z -> pow10 (a + b) = pow10 a * pow10 b.
Proof. intros Ha Hb. unfold pow10. rewrite Z2N.inj_add, N.pow_add_r by assumption. reflexivity. Qed.

(** Changing the exponent by [j]. *)
Lemma pow2_shift e j : (0 <= j)%Z ->
  pow2 (- e) * pow2 (e + j) = pow2 j * pow2 (- (e + j)) * pow2 e.
Proof.
  intros Hj. destruct (Z_le_gt_dec 0 e) as [He|He].
  - rewrite (pow2_neg (- e)), (pow2_neg (- (e + j))), pow2_add by lia. nia.
  - rewrite (pow2_neg e) by lia. destruct (Z_le_gt_dec 0 (e + j)) as [Hs|Hs].
    + rewrite (pow2_neg (- (e + j))) by lia.
      replace j with (- e + (e + j))%Z at 2 by lia. rewrite (pow2_add (- e)) by lia. lia.
    + rewrite (pow2_neg (e + j)) by lia.
      replace (- e)%Z with (j + - (e + j))%Z by lia. rewrite pow2_add by lia. lia.
Qed.

Lemma Q_of_N_pos n : 0 < n -> (0 < Q_of_N n)%Q.
Proof. intros H. unfold Q_of_N, Qlt, inject_Z. cbn. lia. Qed.
Lemma Q_of_N_mul a b : Q_of_N (a * b) == Q_of_N a * Q_of_N b.
Proof. unfold Q_of_N. rewrite N2Z.inj_mul, inject_Z_mult. reflexivity. Qed.

Lemma Qpow_nat (b : positive) z : (0 <= z)%Z -> inject_Z (Zpos b ^ z) == inject_Z (Zpos b) ^ z.
Proof. intros H. apply Zpower_Qpower, H. Qed.

Lemma Qpow2 e : 2 ^ e == Q_of_N (pow2 e) / Q_of_N (pow2 (- e)).
Proof.
  destruct (Z_le_gt_dec 0 e) as [He|He].
  - rewrite (pow2_neg (- e)) by lia. unfold Q_of_N. rewrite pow2_nonneg, Qpow_nat by lia.
    change (inject_Z (Z.of_N 1)) with 1%Q. change (inject_Z 2) with 2%Q. field.
  - rewrite (pow2_neg e) by lia. unfold Q_of_N. rewrite pow2_nonneg, Qpow_nat by lia.
    change (inject_Z (Z.of_N 1)) with 1%Q. change (inject_Z 2) with 2%Q.
    rewrite Qpower_opp. field. apply Qpower_not_0. discriminate.
Qed.
Lemma Qpow10 e : 10 ^ e == Q_of_N (pow10 e) / Q_of_N (pow10 (- e)).
Proof.
  destruct (Z_le_gt_dec 0 e) as [He|He].
  - rewrite (pow10_neg (- e)) by lia. unfold Q_of_N. rewrite pow10_nonneg, Qpow_nat by lia.
    change (inject_Z (Z.of_N 1)) with 1%Q. change (inject_Z 10) with 10%Q. field.
  - rewrite (pow10_neg e) by lia. unfold Q_of_N. rewrite pow10_nonneg, Qpow_nat by lia.
    change (inject_Z (Z.of_N 1)) with 1%Q. change (inject_Z 10) with 10%Q.
    rewrite Qpower_opp. field. apply Qpower_not_0. discriminate.
Qed.

(* ------------------------------------------------------------------ *)
(** * Rounding intervals in integers *)

(** The ends of the interval in quarters of the last place. *)
Definition lowZ (x : f64) : Z :=
  if (mantissa x =? 2 ^ 52) && negb (exponent x =? -1074)%Z then (4 * Z.of_N (mantissa x) - 1)%Z
  else (4 * Z.of_N (mantissa x) - 2)%Z.
Definition highZ (x : f64) : Z := (4 * Z.of_N (mantissa x) + 2)%Z.

Definition inside (x : f64) (n d : N) : Prop :=
  let a := (4 * Z.of_N (n * pow2 (- exponent x)))%Z in
  let b := Z.of_N (d * pow2 (exponent x)) in
  (lowZ x * b < a \/ (lowZ x * b = a /\ N.even (mantissa x) = true))%Z
  /\ (a < highZ x * b \/ (a = highZ x * b /\ N.even (mantissa x) = true))%Z.

Lemma half_below_iff x l : half_below x l <-> l == inject_Z (lowZ x) * (1 # 4) * 2 ^ exponent x.
Proof.
  unfold half_below, lowZ, Q_of_N.
  destruct (mantissa x =? 2 ^ 52) eqn:Em; [apply N.eqb_eq in Em|apply N.eqb_neq in Em];
    (destruct (exponent x =? -1074)%Z eqn:Ee; [apply Z.eqb_eq in Ee|apply Z.eqb_neq in Ee]); cbn [andb negb];
    unfold Z.sub; rewrite inject_Z_plus, inject_Z_mult; generalize (2 ^ exponent x)%Q as p; intros p.
  all: change (inject_Z 4) with 4%Q; change (inject_Z (- (2))) with (-2)%Q; change (inject_Z (- (1))) with (-1)%Q.
  - split; [intros [(_ & B & _)|(_ & C)]; [contradiction|rewrite C; ring]|].
    intros E. right. split; [now right|rewrite E; ring].
  - split; [intros [(_ & _ & C)|([A|A] & _)]; [rewrite C; ring|contradiction|contradiction]|].
    intros E. left. split; [assumption|]. split; [assumption|rewrite E; ring].
  - split; [intros [(A & _)|(_ & C)]; [contradiction|rewrite C; ring]|].
    intros E. right. split; [now right|rewrite E; ring].
  - split; [intros [(A & _)|(_ & C)]; [contradiction|rewrite C; ring]|].
    intros E. right. split; [now left|rewrite E; ring].
Qed.

Lemma half_above_iff x h : half_above x h <-> h == inject_Z (highZ x) * (1 # 4) * 2 ^ exponent x.
Proof.
  unfold half_above, highZ, Q_of_N. rewrite inject_Z_plus, inject_Z_mult.
  change (inject_Z 4) with 4%Q; change (inject_Z 2) with 2%Q.
  split; intros ->; ring.
Qed.

(** [z/4 * 2^e] against [n/d]. *)
Lemma quarter_compare z e n d : 0 < d ->
  (inject_Z z * (1 # 4) * 2 ^ e ?= Q_of_N n / Q_of_N d)%Q
  = (z * Z.of_N (d * pow2 e) ?= 4 * Z.of_N (n * pow2 (- e)))%Z.
Proof.
  intros Hd. pose proof (pow2_pos e) as P. pose proof (pow2_pos (- e)) as P'.
  assert (Hq : (inject_Z z * (1 # 4) * 2 ^ e) * (4 * Q_of_N d * Q_of_N (pow2 (- e)))
               == inject_Z (z * Z.of_N (d * pow2 e))).
  { rewrite Qpow2, inject_Z_mult. change (inject_Z (Z.of_N (d * pow2 e))) with (Q_of_N (d * pow2 e)).
    rewrite Q_of_N_mul. field. apply Q_of_N_pos in P'. lra. }
  assert (Hn : (Q_of_N n / Q_of_N d) * (4 * Q_of_N d * Q_of_N (pow2 (- e)))
               == inject_Z (4 * Z.of_N (n * pow2 (- e)))).
  { rewrite inject_Z_mult. change (inject_Z (Z.of_N (n * pow2 (- e)))) with (Q_of_N (n * pow2 (- e))).
    rewrite Q_of_N_mul. change (inject_Z 4) with 4%Q. field. apply Q_of_N_pos in Hd. lra. }
  assert (Hc : (0 < 4 * Q_of_N d * Q_of_N (pow2 (- e)))%Q).
  { apply Q_of_N_pos in Hd, P'. apply Qmult_lt_0_compat; [|exact P'].
    apply Qmult_lt_0_compat; [reflexivity|exact Hd]. }
  set (c := (4 * Q_of_N d * Q_of_N (pow2 (- e)))%Q) in *.
  set (u := (inject_Z z * (1 # 4) * 2 ^ e)%Q) in *. set (v := (Q_of_N n / Q_of_N d)%Q) in *.
  set (zu := (z * Z.of_N (d * pow2 e))%Z) in *. set (zv := (4 * Z.of_N (n * pow2 (- e)))%Z) in *.
  destruct (Z.compare_spec zu zv) as [E|E|E].
  - apply Qeq_alt. apply (Qmult_inj_r u v c); [lra|]. rewrite Hq, Hn, E. reflexivity.
  - apply Qlt_alt. apply (Qmult_lt_r u v c Hc). rewrite Hq, Hn. now rewrite <- Zlt_Qlt.
  - apply Qgt_alt. apply (Qmult_lt_r v u c Hc). rewrite Hq, Hn. now rewrite <- Zlt_Qlt.
Qed.

Lemma rounds_iff n d x : 0 < d ->
  (rounds_to (Q_of_N n / Q_of_N d) x <-> finite_f64 x /\ inside x n d).
Proof.
  intros Hd. unfold rounds_to, inside.
  pose proof (quarter_compare (lowZ x) (exponent x) n d Hd) as L.
  pose proof (quarter_compare (highZ x) (exponent x) n d Hd) as H.
  set (q := (Q_of_N n / Q_of_N d)%Q) in *.
  set (l0 := (inject_Z (lowZ x) * (1 # 4) * 2 ^ exponent x)%Q) in *.
  set (h0 := (inject_Z (highZ x) * (1 # 4) * 2 ^ exponent x)%Q) in *.
  set (a := (4 * Z.of_N (n * pow2 (- exponent x)))%Z) in *.
  set (b := Z.of_N (d * pow2 (exponent x))) in *.
  assert (L1 : (l0 < q)%Q <-> (lowZ x * b < a)%Z) by (rewrite Qlt_alt, L; reflexivity).
  assert (L2 : l0 == q <-> (lowZ x * b = a)%Z) by (rewrite Qeq_alt, L; apply Z.compare_eq_iff).
  assert (H1 : (q < h0)%Q <-> (a < highZ x * b)%Z).
  { rewrite Qgt_alt, H. rewrite Z.compare_gt_iff. reflexivity. }
  assert (H2 : q == h0 <-> (a = highZ x * b)%Z).
  { split; [intros E; symmetry in E|intros E; symmetry in E; symmetry]; revert E;
      rewrite Qeq_alt, H, Z.compare_eq_iff; auto. }
  split.
  - intros (F & l & h & Hl & Hh & A & B). split; [exact F|].
    apply half_below_iff in Hl. apply half_above_iff in Hh. fold l0 in Hl. fold h0 in Hh.
    rewrite Hl in A. rewrite Hh in B. rewrite L1, L2 in A. rewrite H1, H2 in B. auto.
  - intros (F & A & B). split; [exact F|]. exists l0, h0.
    split; [now apply half_below_iff|]. split; [now apply half_above_iff|].
    rewrite L1, L2, H1, H2. auto.
Qed.

Global Instance rounds_proper : Proper (Qeq ==> eq ==> iff) rounds_to.
Proof.
  assert (forall p q x, p == q -> rounds_to p x -> rounds_to q x).
  { intros p q x E (F & l & h & Hl & Hh & A & B). split; [exact F|]. exists l, h.
    rewrite <- E. auto. }
  intros p q E x y <-. split; [now apply H|]. apply H. now symmetry.
Qed.

(* ------------------------------------------------------------------ *)
(** * Rounding *)

(** Finite, or too large. *)
Definition wide (x : f64) : Prop :=
  (2 ^ 52 <= mantissa x < 2 ^ 53 /\ (-1074 <= exponent x)%Z)
  \/ (mantissa x < 2 ^ 52 /\ exponent x = (-1074)%Z).

Lemma finite_wide x : finite_f64 x <-> wide x /\ (exponent x <= 971)%Z.
Proof. unfold finite_f64, wide. lia. Qed.

Lemma even_odd_false m : N.even m = true -> N.even (m + 1) = true -> False.
Proof. intros H. rewrite N.add_1_r, N.even_succ, <- N.negb_even, H. discriminate. Qed.

(** Intervals of the same exponent. *)
Lemma inside_unique_same m m' e n d : 0 < d ->
  inside {| mantissa := m; exponent := e |} n d -> inside {| mantissa := m'; exponent := e |} n d -> ~ m < m'.
Proof.
  intros Hd (_ & U) (L & _) Hm. unfold lowZ, highZ in *. cbn [mantissa exponent] in *.
  assert (0 < d * pow2 e) as Hb by (pose proof (pow2_pos e); nia).
  set (b := Z.of_N (d * pow2 e)) in *. set (a := (4 * Z.of_N (n * pow2 (- e)))%Z) in *.
  assert (0 < b)%Z by (subst b; lia). clearbody a b.
  assert (m' = m + 1 \/ (Z.of_N m + 2 <= Z.of_N m')%Z) as [->|Hm'] by lia.
  - destruct ((m + 1 =? 2 ^ 52) && negb (e =? -1074)%Z).
    + nia.
    + destruct U as [U|[U E]]; [|destruct L as [L|[L E']]]; [nia|nia|].
      exact (even_odd_false _ E E').
  - destruct ((m' =? 2 ^ 52) && negb (e =? -1074)%Z); nia.
Qed.

(** Intervals of different exponents. *)
Lemma inside_unique_less x y n d : 0 < d -> wide x -> wide y ->
  inside x n d -> inside y n d -> ~ (exponent x < exponent y)%Z.
Proof.
  intros Hd Wx Wy (_ & U) (L & _) He.
  destruct x as [m e], y as [m' e']. unfold wide, lowZ, highZ in *. cbn [mantissa exponent] in *.
  assert (2 ^ 52 <= m' < 2 ^ 53) as Hm' by lia. assert (m < 2 ^ 53) as Hm by lia.
  pose proof (pow2_shift e (e' - e) ltac:(lia)) as S. replace (e + (e' - e))%Z with e' in S by lia.
  assert (2 <= pow2 (e' - e)) as Hj.
  { replace (e' - e)%Z with (1 + (e' - e - 1))%Z by lia. rewrite pow2_add by lia.
    pose proof (pow2_pos (e' - e - 1)). change (pow2 1) with 2. nia. }
  assert (0 < d * pow2 e) as Hb by (pose proof (pow2_pos e); nia).
  assert (0 < d * pow2 e') as Hb' by (pose proof (pow2_pos e'); nia).
  assert (n * pow2 (- e) * (d * pow2 e') = pow2 (e' - e) * (n * pow2 (- e')) * (d * pow2 e)) as X.
  { transitivity (n * d * (pow2 (- e) * pow2 e')); [ring|]. rewrite S. ring. }
  assert (U' : (4 * Z.of_N (n * pow2 (- e)) <= (4 * Z.of_N m + 2) * Z.of_N (d * pow2 e))%Z) by lia.
  assert (L' : ((4 * 2 ^ 52 - 1) * Z.of_N (d * pow2 e') <= 4 * Z.of_N (n * pow2 (- e')))%Z).
  { change (4 * 2 ^ 52 - 1)%Z with (18014398509481983)%Z.
    change (2 ^ 52) with 4503599627370496 in *.
    destruct ((m' =? 4503599627370496) && negb (e' =? -1074)%Z) eqn:E; [|apply andb_false_iff in E; destruct E as [E|E]].
    - nia.
    - apply N.eqb_neq in E. nia.
    - apply negb_false_iff, Z.eqb_eq in E. lia. }
  assert (HU : (4 * Z.of_N m + 2 <= 2 ^ 55 - 2)%Z) by lia.
  set (A := n * pow2 (- e)) in *. set (B := d * pow2 e) in *.
  set (A' := n * pow2 (- e')) in *. set (B' := d * pow2 e') in *. set (J := pow2 (e' - e)) in *.
  clearbody A B A' B' J.
  assert (X' : (Z.of_N A * Z.of_N B' = Z.of_N J * Z.of_N A' * Z.of_N B)%Z) by lia.
  assert (H1 : (4 * (Z.of_N A * Z.of_N B') <= (4 * Z.of_N m + 2) * Z.of_N B * Z.of_N B')%Z) by nia.
  assert (H2 : (2 * (4 * 2 ^ 52 - 1) * Z.of_N B' * Z.of_N B <= 4 * (Z.of_N J * Z.of_N A' * Z.of_N B))%Z).
  { assert ((4 * 2 ^ 52 - 1) * Z.of_N B' * Z.of_N B <= 4 * Z.of_N A' * Z.of_N B)%Z by nia.
    assert (2 * (4 * Z.of_N A' * Z.of_N B) <= Z.of_N J * (4 * Z.of_N A' * Z.of_N B))%Z by nia. lia. }
  assert (Hm53 : m = 2 ^ 53 - 1).
  { change (2 * (4 * 2 ^ 52 - 1))%Z with 36028797018963966%Z in H2.
    assert (0 < Z.of_N B * Z.of_N B')%Z by nia.
    assert (36028797018963966 <= 4 * Z.of_N m + 2)%Z by nia.
    change (2 ^ 53 - 1) with 9007199254740991. change (2 ^ 55 - 2)%Z with 36028797018963966%Z in HU. lia. }
  destruct U as [U|[_ E]]; [|subst m; discriminate].
  subst m. change (4 * Z.of_N (2 ^ 53 - 1) + 2)%Z with 36028797018963966%Z in *.
  change (2 * (4 * 2 ^ 52 - 1))%Z with 36028797018963966%Z in H2.
  assert (4 * (Z.of_N A * Z.of_N B') < 36028797018963966 * Z.of_N B * Z.of_N B')%Z by nia. lia.
Qed.

Lemma inside_unique x y n d : 0 < d -> wide x -> wide y -> inside x n d -> inside y n d -> x = y.
Proof.
  intros Hd Wx Wy Ix Iy.
  pose proof (inside_unique_less x y n d Hd Wx Wy Ix Iy) as H1.
  pose proof (inside_unique_less y x n d Hd Wy Wx Iy Ix) as H2.
  destruct x as [m e], y as [m' e']. cbn [exponent] in *. assert (e = e') as <- by lia.
  pose proof (inside_unique_same m m' e n d Hd Ix Iy) as H3.
  pose proof (inside_unique_same m' m e n d Hd Iy Ix) as H4.
  f_equal. lia.
Qed.

Lemma div_even_spec n d : 0 < d -> let m := div_even n d in
  ((2 * Z.of_N m - 1) * Z.of_N d < 2 * Z.of_N n
   \/ ((2 * Z.of_N m - 1) * Z.of_N d = 2 * Z.of_N n /\ N.even m = true))%Z
  /\ (2 * Z.of_N n < (2 * Z.of_N m + 1) * Z.of_N d
      \/ (2 * Z.of_N n = (2 * Z.of_N m + 1) * Z.of_N d /\ N.even m = true))%Z.
Proof.
  intros Hd. unfold div_even. pose proof (N.div_mod' n d) as E. pose proof (N.mod_lt n d ltac:(lia)) as L.
  set (q := n / d) in *. set (r := n mod d) in *. clearbody q r. subst n.
  destruct (N.compare_spec (2 * r) d) as [C|C|C]; cbv zeta.
  - destruct (N.even q) eqn:Q.
    + split; [left; nia|right; split; [nia|exact Q]].
    + assert (N.even (q + 1) = true) as Q1 by (rewrite N.add_1_r, N.even_succ, <- N.negb_even, Q; reflexivity).
      split; [right; split; [nia|exact Q1]|left; nia].
  - split; left; nia.
  - split; left; nia.
Qed.

(** [div_even] is monotone enough. *)
Lemma div_even_bound n d b : 0 < d -> n < b * d -> div_even n d <= b.
Proof.
  intros Hd H. destruct (div_even_spec n d Hd) as [L _]. cbv zeta in L. nia.
Qed.
Lemma div_even_above n d b : 0 < d -> b * d <= n -> b <= div_even n d.
Proof.
  intros Hd H. destruct (div_even_spec n d Hd) as [_ U]. cbv zeta in U.
  assert (Z.of_N b * Z.of_N d <= Z.of_N n)%Z by lia.
  assert ((2 * Z.of_N b) * Z.of_N d <= (2 * Z.of_N (div_even n d) + 1) * Z.of_N d)%Z by nia. nia.
Qed.

(** The exponent for which the quotient has 53 bits. *)
Definition top_exponent (n d : N) : Z :=
  let e0 := (Z.of_N (N.log2 n) - Z.of_N (N.log2 d) - 53)%Z in
  if n * pow2 (- e0) <? pow2 53 * d * pow2 e0 then e0 else (e0 + 1)%Z.

Lemma first_guess n d : 0 < n -> 0 < d ->
  let e0 := (Z.of_N (N.log2 n) - Z.of_N (N.log2 d) - 53)%Z in
  2 ^ 52 * (d * pow2 e0) <= n * pow2 (- e0) /\ n * pow2 (- e0) < 2 ^ 54 * (d * pow2 e0).
Proof.
  intros Hn Hd e0. destruct (N.log2_spec n Hn) as [N1 N2]. destruct (N.log2_spec d Hd) as [D1 D2].
  rewrite N.pow_succ_r' in N2, D2.
  assert (E : 2 ^ N.log2 n * pow2 (- e0) = 2 ^ 53 * 2 ^ N.log2 d * pow2 e0).
  { unfold e0, pow2. destruct (Z_le_gt_dec 0 e0) as [H|H].
    - rewrite (Z2N.inj_sub _ 53) by lia. replace (Z.to_N (- (Z.of_N (N.log2 n) - Z.of_N (N.log2 d) - 53))) with 0 by (unfold e0 in H; lia).
      rewrite <- !N.pow_add_r. f_equal. unfold e0 in H. lia.
    - replace (Z.to_N (Z.of_N (N.log2 n) - Z.of_N (N.log2 d) - 53)) with 0 by (unfold e0 in H; lia).
      rewrite <- !N.pow_add_r. f_equal. unfold e0 in H. lia. }
  pose proof (pow2_pos e0) as P. pose proof (pow2_pos (- e0)) as P'. clearbody e0.
  change (2 ^ 54) with (2 * 2 ^ 53). change (2 ^ 53) with (2 * 2 ^ 52) in *.
  set (c := 2 ^ 52) in *. set (x := 2 ^ N.log2 n) in *. set (y := 2 ^ N.log2 d) in *. clearbody c x y.
  split.
  - assert (c * (d * pow2 e0) <= c * (2 * y * pow2 e0)) by nia.
    assert (x * pow2 (- e0) <= n * pow2 (- e0)) by nia. lia.
  - assert (n * pow2 (- e0) < 2 * x * pow2 (- e0)) by nia.
    assert (2 * (2 * c * y * pow2 e0) <= 2 * (2 * c * (d * pow2 e0))) by nia. lia.
Qed.

Lemma top_exponent_spec n d : 0 < n -> 0 < d -> let e := top_exponent n d in
  2 ^ 52 * (d * pow2 e) <= n * pow2 (- e) /\ n * pow2 (- e) < 2 ^ 53 * (d * pow2 e).
Proof.
  intros Hn Hd. unfold top_exponent. pose proof (first_guess n d Hn Hd) as G. cbv zeta in G.
  set (e0 := (Z.of_N (N.log2 n) - Z.of_N (N.log2 d) - 53)%Z) in *. clearbody e0. cbv zeta.
  change (pow2 53) with (2 ^ 53).
  destruct (n * pow2 (- e0) <? 2 ^ 53 * d * pow2 e0) eqn:E; [apply N.ltb_lt in E|apply N.ltb_ge in E].
  - split; [apply G|]. lia.
  - pose proof (pow2_shift e0 1 ltac:(lia)) as S. change (pow2 1) with 2 in S.
    assert (0 < d * pow2 e0) by (pose proof (pow2_pos e0); nia).
    assert (0 < d * pow2 (e0 + 1)) by (pose proof (pow2_pos (e0 + 1)); nia).
    assert (X : n * pow2 (- e0) * (d * pow2 (e0 + 1)) = 2 * (n * pow2 (- (e0 + 1))) * (d * pow2 e0)).
    { transitivity (n * d * (pow2 (- e0) * pow2 (e0 + 1))); [ring|]. rewrite S. ring. }
    destruct G as [_ G]. replace (2 ^ 53 * d * pow2 e0) with (2 ^ 53 * (d * pow2 e0)) in E by ring.
    change (2 ^ 54) with (2 * 2 ^ 53) in G. change (2 ^ 53) with (2 * 2 ^ 52) in *.
    set (a := n * pow2 (- e0)) in *. set (a' := n * pow2 (- (e0 + 1))) in *.
    set (b := d * pow2 e0) in *. set (b' := d * pow2 (e0 + 1)) in *. set (c := 2 ^ 52) in *. clearbody a a' b b' c.
    split.
    + assert (2 * c * b * b' <= 2 * a' * b) by nia. nia.
    + assert (2 * a' * b < 2 * (2 * c) * b * b') by nia. nia.
Qed.

(** The result before the check for infinity. *)
Definition rounded (n d : N) : f64 :=
  let e := Z.max (top_exponent n d) min_exponent in
  let m := div_even (n * pow2 (- e)) (d * pow2 e) in
  if m =? pow2 53 then {| mantissa := pow2 52; exponent := (e + 1)%Z |}
  else {| mantissa := m; exponent := e |}.

Lemma below_top n d e : 0 < n -> 0 < d -> (top_exponent n d < e)%Z ->
  n * pow2 (- e) < 2 ^ 52 * (d * pow2 e).
Proof.
  intros Hn Hd He. destruct (top_exponent_spec n d Hn Hd) as [_ U]. set (e0 := top_exponent n d) in *.
  pose proof (pow2_shift e0 (e - e0) ltac:(lia)) as S. replace (e0 + (e - e0))%Z with e in S by lia.
  assert (2 <= pow2 (e - e0)) as Hj.
  { replace (e - e0)%Z with (1 + (e - e0 - 1))%Z by lia. rewrite pow2_add by lia.
    pose proof (pow2_pos (e - e0 - 1)). change (pow2 1) with 2. nia. }
  assert (0 < d * pow2 e0) by (pose proof (pow2_pos e0); nia).
  assert (0 < d * pow2 e) by (pose proof (pow2_pos e); nia).
  assert (X : n * pow2 (- e0) * (d * pow2 e) = pow2 (e - e0) * (n * pow2 (- e)) * (d * pow2 e0)).
  { transitivity (n * d * (pow2 (- e0) * pow2 e)); [ring|]. rewrite S. ring. }
  change (2 ^ 53) with (2 * 2 ^ 52) in *.
  set (a := n * pow2 (- e0)) in *. set (a' := n * pow2 (- e)) in *.
  set (b := d * pow2 e0) in *. set (b' := d * pow2 e) in *. set (c := 2 ^ 52) in *.
  set (j := pow2 (e - e0)) in *. clearbody a a' b b' c j.
  assert (2 * a' * b <= j * a' * b) by nia.
  assert (a * b' < 2 * c * b * b') by nia. nia.
Qed.

Lemma rounded_spec n d : 0 < n -> 0 < d -> wide (rounded n d) /\ inside (rounded n d) n d.
Proof.
  intros Hn Hd. unfold rounded. cbv zeta. change min_exponent with (-1074)%Z. change (pow2 53) with (2 ^ 53).
  change (pow2 52) with (2 ^ 52).
  destruct (top_exponent_spec n d Hn Hd) as [TL TU].
  pose proof (below_top n d (-1074) Hn Hd) as SUB.
  set (t := top_exponent n d) in *.
  set (e := Z.max t (-1074)) in *.
  assert (He : (-1074 <= e)%Z) by lia.
  assert (HU : n * pow2 (- e) < 2 ^ 53 * (d * pow2 e)).
  { destruct (Z_le_gt_dec (-1074) t); [replace e with t by lia; exact TU|].
    replace e with (-1074)%Z by lia. specialize (SUB ltac:(lia)).
    change (2 ^ 53) with (2 * 2 ^ 52). lia. }
  assert (HL : e <> (-1074)%Z -> 2 ^ 52 * (d * pow2 e) <= n * pow2 (- e)).
  { intros Ne. replace e with t by lia. exact TL. }
  assert (HB : 0 < d * pow2 e) by (pose proof (pow2_pos e); nia).
  pose proof (div_even_spec (n * pow2 (- e)) (d * pow2 e) HB) as [DL DU].
  pose proof (div_even_bound _ _ (2 ^ 53) HB HU) as MB.
  assert (MA : e <> (-1074)%Z -> 2 ^ 52 <= div_even (n * pow2 (- e)) (d * pow2 e)).
  { intros Ne. apply div_even_above; [exact HB|now apply HL]. }
  cbv zeta in DL, DU. set (m := div_even (n * pow2 (- e)) (d * pow2 e)) in *. clearbody m.
  destruct (m =? 2 ^ 53) eqn:Em; [apply N.eqb_eq in Em|apply N.eqb_neq in Em].
  - split; [left; cbn [mantissa exponent]; split; [split; [lia|reflexivity]|lia]|].
    unfold inside, lowZ, highZ. cbn [mantissa exponent]. cbv zeta.
    replace ((2 ^ 52 =? 2 ^ 52) && negb (e + 1 =? -1074)%Z) with true by (rewrite N.eqb_refl; lia).
    pose proof (pow2_shift e 1 ltac:(lia)) as S. change (pow2 1) with 2 in S.
    assert (HB' : 0 < d * pow2 (e + 1)) by (apply N.mul_pos_pos; [exact Hd|apply pow2_pos]).
    assert (X : n * pow2 (- e) * (d * pow2 (e + 1)) = 2 * (n * pow2 (- (e + 1))) * (d * pow2 e)).
    { transitivity (n * d * (pow2 (- e) * pow2 (e + 1))); [ring|]. rewrite S. ring. }
    clear HL MA MB TL TU SUB DU. subst m.
    set (a := n * pow2 (- e)) in *. set (a' := n * pow2 (- (e + 1))) in *.
    set (b := d * pow2 e) in *. set (b' := d * pow2 (e + 1)) in *. clearbody a a' b b'.
    assert (DL' : ((2 * Z.of_N (2 ^ 53) - 1) * Z.of_N b <= 2 * Z.of_N a)%Z) by lia.
    change (Z.of_N (2 ^ 53)) with (2 ^ 53)%Z in DL'. change (Z.of_N (2 ^ 52)) with (2 ^ 52)%Z.
    assert (X' : (Z.of_N a * Z.of_N b' = 2 * Z.of_N a' * Z.of_N b)%Z) by lia.
    assert (HU' : (Z.of_N a < 2 ^ 53 * Z.of_N b)%Z) by lia.
    change (2 * 2 ^ 53 - 1)%Z with 18014398509481983%Z in DL'.
    change (2 ^ 53)%Z with 9007199254740992%Z in HU'.
    change (4 * 2 ^ 52 - 1)%Z with 18014398509481983%Z. change (4 * 2 ^ 52 + 2)%Z with 18014398509481986%Z.
    assert (18014398509481983 * Z.of_N b * Z.of_N b' <= 4 * Z.of_N a' * Z.of_N b)%Z by nia.
    assert (2 * Z.of_N a' * Z.of_N b < 9007199254740992 * Z.of_N b * Z.of_N b')%Z by nia.
    assert (18014398509481983 * Z.of_N b' <= 4 * Z.of_N a')%Z
      by (apply (Z.mul_le_mono_pos_r _ _ (Z.of_N b)); lia).
    assert (2 * Z.of_N a' < 9007199254740992 * Z.of_N b')%Z
      by (apply (Z.mul_lt_mono_pos_r (Z.of_N b)); lia).
    split; [|left; lia].
    destruct (Z.eq_dec (18014398509481983 * Z.of_N b') (4 * Z.of_N a')); [right; split; [assumption|reflexivity]|left; lia].
  - assert (W : wide {| mantissa := m; exponent := e |}).
    { unfold wide. cbn [mantissa exponent].
      destruct (Z.eq_dec e (-1074)) as [E|E]; [|specialize (MA E); left; lia].
      destruct (N.lt_ge_cases m (2 ^ 52)); [right; lia|left; lia]. }
    split; [exact W|]. unfold inside, lowZ, highZ. cbn [mantissa exponent]. cbv zeta.
    clear SUB TL TU HU MA MB W.
    set (a := n * pow2 (- e)) in *. set (b := d * pow2 e) in *. clearbody a b.
    split; [|destruct DU as [DU|[DU Ev]]; [left|right; split; [|exact Ev]]; lia].
    destruct ((m =? 2 ^ 52) && negb (e =? -1074)%Z) eqn:E;
      [|destruct DL as [DL|[DL Ev]]; [left|right; split; [|exact Ev]]; lia].
    apply andb_true_iff in E. destruct E as [E1 E2]. apply N.eqb_eq in E1.
    apply negb_true_iff, Z.eqb_neq in E2. specialize (HL E2). left. subst m. lia.
Qed.

Lemma nearest_rounded n d : 0 < n ->
  nearest n d = if (exponent (rounded n d) <=? 971)%Z then Some (rounded n d) else None.
Proof.
  intros Hn. unfold nearest. destruct (n =? 0) eqn:E; [apply N.eqb_eq in E; lia|]. reflexivity.
Qed.

Definition zero64 : f64 := {| mantissa := 0; exponent := -1074 |}.

Lemma inside_zero d : 0 < d -> inside zero64 0 d.
Proof.
  intros Hd. unfold inside, zero64, lowZ, highZ. cbn [mantissa exponent]. cbv zeta.
  change (0 * pow2 (- -1074)) with 0. change ((0 =? 2 ^ 52) && negb (-1074 =? -1074)%Z) with false. cbv iota.
  pose proof (pow2_pos (-1074)). assert (0 < d * pow2 (-1074)) by nia.
  split; left; lia.
Qed.

Lemma wide_zero : wide zero64.
Proof. right. split; [reflexivity|reflexivity]. Qed.

Theorem nearest_inside n d x : 0 < d -> (nearest n d = Some x <-> finite_f64 x /\ inside x n d).
Proof.
  intros Hd. rewrite finite_wide. destruct (N.eq_dec n 0) as [->|Hn].
  - change (nearest 0 d) with (Some zero64). split.
    + intros [= <-]. split; [split; [apply wide_zero|discriminate]|now apply inside_zero].
    + intros ((W & _) & I). f_equal. symmetry. eapply inside_unique; eauto using wide_zero, inside_zero.
  - assert (0 < n) as Hn' by lia. rewrite nearest_rounded by exact Hn'.
    destruct (rounded_spec n d Hn' Hd) as [W I].
    destruct (exponent (rounded n d) <=? 971)%Z eqn:E; [apply Z.leb_le in E|apply Z.leb_gt in E]; split.
    + intros [= <-]. auto.
    + intros ((Wx & _) & Ix). f_equal. exact (inside_unique _ _ n d Hd W Wx I Ix).
    + discriminate.
    + intros ((Wx & Bx) & Ix). rewrite (inside_unique _ _ n d Hd Wx W Ix I) in Bx. lia.
Qed.

Theorem nearest_iff n d x : 0 < d -> (nearest n d = Some x <-> rounds_to (Q_of_N n / Q_of_N d) x).
Proof. intros Hd. rewrite nearest_inside, rounds_iff by exact Hd. reflexivity. Qed.

Lemma f64_of_iff n x : f64_of n = Some x <-> rounds_to (Q_of_N n) x.
Proof.
  unfold f64_of. rewrite nearest_iff by lia.
  assert (Q_of_N n / Q_of_N 1 == Q_of_N n) as ->; [|reflexivity].
  change (Q_of_N 1) with 1%Q. field.
Qed.

Lemma pow10_iff e x : (0 <= e)%Z -> (f64_of (pow10 e) = Some x <-> rounds_to (10 ^ e) x).
Proof.
  intros He. rewrite f64_of_iff.
  assert (Q_of_N (pow10 e) == 10 ^ e) as ->; [|reflexivity].
  rewrite Qpow10, (pow10_neg (- e)) by lia. change (Q_of_N 1) with 1%Q. field.
Qed.

Lemma Qpow2_not_0 e : ~ 2 ^ e == 0.
Proof. apply Qpower_not_0. discriminate. Qed.

Lemma f64_mul_iff x y z : f64_mul x y = Some z <-> rounds_to (f64_value x * f64_value y) z.
Proof.
  unfold f64_mul. cbv zeta. rewrite nearest_iff by apply pow2_pos.
  assert (Q_of_N (mantissa x * mantissa y * pow2 (exponent x + exponent y)) / Q_of_N (pow2 (- (exponent x + exponent y)))
          == f64_value x * f64_value y) as ->; [|reflexivity].
  unfold f64_value. rewrite !Q_of_N_mul.
  transitivity (Q_of_N (mantissa x) * Q_of_N (mantissa y) * 2 ^ (exponent x + exponent y))%Q.
  - rewrite Qpow2. field. pose proof (Q_of_N_pos _ (pow2_pos (- (exponent x + exponent y)))). lra.
  - rewrite Qpower_plus by discriminate. ring.
Qed.

Lemma f64_div_iff x y z : mantissa y <> 0 ->
  (f64_div x y = Some z <-> rounds_to (f64_value x / f64_value y) z).
Proof.
  intros Hy. unfold f64_div. cbv zeta.
  assert (Hp : 0 < mantissa y) by lia.
  rewrite nearest_iff by (apply N.mul_pos_pos; [exact Hp|apply pow2_pos]).
  assert (Q_of_N (mantissa x * pow2 (exponent x - exponent y)) / Q_of_N (mantissa y * pow2 (- (exponent x - exponent y)))
          == f64_value x / f64_value y) as ->; [|reflexivity].
  unfold f64_value. rewrite !Q_of_N_mul.
  apply Q_of_N_pos in Hp. pose proof (Q_of_N_pos _ (pow2_pos (- (exponent x - exponent y)))) as P.
  transitivity (Q_of_N (mantissa x) / Q_of_N (mantissa y) * 2 ^ (exponent x - exponent y))%Q.
  - rewrite Qpow2. field. split; lra.
  - unfold Z.sub. rewrite Qpower_plus, Qpower_opp by discriminate. field.
    repeat split; try apply Qpow2_not_0; lra.
Qed.

Lemma rounds_unique q x y : rounds_to q x -> rounds_to q y -> x = y \/ (q < 0)%Q.
Proof.
  intros Hx Hy. destruct (Qlt_le_dec q 0) as [H|H]; [now right|left].
  assert (exists n d, 0 < d /\ q == Q_of_N n / Q_of_N d) as (n & d & Hd & E).
  { exists (Z.to_N (Qnum q)), (Npos (Qden q)). split; [reflexivity|]. unfold Q_of_N.
    unfold Qle in H. cbn in H. rewrite Z2N.id by lia.
    destruct q as [a b]. cbn [Qnum Qden]. apply Qmake_Qdiv. }
  rewrite E in Hx, Hy. apply nearest_iff in Hx, Hy; try exact Hd. congruence.
Qed.

(** Powers of ten that are used are not zero. *)
Lemma nearest_zero n d x : 0 < d -> d <= n -> nearest n d = Some x -> mantissa x <> 0.
Proof.
  intros Hd H. rewrite nearest_inside by exact Hd. intros (F & _ & U) Hm.
  unfold highZ in U. rewrite Hm in U.
  assert (exponent x = (-1074)%Z) as E.
  { destruct F as [[F _]|[_ F]]; [rewrite Hm in F; destruct F as [F _]; now apply N.leb_le in F|exact F]. }
  rewrite E in U. change (4 * Z.of_N 0 + 2)%Z with 2%Z in U. rewrite (pow2_neg (-1074)) in U by lia.
  assert (n <= n * pow2 (- -1074)) by (pose proof (pow2_pos (- -1074)); nia). lia.
Qed.

Lemma pow10_not_zero e x : f64_of (pow10 e) = Some x -> mantissa x <> 0.
Proof. apply nearest_zero; [reflexivity|]. pose proof (pow10_pos e). lia. Qed.

(* ------------------------------------------------------------------ *)
(** * Magnitudes *)

Lemma Qpow2_pos e : (0 < 2 ^ e)%Q.
Proof. apply Qpower_0_lt. reflexivity. Qed.

Lemma f64_value_nonneg x : (0 <= f64_value x)%Q.
Proof.
  unfold f64_value. apply Qmult_le_0_compat; [|apply Qlt_le_weak, Qpow2_pos].
  unfold Q_of_N, Qle. cbn. lia.
Qed.

Lemma rounds_low q y : rounds_to q y -> (inject_Z (lowZ y) * (1 # 4) * 2 ^ exponent y <= q)%Q.
Proof.
  intros (_ & l & h & Hl & _ & A & _). apply half_below_iff in Hl. rewrite <- Hl.
  destruct A as [A|[A _]]; lra.
Qed.
Lemma rounds_high q y : rounds_to q y -> (q <= inject_Z (highZ y) * (1 # 4) * 2 ^ exponent y)%Q.
Proof.
  intros (_ & l & h & _ & Hh & _ & A). apply half_above_iff in Hh. rewrite <- Hh.
  destruct A as [A|[A _]]; lra.
Qed.

Lemma lowZ_bound x : mantissa x <> 0 -> (2 * Z.of_N (mantissa x) <= lowZ x)%Z.
Proof. intros H. unfold lowZ. destruct (_ && _); lia. Qed.

Lemma rounds_upper q y : (0 <= q)%Q -> rounds_to q y -> (f64_value y <= 2 * q)%Q.
Proof.
  intros Hq H. destruct (N.eq_dec (mantissa y) 0) as [E|E].
  - unfold f64_value. rewrite E. change (Q_of_N 0) with 0%Q. lra.
  - apply rounds_low in H. apply lowZ_bound in E. rewrite Zle_Qle, inject_Z_mult in E.
    change (inject_Z 2) with 2%Q in E. unfold f64_value, Q_of_N in *.
    pose proof (Qpow2_pos (exponent y)) as P. set (p := (2 ^ exponent y)%Q) in *. clearbody p.
    set (m := inject_Z (Z.of_N (mantissa y))) in *. set (l := inject_Z (lowZ y)) in *. clearbody m l.
    assert (2 * m * p <= l * p)%Q by (apply Qmult_le_compat_r; [exact E|lra]). lra.
Qed.

Lemma rounds_tiny q y : rounds_to q y -> (q < 2 ^ (-1075))%Q -> mantissa y = 0.
Proof.
  intros H Hq. destruct (N.eq_dec (mantissa y) 0) as [E|E]; [exact E|exfalso].
  assert (F : (-1074 <= exponent y)%Z) by (destruct H as [[[_ F]|[_ F]] _]; lia).
  apply rounds_low in H.
  assert (B : (2 <= lowZ y)%Z) by (apply lowZ_bound in E as B; lia). rewrite Zle_Qle in B.
  change (inject_Z 2) with 2%Q in B.
  assert (P : (2 ^ (-1074) <= 2 ^ exponent y)%Q) by (apply Qpower_le_compat_l; [exact F|discriminate]).
  assert (X : (2 ^ (-1075) == (1 # 2) * 2 ^ (-1074))%Q) by (vm_compute; reflexivity).
  rewrite X in Hq. pose proof (Qpow2_pos (-1074)) as P0.
  set (p := (2 ^ exponent y)%Q) in *. set (p0 := (2 ^ (-1074))%Q) in *. clearbody p p0.
  set (l := inject_Z (lowZ y)) in *. clearbody l.
  assert (2 * p <= l * p)%Q by (apply Qmult_le_compat_r; [exact B|lra]). lra.
Qed.

(** The constant [1e308]. *)
Lemma p308_large p : rounds_to (10 ^ 308) p -> (2 ^ 1022 <= f64_value p)%Q.
Proof.
  intros H. apply (pow10_iff 308) in H; [|discriminate].
  assert (E : f64_of (pow10 308) = Some {| mantissa := 5010420900022432; exponent := 971 |}) by (vm_compute; reflexivity).
  rewrite E in H. injection H as <-. unfold f64_value. cbn [mantissa exponent].
  vm_compute. discriminate.
Qed.

(** How large a number can be when [r] rounds of division remain. *)
Definition remains (r : nat) (x : f64) : Prop :=
  match r with
  | S (S (S _)) => (f64_value x <= 2 ^ 65)%Q
  | S (S O) => (f64_value x <= 2 ^ (-950))%Q
  | _ => mantissa x = 0
  end.

Lemma remains_div r x p y : remains (S r) x -> mantissa x <> 0 ->
  rounds_to (10 ^ 308) p -> rounds_to (f64_value x / f64_value p) y -> remains r y.
Proof.
  intros R Hx Hp Hy. apply p308_large in Hp.
  assert (P0 : (0 < f64_value p)%Q) by (pose proof (Qpow2_pos 1022); lra).
  pose proof (f64_value_nonneg x) as Nx.
  assert (D : forall c, (f64_value x <= c)%Q -> (f64_value x / f64_value p <= c / 2 ^ 1022)%Q).
  { intros c Hc. apply Qle_shift_div_r; [exact P0|].
    apply (Qle_trans _ c); [exact Hc|]. assert (0 <= c)%Q by lra.
    apply (Qle_trans _ (c / 2 ^ 1022 * 2 ^ 1022)).
    - apply Qle_lteq. right. field.
    - rewrite (Qmult_comm (c / 2 ^ 1022)), (Qmult_comm (c / 2 ^ 1022)).
      apply Qmult_le_compat_r; [exact Hp|]. apply Qle_shift_div_l; [apply Qpow2_pos|lra]. }
  assert (D0 : (0 <= f64_value x / f64_value p)%Q) by (apply Qle_shift_div_l; [exact P0|lra]).
  destruct r as [|[|[|r]]]; cbn [remains] in *; try contradiction.
  - apply D in R. eapply rounds_tiny; [exact Hy|]. eapply Qle_lt_trans; [exact R|]. vm_compute. reflexivity.
  - apply D in R. apply rounds_upper in Hy; [|exact D0]. eapply Qle_trans; [exact Hy|].
    apply (Qle_trans _ (2 * (2 ^ 65 / 2 ^ 1022))); [lra|]. vm_compute. discriminate.
  - apply D in R. apply rounds_upper in Hy; [|exact D0]. eapply Qle_trans; [exact Hy|].
    apply (Qle_trans _ (2 * (2 ^ 65 / 2 ^ 1022))); [lra|]. vm_compute. discriminate.
Qed.

Lemma finite_pow10 e : (0 <= e <= 308)%Z -> exists p, f64_of (pow10 e) = Some p.
Proof.
  intros He. unfold f64_of. rewrite nearest_rounded by apply pow10_pos.
  destruct (exponent (rounded (pow10 e) 1) <=? 971)%Z eqn:E; [eauto|exfalso].
  apply Z.leb_gt in E. destruct (rounded_spec (pow10 e) 1 (pow10_pos e) ltac:(lia)) as [W (L & _)].
  assert (Hm : 2 ^ 52 <= mantissa (rounded (pow10 e) 1)) by (destruct W; lia).
  set (x := rounded (pow10 e) 1) in *. clearbody x.
  assert (L' : ((4 * 2 ^ 52 - 2) * Z.of_N (1 * pow2 (exponent x)) <= 4 * Z.of_N (pow10 e * pow2 (- exponent x)))%Z).
  { assert (4 * 2 ^ 52 - 2 <= lowZ x)%Z.
    { unfold lowZ. change (4 * 2 ^ 52 - 2)%Z with 18014398509481982%Z. change (2 ^ 52) with 4503599627370496 in *.
      destruct (_ && _); lia. }
    assert (0 <= Z.of_N (1 * pow2 (exponent x)))%Z by lia. nia. }
  rewrite (pow2_neg (- exponent x)) in L' by lia. rewrite N.mul_1_l, N.mul_1_r in L'.
  rewrite pow2_nonneg, pow10_nonneg in L' by lia.
  assert (2 ^ 972 <= 2 ^ exponent x)%Z by (apply Z.pow_le_mono_r; lia).
  assert (10 ^ e <= 10 ^ 308)%Z by (apply Z.pow_le_mono_r; lia).
  assert (4 * 10 ^ 308 < (4 * 2 ^ 52 - 2) * 2 ^ 972)%Z by (vm_compute; reflexivity).
  assert (0 <= 4 * 2 ^ 52 - 2)%Z by discriminate. nia.
Qed.

Lemma scaled_up_inv x e y : scaled x e y -> (0 <= e <= 308)%Z ->
  exists p, rounds_to (10 ^ e) p /\ rounds_to (f64_value x * f64_value p) y.
Proof. intros H. destruct H; intros He; try lia; eauto. Qed.
Lemma scaled_down_inv x e y : scaled x e y -> (-308 <= e < 0)%Z ->
  exists p, rounds_to (10 ^ (- e)) p /\ rounds_to (f64_value x / f64_value p) y.
Proof. intros H. destruct H; intros He; try lia; eauto. Qed.
Lemma scaled_far_inv x e y : scaled x e y -> (e < -308 \/ 308 < e)%Z ->
  (mantissa x = 0 /\ x = y)
  \/ (mantissa x <> 0 /\ (e < -308)%Z /\ exists p z, rounds_to (10 ^ 308) p
      /\ rounds_to (f64_value x / f64_value p) z /\ scaled z (e + 308) y).
Proof. intros H. destruct H; intros He; try lia; [now left|]. right. eauto 9. Qed.

Lemma pow10_unique e p p' : rounds_to (10 ^ e) p -> rounds_to (10 ^ e) p' -> p = p'.
Proof.
  intros H H'. destruct (rounds_unique _ _ _ H H') as [E|L]; [exact E|exfalso].
  pose proof (Qpower_0_lt 10 e ltac:(reflexivity)). lra.
Qed.

Lemma scale_near r x e y : (Z.abs e <= 308)%Z -> (scale r x e = Some y <-> scaled x e y).
Proof.
  intros E. assert (scale r x e = match f64_of (pow10 (Z.abs e)) with
    | Some p => if (0 <=? e)%Z then f64_mul x p else f64_div x p | None => None end) as ->.
  { destruct r; cbn [scale]; unfold opt_bind; apply Z.leb_le in E; now rewrite E. }
  destruct (finite_pow10 (Z.abs e) ltac:(lia)) as [p Hp]. rewrite Hp.
  pose proof (pow10_not_zero _ _ Hp) as Np. apply pow10_iff in Hp; [|lia].
  destruct (0 <=? e)%Z eqn:E0; [apply Z.leb_le in E0|apply Z.leb_gt in E0].
  - rewrite Z.abs_eq in Hp by lia. rewrite f64_mul_iff. split.
    + intros H. apply scaled_up with p; [lia|assumption|assumption].
    + intros H. apply scaled_up_inv in H; [|lia]. destruct H as (p' & Hp' & H).
      now rewrite (pow10_unique _ _ _ Hp Hp').
  - rewrite Z.abs_neq in Hp by lia. rewrite f64_div_iff by exact Np. split.
    + intros H. apply scaled_down with p; [lia|assumption|assumption].
    + intros H. apply scaled_down_inv in H; [|lia]. destruct H as (p' & Hp' & H).
      now rewrite (pow10_unique _ _ _ Hp Hp').
Qed.

Theorem scale_iff : forall r x e y, remains r x -> (scale r x e = Some y <-> scaled x e y).
Proof.
  induction r as [|r IH]; intros x e y R;
    (destruct (Z_le_gt_dec (Z.abs e) 308) as [E|E]; [now apply scale_near|]);
    cbn [scale]; unfold opt_bind; replace (Z.abs e <=? 308)%Z with false by lia.
  - cbn [remains] in R. rewrite R. cbn [N.eqb]. split.
    + intros [= <-]. apply scaled_zero; [lia|exact R].
    + intros H. apply scaled_far_inv in H; [|lia]. destruct H as [[_ <-]|[H _]]; [reflexivity|contradiction].
  - destruct (mantissa x =? 0) eqn:M; [apply N.eqb_eq in M|apply N.eqb_neq in M].
    { split; [intros [= <-]; apply scaled_zero; [lia|exact M]|].
      intros H. apply scaled_far_inv in H; [|lia]. destruct H as [[_ <-]|[H _]]; [reflexivity|contradiction]. }
    destruct (0 <=? e)%Z eqn:E0; [apply Z.leb_le in E0|apply Z.leb_gt in E0].
    { split; [discriminate|]. intros H. apply scaled_far_inv in H; [|lia].
      destruct H as [[H _]|(_ & H & _)]; [contradiction|lia]. }
    destruct (finite_pow10 308 ltac:(lia)) as [p Hp]. rewrite Hp. pose proof (pow10_not_zero _ _ Hp) as Np.
    apply pow10_iff in Hp; [|lia]. split.
    + destruct (f64_div x p) as [y0|] eqn:D; [|discriminate]. apply f64_div_iff in D; [|exact Np].
      intros H. apply scaled_far with p y0; try assumption; [lia|].
      apply IH; [|exact H]. exact (remains_div _ _ _ _ R M Hp D).
    + intros H. apply scaled_far_inv in H; [|lia].
      destruct H as [[H _]|(_ & _ & p' & z & Hp' & D & H)]; [contradiction|].
      rewrite <- (pow10_unique _ _ _ Hp Hp') in D. pose proof D as D'.
      apply f64_div_iff in D'; [|exact Np]. rewrite D'.
      apply IH; [|exact H]. exact (remains_div _ _ _ _ R M Hp D).
Qed.

(* ------------------------------------------------------------------ *)
(** * Reading *)

Lemma digits_value_fold s : forall n, digits_value n s = fold_left (fun acc b => acc * 10 + (code b - 48)) s n.
Proof. induction s as [|c s IH]; intros n; [reflexivity|]. cbn [digits_value fold_left]. apply IH. Qed.
Lemma digits_val_value s : digits_val s = digits_value 0 s.
Proof. symmetry. apply digits_value_fold. Qed.

Lemma grow_used : forall ds n n' r, n < 2 ^ 64 -> grow n ds = (n', r) -> digits_used n ds n' r.
Proof.
  induction ds as [|c ds IH]; intros n n' r Hn; cbn [grow].
  - intros [= <- <-]. exists []. repeat split; [exact Hn|discriminate].
  - cbv zeta. destruct (n * 10 + (code c - 48) <=? 18446744073709551615) eqn:E; [apply N.leb_le in E|apply N.leb_gt in E].
    + intros H. apply IH in H; [|change (2 ^ 64) with 18446744073709551616; lia].
      destruct H as (u & -> & -> & H). exists (c :: u). repeat split; apply H.
    + intros [= <- <-]. exists []. split; [reflexivity|]. split; [reflexivity|]. split; [exact Hn|].
      intros c' r' [= <- <-]. change (2 ^ 64) with 18446744073709551616. lia.
Qed.

Lemma digits_used_grow : forall ds n n' r, digits_used n ds n' r -> grow n ds = (n', r).
Proof.
  assert (Mono : forall u n, n <= digits_value n u).
  { induction u as [|c u IH]; intros n; cbn [digits_value]; [lia|]. specialize (IH (n * 10 + (code c - 48))). lia. }
  intros ds n n' r (u & -> & -> & H & Hr). revert n H Hr.
  induction u as [|c u IH]; intros n H Hr; cbn [app digits_value grow].
  - cbn [digits_value] in *. destruct r as [|c r]; [reflexivity|]. cbn [grow]. cbv zeta.
    specialize (Hr c r eq_refl). change (2 ^ 64) with 18446744073709551616 in Hr.
    destruct (n * 10 + (code c - 48) <=? 18446744073709551615) eqn:E; [apply N.leb_le in E; lia|reflexivity].
  - cbv zeta. cbn [digits_value] in *. pose proof (Mono u (n * 10 + (code c - 48))) as M.
    change (2 ^ 64) with 18446744073709551616 in H.
    destruct (n * 10 + (code c - 48) <=? 18446744073709551615) eqn:E; [|apply N.leb_gt in E; lia].
    apply IH; [exact H|exact Hr].
Qed.

Lemma exponent_value_iff ex e :
  (ex = [] \/ exists c sign d, ex = c :: sign ++ d /\ (c = "e"%char \/ c = "E"%char)
     /\ (sign = [] \/ sign = ["+"%char] \/ sign = ["-"%char]) /\ digits d) ->
  (exponent_value ex e <-> e = exp_value ex).
Proof.
  assert (Dg : forall c d, digit c -> exp_value (d :: c :: []) = exp_value (d :: c :: []) /\ c <> "-"%char /\ c <> "+"%char).
  { intros c d H. split; [reflexivity|]. unfold digit in H. split; intros ->; destruct H as [H _]; now apply H. }
  assert (V : forall x sg d, digits d -> (sg = [] \/ sg = ["+"%char] \/ sg = ["-"%char]) ->
    exp_value (x :: sg ++ d) = if list_eq_dec ascii_dec sg ["-"%char] then (- Z.of_N (digits_value 0 d))%Z
                               else Z.of_N (digits_value 0 d)).
  { intros x sg d [Hd Hf] Hs. destruct d as [|c d]; [contradiction|]. inversion Hf as [|? ? Hc _]; subst.
    destruct (Dg c x Hc) as (_ & N1 & N2). rewrite <- digits_val_value.
    destruct Hs as [->|[->| ->]]; cbn [app exp_value].
    - destruct (Ascii.eqb c "-"%char) eqn:E1; [apply Ascii.eqb_eq in E1; contradiction|].
      destruct (Ascii.eqb c "+"%char) eqn:E2; [apply Ascii.eqb_eq in E2; contradiction|]. reflexivity.
    - reflexivity.
    - reflexivity. }
  intros [->|(c & sg & d & -> & _ & Hs & Hd)].
  - split; [|intros ->; now left]. intros [[_ H]|(c & s & d & H & _)]; [exact H|discriminate].
  - split.
    + intros [[H _]|(c' & s' & d' & H & Hd' & Hv)]; [discriminate|].
      rewrite H. destruct Hv as [[-> ->]|[Hs' ->]].
      * rewrite (V c' ["-"%char] d' Hd'); [reflexivity|auto].
      * rewrite (V c' s' d' Hd'); [|tauto]. destruct Hs' as [->| ->]; reflexivity.
    + intros ->. right. exists c, sg, d. split; [reflexivity|]. split; [exact Hd|].
      rewrite (V c sg d Hd Hs). destruct Hs as [->|[->| ->]]; [right|right|left]; auto.
Qed.

Lemma remains_u64 n x : n < 2 ^ 64 -> rounds_to (Q_of_N n) x -> remains 3 x.
Proof.
  intros Hn H. cbn [remains].
  assert (B : (0 <= Q_of_N n)%Q) by (unfold Q_of_N, Qle; cbn; lia).
  apply rounds_upper in H; [|exact B]. eapply Qle_trans; [exact H|].
  assert (Q_of_N n <= 2 ^ 64)%Q.
  { change (2 ^ 64)%Q with (inject_Z (2 ^ 64)). unfold Q_of_N. rewrite <- Zle_Qle. lia. }
  change (2 ^ 65)%Q with (2 * 2 ^ 64)%Q. lra.
Qed.

Theorem read_f64_iff int fr ex x :
  (ex = [] \/ exists c sign d, ex = c :: sign ++ d /\ (c = "e"%char \/ c = "E"%char)
     /\ (sign = [] \/ sign = ["+"%char] \/ sign = ["-"%char]) /\ digits d) ->
  (read_f64 int fr ex = Some x <-> read_as int fr ex x).
Proof.
  intros Hex. unfold read_f64, read_as. destruct (grow 0 int) as [n1 r1] eqn:G1.
  destruct (grow n1 (tl fr)) as [n2 r2] eqn:G2. cbv zeta. unfold opt_bind.
  assert (U1 : digits_used 0 int n1 r1) by (now apply grow_used).
  assert (B1 : n1 < 2 ^ 64) by (destruct U1 as (? & ? & ? & ? & ?); assumption).
  assert (U2 : digits_used n1 (tl fr) n2 r2) by (now apply grow_used).
  assert (B2 : n2 < 2 ^ 64) by (destruct U2 as (? & ? & ? & ? & ?); assumption).
  split.
  - destruct (f64_of n2) as [x0|] eqn:F; [|discriminate]. apply f64_of_iff in F.
    intros H. exists n1, r1, n2, r2, (exp_value ex), x0.
    split; [exact U1|]. split; [exact U2|]. split; [now apply exponent_value_iff|]. split; [exact F|].
    apply (scale_iff 3) in H; [exact H|]. exact (remains_u64 _ _ B2 F).
  - intros (m1 & s1 & m2 & s2 & e & x0 & V1 & V2 & He & F & S).
    apply digits_used_grow in V1. rewrite G1 in V1. injection V1 as <- <-.
    apply digits_used_grow in V2. rewrite G2 in V2. injection V2 as <- <-.
    apply exponent_value_iff in He; [|exact Hex]. subst e.
    pose proof (remains_u64 _ _ B2 F) as R. apply f64_of_iff in F. rewrite F.
    apply scale_iff; assumption.
Qed.

Lemma scaled_finite x e y : finite_f64 x -> scaled x e y -> finite_f64 y.
Proof.
  intros F S. revert F. induction S as [x e p y _ _ R|x e p y _ _ R|x e _ _|x e p y z _ _ _ R S IH]; intros F.
  - apply R.
  - apply R.
  - exact F.
  - apply IH, R.
Qed.

Lemma read_finite int fr ex x : read_as int fr ex x -> finite_f64 x.
Proof.
  intros (n1 & r1 & n2 & r2 & e & x0 & _ & _ & _ & [F _] & S). exact (scaled_finite _ _ _ F S).
Qed.

(* ------------------------------------------------------------------ *)
(** * The shortest decimal *)

Lemma pow2_quarter e : pow2 e * pow2 (2 - e) = 4 * pow2 (- e) * pow2 (e - 2).
Proof.
  pose proof (pow2_shift (e - 2) 2 ltac:(lia)) as S. replace (e - 2 + 2)%Z with e in S by lia.
  replace (- (e - 2))%Z with (2 - e)%Z in S by lia. change (pow2 2) with 4 in S. lia.
Qed.

Lemma unit_compare x k z c :
  (z * Z.of_N (pow10 (- k) * pow2 (exponent x)) ?= 4 * Z.of_N (c * pow10 k * pow2 (- exponent x)))%Z
  = (z * Z.of_N (pow2 (exponent x - 2) * pow10 (- k)) ?= Z.of_N (c * unit_den x k))%Z.
Proof.
  unfold unit_den. set (e := exponent x). pose proof (pow2_quarter e) as Q.
  pose proof (pow2_pos (2 - e)) as P1. pose proof (pow2_pos (- e)) as P2.
  rewrite (Zmult_compare_compat_l (z * _)%Z _ (Z.of_N (pow2 (2 - e)))) by lia.
  rewrite (Zmult_compare_compat_l (z * Z.of_N (pow2 (e - 2) * _))%Z _ (Z.of_N (4 * pow2 (- e)))) by lia.
  f_equal.
  - transitivity (z * Z.of_N (pow10 (- k)) * Z.of_N (pow2 e * pow2 (2 - e)))%Z; [lia|]. rewrite Q. lia.
  - lia.
Qed.

Lemma decimal_value_fraction c k : decimal_value c k == Q_of_N (c * pow10 k) / Q_of_N (pow10 (- k)).
Proof.
  unfold decimal_value. rewrite Qpow10, Q_of_N_mul. field.
  pose proof (Q_of_N_pos _ (pow10_pos (- k))). lra.
Qed.

Lemma quarter_low_Z x : finite_f64 x -> mantissa x <> 0 -> Z.of_N (quarter_low x) = lowZ x.
Proof.
  intros F H. unfold quarter_low, lowZ. change (pow2 52) with (2 ^ 52). unfold min_exponent.
  assert ((-1074 <? exponent x)%Z = negb (exponent x =? -1074)%Z) as ->.
  { destruct F as [[_ F]|[_ F]]; lia. }
  destruct (_ && _); lia.
Qed.
Lemma quarter_high_Z x : Z.of_N (quarter_high x) = highZ x.
Proof. unfold quarter_high, highZ. lia. Qed.

Lemma unit_num_Z x k q : Z.of_N (unit_num x k q) = (Z.of_N q * Z.of_N (pow2 (exponent x - 2) * pow10 (- k)))%Z.
Proof. unfold unit_num. lia. Qed.

Lemma unit_den_pos x k : 0 < unit_den x k.
Proof. unfold unit_den. apply N.mul_pos_pos; [apply pow2_pos|apply pow10_pos]. Qed.

(** The multiples of [10 ^ k] in the interval. *)
Lemma in_interval x k c : finite_f64 x -> mantissa x <> 0 ->
  (rounds_to (decimal_value c k) x <-> first_in x k <= c /\ c <= last_in x k).
Proof.
  intros F H. rewrite decimal_value_fraction, rounds_iff by apply pow10_pos.
  unfold inside. cbv zeta.
  pose proof (unit_compare x k (lowZ x) c) as L. pose proof (unit_compare x k (highZ x) c) as U.
  rewrite <- quarter_low_Z, <- unit_num_Z in L by assumption.
  rewrite <- quarter_high_Z, <- unit_num_Z in U.
  rewrite <- (quarter_low_Z x F H), <- (quarter_high_Z x).
  set (a := (4 * Z.of_N (c * pow10 k * pow2 (- exponent x)))%Z) in *.
  set (bl := (Z.of_N (quarter_low x) * Z.of_N (pow10 (- k) * pow2 (exponent x)))%Z) in *.
  set (bh := (Z.of_N (quarter_high x) * Z.of_N (pow10 (- k) * pow2 (exponent x)))%Z) in *.
  unfold first_in, last_in. cbv zeta. pose proof (unit_den_pos x k) as D.
  assert (NH : 0 < unit_num x k (quarter_high x)).
  { unfold unit_num, quarter_high. repeat apply N.mul_pos_pos; [lia|apply pow2_pos|apply pow10_pos]. }
  set (nl := unit_num x k (quarter_low x)) in *. set (nh := unit_num x k (quarter_high x)) in *.
  set (d := unit_den x k) in *. set (ev := N.even (mantissa x)) in *. clearbody a bl bh nl nh d ev.
  assert (L1 : (bl < a)%Z <-> nl < c * d).
  { rewrite <- Z.compare_lt_iff, L, Z.compare_lt_iff. lia. }
  assert (L2 : (bl = a)%Z <-> nl = c * d).
  { rewrite <- Z.compare_eq_iff, L, Z.compare_eq_iff. lia. }
  assert (U1 : (a < bh)%Z <-> c * d < nh).
  { rewrite <- Z.compare_gt_iff, U, Z.compare_gt_iff. lia. }
  assert (U2 : (a = bh)%Z <-> c * d = nh).
  { split; intros E; symmetry in E; [|symmetry]; revert E; rewrite <- Z.compare_eq_iff, U, Z.compare_eq_iff; lia. }
  rewrite L1, L2, U1, U2.
  pose proof (N.div_mod' nl d) as El. pose proof (N.mod_lt nl d ltac:(lia)) as Ml.
  pose proof (N.div_mod' nh d) as Eh. pose proof (N.mod_lt nh d ltac:(lia)) as Mh.
  set (ql := nl / d) in *. set (rl := nl mod d) in *. set (qh := nh / d) in *. set (rh := nh mod d) in *.
  clearbody ql rl qh rh.
  assert (A : (nl < c * d \/ nl = c * d /\ ev = true) <->
              (if ev && (rl =? 0) then ql else ql + 1) <= c).
  { destruct ev; cbn [andb].
    - destruct (rl =? 0) eqn:R; [apply N.eqb_eq in R|apply N.eqb_neq in R]; split; intros X.
      + nia.
      + destruct (N.eq_dec ql c); [right; split; [nia|reflexivity]|left; nia].
      + nia.
      + left. nia.
    - split; [intros [X|[_ X]]; [nia|discriminate]|intros X; left; nia]. }
  assert (B : (c * d < nh \/ c * d = nh /\ ev = true) <->
              c <= (if negb ev && (rh =? 0) then qh - 1 else qh)).
  { destruct ev; cbn [andb negb].
    - split; [intros [X|[X _]]; nia|]. intros X.
      destruct (N.eq_dec (c * d) nh); [right; split; [assumption|reflexivity]|left; nia].
    - destruct (rh =? 0) eqn:R; [apply N.eqb_eq in R|apply N.eqb_neq in R]; split; intros X.
      + destruct X as [X|[_ X]]; [nia|discriminate].
      + left. assert (0 < qh) by nia. nia.
      + destruct X as [X|[_ X]]; [nia|discriminate].
      + left. nia. }
  rewrite A, B. tauto.
Qed.

Lemma rounds_self x : finite_f64 x -> rounds_to (f64_value x) x.
Proof.
  intros F. split; [exact F|].
  exists (inject_Z (lowZ x) * (1 # 4) * 2 ^ exponent x)%Q, (inject_Z (highZ x) * (1 # 4) * 2 ^ exponent x)%Q.
  split; [now apply half_below_iff|]. split; [now apply half_above_iff|].
  pose proof (Qpow2_pos (exponent x)) as P. unfold f64_value, Q_of_N.
  assert (L : (lowZ x < 4 * Z.of_N (mantissa x))%Z) by (unfold lowZ; destruct (_ && _); lia).
  assert (H : (4 * Z.of_N (mantissa x) < highZ x)%Z) by (unfold highZ; lia).
  rewrite Zlt_Qlt, inject_Z_mult in L. rewrite Zlt_Qlt, inject_Z_mult in H. change (inject_Z 4) with 4%Q in *.
  set (m := inject_Z (Z.of_N (mantissa x))) in *. set (l := inject_Z (lowZ x)) in *.
  set (h := inject_Z (highZ x)) in *. set (p := (2 ^ exponent x)%Q) in *. clearbody m l h p.
  split; left; (apply (Qmult_lt_r _ _ p) in L, H; try exact P); lra.
Qed.

(** [x] itself is a multiple of [10 ^ min e 0]. *)
Lemma exact_multiple x : exists c, f64_value x == decimal_value c (Z.min (exponent x) 0).
Proof.
  destruct (Z_le_gt_dec 0 (exponent x)) as [H|H].
  - exists (mantissa x * pow2 (exponent x)). rewrite Z.min_r by lia. unfold f64_value, decimal_value.
    rewrite Q_of_N_mul, Qpow2, (pow2_neg (- exponent x)) by lia.
    change (10 ^ 0)%Q with 1%Q. change (Q_of_N 1) with 1%Q. field.
  - exists (mantissa x * (5 ^ Z.to_N (- exponent x))). rewrite Z.min_l by lia. unfold f64_value, decimal_value.
    rewrite Q_of_N_mul, Qpow2, Qpow10, (pow2_neg (exponent x)), (pow10_neg (exponent x)) by lia.
    assert (E : pow10 (- exponent x) = pow2 (- exponent x) * 5 ^ Z.to_N (- exponent x)).
    { unfold pow10, pow2. rewrite <- N.pow_mul_l. reflexivity. }
    rewrite E, Q_of_N_mul. change (Q_of_N 1) with 1%Q. field.
    assert (0 < 5 ^ Z.to_N (- exponent x)) as P by (apply N.neq_0_lt_0, N.pow_nonzero; discriminate).
    apply Q_of_N_pos in P. pose proof (Q_of_N_pos _ (pow2_pos (- exponent x))). split; lra.
Qed.

Lemma Qinv_le_anti a b : (0 < a)%Q -> (a <= b)%Q -> (/ b <= / a)%Q.
Proof.
  intros A H. destruct (Qle_lt_or_eq _ _ H) as [L|E].
  - apply Qlt_le_weak. apply (Qinv_lt_contravar a b); [exact A|lra|exact L].
  - rewrite E. apply Qle_refl.
Qed.

Lemma Qpow10_pos k : (0 < 10 ^ k)%Q.
Proof.
  rewrite Qpow10. apply Qlt_shift_div_l; [apply Q_of_N_pos, pow10_pos|]. rewrite Qmult_0_l.
  apply Q_of_N_pos, pow10_pos.
Qed.

Lemma above_spec x : mantissa x <> 0 ->
  (inject_Z (highZ x) * (1 # 4) * 2 ^ exponent x < 10 ^ above x)%Q
  /\ (Z.min (exponent x) 0 <= above x)%Z.
Proof.
  intros Hm. unfold above. cbv zeta.
  destruct (N.log2_spec (mantissa x) ltac:(lia)) as [_ M]. set (l := N.log2 (mantissa x)) in *.
  set (b := (Z.of_N l + exponent x + 2)%Z).
  assert (H1 : (inject_Z (highZ x) * (1 # 4) * 2 ^ exponent x < 2 ^ b)%Q).
  { assert (E : 2 ^ b == inject_Z (2 ^ (Z.of_N l + 1)) * 2 * 2 ^ exponent x).
    { unfold b. replace (Z.of_N l + exponent x + 2)%Z with ((Z.of_N l + 1) + (1 + exponent x))%Z by lia.
      rewrite !Qpower_plus by discriminate. rewrite (Zpower_Qpower 2 (Z.of_N l + 1)) by lia.
      rewrite Qpower_plus by discriminate. change (inject_Z 2) with 2%Q. change (2 ^ 1)%Q with 2%Q. ring. }
    assert (X : (highZ x < 8 * 2 ^ (Z.of_N l + 1))%Z).
    { unfold highZ. assert (Z.of_N (mantissa x) < 2 ^ (Z.of_N l + 1))%Z.
      { rewrite <- N.add_1_r in M. apply N2Z.inj_lt in M. rewrite N2Z.inj_pow, N2Z.inj_add in M. exact M. }
      assert (1 <= Z.of_N (mantissa x))%Z by lia. lia. }
    rewrite Zlt_Qlt, inject_Z_mult in X. change (inject_Z 8) with 8%Q in X. rewrite E.
    pose proof (Qpow2_pos (exponent x)) as P. set (p := (2 ^ exponent x)%Q) in *.
    set (h := inject_Z (highZ x)) in *. set (t := inject_Z (2 ^ (Z.of_N l + 1))) in *. clearbody p h t.
    apply (Qmult_lt_r _ _ p) in X; [|exact P]. lra. }
  destruct (0 <=? b)%Z eqn:B; [apply Z.leb_le in B|apply Z.leb_gt in B].
  - split; [|assert (0 <= b / 3)%Z by (apply Z.div_pos; lia); lia]. eapply Qlt_le_trans; [exact H1|].
    assert (E : (2 ^ b <= 10 ^ (b / 3 + 1))%Z).
    { pose proof (Z.div_mod b 3 ltac:(lia)). pose proof (Z.mod_pos_bound b 3 ltac:(lia)).
      assert (0 <= b / 3)%Z by (apply Z.div_pos; lia).
      apply (Z.le_trans _ (2 ^ (3 * (b / 3 + 1)))); [apply Z.pow_le_mono_r; lia|].
      rewrite Z.pow_mul_r by lia. apply Z.pow_le_mono_l. lia. }
    rewrite Zle_Qle, !Zpower_Qpower in E by (try lia; assert (0 <= b / 3)%Z by (apply Z.div_pos; lia); lia).
    exact E.
  - assert (0 <= - b / 4)%Z by (apply Z.div_pos; lia).
    pose proof (Z.div_mod (- b) 4 ltac:(lia)). pose proof (Z.mod_pos_bound (- b) 4 ltac:(lia)).
    split; [|lia]. eapply Qlt_le_trans; [exact H1|].
    assert (E : (10 ^ (- b / 4) <= 2 ^ (- b))%Z).
    { apply (Z.le_trans _ (2 ^ (4 * (- b / 4)))); [|apply Z.pow_le_mono_r; lia].
      rewrite Z.pow_mul_r by lia. apply Z.pow_le_mono_l. lia. }
    rewrite Zle_Qle, !Zpower_Qpower in E by lia. change (inject_Z 10) with 10%Q in E. change (inject_Z 2) with 2%Q in E.
    rewrite Qpower_opp. replace b with (- (- b))%Z at 1 by lia. rewrite Qpower_opp.
    apply Qinv_le_anti; [apply Qpow10_pos|exact E].
Qed.

Lemma coarsest_spec x : finite_f64 x -> mantissa x <> 0 ->
  forall fuel k, first_in x (k - Z.of_nat fuel) <= last_in x (k - Z.of_nat fuel) ->
  first_in x (coarsest fuel x k) <= last_in x (coarsest fuel x k)
  /\ forall k', (coarsest fuel x k < k' <= k)%Z -> last_in x k' < first_in x k'.
Proof.
  intros F Hm. induction fuel as [|f IH]; intros k H; cbn [coarsest].
  - replace (k - Z.of_nat 0)%Z with k in H by lia. split; [exact H|lia].
  - destruct (first_in x k <=? last_in x k) eqn:E.
    + apply N.leb_le in E. split; [exact E|lia].
    + apply N.leb_gt in E. destruct (IH (k - 1)%Z) as [A B].
      { replace (k - 1 - Z.of_nat f)%Z with (k - Z.of_nat (S f))%Z by lia. exact H. }
      split; [exact A|]. intros k' K. destruct (Z.eq_dec k' k) as [->|N]; [exact E|]. apply B. lia.
Qed.

(** A rounded value is not too far from the number it is rounded to. *)
Lemma rounds_high_le q x : rounds_to q x -> (q <= inject_Z (highZ x) * (1 # 4) * 2 ^ exponent x)%Q.
Proof.
  intros [F (a & b & _ & B & _ & U)]. apply half_above_iff in B. rewrite B in U.
  destruct U as [U|[U _]]; lra.
Qed.

Lemma zero_rounds c x : rounds_to (Q_of_N 0 * c) x -> mantissa x = 0.
Proof.
  intros H. set (z := {| mantissa := 0; exponent := (-1074)%Z |}).
  assert (R : rounds_to (Q_of_N 0 * c) z).
  { assert (E : f64_value z == Q_of_N 0 * c).
    { unfold f64_value. cbn [z mantissa]. change (Q_of_N 0) with 0%Q. ring. }
    rewrite <- E. apply rounds_self. right. split; reflexivity. }
  destruct (rounds_unique _ _ _ H R) as [->|L]; [reflexivity|].
  change (Q_of_N 0) with 0%Q in L. rewrite Qmult_0_l in L. now apply Qlt_irrefl in L.
Qed.

Lemma none_above x c k : mantissa x <> 0 -> rounds_to (decimal_value c k) x -> (k < above x)%Z.
Proof.
  intros Hm R. destruct (Z_lt_ge_dec k (above x)) as [L|G]; [exact L|exfalso].
  destruct (N.eq_dec c 0) as [->|C]; [apply Hm, (zero_rounds (10 ^ k)), R|].
  pose proof (rounds_high_le _ _ R) as U. destruct (above_spec x Hm) as [A _].
  assert (P : (10 ^ above x <= decimal_value c k)%Q).
  { unfold decimal_value. replace k with (above x + (k - above x))%Z by lia. rewrite Qpower_plus by discriminate.
    assert (1 <= 10 ^ (k - above x))%Q as E.
    { change 1%Q with (inject_Z 1). change 10%Q with (inject_Z 10). rewrite <- Zpower_Qpower by lia.
      rewrite <- Zle_Qle. pose proof (Z.pow_pos_nonneg 10 (k - above x)). lia. }
    assert (1 <= Q_of_N c)%Q as E'.
    { change 1%Q with (inject_Z 1). unfold Q_of_N. rewrite <- Zle_Qle. lia. }
    pose proof (Qpow10_pos (above x)) as P. set (p := (10 ^ above x)%Q) in *.
    set (u := (10 ^ (k - above x))%Q) in *. set (v := Q_of_N c) in *. clearbody p u v.
    apply (Qmult_le_compat_r _ _ p) in E; [|lra].
    apply (Qmult_le_compat_r _ _ (u * p)) in E'; [|lra].
    assert (v * (p * u) == v * (u * p)) as -> by ring. lra. }
  lra.
Qed.

Lemma shortest_level x : finite_f64 x -> mantissa x <> 0 ->
  let k := snd (shortest x) in
  first_in x k <= last_in x k /\ forall c k', rounds_to (decimal_value c k') x -> (k' <= k)%Z.
Proof.
  intros F Hm. cbn [shortest snd]. destruct (above_spec x Hm) as [_ A].
  destruct (coarsest_spec x F Hm (Z.to_nat (above x - Z.min (exponent x) 0)) (above x)) as [B C].
  { rewrite Z2Nat.id by lia. replace (above x - (above x - Z.min (exponent x) 0))%Z with (Z.min (exponent x) 0) by lia.
    destruct (exact_multiple x) as [c E]. pose proof (rounds_self x F) as R. rewrite E in R.
    apply in_interval in R; [lia|assumption..]. }
  split; [exact B|]. intros c k' R. pose proof (none_above x c k' Hm R) as L.
  destruct (Z_le_gt_dec k' (coarsest (Z.to_nat (above x - Z.min (exponent x) 0)) x (above x))) as [Y|Y]; [exact Y|].
  specialize (C k' ltac:(lia)). apply in_interval in R; [lia|assumption..].
Qed.

(** Distances in units of [10 ^ k / unit_den]. *)
Lemma distance x k c :
  Qabs (decimal_value c k - f64_value x)
  == inject_Z (Z.abs (Z.of_N (c * unit_den x k) - Z.of_N (unit_num x k (4 * mantissa x))))
     * (10 ^ k / Q_of_N (unit_den x k)).
Proof.
  pose proof (unit_den_pos x k) as D. apply Q_of_N_pos in D.
  assert (P : (0 < 10 ^ k / Q_of_N (unit_den x k))%Q).
  { apply Qlt_shift_div_l; [exact D|]. rewrite Qmult_0_l. apply Qpow10_pos. }
  assert (E : decimal_value c k - f64_value x
              == inject_Z (Z.of_N (c * unit_den x k) - Z.of_N (unit_num x k (4 * mantissa x)))
                 * (10 ^ k / Q_of_N (unit_den x k))).
  { unfold Zminus. rewrite inject_Z_plus, inject_Z_opp. fold (Q_of_N (c * unit_den x k)).
    fold (Q_of_N (unit_num x k (4 * mantissa x))).
    assert (X : Q_of_N (unit_num x k (4 * mantissa x)) * 10 ^ k == f64_value x * Q_of_N (unit_den x k)).
    { unfold unit_num, unit_den, f64_value. rewrite !Q_of_N_mul, Qpow10, Qpow2.
      assert (Q : Q_of_N (pow2 (exponent x) * pow2 (2 - exponent x))
                  == Q_of_N (4 * pow2 (- exponent x) * pow2 (exponent x - 2))).
      { rewrite pow2_quarter. reflexivity. }
      rewrite !Q_of_N_mul in Q.
      pose proof (Q_of_N_pos _ (pow10_pos (- k))) as P1. pose proof (Q_of_N_pos _ (pow2_pos (- exponent x))) as P2.
      set (a := Q_of_N (pow10 (- k))) in *. set (b := Q_of_N (pow2 (- exponent x))) in *.
      set (e := Q_of_N (pow10 k)). set (f := Q_of_N (pow2 (exponent x))) in *.
      set (g := Q_of_N (pow2 (exponent x - 2))) in *. set (h := Q_of_N (pow2 (2 - exponent x))) in *.
      set (m := Q_of_N (mantissa x)). change (Q_of_N 4) with 4%Q in *. clearbody a b e f g h m.
      transitivity (4 * m * g * e)%Q; [field; lra|].
      transitivity (m * e * (f * h) / b)%Q; [rewrite Q; field; lra|field; lra]. }
    unfold decimal_value. rewrite Q_of_N_mul.
    set (dn := Q_of_N (unit_den x k)) in *. set (nm := Q_of_N (unit_num x k (4 * mantissa x))) in *.
    set (t := (10 ^ k)%Q) in *. set (v := f64_value x) in *. clearbody dn nm t v.
    transitivity ((Q_of_N c * dn * t - nm * t) / dn)%Q; [|field; lra]. rewrite X. field. lra. }
  rewrite E, Qabs_Qmult. rewrite (Qabs_pos (10 ^ k / _)) by lra. apply Qmult_comp; [|reflexivity].
  reflexivity.
Qed.

Lemma distance_lt x k c c' :
  (Qabs (decimal_value c k - f64_value x) < Qabs (decimal_value c' k - f64_value x))%Q <->
  (Z.abs (Z.of_N (c * unit_den x k) - Z.of_N (unit_num x k (4 * mantissa x)))
   < Z.abs (Z.of_N (c' * unit_den x k) - Z.of_N (unit_num x k (4 * mantissa x))))%Z.
Proof.
  rewrite !distance. rewrite Zlt_Qlt. apply Qmult_lt_r. apply Qlt_shift_div_l; [apply Q_of_N_pos, unit_den_pos|].
  rewrite Qmult_0_l. apply Qpow10_pos.
Qed.
Lemma distance_eq x k c c' :
  (Qabs (decimal_value c k - f64_value x) == Qabs (decimal_value c' k - f64_value x))%Q <->
  (Z.abs (Z.of_N (c * unit_den x k) - Z.of_N (unit_num x k (4 * mantissa x)))
   = Z.abs (Z.of_N (c' * unit_den x k) - Z.of_N (unit_num x k (4 * mantissa x))))%Z.
Proof.
  rewrite !distance. rewrite Qmult_inj_r; [apply inject_Z_injective|].
  assert (0 < 10 ^ k / Q_of_N (unit_den x k))%Q; [|lra].
  apply Qlt_shift_div_l; [apply Q_of_N_pos, unit_den_pos|]. rewrite Qmult_0_l. apply Qpow10_pos.
Qed.

Lemma shortest_spec x : finite_f64 x -> mantissa x <> 0 ->
  shortest_decimal x (fst (shortest x)) (snd (shortest x)).
Proof.
  intros F Hm. destruct (shortest_level x F Hm) as [L M]. revert L M.
  unfold shortest. cbv zeta. cbn [fst snd].
  set (k := coarsest _ x (above x)). clearbody k. intros L M.
  set (near := div_even (unit_num x k (4 * mantissa x)) (unit_den x k)).
  assert (R : rounds_to (decimal_value (N.max (first_in x k) (N.min (last_in x k) near)) k) x).
  { apply in_interval; [assumption..|]. lia. }
  split; [exact R|]. split; [exact M|]. intros c H. apply in_interval in H; [|assumption..].
  rewrite distance_lt, distance_eq. pose proof (div_even_spec (unit_num x k (4 * mantissa x)) (unit_den x k)
    (unit_den_pos x k)) as S. fold near in S. pose proof (unit_den_pos x k) as D.
  set (d := unit_den x k) in *. set (n := unit_num x k (4 * mantissa x)) in *.
  set (a := first_in x k) in *. set (b := last_in x k) in *. clearbody d n a b near.
  destruct S as [S1 S2]. destruct H as [H1 H2].
  assert (S1' : ((2 * Z.of_N near - 1) * Z.of_N d <= 2 * Z.of_N n)%Z) by lia.
  assert (S2' : (2 * Z.of_N n <= (2 * Z.of_N near + 1) * Z.of_N d)%Z) by lia.
  rewrite !N2Z.inj_mul. destruct (N.lt_ge_cases near a) as [A|A].
  - replace (N.max a (N.min b near)) with a by lia.
    destruct (N.eq_dec c a) as [->|C]; [right; split; [reflexivity|now left]|left].
    assert (X : ((Z.of_N near + 1) * Z.of_N d <= Z.of_N a * Z.of_N d)%Z) by (apply Z.mul_le_mono_nonneg_r; lia).
    assert (Y : ((Z.of_N a + 1) * Z.of_N d <= Z.of_N c * Z.of_N d)%Z) by (apply Z.mul_le_mono_nonneg_r; lia).
    lia.
  - destruct (N.le_gt_cases near b) as [B|B].
    + replace (N.max a (N.min b near)) with near by lia.
      destruct (N.eq_dec c near) as [->|C]; [right; split; [reflexivity|now left]|].
      destruct (N.lt_ge_cases c near) as [G|G].
      * assert (X : ((Z.of_N c + 1) * Z.of_N d <= Z.of_N near * Z.of_N d)%Z) by (apply Z.mul_le_mono_nonneg_r; lia).
        destruct S1 as [S1|[S1 E]]; [left; lia|].
        destruct (Z.lt_ge_cases (Z.abs (Z.of_N near * Z.of_N d - Z.of_N n)) (Z.abs (Z.of_N c * Z.of_N d - Z.of_N n)));
          [now left|right; split; [lia|now right]].
      * assert (X : ((Z.of_N near + 1) * Z.of_N d <= Z.of_N c * Z.of_N d)%Z) by (apply Z.mul_le_mono_nonneg_r; lia).
        destruct S2 as [S2|[S2 E]]; [left; lia|].
        destruct (Z.lt_ge_cases (Z.abs (Z.of_N near * Z.of_N d - Z.of_N n)) (Z.abs (Z.of_N c * Z.of_N d - Z.of_N n)));
          [now left|right; split; [lia|now right]].
    + replace (N.max a (N.min b near)) with b by lia.
      destruct (N.eq_dec c b) as [->|C]; [right; split; [reflexivity|now left]|left].
      assert (X : ((Z.of_N b + 1) * Z.of_N d <= Z.of_N near * Z.of_N d)%Z) by (apply Z.mul_le_mono_nonneg_r; lia).
      assert (Y : ((Z.of_N c + 1) * Z.of_N d <= Z.of_N b * Z.of_N d)%Z) by (apply Z.mul_le_mono_nonneg_r; lia).
      lia.
Qed.

Lemma shortest_decimal_unique x c k c' k' : finite_f64 x -> mantissa x <> 0 ->
  shortest_decimal x c k -> shortest_decimal x c' k' -> c = c' /\ k = k'.
Proof.
  intros F Hm (A1 & A2 & A3) (B1 & B2 & B3).
  assert (k = k') as <- by (pose proof (A2 _ _ B1); pose proof (B2 _ _ A1); lia).
  split; [|reflexivity]. apply in_interval in A1, B1; try assumption.
  assert (W : forall u v, u < v -> first_in x k <= u -> v <= last_in x k ->
    (forall d', rounds_to (decimal_value d' k) x ->
        (Qabs (decimal_value u k - f64_value x) < Qabs (decimal_value d' k - f64_value x))%Q
        \/ (Qabs (decimal_value u k - f64_value x) == Qabs (decimal_value d' k - f64_value x)
            /\ (u = d' \/ N.even u = true))) ->
    (forall d', rounds_to (decimal_value d' k) x ->
        (Qabs (decimal_value v k - f64_value x) < Qabs (decimal_value d' k - f64_value x))%Q
        \/ (Qabs (decimal_value v k - f64_value x) == Qabs (decimal_value d' k - f64_value x)
            /\ (v = d' \/ N.even v = true))) -> False).
  { clear A1 A2 A3 B1 B2 B3. intros u v L U V A B.
    pose proof (A v ltac:(apply in_interval; [assumption..|lia])) as Av.
    pose proof (B u ltac:(apply in_interval; [assumption..|lia])) as Bu.
    pose proof (A (u + 1) ltac:(apply in_interval; [assumption..|lia])) as A1.
    rewrite distance_lt, distance_eq in Av, Bu, A1. pose proof (unit_den_pos x k) as D.
    set (d := unit_den x k) in *. set (n := unit_num x k (4 * mantissa x)) in *. clearbody d n.
    rewrite !N2Z.inj_mul in *. clear A B.
    assert (X : ((Z.of_N u + 1) * Z.of_N d <= Z.of_N v * Z.of_N d)%Z) by (apply Z.mul_le_mono_nonneg_r; lia).
    destruct Av as [Av|[Av Eu]]; [lia|]. destruct Bu as [Bu|[_ Ev]]; [lia|].
    destruct Eu as [Eu|Eu]; [lia|]. destruct Ev as [Ev|Ev]; [lia|].
    assert (u + 1 <> v). { intros E. subst v. rewrite N.add_1_r, N.even_succ, <- N.negb_even, Eu in Ev. discriminate. }
    assert (Y : ((Z.of_N u + 2) * Z.of_N d <= Z.of_N v * Z.of_N d)%Z) by (apply Z.mul_le_mono_nonneg_r; lia).
    rewrite N2Z.inj_add in A1. lia. }
  destruct (N.lt_trichotomy c c') as [L|[E|L]]; [|exact E|]; exfalso; eapply W; eauto; lia.
Qed.

Lemma shortest_iff x c k : finite_f64 x -> mantissa x <> 0 ->
  (shortest x = (c, k) <-> shortest_decimal x c k).
Proof.
  intros F Hm. pose proof (shortest_spec x F Hm) as S. split.
  - intros E. rewrite E in S. exact S.
  - intros H. destruct (shortest_decimal_unique x _ _ _ _ F Hm S H) as [A B].
    destruct (shortest x). cbn in *. congruence.
Qed.
