(** How exact numbers are after they have been read and written. *)
From Coq Require Import QArith Qabs Qpower Lia Lqa ZifyBool ZifyN ZifyNat.
From Verif Require Import Model.Prelude Model.Float SpecNumber Proofs.StrFacts Proofs.FloatFacts Proofs.FloatText.
Open Scope N_scope.

(* ---------------- rounding ---------------- *)

Lemma Q_fraction q : (0 <= q)%Q -> exists n d, 0 < d /\ q == Q_of_N n / Q_of_N d.
Proof.
  intros H. exists (Z.to_N (Qnum q)), (Npos (Qden q)). split; [reflexivity|]. unfold Q_of_N.
  unfold Qle in H. cbn in H. rewrite Z2N.id by lia.
  destruct q as [a b]. cbn [Qnum Qden]. apply Qmake_Qdiv.
Qed.

Lemma rounds_same q x y : (0 <= q)%Q -> rounds_to q x -> rounds_to q y -> x = y.
Proof. intros H A B. destruct (rounds_unique q x y A B) as [E|L]; [exact E|]. lra. Qed.

(** The unit roundoff, and a little more. *)
Definition u : Q := 1 # 9007199254740992.
Definition v : Q := 12 # 100000000000000000.

Lemma normal_range q x : rounds_to q x -> (2 ^ (-1022) <= q)%Q -> 2 ^ 52 <= mantissa x.
Proof.
  intros R H. destruct (N.le_gt_cases (2 ^ 52) (mantissa x)) as [L|L]; [exact L|exfalso].
  pose proof (rounds_high _ _ R) as U. destruct R as [[[F _]|[_ F]] _]; [lia|]. rewrite F in U.
  assert (highZ x <= 4 * 2 ^ 52 - 2)%Z as B by (unfold highZ; lia). rewrite Zle_Qle in B.
  assert (2 ^ (-1022) == 4503599627370496 * 2 ^ (-1074))%Q as E by (vm_compute; reflexivity). rewrite E in H.
  pose proof (Qpow2_pos (-1074)) as P. set (p := (2 ^ (-1074))%Q) in *. clearbody p.
  change (inject_Z (4 * 2 ^ 52 - 2)) with 18014398509481982%Q in B.
  apply (Qmult_le_compat_r _ _ p) in B; [|lra]. lra.
Qed.

Lemma rounds_error q x : rounds_to q x -> 2 ^ 52 <= mantissa x ->
  ((1 - u) * f64_value x <= q <= (1 + u) * f64_value x)%Q.
Proof.
  intros R M. pose proof (rounds_low _ _ R) as L. pose proof (rounds_high _ _ R) as H.
  assert (A : (4 * Z.of_N (mantissa x) - 2 <= lowZ x)%Z) by (unfold lowZ; destruct (_ && _); lia).
  assert (B : (highZ x <= 4 * Z.of_N (mantissa x) + 2)%Z) by (unfold highZ; lia).
  assert (C : (4503599627370496 <= Z.of_N (mantissa x))%Z) by (change 4503599627370496%Z with (Z.of_N (2 ^ 52)); lia).
  unfold f64_value, Q_of_N. rewrite Zle_Qle in A, B, C.
  unfold Zminus in A. rewrite inject_Z_plus, inject_Z_mult in A, B.
  set (m := inject_Z (Z.of_N (mantissa x))) in *. set (l := inject_Z (lowZ x)) in *.
  set (h := inject_Z (highZ x)) in *. pose proof (Qpow2_pos (exponent x)) as P.
  set (p := (2 ^ exponent x)%Q) in *. clearbody m l h p.
  change (inject_Z 4503599627370496) with 4503599627370496%Q in C. change (inject_Z 4) with 4%Q in *.
  change (inject_Z (- (2))) with (-2)%Q in A. change (inject_Z 2) with 2%Q in B.
  apply (Qmult_le_compat_r _ _ p) in A, B, C; try lra. unfold u. split; lra.
Qed.

(** Overflow. *)
Lemma rounds_exists q : (0 <= q)%Q -> (q <= 17 * 10 ^ 307)%Q -> exists x, rounds_to q x.
Proof.
  intros H0 H. destruct (Q_fraction q H0) as (n & d & Hd & E).
  destruct (nearest n d) as [x|] eqn:N.
  - exists x. apply nearest_iff in N; [|exact Hd]. now rewrite E.
  - exfalso. assert (0 < n) as Hn by (destruct n; [discriminate|lia]).
    rewrite nearest_rounded in N by exact Hn. destruct (rounded_spec n d Hn Hd) as [W (L & _)].
    set (x := rounded n d) in *. clearbody x. destruct (exponent x <=? 971)%Z eqn:X; [discriminate|].
    apply Z.leb_gt in X.
    assert (Hm : 2 ^ 52 <= mantissa x) by (destruct W; lia).
    pose proof (quarter_compare (lowZ x) (exponent x) n d Hd) as C. rewrite <- E in C.
    assert (Q : (inject_Z (lowZ x) * (1 # 4) * 2 ^ exponent x <= q)%Q).
    { destruct L as [L|[L _]].
      - apply Qlt_le_weak. rewrite Qlt_alt, C. exact L.
      - apply Qle_lteq. right. rewrite Qeq_alt, C. now rewrite L, Z.compare_refl. }
    assert (A : (18014398509481982 <= lowZ x)%Z).
    { unfold lowZ. change 18014398509481982%Z with (4 * Z.of_N (2 ^ 52) - 2)%Z. destruct (_ && _); lia. }
    rewrite Zle_Qle in A. change (inject_Z 18014398509481982) with 18014398509481982%Q in A.
    assert (P : (2 ^ 972 <= 2 ^ exponent x)%Q).
    { replace (exponent x) with (972 + (exponent x - 972))%Z by lia. rewrite Qpower_plus by discriminate.
      assert (1 <= 2 ^ (exponent x - 972))%Q as Y.
      { change 1%Q with (inject_Z 1). change 2%Q with (inject_Z 2). rewrite <- Zpower_Qpower by lia.
        rewrite <- Zle_Qle. pose proof (Z.pow_pos_nonneg 2 (exponent x - 972)). lia. }
      pose proof (Qpow2_pos 972) as P0. set (a := (2 ^ 972)%Q) in *. set (b := (2 ^ (exponent x - 972))%Q) in *.
      clearbody a b. apply (Qmult_le_compat_r _ _ a) in Y; lra. }
    pose proof (Qpow2_pos 972) as P0.
    assert (K : (17 * 10 ^ 307 < 18014398509481982 * (1 # 4) * 2 ^ 972)%Q) by reflexivity.
    set (a := (2 ^ 972)%Q) in *. set (b := (2 ^ exponent x)%Q) in *. set (l := inject_Z (lowZ x)) in *.
    set (t := (17 * 10 ^ 307)%Q) in *. clearbody a b l t.
    assert (18014398509481982 * b <= l * b)%Q by (apply Qmult_le_compat_r; lra). lra.
Qed.

(** Numbers that fit. *)
Lemma exact_exists m j : m < 2 ^ 53 -> (0 <= j <= 900)%Z ->
  exists x, finite_f64 x /\ f64_value x == Q_of_N m * 2 ^ j.
Proof.
  intros Hm Hj. destruct (N.eq_dec m 0) as [->|H0].
  - exists {| mantissa := 0; exponent := (-1074)%Z |}. split; [right; split; reflexivity|].
    unfold f64_value. cbn [mantissa]. change (Q_of_N 0) with 0%Q. ring.
  - destruct (N.log2_spec m ltac:(lia)) as [L U]. set (b := N.log2 m) in *.
    assert (b <= 52) as Hb. { apply N.lt_succ_r. apply N.log2_lt_pow2; [lia|exact Hm]. }
    exists {| mantissa := m * 2 ^ (52 - b); exponent := (j - Z.of_N (52 - b))%Z |}. split.
    + left. cbn [mantissa exponent]. split; [|lia]. split.
      * replace 52 with (b + (52 - b)) at 1 by lia. rewrite N.pow_add_r. apply N.mul_le_mono_r. exact L.
      * replace 53 with (N.succ b + (52 - b)) by lia. rewrite N.pow_add_r.
        apply N.mul_lt_mono_pos_r; [|exact U]. apply N.neq_0_lt_0, N.pow_nonzero. discriminate.
    + unfold f64_value. cbn [mantissa exponent]. rewrite Q_of_N_mul. unfold Zminus.
      rewrite Qpower_plus by discriminate. rewrite Qpower_opp.
      assert (E : Q_of_N (2 ^ (52 - b)) == 2 ^ Z.of_N (52 - b)).
      { unfold Q_of_N. rewrite N2Z.inj_pow. rewrite Zpower_Qpower by lia. reflexivity. }
      rewrite E. pose proof (Qpow2_pos (Z.of_N (52 - b))) as P. set (c := (2 ^ Z.of_N (52 - b))%Q) in *. clearbody c.
      field. lra.
Qed.

Lemma exact_rounds m j x : m < 2 ^ 53 -> (0 <= j <= 900)%Z -> rounds_to (Q_of_N m * 2 ^ j) x ->
  f64_value x == Q_of_N m * 2 ^ j.
Proof.
  intros Hm Hj R. destruct (exact_exists m j Hm Hj) as (y & F & E). pose proof (rounds_self y F) as S.
  rewrite E in S. assert (P : (0 <= Q_of_N m * 2 ^ j)%Q) by (rewrite <- E; apply f64_value_nonneg).
  rewrite (rounds_same _ _ _ P R S). exact E.
Qed.

Lemma pow10_exact e p : (0 <= e <= 22)%Z -> rounds_to (10 ^ e) p -> f64_value p == 10 ^ e.
Proof.
  intros He R.
  assert (E : 10 ^ e == Q_of_N (5 ^ Z.to_N e) * 2 ^ e).
  { unfold Q_of_N. rewrite N2Z.inj_pow, Z2N.id by lia. change (Z.of_N 5) with 5%Z.
    rewrite Zpower_Qpower by lia. rewrite <- Qmult_power. apply Qpower_comp; reflexivity. }
  rewrite E in R |- *. apply exact_rounds; [|lia|exact R].
  apply N.le_lt_trans with (5 ^ 22); [apply N.pow_le_mono_r; lia|reflexivity].
Qed.

(* ---------------- relative errors ---------------- *)

Definition close (c a b : Q) : Prop := ((1 - c) * a <= b <= (1 + c) * a)%Q.

Global Instance close_proper : Proper (Qeq ==> Qeq ==> Qeq ==> iff) close.
Proof. intros c c' C a a' A b b' B. unfold close. now rewrite C, A, B. Qed.

Lemma close_weaken c d a b : (0 <= a)%Q -> (c <= d)%Q -> close c a b -> close d a b.
Proof.
  unfold close. intros A L [H1 H2]. apply (Qmult_le_compat_r _ _ a) in L; [|exact A]. split; lra.
Qed.

Lemma close_refl a : close 0 a a.
Proof. unfold close. split; lra. Qed.

Lemma close_trans c d a b e : (0 <= a)%Q -> (0 <= c <= 1)%Q -> (0 <= d <= 1)%Q ->
  close c a b -> close d b e -> close (c + d + c * d) a e.
Proof.
  unfold close. intros A C D [H1 H2] [H3 H4].
  apply (Qmult_le_compat_r _ _ (1 - d)) in H1; [|lra]. apply (Qmult_le_compat_r _ _ (1 + d)) in H2; [|lra].
  assert (X : (0 <= c * d * a)%Q) by (apply Qmult_le_0_compat; [apply Qmult_le_0_compat|]; lra).
  split; lra.
Qed.

Lemma close_mul c d a b a' b' : (0 <= a)%Q -> (0 <= a')%Q -> (0 <= c <= 1)%Q -> (0 <= d <= 1)%Q ->
  close c a b -> close d a' b' -> close (c + d + c * d) (a * a') (b * b').
Proof.
  unfold close. intros A A' C D [H1 H2] [H3 H4].
  assert (B : (0 <= b)%Q) by (eapply Qle_trans; [|exact H1]; apply Qmult_le_0_compat; lra).
  assert (X : (0 <= a * a')%Q) by (apply Qmult_le_0_compat; assumption).
  assert (Y : (0 <= c * d * (a * a'))%Q) by (apply Qmult_le_0_compat; [apply Qmult_le_0_compat|]; lra).
  apply (Qmult_le_compat_r _ _ b) in H3, H4; [|assumption..].
  apply (Qmult_le_compat_r _ _ ((1 - d) * a')) in H1; [|apply Qmult_le_0_compat; lra].
  apply (Qmult_le_compat_r _ _ ((1 + d) * a')) in H2; [|apply Qmult_le_0_compat; lra].
  split; lra.
Qed.

Lemma close_inv c d a b : (0 < a)%Q -> (0 <= c)%Q -> (c <= d)%Q -> (d <= 1)%Q -> (1 <= (1 + d) * (1 - c))%Q ->
  close c a b -> close d (/ a) (/ b).
Proof.
  unfold close. intros A C L D K [H1 H2].
  assert (c < 1)%Q. { destruct (Qlt_le_dec c 1) as [Y|Y]; [exact Y|]. assert ((1 + d) * (1 - c) <= 0)%Q; [|lra].
    assert (0 <= (1 + d) * (c - 1))%Q by (apply Qmult_le_0_compat; lra). lra. }
  assert (B : (0 < b)%Q) by (eapply Qlt_le_trans; [|exact H1]; apply Qmult_lt_0_compat; lra).
  assert (X : (0 < a * b)%Q) by (apply Qmult_lt_0_compat; assumption).
  split.
  - apply (Qmult_le_r _ _ (a * b)); [exact X|].
    assert (E1 : (1 - d) * / a * (a * b) == (1 - d) * b) by (field; lra).
    assert (E2 : / b * (a * b) == a) by (field; lra). rewrite E1, E2.
    apply (Qmult_le_compat_r _ _ (1 - d)) in H2; [|lra].
    assert ((1 + c) * (1 - d) * a <= 1 * a)%Q; [|lra]. apply Qmult_le_compat_r; [|lra].
    assert (0 <= c * d)%Q by (apply Qmult_le_0_compat; lra). lra.
  - apply (Qmult_le_r _ _ (a * b)); [exact X|].
    assert (E1 : (1 + d) * / a * (a * b) == (1 + d) * b) by (field; lra).
    assert (E2 : / b * (a * b) == a) by (field; lra). rewrite E1, E2.
    apply (Qmult_le_compat_r _ _ (1 + d)) in H1; [|lra]. apply (Qmult_le_compat_r _ _ a) in K; [|lra]. lra.
Qed.

Lemma close_round q x : rounds_to q x -> (2 ^ (-1022) <= q)%Q -> close v q (f64_value x).
Proof.
  intros R H. pose proof (normal_range q x R H) as M. destruct (rounds_error q x R M) as [A B].
  pose proof (f64_value_nonneg x) as P. unfold close, u, v in *. split; lra.
Qed.

Lemma normal_value x : finite_f64 x -> (2 ^ (-1022) <= f64_value x)%Q -> 2 ^ 52 <= mantissa x.
Proof. intros F H. apply (normal_range (f64_value x)); [now apply rounds_self|exact H]. Qed.

(** One multiplication or division. *)
Lemma up_close a x e p y :
  (0 <= a)%Q -> (0 <= e)%Z -> close v a (f64_value x) -> (10 ^ (-307) * (99 # 100) <= a * 10 ^ e)%Q ->
  rounds_to (10 ^ e) p -> rounds_to (f64_value x * f64_value p) y ->
  close (37 # 100000000000000000) (a * 10 ^ e) (f64_value y).
Proof.
  intros A He X L P Y.
  assert (E1 : (1 <= 10 ^ e)%Q).
  { change 1%Q with (inject_Z 1). change 10%Q with (inject_Z 10). rewrite <- Zpower_Qpower by lia.
    rewrite <- Zle_Qle. pose proof (Z.pow_pos_nonneg 10 e). lia. }
  apply close_round in P; [|apply Qle_trans with 1%Q; [vm_compute; discriminate|exact E1]].
  assert (M : close (v + v + v * v) (a * 10 ^ e) (f64_value x * f64_value p)).
  { apply close_mul; try assumption; [lra|unfold v; lra..]. }
  assert (B : (2 ^ (-1022) <= f64_value x * f64_value p)%Q).
  { destruct M as [M _]. eapply Qle_trans; [|exact M].
    apply Qle_trans with ((1 - (v + v + v * v)) * (10 ^ (-307) * (99 # 100)))%Q; [vm_compute; discriminate|].
    rewrite !(Qmult_comm (1 - _)). apply Qmult_le_compat_r; [exact L|unfold v; lra]. }
  apply close_round in Y; [|exact B].
  assert (A' : (0 <= a * 10 ^ e)%Q) by (apply Qmult_le_0_compat; lra).
  eapply close_weaken; [exact A'| |eapply close_trans; [exact A'| | |exact M|exact Y]]; unfold v; lra.
Qed.

Lemma down_close c a x e p y :
  (0 <= a)%Q -> (e < 0)%Z -> (0 <= c <= 1 # 1000000000000000)%Q -> close c a (f64_value x) ->
  (10 ^ (-307) * (99 # 100) <= a * 10 ^ e)%Q ->
  rounds_to (10 ^ (- e)) p -> rounds_to (f64_value x / f64_value p) y ->
  close (c + (25 # 100000000000000000)) (a * 10 ^ e) (f64_value y).
Proof.
  intros A He C X L P Y.
  assert (E1 : (1 <= 10 ^ (- e))%Q).
  { change 1%Q with (inject_Z 1). change 10%Q with (inject_Z 10). rewrite <- Zpower_Qpower by lia.
    rewrite <- Zle_Qle. pose proof (Z.pow_pos_nonneg 10 (- e)). lia. }
  apply close_round in P; [|apply Qle_trans with 1%Q; [vm_compute; discriminate|exact E1]].
  apply (close_inv v (121 # 1000000000000000000)) in P;
    [|lra|unfold v; lra|unfold v; lra|lra|unfold v; lra].
  assert (E2 : / 10 ^ (- e) == 10 ^ e) by (rewrite <- Qpower_opp; replace (- - e)%Z with e by lia; reflexivity).
  rewrite E2 in P. pose proof (Qpow10_pos e) as T.
  set (d := (121 # 1000000000000000000)%Q) in *.
  assert (M : close (c + d + c * d) (a * 10 ^ e) (f64_value x / f64_value p)).
  { unfold Qdiv. apply close_mul; try assumption; unfold d; lra. }
  assert (K : (0 <= c * d <= 1 # 1000000000000000000000000000000)%Q).
  { split; [apply Qmult_le_0_compat; unfold d; lra|].
    apply Qle_trans with ((1 # 1000000000000000) * d)%Q; [|vm_compute; discriminate].
    apply Qmult_le_compat_r; [lra|unfold d; lra]. }
  set (k := (c * d)%Q) in *. clearbody k.
  assert (B : (2 ^ (-1022) <= f64_value x / f64_value p)%Q).
  { destruct M as [M _]. eapply Qle_trans; [|exact M].
    apply Qle_trans with ((1 # 2) * (10 ^ (-307) * (99 # 100)))%Q; [vm_compute; discriminate|].
    apply Qle_trans with ((1 # 2) * (a * 10 ^ e))%Q.
    - rewrite !(Qmult_comm (1 # 2)). apply Qmult_le_compat_r; [exact L|lra].
    - apply Qmult_le_compat_r; [unfold d; lra|]. apply Qmult_le_0_compat; lra. }
  apply close_round in Y; [|exact B].
  assert (A' : (0 <= a * 10 ^ e)%Q) by (apply Qmult_le_0_compat; lra).
  assert (J : (0 <= (c + d + k) * v <= 1 # 1000000000000000000000000000000)%Q).
  { split; [apply Qmult_le_0_compat; unfold d, v; lra|].
    apply Qle_trans with ((2 # 1000000000000000) * v)%Q; [|vm_compute; discriminate].
    apply Qmult_le_compat_r; [unfold d; lra|unfold v; lra]. }
  eapply close_weaken; [exact A'| |eapply close_trans; [exact A'| | |exact M|exact Y]];
    set (j := ((c + d + k) * v)%Q) in *; clearbody j; unfold d, v; lra.
Qed.

(** A scaled 64-bit significand. *)
Lemma scaled_close n x e y : 0 < n < 2 ^ 64 -> rounds_to (Q_of_N n) x -> scaled x e y ->
  (10 ^ (-307) * (99 # 100) <= decimal_value n e)%Q ->
  close (62 # 100000000000000000) (decimal_value n e) (f64_value y).
Proof.
  intros [N0 N1] R S L. unfold decimal_value in *.
  assert (A : (1 <= Q_of_N n)%Q).
  { change 1%Q with (inject_Z 1). unfold Q_of_N. rewrite <- Zle_Qle. lia. }
  assert (A2 : (Q_of_N n <= 2 ^ 64)%Q).
  { change (2 ^ 64)%Q with (inject_Z (2 ^ 64)). unfold Q_of_N. rewrite <- Zle_Qle. lia. }
  pose proof (close_round _ _ R ltac:(apply Qle_trans with 1%Q; [vm_compute; discriminate|exact A])) as X.
  assert (T : (0 <= Q_of_N n * 10 ^ e)%Q) by (pose proof (Qpow10_pos e); apply Qmult_le_0_compat; lra).
  destruct (Z_le_gt_dec 0 e) as [E|E].
  - destruct (Z_le_gt_dec e 308) as [E'|E'].
    + destruct (scaled_up_inv _ _ _ S ltac:(lia)) as (p & P & Y).
      eapply close_weaken; [exact T| |eapply (up_close _ x e p y); try eassumption; lra]. lra.
    + exfalso. apply scaled_far_inv in S; [|lia]. destruct S as [[M _]|(_ & M & _)]; [|lia].
      unfold f64_value in X. rewrite M in X. change (Q_of_N 0) with 0%Q in X. destruct X as [X _]. unfold v in X. lra.
  - destruct (Z_le_gt_dec (-308) e) as [E'|E'].
    + destruct (scaled_down_inv _ _ _ S ltac:(lia)) as (p & P & Y).
      eapply close_weaken; [exact T| |eapply (down_close v _ x e p y); try eassumption; try lia; unfold v; lra].
      unfold v; lra.
    + apply scaled_far_inv in S; [|lia]. destruct S as [[M _]|(_ & _ & p & z & P & Z & S)].
      { exfalso. unfold f64_value in X. rewrite M in X. change (Q_of_N 0) with 0%Q in X. destruct X as [X _].
        unfold v in X. lra. }
      assert (G : (-616 <= e)%Z).
      { destruct (Z_le_gt_dec (-616) e) as [G|G]; [exact G|exfalso].
        assert (D : (10 ^ e <= 10 ^ (-616))%Q).
        { replace e with (- (- e))%Z by lia. rewrite (Qpower_opp 10 (- e)), (Qpower_opp 10 616).
          apply Qinv_le_anti; [vm_compute; reflexivity|].
          change 10%Q with (inject_Z 10). rewrite <- !Zpower_Qpower by lia.
          rewrite <- Zle_Qle. apply Z.pow_le_mono_r; lia. }
        pose proof (Qpow10_pos e) as T'.
        apply (Qmult_le_compat_r _ _ (10 ^ e)) in A2; [|lra].
        assert ((2 ^ 64 * 10 ^ e <= 2 ^ 64 * 10 ^ (-616))%Q) as D'.
        { rewrite !(Qmult_comm (2 ^ 64)). apply Qmult_le_compat_r; [exact D|vm_compute; discriminate]. }
        assert ((2 ^ 64 * 10 ^ (-616) < 10 ^ (-307) * (99 # 100))%Q) as D'' by (vm_compute; reflexivity).
        lra. }
      assert (E10 : Q_of_N n * 10 ^ e == Q_of_N n * 10 ^ (-308) * 10 ^ (e + 308)).
      { rewrite <- Qmult_assoc, <- Qpower_plus by discriminate. replace (-308 + (e + 308))%Z with e by lia. reflexivity. }
      destruct (Z.eq_dec (e + 308) 0) as [E0|E0]; [lia|].
      destruct (scaled_down_inv _ _ _ S ltac:(lia)) as (p2 & P2 & Y).
      assert (B1 : (0 <= Q_of_N n * 10 ^ (-308))%Q) by (apply Qmult_le_0_compat; [lra|vm_compute; discriminate]).
      assert (D1 : (10 ^ (e + 308) <= 1)%Q).
      { replace (e + 308)%Z with (- (- (e + 308)))%Z by lia. rewrite Qpower_opp.
        change 1%Q with (/ 1)%Q. apply Qinv_le_anti; [vm_compute; reflexivity|].
        change 1%Q with (inject_Z 1). change 10%Q with (inject_Z 10). rewrite <- Zpower_Qpower by lia.
        rewrite <- Zle_Qle. pose proof (Z.pow_pos_nonneg 10 (- (e + 308))). lia. }
      assert (L1 : (10 ^ (-307) * (99 # 100) <= Q_of_N n * 10 ^ (-308))%Q).
      { eapply Qle_trans; [exact L|]. rewrite E10. rewrite <- (Qmult_1_r (Q_of_N n * 10 ^ (-308))) at 2.
        rewrite !(Qmult_comm (Q_of_N n * 10 ^ (-308))). apply Qmult_le_compat_r; [exact D1|exact B1]. }
      assert (C1 : close (37 # 100000000000000000) (Q_of_N n * 10 ^ (-308)) (f64_value z)).
      { eapply close_weaken; [exact B1| |eapply (down_close v _ x (-308) p z); try eassumption; try lia; unfold v; lra].
        unfold v; lra. }
      rewrite E10. rewrite E10 in L, T.
      eapply close_weaken; [exact T| |eapply (down_close _ _ z (e + 308) p2 y); try eassumption; try lra; lia].
      lra.
Qed.

(* ---------------- dropped digits ---------------- *)

Lemma digits_value_app a : forall s t, digits_value a (s ++ t) = digits_value (digits_value a s) t.
Proof. intros s; revert a; induction s as [|c s IH]; intros a t; [reflexivity|apply IH]. Qed.

Lemma digits_value_bounds d a : Forall digit d ->
  a * 10 ^ N.of_nat (List.length d) <= digits_value a d < (a + 1) * 10 ^ N.of_nat (List.length d).
Proof.
  intros H. rewrite digits_value_acc. apply forallb_digits in H. destruct (val_acc_bound d H a). lia.
Qed.

Lemma used_large n d n' r : digits_used n d n' r -> r <> [] -> Forall digit d -> 1844674407370955000 <= n'.
Proof.
  intros (used & -> & _ & _ & H) Hr F. destruct r as [|c r]; [easy|]. specialize (H c r eq_refl).
  apply Forall_app in F. destruct F as [_ F]. inversion F as [|? ? [_ Hc] _]; subst.
  change (2 ^ 64) with 18446744073709551616 in H. lia.
Qed.

(** The digits that are used, and the others taken for zeros. *)
Lemma used_value int f n1 r1 n2 r2 :
  Forall digit int -> Forall digit f -> digits_used 0 int n1 r1 -> digits_used n1 f n2 r2 ->
  let m := n2 * 10 ^ N.of_nat (List.length r1 + List.length r2) in
  let d := digits_value 0 (int ++ f) in
  (r1 = [] /\ r2 = [] /\ d = m)
  \/ exists n l, 1844674407370955000 <= n /\ n * l <= d < (n + 1) * l /\ n * l <= m < (n + 1) * l.
Proof.
  intros Fi Ff U1 U2. pose proof (fun H => used_large _ _ _ _ U1 H Fi) as L1.
  pose proof (fun H => used_large _ _ _ _ U2 H Ff) as L2.
  destruct U1 as (u1 & E1 & V1 & _ & _). destruct U2 as (u2 & E2 & V2 & _ & _). cbv zeta.
  subst int f. rewrite <- app_assoc, digits_value_app, <- V1.
  apply Forall_app in Fi, Ff. destruct Fi as [_ F1]. destruct Ff as [F2 F3].
  assert (P : forall l : str, 0 < 10 ^ N.of_nat (List.length l))
    by (intros l; apply N.neq_0_lt_0, N.pow_nonzero; discriminate).
  destruct r1 as [|c r1].
  - cbn [app List.length Nat.add]. rewrite digits_value_app, <- V2. destruct r2 as [|c2 r2].
    + left. cbn [List.length digits_value N.of_nat]. rewrite N.pow_0_r, N.mul_1_r. auto.
    + right. specialize (L2 ltac:(discriminate)).
      exists n2, (10 ^ N.of_nat (List.length (c2 :: r2))). split; [exact L2|].
      pose proof (digits_value_bounds (c2 :: r2) n2 F3) as B. specialize (P (c2 :: r2)).
      set (t := 10 ^ _) in *. lia.
  - right. specialize (L1 ltac:(discriminate)). set (r := c :: r1) in *. clearbody r.
    pose proof (digits_value_bounds (r ++ u2 ++ r2) n1) as B1.
    pose proof (digits_value_bounds u2 n1 F2) as B2. rewrite <- V2 in B2.
    exists n1, (10 ^ N.of_nat (List.length (r ++ u2 ++ r2))). split; [exact L1|]. split.
    { apply B1. apply Forall_app. split; [exact F1|]. now apply Forall_app. }
    clear B1. rewrite !app_length, !Nat2N.inj_add, !N.pow_add_r.
    pose proof (P r) as P1. pose proof (P u2) as P2. pose proof (P r2) as P3.
    set (a := 10 ^ N.of_nat (List.length r)) in *. set (b := 10 ^ N.of_nat (List.length u2)) in *.
    set (k := 10 ^ N.of_nat (List.length r2)) in *. clearbody a b k.
    assert (P4 : 0 < a * k) by (now apply N.mul_pos_pos).
    replace (n1 * (a * (b * k))) with (n1 * b * (a * k)) by lia.
    replace ((n1 + 1) * (a * (b * k))) with ((n1 + 1) * b * (a * k)) by lia.
    split; [apply N.mul_le_mono_r; lia|apply N.mul_lt_mono_pos_r; [exact P4|lia]].
Qed.

Lemma drop_close int f n1 r1 n2 r2 x :
  Forall digit int -> Forall digit f -> digits_used 0 int n1 r1 -> digits_used n1 f n2 r2 ->
  close (1 # 1000000000000000000)
    (decimal_value (digits_value 0 (int ++ f)) (x - Z.of_nat (List.length f)))
    (decimal_value n2 (Z.of_nat (List.length r1) - Z.of_nat (List.length f - List.length r2) + x)).
Proof.
  intros Fi Ff U1 U2. pose proof (used_value _ _ _ _ _ _ Fi Ff U1 U2) as K. cbv zeta in K.
  assert (Lr : (List.length r2 <= List.length f)%nat).
  { destruct U2 as (u2 & -> & _). rewrite app_length. lia. }
  set (m := n2 * 10 ^ N.of_nat (List.length r1 + List.length r2)) in *. set (d := digits_value 0 (int ++ f)) in *.
  set (e := (x - Z.of_nat (List.length f))%Z).
  assert (E : decimal_value n2 (Z.of_nat (List.length r1) - Z.of_nat (List.length f - List.length r2) + x)
              == decimal_value m e).
  { unfold decimal_value, m. rewrite Q_of_N_mul, <- Qmult_assoc. apply Qmult_comp; [reflexivity|].
    replace (Z.of_nat (List.length r1) - Z.of_nat (List.length f - List.length r2) + x)%Z
      with (Z.of_nat (List.length r1 + List.length r2) + e)%Z by lia.
    rewrite Qpower_plus by discriminate. apply Qmult_comp; [|reflexivity].
    unfold Q_of_N. rewrite N2Z.inj_pow, nat_N_Z, Zpower_Qpower by lia. reflexivity. }
  rewrite E. unfold decimal_value. pose proof (Qpow10_pos e) as P. clearbody m d. clear E.
  set (p := (10 ^ e)%Q) in *. clearbody p.
  assert (C : close (1 # 1000000000000000000) (Q_of_N d) (Q_of_N m)).
  { destruct K as [(_ & _ & ->)|(n & l & N & D & M)].
    - apply (close_weaken 0); [unfold Q_of_N, Qle; cbn; lia|discriminate|apply close_refl].
    - unfold close, Q_of_N. assert (X : (Z.of_N l * 1000000000000000000 <= Z.of_N d)%Z) by nia.
      assert (Y1 : (Z.of_N d - Z.of_N l <= Z.of_N m)%Z) by lia. assert (Y2 : (Z.of_N m <= Z.of_N d + Z.of_N l)%Z) by lia.
      rewrite Zle_Qle in X, Y1, Y2. unfold Zminus in Y1. rewrite inject_Z_plus, inject_Z_opp in Y1.
      rewrite inject_Z_mult in X. rewrite inject_Z_plus in Y2.
      change (inject_Z 1000000000000000000) with 1000000000000000000%Q in X. split; lra. }
  destruct C as [C1 C2]. unfold close.
  apply (Qmult_le_compat_r _ _ p) in C1, C2; [|lra..]. split; lra.
Qed.

Lemma frac_digits frac : (frac = [] \/ exists d, frac = "."%char :: d /\ digits d) -> Forall digit (tl frac).
Proof. intros [->|(d & -> & _ & H)]; [constructor|exact H]. Qed.

Lemma exponent_value_unique ex e e' : exponent_value ex e -> exponent_value ex e' ->
  (ex = [] \/ exists c sign d, ex = c :: sign ++ d /\ (c = "e"%char \/ c = "E"%char)
     /\ (sign = [] \/ sign = ["+"%char] \/ sign = ["-"%char]) /\ digits d) -> e = e'.
Proof. intros H H' S. apply exponent_value_iff in H, H'; [congruence|assumption..]. Qed.

Lemma decimal_value_nonneg n e : (0 <= decimal_value n e)%Q.
Proof.
  unfold decimal_value. pose proof (Qpow10_pos e). apply Qmult_le_0_compat; [unfold Q_of_N, Qle; cbn; lia|lra].
Qed.

(** Reading changes a number by little. *)
Lemma read_close s neg int frac exp e x :
  number_parts s neg int frac exp -> exponent_value exp e -> read_as int frac exp x ->
  let q := decimal_value (digits_value 0 (int ++ tl frac)) (e - Z.of_nat (List.length (tl frac))) in
  (10 ^ (-307) <= q)%Q ->
  close (63 # 100000000000000000) q (f64_value x) /\ 2 ^ 52 <= mantissa x.
Proof.
  intros (_ & _ & [_ Hi] & _ & Hf & He) Hx R q L.
  pose proof (read_finite _ _ _ _ R) as F.
  destruct R as (n1 & r1 & n2 & r2 & e' & x0 & U1 & U2 & Hx' & R & S).
  rewrite (exponent_value_unique _ _ _ Hx' Hx He) in S. apply frac_digits in Hf.
  pose proof (drop_close _ _ _ _ _ _ e Hi Hf U1 U2) as C. fold q in C.
  set (ee := (_ + e)%Z) in *. set (b := decimal_value n2 ee) in *.
  assert (Hq : (0 <= q)%Q) by apply decimal_value_nonneg.
  assert (B : (10 ^ (-307) * (99 # 100) <= b)%Q).
  { destruct C as [C _]. eapply Qle_trans; [|exact C].
    apply Qle_trans with ((1 - (1 # 1000000000000000000)) * 10 ^ (-307))%Q; [vm_compute; discriminate|].
    rewrite !(Qmult_comm (1 - _)). apply Qmult_le_compat_r; [exact L|lra]. }
  assert (N : 0 < n2 < 2 ^ 64).
  { split; [|destruct U2 as (? & _ & _ & U2 & _); exact U2]. apply N.neq_0_lt_0. intros ->. unfold b, decimal_value in B.
    change (Q_of_N 0) with 0%Q in B. rewrite Qmult_0_l in B. now vm_compute in B. }
  pose proof (scaled_close n2 x0 ee x N R S B) as D. fold b in D.
  assert (T : close (63 # 100000000000000000) q (f64_value x)).
  { eapply close_weaken; [exact Hq| |eapply close_trans; [exact Hq| | |exact C|exact D]]; lra. }
  split; [exact T|]. apply normal_value; [exact F|]. destruct D as [D _]. eapply Qle_trans; [|exact D].
  apply Qle_trans with ((1 - (62 # 100000000000000000)) * (10 ^ (-307) * (99 # 100)))%Q; [vm_compute; discriminate|].
  rewrite !(Qmult_comm (1 - _)). apply Qmult_le_compat_r; [exact B|lra].
Qed.

(* ---------------- tokens ---------------- *)

Lemma digits_prefix a : forall b r r', Forall digit a -> Forall digit b ->
  match r with [] => True | c :: _ => ~ digit c end -> match r' with [] => True | c :: _ => ~ digit c end ->
  a ++ r = b ++ r' -> a = b /\ r = r'.
Proof.
  induction a as [|x a IH]; intros [|y b] r r' Ha Hb Hr Hr' E; cbn [app] in E.
  - auto.
  - subst r. inversion Hb; subst. easy.
  - subst r'. inversion Ha; subst. easy.
  - injection E as <- E. inversion Ha; subst. inversion Hb; subst. destruct (IH b r r') as [-> ->]; auto.
Qed.

Lemma not_digit_minus : ~ digit "-"%char. Proof. intros [H _]. now apply H. Qed.
Lemma not_digit_point : ~ digit "."%char. Proof. intros [H _]. now apply H. Qed.
Lemma not_digit_e c : c = "e"%char \/ c = "E"%char -> ~ digit c.
Proof. intros [-> | ->] [_ H]; now apply H. Qed.

Lemma exp_head (exp : str) : (exp = [] \/ exists e sign d,
        exp = e :: sign ++ d /\ (e = "e"%char \/ e = "E"%char)
        /\ (sign = [] \/ sign = ["+"%char] \/ sign = ["-"%char]) /\ digits d) ->
  match exp with [] => True | c :: _ => ~ digit c /\ c <> "."%char end.
Proof.
  intros [->|(c & sg & d & -> & Hc & _)]; [exact I|]. split; [now apply not_digit_e|].
  destruct Hc as [-> | ->]; discriminate.
Qed.

Lemma number_parts_unique s neg int frac exp neg' int' frac' exp' :
  number_parts s neg int frac exp -> number_parts s neg' int' frac' exp' ->
  neg = neg' /\ int = int' /\ frac = frac' /\ exp = exp'.
Proof.
  intros (-> & Hn & [Ni Hi] & _ & Hf & He) (E & Hn' & [Ni' Hi'] & _ & Hf' & He').
  assert (neg = neg' /\ int ++ frac ++ exp = int' ++ frac' ++ exp') as [-> E1].
  { destruct int as [|c int]; [easy|]. destruct int' as [|c' int']; [easy|].
    pose proof (Forall_inv Hi) as H1. pose proof (Forall_inv Hi') as H2.
    destruct Hn as [-> | ->], Hn' as [-> | ->]; cbn [app] in *.
    - split; [reflexivity|exact E].
    - injection E as -> _. now apply not_digit_minus in H1.
    - injection E as <- _. now apply not_digit_minus in H2.
    - injection E as E1 E2. split; [reflexivity|now rewrite E1, E2]. }
  split; [reflexivity|]. apply exp_head in He, He'.
  apply digits_prefix in E1; [|assumption..| |].
  2:{ destruct Hf as [->|(d & -> & _)]; cbn [app]; [destruct exp; tauto|apply not_digit_point]. }
  2:{ destruct Hf' as [->|(d & -> & _)]; cbn [app]; [destruct exp'; tauto|apply not_digit_point]. }
  destruct E1 as [-> E2]. split; [reflexivity|].
  destruct Hf as [->|(d & -> & _ & Hd)], Hf' as [->|(d' & -> & _ & Hd')]; cbn [app] in E2.
  - auto.
  - subst exp. now destruct He.
  - subst exp'. now destruct He'.
  - injection E2 as E2. apply digits_prefix in E2; [|assumption..| |].
    + destruct E2 as [-> ->]. auto.
    + destruct exp; tauto.
    + destruct exp'; tauto.
Qed.

(** The value of what is written. *)
Lemma integer_text_value k ex c : integer_text k ex -> exponent_value (c :: ex) k
  /\ exists sign d, c :: ex = c :: sign ++ d
     /\ (sign = [] \/ sign = ["+"%char] \/ sign = ["-"%char]) /\ digits d.
Proof.
  intros [[H T]|[H (t & -> & T)]]; destruct T as (D & V & _).
  - split; [|exists [], ex; auto]. right. exists c, [], ex. split; [reflexivity|]. split; [exact D|].
    right. split; [now left|]. rewrite V. lia.
  - split; [|exists ["-"%char], t; auto]. right. exists c, ["-"%char], t. split; [reflexivity|]. split; [exact D|].
    left. split; [reflexivity|]. rewrite V. lia.
Qed.

Lemma zeros_digits zs : Forall (eq "0"%char) zs -> Forall digit zs.
Proof. intros H. eapply Forall_impl; [|exact H]. intros a <-. split; discriminate. Qed.

Lemma digits_value_zeros zs a : Forall (eq "0"%char) zs ->
  digits_value a zs = a * 10 ^ N.of_nat (List.length zs).
Proof.
  intros H. revert a. induction H as [|c zs <- _ IH]; intros a.
  - cbn. lia.
  - cbn [digits_value List.length]. rewrite IH. change (code "0"%char - 48) with 0.
    rewrite Nat2N.inj_succ, N.pow_succ_r'. lia.
Qed.

Lemma layout_parts d k t : d <> 0 -> decimal_layout d k t ->
  exists int frac exp e,
    number_parts t [] int frac exp /\ frac ++ exp <> [] /\ exponent_value exp e
    /\ ((digits_value 0 (int ++ tl frac) = d /\ (e - Z.of_nat (List.length (tl frac)))%Z = k)
        \/ ((0 <= k)%Z /\ (e - Z.of_nat (List.length (tl frac)))%Z = (-1)%Z
            /\ digits_value 0 (int ++ tl frac) = d * 10 ^ (Z.to_N k + 1))).
Proof.
  intros D0 H.
  assert (HZ : forall s, decimal_text d s -> hd_error s <> Some "0"%char).
  { intros s (_ & V & Z) E. specialize (Z E). subst s. apply D0. rewrite <- V. reflexivity. }
  destruct H as [ds zs T K L Z Z'|a b T Na Nb L K|ds zs T L Z K|c ex T K X|c ds ex T N K X].
  - exists (ds ++ zs), (lit ".0"), [], 0%Z. pose proof (HZ _ T) as H0. destruct T as ((Nd & Dd) & V & _).
    destruct ds as [|c ds]; [easy|]. split; [|split; [|split]].
    + split; [rewrite app_nil_r; cbn [app]; now rewrite <- app_assoc|]. split; [now left|].
      split; [split; [discriminate|apply Forall_app; split; [exact Dd|now apply zeros_digits]]|].
      split; [intros E; exfalso; apply H0; exact E|]. split; [|now left].
      right. exists ["0"%char]. split; [reflexivity|]. split; [discriminate|]. constructor; [split; discriminate|constructor].
    + discriminate.
    + left. auto.
    + right. split; [exact K|]. split; [reflexivity|]. change (tl (lit ".0")) with ["0"%char].
      rewrite <- app_assoc, digits_value_app, V.
      rewrite (digits_value_zeros (zs ++ ["0"%char])) by (apply Forall_app; auto).
      f_equal. f_equal. rewrite app_length. cbn [List.length]. lia.
  - exists a, ("."%char :: b), [], 0%Z. pose proof (HZ _ T) as H0. destruct T as ((Nd & Dd) & V & _).
    apply Forall_app in Dd. destruct Dd as [Da Db]. split; [|split; [|split]].
    + split; [now rewrite app_nil_r|]. split; [now left|]. split; [now split|].
      split; [|split; [|now left]].
      * intros E. exfalso. apply H0. destruct a; [easy|exact E].
      * right. exists b. split; [reflexivity|]. now split.
    + discriminate.
    + left. auto.
    + left. cbn [tl]. split; [exact V|]. lia.
  - exists (lit "0"), ("."%char :: zs ++ ds), [], 0%Z. destruct T as ((Nd & Dd) & V & _). split; [|split; [|split]].
    + split; [now rewrite app_nil_r|]. split; [now left|].
      split; [split; [discriminate|constructor; [split; discriminate|constructor]]|].
      split; [intros _; reflexivity|]. split; [|now left].
      right. exists (zs ++ ds). split; [reflexivity|]. split; [destruct zs; [exact Nd|discriminate]|].
      apply Forall_app. split; [now apply zeros_digits|exact Dd].
    + discriminate.
    + left. auto.
    + left. cbn [tl]. rewrite digits_value_app, digits_value_app, (digits_value_zeros zs) by exact Z.
      change (digits_value 0 (lit "0")) with 0. rewrite N.mul_0_l. split; [exact V|]. rewrite app_length. lia.
  - apply (integer_text_value _ _ "e"%char) in X. destruct X as [X (sg & e & Xe & Xs & Xd)].
    exists [c], [], ("e"%char :: ex), k. pose proof (HZ _ T) as H0. destruct T as (Dd & V & Zc). split; [|split; [|split]].
    + split; [reflexivity|]. split; [now left|]. split; [exact Dd|]. split; [exact Zc|]. split; [now left|].
      right. exists "e"%char, sg, e. auto.
    + discriminate.
    + exact X.
    + left. cbn [tl List.length app]. split; [exact V|]. lia.
  - apply (integer_text_value _ _ "e"%char) in X. destruct X as [X (sg & e & Xe & Xs & Xd)].
    exists [c], ("."%char :: ds), ("e"%char :: ex), (Z.of_nat (List.length ds) + k)%Z.
    pose proof (HZ _ T) as H0. destruct T as ((Nd & Dd) & V & Zc). inversion Dd; subst. split; [|split; [|split]].
    + split; [reflexivity|]. split; [now left|]. split; [split; [discriminate|constructor; auto]|].
      split; [intros E; exfalso; apply H0; exact E|]. split.
      * right. exists ds. split; [reflexivity|]. now split.
      * right. exists "e"%char, sg, e. auto.
    + discriminate.
    + exact X.
    + left. cbn [tl app]. split; [reflexivity|]. lia.
Qed.
