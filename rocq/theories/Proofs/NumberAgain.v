(** A number that was read can be written and read again. *)
From Coq Require Import QArith Qabs Qpower Lia Lqa ZifyBool ZifyN ZifyNat.
From Verif Require Import Model.Prelude Model.Float Model.Json SpecNumber Proofs.StrFacts Proofs.FloatFacts
  Proofs.FloatText Proofs.NumberFacts Proofs.JsonFacts Proofs.NumberValues.
Open Scope N_scope.

(* ---------------- the greatest number that is not too large ---------------- *)

(** Half way from the greatest [f64] to 2^1024. *)
Definition top : N := (2 ^ 54 - 1) * 2 ^ 970.

Lemma Q_of_N_pow b e : Q_of_N (b ^ e) == Q_of_N b ^ Z.of_N e.
Proof. unfold Q_of_N. rewrite N2Z.inj_pow. rewrite Zpower_Qpower by lia. reflexivity. Qed.

Lemma Q_of_N_lt a b : (Q_of_N a < Q_of_N b)%Q <-> a < b.
Proof. unfold Q_of_N. rewrite <- Zlt_Qlt. lia. Qed.
Lemma Q_of_N_le a b : (Q_of_N a <= Q_of_N b)%Q <-> a <= b.
Proof. unfold Q_of_N. rewrite <- Zle_Qle. lia. Qed.

Lemma top_Q : Q_of_N top == 18014398509481983 * (1 # 4) * 2 ^ 972.
Proof. vm_compute. reflexivity. Qed.

Lemma Qpow2_le a b : (a <= b)%Z -> (2 ^ a <= 2 ^ b)%Q.
Proof.
  intros H. replace b with (a + (b - a))%Z by lia. rewrite Qpower_plus by discriminate.
  assert (1 <= 2 ^ (b - a))%Q as Y.
  { change 1%Q with (inject_Z 1). change 2%Q with (inject_Z 2). rewrite <- Zpower_Qpower by lia.
    rewrite <- Zle_Qle. pose proof (Z.pow_pos_nonneg 2 (b - a)). lia. }
  pose proof (Qpow2_pos a) as P0. set (x := (2 ^ a)%Q) in *. set (y := (2 ^ (b - a))%Q) in *.
  clearbody x y. apply (Qmult_le_compat_r _ _ x) in Y; lra.
Qed.

Lemma rounds_below q : (0 <= q)%Q -> (q < Q_of_N top)%Q -> exists x, rounds_to q x.
Proof.
  intros H0 H. destruct (Q_fraction q H0) as (n & d & Hd & E).
  destruct (nearest n d) as [x|] eqn:N.
  - exists x. apply nearest_iff in N; [|exact Hd]. now rewrite E.
  - exfalso. assert (0 < n) as Hn by (destruct n; [discriminate|lia]).
    rewrite nearest_rounded in N by exact Hn. destruct (rounded_spec n d Hn Hd) as [W (L & _)].
    set (x := rounded n d) in *. clearbody x. destruct (exponent x <=? 971)%Z eqn:X; [discriminate|].
    apply Z.leb_gt in X.
    assert (Hm : 2 ^ 52 <= mantissa x) by (destruct W; lia).
    pose proof (quarter_compare (lowZ x) (exponent x) n d Hd) as C. rewrite <- E in C.
    assert (Q : (inject_Z (lowZ x) * (1 # 4) * 2 ^ exponent x <= q)%Q).
    { destruct L as [L|[L _]].
      - apply Qlt_le_weak. rewrite Qlt_alt, C. exact L.
      - apply Qle_lteq. right. rewrite Qeq_alt, C. now rewrite L, Z.compare_refl. }
    assert (A : (18014398509481983 <= lowZ x)%Z).
    { unfold lowZ. change 18014398509481983%Z with (4 * Z.of_N (2 ^ 52) - 1)%Z.
      destruct ((mantissa x =? 2 ^ 52) && negb (exponent x =? -1074)%Z) eqn:B; [lia|].
      apply andb_false_iff in B. rewrite N.eqb_neq, negb_false_iff, Z.eqb_eq in B. lia. }
    rewrite Zle_Qle in A. change (inject_Z 18014398509481983) with 18014398509481983%Q in A.
    assert (P : (2 ^ 972 <= 2 ^ exponent x)%Q) by (apply Qpow2_le; lia).
    pose proof (Qpow2_pos 972) as P0. rewrite top_Q in H.
    set (a := (2 ^ 972)%Q) in *. set (b := (2 ^ exponent x)%Q) in *. set (l := inject_Z (lowZ x)) in *.
    clearbody a b l.
    assert (18014398509481983 * b <= l * b)%Q by (apply Qmult_le_compat_r; lra). lra.
Qed.

Lemma rounds_top q x : rounds_to q x -> (q < Q_of_N top)%Q.
Proof.
  intros (F & l & h & _ & Hh & _ & U). apply half_above_iff in Hh. rewrite Hh in U. clear l h Hh.
  assert (M : mantissa x < 2 ^ 53) by (destruct F; lia).
  assert (X : (exponent x <= 971)%Z) by (destruct F; lia).
  pose proof (Qpow2_le (exponent x) 971 X) as P. pose proof (Qpow2_pos (exponent x)) as P0.
  assert (T : Q_of_N top == 36028797018963966 * (1 # 4) * 2 ^ 971) by (vm_compute; reflexivity).
  rewrite T. set (a := (2 ^ 971)%Q) in *. set (b := (2 ^ exponent x)%Q) in *. clearbody a b. unfold highZ in U.
  destruct (N.eq_dec (mantissa x) (2 ^ 53 - 1)) as [E|E].
  - rewrite E in U. change (N.even (2 ^ 53 - 1)) with false in U.
    change (inject_Z (4 * Z.of_N (2 ^ 53 - 1) + 2)) with 36028797018963966%Q in U.
    destruct U as [U|[_ U]]; [lra|discriminate].
  - assert (B : (4 * Z.of_N (mantissa x) + 2 <= 36028797018963962)%Z).
    { change 36028797018963962%Z with (4 * Z.of_N (2 ^ 53 - 2) + 2)%Z. lia. }
    rewrite Zle_Qle in B. change (inject_Z 36028797018963962) with 36028797018963962%Q in B.
    set (h := inject_Z _) in *. clearbody h. apply (Qmult_le_compat_r _ _ b) in B; [|lra].
    assert (q <= h * (1 # 4) * b)%Q by (destruct U as [U|[U _]]; lra). lra.
Qed.

(* ---------------- the largest numbers ---------------- *)

(** They are written with few digits: the 17 powers of ten. *)
Lemma large_exponent x d k : shortest_decimal x d k -> (10 ^ 308 < decimal_value d k)%Q -> (292 <= k <= 308)%Z.
Proof.
  intros (R & Best & _) L. pose proof (rounds_top _ _ R) as T. pose proof (rounds_high _ _ R) as U.
  assert (F : finite_f64 x) by apply R. split.
  - assert (X : exponent x = 971%Z).
    { destruct (Z.eq_dec (exponent x) 971) as [E|E]; [exact E|exfalso].
      assert (M : mantissa x < 2 ^ 53) by (destruct F; lia).
      assert (Ex : (exponent x <= 970)%Z) by (destruct F; lia).
      pose proof (Qpow2_le _ _ Ex) as P. pose proof (Qpow2_pos (exponent x)) as P0.
      assert (B : (highZ x <= 36028797018963968)%Z).
      { unfold highZ. change 36028797018963968%Z with (4 * Z.of_N (2 ^ 53))%Z. lia. }
      rewrite Zle_Qle in B. change (inject_Z 36028797018963968) with 36028797018963968%Q in B.
      assert (C : (36028797018963968 * (1 # 4) * 2 ^ 970 < 10 ^ 308)%Q) by (vm_compute; reflexivity).
      set (a := (2 ^ 970)%Q) in *. set (b := (2 ^ exponent x)%Q) in *. set (t := (10 ^ 308)%Q) in *.
      set (h := inject_Z _) in *. clearbody a b h t. apply (Qmult_le_compat_r _ _ b) in B; [|lra]. lra. }
    (* the nearest multiple of 10^292 *)
    set (V := (Z.of_N (mantissa x) * 2 ^ 971)%Z). set (P := (10 ^ 292)%Z).
    assert (C : (0 < P < 2 ^ 971)%Z) by (split; reflexivity).
    set (d' := ((2 * V + P) / (2 * P))%Z).
    assert (B : (2 * V - P < 2 * (d' * P) <= 2 * V + P)%Z).
    { unfold d'. pose proof (Z.div_mod (2 * V + P) (2 * P) ltac:(lia)) as E.
      pose proof (Z.mod_pos_bound (2 * V + P) (2 * P) ltac:(lia)) as G.
      set (z := ((2 * V + P) / (2 * P))%Z) in *. set (r := ((2 * V + P) mod (2 * P))%Z) in *.
      clearbody z r. clearbody V. clearbody P. lia. }
    assert (N : (0 <= d')%Z). { unfold d'. apply Z.div_pos; [|lia]. unfold V. lia. }
    apply (Best (Z.to_N d') 292%Z). split; [exact F|].
    exists (inject_Z (lowZ x) * (1 # 4) * 2 ^ exponent x)%Q, (inject_Z (highZ x) * (1 # 4) * 2 ^ exponent x)%Q.
    split; [now apply half_below_iff|]. split; [now apply half_above_iff|].
    assert (E : decimal_value (Z.to_N d') 292 == inject_Z (d' * P)).
    { unfold decimal_value, Q_of_N. rewrite Z2N.id by exact N. rewrite inject_Z_mult. unfold P.
      rewrite Zpower_Qpower by lia. reflexivity. }
    assert (Hl : (lowZ x <= 4 * Z.of_N (mantissa x) - 1)%Z) by (unfold lowZ; destruct (_ && _); lia).
    rewrite X. change (2 ^ 971)%Q with (inject_Z (2 ^ 971)).
    assert (Nm : mantissa x <> 2 ^ 52).
    { intros Em. unfold highZ in U. rewrite X, Em in U.
      assert (C' : (inject_Z (4 * Z.of_N (2 ^ 52) + 2) * (1 # 4) * 2 ^ 971 < 10 ^ 308)%Q) by (vm_compute; reflexivity).
      lra. }
    assert (El : lowZ x = (4 * Z.of_N (mantissa x) - 2)%Z).
    { unfold lowZ. rewrite (proj2 (N.eqb_neq _ _) Nm). reflexivity. }
    assert (A1 : (lowZ x * 2 ^ 971 < 4 * (d' * P))%Z).
    { rewrite El. unfold V in B. set (w := (2 ^ 971)%Z) in *. set (dp := (d' * P)%Z) in *. clearbody w dp P. lia. }
    assert (A2 : (4 * (d' * P) < highZ x * 2 ^ 971)%Z).
    { unfold highZ. unfold V in B. set (w := (2 ^ 971)%Z) in *. set (dp := (d' * P)%Z) in *. clearbody w dp P. lia. }
    rewrite Zlt_Qlt, (inject_Z_mult (lowZ x)), (inject_Z_mult 4) in A1.
    rewrite Zlt_Qlt, (inject_Z_mult 4), (inject_Z_mult (highZ x)) in A2.
    change (inject_Z 4) with 4%Q in *. rewrite E.
    set (a := inject_Z (d' * P)) in *. set (b := inject_Z (2 ^ 971)) in *. set (l := inject_Z (lowZ x)) in *.
    set (h := inject_Z (highZ x)) in *. clearbody a b l h. split; left; lra.
  - destruct (Z_le_gt_dec k 308) as [G|G]; [exact G|exfalso].
    destruct (N.eq_dec d 0) as [->|D0].
    { assert (Z0 : decimal_value 0 k == 0) by (unfold decimal_value; change (Q_of_N 0) with 0%Q; ring).
      rewrite Z0 in L. now apply Qlt_not_le in L; apply L; discriminate. }
    assert (D1 : (1 <= Q_of_N d)%Q) by (apply (Q_of_N_le 1); lia).
    assert (B : (10 ^ 309 <= decimal_value d k)%Q).
    { unfold decimal_value. apply Qle_trans with (1 * 10 ^ k)%Q.
      - rewrite Qmult_1_l. change 10%Q with (inject_Z 10). rewrite <- !Zpower_Qpower by lia.
        rewrite <- Zle_Qle. apply Z.pow_le_mono_r; lia.
      - apply Qmult_le_compat_r; [exact D1|]. apply Qlt_le_weak, Qpow10_pos. }
    assert (C : (Q_of_N top < 10 ^ 309)%Q) by (vm_compute; reflexivity). lra.
Qed.

(** Products that stay below [top]. *)
Definition stays (k : Z) : bool :=
  match f64_of (pow10 k) with
  | Some p => (0 <=? exponent p)%Z && ((top - 1) / 10 ^ Z.to_N k <? 2 ^ 53)
              && ((top - 1) / 10 ^ Z.to_N k * (mantissa p * 2 ^ Z.to_N (exponent p)) <? top)
  | None => false
  end.

Lemma stays_all : forallb stays [293; 294; 295; 296; 297; 298; 299; 300; 301; 302; 303; 304; 305; 306; 307; 308]%Z = true.
Proof. vm_compute. reflexivity. Qed.

Lemma stays_at k : (293 <= k <= 308)%Z -> stays k = true.
Proof.
  intros H. pose proof stays_all as S. rewrite forallb_forall in S. apply S. cbn [In]. lia.
Qed.

Lemma decimal_N d k : (0 <= k)%Z -> decimal_value d k == Q_of_N (d * 10 ^ Z.to_N k).
Proof.
  intros K. unfold decimal_value. rewrite Q_of_N_mul, Q_of_N_pow. rewrite Z2N.id by exact K. reflexivity.
Qed.

Lemma f64_value_N x : (0 <= exponent x)%Z -> f64_value x == Q_of_N (mantissa x * 2 ^ Z.to_N (exponent x)).
Proof.
  intros H. unfold f64_value. rewrite Q_of_N_mul, Q_of_N_pow. rewrite Z2N.id by exact H. reflexivity.
Qed.

Definition greatest : f64 := {| mantissa := 2 ^ 53 - 1; exponent := 971 |}.

(** The greatest [f64] is not written 1.7976931348623158e308. *)
Lemma not_158 x : ~ shortest_decimal x 17976931348623158 292.
Proof.
  intros (R & _ & Near).
  assert (R8 : rounds_to (decimal_value 17976931348623158 292) greatest).
  { rewrite decimal_N by lia. apply f64_of_iff. vm_compute. reflexivity. }
  assert (R7 : rounds_to (decimal_value 17976931348623157 292) greatest).
  { rewrite decimal_N by lia. apply f64_of_iff. vm_compute. reflexivity. }
  rewrite (rounds_same _ _ _ (decimal_value_nonneg _ _) R R8) in *.
  assert (C : (Qabs (decimal_value 17976931348623157 292 - f64_value greatest)
               < Qabs (decimal_value 17976931348623158 292 - f64_value greatest))%Q) by (vm_compute; reflexivity).
  destruct (Near _ R7) as [N|[N _]]; lra.
Qed.

Lemma large_product x d k x0 p : shortest_decimal x d k -> (292 <= k <= 308)%Z ->
  rounds_to (Q_of_N d) x0 -> rounds_to (10 ^ k) p -> (f64_value x0 * f64_value p < Q_of_N top)%Q.
Proof.
  intros S K R P. pose proof (rounds_top _ _ (proj1 S)) as T. rewrite decimal_N in T by lia.
  apply Q_of_N_lt in T.
  assert (Ld : d <= (top - 1) / 10 ^ Z.to_N k).
  { apply N.div_le_lower_bound; [apply N.pow_nonzero; discriminate|]. rewrite N.mul_comm. lia. }
  apply pow10_iff in P; [|lia]. destruct (Z.eq_dec k 292) as [->|K'].
  - change ((top - 1) / 10 ^ Z.to_N 292) with 17976931348623158 in Ld.
    assert (Ep : f64_of (pow10 292) = Some {| mantissa := 4512985939662074; exponent := 918 |})
      by (vm_compute; reflexivity).
    rewrite Ep in P. injection P as <-.
    destruct (N.eq_dec d 17976931348623158) as [->|N8]; [now apply not_158 in S|].
    destruct (N.le_gt_cases d 17976931348623155) as [L|L].
    + destruct (N.eq_dec d 0) as [->|D0].
      { assert (M : mantissa x0 = 0) by (apply (zero_rounds 1); now rewrite Qmult_1_r).
        unfold f64_value at 1. rewrite M. change (Q_of_N 0) with 0%Q. rewrite !Qmult_0_l. vm_compute. reflexivity. }
      assert (D1 : (1 <= Q_of_N d)%Q) by (apply (Q_of_N_le 1); lia).
      destruct (close_round _ _ R) as [_ C].
      { apply Qle_trans with 1%Q; [vm_compute; discriminate|exact D1]. }
      apply Q_of_N_le in L. pose proof (f64_value_nonneg x0) as N0.
      assert (B : (f64_value x0 <= (1 + v) * Q_of_N 17976931348623155)%Q).
      { eapply Qle_trans; [exact C|]. rewrite !(Qmult_comm (1 + v)). apply Qmult_le_compat_r; [exact L|unfold v; lra]. }
      eapply Qle_lt_trans; [apply Qmult_le_compat_r; [exact B|apply f64_value_nonneg]|]. vm_compute. reflexivity.
    + assert (Hd : d = 17976931348623156 \/ d = 17976931348623157) by lia. apply f64_of_iff in R.
      assert (E : f64_of d = Some {| mantissa := 8988465674311578; exponent := 1 |})
        by (destruct Hd as [-> | ->]; vm_compute; reflexivity).
      rewrite E in R. injection R as <-. vm_compute. reflexivity.
  - pose proof (stays_at k ltac:(lia)) as St. unfold stays in St. rewrite P in St.
    apply andb_true_iff in St. destruct St as [St S3]. apply andb_true_iff in St. destruct St as [S1 S2].
    apply Z.leb_le in S1. apply N.ltb_lt in S2, S3.
    assert (E : Q_of_N d == Q_of_N d * 2 ^ 0) by (cbn; ring).
    rewrite E in R. apply exact_rounds in R; [|lia|lia]. rewrite R, <- E, (f64_value_N p S1), <- Q_of_N_mul.
    apply Q_of_N_lt. eapply N.le_lt_trans; [|exact S3]. now apply N.mul_le_mono_r.
Qed.

(* ---------------- reading what was written ---------------- *)

(** Large numbers are written in scientific notation. *)
Lemma scientific_parts d k t : d <> 0 -> (17 <= k)%Z -> decimal_layout d k t ->
  exists int frac exp e,
    number_parts t [] int frac exp /\ frac ++ exp <> [] /\ exponent_value exp e
    /\ digits_value 0 (int ++ tl frac) = d /\ (e - Z.of_nat (List.length (tl frac)))%Z = k.
Proof.
  intros D0 K17 H.
  assert (HZ : forall s, decimal_text d s -> hd_error s <> Some "0"%char).
  { intros s (_ & V & Z) E. specialize (Z E). subst s. apply D0. rewrite <- V. reflexivity. }
  destruct H as [ds zs T K L Z Z'|a b T Na Nb L K|ds zs T L Z K|c ex T K X|c ds ex T N K X]; try lia.
  - apply (integer_text_value _ _ "e"%char) in X. destruct X as [X (sg & e & Xe & Xs & Xd)].
    exists [c], [], ("e"%char :: ex), k. destruct T as (Dd & V & Zc). split; [|split; [|split]].
    + split; [reflexivity|]. split; [now left|]. split; [exact Dd|]. split; [exact Zc|]. split; [now left|].
      right. exists "e"%char, sg, e. auto.
    + discriminate.
    + exact X.
    + cbn [tl List.length app]. split; [exact V|]. lia.
  - apply (integer_text_value _ _ "e"%char) in X. destruct X as [X (sg & e & Xe & Xs & Xd)].
    exists [c], ("."%char :: ds), ("e"%char :: ex), (Z.of_nat (List.length ds) + k)%Z.
    pose proof (HZ _ T) as H0. destruct T as ((Nd & Dd) & V & Zc). inversion Dd; subst. split; [|split; [|split]].
    + split; [reflexivity|]. split; [now left|]. split; [split; [discriminate|constructor; auto]|].
      split; [intros E; exfalso; apply H0; exact E|]. split.
      * right. exists ds. split; [reflexivity|]. now split.
      * right. exists "e"%char, sg, e. auto.
    + discriminate.
    + exact X.
    + cbn [tl app]. split; [reflexivity|]. lia.
Qed.

Lemma large_read x d k u : shortest_decimal x d k -> (10 ^ 308 < decimal_value d k)%Q -> decimal_layout d k u ->
  exists int frac exp y, number_parts u [] int frac exp /\ frac ++ exp <> [] /\ read_as int frac exp y.
Proof.
  intros S L Y. pose proof (large_exponent _ _ _ S L) as K.
  assert (D0 : d <> 0).
  { intros ->. assert (Z0 : decimal_value 0 k == 0) by (unfold decimal_value; change (Q_of_N 0) with 0%Q; ring).
    rewrite Z0 in L. apply Qlt_not_le in L. now apply L. }
  destruct (scientific_parts d k u D0 ltac:(lia) Y) as (int & frac & exp & e & P & N & X & Vd & Vk).
  pose proof (rounds_top _ _ (proj1 S)) as T.
  assert (D64 : d < 2 ^ 64).
  { rewrite decimal_N in T by lia. apply Q_of_N_lt in T.
    assert (10 ^ 292 <= 10 ^ Z.to_N k) by (apply N.pow_le_mono_r; [discriminate|lia]).
    destruct (N.lt_ge_cases d (2 ^ 64)) as [G|G]; [exact G|exfalso].
    assert (2 ^ 64 * 10 ^ 292 <= d * 10 ^ Z.to_N k) by (apply N.mul_le_mono; assumption).
    assert (C : top < 2 ^ 64 * 10 ^ 292) by (vm_compute; reflexivity).
    apply (N.lt_irrefl top). eapply N.lt_le_trans; [exact C|]. eapply N.le_trans; [eassumption|]. now apply N.lt_le_incl. }
  destruct (used_exists int 0 ltac:(reflexivity)) as (n1 & r1 & U1 & B1).
  destruct (used_exists (tl frac) n1 B1) as (n2 & r2 & U2 & B2).
  rewrite digits_value_app in Vd.
  assert (L1 : digits_value 0 int < 2 ^ 64).
  { pose proof (digits_value_ge (tl frac) (digits_value 0 int)). lia. }
  pose proof (used_all _ _ _ _ U1 L1) as [-> E1]. rewrite E1 in U2.
  assert (L2 : digits_value (digits_value 0 int) (tl frac) < 2 ^ 64) by lia.
  pose proof (used_all _ _ _ _ U2 L2) as [-> E2]. rewrite Vd in E2. subst n2 n1.
  destruct (rounds_exists (Q_of_N d)) as [x0 X0].
  { apply (Q_of_N_le 0). lia. }
  { eapply Qle_trans; [apply Q_of_N_le, N.lt_le_incl, D64|]. vm_compute. discriminate. }
  destruct (pow10_exists k ltac:(lia)) as [p Pk].
  destruct (rounds_below (f64_value x0 * f64_value p)) as [y Ry].
  { apply Qmult_le_0_compat; apply f64_value_nonneg. }
  { exact (large_product _ _ _ _ _ S K X0 Pk). }
  exists int, frac, exp, y. split; [exact P|]. split; [exact N|].
  exists (digits_value 0 int), [], d, [], e, x0. split; [exact U1|]. split; [exact U2|]. split; [exact X|].
  split; [exact X0|]. cbn [List.length].
  replace (Z.of_nat 0 - Z.of_nat (List.length (tl frac) - 0) + e)%Z with k by lia.
  apply scaled_up with p; [lia|exact Pk|exact Ry].
Qed.

Lemma shifted_value d k : (0 <= k)%Z -> decimal_value (d * 10 ^ (Z.to_N k + 1)) (-1) == decimal_value d k.
Proof.
  intros K. rewrite (decimal_N d k K), N.pow_add_r, N.mul_assoc. unfold decimal_value. rewrite (Q_of_N_mul _ (10 ^ 1)).
  change (Q_of_N (10 ^ 1)) with 10%Q. change (10 ^ (-1))%Q with (1 # 10)%Q. ring.
Qed.

Lemma written_again neg x t : (neg = [] \/ neg = ["-"%char]) -> written_as neg x t ->
  exists w, float_becomes t w.
Proof.
  intros Hn W. destruct (N.eq_dec (mantissa x) 0) as [M|M].
  { destruct W as [[_ ->]|[H _]]; [|easy]. exists (neg ++ lit "0.0"). now apply zero_kept. }
  assert (A : exists int frac exp y, number_parts t neg int frac exp /\ frac ++ exp <> [] /\ read_as int frac exp y).
  { destruct W as [[H _]|[_ (d & k & s & S & L & ->)]]; [easy|].
    destruct (Qlt_le_dec (10 ^ 308) (decimal_value d k)) as [G|G].
    - destruct (large_read _ _ _ _ S G L) as (int & frac & exp & y & P & N & R).
      exists int, frac, exp, y. split; [now apply parts_sign|]. auto.
    - assert (D0 : d <> 0) by (intros ->; apply M, (zero_rounds _ _ (proj1 S))).
      destruct (layout_parts d k s D0 L) as (int & frac & exp & e & P & N & X & V).
      apply (parts_sign neg) in P; [|exact Hn].
      assert (B : (decimal_value (digits_value 0 (int ++ tl frac)) (e - Z.of_nat (List.length (tl frac))) <= 10 ^ 308)%Q).
      { destruct V as [[-> ->]|(K & -> & ->)]; [exact G|]. now rewrite shifted_value. }
      destruct (read_exists _ _ _ _ _ _ P X B) as [y R]. exists int, frac, exp, y. auto. }
  destruct A as (int & frac & exp & y & P & N & R).
  destruct (written_exists neg y (read_finite _ _ _ _ R) Hn) as [w W'].
  exists w, neg, int, frac, exp, y. split; [exact P|]. split; [now left|]. auto.
Qed.

Lemma becomes_again s t : float_becomes s t -> exists w, float_becomes t w.
Proof. intros (neg & int & frac & exp & x & P & _ & _ & W). exact (written_again neg x t (proj1 (proj2 P)) W). Qed.

Lemma reads_again s t : float_becomes s t -> exists u, parse_json t = Some (JFloat u).
Proof.
  intros H. apply becomes_again in H. destruct H as (u & H). exists u. now apply parse_json_becomes.
Qed.

(** What is written for a number has that number as its nearest [f64]. *)
Lemma written_rounds neg x t q : (neg = [] \/ neg = ["-"%char]) -> finite_f64 x -> written_as neg x t ->
  number_value t q -> rounds_to (Qabs q) x.
Proof.
  intros Hn F W V. destruct (N.eq_dec (mantissa x) 0) as [M|M].
  - destruct W as [[_ ->]|[H _]]; [|easy].
    rewrite (number_value_unique _ _ _ V (zero_value neg Hn)).
    pose proof (rounds_self x F) as R. unfold f64_value in R. rewrite M in R.
    change (Q_of_N 0) with 0%Q in R. rewrite Qmult_0_l in R. exact R.
  - destruct (written_parts neg x t Hn M W) as (d & k & i & f & ex & e & S & _ & _ & _ & _ & V').
    rewrite (number_value_unique _ _ _ V V'), sign_abs by apply decimal_value_nonneg. exact (proj1 S).
Qed.

Theorem number_recovered s neg int frac exp x j q :
  number_parts s neg int frac exp -> not_integer neg int frac exp -> read_as int frac exp x ->
  parse_json s = Some j -> number_value (print j) q -> rounds_to (Qabs q) x.
Proof.
  intros P N R J V. destruct (parse_json_float _ _ _ _ _ _ P N J) as (y & t & -> & R' & W).
  assert (E : y = x).
  { destruct P as (_ & _ & _ & _ & _ & He). apply read_f64_iff in R, R'; try exact He. congruence. }
  subst y. exact (written_rounds neg x t q (proj1 (proj2 P)) (read_finite _ _ _ _ R) W V).
Qed.
