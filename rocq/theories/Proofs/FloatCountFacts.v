(** The program's counting of exponents gives what exact counting gives. *)
From Coq Require Import Lia QArith Qabs Lqa.
From Verif Require Import Model.Prelude Model.Float Model.FloatCount SpecNumber
  Proofs.FloatFacts Proofs.NumberFacts Proofs.NumberValues.
Open Scope N_scope.

Lemma count_value : forall ds acc, Forall digit ds -> (0 <= acc <= 2147483647)%Z ->
  count acc ds = if (Z.of_N (digits_value (Z.to_N acc) ds) <=? 2147483647)%Z
                 then Some (Z.of_N (digits_value (Z.to_N acc) ds)) else None.
Proof.
  induction ds as [|c ds IH]; intros acc F B; cbn [count digits_value].
  - replace (Z.of_N (Z.to_N acc)) with acc by lia. replace (acc <=? 2147483647)%Z with true by lia. reflexivity.
  - inversion F as [|x y [C1 C2] F']; subst. cbv zeta.
    set (v := Z.of_N (code c - 48)). assert (0 <= v <= 9)%Z as V by (unfold v; lia).
    replace (Z.to_N acc * 10 + (code c - 48)) with (Z.to_N (acc * 10 + v)) by (unfold v; lia).
    unfold overflows.
    destruct (Z_le_gt_dec (acc * 10 + v) 2147483647) as [L|L].
    + replace ((214748364 <=? acc) && ((214748364 <? acc) || (7 <? v)))%Z with false.
      2:{ destruct (214748364 <=? acc)%Z eqn:E1; [|reflexivity]. apply Z.leb_le in E1.
          destruct (214748364 <? acc)%Z eqn:E2; [apply Z.ltb_lt in E2; lia|].
          destruct (7 <? v)%Z eqn:E3; [apply Z.ltb_lt in E3; lia|]. reflexivity. }
      apply IH; [exact F'|lia].
    + replace ((214748364 <=? acc) && ((214748364 <? acc) || (7 <? v)))%Z with true.
      2:{ destruct (214748364 <=? acc)%Z eqn:E1; [|apply Z.leb_gt in E1; lia]. apply Z.leb_le in E1.
          destruct (214748364 <? acc)%Z eqn:E2; [reflexivity|]. apply Z.ltb_ge in E2.
          destruct (7 <? v)%Z eqn:E3; [reflexivity|apply Z.ltb_ge in E3; lia]. }
      pose proof (digits_value_ge ds (Z.to_N (acc * 10 + v))) as G.
      destruct (Z.of_N (digits_value (Z.to_N (acc * 10 + v)) ds) <=? 2147483647)%Z eqn:E; [apply Z.leb_le in E; lia|reflexivity].
Qed.

Lemma far_up r x e : (308 < e)%Z -> scale r x e = if mantissa x =? 0 then Some x else None.
Proof.
  intros H. destruct r; cbn [scale]; replace (Z.abs e <=? 308)%Z with false by lia;
    replace (0 <=? e)%Z with true by lia; destruct (mantissa x =? 0); reflexivity.
Qed.

Lemma zero_shape x : finite_f64 x -> mantissa x = 0 -> x = zero64.
Proof. intros [[H _]|[_ E]] M; [lia|]. destruct x as [m e]. cbn [mantissa exponent] in *. now subst. Qed.

Lemma far_down : forall r x e, remains r x -> finite_f64 x -> (e < -308 * Z.of_nat (S r))%Z -> scale r x e = Some zero64.
Proof.
  induction r as [|r IH]; intros x e R F H; cbn [scale]; unfold opt_bind; replace (Z.abs e <=? 308)%Z with false by lia.
  - cbn [remains] in R. rewrite R. cbn [N.eqb]. f_equal. now apply zero_shape.
  - destruct (mantissa x =? 0) eqn:M; [apply N.eqb_eq in M; f_equal; now apply zero_shape|]. apply N.eqb_neq in M.
    replace (0 <=? e)%Z with false by lia.
    destruct (finite_pow10 308 ltac:(lia)) as [p Hp]. rewrite Hp. pose proof (pow10_not_zero _ _ Hp) as Np.
    apply pow10_iff in Hp; [|lia]. pose proof (p308_large p Hp) as Lp.
    assert (f64_value x <= 2 ^ 65)%Q as X.
    { destruct r as [|[|r]]; cbn [remains] in R; [contradiction| |exact R].
      eapply Qle_trans; [exact R|]. vm_compute. discriminate. }
    pose proof (f64_value_nonneg x) as X0. pose proof (Qpow2_pos 1022) as P0.
    assert (0 < f64_value p)%Q as Pp by lra.
    destruct (rounds_exists (f64_value x / f64_value p)) as [y Hy].
    + apply Qle_shift_div_l; [exact Pp|lra].
    + apply Qle_shift_div_r; [exact Pp|]. eapply Qle_trans; [exact X|].
      apply (Qle_trans _ (17 * 10 ^ 307 * 2 ^ 1022)); [vm_compute; discriminate|].
      rewrite (Qmult_comm _ (2 ^ 1022)), (Qmult_comm _ (f64_value p)). apply Qmult_le_compat_r; [exact Lp|].
      vm_compute. discriminate.
    + pose proof Hy as D. apply f64_div_iff in D; [|exact Np]. rewrite D.
      apply IH; [exact (remains_div _ _ _ _ R M Hp Hy)|apply Hy|lia].
Qed.

Lemma exp_shape ex : (ex = [] \/ exists c sign d, ex = c :: sign ++ d /\ (c = "e"%char \/ c = "E"%char)
     /\ (sign = [] \/ sign = ["+"%char] \/ sign = ["-"%char]) /\ digits d) ->
  ex = [] \/ exists c s negative d, ex = c :: s /\ exp_sign s = (negative, d) /\ Forall digit d
    /\ exp_value ex = (if negative then - Z.of_N (digits_value 0 d) else Z.of_N (digits_value 0 d))%Z.
Proof.
  intros [->|(c & sg & d & -> & _ & Hs & (Hd & Hf))]; [now left|right].
  destruct d as [|k d]; [contradiction|]. inversion Hf as [|x y Hk _]; subst.
  assert (k <> "-"%char /\ k <> "+"%char) as [N1 N2] by (split; intros ->; destruct Hk as [Hk _]; now apply Hk).
  apply Ascii.eqb_neq in N1, N2. exists c.
  destruct Hs as [->|[->| ->]]; cbn [app]; do 3 eexists; (split; [reflexivity|]); cbn [exp_sign exp_value].
  - rewrite N1, N2. split; [reflexivity|]. split; [exact Hf|]. rewrite digits_val_value. reflexivity.
  - split; [reflexivity|]. split; [exact Hf|]. rewrite digits_val_value. reflexivity.
  - split; [reflexivity|]. split; [exact Hf|]. rewrite digits_val_value. reflexivity.
Qed.

Lemma grow_rest ds : forall n n' r, grow n ds = (n', r) -> (List.length r <= List.length ds)%nat.
Proof.
  induction ds as [|c ds IH]; intros n n' r; cbn [grow]; [intros [= _ <-]; lia|]. cbv zeta.
  destruct (_ <=? _); [intros H; apply IH in H; cbn [List.length]; lia|intros [= _ <-]; lia].
Qed.

Theorem counted_exactly int fr ex :
  (ex = [] \/ exists c sign d, ex = c :: sign ++ d /\ (c = "e"%char \/ c = "E"%char)
     /\ (sign = [] \/ sign = ["+"%char] \/ sign = ["-"%char]) /\ digits d) ->
  (Z.of_nat (List.length int + List.length fr) <= 2147482000)%Z ->
  read_f64_i32 int fr ex = read_f64 int fr ex.
Proof.
  intros Hex L. apply exp_shape in Hex. unfold read_f64_i32, read_f64.
  destruct (grow 0 int) as [n1 r1] eqn:G1. destruct (grow n1 (tl fr)) as [n2 r2] eqn:G2. cbv zeta. unfold opt_bind.
  assert (B1 : n1 < 2 ^ 64) by (apply grow_used in G1; [|reflexivity]; destruct G1 as (? & ? & ? & ? & ?); assumption).
  assert (B2 : n2 < 2 ^ 64) by (apply grow_used in G2; [|exact B1]; destruct G2 as (? & ? & ? & ? & ?); assumption).
  apply grow_rest in G1. apply grow_rest in G2.
  assert (List.length (tl fr) <= List.length fr)%nat as T by (destruct fr; cbn; lia).
  set (start := (Z.of_nat (List.length r1) - Z.of_nat (List.length (tl fr) - List.length r2))%Z).
  assert (-2147482000 <= start <= 2147482000)%Z as Bs by (unfold start; lia). clearbody start.
  assert (f64_of n2 = None -> False) as NF.
  { intros E. destruct (rounds_exists (Q_of_N n2)) as [y Hy].
    - unfold Q_of_N, Qle; cbn; lia.
    - apply (Qle_trans _ (inject_Z (2 ^ 64))); [unfold Q_of_N; rewrite <- Zle_Qle; change (2 ^ 64) with 18446744073709551616 in B2; change (2 ^ 64)%Z with 18446744073709551616%Z; lia|].
      vm_compute. discriminate.
    - apply f64_of_iff in Hy. congruence. }
  destruct (f64_of n2) as [x|] eqn:E; [|now destruct NF]. clear NF.
  pose proof E as R. apply f64_of_iff in R. pose proof (proj1 R) as F. apply remains_u64 in R; [|exact B2].
  assert (mantissa x = 0 <-> n2 = 0) as Z0.
  { split; intros H.
    - destruct (N.eq_dec n2 0) as [A|A]; [exact A|exfalso]. unfold f64_of in E. apply nearest_zero in E; [contradiction|lia|lia].
    - subst n2. change (f64_of 0) with (Some zero64) in E. injection E as <-. reflexivity. }
  destruct Hex as [->|(c & s & negative & d & -> & Es & Fd & Ev)].
  { cbn [exp_value]. now rewrite Z.add_0_r. }
  rewrite Es, Ev, (count_value d 0 Fd ltac:(lia)). change (Z.to_N 0) with 0. set (v := Z.of_N (digits_value 0 d)).
  assert (0 <= v)%Z as V0 by (unfold v; lia). clearbody v. clear Ev.
  destruct (Z.leb_spec v 2147483647) as [Lv|Lv].
  - destruct negative; unfold saturate.
    + replace (start + - v)%Z with (start - v)%Z by lia.
      destruct (Z_le_gt_dec (-2147483648) (start - v)) as [A|A].
      * f_equal. lia.
      * rewrite !(far_down 3 x) by (assumption || cbn; lia). reflexivity.
    + destruct (Z_le_gt_dec (start + v) 2147483647) as [A|A].
      * f_equal. lia.
      * rewrite !far_up by lia. reflexivity.
  - destruct negative.
    + rewrite orb_true_r. rewrite (far_down 3 x) by (assumption || cbn; lia). reflexivity.
    + rewrite orb_false_r, far_up by lia.
      destruct (N.eqb_spec n2 0) as [A|A].
      * apply Z0 in A. rewrite A. cbn [N.eqb]. f_equal. symmetry. now apply zero_shape.
      * destruct (N.eqb_spec (mantissa x) 0) as [A'|A']; [now apply Z0 in A'|reflexivity].
Qed.

Lemma counted_reading s neg int frac exp x : number_parts s neg int frac exp ->
  (Z.of_nat (List.length s) <= 2147482000)%Z ->
  (read_f64_i32 int frac exp = Some x <-> read_as int frac exp x).
Proof.
  intros (-> & _ & _ & _ & _ & Hex) L. rewrite !app_length in L.
  rewrite counted_exactly; [now apply read_f64_iff|exact Hex|lia].
Qed.
