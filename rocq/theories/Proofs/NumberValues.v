(** Numbers in JSON texts: what is read, and the value of what is written for it. *)
From Coq Require Import QArith Qabs Qpower Lia Lqa ZifyBool ZifyN ZifyNat.
From Verif Require Import Model.Prelude Model.Float Model.Json SpecNumber Proofs.StrFacts Proofs.FloatFacts
  Proofs.FloatText Proofs.NumberFacts Proofs.JsonFacts.
Open Scope N_scope.

(* ---------------- a document that is one number ---------------- *)

Lemma parse_value_token strict sh f d s b r :
  s = b :: r -> (is_dig b || Ascii.eqb b "-"%char) = true ->
  parse_value strict sh (S f) d s = parse_number strict s.
Proof.
  intros -> Hb. destruct (number_start b Hb) as (W & Q1 & Q2 & Q3 & Q4 & Q5 & Q6 & _ & _).
  cbn [parse_value skip_ws]. rewrite W. rewrite Q1, Q2, Q3, Q4, Q5, Q6. reflexivity.
Qed.

Lemma parts_start s neg int frac exp : number_parts s neg int frac exp ->
  exists b r, s = b :: r /\ (is_dig b || Ascii.eqb b "-"%char) = true.
Proof.
  intros (-> & Hn & [Ni Hi] & _). destruct int as [|c int]; [easy|].
  apply Forall_inv in Hi. destruct Hn as [-> | ->]; cbn [app].
  - exists c, (int ++ frac ++ exp). split; [reflexivity|]. apply is_dig_digit in Hi. now rewrite Hi.
  - exists "-"%char, (c :: int ++ frac ++ exp). auto.
Qed.

Lemma parse_json_token s neg int frac exp :
  number_parts s neg int frac exp -> not_integer neg int frac exp ->
  parse_json s = option_map JFloat (float_text (match neg with [] => false | _ => true end) int frac exp).
Proof.
  intros P N. destruct (parts_start _ _ _ _ _ P) as (b & r & E & B).
  unfold parse_json, parse_doc. replace (2 * List.length s + 2)%nat with (S (2 * List.length s + 1))%nat by lia.
  rewrite (parse_value_token _ _ _ _ _ b r E B).
  pose proof (parse_number_parts true s neg int frac exp [] P N I) as Q. rewrite app_nil_r in Q. rewrite Q.
  unfold read_float. destruct (float_text _ _ _ _); reflexivity.
Qed.

Lemma parse_json_becomes s t : float_becomes s t -> parse_json s = Some (JFloat t).
Proof.
  intros (neg & int & frac & exp & x & P & N & R & W). rewrite (parse_json_token _ _ _ _ _ P N).
  assert (E : float_text (match neg with [] => false | _ => true end) int frac exp = Some t).
  { destruct P as (_ & Hn & _ & _ & _ & He). apply float_text_iff; [exact He|]. exists x.
    rewrite sign_bool by exact Hn. auto. }
  now rewrite E.
Qed.

Lemma parse_json_float s neg int frac exp j :
  number_parts s neg int frac exp -> not_integer neg int frac exp -> parse_json s = Some j ->
  exists x t, j = JFloat t /\ read_as int frac exp x /\ written_as neg x t.
Proof.
  intros P N H. rewrite (parse_json_token _ _ _ _ _ P N) in H.
  destruct (float_text _ _ _ _) as [t|] eqn:E; [|discriminate H]. injection H as <-.
  destruct P as (_ & Hn & _ & _ & _ & He). apply float_text_iff in E; [|exact He]. destruct E as (x & R & W).
  rewrite sign_bool in W by exact Hn. exists x, t. auto.
Qed.

Lemma parse_json_integer z s : (- 2 ^ 63 <= z < 2 ^ 64)%Z -> integer_text z s ->
  parse_json s = Some (JInt z) /\ print (JInt z) = s.
Proof.
  intros Hz H. apply integer_text_iff in H. subst s. split; [|reflexivity].
  destruct (decZ_start z) as (b & r & E & B).
  unfold parse_json, parse_doc. replace (2 * List.length (decZ z) + 2)%nat with (S (2 * List.length (decZ z) + 1))%nat by lia.
  rewrite (parse_value_token _ _ _ _ _ b r E B).
  pose proof (parse_number_int true z [] Hz I) as Q. rewrite app_nil_r in Q. rewrite Q. reflexivity.
Qed.

(** Tokens that are not floats are integers. *)
Lemma integer_or_float s neg int frac exp : number_parts s neg int frac exp ->
  not_integer neg int frac exp
  \/ exists z, (- 2 ^ 63 <= z < 2 ^ 64)%Z /\ integer_text z s.
Proof.
  intros (-> & Hn & Di & Z0 & _ & _).
  destruct frac as [|f frac]; [|left; left; discriminate]. destruct exp as [|c exp]; [|left; left; discriminate].
  rewrite !app_nil_r. unfold not_integer.
  assert (T : decimal_text (digits_value 0 int) int) by (split; [exact Di|split; [reflexivity|exact Z0]]).
  set (n := digits_value 0 int) in *. clearbody n. destruct Hn as [-> | ->].
  - destruct (N.lt_ge_cases n (2 ^ 64)) as [L|L]; [|left; right; left; auto].
    right. exists (Z.of_N n). split; [lia|]. left. split; [lia|]. now rewrite N2Z.id.
  - destruct (N.eq_dec n 0) as [E|E]; [left; right; right; split; [discriminate|now right]|].
    destruct (N.le_gt_cases n (2 ^ 63)) as [L|L]; [|left; right; right; split; [discriminate|now left]].
    right. exists (- Z.of_N n)%Z. split; [lia|]. right. split; [lia|]. exists int. split; [reflexivity|].
    now rewrite Z.opp_involutive, N2Z.id.
Qed.

(* ---------------- the value of a token ---------------- *)

Lemma number_value_of s neg int frac exp e q :
  number_parts s neg int frac exp -> exponent_value exp e -> number_value s q ->
  q == (match neg with [] => 1 | _ => -1 end)
       * decimal_value (digits_value 0 (int ++ tl frac)) (e - Z.of_nat (List.length (tl frac))).
Proof.
  intros P X (neg' & int' & frac' & exp' & e' & P' & X' & E).
  destruct (number_parts_unique _ _ _ _ _ _ _ _ _ P P') as (<- & <- & <- & <-).
  destruct P as (_ & _ & _ & _ & _ & He). now rewrite (exponent_value_unique _ _ _ X X' He).
Qed.

Lemma number_value_unique s q q' : number_value s q -> number_value s q' -> q == q'.
Proof.
  intros (neg & int & frac & exp & e & P & X & E) H.
  rewrite (number_value_of _ _ _ _ _ _ _ P X H). exact E.
Qed.

Global Instance number_value_proper s : Proper (Qeq ==> iff) (number_value s).
Proof.
  intros q q' E. split; intros (neg & int & frac & exp & e & P & X & V);
    exists neg, int, frac, exp, e; (split; [exact P|split; [exact X|]]); [rewrite <- E|rewrite E]; exact V.
Qed.

Definition sign (neg : str) : Q := match neg with [] => 1 | _ => -1 end.

Lemma sign_abs neg q : (0 <= q)%Q -> Qabs (sign neg * q) == q.
Proof.
  intros H. rewrite Qabs_Qmult. rewrite (Qabs_pos q H).
  destruct neg; cbn [sign]; [change (Qabs 1) with 1%Q|change (Qabs (-1)) with 1%Q]; ring.
Qed.

Lemma parts_sign neg t int frac exp : (neg = [] \/ neg = ["-"%char]) ->
  number_parts t [] int frac exp -> number_parts (neg ++ t) neg int frac exp.
Proof. intros Hn (-> & _ & R). split; [reflexivity|]. split; [exact Hn|exact R]. Qed.

(** What is written has the value of the shortest decimal. *)
Lemma written_parts neg x t : (neg = [] \/ neg = ["-"%char]) -> mantissa x <> 0 -> written_as neg x t ->
  exists d k int frac exp e, shortest_decimal x d k
    /\ number_parts t neg int frac exp /\ frac ++ exp <> [] /\ exponent_value exp e
    /\ ((digits_value 0 (int ++ tl frac) = d /\ (e - Z.of_nat (List.length (tl frac)))%Z = k)
        \/ ((0 <= k)%Z /\ (e - Z.of_nat (List.length (tl frac)))%Z = (-1)%Z
            /\ digits_value 0 (int ++ tl frac) = d * 10 ^ (Z.to_N k + 1)))
    /\ number_value t (sign neg * decimal_value d k).
Proof.
  intros Hn M [[H _]|[_ (d & k & u & S & L & ->)]]; [easy|].
  assert (D : d <> 0).
  { intros ->. destruct S as [R _]. apply zero_rounds in R. easy. }
  destruct (layout_parts d k u D L) as (int & frac & exp & e & P & N & X & V).
  exists d, k, int, frac, exp, e. split; [exact S|]. apply (parts_sign neg) in P; [|exact Hn].
  split; [exact P|]. split; [exact N|]. split; [exact X|]. split; [exact V|].
  exists neg, int, frac, exp, e. split; [exact P|]. split; [exact X|].
  unfold sign. destruct V as [[-> ->]|(K & -> & ->)]; [reflexivity|].
  assert (E : decimal_value (d * 10 ^ (Z.to_N k + 1)) (-1) == decimal_value d k).
  { unfold decimal_value. rewrite Q_of_N_mul.
    assert (E10 : Q_of_N (10 ^ (Z.to_N k + 1)) == 10 ^ (k + 1)).
    { unfold Q_of_N. rewrite N2Z.inj_pow. rewrite Zpower_Qpower by lia.
      replace (Z.of_N (Z.to_N k + 1)) with (k + 1)%Z by lia. reflexivity. }
    rewrite E10, <- Qmult_assoc, <- Qpower_plus by discriminate.
    replace (k + 1 + -1)%Z with k by lia. reflexivity. }
  now rewrite E.
Qed.

Lemma zero_written neg : (neg = [] \/ neg = ["-"%char]) ->
  number_parts (neg ++ lit "0.0") neg (lit "0") (lit ".0") [].
Proof.
  intros Hn. apply parts_sign; [exact Hn|]. split; [reflexivity|]. split; [now left|].
  assert (digits (lit "0")). { split; [discriminate|]. constructor; [split; discriminate|constructor]. }
  split; [assumption|]. split; [reflexivity|]. split; [|now left]. right. exists (lit "0"). auto.
Qed.

Lemma zero_value neg : (neg = [] \/ neg = ["-"%char]) -> number_value (neg ++ lit "0.0") 0.
Proof.
  intros Hn. exists neg, (lit "0"), (lit ".0"), [], 0%Z. split; [now apply zero_written|].
  split; [now left|]. destruct Hn as [-> | ->]; reflexivity.
Qed.

(* ---------------- C94: how exact ---------------- *)

Lemma float_close s neg int frac exp e x t :
  number_parts s neg int frac exp -> exponent_value exp e -> read_as int frac exp x -> written_as neg x t ->
  let q := decimal_value (digits_value 0 (int ++ tl frac)) (e - Z.of_nat (List.length (tl frac))) in
  (10 ^ (-307) <= q)%Q ->
  exists q', number_value t (sign neg * q') /\ close (1 # 1000000000000000) q q'.
Proof.
  intros P X R W q L. destruct (read_close _ _ _ _ _ _ _ P X R L) as [C M]. fold q in C.
  assert (M0 : mantissa x <> 0) by lia.
  assert (Hn : neg = [] \/ neg = ["-"%char]) by apply P.
  destruct (written_parts _ _ _ Hn M0 W) as (d & k & i & f & ex & e' & S & _ & _ & _ & _ & V).
  exists (decimal_value d k). split; [exact V|]. destruct S as [S _].
  assert (B : close u (f64_value x) (decimal_value d k)) by exact (rounds_error _ _ S M).
  assert (Hq : (0 <= q)%Q) by apply decimal_value_nonneg.
  eapply close_weaken; [exact Hq| |eapply close_trans; [exact Hq| | |exact C|exact B]]; unfold u; lra.
Qed.

Lemma close_abs c q q' neg : (0 <= q)%Q -> close c q q' -> (Qabs (sign neg * q' - sign neg * q) <= c * Qabs (sign neg * q))%Q.
Proof.
  intros Hq [A B]. rewrite sign_abs by exact Hq.
  assert (E : sign neg * q' - sign neg * q == sign neg * (q' - q)) by ring. rewrite E, Qabs_Qmult.
  assert (E1 : Qabs (sign neg) == 1) by (destruct neg; reflexivity). rewrite E1, Qmult_1_l.
  apply Qabs_Qle_condition. split; lra.
Qed.

Theorem number_close s q j :
  number_value s q -> (10 ^ (-307) <= Qabs q)%Q -> parse_json s = Some j ->
  exists q', number_value (print j) q' /\ (Qabs (q' - q) <= (1 # 1000000000000000) * Qabs q)%Q.
Proof.
  intros (neg & int & frac & exp & e & P & X & E) L H.
  destruct (integer_or_float _ _ _ _ _ P) as [N|(z & Hz & T)].
  - destruct (parse_json_float _ _ _ _ _ _ P N H) as (x & t & -> & R & W). cbn [print].
    set (a := decimal_value _ _) in *. assert (Ha : (0 <= a)%Q) by apply decimal_value_nonneg.
    change (q == sign neg * a) in E.
    destruct (float_close _ _ _ _ _ _ _ _ P X R W) as (q' & V & C).
    + fold a. rewrite E, sign_abs in L by exact Ha. exact L.
    + fold a in C. exists (sign neg * q')%Q. split; [exact V|]. rewrite E. now apply close_abs.
  - destruct (parse_json_integer _ _ Hz T) as [J Pr]. rewrite J in H. injection H as <-. rewrite Pr.
    exists q. split; [exists neg, int, frac, exp, e; auto|].
    assert (E0 : q - q == 0) by ring. rewrite E0. change (Qabs 0) with 0%Q.
    apply Qmult_le_0_compat; [discriminate|apply Qabs_nonneg].
Qed.

(* ---------------- C94: overflow ---------------- *)

Lemma finite_bound x : finite_f64 x -> (f64_value x <= 18 * 10 ^ 307)%Q.
Proof.
  intros F. unfold f64_value.
  assert (M : (Q_of_N (mantissa x) <= 2 ^ 53)%Q).
  { change (2 ^ 53)%Q with (inject_Z (2 ^ 53)). unfold Q_of_N. rewrite <- Zle_Qle. destruct F; lia. }
  assert (E : (2 ^ exponent x <= 2 ^ 971)%Q).
  { assert (B : (exponent x <= 971)%Z) by (destruct F; lia). destruct (Z_le_gt_dec 0 (exponent x)) as [G|G].
    - change 2%Q with (inject_Z 2). rewrite <- !Zpower_Qpower by lia. rewrite <- Zle_Qle. apply Z.pow_le_mono_r; lia.
    - apply Qle_trans with 1%Q; [|vm_compute; discriminate].
      replace (exponent x) with (- (- exponent x))%Z by lia. rewrite Qpower_opp. change 1%Q with (/ 1)%Q.
      apply Qinv_le_anti; [vm_compute; reflexivity|].
      change 1%Q with (inject_Z 1). change 2%Q with (inject_Z 2). rewrite <- Zpower_Qpower by lia.
      rewrite <- Zle_Qle. pose proof (Z.pow_pos_nonneg 2 (- exponent x)). lia. }
  apply Qle_trans with (2 ^ 53 * 2 ^ 971)%Q; [|vm_compute; discriminate].
  apply Qle_trans with (2 ^ 53 * 2 ^ exponent x)%Q.
  - apply Qmult_le_compat_r; [exact M|]. apply Qlt_le_weak, Qpow2_pos.
  - rewrite !(Qmult_comm (2 ^ 53)). apply Qmult_le_compat_r; [exact E|vm_compute; discriminate].
Qed.

Theorem number_rejected s q : number_value s q -> (2 * 10 ^ 308 <= Qabs q)%Q -> parse_json s = None.
Proof.
  intros (neg & int & frac & exp & e & P & X & E) L.
  set (a := decimal_value _ _) in *. assert (Ha : (0 <= a)%Q) by apply decimal_value_nonneg.
  change (q == sign neg * a) in E. rewrite E, sign_abs in L by exact Ha.
  destruct (parse_json s) as [j|] eqn:H; [exfalso|reflexivity].
  assert (No : not_integer neg int frac exp).
  { destruct (integer_or_float _ _ _ _ _ P) as [N|(z & Hz & T)]; [exact N|exfalso].
    assert (V : number_value s (inject_Z z)).
    { destruct T as [[Z0 T]|[Z0 (t & -> & T)]]; destruct T as (D & T & H0).
      - exists [], s, [], [], 0%Z. split.
        + split; [now rewrite !app_nil_r|]. split; [now left|]. split; [exact D|]. split; [exact H0|]. split; now left.
        + split; [now left|]. cbn [tl List.length]. rewrite app_nil_r, T. unfold decimal_value, Q_of_N.
          rewrite Z2N.id by lia. change (10 ^ (0 - Z.of_nat 0))%Q with 1%Q. ring.
      - exists ["-"%char], t, [], [], 0%Z. split.
        + split; [now rewrite !app_nil_r|]. split; [now right|]. split; [exact D|]. split; [exact H0|]. split; now left.
        + split; [now left|]. cbn [tl List.length]. rewrite app_nil_r, T. unfold decimal_value, Q_of_N.
          rewrite Z2N.id by lia. change (10 ^ (0 - Z.of_nat 0))%Q with 1%Q. rewrite inject_Z_opp. ring. }
    pose proof (number_value_of _ _ _ _ _ _ _ P X V) as Q. fold a in Q. change (inject_Z z == sign neg * a) in Q.
    assert (Q' : Qabs (inject_Z z) == a) by (rewrite Q; now apply sign_abs). rewrite <- Q' in L.
    assert (B : (Qabs (inject_Z z) <= inject_Z (2 ^ 64))%Q).
    { apply Qabs_Qle_condition. rewrite <- inject_Z_opp, <- !Zle_Qle. lia. }
    assert (C : (inject_Z (2 ^ 64) < 2 * 10 ^ 308)%Q) by (vm_compute; reflexivity).
    apply (Qlt_irrefl (2 * 10 ^ 308)). eapply Qle_lt_trans; [exact L|]. eapply Qle_lt_trans; [exact B|exact C]. }
  destruct (parse_json_float _ _ _ _ _ _ P No H) as (x & t & _ & R & _).
  pose proof (finite_bound x (read_finite _ _ _ _ R)) as F.
  destruct (read_close _ _ _ _ _ _ _ P X R) as [[C _] _].
  { fold a. eapply Qle_trans; [|exact L]. vm_compute. discriminate. }
  fold a in C.
  assert (D : ((1 - (63 # 100000000000000000)) * (2 * 10 ^ 308) <= (1 - (63 # 100000000000000000)) * a)%Q).
  { rewrite !(Qmult_comm (1 - _)). apply Qmult_le_compat_r; [exact L|lra]. }
  assert (G : (18 * 10 ^ 307 < (1 - (63 # 100000000000000000)) * (2 * 10 ^ 308))%Q) by (vm_compute; reflexivity).
  apply (Qlt_irrefl (18 * 10 ^ 307)). eapply Qlt_le_trans; [exact G|]. eapply Qle_trans; [exact D|].
  eapply Qle_trans; [exact C|exact F].
Qed.

Lemma used_exists ds : forall n, n < 2 ^ 64 -> exists n' r, digits_used n ds n' r /\ n' < 2 ^ 64.
Proof.
  intros n H. destruct (grow n ds) as [n' r] eqn:G. exists n', r. apply grow_used in G; [|exact H].
  split; [exact G|]. destruct G as (_ & _ & _ & G & _). exact G.
Qed.

Lemma Qpow10_ge e : (0 <= e)%Z -> (1 <= 10 ^ e)%Q.
Proof.
  intros He. change 1%Q with (inject_Z 1). change 10%Q with (inject_Z 10). rewrite <- Zpower_Qpower by lia.
  rewrite <- Zle_Qle. pose proof (Z.pow_pos_nonneg 10 e). lia.
Qed.

Lemma pow10_ge e p : (0 <= e)%Z -> rounds_to (10 ^ e) p -> close v (10 ^ e) (f64_value p) /\ ((1 # 2) <= f64_value p)%Q.
Proof.
  intros He R. pose proof (Qpow10_ge e He) as G.
  assert (C : close v (10 ^ e) (f64_value p)).
  { apply close_round; [exact R|]. apply Qle_trans with 1%Q; [vm_compute; discriminate|exact G]. }
  split; [exact C|]. destruct C as [C _]. unfold v in C. lra.
Qed.

Lemma pow10_exists e : (0 <= e <= 308)%Z -> exists p, rounds_to (10 ^ e) p.
Proof.
  intros He. destruct (finite_pow10 e He) as [p P]. exists p. apply pow10_iff; [lia|exact P].
Qed.

Lemma down_exists_near x e : (f64_value x <= 2 ^ 66)%Q -> (-308 <= e < 0)%Z -> exists y, scaled x e y.
Proof.
  intros B He. destruct (pow10_exists (- e) ltac:(lia)) as [p P]. destruct (pow10_ge (- e) p ltac:(lia) P) as [_ G].
  pose proof (f64_value_nonneg x) as X.
  assert (D : (0 <= f64_value x / f64_value p <= 2 * f64_value x)%Q).
  { assert (I : (0 <= / f64_value p <= 2)%Q).
    { split; [apply Qlt_le_weak, Qinv_lt_0_compat; lra|]. change 2%Q with (/ (1 # 2))%Q. apply Qinv_le_anti; [reflexivity|exact G]. }
    unfold Qdiv. split; [apply Qmult_le_0_compat; lra|].
    rewrite (Qmult_comm (f64_value x)). apply Qmult_le_compat_r; lra. }
  destruct (rounds_exists (f64_value x / f64_value p)) as [y Y]; [lra| |].
  - apply Qle_trans with (2 * 2 ^ 66)%Q; [|vm_compute; discriminate].
    eapply Qle_trans; [apply D|]. rewrite !(Qmult_comm 2). apply Qmult_le_compat_r; [exact B|lra].
  - exists y. now apply scaled_down with p.
Qed.

Lemma down_exists n : forall x e, (f64_value x <= 2 ^ 66)%Q -> (e < 0)%Z -> (- e <= Z.of_nat n)%Z -> exists y, scaled x e y.
Proof.
  induction n as [|n IH]; intros x e B He Hn; [lia|].
  destruct (Z_le_gt_dec (-308) e) as [G|G]; [apply down_exists_near; [exact B|lia]|].
  destruct (N.eq_dec (mantissa x) 0) as [M|M].
  - exists x. apply scaled_zero; [lia|exact M].
  - destruct (pow10_exists 308 ltac:(lia)) as [p P].
    pose proof (f64_value_nonneg x) as X. pose proof (p308_large p P) as Lp.
    assert (D : (0 <= f64_value x / f64_value p <= (1 # 2) * f64_value x)%Q).
    { assert (I : (0 <= / f64_value p <= (1 # 2))%Q).
      { assert (2 <= f64_value p)%Q by (eapply Qle_trans; [|exact Lp]; vm_compute; discriminate).
        split; [apply Qlt_le_weak, Qinv_lt_0_compat; lra|]. change (1 # 2)%Q with (/ 2)%Q. apply Qinv_le_anti; [reflexivity|assumption]. }
      unfold Qdiv. split; [apply Qmult_le_0_compat; lra|].
      rewrite (Qmult_comm (f64_value x)). apply Qmult_le_compat_r; lra. }
    destruct (rounds_exists (f64_value x / f64_value p)) as [y Y]; [lra| |].
    + apply Qle_trans with (2 ^ 66)%Q; [|vm_compute; discriminate]. lra.
    + assert (U : (f64_value y <= 2 * (f64_value x / f64_value p))%Q) by (apply rounds_upper; [lra|exact Y]).
      destruct (Z.eq_dec (e + 308) 0) as [E0|E0]; [lia|].
      destruct (IH y (e + 308)%Z) as [z Z]; [lra|lia|lia|].
      exists z. apply scaled_far with p y; auto. lia.
Qed.

Lemma read_exists s neg int frac exp e :
  number_parts s neg int frac exp -> exponent_value exp e ->
  (decimal_value (digits_value 0 (int ++ tl frac)) (e - Z.of_nat (List.length (tl frac))) <= 10 ^ 308)%Q ->
  exists x, read_as int frac exp x.
Proof.
  intros (_ & _ & [_ Hi] & _ & Hf & He) Hx L. apply frac_digits in Hf.
  destruct (used_exists int 0 ltac:(reflexivity)) as (n1 & r1 & U1 & B1).
  destruct (used_exists (tl frac) n1 B1) as (n2 & r2 & U2 & B2).
  pose proof (drop_close _ _ _ _ _ _ e Hi Hf U1 U2) as C.
  set (ee := (_ + e)%Z) in *. set (q := decimal_value _ _) in *. set (b := decimal_value n2 ee) in *.
  assert (Hq : (0 <= q)%Q) by apply decimal_value_nonneg.
  assert (B : (b <= (11 # 10) * 10 ^ 308)%Q).
  { destruct C as [_ C]. eapply Qle_trans; [exact C|].
    apply Qle_trans with ((1 + (1 # 1000000000000000000)) * 10 ^ 308)%Q; [|vm_compute; discriminate].
    rewrite !(Qmult_comm (1 + _)). apply Qmult_le_compat_r; [exact L|lra]. }
  assert (A2 : (Q_of_N n2 <= 2 ^ 64)%Q).
  { change (2 ^ 64)%Q with (inject_Z (2 ^ 64)). unfold Q_of_N. rewrite <- Zle_Qle. lia. }
  assert (A0 : (0 <= Q_of_N n2)%Q) by (unfold Q_of_N, Qle; cbn; lia).
  destruct (rounds_exists (Q_of_N n2)) as [x0 X0]; [exact A0| |].
  { eapply Qle_trans; [exact A2|]. vm_compute. discriminate. }
  assert (S : exists x, scaled x0 ee x).
  { pose proof (f64_value_nonneg x0) as F0.
    destruct (N.eq_dec n2 0) as [Z2|Z2].
    - assert (M : mantissa x0 = 0).
      { subst n2. apply (zero_rounds 1). now rewrite Qmult_1_r. }
      assert (V0 : f64_value x0 == 0) by (unfold f64_value; rewrite M; change (Q_of_N 0) with 0%Q; ring).
      destruct (Z_le_gt_dec (-308) ee) as [G|G]; [|exists x0; apply scaled_zero; [lia|exact M]].
      destruct (Z_le_gt_dec ee 308) as [G'|G']; [|exists x0; apply scaled_zero; [lia|exact M]].
      destruct (Z_lt_ge_dec ee 0) as [H0|H0].
      + apply down_exists_near; [|lia]. rewrite V0. vm_compute. discriminate.
      + destruct (pow10_exists ee ltac:(lia)) as [p P].
        assert (V1 : f64_value x0 * f64_value p == 0) by (rewrite V0; ring).
        destruct (rounds_exists (f64_value x0 * f64_value p)) as [y Y].
        * rewrite V1. discriminate.
        * rewrite V1. vm_compute. discriminate.
        * exists y. apply scaled_up with p; [lia|exact P|exact Y].
    - assert (A1 : (1 <= Q_of_N n2)%Q).
      { change 1%Q with (inject_Z 1). unfold Q_of_N. rewrite <- Zle_Qle. lia. }
      pose proof (close_round _ _ X0 ltac:(apply Qle_trans with 1%Q; [vm_compute; discriminate|exact A1])) as X.
      destruct (Z_lt_ge_dec ee 0) as [H0|H0].
      + apply (down_exists (Z.to_nat (- ee))); [|lia|lia]. destruct X as [_ X].
        eapply Qle_trans; [exact X|]. apply Qle_trans with ((1 + v) * 2 ^ 64)%Q; [|vm_compute; discriminate].
        rewrite !(Qmult_comm (1 + v)). apply Qmult_le_compat_r; [exact A2|unfold v; lra].
      + assert (G : (ee <= 308)%Z).
        { destruct (Z_le_gt_dec ee 308) as [G|G]; [exact G|exfalso].
          assert (T : (10 ^ 309 <= b)%Q).
          { apply Qle_trans with (1 * 10 ^ ee)%Q.
            - rewrite Qmult_1_l. change 10%Q with (inject_Z 10). rewrite <- !Zpower_Qpower by lia.
              rewrite <- Zle_Qle. apply Z.pow_le_mono_r; lia.
            - unfold b, decimal_value. apply Qmult_le_compat_r; [exact A1|]. apply Qlt_le_weak, Qpow10_pos. }
          assert (T' : ((11 # 10) * 10 ^ 308 < 10 ^ 309)%Q) by (vm_compute; reflexivity).
          apply (Qlt_irrefl (10 ^ 309)). eapply Qle_lt_trans; [exact T|]. eapply Qle_lt_trans; [exact B|exact T']. }
        destruct (pow10_exists ee ltac:(lia)) as [p P]. destruct (pow10_ge ee p ltac:(lia) P) as [Cp _].
        assert (Mu : close (v + v + v * v) b (f64_value x0 * f64_value p)).
        { unfold b, decimal_value. pose proof (Qpow10_pos ee). apply close_mul; try assumption; unfold v; lra. }
        destruct (rounds_exists (f64_value x0 * f64_value p)) as [y Y].
        * apply Qmult_le_0_compat; apply f64_value_nonneg.
        * destruct Mu as [_ Mu]. eapply Qle_trans; [exact Mu|].
          apply Qle_trans with ((1 + (v + v + v * v)) * ((11 # 10) * 10 ^ 308))%Q; [|vm_compute; discriminate].
          rewrite !(Qmult_comm (1 + _)). apply Qmult_le_compat_r; [exact B|unfold v; lra].
        * exists y. apply scaled_up with p; [lia|exact P|exact Y]. }
  destruct S as [x S]. exists x, n1, r1, n2, r2, e, x0. auto 6.
Qed.

Lemma written_exists neg x : finite_f64 x -> (neg = [] \/ neg = ["-"%char]) -> exists t, written_as neg x t.
Proof.
  intros F [-> | ->].
  - exists (write_f64 false x). now apply (write_f64_iff false).
  - exists (write_f64 true x). now apply (write_f64_iff true).
Qed.

Lemma read_becomes s neg int frac exp x :
  number_parts s neg int frac exp -> not_integer neg int frac exp -> read_as int frac exp x ->
  exists t, written_as neg x t /\ parse_json s = Some (JFloat t).
Proof.
  intros P N R. destruct (written_exists neg x (read_finite _ _ _ _ R) (proj1 (proj2 P))) as [t W].
  exists t. split; [exact W|]. apply parse_json_becomes. exists neg, int, frac, exp, x. auto.
Qed.

Theorem number_accepted s q : number_value s q -> (Qabs q <= 10 ^ 308)%Q -> exists j, parse_json s = Some j.
Proof.
  intros (neg & int & frac & exp & e & P & X & E) L.
  set (a := decimal_value _ _) in *. assert (Ha : (0 <= a)%Q) by apply decimal_value_nonneg.
  change (q == sign neg * a) in E. rewrite E, sign_abs in L by exact Ha.
  destruct (integer_or_float _ _ _ _ _ P) as [N|(z & Hz & T)].
  - destruct (read_exists _ _ _ _ _ _ P X L) as [x R].
    destruct (read_becomes _ _ _ _ _ _ P N R) as (t & _ & J). eauto.
  - destruct (parse_json_integer _ _ Hz T) as [J _]. eauto.
Qed.

(* ---------------- C94: short numbers ---------------- *)

Lemma digits_value_ge d a : a <= digits_value a d.
Proof. revert a. induction d as [|c d IH]; intros a; cbn [digits_value]; [lia|]. specialize (IH (a * 10 + (code c - 48))). lia. Qed.

Lemma used_all n ds n' r : digits_used n ds n' r -> digits_value n ds < 2 ^ 64 -> r = [] /\ n' = digits_value n ds.
Proof.
  intros (used & -> & -> & _ & D) L. destruct r as [|c r].
  - now rewrite app_nil_r.
  - exfalso. specialize (D c r eq_refl). rewrite digits_value_app in L. cbn [digits_value] in L.
    pose proof (digits_value_ge r (digits_value n used * 10 + (code c - 48))). lia.
Qed.

(** A number of 53 significant bits, scaled by an exact power of ten, is read to
    the nearest. *)
Lemma exact_read int frac exp e m i D x :
  exponent_value exp e ->
  (exp = [] \/ exists c sign d, exp = c :: sign ++ d /\ (c = "e"%char \/ c = "E"%char)
     /\ (sign = [] \/ sign = ["+"%char] \/ sign = ["-"%char]) /\ digits d) ->
  D = digits_value 0 (int ++ tl frac) -> D < 2 ^ 64 -> D = m * 2 ^ i -> m < 2 ^ 53 -> i <= 64 ->
  let k := (e - Z.of_nat (List.length (tl frac)))%Z in
  (-22 <= k <= 22)%Z ->
  read_as int frac exp x -> rounds_to (decimal_value D k) x.
Proof.
  intros Hx Hex HD L64 Hm Lm Li k Hk (n1 & r1 & n2 & r2 & e' & x0 & U1 & U2 & Hx' & R & S).
  rewrite (exponent_value_unique _ _ _ Hx' Hx Hex) in S.
  rewrite digits_value_app in HD.
  apply used_all in U1; [|pose proof (digits_value_ge (tl frac) (digits_value 0 int)); lia].
  destruct U1 as [-> ->]. apply used_all in U2; [|lia]. destruct U2 as [-> ->]. rewrite <- HD in R.
  cbn [List.length] in S. replace (Z.of_nat 0 - Z.of_nat (List.length (tl frac) - 0) + e)%Z with k in S by lia.
  assert (V0 : f64_value x0 == Q_of_N D).
  { assert (E : Q_of_N D == Q_of_N m * 2 ^ Z.of_N i).
    { rewrite Hm, Q_of_N_mul. unfold Q_of_N at 2. rewrite N2Z.inj_pow. rewrite Zpower_Qpower by lia. reflexivity. }
    rewrite E in R |- *. apply exact_rounds; [exact Lm|lia|exact R]. }
  unfold decimal_value. destruct (Z_lt_ge_dec k 0) as [G|G].
  - destruct (scaled_down_inv _ _ _ S ltac:(lia)) as (p & P & Y).
    apply pow10_exact in P; [|lia]. rewrite V0, P in Y.
    assert (E : Q_of_N D / 10 ^ (- k) == Q_of_N D * 10 ^ k).
    { unfold Qdiv. rewrite <- Qpower_opp. replace (- - k)%Z with k by lia. reflexivity. }
    now rewrite E in Y.
  - destruct (scaled_up_inv _ _ _ S ltac:(lia)) as (p & P & Y).
    apply pow10_exact in P; [|lia]. now rewrite V0, P in Y.
Qed.

(** Two decimal numbers that are rounded to the same number. *)
Lemma rounds_near q q' x : rounds_to q x -> rounds_to q' x -> (q' - q <= 2 ^ exponent x)%Q.
Proof.
  intros R R'. apply rounds_low in R. apply rounds_high in R'.
  assert (A : (highZ x - lowZ x <= 4)%Z) by (unfold highZ, lowZ; destruct (_ && _); lia).
  rewrite Zle_Qle in A. unfold Zminus in A. rewrite inject_Z_plus, inject_Z_opp in A.
  pose proof (Qpow2_pos (exponent x)) as P.
  set (h := inject_Z (highZ x)) in *. set (l := inject_Z (lowZ x)) in *. set (p := (2 ^ exponent x)%Q) in *.
  clearbody h l p. change (inject_Z 4) with 4%Q in A. apply (Qmult_le_compat_r _ _ p) in A; [|lra]. lra.
Qed.

Lemma short_same n k x d k' : n < 10 ^ 15 -> 0 < n -> (-22 <= k)%Z ->
  rounds_to (decimal_value n k) x -> rounds_to (decimal_value d k') x -> (k <= k')%Z ->
  decimal_value d k' == decimal_value n k.
Proof.
  intros Ln N0 Lk R R' K. set (m := d * 10 ^ Z.to_N (k' - k)).
  assert (E : decimal_value d k' == decimal_value m k).
  { unfold decimal_value, m. rewrite Q_of_N_mul.
    assert (E10 : Q_of_N (10 ^ Z.to_N (k' - k)) == 10 ^ (k' - k)).
    { unfold Q_of_N. rewrite N2Z.inj_pow. rewrite Zpower_Qpower by lia.
      replace (Z.of_N (Z.to_N (k' - k))) with (k' - k)%Z by lia. reflexivity. }
    rewrite E10, <- Qmult_assoc, <- Qpower_plus by discriminate.
    replace (k' - k + k)%Z with k' by lia. reflexivity. }
  rewrite E in R' |- *. clearbody m. clear E d k' K.
  destruct (N.eq_dec m n) as [->|D]; [reflexivity|exfalso].
  pose proof (Qpow10_pos k) as P10.
  assert (N1 : (1 <= Q_of_N n)%Q).
  { change 1%Q with (inject_Z 1). unfold Q_of_N. rewrite <- Zle_Qle. lia. }
  assert (Nn : (Q_of_N n <= 10 ^ 15)%Q).
  { change (10 ^ 15)%Q with (inject_Z (10 ^ 15)). unfold Q_of_N. rewrite <- Zle_Qle. lia. }
  assert (A : (2 ^ (-1022) <= decimal_value n k)%Q).
  { apply Qle_trans with (1 * 10 ^ k)%Q.
    - apply Qle_trans with (10 ^ (-22))%Q; [vm_compute; discriminate|]. rewrite Qmult_1_l.
      replace k with (-22 + (k + 22))%Z by lia. rewrite Qpower_plus by discriminate.
      pose proof (Qpow10_ge (k + 22) ltac:(lia)) as G. rewrite <- (Qmult_1_r (10 ^ (-22))) at 1.
      rewrite !(Qmult_comm (10 ^ (-22))). apply Qmult_le_compat_r; [exact G|vm_compute; discriminate].
    - unfold decimal_value. apply Qmult_le_compat_r; [exact N1|lra]. }
  pose proof (normal_range _ _ R A) as M. destruct (rounds_error _ _ R M) as [B _].
  assert (S : (10 ^ k <= 2 ^ exponent x)%Q).
  { assert (T : forall a b, a < b -> (10 ^ k <= decimal_value b k - decimal_value a k)%Q).
    { intros a b H. unfold decimal_value, Q_of_N.
      assert (G : (1 <= inject_Z (Z.of_N b) - inject_Z (Z.of_N a))%Q).
      { change 1%Q with (inject_Z 1). unfold Qminus. rewrite <- inject_Z_opp, <- inject_Z_plus, <- Zle_Qle. lia. }
      apply (Qmult_le_compat_r _ _ (10 ^ k)) in G; [|lra]. lra. }
    destruct (N.lt_total m n) as [H|[H|H]]; [|easy|].
    - eapply Qle_trans; [apply (T _ _ H)|]. now apply rounds_near.
    - eapply Qle_trans; [apply (T _ _ H)|]. now apply rounds_near. }
  unfold f64_value, decimal_value in B.
  assert (Mq : (2 ^ 52 <= Q_of_N (mantissa x))%Q).
  { change (2 ^ 52)%Q with (inject_Z (2 ^ 52)). unfold Q_of_N. rewrite <- Zle_Qle. lia. }
  pose proof (Qpow2_pos (exponent x)) as P2. set (p := (2 ^ exponent x)%Q) in *. set (t := (10 ^ k)%Q) in *.
  set (mm := Q_of_N (mantissa x)) in *. set (nn := Q_of_N n) in *. clearbody p t mm nn.
  apply (Qmult_le_compat_r _ _ p) in Mq; [|lra]. apply (Qmult_le_compat_r _ _ t) in Nn; [|lra].
  change (2 ^ 52)%Q with 4503599627370496%Q in Mq. change (10 ^ 15)%Q with 1000000000000000%Q in Nn.
  unfold u in B. lra.
Qed.

Lemma zero_read int frac exp x :
  digits_value 0 (int ++ tl frac) = 0 -> read_as int frac exp x -> mantissa x = 0.
Proof.
  intros V (n1 & r1 & n2 & r2 & e & x0 & U1 & U2 & _ & R & S).
  rewrite digits_value_app in V.
  pose proof (digits_value_ge (tl frac) (digits_value 0 int)) as G.
  apply used_all in U1; [|lia]. destruct U1 as [-> ->]. apply used_all in U2; [|lia]. destruct U2 as [-> ->].
  rewrite V in R. assert (M : mantissa x0 = 0) by (apply (zero_rounds 1); now rewrite Qmult_1_r).
  remember (Z.of_nat (List.length ([] : str)) - Z.of_nat (List.length (tl frac) - List.length ([] : str)) + e)%Z as ee. clear Heqee.
  assert (V0 : f64_value x0 == Q_of_N 0) by (unfold f64_value; rewrite M; change (Q_of_N 0) with 0%Q; ring).
  destruct (Z_le_gt_dec (-308) ee) as [A|A]; [destruct (Z_le_gt_dec ee 308) as [B|B]|].
  - destruct (Z_lt_ge_dec ee 0) as [C|C].
    + destruct (scaled_down_inv _ _ _ S ltac:(lia)) as (p & _ & Y). rewrite V0 in Y. exact (zero_rounds _ _ Y).
    + destruct (scaled_up_inv _ _ _ S ltac:(lia)) as (p & _ & Y). rewrite V0 in Y. exact (zero_rounds _ _ Y).
  - apply scaled_far_inv in S; [|lia]. destruct S as [[_ <-]|(H & _)]; [exact M|easy].
  - apply scaled_far_inv in S; [|lia]. destruct S as [[_ <-]|(H & _)]; [exact M|easy].
Qed.

Lemma short_bound n k : n < 10 ^ 15 -> (k <= 22)%Z -> (decimal_value n k <= 10 ^ 308)%Q.
Proof.
  intros Ln Lk.
  assert (Nn : (Q_of_N n <= 10 ^ 15)%Q).
  { change (10 ^ 15)%Q with (inject_Z (10 ^ 15)). unfold Q_of_N. rewrite <- Zle_Qle. lia. }
  assert (G : (10 ^ k <= 10 ^ 22)%Q).
  { destruct (Z_le_gt_dec 0 k) as [G|G].
    - change 10%Q with (inject_Z 10). rewrite <- !Zpower_Qpower by lia. rewrite <- Zle_Qle. apply Z.pow_le_mono_r; lia.
    - apply Qle_trans with 1%Q; [|vm_compute; discriminate].
      replace k with (- (- k))%Z by lia. rewrite Qpower_opp. change 1%Q with (/ 1)%Q.
      apply Qinv_le_anti; [reflexivity|]. apply Qpow10_ge. lia. }
  pose proof (Qpow10_pos k) as P. unfold decimal_value.
  apply Qle_trans with (10 ^ 15 * 10 ^ k)%Q; [apply Qmult_le_compat_r; [exact Nn|lra]|].
  apply Qle_trans with (10 ^ 15 * 10 ^ 22)%Q; [|vm_compute; discriminate].
  rewrite !(Qmult_comm (10 ^ 15)). apply Qmult_le_compat_r; [exact G|vm_compute; discriminate].
Qed.

(** A short number that is read to [x]. *)
Lemma short_read s neg int frac exp e x n k :
  number_parts s neg int frac exp -> exponent_value exp e ->
  n = digits_value 0 (int ++ tl frac) -> k = (e - Z.of_nat (List.length (tl frac)))%Z ->
  n < 10 ^ 15 -> (-22 <= k <= 22)%Z -> read_as int frac exp x -> rounds_to (decimal_value n k) x.
Proof.
  intros P X Hn Hk Ln Lk R. subst k.
  apply (exact_read int frac exp e n 0 n x); auto.
  - apply P.
  - lia.
  - lia.
  - apply N.lt_trans with (10 ^ 15); [exact Ln|reflexivity].
  - lia.
Qed.

Lemma short_written neg x t n k : (neg = [] \/ neg = ["-"%char]) ->
  n < 10 ^ 15 -> (-22 <= k)%Z -> rounds_to (decimal_value n k) x -> written_as neg x t ->
  number_value t (sign neg * decimal_value n k).
Proof.
  intros Hn Ln Lk R W. destruct (N.eq_dec n 0) as [->|N0].
  - pose proof (zero_rounds _ _ R) as M. destruct W as [[_ ->]|[H _]]; [|easy].
    assert (E : sign neg * decimal_value 0 k == 0) by (unfold decimal_value; change (Q_of_N 0) with 0%Q; ring).
    rewrite E. now apply zero_value.
  - assert (M : mantissa x <> 0).
    { intros M. destruct R as (F & l & h & _ & Hh & _ & U).
      assert (A : (decimal_value n k <= (1 # 2) * 2 ^ exponent x)%Q).
      { unfold half_above in Hh. rewrite M in Hh. change (Q_of_N 0) with 0%Q in Hh. rewrite Qplus_0_l in Hh.
        rewrite <- Hh. destruct U as [U|[U _]]; lra. }
      destruct F as [[F _]|[_ F]]; [rewrite M in F; destruct F as [F _]; now apply F|]. rewrite F in A.
      assert (N1 : (1 <= Q_of_N n)%Q).
      { change 1%Q with (inject_Z 1). unfold Q_of_N. rewrite <- Zle_Qle. lia. }
      pose proof (Qpow10_ge (k + 22) ltac:(lia)) as G.
      assert (B : (10 ^ (-22) <= decimal_value n k)%Q).
      { apply Qle_trans with (1 * 10 ^ k)%Q.
        - rewrite Qmult_1_l. replace k with (-22 + (k + 22))%Z by lia. rewrite Qpower_plus by discriminate.
          rewrite <- (Qmult_1_r (10 ^ (-22))) at 1.
          rewrite !(Qmult_comm (10 ^ (-22))). apply Qmult_le_compat_r; [exact G|vm_compute; discriminate].
        - unfold decimal_value. apply Qmult_le_compat_r; [exact N1|]. apply Qlt_le_weak, Qpow10_pos. }
      assert (C : ((1 # 2) * 2 ^ (-1074) < 10 ^ (-22))%Q) by (vm_compute; reflexivity).
      apply (Qlt_irrefl (10 ^ (-22))). eapply Qle_lt_trans; [exact B|]. eapply Qle_lt_trans; [exact A|exact C]. }
    destruct (written_parts _ _ _ Hn M W) as (d & k' & i & f & ex & e' & (S & Best & _) & _ & _ & _ & _ & V).
    rewrite (short_same n k x d k') in V; auto; [lia|]. exact (Best _ _ R).
Qed.

Theorem number_short s n e q :
  decimal_token s n e -> n < 10 ^ 15 -> (-22 <= e <= 22)%Z -> number_value s q ->
  exists j, parse_json s = Some j /\ number_value (print j) q.
Proof.
  intros (neg & int & frac & exp & x & P & N & X & Hn & He) Ln Le V.
  pose proof (number_value_of _ _ _ _ _ _ _ P X V) as E.
  destruct (read_exists _ _ _ _ _ _ P X) as [y R]; [rewrite <- Hn, <- He; now apply short_bound|].
  destruct (read_becomes _ _ _ _ _ _ P N R) as (t & W & J).
  exists (JFloat t). split; [exact J|]. cbn [print]. rewrite E, <- Hn, <- He.
  assert (Rn : rounds_to (decimal_value n e) y) by exact (short_read _ _ _ _ _ _ _ n e P X Hn He Ln Le R).
  apply (short_written neg y t n e); auto; [apply P|lia].
Qed.

Lemma zero_kept neg : (neg = [] \/ neg = ["-"%char]) -> float_becomes (neg ++ lit "0.0") (neg ++ lit "0.0").
Proof.
  intros Hn. pose proof (zero_written neg Hn) as P.
  destruct (read_exists _ _ _ _ _ 0%Z P) as [x R]; [now left|vm_compute; discriminate|].
  exists neg, (lit "0"), (lit ".0"), [], x. split; [exact P|]. split; [left; discriminate|]. split; [exact R|].
  left. split; [|reflexivity]. eapply zero_read; [|exact R]. reflexivity.
Qed.

Lemma Qpow10_strict a b : (0 <= a)%Z -> (0 <= b)%Z -> (10 ^ a < 10 ^ b)%Q -> (a < b)%Z.
Proof.
  intros A B H. change 10%Q with (inject_Z 10) in H. rewrite <- !Zpower_Qpower in H by lia. rewrite <- Zlt_Qlt in H.
  now apply Z.pow_lt_mono_r_iff in H.
Qed.

Lemma short_kept neg x t n k : (neg = [] \/ neg = ["-"%char]) ->
  n < 10 ^ 15 -> (-22 <= k <= 22)%Z -> (decimal_value n k < 10 ^ 15)%Q ->
  rounds_to (decimal_value n k) x -> written_as neg x t -> float_becomes t t.
Proof.
  intros Hn Ln Lk LV R W. destruct (N.eq_dec (mantissa x) 0) as [M|M].
  - destruct W as [[_ ->]|[H _]]; [|easy]. now apply zero_kept.
  - assert (N0 : n <> 0) by (intros ->; apply M, (zero_rounds _ _ R)).
    destruct (written_parts _ _ _ Hn M W) as (d & k' & i & f & ex & e' & Sh & P & F & X & D & _).
    pose proof Sh as (S & Best & _). specialize (Best _ _ R).
    assert (E : decimal_value d k' == decimal_value n k) by (apply (short_same n k x d k'); auto; lia).
    assert (D0 : 0 < d).
    { apply N.neq_0_lt_0. intros ->. apply M, (zero_rounds _ _ S). }
    assert (D1 : (1 <= Q_of_N d)%Q).
    { change 1%Q with (inject_Z 1). unfold Q_of_N. rewrite <- Zle_Qle. lia. }
    pose proof (Qpow10_pos k') as Pk. rewrite <- E in LV.
    assert (K15 : (k' < 15)%Z).
    { destruct (Z_lt_ge_dec k' 0) as [G|G]; [lia|]. apply Qpow10_strict; [lia|lia|].
      eapply Qle_lt_trans; [|exact LV]. unfold decimal_value. rewrite <- (Qmult_1_l (10 ^ k')) at 1.
      apply Qmult_le_compat_r; [exact D1|lra]. }
    assert (Rd : exists y, read_as i f ex y /\ rounds_to (decimal_value d k') y).
    { assert (V : decimal_value (digits_value 0 (i ++ tl f)) (e' - Z.of_nat (List.length (tl f))) == decimal_value d k'
                  /\ exists m j, digits_value 0 (i ++ tl f) = m * 2 ^ j /\ digits_value 0 (i ++ tl f) < 2 ^ 64
                       /\ m < 2 ^ 53 /\ j <= 64
                       /\ (-22 <= e' - Z.of_nat (List.length (tl f)) <= 22)%Z).
      { destruct D as [[-> ->]|(K0 & -> & ->)].
        - split; [reflexivity|].
          assert (Dn : d <= n).
          { assert (G : (decimal_value d k <= decimal_value n k)%Q).
            { rewrite <- E. unfold decimal_value. rewrite !(Qmult_comm (Q_of_N d)). apply Qmult_le_compat_r; [|lra].
              replace k' with (k + (k' - k))%Z by lia. rewrite Qpower_plus by discriminate.
              pose proof (Qpow10_ge (k' - k) ltac:(lia)) as G. pose proof (Qpow10_pos k) as P0.
              rewrite <- (Qmult_1_r (10 ^ k)) at 1. rewrite !(Qmult_comm (10 ^ k)). apply Qmult_le_compat_r; [exact G|lra]. }
            unfold decimal_value in G. apply Qmult_le_r in G; [|apply Qpow10_pos].
            unfold Q_of_N in G. rewrite <- Zle_Qle in G. lia. }
          change (10 ^ 15) with 1000000000000000 in *. exists d, 0. rewrite N.pow_0_r, N.mul_1_r.
          change (2 ^ 64) with 18446744073709551616. change (2 ^ 53) with 9007199254740992.
          repeat split; lia.
        - assert (E10 : Q_of_N (10 ^ Z.to_N k') == 10 ^ k').
          { unfold Q_of_N. rewrite N2Z.inj_pow. rewrite Zpower_Qpower by lia.
            replace (Z.of_N (Z.to_N k')) with k' by lia. reflexivity. }
          set (w := d * 10 ^ Z.to_N k').
          assert (Ew : decimal_value d k' == Q_of_N w) by (unfold w, decimal_value; rewrite Q_of_N_mul, E10; reflexivity).
          replace (d * 10 ^ (Z.to_N k' + 1)) with (w * 10) by (unfold w; rewrite N.pow_add_r, N.pow_1_r; lia).
          clearbody w. split.
          + rewrite Ew. unfold decimal_value. rewrite Q_of_N_mul. change (Q_of_N 10) with 10%Q.
            change (10 ^ (-1))%Q with (1 # 10)%Q. ring.
          + assert (Lw : w < 10 ^ 15).
            { rewrite Ew in LV. change (10 ^ 15)%Q with (inject_Z (10 ^ 15)) in LV. unfold Q_of_N in LV.
              rewrite <- Zlt_Qlt in LV. lia. }
            change (10 ^ 15) with 1000000000000000 in Lw. exists (5 * w), 1.
            change (2 ^ 64) with 18446744073709551616. change (2 ^ 53) with 9007199254740992. change (2 ^ 1) with 2.
            repeat split; lia. }
      destruct V as [V (m & j & Hm & L64 & L53 & Lj & Le)].
      destruct (read_exists _ _ _ _ _ _ P X) as [y Y].
      { rewrite V. apply Qle_trans with (10 ^ 15)%Q; [lra|vm_compute; discriminate]. }
      exists y. split; [exact Y|]. rewrite <- V.
      apply (exact_read i f ex e' m j (digits_value 0 (i ++ tl f)) y); auto. apply P. }
    destruct Rd as (y & Y & Ry). rewrite (rounds_same _ _ _ (decimal_value_nonneg _ _) Ry S) in Y.
    exists neg, i, f, ex, x. split; [exact P|]. split; [now left|]. split; [exact Y|exact W].
Qed.

Theorem number_stable s n e q j :
  decimal_token s n e -> n < 10 ^ 15 -> (-22 <= e <= 22)%Z -> number_value s q -> (Qabs q < 10 ^ 15)%Q ->
  parse_json s = Some j -> parse_json (print j) = Some j.
Proof.
  intros (neg & int & frac & exp & x & P & N & X & Hn & He) Ln Le V L H.
  pose proof (number_value_of _ _ _ _ _ _ _ P X V) as E.
  destruct (parse_json_float _ _ _ _ _ _ P N H) as (y & t & -> & R & W). cbn [print].
  apply parse_json_becomes. rewrite <- Hn, <- He in E. change (q == sign neg * decimal_value n e) in E.
  rewrite E, sign_abs in L by apply decimal_value_nonneg.
  apply (short_kept neg y t n e); auto; [apply P|].
  exact (short_read _ _ _ _ _ _ _ n e P X Hn He Ln Le R).
Qed.

(** Significands of 53 bits are read to the nearest [f64]. *)
Theorem number_nearest s neg int frac exp e j :
  number_parts s neg int frac exp -> not_integer neg int frac exp -> exponent_value exp e ->
  let n := digits_value 0 (int ++ tl frac) in
  let k := (e - Z.of_nat (List.length (tl frac)))%Z in
  n < 2 ^ 53 -> (-22 <= k <= 22)%Z -> parse_json s = Some j ->
  exists x, rounds_to (decimal_value n k) x /\ written_as neg x (print j).
Proof.
  intros P N X n k Ln Lk H. destruct (parse_json_float _ _ _ _ _ _ P N H) as (x & t & -> & R & W).
  exists x. split; [|exact W]. apply (exact_read int frac exp e n 0 n x); auto; [apply P| | |].
  - apply N.lt_trans with (2 ^ 53); [exact Ln|reflexivity].
  - lia.
  - lia.
Qed.
