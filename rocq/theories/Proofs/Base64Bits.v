(** The engines compute the bit-level encoding of SpecJwt.v. *)
From Coq Require Import Lia ZifyBool ZifyN ZifyNat.
From Verif Require Import Model.Prelude Model.Base64 Model.Types Model.Deps Spec SpecJwt
  Proofs.StrFacts Proofs.Base64Facts.

Ltac Zify.zify_post_hook ::= Z.to_euclidean_division_equations.

(** Sextets of a byte string. *)
Fixpoint sextets (s : str) : list N :=
  match s with
  | [] => []
  | [a] => [code a / 4; (code a mod 4) * 16]
  | [a; b] => [code a / 4; (code a mod 4) * 16 + code b / 16; (code b mod 16) * 4]
  | a :: b :: c :: r =>
      code a / 4 :: (code a mod 4) * 16 + code b / 16 :: (code b mod 16) * 4 + code c / 64
      :: code c mod 64 :: sextets r
  end.

Definition fill (s : str) : nat :=
  match (List.length s mod 3)%nat with 1%nat => 2 | 2%nat => 1 | _ => 0 end.
Definition zero_bits (s : str) : nat :=
  match (List.length s mod 3)%nat with 1%nat => 4 | 2%nat => 2 | _ => 0 end.

Lemma mod3 n : (S (S (S n)) mod 3 = n mod 3)%nat.
Proof. lia. Qed.

Lemma fill_step a b c r : fill (a :: b :: c :: r) = fill r.
Proof. unfold fill. cbn [List.length]. now rewrite mod3. Qed.

Lemma zero_bits_step a b c r : zero_bits (a :: b :: c :: r) = zero_bits r.
Proof. unfold zero_bits. cbn [List.length]. now rewrite mod3. Qed.

Lemma sextets_bound s : Forall (fun n => n < 64) (sextets s).
Proof.
  induction s using list3_ind; cbn [sextets].
  - constructor.
  - pose proof (code_bound a). repeat constructor; lia.
  - pose proof (code_bound a). pose proof (code_bound b). repeat constructor; lia.
  - pose proof (code_bound a). pose proof (code_bound b). pose proof (code_bound c).
    repeat (constructor; [lia|]). exact IHs.
Qed.

Lemma encode_sextets al pad s :
  b64_encode al pad s = map (b64_char al) (sextets s) ++ (if pad then repeat pad_char (fill s) else []).
Proof.
  induction s using list3_ind.
  - now destruct pad.
  - now destruct pad.
  - now destruct pad.
  - rewrite fill_step. cbn [b64_encode sextets map app]. now rewrite IHs.
Qed.

Lemma sextets_length s :
  (List.length (sextets s) * 6 = List.length s * 8 + zero_bits s
   /\ (List.length (sextets s) + fill s) mod 4 = 0)%nat.
Proof.
  induction s using list3_ind; [now split..|].
  rewrite fill_step, zero_bits_step. cbn [sextets List.length]. lia.
Qed.

(* Bits of a sextet made of pieces of two bytes. *)
Definition bl (l1 l2 : list bool) : bool := if list_eq_dec Bool.bool_dec l1 l2 then true else false.
Lemma bl_eq l1 l2 : bl l1 l2 = true -> l1 = l2.
Proof. unfold bl. now destruct (list_eq_dec _ _ _). Qed.

Definition bits_at (l : list N) (n : N) : list bool := map (N.testbit n) l.

Lemma bits_24 x y : x < 4 -> y < 16 ->
  sextet_bits (x * 16 + y) = bits_at [1; 0] x ++ bits_at [3; 2; 1; 0] y.
Proof.
  intros Hx Hy. apply bl_eq.
  pose proof (upto64 (fun n => bl (sextet_bits ((n / 16) * 16 + n mod 16))
     (bits_at [1; 0] (n / 16) ++ bits_at [3; 2; 1; 0] (n mod 16))) eq_refl (x * 16 + y)) as H.
  cbv beta in H. replace ((x * 16 + y) / 16) with x in H by lia.
  replace ((x * 16 + y) mod 16) with y in H by lia. apply H. lia.
Qed.

Lemma bits_42 x y : x < 16 -> y < 4 ->
  sextet_bits (x * 4 + y) = bits_at [3; 2; 1; 0] x ++ bits_at [1; 0] y.
Proof.
  intros Hx Hy. apply bl_eq.
  pose proof (upto64 (fun n => bl (sextet_bits ((n / 4) * 4 + n mod 4))
     (bits_at [3; 2; 1; 0] (n / 4) ++ bits_at [1; 0] (n mod 4))) eq_refl (x * 4 + y)) as H.
  cbv beta in H. replace ((x * 4 + y) / 4) with x in H by lia.
  replace ((x * 4 + y) mod 4) with y in H by lia. apply H. lia.
Qed.

Lemma byte_6_2 a : byte_bits a = sextet_bits (code a / 4) ++ bits_at [1; 0] (code a mod 4).
Proof.
  apply bl_eq. revert a.
  apply (forall_bytes (fun a => bl (byte_bits a) (sextet_bits (code a / 4) ++ bits_at [1; 0] (code a mod 4)))).
  reflexivity.
Qed.

Lemma byte_4_4 a : byte_bits a = bits_at [3; 2; 1; 0] (code a / 16) ++ bits_at [3; 2; 1; 0] (code a mod 16).
Proof.
  apply bl_eq. revert a.
  apply (forall_bytes (fun a => bl (byte_bits a)
    (bits_at [3; 2; 1; 0] (code a / 16) ++ bits_at [3; 2; 1; 0] (code a mod 16)))).
  reflexivity.
Qed.

Lemma byte_2_6 a : byte_bits a = bits_at [1; 0] (code a / 64) ++ sextet_bits (code a mod 64).
Proof.
  apply bl_eq. revert a.
  apply (forall_bytes (fun a => bl (byte_bits a) (bits_at [1; 0] (code a / 64) ++ sextet_bits (code a mod 64)))).
  reflexivity.
Qed.

Lemma sextets_bits (s : str) :
  flat_map byte_bits s ++ repeat false (zero_bits s) = flat_map sextet_bits (sextets s).
Proof.
  induction s using list3_ind.
  - reflexivity.
  - pose proof (code_bound a).
    change (zero_bits [a]) with 4%nat. cbn [flat_map sextets]. rewrite !app_nil_r, (byte_6_2 a).
    replace (code a mod 4 * 16) with (code a mod 4 * 16 + 0) by lia.
    rewrite bits_24 by lia. rewrite <- !app_assoc. reflexivity.
  - pose proof (code_bound a). pose proof (code_bound b).
    change (zero_bits [a; b]) with 2%nat. cbn [flat_map sextets]. rewrite !app_nil_r, (byte_6_2 a), (byte_4_4 b).
    rewrite bits_24 by lia. replace (code b mod 16 * 4) with (code b mod 16 * 4 + 0) by lia.
    rewrite bits_42 by lia. rewrite <- !app_assoc. reflexivity.
  - pose proof (code_bound a). pose proof (code_bound b). pose proof (code_bound c).
    rewrite zero_bits_step. cbn [flat_map sextets]. rewrite <- !app_assoc, IHs.
    rewrite (byte_6_2 a), (byte_4_4 b), (byte_2_6 c).
    rewrite bits_24, bits_42 by lia. rewrite <- !app_assoc. reflexivity.
Qed.

Lemma sextet_bits_inj a b : a < 64 -> b < 64 -> sextet_bits a = sextet_bits b -> a = b.
Proof.
  intros Ha Hb. unfold sextet_bits. cbn [map]. intros [= H5 H4 H3 H2 H1 H0].
  apply N.bits_inj. intros n.
  destruct (N.ltb_spec n 6) as [L|L].
  - assert (n = 0 \/ n = 1 \/ n = 2 \/ n = 3 \/ n = 4 \/ n = 5) as
      [->|[->|[->|[->|[->| ->]]]]] by lia; assumption.
  - assert (forall x, x < 64 -> N.testbit x n = false) as Z.
    { intros x Hx. destruct (N.eq_dec x 0) as [->|Nz]; [apply N.bits_0|].
      apply N.bits_above_log2. apply N.lt_le_trans with 6; [|exact L].
      apply N.log2_lt_pow2; [lia|exact Hx]. }
    now rewrite !Z.
Qed.

Lemma flat_sextets_inj l1 : forall l2,
  Forall (fun n => n < 64) l1 -> Forall (fun n => n < 64) l2 ->
  flat_map sextet_bits l1 = flat_map sextet_bits l2 -> l1 = l2.
Proof.
  induction l1 as [|a l1 IH]; intros [|b l2] H1 H2 E; [reflexivity|discriminate..|].
  cbn [flat_map] in E.
  assert (forall x y u v : list bool, List.length x = 6%nat -> List.length y = 6%nat ->
            x ++ u = y ++ v -> x = y /\ u = v) as S6.
  { clear. intros x y u v Hx Hy E. split.
    - apply (f_equal (firstn 6)) in E. now rewrite !firstn_app, Hx, Hy, !firstn_O, !app_nil_r,
        !firstn_all2 in E by lia.
    - apply (f_equal (skipn 6)) in E. rewrite !skipn_app, Hx, Hy, (skipn_all2 x), (skipn_all2 y) in E by lia.
      exact E. }
  apply S6 in E; [|reflexivity|reflexivity]. destruct E as [E1 E2].
  inversion H1; inversion H2; subst. apply sextet_bits_inj in E1; try assumption. subst b.
  f_equal. now apply IH.
Qed.

Lemma flat_bytes_length (s : str) : List.length (flat_map byte_bits s) = (List.length s * 8)%nat.
Proof. induction s as [|a s IH]; [reflexivity|]. cbn [flat_map]. rewrite app_length, IH. cbn. lia. Qed.

Lemma flat_sextets_length l : List.length (flat_map sextet_bits l) = (List.length l * 6)%nat.
Proof. induction l as [|a s IH]; [reflexivity|]. cbn [flat_map]. rewrite app_length, IH. cbn. lia. Qed.

Lemma nth_alphabet al n c :
  List.length al = 64%nat -> nth_error al (N.to_nat n) = Some c <-> n < 64 /\ c = b64_char al n.
Proof.
  intros Hl. unfold b64_char. split.
  - intros H. assert (N.to_nat n < 64)%nat by (rewrite <- Hl; apply nth_error_Some; congruence).
    split; [lia|]. symmetry. now apply nth_error_nth.
  - intros [H ->]. apply nth_error_nth'. rewrite Hl. lia.
Qed.

Lemma nth_alphabet_list al q chars :
  List.length al = 64%nat ->
  Forall2 (fun n c => nth_error al (N.to_nat n) = Some c) q chars <->
  Forall (fun n => n < 64) q /\ chars = map (b64_char al) q.
Proof.
  intros Hl. split.
  - induction 1 as [|n c q chars H HF [IH1 IH2]]; [now split; [constructor|]|].
    apply nth_alphabet in H; [|exact Hl]. destruct H as [H ->].
    split; [now constructor|]. cbn [map]. now f_equal.
  - intros [H ->]. induction H as [|n q H HF IH]; cbn [map]; constructor; [|exact IH].
    now apply nth_alphabet.
Qed.

Lemma base64_text_iff al pad s t :
  List.length al = 64%nat -> base64_text al pad s t <-> t = b64_encode al pad s.
Proof.
  intros Hl. rewrite encode_sextets. destruct (sextets_length s) as [L1 L2]. split.
  - intros (q & chars & z & fl & -> & HF & HB & Hz & Hp).
    apply nth_alphabet_list in HF; [|exact Hl]. destruct HF as [HF ->].
    assert (z = zero_bits s) as ->.
    { pose proof (f_equal (@List.length bool) HB) as E.
      rewrite app_length, repeat_length, flat_bytes_length, flat_sextets_length in E.
      assert (zero_bits s < 6)%nat
        by (unfold zero_bits; destruct (List.length s mod 3)%nat as [|[|[|]]]; lia).
      lia. }
    rewrite sextets_bits in HB. apply flat_sextets_inj in HB; [|apply sextets_bound|exact HF].
    subst q. f_equal. rewrite map_length in Hp. destruct pad.
    + f_equal. assert (fill s < 4)%nat
        by (unfold fill; destruct (List.length s mod 3)%nat as [|[|[|]]]; lia).
      lia.
    + now subst fl.
  - intros ->. exists (sextets s), (map (b64_char al) (sextets s)), (zero_bits s), (if pad then fill s else O).
    split; [f_equal; now destruct pad|].
    split; [apply nth_alphabet_list; [exact Hl|]; split; [apply sextets_bound|reflexivity]|].
    split; [apply sextets_bits|].
    split; [unfold zero_bits; destruct (List.length s mod 3)%nat as [|[|[|]]]; lia|].
    destruct pad; [|reflexivity]. rewrite map_length. split; [|exact L2].
    unfold fill; destruct (List.length s mod 3)%nat as [|[|[|]]]; lia.
Qed.

Lemma base64_text_std s t : base64_text std_alphabet true s t <-> t = base64_encode s.
Proof. apply base64_text_iff. reflexivity. Qed.

Lemma base64_text_url s t : base64_text url_alphabet false s t <-> t = base64url_encode s.
Proof. apply base64_text_iff. reflexivity. Qed.
