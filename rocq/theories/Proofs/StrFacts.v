(** Facts about the string and list vocabulary of Model/Prelude.v. *)
From Coq Require Import Lia ZifyBool ZifyN ZifyNat Permutation.
From Verif Require Import Model.Prelude.

Lemma ok_inj {E A} (a b : A) : @Ok E A a = Ok b -> a = b.
Proof. now intros [= ->]. Qed.

Lemma some_inj {A} (a b : A) : Some a = Some b -> a = b.
Proof. now intros [= ->]. Qed.

Lemma str_eqb_eq a b : str_eqb a b = true <-> a = b.
Proof.
  revert b; induction a as [|x a IH]; intros [|y b]; simpl; split; try easy.
  - rewrite andb_true_iff, Ascii.eqb_eq, IH. intros [-> ->]; reflexivity.
  - intros [= -> ->]. rewrite andb_true_iff, Ascii.eqb_eq, IH. auto.
Qed.

Lemma str_eqb_refl a : str_eqb a a = true.
Proof. apply str_eqb_eq; reflexivity. Qed.

Lemma str_eqb_neq a b : str_eqb a b = false <-> a <> b.
Proof.
  rewrite <- str_eqb_eq. destruct (str_eqb a b); intuition congruence.
Qed.

Lemma str_eqb_sym a b : str_eqb a b = str_eqb b a.
Proof.
  destruct (str_eqb a b) eqn:E.
  - apply str_eqb_eq in E. subst. symmetry. apply str_eqb_refl.
  - symmetry. apply str_eqb_neq. apply str_eqb_neq in E. congruence.
Qed.

Lemma str_eq_dec (a b : str) : {a = b} + {a <> b}.
Proof.
  destruct (str_eqb a b) eqn:E; [left; now apply str_eqb_eq|right; now apply str_eqb_neq].
Defined.

Lemma opt_str_eqb_eq a b : opt_str_eqb a b = true <-> a = b.
Proof.
  destruct a, b; simpl; rewrite ?str_eqb_eq; split; try easy; try congruence.
Qed.

Lemma opt_str_eqb_neq a b : opt_str_eqb a b = false <-> a <> b.
Proof. rewrite <- opt_str_eqb_eq. destruct (opt_str_eqb a b); intuition congruence. Qed.

Lemma opt_str_eqb_refl a : opt_str_eqb a a = true.
Proof. apply opt_str_eqb_eq; reflexivity. Qed.

Lemma mem_str_In s l : mem_str s l = true <-> In s l.
Proof.
  induction l as [|x l IH]; simpl; [easy|].
  rewrite orb_true_iff, str_eqb_eq, IH. intuition.
Qed.

Lemma mem_str_not_In s l : mem_str s l = false <-> ~ In s l.
Proof. rewrite <- mem_str_In. destruct (mem_str s l); intuition congruence. Qed.

Lemma ascii_eqb_refl c : Ascii.eqb c c = true.
Proof. apply Ascii.eqb_refl. Qed.

Lemma ascii_eqb_neq a b : a <> b -> Ascii.eqb a b = false.
Proof. apply Ascii.eqb_neq. Qed.

(* ---------------- characters ---------------- *)

Lemma code_bound a : code a < 256.
Proof. apply N_ascii_bounded. Qed.

Lemma chr_code a : chr (code a) = a.
Proof. apply ascii_N_embedding. Qed.

Lemma code_chr n : n < 256 -> code (chr n) = n.
Proof. apply N_ascii_embedding. Qed.

Lemma code_inj a b : code a = code b -> a = b.
Proof. intros H. rewrite <- (chr_code a), <- (chr_code b), H. reflexivity. Qed.

Lemma ascii_eqb_code a b : Ascii.eqb a b = (code a =? code b).
Proof.
  destruct (Ascii.eqb_spec a b) as [->|H].
  - symmetry. apply N.eqb_refl.
  - symmetry. apply N.eqb_neq. intros E. apply H, code_inj, E.
Qed.

(** A property of all 256 bytes that is decidable by computation. *)
Definition all_bytes : list ascii := map (fun n => chr (N.of_nat n)) (seq 0 256).

Lemma all_bytes_complete b : In b all_bytes.
Proof.
  unfold all_bytes. apply in_map_iff. exists (N.to_nat (code b)). split.
  - rewrite N2Nat.id. apply chr_code.
  - apply in_seq. pose proof (code_bound b). lia.
Qed.

Lemma forall_bytes (P : ascii -> bool) : forallb P all_bytes = true -> forall b, P b = true.
Proof. intros H b. rewrite forallb_forall in H. apply H, all_bytes_complete. Qed.

(* ---------------- split / cut / count / join ---------------- *)

Lemma split_on_nonnil c s : split_on c s <> [].
Proof.
  destruct s as [|x r]; simpl; [easy|].
  destruct (Ascii.eqb x c); [easy|]. destruct (split_on c r); easy.
Qed.

Lemma split_on_none c s : ~ In c s -> split_on c s = [s].
Proof.
  induction s as [|x r IH]; simpl; intros H; [reflexivity|].
  rewrite ascii_eqb_neq by intuition congruence. rewrite IH by tauto. reflexivity.
Qed.

Lemma split_on_app c a b : ~ In c a -> split_on c (a ++ c :: b) = a :: split_on c b.
Proof.
  induction a as [|x r IH]; simpl; intros H.
  - rewrite ascii_eqb_refl. reflexivity.
  - rewrite ascii_eqb_neq by intuition congruence. rewrite IH by tauto. reflexivity.
Qed.

Lemma split_on_parts c s : Forall (fun p => ~ In c p) (split_on c s).
Proof.
  induction s as [|x r IH]; simpl.
  - repeat constructor. easy.
  - destruct (Ascii.eqb x c) eqn:E.
    + constructor; [easy|exact IH].
    + destruct (split_on c r) as [|h t] eqn:Es.
      * repeat constructor. intros [->|[]]. now rewrite ascii_eqb_refl in E.
      * inversion IH; subst. constructor; [|assumption].
        intros [->|Hin]; [now rewrite ascii_eqb_refl in E|tauto].
Qed.

Lemma join_split_on c s : join [c] (split_on c s) = s.
Proof.
  induction s as [|x r IH]; [reflexivity|].
  simpl split_on. destruct (Ascii.eqb x c) eqn:E.
  - apply Ascii.eqb_eq in E. subst.
    destruct (split_on c r) as [|h t] eqn:Es; [now apply split_on_nonnil in Es|].
    cbn [join]. cbn [join] in IH. simpl. now f_equal.
  - destruct (split_on c r) as [|h t] eqn:Es; [now apply split_on_nonnil in Es|].
    destruct t; cbn [join] in *; simpl; now f_equal.
Qed.

Lemma cut_some c s a b : cut c s = Some (a, b) <-> s = a ++ c :: b /\ ~ In c a.
Proof.
  revert a b; induction s as [|x r IH]; intros a b; simpl.
  - split; [easy|]. intros [H _]. destruct a; easy.
  - destruct (Ascii.eqb x c) eqn:E.
    + apply Ascii.eqb_eq in E. subst. split.
      * intros [= <- <-]. auto.
      * intros [H Hn]. destruct a as [|y a]; simpl in H; [injection H as ->; reflexivity|].
        injection H as Hx _. simpl in Hn. intuition congruence.
    + apply Ascii.eqb_neq in E. destruct (cut c r) as [[a' b']|] eqn:Ec.
      * split.
        -- intros [= <- <-]. destruct (IH a' b') as [H _]. destruct (H eq_refl) as [-> Hn].
           split; [reflexivity|]. simpl. intuition congruence.
        -- intros [H Hn]. destruct a as [|y a]; simpl in H; [congruence|].
           injection H as -> Hr. simpl in Hn.
           assert (Some (a', b') = Some (a, b)) as Hq by (apply IH; tauto).
           injection Hq as -> ->. reflexivity.
      * split; [easy|]. intros [H Hn]. destruct a as [|y a]; simpl in H; [congruence|].
        injection H as -> Hr. simpl in Hn.
        assert (None = Some (a, b)) as Hq by (apply IH; tauto). discriminate.
Qed.

Lemma cut_none c s : cut c s = None <-> ~ In c s.
Proof.
  induction s as [|x r IH]; simpl; [tauto|].
  destruct (Ascii.eqb x c) eqn:E.
  - apply Ascii.eqb_eq in E. split; [easy|tauto].
  - apply Ascii.eqb_neq in E. destruct (cut c r) as [[a b]|].
    + split; [easy|]. intros H. exfalso. destruct IH as [_ IH].
      assert (~ In c r) by tauto. specialize (IH H0). discriminate.
    + split; [|reflexivity]. intros _. intuition congruence.
Qed.

Lemma count_app c a b : count c (a ++ b) = (count c a + count c b)%nat.
Proof. induction a as [|x a IH]; simpl; [reflexivity|]. destruct (Ascii.eqb x c); lia. Qed.

Lemma count_zero c s : count c s = O <-> ~ In c s.
Proof.
  induction s as [|x r IH]; simpl; [tauto|].
  destruct (Ascii.eqb x c) eqn:E.
  - apply Ascii.eqb_eq in E. split; [easy|tauto].
  - apply Ascii.eqb_neq in E. rewrite IH. intuition congruence.
Qed.

Lemma length_split_on c s : List.length (split_on c s) = S (count c s).
Proof.
  induction s as [|x r IH]; simpl; [reflexivity|].
  destruct (Ascii.eqb x c); simpl; [now rewrite IH|].
  destruct (split_on c r) eqn:E; [now apply split_on_nonnil in E|]. exact IH.
Qed.

Lemma join_cons sep x l : l <> [] -> join sep (x :: l) = x ++ sep ++ join sep l.
Proof. destruct l; easy. Qed.

Lemma lit_cons a s : lit (String a s) = a :: lit s.
Proof. reflexivity. Qed.

Lemma lit_nil : lit EmptyString = [].
Proof. reflexivity. Qed.

(* ---------------- map_opt, hmap ---------------- *)

Lemma map_opt_some {A B} (f : A -> option B) l l' :
  map_opt f l = Some l' <-> Forall2 (fun x y => f x = Some y) l l'.
Proof.
  revert l'; induction l as [|x l IH]; intros l'; simpl.
  - split; [intros [= <-]; constructor|intros H; inversion H; reflexivity].
  - destruct (f x) as [y|] eqn:Ef.
    + destruct (map_opt f l) as [ys|] eqn:Em.
      * split.
        -- intros [= <-]. constructor; [assumption|]. apply IH. reflexivity.
        -- intros H; inversion H; subst. apply IH in H4. congruence.
      * split; [easy|]. intros H; inversion H; subst. apply IH in H4. discriminate.
    + split; [easy|]. intros H; inversion H; subst. congruence.
Qed.

Lemma map_opt_map {A B} (f : A -> B) (g : B -> option A) l :
  (forall x, In x l -> g (f x) = Some x) -> map_opt g (map f l) = Some l.
Proof.
  intros H. apply map_opt_some. induction l as [|x l IH]; simpl; constructor.
  - apply H. now left.
  - apply IH. intros y Hy. apply H. now right.
Qed.

Lemma hmap_insert_fresh {V} k (v : V) m : ~ In k (map fst m) -> hmap_insert k v m = m ++ [(k, v)].
Proof.
  induction m as [|[k' v'] m IH]; simpl; intros H; [reflexivity|].
  destruct (str_eqb k k') eqn:E.
  - apply str_eqb_eq in E. intuition congruence.
  - rewrite IH by tauto. reflexivity.
Qed.

Lemma fold_insert_nodup {V} (l acc : hmap V) :
  NoDup (map fst (acc ++ l)) ->
  fold_left (fun a kv => hmap_insert (fst kv) (snd kv) a) l acc = acc ++ l.
Proof.
  revert acc; induction l as [|[k v] l IH]; intros acc H; simpl.
  - now rewrite app_nil_r.
  - rewrite hmap_insert_fresh.
    + rewrite IH; rewrite <- app_assoc; [reflexivity|exact H].
    + rewrite map_app in H. simpl in H. apply NoDup_remove_2 in H.
      intros Hin. apply H. apply in_or_app. now left.
Qed.

Lemma hmap_insert_keys {V} k (v : V) m k' :
  In k' (map fst (hmap_insert k v m)) <-> k' = k \/ In k' (map fst m).
Proof.
  induction m as [|[k0 v0] m IH]; simpl; [intuition|].
  destruct (str_eqb k k0) eqn:E; simpl.
  - apply str_eqb_eq in E. subst. intuition.
  - rewrite IH. intuition.
Qed.

Lemma hmap_insert_nodup {V} k (v : V) m : NoDup (map fst m) -> NoDup (map fst (hmap_insert k v m)).
Proof.
  induction m as [|[k0 v0] m IH]; simpl; intros H.
  - repeat constructor. easy.
  - inversion H; subst. destruct (str_eqb k k0) eqn:E; simpl.
    + constructor; assumption.
    + constructor; [|auto]. rewrite hmap_insert_keys. apply str_eqb_neq in E. intuition congruence.
Qed.

Lemma fold_insert_wf {V} (l acc : hmap V) :
  NoDup (map fst acc) ->
  NoDup (map fst (fold_left (fun a kv => hmap_insert (fst kv) (snd kv) a) l acc)).
Proof.
  revert acc; induction l as [|[k v] l IH]; intros acc H; simpl; [exact H|].
  apply IH. now apply hmap_insert_nodup.
Qed.

Lemma assoc_In {V} k (v : V) m : assoc k m = Some v -> In (k, v) m.
Proof.
  induction m as [|[k' v'] m IH]; simpl; [easy|].
  destruct (str_eqb k k') eqn:E.
  - apply str_eqb_eq in E. intros [= ->]. subst. now left.
  - intros H. right. auto.
Qed.

Lemma assoc_none {V} k (m : list (str * V)) : assoc k m = None <-> ~ In k (map fst m).
Proof.
  induction m as [|[k' v'] m IH]; simpl; [tauto|].
  destruct (str_eqb k k') eqn:E.
  - apply str_eqb_eq in E. split; [easy|]. intuition congruence.
  - apply str_eqb_neq in E. rewrite IH. intuition congruence.
Qed.

Lemma assoc_nodup {V} k (v : V) m : NoDup (map fst m) -> (assoc k m = Some v <-> In (k, v) m).
Proof.
  intros H. split; [apply assoc_In|].
  induction m as [|[k' v'] m IH]; simpl; [easy|]. inversion H; subst.
  intros [[= -> ->]|Hin].
  - now rewrite str_eqb_refl.
  - destruct (str_eqb k k') eqn:E; [|auto].
    apply str_eqb_eq in E. subst. exfalso. apply H2. apply in_map_iff. now exists (k', v).
Qed.

(* ---------------- decimal numbers ---------------- *)

Definition is_dig (b : ascii) : bool := (48 <=? code b) && (code b <=? 57).

Definition val_acc (acc : N) (s : str) : N := fold_left (fun a b => a * 10 + (code b - 48)) s acc.

Lemma val_acc_app a s t : val_acc a (s ++ t) = val_acc (val_acc a s) t.
Proof. unfold val_acc. apply fold_left_app. Qed.

Lemma size_pos n : n <> 0 -> (0 < N.to_nat (N.size n))%nat.
Proof. destruct n as [|p]; [easy|]. intros _. simpl. destruct p; simpl; lia. Qed.

Lemma size_div10 n : 10 <= n -> (N.to_nat (N.size (n / 10)) < N.to_nat (N.size n))%nat.
Proof.
  intros H.
  assert (N.size (n / 10) < N.size n); [|lia].
  destruct (N.eq_dec (n / 10) 0) as [E|E].
  - rewrite E. destruct n; [lia|]. simpl. lia.
  - rewrite !N.size_log2 by lia. apply -> N.succ_lt_mono.
    apply N.lt_le_trans with (N.log2 (2 * (n / 10))).
    + rewrite N.log2_double by lia. lia.
    + apply N.log2_le_mono. pose proof (N.div_mod n 10). lia.
Qed.

Lemma code_digit d : d < 10 -> code (chr (48 + d)) = 48 + d.
Proof. intros. apply code_chr. lia. Qed.

Lemma dec_digits_spec fuel n acc :
  (N.to_nat (N.size n) < fuel)%nat ->
  exists ds,
    dec_digits fuel n acc = ds ++ acc
    /\ forallb is_dig ds = true
    /\ (forall a, val_acc a ds = a * 10 ^ N.of_nat (List.length ds) + n)
    /\ (exists d r, ds = d :: r /\ (code d = 48 -> ds = [d] /\ n = 0))
    /\ (n < 10 ^ N.of_nat (List.length ds))
    /\ (n <> 0 -> 10 ^ (N.of_nat (List.length ds) - 1) <= n).
Proof.
  revert n acc; induction fuel as [|f IH]; intros n acc Hf; [lia|].
  cbn [dec_digits]. cbv zeta. pose proof (N.mod_lt n 10) as Hm. pose proof (N.div_mod n 10) as Hdm.
  destruct (n <? 10) eqn:E.
  - apply N.ltb_lt in E. exists [chr (48 + n mod 10)]. rewrite (N.mod_small n 10) by lia.
    assert (code (chr (48 + n)) = 48 + n) as Hc by (apply code_digit; lia).
    repeat split.
    + cbn [forallb]. unfold is_dig. rewrite Hc. lia.
    + intros a. unfold val_acc. cbn [fold_left List.length]. rewrite Hc.
      change (N.of_nat 1) with 1. rewrite N.pow_1_r. lia.
    + exists (chr (48 + n)), []. split; [reflexivity|]. rewrite Hc. intros. split; [reflexivity|lia].
    + simpl. change (10 ^ 1) with 10. lia.
    + intros. change (N.of_nat (List.length [chr (48 + n)]) - 1) with 0. simpl. lia.
  - apply N.ltb_ge in E.
    destruct (IH (n / 10) (chr (48 + n mod 10) :: acc)) as (ds & H1 & H2 & H3 & (d & r & H4 & H5) & H6 & H7).
    { pose proof (size_div10 n E). lia. }
    exists (ds ++ [chr (48 + n mod 10)]).
    assert (code (chr (48 + n mod 10)) = 48 + n mod 10) as Hc by (apply code_digit; lia).
    assert (n / 10 <> 0) as Hnz by (pose proof (N.div_str_pos n 10); lia).
    repeat split.
    + rewrite H1, <- app_assoc. reflexivity.
    + rewrite forallb_app, H2. cbn [forallb andb]. unfold is_dig. rewrite Hc. lia.
    + intros a. rewrite val_acc_app, H3. unfold val_acc. cbn [fold_left]. rewrite Hc.
      rewrite app_length. cbn [List.length]. rewrite Nat2N.inj_add.
      change (N.of_nat 1) with 1. rewrite N.pow_add_r, N.pow_1_r.
      set (P := 10 ^ N.of_nat (Datatypes.length ds)) in *. nia.
    + exists d, (r ++ [chr (48 + n mod 10)]). split; [rewrite H4; reflexivity|].
      intros Hd. destruct (H5 Hd) as [_ H0]. lia.
    + rewrite app_length. cbn [List.length]. rewrite Nat2N.inj_add.
      change (N.of_nat 1) with 1. rewrite N.pow_add_r, N.pow_1_r. nia.
    + intros _. rewrite app_length. cbn [List.length]. rewrite Nat2N.inj_add.
      change (N.of_nat 1) with 1. rewrite N.add_sub.
      assert (List.length ds <> O) as Hl by (rewrite H4; simpl; lia).
      replace (N.of_nat (List.length ds)) with (1 + (N.of_nat (List.length ds) - 1)) by lia.
      rewrite N.pow_add_r, N.pow_1_r. specialize (H7 Hnz). nia.
Qed.

Lemma dec_spec n :
  forallb is_dig (dec n) = true
  /\ val_acc 0 (dec n) = n
  /\ (exists d r, dec n = d :: r /\ (code d = 48 -> dec n = [d] /\ n = 0))
  /\ n < 10 ^ N.of_nat (List.length (dec n))
  /\ (n <> 0 -> 10 ^ (N.of_nat (List.length (dec n)) - 1) <= n).
Proof.
  unfold dec.
  destruct (dec_digits_spec (S (N.to_nat (N.size n))) n []) as (ds & H1 & H2 & H3 & H4 & H5 & H6); [lia|].
  rewrite app_nil_r in H1. rewrite H1.
  split; [exact H2|]. split; [rewrite H3; lia|]. split; [exact H4|]. split; [exact H5|exact H6].
Qed.

Lemma dec_inj a b : dec a = dec b -> a = b.
Proof.
  intros H. destruct (dec_spec a) as (_ & Ha & _). destruct (dec_spec b) as (_ & Hb & _).
  rewrite H in Ha. congruence.
Qed.
