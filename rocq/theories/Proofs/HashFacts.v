(** What is fed to a hasher determines the value. *)
From Coq Require Import Lia.
From Verif Require Import Model.Prelude Model.Json Model.Types Model.Equality Model.Hashing
  Spec SpecJwt SpecDocuments Proofs.StrFacts Proofs.EqualityFacts.

(** A value is told apart from the bytes that follow it. *)
Definition told_apart {A : Type} (P : A -> Prop) (f : A -> str) : Prop :=
  forall a b r s, P a -> P b -> f a ++ r = f b ++ s -> a = b /\ r = s.

Lemma hash_bytes_apart k : told_apart (fun n => n < 256 ^ N.of_nat k) (hash_bytes k).
Proof.
  induction k as [|k IH]; intros a b r s A B E.
  - cbn in *. split; [lia|exact E].
  - rewrite Nnat.Nat2N.inj_succ, N.pow_succ_r' in A, B.
    cbn [hash_bytes app] in E. injection E as E0 E.
    apply (f_equal code) in E0. rewrite !code_chr in E0 by (apply N.mod_lt; lia).
    apply IH in E; [|apply N.div_lt_upper_bound; lia..]. destruct E as [E ->]. split; [|reflexivity].
    rewrite (N.div_mod a 256), (N.div_mod b 256) by lia. congruence.
Qed.

Lemma no_255 s : rust_string s -> ~ In (chr 255) s.
Proof.
  induction 1 as [|c bytes s V U _ IH]; [easy|]. rewrite in_app_iff. intros [I|I]; [|tauto].
  assert (Forall (fun b => code b < 255) bytes) as F.
  { destruct U; repeat apply Forall_cons; try apply Forall_nil; zify; Z.div_mod_to_equations; lia. }
  rewrite Forall_forall in F. apply F in I. rewrite code_chr in I by lia. lia.
Qed.

Lemma split_at_255 a b r s : ~ In (chr 255) a -> ~ In (chr 255) b ->
  a ++ chr 255 :: r = b ++ chr 255 :: s -> a = b /\ r = s.
Proof.
  revert b. induction a as [|x a IH]; intros [|y b] A B E; cbn in *.
  - injection E as ->. auto.
  - injection E as <- _. exfalso. auto.
  - injection E as -> _. exfalso. auto.
  - injection E as <- E. destruct (IH b) as [-> ->]; auto.
Qed.

Lemma hash_str_apart : told_apart rust_string hash_str.
Proof.
  intros a b r s A B E. unfold hash_str in E. rewrite <- !app_assoc in E. cbn [app] in E.
  apply split_at_255 in E; auto using no_255.
Qed.

Lemma hash_u32_apart : told_apart u32 hash_u32.
Proof. intros a b r s A B. exact (hash_bytes_apart 4 a b r s A B). Qed.

Lemma hash_option_apart {A : Type} (P : A -> Prop) (f : A -> str) :
  told_apart P f -> told_apart (on_some P) (hash_option f).
Proof.
  intros H [x|] [y|] r s X Y E; cbn [hash_option] in E.
  - rewrite <- !app_assoc in E. apply app_inv_head in E.
    apply H in E; [|auto..]. destruct E as [-> ->]. auto.
  - exfalso. cbn in E. discriminate E.
  - exfalso. cbn in E. discriminate E.
  - apply app_inv_head in E. auto.
Qed.

Lemma hash_subject_display_apart : told_apart subject_display_ok hash_subject_display.
Proof.
  intros [n l] [n' l'] r s [A1 A2] [B1 B2] E. unfold hash_subject_display in E. rewrite <- !app_assoc in E. cbn in *.
  apply (hash_option_apart _ _ hash_str_apart) in E; auto. destruct E as [-> E].
  apply (hash_option_apart _ _ hash_str_apart) in E; auto. destruct E as [-> ->]. auto.
Qed.

Lemma hash_c_nonce_apart : told_apart c_nonce_ok hash_c_nonce.
Proof.
  intros [n l] [n' l'] r s [A1 A2] [B1 B2] E. unfold hash_c_nonce in E. rewrite <- !app_assoc in E. cbn in *.
  apply hash_str_apart in E; auto. destruct E as [-> E].
  apply (hash_option_apart _ _ hash_u32_apart) in E; auto. destruct E as [-> ->]. auto.
Qed.

Section Instants.
Context (t : instant -> str) (T : told_apart (fun x => in_instant_range x = true) t).

Lemma hash_c_nonce_options_apart : told_apart c_nonce_options_ok (hash_c_nonce_options t).
Proof.
  intros [n l c] [n' l' c'] r s (A1 & A2 & A3) (B1 & B2 & B3) E. unfold hash_c_nonce_options in E.
  rewrite <- !app_assoc in E. cbn in *.
  apply hash_u32_apart in E; auto. destruct E as [-> E].
  apply hash_str_apart in E; auto. destruct E as [-> E].
  apply T in E; auto. destruct E as [-> ->]. auto.
Qed.

Lemma hash_eval_options_apart : told_apart eval_options_ok (hash_eval_options t).
Proof.
  intros [n l] [n' l'] r s [A1 A2] [B1 B2] E. unfold hash_eval_options in E. rewrite <- !app_assoc in E. cbn in *.
  apply (hash_option_apart _ _ hash_c_nonce_options_apart) in E; auto. destruct E as [-> E].
  apply (hash_option_apart _ _ hash_str_apart) in E; auto. destruct E as [-> ->]. auto.
Qed.
End Instants.

Lemma told_apart_iff {A : Type} (P : A -> Prop) (f : A -> str) (eqb : A -> A -> bool) :
  told_apart P f -> (forall a b, eqb a b = true <-> a = b) ->
  forall a b, P a -> P b -> (f a = f b <-> eqb a b = true).
Proof.
  intros T D a b Ha Hb. rewrite D. split; [|now intros ->].
  intros E. apply (T a b [] []); auto. now rewrite E.
Qed.

(** Fixed length and one to one. *)
Lemma fixed_apart {A : Type} (P : A -> Prop) (f : A -> str) :
  (forall a b, P a -> P b -> List.length (f a) = List.length (f b)) ->
  (forall a b, P a -> P b -> f a = f b -> a = b) -> told_apart P f.
Proof.
  intros L I a b r s Ha Hb E.
  assert (f a = f b) as F.
  { apply (f_equal (firstn (List.length (f a)))) in E.
    rewrite firstn_app, Nat.sub_diag, firstn_all, (L a b Ha Hb), firstn_app, Nat.sub_diag, firstn_all in E.
    cbn in E. now rewrite !app_nil_r in E. }
  split; [now apply I|]. rewrite F in E. now apply app_inv_head in E.
Qed.

Lemma hash_iff :
  (forall a b, subject_display_ok a -> subject_display_ok b ->
     (hash_subject_display a = hash_subject_display b <-> subject_display_eqb a b = true))
  /\ (forall a b, c_nonce_ok a -> c_nonce_ok b -> (hash_c_nonce a = hash_c_nonce b <-> c_nonce_eqb a b = true))
  /\ (forall t,
        (forall x y, in_instant_range x = true -> in_instant_range y = true -> List.length (t x) = List.length (t y)) ->
        (forall x y, in_instant_range x = true -> in_instant_range y = true -> t x = t y -> x = y) ->
        (forall a b, c_nonce_options_ok a -> c_nonce_options_ok b ->
           (hash_c_nonce_options t a = hash_c_nonce_options t b <-> c_nonce_options_eqb a b = true))
        /\ (forall a b, eval_options_ok a -> eval_options_ok b ->
           (hash_eval_options t a = hash_eval_options t b <-> eval_options_eqb a b = true))).
Proof.
  split; [exact (told_apart_iff _ _ _ hash_subject_display_apart subject_display_decides)|].
  split; [exact (told_apart_iff _ _ _ hash_c_nonce_apart c_nonce_decides)|].
  intros t L I. pose proof (fixed_apart _ t L I) as T.
  exact (conj (told_apart_iff _ _ _ (hash_c_nonce_options_apart t T) c_nonce_options_decides)
              (told_apart_iff _ _ _ (hash_eval_options_apart t T) eval_options_decides)).
Qed.

Lemma hash_equal :
  (forall a b, subject_display_eqb a b = true -> hash_subject_display a = hash_subject_display b)
  /\ (forall a b, c_nonce_eqb a b = true -> hash_c_nonce a = hash_c_nonce b)
  /\ (forall t a b, c_nonce_options_eqb a b = true -> hash_c_nonce_options t a = hash_c_nonce_options t b)
  /\ (forall t a b, eval_options_eqb a b = true -> hash_eval_options t a = hash_eval_options t b).
Proof.
  split; [intros a b E; apply subject_display_decides in E; now subst|].
  split; [intros a b E; apply c_nonce_decides in E; now subst|].
  split; intros t a b E; [apply c_nonce_options_decides in E|apply eval_options_decides in E]; now subst.
Qed.

Lemma instants_as_bytes : exists t : instant -> str,
  (forall x y, in_instant_range x = true -> in_instant_range y = true -> List.length (t x) = List.length (t y))
  /\ (forall x y, in_instant_range x = true -> in_instant_range y = true -> t x = t y -> x = y).
Proof.
  assert (L : forall k n, List.length (hash_bytes k n) = k).
  { induction k as [|k IH]; intros n; cbn; [reflexivity|]. now rewrite IH. }
  exists (fun x => hash_bytes 10 (Z.to_N (x - instant_min))). split.
  - intros x y _ _. now rewrite !L.
  - intros x y X Y E. unfold in_instant_range in X, Y. apply andb_true_iff in X, Y. rewrite !Z.leb_le in X, Y.
    destruct (hash_bytes_apart 10 (Z.to_N (x - instant_min)) (Z.to_N (y - instant_min)) [] []) as [H _].
    + unfold instant_min, instant_max in *. change (256 ^ N.of_nat 10) with 1208925819614629174706176. lia.
    + unfold instant_min, instant_max in *. change (256 ^ N.of_nat 10) with 1208925819614629174706176. lia.
    + now rewrite E.
    + lia.
Qed.
