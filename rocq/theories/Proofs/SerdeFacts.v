(** Serialization of every type gives a well-formed document of known depth, and
    deserialization inverts it. *)
From Coq Require Import Lia ZifyBool ZifyN ZifyNat Permutation Sorted.
From Verif Require Import Model.Prelude Model.Utf8 Model.Json Model.Types Model.Deps Model.Serde
  Spec SpecJwt Proofs.StrFacts Proofs.Utf8Facts Proofs.JsonFacts.

(* ---------------- key order, [serde_json::Value] ---------------- *)

Lemma str_ltb_lt a b : str_ltb a b = true <-> str_lt a b.
Proof.
  split.
  - revert b; induction a as [|x a IH]; intros [|y b]; cbn [str_ltb]; try discriminate.
    + constructor.
    + destruct (code x <? code y) eqn:E1; [intros _; apply sl_head; lia|].
      destruct (code y <? code x) eqn:E2; [discriminate|].
      intros H. assert (x = y) by (apply code_inj; lia). subst. apply sl_tail. auto.
  - induction 1 as [c s|x y s t H|x s t H IH]; cbn [str_ltb].
    + reflexivity.
    + replace (code x <? code y) with true by lia. reflexivity.
    + replace (code x <? code x) with false by lia. exact IH.
Qed.

Lemma str_lt_irrefl a : ~ str_lt a a.
Proof.
  intros H. induction a as [|x a IH]; inversion H; subst; [lia|auto].
Qed.

Lemma str_lt_trans a b c : str_lt a b -> str_lt b c -> str_lt a c.
Proof.
  intros H. revert c. induction H; intros z Hz; inversion Hz; subst.
  - apply sl_nil. - apply sl_nil.
  - apply sl_head. lia.
  - apply sl_head. lia.
  - apply sl_head. lia.
  - apply sl_tail. auto.
Qed.

Lemma str_lt_total a b : str_lt a b \/ a = b \/ str_lt b a.
Proof.
  revert b; induction a as [|x a IH]; intros [|y b].
  - auto. - left; constructor. - right; right; constructor.
  - destruct (N.lt_trichotomy (code x) (code y)) as [H|[H|H]].
    + left. now apply sl_head.
    + apply code_inj in H. subst. destruct (IH b) as [H|[->|H]]; auto using sl_tail.
    + right. right. now apply sl_head.
Qed.

Lemma bt_insert_last k v m : Forall (fun k' => str_lt k' k) (map fst m) -> bt_insert k v m = m ++ [(k, v)].
Proof.
  induction m as [|[k' v'] m IH]; cbn [map fst bt_insert app]; [reflexivity|].
  intros H. inversion H; subst.
  destruct (str_eqb k k') eqn:E.
  { apply str_eqb_eq in E. subst. now apply str_lt_irrefl in H2. }
  destruct (str_ltb k k') eqn:L.
  { apply str_ltb_lt in L. exfalso. apply (str_lt_irrefl k). eapply str_lt_trans; eassumption. }
  now rewrite IH.
Qed.

Lemma SS_app_inv {A} (R : A -> A -> Prop) l1 x l2 :
  StronglySorted R (l1 ++ x :: l2) -> Forall (fun y => R y x) l1.
Proof.
  induction l1 as [|a l1 IH]; intros H; [constructor|].
  cbn [app] in H. inversion H; subst. constructor; [|auto].
  rewrite Forall_app in H3. destruct H3 as [_ H3]. now inversion H3.
Qed.

Lemma fold_bt_sorted l acc :
  StronglySorted str_lt (map fst (acc ++ l)) ->
  fold_left (fun a kv => bt_insert (fst kv) (snd kv) a) l acc = acc ++ l.
Proof.
  revert acc; induction l as [|[k v] l IH]; intros acc H; cbn [fold_left fst snd].
  - now rewrite app_nil_r.
  - rewrite bt_insert_last.
    + rewrite IH; rewrite <- app_assoc; [reflexivity|exact H].
    + rewrite map_app in H. cbn [map fst] in H. eapply SS_app_inv, H.
Qed.

Lemma map_value_id (m : list (str * json)) :
  (forall k v, In (k, v) m -> to_value v = v) -> map (fun kv => (fst kv, to_value (snd kv))) m = m.
Proof.
  intros H. induction m as [|[k v] m IH]; [reflexivity|]. cbn [map fst snd].
  rewrite (H k v) by now left. rewrite IH; [reflexivity|]. intros k' v' Hin. apply (H k'). now right.
Qed.

Lemma to_value_id v : value v -> to_value v = v.
Proof.
  induction v using json_ind'; intros Hv; try reflexivity.
  - cbn [to_value]. f_equal. inversion Hv; subst. clear Hv. induction H as [|x l Hx Hl IH]; [reflexivity|].
    cbn [map]. f_equal; [apply Hx, H1; now left|]. apply IH. intros y Hy. apply H1. now right.
  - cbn [to_value]. f_equal. inversion Hv; subst. rewrite Forall_forall in H.
    rewrite map_value_id; [apply (fold_bt_sorted m []); exact H1|].
    intros k v Hin. apply (H (k, v) Hin). eapply H2, Hin.
Qed.

Lemma bt_insert_In k v m k' v' :
  In (k', v') (bt_insert k v m) -> (k' = k /\ v' = v) \/ In (k', v') m.
Proof.
  induction m as [|[k0 v0] m IH]; cbn [bt_insert].
  - intros [[= <- <-]|[]]. auto.
  - destruct (str_eqb k k0) eqn:E.
    + apply str_eqb_eq in E. subst. intros [[= <- <-]|H]; [auto|]. right. now right.
    + destruct (str_ltb k k0); intros [[= <- <-]|H]; auto.
      * right. now left.
      * destruct (IH H) as [?|?]; [auto|]. right. now right.
Qed.

Lemma bt_insert_keys k v m k' : In k' (map fst (bt_insert k v m)) <-> k' = k \/ In k' (map fst m).
Proof.
  induction m as [|[k0 v0] m IH]; cbn [bt_insert map fst].
  - simpl. intuition.
  - destruct (str_eqb k k0) eqn:E.
    + apply str_eqb_eq in E. subst. simpl. intuition.
    + destruct (str_ltb k k0); cbn [map fst In]; [intuition|]. rewrite IH. intuition.
Qed.

Lemma bt_insert_sorted k v m :
  StronglySorted str_lt (map fst m) -> StronglySorted str_lt (map fst (bt_insert k v m)).
Proof.
  induction m as [|[k0 v0] m IH]; cbn [bt_insert map fst]; intros H.
  - repeat constructor.
  - inversion H; subst. destruct (str_eqb k k0) eqn:E.
    + cbn [map fst]. constructor; assumption.
    + destruct (str_ltb k k0) eqn:L.
      * apply str_ltb_lt in L. cbn [map fst]. constructor; [exact H|].
        constructor; [exact L|]. rewrite Forall_forall in *. intros x Hx.
        eapply str_lt_trans; [exact L|auto].
      * cbn [map fst]. constructor; [auto|]. rewrite Forall_forall in *. intros x Hx.
        apply bt_insert_keys in Hx. destruct Hx as [->|Hx]; [|auto].
        destruct (str_lt_total k k0) as [Q|[Q|Q]]; [|subst; now rewrite str_eqb_refl in E|exact Q].
        apply str_ltb_lt in Q. congruence.
Qed.

Lemma fold_bt_value l acc :
  StronglySorted str_lt (map fst acc) -> (forall k v, In (k, v) acc -> value v) ->
  (forall k v, In (k, v) l -> value v) ->
  let r := fold_left (fun a kv => bt_insert (fst kv) (snd kv) a) l acc in
  StronglySorted str_lt (map fst r) /\ (forall k v, In (k, v) r -> value v).
Proof.
  cbv zeta. revert acc; induction l as [|[k v] l IH]; intros acc H1 H2 H3; cbn [fold_left fst snd].
  - auto.
  - apply IH.
    + now apply bt_insert_sorted.
    + intros k' v' Hin. apply bt_insert_In in Hin. destruct Hin as [[-> ->]|Hin]; [|eauto].
      apply (H3 k). now left.
    + intros k' v' Hin. apply (H3 k'). now right.
Qed.

Lemma to_value_value j : value (to_value j).
Proof.
  induction j using json_ind'; cbn [to_value]; try constructor.
  - intros x Hx. apply in_map_iff in Hx. destruct Hx as (y & <- & Hy). rewrite Forall_forall in H. auto.
  - eapply fold_bt_value; [constructor|easy|].
    intros k v Hin. apply in_map_iff in Hin. destruct Hin as ([k' v'] & [= <- <-] & Hy).
    rewrite Forall_forall in H. apply (H _ Hy).
  - eapply fold_bt_value; [constructor|easy|].
    intros k v Hin. apply in_map_iff in Hin. destruct Hin as ([k' v'] & [= <- <-] & Hy).
    rewrite Forall_forall in H. apply (H _ Hy).
Qed.

(* ---------------- well-formed documents of bounded depth ---------------- *)

Definition jgood (n : nat) (j : json) : Prop := json_ok j /\ (depth j <= n)%nat.

Definition mgood (n : nat) (kv : str * json) : Prop := rust_string (fst kv) /\ jgood n (snd kv).

Lemma jgood_mono n n' j : (n <= n')%nat -> jgood n j -> jgood n' j.
Proof. intros H [H1 H2]. split; [exact H1|lia]. Qed.

Lemma jgood_obj n m : Forall (mgood n) m -> jgood (S n) (JObj m).
Proof.
  intros H. rewrite Forall_forall in H. split.
  - apply ok_obj; intros k v Hin; destruct (H _ Hin) as [H1 [H2 _]]; assumption.
  - cbn [depth]. apply le_n_S, list_max_le. rewrite Forall_forall. intros x Hx.
    apply in_map_iff in Hx. destruct Hx as (kv & <- & Hin). destruct (H _ Hin) as [_ [_ H2]]. exact H2.
Qed.

Lemma jgood_arr n l : Forall (jgood n) l -> jgood (S n) (JArr l).
Proof.
  intros H. rewrite Forall_forall in H. split.
  - apply ok_arr. intros x Hx. apply (H x Hx).
  - cbn [depth]. apply le_n_S, list_max_le. rewrite Forall_forall. intros x Hx.
    apply in_map_iff in Hx. destruct Hx as (y & <- & Hin). apply (H _ Hin).
Qed.

Lemma jgood_null n : jgood n JNull.
Proof. split; [constructor|simpl; lia]. Qed.
Lemma jgood_bool n b : jgood n (JBool b).
Proof. split; [constructor|simpl; lia]. Qed.
Lemma jgood_str n s : rust_string s -> jgood n (JStr s).
Proof. split; [now constructor|simpl; lia]. Qed.
Lemma jgood_N n k : u64 k -> jgood n (ser_N k).
Proof.
  intros H. unfold u64 in H. change (2 ^ 64) with 18446744073709551616 in H.
  split; [constructor; lia|simpl; lia].
Qed.
Lemma u32_u64 k : u32 k -> u64 k.
Proof. unfold u32, u64. intros H. eapply N.lt_trans; [exact H|reflexivity]. Qed.

Lemma Forall_field (P : str * json -> Prop) k v : P (lit k, v) -> Forall P (field k v).
Proof. intros. repeat constructor. assumption. Qed.

Lemma Forall_field_opt {A} (P : str * json -> Prop) k (f : A -> json) o :
  (forall a, o = Some a -> P (lit k, f a)) -> Forall P (field_opt k f o).
Proof. intros H. destruct o; cbn [field_opt]; repeat constructor. now apply H. Qed.

Lemma jgood_ser_opt {A} n (f : A -> json) o : on_some (fun a => jgood n (f a)) o -> jgood n (ser_opt f o).
Proof. intros H. destruct o; cbn [ser_opt]; [now apply H|apply jgood_null]. Qed.

Lemma jgood_ser_list {A} n (f : A -> json) l :
  Forall (fun a => jgood n (f a)) l -> jgood (S n) (ser_list f l).
Proof. intros H. unfold ser_list. apply jgood_arr. rewrite Forall_map. exact H. Qed.

Lemma jgood_ser_hmap {A} n (f : A -> json) (m : hmap A) (P : A -> Prop) :
  hmap_ok P m -> (forall a, P a -> jgood n (f a)) -> jgood (S n) (ser_hmap f m).
Proof.
  intros [_ H] Hf. unfold ser_hmap. apply jgood_obj. rewrite Forall_map, Forall_forall.
  intros [k v] Hin. destruct (H k v Hin) as [H1 H2]. split; [exact H1|]. now apply Hf.
Qed.

Lemma on_some_impl {A} (P Q : A -> Prop) o : (forall a, P a -> Q a) -> on_some P o -> on_some Q o.
Proof. unfold on_some. auto. Qed.

(** Literal keys are ASCII. *)
Ltac jlit := apply rust_string_ascii; reflexivity.

Ltac jfields :=
  repeat match goal with
    | |- Forall _ (_ ++ _) => apply Forall_app; split
    | |- Forall _ (field _ _) => apply Forall_field; split; cbn [fst snd]; [jlit|]
    | |- Forall _ (field_opt _ _ _) => apply Forall_field_opt; intros; split; cbn [fst snd]; [jlit|]
    | |- Forall _ [] => apply Forall_nil
    end.

Lemma good_value n v : value_ok n v -> jgood n v.
Proof. intros (H1 & _ & H2). split; assumption. Qed.

Lemma good_strs n l : Forall rust_string l -> jgood (S n) (ser_list JStr l).
Proof.
  intros H. apply jgood_ser_list. eapply Forall_impl; [|exact H]. intros. now apply jgood_str.
Qed.

Lemma good_opt_str n o : on_some rust_string o -> jgood n (ser_opt JStr o).
Proof. intros H. apply jgood_ser_opt. eapply on_some_impl; [|exact H]. intros. now apply jgood_str. Qed.

Lemma good_ld_context n c : ld_context_ok n c -> jgood (S n) (ser_ld_context c).
Proof.
  destruct c; cbn [ld_context_ok ser_ld_context].
  - apply jgood_str.
  - intros H. eapply jgood_ser_hmap; [exact H|]. apply good_value.
Qed.

Lemma good_subject_display d : subject_display_ok d -> jgood 1 (ser_subject_display d).
Proof. intros [H1 H2]. unfold ser_subject_display. apply jgood_obj. jfields; apply jgood_str; auto. Qed.

Lemma good_subject s : subject_ok s -> jgood 3 (ser_subject s).
Proof.
  intros [H1 H2]. unfold ser_subject. apply jgood_obj. jfields.
  - apply jgood_bool.
  - apply jgood_str; auto.
  - apply jgood_ser_list. eapply Forall_impl; [|apply H2; eassumption].
    intros d Hd. now apply good_subject_display.
Qed.

Lemma good_subjects m : hmap_ok subject_ok m -> jgood 4 (ser_hmap ser_subject m).
Proof. intros H. eapply jgood_ser_hmap; [exact H|]. apply good_subject. Qed.

Lemma good_cfp_members n c : cfp_ok n c -> Forall (mgood (max 4 (2 + n))) (cfp_members c).
Proof.
  intros H.
  assert (forall l, Forall rust_string l -> jgood (max 4 (2 + n)) (ser_list JStr l)) as Hl.
  { intros l Hl. eapply jgood_mono; [|apply (good_strs 0 l Hl)]. lia. }
  assert (forall m, hmap_ok subject_ok m -> jgood (max 4 (2 + n)) (ser_hmap ser_subject m)) as Hm.
  { intros m Hm. eapply jgood_mono; [|apply good_subjects, Hm]. lia. }
  assert (jgood (max 4 (2 + n)) (JStr (cfp_tag c))) as Ht.
  { apply jgood_str. destruct c; jlit. }
  unfold cfp_members. destruct c; cbn [cfp_ok] in H.
  - destruct H as (H1 & H2 & H3). jfields; try exact Ht; auto.
  - destruct H as (H1 & H2 & H3). jfields; try exact Ht; auto.
  - destruct H as (H0 & H1 & H2 & H3). jfields; try exact Ht; auto.
    eapply jgood_mono; [|apply (jgood_ser_list (S n))]; [lia|].
    eapply Forall_impl; [|exact H0]. intros. now apply good_ld_context.
  - destruct H as (H1 & H2 & H3). jfields; try exact Ht; auto. now apply jgood_str.
Qed.

Lemma good_cfp n c : cfp_ok n c -> jgood (max 5 (3 + n)) (ser_cfp c).
Proof.
  intros H. unfold ser_cfp. eapply jgood_mono; [|apply jgood_obj, good_cfp_members, H]. lia.
Qed.

Lemma good_cfp_or_encoded n c : cfp_or_encoded_ok n c -> jgood (max 6 (4 + n)) (ser_cfp_or_encoded c).
Proof.
  destruct c; cbn [cfp_or_encoded_ok ser_cfp_or_encoded]; intros H.
  - eapply jgood_mono; [|apply jgood_obj]; [|jfields; apply good_cfp, H]. lia.
  - eapply jgood_mono; [|apply (jgood_obj 0)]; [lia|jfields; apply jgood_str, H].
Qed.

Lemma good_logo l : logo_ok l -> jgood 1 (ser_logo l).
Proof. intros [H1 H2]. apply jgood_obj. jfields; now apply good_opt_str. Qed.

Lemma good_display p : display_ok p -> jgood 2 (ser_display p).
Proof.
  intros (H1 & H2 & H3 & H4 & H5 & H6). apply jgood_obj. jfields; try now apply good_opt_str.
  - now apply jgood_str.
  - apply jgood_ser_opt. eapply on_some_impl; [|exact H3]. apply good_logo.
Qed.

Lemma good_opt_strs n o : on_some (Forall rust_string) o -> jgood (S n) (ser_opt (ser_list JStr) o).
Proof. intros H. apply jgood_ser_opt. eapply on_some_impl; [|exact H]. apply good_strs. Qed.

Lemma good_supported n s : supported_ok n s -> jgood (max 5 (3 + n)) (ser_supported s).
Proof.
  intros (H1 & H2 & H3 & H4 & H5). unfold ser_supported.
  eapply jgood_mono; [|apply (jgood_obj (max 4 (2 + n)))]; [lia|].
  jfields.
  - now apply good_cfp_members.
  - now apply good_opt_str.
  - eapply jgood_mono; [|now apply (good_opt_strs 0)]. lia.
  - eapply jgood_mono; [|now apply (good_opt_strs 0)]. lia.
  - eapply jgood_mono; [|apply (jgood_ser_opt 3)]; [lia|].
    eapply on_some_impl; [|exact H5]. intros l Hl. apply jgood_ser_list.
    eapply Forall_impl; [|exact Hl]. apply good_display.
Qed.

Lemma good_metadata n m : metadata_ok n m -> jgood (max 7 (5 + n)) (ser_metadata m).
Proof.
  intros (H1 & H2 & H3 & H4 & H5 & H6). unfold ser_metadata.
  eapply jgood_mono; [|apply (jgood_obj (max 6 (4 + n)))]; [lia|].
  jfields; try now apply good_opt_str.
  - now apply jgood_str.
  - now apply jgood_str.
  - eapply jgood_mono; [|apply jgood_ser_list]; [|eapply Forall_impl; [|exact H5]; apply good_supported]. lia.
  - destruct (im_additional_fields m) as [a|] eqn:E; [|constructor].
    destruct (H6 a eq_refl) as [_ H]. rewrite Forall_forall. intros [k v] Hin.
    destruct (H k v Hin) as [Hk Hv]. split; [exact Hk|]. eapply jgood_mono; [|apply good_value, Hv]. lia.
Qed.

Lemma good_proof p : proof_ok p -> jgood 1 (ser_proof p).
Proof. intros [H1 H2]. apply jgood_obj. jfields; now apply jgood_str. Qed.

Lemma good_request n r : request_ok n r -> jgood (max 5 (3 + n)) (ser_request r).
Proof.
  intros [H1 H2]. unfold ser_request.
  eapply jgood_mono; [|apply (jgood_obj (max 4 (2 + n)))]; [lia|]. jfields.
  - now apply good_cfp_members.
  - eapply jgood_mono; [|apply (jgood_ser_opt 1)]; [lia|]. eapply on_some_impl; [|exact H2]. apply good_proof.
Qed.

Lemma good_header h : header_ok h -> jgood 1 (ser_header h).
Proof.
  intros [H1 H2]. unfold ser_header. apply jgood_obj. jfields.
  - now apply jgood_str.
  - apply jgood_str. destruct (h_alg h); jlit.
  - destruct (h_additional h) as [[s|s|s]|]; cbn [additional_members]; jfields; apply jgood_str, H2; auto.
Qed.

Lemma good_body d b : dt_round_trips d -> body_instants_ok b -> body_ok b -> jgood 1 (ser_body d b).
Proof.
  intros Hd (I1 & I2 & I3) (H1 & H2 & H3 & H4). unfold ser_body. apply jgood_obj. jfields.
  - apply jgood_str; auto.
  - now apply jgood_str.
  - now apply good_opt_str.
  - apply jgood_str. now apply Hd.
  - now apply jgood_str.
  - apply jgood_str. apply Hd. auto.
  - apply jgood_str. apply Hd. auto.
Qed.

Lemma good_grant_type g : token_request_ok {| tr_grant_type := g |} -> jgood 1 (ser_grant_type g).
Proof.
  destruct g; unfold token_request_ok; cbn [tr_grant_type ser_grant_type]; intros H; apply jgood_obj; jfields.
  - apply jgood_str. jlit.
  - apply jgood_str. jlit.
  - now apply jgood_str.
  - apply jgood_ser_opt. eapply on_some_impl; [|apply H]. apply jgood_N.
Qed.

Lemma good_token_request r : token_request_ok r -> jgood 2 (ser_token_request r).
Proof. intros H. apply jgood_obj. jfields. apply good_grant_type. destruct r; exact H. Qed.

Lemma good_opt_u32 n o : on_some u32 o -> jgood n (ser_opt ser_N o).
Proof.
  intros H. apply jgood_ser_opt. eapply on_some_impl; [|exact H]. intros a Ha. apply jgood_N, u32_u64, Ha.
Qed.

Lemma good_token_success t : token_success_ok t -> jgood 1 (ser_token_success t).
Proof.
  intros (H1 & H2 & H3 & H4 & H5 & H6). apply jgood_obj. jfields;
    try (now apply good_opt_str); try (now apply good_opt_u32).
  - now apply jgood_str.
  - destruct (ts_token_type t). apply jgood_str. jlit.
  - apply jgood_ser_opt. intros b _. apply jgood_bool.
Qed.

Lemma good_credential_or_id n c : credential_or_id_ok n c -> jgood (max 5 (3 + n)) (ser_credential_or_id c).
Proof. destruct c; cbn; [apply jgood_str|apply good_cfp]. Qed.

Lemma good_grants g : on_some auth_flow_ok (og_auth g) -> on_some preauth_flow_ok (og_pre g) ->
  jgood 2 (ser_grants g).
Proof.
  intros H1 H2. apply jgood_obj. jfields.
  - apply jgood_obj. jfields. apply good_opt_str. apply H1. assumption.
  - apply jgood_obj. jfields; [|apply jgood_bool]. apply jgood_str. now apply H2.
Qed.

Lemma good_offer n o : offer_ok n o -> jgood (max 7 (5 + n)) (ser_offer o).
Proof.
  intros (H1 & H2 & H3 & H4). unfold ser_offer.
  eapply jgood_mono; [|apply (jgood_obj (max 6 (4 + n)))]; [lia|]. jfields.
  - now apply jgood_str.
  - eapply jgood_mono; [|apply jgood_ser_list]; [|eapply Forall_impl; [|exact H2]; apply good_credential_or_id]. lia.
  - eapply jgood_mono; [|now apply good_grants]. lia.
Qed.

Lemma good_credential_success n r : credential_success_ok n r -> jgood (max 7 (5 + n)) (ser_credential_success r).
Proof.
  intros (H1 & H2 & H3 & H4 & H5). unfold ser_credential_success.
  eapply jgood_mono; [|apply (jgood_obj (max 6 (4 + n)))]; [lia|]. jfields; try (now apply good_opt_str).
  - now apply jgood_str.
  - apply jgood_ser_opt. eapply on_some_impl; [|exact H2]. apply good_cfp_or_encoded.
  - now apply good_opt_u32.
Qed.

(** Reading back what was written. *)
Lemma read_written n j ig : jgood n j -> (n <= 127)%nat -> parse_doc ig (print j) = Some j.
Proof. intros [H1 H2] Hn. apply parse_doc_print; [exact H1|lia]. Qed.

(* ---------------- decoders invert encoders ---------------- *)

Lemma opt_ser_opt {A} (f : A -> json) d o :
  on_some (fun a => d (f a) = Some a /\ f a <> JNull) o -> opt d (Some (ser_opt f o)) = Some o.
Proof.
  intros H. destruct o as [a|]; cbn [ser_opt opt]; [|reflexivity].
  destruct (H a eq_refl) as [H1 H2]. destruct (f a); try easy; rewrite H1; reflexivity.
Qed.

Lemma opt_some {A} (d : json -> option A) j a : d j = Some a -> j <> JNull -> opt d (Some j) = Some (Some a).
Proof. intros H Hn. unfold opt. destruct j; try easy; rewrite H; reflexivity. Qed.

Lemma opt_str_rt o : opt de_str (Some (ser_opt JStr o)) = Some o.
Proof. apply opt_ser_opt. intros a _. split; [reflexivity|discriminate]. Qed.

Lemma de_uint_rt b n : n < b -> de_uint b (ser_N n) = Some n.
Proof.
  intros H. unfold de_uint, ser_N.
  replace ((0 <=? Z.of_N n) && (Z.of_N n <? Z.of_N b))%Z with true by lia.
  now rewrite N2Z.id.
Qed.

Lemma de_u32_rt n : u32 n -> de_u32 (ser_N n) = Some n.
Proof. intros H. apply de_uint_rt. exact H. Qed.
Lemma de_u64_rt n : u64 n -> de_u64 (ser_N n) = Some n.
Proof. intros H. apply de_uint_rt. exact H. Qed.

Lemma opt_u32_rt o : on_some u32 o -> opt de_u32 (Some (ser_opt ser_N o)) = Some o.
Proof.
  intros H. apply opt_ser_opt. intros a Ha. split; [apply de_u32_rt; auto|discriminate].
Qed.
Lemma opt_u64_rt o : on_some u64 o -> opt de_u64 (Some (ser_opt ser_N o)) = Some o.
Proof.
  intros H. apply opt_ser_opt. intros a Ha. split; [apply de_u64_rt; auto|discriminate].
Qed.
Lemma opt_bool_rt o : opt de_bool (Some (ser_opt JBool o)) = Some o.
Proof. apply opt_ser_opt. intros a _. split; [reflexivity|discriminate]. Qed.

Lemma de_list_rt {A} (f : A -> json) d l :
  Forall (fun a => d (f a) = Some a) l -> de_list d (ser_list f l) = Some l.
Proof.
  intros H. unfold de_list, ser_list. apply map_opt_map. rewrite Forall_forall in H. exact H.
Qed.

Lemma de_strs_rt l : de_list de_str (ser_list JStr l) = Some l.
Proof. apply de_list_rt. rewrite Forall_forall. reflexivity. Qed.

Lemma opt_strs_rt o : opt (de_list de_str) (Some (ser_opt (ser_list JStr) o)) = Some o.
Proof. apply opt_ser_opt. intros a _. split; [apply de_strs_rt|discriminate]. Qed.

Lemma de_hmap_rt {A} (f : A -> json) d (m : hmap A) (P : A -> Prop) :
  hmap_ok P m -> (forall a, P a -> d (f a) = Some a) -> de_hmap d (ser_hmap f m) = Some m.
Proof.
  intros [Hnd H] Hd. unfold de_hmap, ser_hmap.
  replace (map_opt (fun kv => let* v := d (snd kv) in Some (fst kv, v))
             (map (fun kv => (fst kv, f (snd kv))) m)) with (Some m).
  - cbn [opt_bind]. f_equal. apply (fold_insert_nodup m []). exact Hnd.
  - symmetry. apply map_opt_map. intros [k v] Hin. cbn [fst snd].
    rewrite Hd by (apply (H k v Hin)). reflexivity.
Qed.

Lemma ld_context_rt n c : ld_context_ok n c -> de_ld_context (ser_ld_context c) = Some c.
Proof.
  destruct c; cbn [ld_context_ok ser_ld_context]; intros H; [reflexivity|].
  unfold de_ld_context. change (ser_hmap (fun v => v) m) with (JObj (map (fun kv => (fst kv, snd kv)) m)).
  cbv iota. change (JObj (map (fun kv => (fst kv, snd kv)) m)) with (ser_hmap (fun v : json => v) m).
  rewrite (de_hmap_rt (fun v => v) de_value m (value_ok n) H); [reflexivity|].
  intros v (_ & Hv & _). unfold de_value. now rewrite to_value_id.
Qed.

Lemma subject_display_rt d : de_subject_display (ser_subject_display d) = Some d.
Proof. destruct d as [[n|] [l|]]; reflexivity. Qed.

Lemma subject_rt s : de_subject (ser_subject s) = Some s.
Proof.
  assert (forall l, opt (de_list de_subject_display) (Some (ser_list ser_subject_display l)) = Some (Some l)) as H.
  { intros l. apply opt_some; [|discriminate]. apply de_list_rt. rewrite Forall_forall. intros.
    apply subject_display_rt. }
  destruct s as [[m|] [v|] [l|]]; try reflexivity;
    unfold ser_subject, de_subject; cbn [cs_mandatory cs_value_type cs_display field_opt app];
    (match goal with |- context [fields_of ?a ?b] =>
       let r := eval cbv -[ser_list ser_subject_display] in (fields_of a b) in change (fields_of a b) with r end);
    cbv iota; rewrite H; reflexivity.
Qed.

Lemma subjects_rt m : hmap_ok subject_ok m -> de_hmap de_subject (ser_hmap ser_subject m) = Some m.
Proof. intros H. eapply de_hmap_rt; [exact H|]. intros. apply subject_rt. Qed.

Lemma opt_subjects_rt m : hmap_ok subject_ok m ->
  opt (de_hmap de_subject) (Some (ser_hmap ser_subject m)) = Some (Some m).
Proof. intros H. apply opt_some; [now apply subjects_rt|discriminate]. Qed.

Lemma opt_some_strs l : opt (de_list de_str) (Some (ser_list JStr l)) = Some (Some l).
Proof. apply opt_some; [apply de_strs_rt|discriminate]. Qed.

(** A member list seen by a struct visitor: evaluate the lookups. *)
Ltac eval_fields :=
  match goal with
  | |- context [fields_of ?a ?b] =>
      let r := eval cbv -[ser_list ser_hmap ser_subject ser_ld_context ser_opt ser_N ser_logo
                          ser_display ser_supported ser_credential_or_id ser_grants ser_cfp_or_encoded
                          ser_proof ser_instant ser_auth_flow ser_preauth_flow ser_cfp
                          ser_grant_type ser_token_type] in (fields_of a b) in
      change (fields_of a b) with r
  end; cbv iota.

Definition cfp_body (c : cfp) : list (str * json) :=
  match c with
  | JwtVcJson types subject order | JwtVcJsonLd types subject order =>
      field "types" (ser_list JStr types)
      ++ field_opt "credentialSubject" (ser_hmap ser_subject) subject
      ++ field_opt "order" (ser_list JStr) order
  | LdpVc context types subject order =>
      field "@context" (ser_list ser_ld_context context)
      ++ field "types" (ser_list JStr types)
      ++ field_opt "credentialSubject" (ser_hmap ser_subject) subject
      ++ field_opt "order" (ser_list JStr) order
  | MsoMdoc doctype claims order =>
      field "doctype" (JStr doctype)
      ++ field_opt "claims" (ser_hmap ser_subject) claims
      ++ field_opt "order" (ser_list JStr) order
  end.

Lemma cfp_members_body c : cfp_members c = field "format" (JStr (cfp_tag c)) ++ cfp_body c.
Proof. destruct c; reflexivity. Qed.

Lemma split_tag_cfp ix c : split_tag ix (lit "format") (JObj (cfp_members c)) = Some (cfp_tag c, JObj (cfp_body c)).
Proof. destruct c as [ty [su|] [od|]|ty [su|] [od|]|cx ty [su|] [od|]|dt [cl|] [od|]]; reflexivity. Qed.

(** Comparisons of literals. *)
Ltac eval_lits :=
  repeat match goal with
  | |- context [str_eqb ?a ?b] =>
      let r := eval vm_compute in (str_eqb a b) in
      match r with true => idtac | false => idtac end;
      change (str_eqb a b) with r
  end; cbv iota.

Lemma de_cfp_members ix n c : cfp_ok n c -> de_cfp_tagged ix (JObj (cfp_members c)) = Some c.
Proof.
  intros H. unfold de_cfp_tagged. rewrite split_tag_cfp. cbn [opt_bind].
  destruct c as [ty su od|ty su od|cx ty su od|dt cl od]; cbn [cfp_ok] in H; cbn [cfp_tag];
    eval_lits.
  - destruct H as (H1 & H2 & H3). destruct su as [su|], od as [od|]; eval_fields;
      cbn [req]; rewrite ?de_strs_rt, ?opt_some_strs, ?opt_subjects_rt by (apply H2; reflexivity);
      reflexivity.
  - destruct H as (H1 & H2 & H3). destruct su as [su|], od as [od|]; eval_fields;
      cbn [req]; rewrite ?de_strs_rt, ?opt_some_strs, ?opt_subjects_rt by (apply H2; reflexivity);
      reflexivity.
  - destruct H as (H0 & H1 & H2 & H3).
    assert (de_list de_ld_context (ser_list ser_ld_context cx) = Some cx) as Hcx.
    { apply de_list_rt. eapply Forall_impl; [|exact H0]. intros. eapply ld_context_rt; eassumption. }
    destruct su as [su|], od as [od|]; eval_fields;
      cbn [req]; rewrite ?Hcx, ?de_strs_rt, ?opt_some_strs, ?opt_subjects_rt by (apply H2; reflexivity);
      reflexivity.
  - destruct H as (H1 & H2 & H3). destruct cl as [su|], od as [od|]; eval_fields;
      cbn [req de_str opt_bind]; rewrite ?opt_some_strs, ?opt_subjects_rt by (apply H2; reflexivity);
      reflexivity.
Qed.

Lemma cfp_rt n c : cfp_ok n c -> de_cfp (ser_cfp c) = Some c.
Proof. apply de_cfp_members. Qed.

Lemma cfp_or_encoded_rt n c : cfp_or_encoded_ok n c -> de_cfp_or_encoded (ser_cfp_or_encoded c) = Some c.
Proof.
  destruct c; cbn [cfp_or_encoded_ok]; intros H; unfold ser_cfp_or_encoded, de_cfp_or_encoded; cbn [field].
  - eval_lits. rewrite (cfp_rt n) by assumption. reflexivity.
  - reflexivity.
Qed.

Lemma logo_rt l : de_logo (ser_logo l) = Some l.
Proof. unfold de_logo, ser_logo. eval_fields. rewrite !opt_str_rt. destruct l; reflexivity. Qed.

Lemma display_rt p : de_display (ser_display p) = Some p.
Proof.
  unfold de_display, ser_display. eval_fields. cbn [req de_str opt_bind].
  rewrite !opt_str_rt. cbn [opt_bind].
  rewrite (opt_ser_opt ser_logo de_logo) by (intros l _; split; [apply logo_rt|discriminate]).
  destruct p; reflexivity.
Qed.

(** Own members of a struct with flattened fields. *)
Lemma filter_none {A} (f : A -> bool) l : (forall x, In x l -> f x = false) -> filter f l = [].
Proof.
  induction l as [|x l IH]; intros H; [reflexivity|]. cbn [filter]. rewrite (H x) by now left.
  apply IH. intros. apply H. now right.
Qed.

Lemma filter_all {A} (f : A -> bool) l : (forall x, In x l -> f x = true) -> filter f l = l.
Proof.
  induction l as [|x l IH]; intros H; [reflexivity|]. cbn [filter]. rewrite (H x) by now left.
  f_equal. apply IH. intros. apply H. now right.
Qed.

Definition cfp_keys : list str :=
  [lit "format"; lit "types"; lit "credentialSubject"; lit "order"; lit "@context"; lit "doctype"; lit "claims"].

Lemma cfp_members_keys c k v : In (k, v) (cfp_members c) -> In k cfp_keys.
Proof.
  assert (forallb (fun kv => mem_str (fst kv) cfp_keys) (cfp_members c) = true) as H.
  { destruct c as [ty [su|] [od|]|ty [su|] [od|]|cx ty [su|] [od|]|dt [cl|] [od|]]; reflexivity. }
  rewrite forallb_forall in H. intros Hin. apply H in Hin. now apply mem_str_In in Hin.
Qed.

Lemma get_unique_app_l k m1 m2 :
  (forall k' v, In (k', v) m1 -> k' <> k) -> get_unique k (m1 ++ m2) = get_unique k m2.
Proof.
  intros H. unfold get_unique. rewrite filter_app, (filter_none _ m1); [reflexivity|].
  intros [k' v] Hin. apply str_eqb_neq. intros E. cbn [fst] in E. eapply H; [exact Hin|congruence].
Qed.

Lemma get_unique_app_r k m1 m2 :
  (forall k' v, In (k', v) m2 -> k' <> k) -> get_unique k (m1 ++ m2) = get_unique k m1.
Proof.
  intros H. unfold get_unique. rewrite filter_app, (filter_none _ m2), app_nil_r; [reflexivity|].
  intros [k' v] Hin. apply str_eqb_neq. intros E. cbn [fst] in E. eapply H; [exact Hin|congruence].
Qed.

Lemma map_opt_ext {A B} (f g : A -> option B) l : (forall x, In x l -> f x = g x) -> map_opt f l = map_opt g l.
Proof.
  induction l as [|x l IH]; intros H; [reflexivity|]. cbn [map_opt]. rewrite (H x) by now left.
  rewrite IH; [reflexivity|]. intros. apply H. now right.
Qed.

Lemma fields_of_app_l names m1 m2 :
  (forall k v, In (k, v) m1 -> ~ In k names) -> fields_of names (JObj (m1 ++ m2)) = fields_of names (JObj m2).
Proof.
  intros H. cbn [fields_of]. apply map_opt_ext. intros k Hk. apply get_unique_app_l.
  intros k' v Hin ->. eapply H; eassumption.
Qed.

Lemma fields_of_app_r names m1 m2 :
  (forall k v, In (k, v) m2 -> ~ In k names) -> fields_of names (JObj (m1 ++ m2)) = fields_of names (JObj m1).
Proof.
  intros H. cbn [fields_of]. apply map_opt_ext. intros k Hk. apply get_unique_app_r.
  intros k' v Hin ->. eapply H; eassumption.
Qed.

Lemma other_members_app own m1 m2 : other_members own (m1 ++ m2) = other_members own m1 ++ other_members own m2.
Proof. apply filter_app. Qed.

Lemma other_members_all own m : (forall k v, In (k, v) m -> ~ In k own) -> other_members own m = m.
Proof.
  intros H. apply filter_all. intros [k v] Hin. cbn [fst]. apply negb_true_iff, mem_str_not_In. eauto.
Qed.

(** Disjoint literal name lists. *)
Definition disjointb (a b : list str) : bool := forallb (fun k => negb (mem_str k b)) a.

Lemma disjointb_spec a b : disjointb a b = true -> forall k, In k a -> ~ In k b.
Proof.
  unfold disjointb. rewrite forallb_forall. intros H k Hk. apply H in Hk.
  now apply negb_true_iff, mem_str_not_In in Hk.
Qed.

Lemma cfp_members_disjoint c names : disjointb cfp_keys names = true ->
  forall k v, In (k, v) (cfp_members c) -> ~ In k names.
Proof. intros H k v Hin. apply cfp_members_keys in Hin. eapply disjointb_spec; eassumption. Qed.

Lemma supported_rt n s : supported_ok n s -> de_supported (ser_supported s) = Some s.
Proof.
  intros (H1 & H2 & H3 & H4 & H5). unfold ser_supported, de_supported.
  rewrite fields_of_app_l by (apply cfp_members_disjoint; reflexivity).
  unfold supported_fields at 1. eval_fields.
  rewrite opt_str_rt, !opt_strs_rt. cbn [opt_bind].
  rewrite (opt_ser_opt (ser_list ser_display) (de_list de_display)).
  2: { intros l _. split; [|discriminate]. apply de_list_rt. rewrite Forall_forall. intros. apply display_rt. }
  cbn [opt_bind]. rewrite other_members_app.
  rewrite (other_members_all _ (cfp_members (sup_format s))) by (apply cfp_members_disjoint; reflexivity).
  match goal with |- context [other_members supported_fields ?x] =>
    change (other_members supported_fields x) with (@nil (str * json)) end.
  rewrite app_nil_r. unfold de_cfp_buffered. rewrite (de_cfp_members _ n) by assumption. destruct s; reflexivity.
Qed.

Lemma metadata_rt n m a :
  metadata_ok n m -> im_additional_fields m = Some a -> (forall k, In k (map fst a) -> ~ In k metadata_fields) ->
  de_metadata (ser_metadata m) = Some m.
Proof.
  intros (H1 & H2 & H3 & H4 & H5 & H6) Ha Hk. unfold ser_metadata, de_metadata. rewrite Ha.
  rewrite !app_assoc. rewrite fields_of_app_r.
  2: { intros k v Hin. apply Hk, in_map_iff. now exists (k, v). }
  rewrite <- !app_assoc. unfold metadata_fields at 1. eval_fields.
  cbn [req de_str opt_bind]. rewrite !opt_str_rt. cbn [opt_bind].
  rewrite de_list_rt by (eapply Forall_impl; [|exact H5]; intros; eapply supported_rt; eassumption).
  cbn [opt_bind]. rewrite !app_assoc, other_members_app.
  rewrite (other_members_all _ a).
  2: { intros k v Hin. apply Hk, in_map_iff. now exists (k, v). }
  match goal with |- context [other_members metadata_fields ?x] =>
    change (other_members metadata_fields x) with (@nil (str * json)) end.
  cbn [app].
  assert (JObj a = ser_hmap (fun v : json => v) a) as ->.
  { unfold ser_hmap. f_equal. rewrite <- (map_id a) at 1. apply map_ext. now intros []. }
  rewrite (de_hmap_rt _ _ a (value_ok n)); [|now apply H6|].
  - destruct m; cbn in *. subst. reflexivity.
  - intros v (_ & Hv & _). unfold de_value. now rewrite to_value_id.
Qed.

Lemma proof_rt p : de_proof (ser_proof p) = Some p.
Proof. destruct p; reflexivity. Qed.

Lemma request_rt n r : request_ok n r -> de_request (ser_request r) = Some r.
Proof.
  intros [H1 H2]. unfold ser_request, de_request.
  rewrite get_unique_app_l.
  2: { intros k v Hin ->. eapply (cfp_members_disjoint _ [lit "proof"]); [reflexivity|exact Hin|now left]. }
  change (get_unique (lit "proof") (field "proof" (ser_opt ser_proof (cr_proof r))))
    with (Some (Some (ser_opt ser_proof (cr_proof r)))). cbn [opt_bind].
  rewrite (opt_ser_opt ser_proof de_proof) by (intros l _; split; [apply proof_rt|discriminate]).
  cbn [opt_bind]. rewrite other_members_app.
  rewrite (other_members_all _ (cfp_members (cr_format r))) by (apply cfp_members_disjoint; reflexivity).
  match goal with |- context [other_members _ (field ?x ?y)] =>
    change (other_members [lit "proof"] (field x y)) with (@nil (str * json)) end.
  rewrite app_nil_r. unfold de_cfp_buffered. rewrite (de_cfp_members _ n) by assumption. destruct r; reflexivity.
Qed.

Lemma alg_rt a : de_alg (JStr (alg_name a)) = Some a.
Proof. destruct a; reflexivity. Qed.

Lemma header_rt h : de_header (ser_header h) = Some h.
Proof. destruct h as [t a [[s|s|s]|]]; destruct a; reflexivity. Qed.

Lemma body_rt d b : dt_round_trips d -> body_instants_ok b -> de_body d (ser_body d b) = Some b.
Proof.
  intros Hd (I1 & I2 & I3). destruct b as [iss aud sub iat nonce nbf exp]. cbn in I1, I2, I3.
  assert (forall t, in_instant_range t = true -> de_instant d (ser_instant d t) = Some t) as Hi.
  { intros t Ht. cbn. now apply Hd. }
  assert (forall t, in_instant_range t = true -> opt (de_instant d) (Some (ser_instant d t)) = Some (Some t)) as Ho.
  { intros t Ht. apply opt_some; [now apply Hi|discriminate]. }
  unfold de_body, ser_body. cbn [b_iss b_aud b_sub b_iat b_nonce b_nbf b_exp].
  destruct iss as [iss|], nbf as [nbf|], exp as [exp|]; unfold body_fields; eval_fields;
    cbn [req]; rewrite opt_str_rt, Hi, ?Ho by auto; reflexivity.
Qed.

Lemma grant_type_rt g : token_request_ok {| tr_grant_type := g |} -> de_grant_type (ser_grant_type g) = Some g.
Proof.
  destruct g as [|c p]; [reflexivity|]. unfold token_request_ok. cbn [tr_grant_type]. intros [H1 H2].
  unfold de_grant_type, ser_grant_type.
  match goal with |- context [split_tag ?i ?a ?b] =>
    change (split_tag i a b) with (Some (grant_pre_authorized,
      JObj (field "pre_authorized_code" (JStr c) ++ field "user_pin" (ser_opt ser_N p)))) end.
  cbn [opt_bind]. eval_lits. eval_fields. cbn [req de_str opt_bind]. rewrite opt_u64_rt by assumption. reflexivity.
Qed.

Lemma token_request_rt r : token_request_ok r -> de_token_request (ser_token_request r) = Some r.
Proof.
  intros H. unfold de_token_request, ser_token_request. eval_fields. cbn [req].
  rewrite grant_type_rt by (destruct r; exact H). destruct r; reflexivity.
Qed.

Lemma token_success_rt t : token_success_ok t -> de_token_success (ser_token_success t) = Some t.
Proof.
  intros (H1 & H2 & H3 & H4 & H5 & H6). unfold de_token_success, ser_token_success, token_success_fields.
  eval_fields. cbn [req de_str opt_bind].
  rewrite !opt_u32_rt, !opt_str_rt, opt_bool_rt by assumption.
  destruct t as [? [] ? ? ? ? ? ?]; reflexivity.
Qed.

Lemma credential_or_id_rt n c : credential_or_id_ok n c -> de_credential_or_id (ser_credential_or_id c) = Some c.
Proof.
  destruct c; cbn [credential_or_id_ok]; intros H; [reflexivity|].
  unfold ser_credential_or_id, de_credential_or_id, ser_cfp. cbv iota.
  unfold de_cfp_buffered. rewrite (de_cfp_members _ n) by assumption. reflexivity.
Qed.

Lemma auth_flow_rt a : de_auth_flow (ser_auth_flow a) = Some a.
Proof. unfold de_auth_flow, ser_auth_flow. eval_fields. rewrite opt_str_rt. destruct a; reflexivity. Qed.

Lemma preauth_flow_rt p : de_preauth_flow (ser_preauth_flow p) = Some p.
Proof. destruct p as [c [b|]]; reflexivity. Qed.

Lemma grants_rt g : de_grants (ser_grants g) = Some g.
Proof.
  assert (forall a, opt de_auth_flow (Some (ser_auth_flow a)) = Some (Some a)) as Ha.
  { intros. apply opt_some; [apply auth_flow_rt|discriminate]. }
  assert (forall a, opt de_preauth_flow (Some (ser_preauth_flow a)) = Some (Some a)) as Hp.
  { intros. apply opt_some; [apply preauth_flow_rt|discriminate]. }
  destruct g as [[a|] [p|]]; unfold de_grants, ser_grants; cbn [og_auth og_pre]; eval_fields;
    rewrite ?Ha, ?Hp; reflexivity.
Qed.

Lemma offer_rt n o : offer_ok n o -> de_offer (ser_offer o) = Some o.
Proof.
  intros (H1 & H2 & H3 & H4). unfold de_offer, ser_offer, offer_fields. eval_fields.
  cbn [req de_str opt_bind].
  rewrite de_list_rt by (eapply Forall_impl; [|exact H2]; intros; eapply credential_or_id_rt; eassumption).
  cbn [opt_bind]. rewrite grants_rt. destruct o; reflexivity.
Qed.

Lemma credential_success_rt n r :
  credential_success_ok n r -> de_credential_success (ser_credential_success r) = Some r.
Proof.
  intros (H1 & H2 & H3 & H4 & H5). unfold de_credential_success, ser_credential_success, credential_success_fields.
  eval_fields. cbn [req de_str opt_bind].
  rewrite (opt_ser_opt ser_cfp_or_encoded de_cfp_or_encoded).
  2: { intros c Hc. split; [eapply cfp_or_encoded_rt; apply H2, Hc|]. destruct c; discriminate. }
  cbn [opt_bind]. rewrite !opt_str_rt, opt_u32_rt by assumption. destruct r; reflexivity.
Qed.
