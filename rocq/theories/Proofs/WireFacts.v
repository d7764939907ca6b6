(** Which values the readers accept, and what they make of them. *)
From Coq Require Import Lia ZifyBool ZifyN ZifyNat Sorting.Sorted.
From Verif Require Import Model.Prelude Model.Json Model.Types Model.Deps Model.Serde Model.SerdeOptions Model.Wire
  Spec SpecToken SpecJwt SpecJson SpecDocuments SpecWire
  Proofs.StrFacts Proofs.JsonFacts Proofs.ReaderFacts Proofs.GrammarFacts Proofs.SpellingFacts Proofs.SerdeFacts
  Proofs.JwtFacts Proofs.ShapeFacts Proofs.DocumentFacts.

Definition reads {A : Type} (D : json -> option A) (P : json -> A -> Prop) : Prop :=
  forall v a, D v = Some a <-> P v a.

(* ---------------- scalars, lists ---------------- *)

Lemma str_reads : reads de_str text_value.
Proof. intros v a. apply de_str_iff. Qed.

Lemma bool_reads : reads de_bool bool_value.
Proof. intros [] a; unfold bool_value; cbn [de_bool]; split; congruence. Qed.

Lemma uint_reads b : reads (de_uint b) (integer_value b).
Proof.
  intros v a. unfold integer_value. split.
  - destruct v; cbn [de_uint]; try discriminate.
    destruct ((0 <=? z) && (z <? Z.of_N b))%Z eqn:E; [|discriminate]. intros [= <-].
    split; [f_equal; lia|lia].
  - intros [-> H]. cbn [de_uint]. replace ((0 <=? Z.of_N a) && (Z.of_N a <? Z.of_N b))%Z with true by lia.
    now rewrite N2Z.id.
Qed.
Lemma u32_reads : reads de_u32 u32_value. Proof. apply uint_reads. Qed.
Lemma u64_reads : reads de_u64 u64_value. Proof. apply uint_reads. Qed.
Lemma instant_reads d : reads (de_instant d) (instant_value d).
Proof. intros v a. apply de_instant_iff. Qed.

Lemma Forall2_iff {A B} (P Q : A -> B -> Prop) l l' : (forall a b, P a b <-> Q a b) ->
  Forall2 P l l' <-> Forall2 Q l l'.
Proof. intros H. split; induction 1; constructor; auto; now apply H. Qed.

Lemma list_reads {A} (D : json -> option A) P : reads D P -> reads (de_list D) (list_value P).
Proof.
  intros H v l. unfold list_value. split.
  - destruct v; cbn [de_list]; try discriminate. intros E. apply map_opt_Forall2 in E.
    eexists. split; [reflexivity|]. now apply (Forall2_iff _ _ _ _ H).
  - intros (js & -> & F). cbn [de_list]. apply map_opt_Forall2. now apply (Forall2_iff _ _ _ _ H).
Qed.

(* ---------------- members ---------------- *)

Section Members.
  Context {A : Type} (D : json -> option A) (P : json -> A -> Prop) (HD : reads D P).

  Lemma req_intro m k g a : get_unique (lit k) m = Some g -> req D g = Some a -> required_member m k P a.
  Proof.
    intros Hg Hr. destruct g as [v|]; [|discriminate]. exists v. split; [now apply get_unique_only|now apply HD].
  Qed.
  Lemma req_elim m k a : required_member m k P a ->
    exists g, get_unique (lit k) m = Some g /\ req D g = Some a.
  Proof.
    intros (v & Hv & HP). exists (Some v). split; [now apply get_unique_only|now apply HD].
  Qed.
  Lemma opt_intro m k g o : D JNull = None ->
    get_unique (lit k) m = Some g -> opt D g = Some o -> optional_member m k P o.
  Proof.
    intros N Hg Ho. apply (opt_member m k D P o g HD); [|exact Hg|exact Ho].
    intros a Ha. apply HD in Ha. congruence.
  Qed.
  Lemma opt_elim m k o : D JNull = None -> optional_member m k P o ->
    exists g, get_unique (lit k) m = Some g /\ opt D g = Some o.
  Proof.
    intros N Ho. assert (exists g, get_unique (lit k) m = Some g) as [g Hg].
    { destruct o as [a|]; cbn [optional_member] in Ho.
      - destruct Ho as (v & Hv & _). exists (Some v). now apply get_unique_only.
      - destruct Ho as [Ho|Ho]; [exists None; now apply get_unique_absent|
          exists (Some JNull); now apply get_unique_only]. }
    exists g. split; [exact Hg|]. apply (opt_member m k D P o g HD); [|exact Hg|exact Ho].
    intros a Ha. apply HD in Ha. congruence.
  Qed.
End Members.

(* ---------------- structs ---------------- *)

Lemma struct_reads {A : Type} (names : list string) (w : A -> list str) (D : json -> option A)
    (P : list (str * json) -> A -> Prop) :
  through (map lit names) D -> NoDup (map lit names) ->
  (forall m a, D (JObj m) = Some a <-> P m a) ->
  (forall j, fields_of (map lit names) j = None -> D j = None) ->
  reads D (struct_value Reading names w P).
Proof.
  intros T Hn HD HN j a. unfold struct_value. split.
  - intros H. destruct (fields_of (map lit names) j) as [fs|] eqn:Ef; [|rewrite (HN j Ef) in H; discriminate].
    destruct j as [| | | | |l|m]; try discriminate Ef.
    + cbn [fields_of] in Ef. destruct (Nat.eqb_spec (List.length l) (List.length (map lit names))) as [Hl|]; [|discriminate].
      exists (combine (map lit names) l). split.
      * constructor. now rewrite map_length in Hl.
      * apply HD. rewrite <- H. apply T. symmetry. now apply fields_positional.
    + exists m. split; [constructor|]. now apply HD.
  - intros (m & Hm & HP).
    destruct Hm as [m|l Hl]; [now apply HD|]. apply HD in HP. rewrite <- HP. apply T.
    apply fields_positional; [exact Hn|now rewrite map_length].
Qed.

Ltac names_nodup := apply nodup_lit; repeat (apply NoDup_cons; [cbn; intuition discriminate|]); apply NoDup_nil.

Create HintDb wire.
#[global] Hint Resolve str_reads bool_reads u32_reads u64_reads instant_reads list_reads : wire.

(** [D (JObj m) = Some x <-> X_of m x] for a derived struct. *)
Ltac obj_open D :=
  let m := fresh "m" in let x := fresh "x" in
  intros m x; unfold D; unfold offer_fields, supported_fields, metadata_fields, token_success_fields,
    credential_success_fields, token_options_fields, c_nonce_fields, c_nonce_options_fields,
    eval_options_fields, proof_jwt_fields; cbn [fields_of map map_opt].
Ltac take_field H :=
  match type of H with
  | context [get_unique ?k ?m] =>
      let g := fresh "g" in let E := fresh "G" in
      destruct (get_unique k m) as [g|] eqn:E; [|discriminate H]; cbn [opt_bind] in H
  end.
Ltac take_value H :=
  match type of H with
  | context [req ?d ?g] =>
      let E := fresh "V" in destruct (req d g) eqn:E; [|discriminate H]; cbn [opt_bind] in H
  | context [opt ?d ?g] =>
      let E := fresh "V" in destruct (opt d g) eqn:E; [|discriminate H]; cbn [opt_bind] in H
  end.
Ltac conj_split := repeat match goal with |- _ /\ _ => split end.
Ltac intro_member :=
  match goal with
  | G : get_unique (lit ?k) ?m = Some ?w, V : req ?D ?w = Some ?a |- required_member ?m ?k ?P ?a =>
      apply (fun HD => req_intro D P HD m k w a); [solve [eauto 6 with wire]|exact G|exact V]
  | G : get_unique (lit ?k) ?m = Some ?w, V : opt ?D ?w = Some ?a |- optional_member ?m ?k ?P ?a =>
      apply (fun HD => opt_intro D P HD m k w a); [solve [eauto 6 with wire]|reflexivity|exact G|exact V]
  end.
Ltac elim_member :=
  match goal with
  | H : required_member ?m ?k ?P ?a |- context [get_unique (lit ?k) ?m] =>
      let Q := fresh in
      eapply req_elim in H; [|solve [eauto 6 with wire]];
      destruct H as (? & -> & Q); cbn [opt_bind]
  | H : optional_member ?m ?k ?P ?a |- context [get_unique (lit ?k) ?m] =>
      let Q := fresh in
      eapply opt_elim in H; [|solve [eauto 6 with wire]|reflexivity];
      destruct H as (? & -> & Q); cbn [opt_bind]
  end.
Ltac use_values :=
  repeat match goal with
  | H : req ?d ?g = Some _ |- context [req ?d ?g] => rewrite H; cbn [opt_bind]
  | H : opt ?d ?g = Some _ |- context [opt ?d ?g] => rewrite H; cbn [opt_bind]
  end.
Ltac obj_iff X_of :=
  unfold X_of; split;
  [ let H := fresh "H" in intros H; repeat take_field H; repeat take_value H;
    injection H as <-; cbn; conj_split; intro_member
  | let x := match goal with |- _ -> _ = Some ?x => x end in
    destruct x; cbn; intros H; repeat match goal with H : _ /\ _ |- _ => destruct H end;
    repeat elim_member; use_values; reflexivity ].

Ltac struct_tac D X_of :=
  match goal with |- reads _ (struct_value _ ?n ?w _) =>
  apply (struct_reads n w);
  [ let E := fresh in intros ? ? E; unfold D;
    match goal with |- context [fields_of ?F _] => change F with (map lit n); rewrite E; reflexivity end
  | names_nodup
  | obj_open D; obj_iff X_of
  | let E := fresh in intros ? E; unfold D;
    match goal with |- context [fields_of ?F _] => change F with (map lit n); rewrite E; reflexivity end ]
  end.

Lemma subject_display_obj m x : de_subject_display (JObj m) = Some x <-> subject_display_of m x.
Proof. revert m x. obj_open de_subject_display. obj_iff subject_display_of. Qed.
Lemma subject_display_reads : reads de_subject_display (subject_display_value Reading).
Proof.
  unfold subject_display_value.
  struct_tac de_subject_display subject_display_of.
Qed.

(* ---------------- maps ---------------- *)

Definition last_in {V : Type} (l : list (str * V)) (k : str) (v : V) : Prop :=
  exists before after, l = before ++ (k, v) :: after /\ ~ In k (map fst after).

Lemma last_in_cons {V} (x : str * V) l k v : last_in l k v -> last_in (x :: l) k v.
Proof. intros (b & a & -> & H). exists (x :: b), a. auto. Qed.

Lemma last_in_det {V} (l : list (str * V)) k v v' : last_in l k v -> last_in l k v' -> v = v'.
Proof.
  intros (b & a & E & H) (b' & a' & E' & H'). rewrite E in E'. clear E l.
  revert b' E'. induction b as [|x b IH]; intros [|x' b'] E'; cbn [app] in E'.
  - congruence.
  - injection E' as <- ->. exfalso. apply H. rewrite map_app, in_app_iff. right. now left.
  - injection E' as -> <-. exfalso. apply H'. rewrite map_app, in_app_iff. right. now left.
  - injection E' as _ E'. eauto.
Qed.

Lemma last_in_In {V} (l : list (str * V)) k v : last_in l k v -> In (k, v) l.
Proof. intros (b & a & -> & _). rewrite in_app_iff. right. now left. Qed.

Lemma insert_In {V} k (v : V) m k' v' : NoDup (map fst m) ->
  In (k', v') (hmap_insert k v m) -> (k' = k /\ v' = v) \/ (k' <> k /\ In (k', v') m).
Proof.
  induction m as [|[k0 v0] m IH]; cbn [hmap_insert map fst]; intros Hn.
  - intros [[= <- <-]|[]]. auto.
  - inversion Hn as [|? ? Hk0 Hn']; subst. destruct (str_eqb k k0) eqn:E.
    + apply str_eqb_eq in E. subst k0. intros [[= <- <-]|H]; [auto|]. right.
      split; [|now right]. intros ->. apply Hk0. apply in_map_iff. now exists (k, v').
    + assert (k <> k0) as N by (intros ->; now rewrite str_eqb_refl in E).
      intros [[= <- <-]|H]; [right; split; [congruence|now left]|].
      destruct (IH Hn' H) as [?|[? ?]]; [auto|]. right. split; [assumption|now right].
Qed.

Lemma fold_insert_In {V} (l acc : list (str * V)) k v : NoDup (map fst acc) ->
  In (k, v) (fold_left (fun a kv => hmap_insert (fst kv) (snd kv) a) l acc) ->
  last_in l k v \/ (~ In k (map fst l) /\ In (k, v) acc).
Proof.
  revert acc. induction l as [|[k0 v0] l IH]; intros acc Hn; cbn [fold_left fst snd map].
  - intros H. right. auto.
  - intros H. apply IH in H; [|now apply hmap_insert_nodup]. destruct H as [H|[N H]].
    + left. now apply last_in_cons.
    + apply insert_In in H; [|exact Hn]. destruct H as [[-> ->]|[Hk H]].
      * left. exists [], l. auto.
      * right. split; [|exact H]. cbn [In]. intuition congruence.
Qed.

Definition outside (ks : list str) (x : str) : bool :=
  if in_dec (list_eq_dec ascii_dec) x ks then false else true.

Lemma insert_keys_same {V} k (v : V) m : In k (map fst m) -> map fst (hmap_insert k v m) = map fst m.
Proof.
  induction m as [|[k0 v0] m IH]; cbn [map fst hmap_insert]; [intros []|].
  destruct (str_eqb k k0) eqn:E; [apply str_eqb_eq in E; now subst|].
  intros [->|H]; [now rewrite str_eqb_refl in E|]. cbn [map fst]. now rewrite IH.
Qed.

Lemma fold_keys {V} (l acc : list (str * V)) ks :
  first_occurrences (filter (outside (map fst acc)) (map fst l)) ks ->
  map fst (fold_left (fun a kv => hmap_insert (fst kv) (snd kv) a) l acc) = map fst acc ++ ks.
Proof.
  revert acc ks. induction l as [|[k v] l IH]; intros acc ks; cbn [map fst snd filter fold_left].
  - intros H. inversion H. now rewrite app_nil_r.
  - unfold outside at 1. destruct (in_dec (list_eq_dec ascii_dec) k (map fst acc)) as [Hk|Hk].
    + intros H. rewrite (IH _ ks).
      * now rewrite insert_keys_same.
      * now rewrite insert_keys_same.
    + intros H. inversion H as [|? ? ks' H']; subst. rewrite hmap_insert_fresh by exact Hk.
      rewrite (IH _ ks').
      * rewrite map_app. cbn [map fst]. now rewrite <- app_assoc.
      * rewrite map_app. cbn [map fst].
        match type of H' with first_occurrences ?x _ => match goal with |- first_occurrences ?y _ =>
          replace y with x; [exact H'|] end end.
        clear. induction (map fst l) as [|x r IH]; [reflexivity|]. cbn [filter].
        assert (outside (map fst acc ++ [k]) x
                = outside (map fst acc) x && (if list_eq_dec ascii_dec k x then false else true)) as ->.
        { unfold outside. destruct (in_dec (list_eq_dec ascii_dec) x (map fst acc ++ [k])) as [Hy|Hy];
            destruct (in_dec (list_eq_dec ascii_dec) x (map fst acc)) as [Hx|Hx];
            destruct (list_eq_dec ascii_dec k x) as [Hk|Hk]; try reflexivity;
            rewrite in_app_iff in Hy; cbn [In] in Hy; intuition congruence. }
        destruct (outside (map fst acc) x); cbn [filter andb]; [|exact IH].
        destruct (list_eq_dec ascii_dec k x); [exact IH|now rewrite IH].
Qed.

Lemma first_occurrences_total l : exists l', first_occurrences l l'.
Proof.
  remember (List.length l) as n eqn:E. assert (List.length l <= n)%nat as H by lia. clear E.
  revert l H. induction n as [|n IH]; intros [|k l] H; simpl in H; try lia; try (eexists; constructor; fail).
  destruct (IH (filter (fun x => if list_eq_dec ascii_dec k x then false else true) l)) as [l' Hl'].
  - enough (forall f, List.length (filter f l) <= List.length l)%nat as Q by (specialize (Q
      (fun x => if list_eq_dec ascii_dec k x then false else true)); unfold str in *; lia).
    intros f. clear. induction l as [|x l IH]; cbn [filter]; [auto|]. destruct (f x); simpl; lia.
  - exists (k :: l'). now constructor.
Qed.

Lemma first_occurrences_det l l1 l2 : first_occurrences l l1 -> first_occurrences l l2 -> l1 = l2.
Proof.
  intros H. revert l2. induction H as [|k l l' _ IH]; intros l2 H2; inversion H2; subst; [reflexivity|].
  f_equal. auto.
Qed.

Lemma keyed_eq {V} (h h' : list (str * V)) : map fst h = map fst h' ->
  (forall k a a', In (k, a) h -> In (k, a') h' -> a = a') -> h = h'.
Proof.
  revert h'. induction h as [|[k a] h IH]; intros [|[k' a'] h'] E H; try discriminate E; [reflexivity|].
  cbn [map fst] in E. injection E as -> E. rewrite (H k' a a') by now left. f_equal. apply IH; [exact E|].
  intros k b b' Hb Hb'. apply (H k); now right.
Qed.

Lemma last_member_is m k v : last_member m k v <-> last_in m k v.
Proof. reflexivity. Qed.

Lemma filter_outside_nil l : filter (outside []) l = l.
Proof. induction l as [|x l IH]; [reflexivity|]. cbn [filter]. unfold outside at 1. cbn. now rewrite IH. Qed.

Lemma members_read {A} (D : json -> option A) P m kvs : reads D P ->
  map_opt (fun kv => let* v := D (snd kv) in Some (fst kv, v)) m = Some kvs ->
  Forall2 (fun (kj : str * json) (ka : str * A) => fst kj = fst ka /\ P (snd kj) (snd ka)) m kvs.
Proof.
  intros HD H. apply map_opt_Forall2 in H. eapply Forall2_iff; [|exact H].
  intros [k j] [k' a]. cbn [fst snd]. rewrite <- (HD j a). destruct (D j) as [x|]; cbn [opt_bind].
  - split; [intros [-> E]; congruence|]. intros E. injection E as -> ->. auto.
  - split; [intros [_ E]; discriminate|discriminate].
Qed.

Lemma keys_read {A} (P : json -> A -> Prop) m kvs :
  Forall2 (fun (kj : str * json) (ka : str * A) => fst kj = fst ka /\ P (snd kj) (snd ka)) m kvs ->
  map fst m = map fst kvs.
Proof. induction 1 as [|x y m kvs [E _] _ IH]; [reflexivity|]. cbn [map]. congruence. Qed.

Lemma last_read {A} (P : json -> A -> Prop) m kvs k a :
  Forall2 (fun (kj : str * json) (ka : str * A) => fst kj = fst ka /\ P (snd kj) (snd ka)) m kvs ->
  last_in kvs k a -> exists j, last_member m k j /\ P j a.
Proof.
  intros F (b & c & -> & Hc). apply Forall2_app_inv_r in F. destruct F as (mb & mc & F1 & F2 & ->).
  inversion F2 as [|[k' j] ? mc' ? [E HP] F3]; subst. cbn [fst snd] in *. subst k'.
  exists j. split; [|exact HP]. exists mb, mc'. split; [reflexivity|]. now rewrite (keys_read _ _ _ F3).
Qed.

Lemma map_value_det {A} (P : json -> A -> Prop) v h h' :
  (forall j a a', P j a -> P j a' -> a = a') -> map_value P v h -> map_value P v h' -> h = h'.
Proof.
  intros HP (m & -> & K & _ & L) (m' & E & K' & _ & L'). injection E as <-.
  apply keyed_eq; [eapply first_occurrences_det; eassumption|]. intros k a a' Ha Ha'.
  destruct (L k a Ha) as (j & Hj & Pj). destruct (L' k a' Ha') as (j' & Hj' & Pj').
  assert (j = j') by (eapply last_in_det; eassumption). subst j'. eauto.
Qed.

Lemma hmap_read_sound {A} (D : json -> option A) P v h : reads D P -> de_hmap D v = Some h -> map_value P v h.
Proof.
  intros HD. destruct v; cbn [de_hmap]; try discriminate.
  destruct (map_opt _ m) as [kvs|] eqn:E; [|discriminate]. cbn [opt_bind]. intros H. apply some_inj in H.
  pose proof (members_read D P m kvs HD E) as F. exists m. split; [reflexivity|].
  rewrite <- H. clear H. split; [|split].
  - destruct (first_occurrences_total (map fst kvs)) as [ks Hks]. rewrite (fold_keys kvs [] ks).
    + now rewrite (keys_read _ _ _ F).
    + now rewrite filter_outside_nil.
  - intros k j Hin. clear - F Hin. induction F as [|x [k' a] m kvs [E HP] _ IH]; [destruct Hin|].
    destruct Hin as [->|Hin]; [|auto]. exists a. exact HP.
  - intros k a Hin. apply fold_insert_In in Hin; [|constructor]. destruct Hin as [Hin|[_ []]].
    eapply last_read; eassumption.
Qed.

Lemma hmap_reads {A} (D : json -> option A) P : reads D P -> reads (de_hmap D) (map_value P).
Proof.
  intros HD v h. split; [apply hmap_read_sound; exact HD|]. intros Hm.
  assert (exists h', de_hmap D v = Some h') as [h' Hh'].
  { destruct Hm as (m & -> & _ & R & _). cbn [de_hmap].
    assert (exists kvs, map_opt (fun kv => let* v := D (snd kv) in Some (fst kv, v)) m = Some kvs) as [kvs ->];
      [|cbn [opt_bind]; eauto].
    clear - HD R. induction m as [|[k j] m IH]; cbn [map_opt fst snd]; [eauto|].
    destruct (R k j) as [a Ha]; [now left|]. apply HD in Ha. rewrite Ha. cbn [opt_bind].
    destruct IH as [kvs ->]; [|cbn [opt_bind]; eauto]. intros k' j' Hin. apply (R k' j'). now right. }
  rewrite Hh'. f_equal. pose proof (hmap_read_sound D P v h' HD Hh') as Hs.
  eapply map_value_det; [|exact Hs|exact Hm]. intros j a a' Ha Ha'. apply HD in Ha. apply HD in Ha'. congruence.
Qed.
#[global] Hint Resolve hmap_reads : wire.

(* ---------------- free-form values ---------------- *)

Lemma bt_insert_In' k v m k' v' : StronglySorted str_lt (map fst m) ->
  In (k', v') (bt_insert k v m) -> (k' = k /\ v' = v) \/ (k' <> k /\ In (k', v') m).
Proof.
  induction m as [|[k0 v0] m IH]; cbn [bt_insert map fst]; intros Hs.
  - intros [[= <- <-]|[]]. auto.
  - inversion Hs as [|? ? Hs' Hf]; subst. rewrite Forall_forall in Hf.
    destruct (str_eqb k k0) eqn:E.
    + apply str_eqb_eq in E. subst k0. intros [[= <- <-]|H]; [auto|]. right. split; [|now right].
      intros ->. apply (str_lt_irrefl k), Hf. apply in_map_iff. now exists (k, v').
    + assert (k <> k0) as N by (intros ->; now rewrite str_eqb_refl in E).
      destruct (str_ltb k k0) eqn:L; intros [[= <- <-]|H]; auto.
      * right. split; [|exact H]. intros ->. apply str_ltb_lt in L. destruct H as [[= <- <-]|H]; [congruence|].
        apply (str_lt_irrefl k). eapply str_lt_trans; [exact L|]. apply Hf. apply in_map_iff. now exists (k, v').
      * right. split; [congruence|now left].
      * destruct (IH Hs' H) as [?|[? ?]]; [auto|]. right. split; [assumption|now right].
Qed.

Lemma fold_bt_facts l acc : StronglySorted str_lt (map fst acc) ->
  let r := fold_left (fun a kv => bt_insert (fst kv) (snd kv) a) l acc in
  StronglySorted str_lt (map fst r)
  /\ (forall k, In k (map fst r) <-> In k (map fst l) \/ In k (map fst acc))
  /\ (forall k v, In (k, v) r -> last_in l k v \/ (~ In k (map fst l) /\ In (k, v) acc)).
Proof.
  cbv zeta. revert acc. induction l as [|[k0 v0] l IH]; intros acc Hs; cbn [fold_left map fst snd In].
  - split; [exact Hs|]. split; [tauto|]. auto.
  - destruct (IH (bt_insert k0 v0 acc) (bt_insert_sorted _ _ _ Hs)) as (R1 & R2 & R3).
    split; [exact R1|]. split.
    + intros k. rewrite R2, bt_insert_keys. intuition congruence.
    + intros k v H. destruct (R3 k v H) as [Q|[N Q]]; [left; now apply last_in_cons|].
      apply bt_insert_In' in Q; [|exact Hs]. destruct Q as [[-> ->]|[Hk Q]].
      * left. exists [], l. auto.
      * right. split; [|exact Q]. intuition congruence.
Qed.

Lemma sorted_keys_eq (a b : list str) : StronglySorted str_lt a -> StronglySorted str_lt b ->
  (forall k, In k a <-> In k b) -> a = b.
Proof.
  revert b. induction a as [|x a IH]; intros [|y b] Ha Hb H; [reflexivity| | |].
  - exfalso. apply (proj2 (H y)). now left.
  - exfalso. apply (proj1 (H x)). now left.
  - inversion Ha as [|? ? Ha' Fa]; inversion Hb as [|? ? Hb' Fb]; subst. rewrite Forall_forall in Fa, Fb.
    assert (x = y) as ->.
    { destruct (proj1 (H x) (or_introl eq_refl)) as [E|E]; [congruence|].
      destruct (proj2 (H y) (or_introl eq_refl)) as [E'|E']; [congruence|].
      exfalso. apply (str_lt_irrefl x). eapply str_lt_trans; [apply Fa, E'|apply Fb, E]. }
    f_equal. apply IH; [assumption|assumption|]. intros k. split; intros Hk.
    + destruct (proj1 (H k) (or_intror Hk)) as [->|Hk']; [|exact Hk'].
      exfalso. apply (str_lt_irrefl k), Fa, Hk.
    + destruct (proj2 (H k) (or_intror Hk)) as [->|Hk']; [|exact Hk'].
      exfalso. apply (str_lt_irrefl k), Fb, Hk.
Qed.

Lemma free_value_to_value j : free_value j (to_value j).
Proof.
  induction j using json_ind'; cbn [to_value]; try constructor.
  - induction H; constructor; auto.
  - destruct (fold_bt_facts (map (fun kv : str * json => (fst kv, to_value (snd kv))) m) []) as (R & _); [constructor|exact R].
  - intros k. destruct (fold_bt_facts (map (fun kv : str * json => (fst kv, to_value (snd kv))) m) []) as (_ & R & _); [constructor|].
    rewrite R, map_map. cbn [fst map In]. tauto.
  - intros k v Hin. destruct (fold_bt_facts (map (fun kv : str * json => (fst kv, to_value (snd kv))) m) []) as (_ & _ & R); [constructor|].
    destruct (R k v Hin) as [(b & a & E & Ha)|[_ []]].
    apply map_eq_app in E. destruct E as (mb & mc & -> & <- & E).
    destruct mc as [|[k' j] mc]; [discriminate E|]. cbn [map fst snd] in E. injection E as -> E2 <-.
    exists j. split.
    + exists mb, mc. split; [reflexivity|]. now rewrite map_map in Ha.
    + subst v. rewrite Forall_forall in H. apply (H (k, j)). rewrite in_app_iff. right. now left.
Qed.

Lemma free_value_det j : forall v v', free_value j v -> free_value j v' -> v = v'.
Proof.
  induction j using json_ind'; intros v v' Hv Hv'; inversion Hv; inversion Hv'; subst; try congruence; f_equal.
  - clear Hv Hv'. match goal with F1 : Forall2 free_value l ?a, F2 : Forall2 free_value l ?b |- ?a = ?b =>
      revert F1 F2; generalize a, b end.
    clear - H. induction H as [|x l Hx _ IH]; intros a b Fa Fb; inversion Fa; inversion Fb; subst; [reflexivity|].
    f_equal; eauto.
  - apply keyed_eq.
    + apply sorted_keys_eq; try assumption. intros k. transitivity (In k (map fst m)); [auto|symmetry; auto].
    + intros k a a' Ha Ha'. rewrite Forall_forall in H.
      repeat match goal with Q : forall k v, In (k, v) _ -> exists j, _ |- _ =>
        first [specialize (Q k a Ha)|specialize (Q k a' Ha')]; destruct Q as (? & ? & ?) end.
      match goal with Q1 : last_member m k ?x, Q2 : last_member m k ?y |- _ =>
        assert (x = y) by (eapply last_in_det; [exact Q1|exact Q2]); subst; apply last_in_In in Q1;
        apply (H _ Q1); assumption end.
Qed.

Lemma value_reads : reads de_value free_value.
Proof.
  intros j v. unfold de_value. split.
  - intros H. apply some_inj in H. subst v. apply free_value_to_value.
  - intros H. f_equal. eapply free_value_det; [apply free_value_to_value|exact H].
Qed.
#[global] Hint Resolve value_reads subject_display_reads : wire.

Lemma ld_context_reads : reads de_ld_context ld_context_value.
Proof.
  intros v c. split.
  - intros H. assert ((exists s, v = JStr s /\ c = LDString s)
      \/ exists h, de_hmap de_value v = Some h /\ c = LDMap h) as [(s & -> & ->)|(h & E & ->)].
    { destruct v; cbn [de_ld_context] in H; try discriminate H; [left; eauto; injection H as <-; eauto|].
      destruct (de_hmap de_value (JObj m)) as [h|]; [|discriminate H]. right. exists h. cbn [opt_bind] in H.
      apply some_inj in H. auto. }
    + constructor.
    + constructor. apply (hmap_reads _ _ value_reads) in E. exact E.
  - destruct 1 as [s|v h H]; [reflexivity|]. apply (hmap_reads _ _ value_reads) in H.
    destruct v; try discriminate H. cbn [de_ld_context]. now rewrite H.
Qed.

Ltac through_fields D F :=
  intros ? ? ?E; unfold D, F in *; cbn [map] in *; rewrite E; reflexivity.

Lemma subject_reads : reads de_subject (subject_value Reading).
Proof. unfold subject_value. struct_tac de_subject subject_of. Qed.
#[global] Hint Resolve ld_context_reads subject_reads : wire.

(* ---------------- credentials ---------------- *)

Lemma get_unique_without k m : lit k <> lit "format" ->
  get_unique (lit k) (filter (fun kv => negb (str_eqb (lit "format") (fst kv))) m) = get_unique (lit k) m.
Proof.
  intros N. apply get_unique_named, (named_without (lit k) (fun x => negb (str_eqb (lit "format") x))).
  destruct (str_eqb (lit "format") (lit k)) eqn:E; [|reflexivity]. apply str_eqb_eq in E. congruence.
Qed.

Lemma tag_is m k t : get_unique (lit k) m = Some (Some (JStr (lit t))) <-> only_member m k (JStr (lit t)).
Proof. apply get_unique_only. Qed.

(** The positions of the variants that are understood in a place. *)
Definition index_of (p : place) : Z -> option str :=
  match p with Alone => no_index | Inside => format_index end.

Lemma index_name p z t : index_of p z = Some t ->
  p = Inside /\ exists name, t = lit name
  /\ In (name, z) [("jwt_vc_json", 0); ("jwt_vc_json-ld", 1); ("ldp_vc", 2); ("mso_mdoc", 3)]%string%Z.
Proof.
  destruct p; [discriminate|]. cbn [index_of]. unfold format_index. intros H. split; [reflexivity|].
  destruct z as [|[[| |]|[| |]|]|]; try discriminate H; injection H as <-;
    eexists; (split; [reflexivity|]); cbn [In]; auto.
Qed.

Lemma format_member_tag p m t : (let* v := match get_unique (lit "format") m with Some x => x | None => None end in
   tag_name (index_of p) v) = Some (lit t) ->
  forall z, In (t, z) [("jwt_vc_json", 0); ("jwt_vc_json-ld", 1); ("ldp_vc", 2); ("mso_mdoc", 3)]%string%Z ->
  format_member Reading p m t z.
Proof.
  destruct (get_unique (lit "format") m) as [[v|]|] eqn:E; try discriminate. cbn [opt_bind].
  apply get_unique_only in E. destruct v as [| |x| |s| |]; try discriminate; cbn [tag_name].
  - intros H z Hz. apply index_name in H. destruct H as (Hp & n & Hn & Hi). apply lit_inj in Hn. subst n.
    right. split; [reflexivity|]. split; [exact Hp|]. replace z with x; [exact E|].
    cbn [In] in Hi, Hz.
    destruct Hi as [Hi|[Hi|[Hi|[Hi|[]]]]], Hz as [Hz|[Hz|[Hz|[Hz|[]]]]]; congruence.
  - intros [= ->] z _. now left.
Qed.

Lemma tag_format_member p m t z : format_member Reading p m t z ->
  In (t, z) [("jwt_vc_json", 0); ("jwt_vc_json-ld", 1); ("ldp_vc", 2); ("mso_mdoc", 3)]%string%Z ->
  exists v, get_unique (lit "format") m = Some (Some v) /\ tag_name (index_of p) v = Some (lit t).
Proof.
  intros [H|(_ & -> & H)] Hi; apply get_unique_only in H; (eexists; split; [exact H|]).
  - reflexivity.
  - cbn [In] in Hi. destruct Hi as [[= <- <-]|[[= <- <-]|[[= <- <-]|[[= <- <-]|[]]]]]; reflexivity.
Qed.

Lemma credential_obj p m c : de_cfp_tagged (index_of p) (JObj m) = Some c <-> credential_of Reading p m c.
Proof.
  unfold de_cfp_tagged, split_tag. split.
  - intros H. destruct (get_unique (lit "format") m) as [[v|]|] eqn:Ef; try discriminate H. cbn [opt_bind] in H.
    destruct (tag_name (index_of p) v) as [s|] eqn:Et; [|discriminate H]. cbn [opt_bind] in H.
    pose proof (format_member_tag p m) as Hf. rewrite Ef in Hf. cbn [opt_bind] in Hf. rewrite Et in Hf.
    cbn [fields_of map_opt] in H.
    rewrite !get_unique_without in H by (intros Q; apply lit_inj in Q; discriminate Q).
    destruct (str_eqb s (lit "jwt_vc_json")) eqn:E1; [|destruct (str_eqb s (lit "jwt_vc_json-ld")) eqn:E2;
      [|destruct (str_eqb s (lit "ldp_vc")) eqn:E3; [|destruct (str_eqb s (lit "mso_mdoc")) eqn:E4; [|discriminate H]]]];
    repeat match goal with Q : str_eqb s _ = true |- _ => apply str_eqb_eq in Q; subst s end;
    specialize (Hf _ eq_refl); clear Ef Et;
    repeat take_field H; repeat take_value H; injection H as <-; constructor;
    try (apply Hf; cbn [In]; tauto); intro_member.
  - destruct 1;
    match goal with Q : format_member _ _ m ?t ?z |- _ =>
      apply tag_format_member in Q; [|cbn [In]; tauto]; destruct Q as (? & -> & Q); cbn [opt_bind]; rewrite Q; clear Q end;
    cbn [opt_bind]; cbn [fields_of map_opt];
    rewrite !get_unique_without by (intros Q; apply lit_inj in Q; discriminate Q);
    repeat match goal with |- context [str_eqb (lit ?a) (lit ?b)] =>
      let v := eval vm_compute in (str_eqb (lit a) (lit b)) in
      replace (str_eqb (lit a) (lit b)) with v by (vm_compute; reflexivity) end;
    cbv iota; repeat elim_member; use_values; reflexivity.
Qed.

Lemma split_tag_positional ix k v names l : NoDup (map lit (k :: names)) -> List.length l = List.length names ->
  split_tag ix (lit k) (JObj (combine (map lit (k :: names)) (v :: l)))
  = let* t := tag_name ix v in Some (t, JObj (combine (map lit names) l)).
Proof.
  intros Hn Hl. cbn [map] in Hn. inversion Hn as [|? ? Hk Hn']; subst. cbn [map combine split_tag].
  assert (forall kv, In kv (combine (map lit names) l) -> fst kv <> lit k) as Hne.
  { intros [k' w] Hin. cbn [fst]. intros ->. apply in_combine_l in Hin. contradiction. }
  rewrite get_unique_cons_same.
  2:{ intros Hin. apply in_map_iff in Hin. destruct Hin as (kv & E & Hin). now apply (Hne kv Hin). }
  destruct (tag_name ix v) as [t|]; [|reflexivity]. cbn [opt_bind]. do 3 f_equal. cbn [filter fst]. rewrite str_eqb_refl. cbn [negb]. apply SerdeFacts.filter_all.
  intros kv Hin. destruct (str_eqb (lit k) (fst kv)) eqn:E; [|reflexivity]. apply str_eqb_eq in E.
  exfalso. apply (Hne kv Hin). congruence.
Qed.

Ltac eval_eqb := repeat match goal with |- context [str_eqb (lit ?a) (lit ?b)] =>
      let v := eval vm_compute in (str_eqb (lit a) (lit b)) in
      replace (str_eqb (lit a) (lit b)) with v by (vm_compute; reflexivity) end; cbv iota.

Definition variants : list (string * list string) :=
  [ ("jwt_vc_json", ["types"; "credentialSubject"; "order"]);
    ("jwt_vc_json-ld", ["types"; "credentialSubject"; "order"]);
    ("ldp_vc", ["@context"; "types"; "credentialSubject"; "order"]);
    ("mso_mdoc", ["doctype"; "claims"; "order"]) ]%string.

Lemma cfp_positional ix v t names l : In (t, names) variants -> tag_name ix v = Some (lit t) ->
  List.length l = List.length names ->
  de_cfp_tagged ix (JArr (v :: l))
  = de_cfp_tagged ix (JObj (combine (map lit ("format"%string :: names)) (v :: l))).
Proof.
  intros Hin Ht Hl. unfold de_cfp_tagged. rewrite (split_tag_positional ix "format" v names l); [|
    cbn [variants In] in Hin; repeat destruct Hin as [[= <- <-]|Hin]; try destruct Hin; names_nodup|exact Hl].
  cbn [split_tag]. rewrite Ht. cbn [opt_bind].
  cbn [variants In] in Hin; repeat destruct Hin as [[= <- <-]|Hin]; try destruct Hin; eval_eqb;
  match goal with |- context [fields_of ?n (JArr l)] =>
    rewrite (fields_positional n l); [reflexivity| |cbn in *; assumption] end;
  apply (nodup_lit _ : NoDup (map lit _)) || idtac.
  - change [lit "types"; lit "credentialSubject"; lit "order"] with (map lit ["types"; "credentialSubject"; "order"]%string). names_nodup.
  - change [lit "types"; lit "credentialSubject"; lit "order"] with (map lit ["types"; "credentialSubject"; "order"]%string). names_nodup.
  - change [lit "@context"; lit "types"; lit "credentialSubject"; lit "order"] with (map lit ["@context"; "types"; "credentialSubject"; "order"]%string). names_nodup.
  - change [lit "doctype"; lit "claims"; lit "order"] with (map lit ["doctype"; "claims"; "order"]%string). names_nodup.
Qed.

Lemma only_first names k v l x : NoDup (map lit (k :: names)) ->
  only_member (combine (map lit (k :: names)) (v :: l)) k x -> x = v.
Proof.
  intros Hn H. apply get_unique_only in H. cbn [map] in Hn. inversion Hn as [|? ? Hk _]; subst.
  cbn [map combine] in H. rewrite get_unique_cons_same in H; [congruence|].
  intros Hin. apply in_map_iff in Hin. destruct Hin as ([k' w] & E & Hin). cbn [fst] in E. subst k'.
  apply in_combine_l in Hin. contradiction.
Qed.

Lemma credential_reads_in p : reads (de_cfp_tagged (index_of p)) (credential_value Reading p).
Proof.
  intros v c. unfold credential_value, struct_value. split.
  - intros H. destruct v as [| | | | |l|m]; try discriminate H.
    + destruct l as [|v l]; try discriminate H.
      assert (exists n names, tag_name (index_of p) v = Some (lit n) /\ In (n, names) variants /\ List.length l = List.length names
              /\ credential_names c = ("format" :: names)%string) as (n & names & Ht & Hin & Hl & Hc).
      { unfold de_cfp_tagged in H. cbn [split_tag] in H.
        destruct (tag_name (index_of p) v) as [t|]; [|discriminate H]. cbn [opt_bind fields_of] in H.
        destruct (str_eqb t (lit "jwt_vc_json")) eqn:E1; [|destruct (str_eqb t (lit "jwt_vc_json-ld")) eqn:E2;
          [|destruct (str_eqb t (lit "ldp_vc")) eqn:E3; [|destruct (str_eqb t (lit "mso_mdoc")) eqn:E4; [|discriminate H]]]];
        repeat match goal with Q : str_eqb t _ = true |- _ => apply str_eqb_eq in Q; subst t end;
        match type of H with context [Nat.eqb ?a ?b] => destruct (Nat.eqb_spec a b) as [Hl|]; [|discriminate H] end;
        repeat (destruct l as [|? l]; try discriminate Hl); cbn [map] in H; repeat take_value H; injection H as <-;
        eexists _, _; (split; [reflexivity|]); cbn [variants In].
        - split; [left; reflexivity|]. split; reflexivity.
        - split; [right; left; reflexivity|]. split; reflexivity.
        - split; [right; right; left; reflexivity|]. split; reflexivity.
        - split; [right; right; right; left; reflexivity|]. split; reflexivity. }
      exists (combine (map lit (credential_names c)) (v :: l)). split.
      * constructor. rewrite Hc. cbn [List.length]. now rewrite Hl.
      * rewrite Hc. apply credential_obj. now rewrite <- (cfp_positional _ v n names l Hin Ht Hl).
    + exists m. split; [constructor|]. now apply credential_obj.
  - intros (m & Hm & Hc). destruct Hm as [m|l Hl]; [now apply credential_obj|].
    destruct c; cbn [credential_names] in Hl, Hc; (destruct l as [|v0 l]; [discriminate Hl|]);
    pose proof Hc as Hc0; inversion Hc0 as [? ? ? Hf|? ? ? Hf|? ? ? ? Hf|? ? ? Hf]; subst;
    apply credential_obj in Hc; rewrite <- Hc; apply tag_format_member in Hf; [|cbn [In]; tauto| |cbn [In]; tauto| |cbn [In]; tauto| |cbn [In]; tauto];
    destruct Hf as (w & Hw & Hf); apply get_unique_only in Hw; (apply only_first in Hw; [|names_nodup]); subst w;
    (eapply cfp_positional; [|exact Hf|]); cbn [List.length] in *; try lia; cbn [variants In]; auto.
Qed.
Lemma credential_reads : reads de_cfp (credential_value Reading Alone).
Proof. exact (credential_reads_in Alone). Qed.
Lemma credential_reads_buffered : reads de_cfp_buffered (credential_value Reading Inside).
Proof. exact (credential_reads_in Inside). Qed.
#[global] Hint Resolve credential_reads credential_reads_buffered : wire.

Lemma offered_reads : reads de_credential_or_id (offered_value Reading).
Proof.
  intros v c. split.
  - intros H. assert ((exists s, v = JStr s /\ c = CredentialId s)
      \/ exists x, de_cfp_buffered v = Some x /\ c = Credential x) as [(s & -> & ->)|(x & E & ->)].
    { destruct v; cbn [de_credential_or_id] in H; try discriminate H.
      - left. injection H as <-. eauto.
      - right. destruct (de_cfp_buffered (JArr l)) as [x|]; [|discriminate H]. cbn [opt_bind] in H.
        apply some_inj in H. eauto.
      - right. destruct (de_cfp_buffered (JObj m)) as [x|]; [|discriminate H]. cbn [opt_bind] in H.
        apply some_inj in H. eauto. }
    + constructor.
    + constructor. now apply credential_reads_buffered.
  - destruct 1 as [s|v x H]; [reflexivity|]. apply credential_reads_buffered in H.
    destruct v; try discriminate H; cbn [de_credential_or_id]; now rewrite H.
Qed.

Lemma issued_reads : reads de_cfp_or_encoded (issued_value Reading).
Proof.
  intros v c. split.
  - destruct v as [| | | | | |[|[k v] [|? ?]]]; try discriminate. cbn [de_cfp_or_encoded].
    destruct (str_eqb k (lit "CredentialFormatProfile")) eqn:E; [apply str_eqb_eq in E; subst k|
      destruct (str_eqb k (lit "Encoded")) eqn:E2; [apply str_eqb_eq in E2; subst k|discriminate]].
    + destruct (de_cfp v) as [x|] eqn:Ex; [|discriminate]. cbn [opt_bind]. intros H. apply some_inj in H. subst c.
      constructor. now apply credential_reads.
    + destruct v; try discriminate. intros [= <-]. constructor.
  - destruct 1 as [v x H|s]; cbn [de_cfp_or_encoded]; eval_eqb.
    + apply credential_reads in H. now rewrite H.
    + reflexivity.
Qed.
#[global] Hint Resolve offered_reads issued_reads : wire.

(* ---------------- the other structs ---------------- *)

Lemma auth_flow_reads : reads de_auth_flow (struct_value Reading ["issuer_state"]%string (all_of ["issuer_state"]%string) auth_flow_of).
Proof. struct_tac de_auth_flow auth_flow_of. Qed.
Lemma preauth_flow_reads :
  reads de_preauth_flow (struct_value Reading ["pre-authorized_code"; "user_pin_required"]%string
    (fun x => [lit "pre-authorized_code"] ++ if_some "user_pin_required" (pf_user_pin_required x))
    preauth_flow_of).
Proof. struct_tac de_preauth_flow preauth_flow_of. Qed.
#[global] Hint Resolve auth_flow_reads preauth_flow_reads : wire.
Lemma grants_reads : reads de_grants (struct_value Reading grant_names grants_written (grants_of Reading)).
Proof. struct_tac de_grants grants_of. Qed.
#[global] Hint Resolve grants_reads : wire.
Lemma offer_reads : reads de_offer (offer_value Reading).
Proof. unfold offer_value. struct_tac de_offer offer_of. Qed.
Lemma logo_reads : reads de_logo (struct_value Reading ["url"; "alt_text"]%string (all_of ["url"; "alt_text"]%string) logo_of).
Proof. struct_tac de_logo logo_of. Qed.
#[global] Hint Resolve logo_reads : wire.
Lemma display_reads : reads de_display (struct_value Reading display_names (all_of display_names) (display_of Reading)).
Proof. struct_tac de_display display_of. Qed.
#[global] Hint Resolve display_reads : wire.

Lemma token_type_reads : reads de_token_type (token_type_value Reading).
Proof.
  intros v t. destruct t. split.
  - unfold de_token_type. destruct v as [| | | |s| |[|[k []] [|? ?]]]; cbn [de_unit_variant assoc]; try discriminate.
    + destruct (str_eqb s (lit "Bearer")) eqn:E; [|discriminate]. apply str_eqb_eq in E. subst s. constructor.
    + destruct (str_eqb k (lit "Bearer")) eqn:E; [|discriminate]. apply str_eqb_eq in E. subst k. now constructor.
  - destruct 1; reflexivity.
Qed.
#[global] Hint Resolve token_type_reads : wire.

Lemma token_success_reads : reads de_token_success (token_success_value Reading).
Proof. unfold token_success_value. struct_tac de_token_success token_success_of. Qed.
Lemma credential_success_reads :
  reads de_credential_success (credential_success_value Reading).
Proof. unfold credential_success_value. struct_tac de_credential_success credential_success_of. Qed.
Lemma token_options_reads : reads de_token_options (token_options_value Reading).
Proof. unfold token_options_value. struct_tac de_token_options token_options_of. Qed.
Lemma c_nonce_reads : reads de_c_nonce (c_nonce_value Reading).
Proof. unfold c_nonce_value. struct_tac de_c_nonce c_nonce_of. Qed.
Lemma nonce_options_reads d :
  reads (de_c_nonce_options d) (struct_value Reading nonce_option_names (all_of nonce_option_names) (nonce_options_of d)).
Proof. struct_tac de_c_nonce_options nonce_options_of. Qed.
#[global] Hint Resolve nonce_options_reads : wire.
Lemma eval_options_reads d : reads (de_eval_options d) (eval_options_value Reading d).
Proof. unfold eval_options_value. struct_tac de_eval_options eval_options_of. Qed.

Lemma claims_reads d : reads (de_body d) (struct_value Reading claim_names claims_written (claims_of d)).
Proof.
  apply (struct_reads claim_names).
  - apply thr_claims.
  - names_nodup.
  - intros m b. apply de_body_obj.
  - intros j Hj. unfold de_body. change body_fields with (map lit claim_names). now rewrite Hj.
Qed.

Lemma header_reads : reads de_header (header_value Reading).
Proof.
  intros v h. unfold header_value, flat_value. split.
  - intros H. destruct v; try discriminate H. exists m. split; [reflexivity|]. now apply de_header_iff.
  - intros (m & -> & H). now apply de_header_iff.
Qed.
#[global] Hint Resolve claims_reads header_reads : wire.

Lemma proof_jwt_reads d : reads (de_proof_jwt d) (proof_jwt_value Reading d).
Proof. unfold proof_jwt_value. struct_tac de_proof_jwt proof_jwt_of. Qed.

Lemma proof_reads : reads de_proof (request_proof_value Reading).
Proof. intros v p. apply de_proof_iff. Qed.
#[global] Hint Resolve proof_reads : wire.

Lemma grant_type_reads : reads de_grant_type (grant_type_value Reading).
Proof.
  intros v g. unfold grant_type_value, struct_value. split.
  - intros H. destruct v as [| | | | |l|m]; try discriminate H.
    2:{ exists m. split; [constructor|]. now apply de_grant_type_obj. }
    unfold de_grant_type in H. destruct l as [|[| | | |t| |] l]; try discriminate H. cbn [split_tag tag_name opt_bind] in H.
    destruct (str_eqb t grant_authorization_code) eqn:E1; [|destruct (str_eqb t grant_pre_authorized) eqn:E2; [|discriminate H]];
      repeat match goal with Q : str_eqb t _ = true |- _ => apply str_eqb_eq in Q; subst t end.
    + destruct l; [|discriminate H]. injection H as <-. eexists. split; [constructor; reflexivity|].
      constructor. cbn. split; [now left|]. reflexivity.
    + cbn [fields_of] in H. match type of H with context [Nat.eqb ?a ?b] => destruct (Nat.eqb_spec a b) as [Hl|]; [|discriminate H] end.
      repeat (destruct l as [|? l]; try discriminate Hl). cbn [map] in H. repeat take_value H. injection H as <-.
      eexists. split; [constructor; reflexivity|].
      apply de_grant_type_obj. unfold de_grant_type. cbn [grant_type_names].
      rewrite (split_tag_positional _ "grant_type" _ ["pre_authorized_code"; "user_pin"]%string); [|names_nodup|reflexivity].
      cbn [tag_name opt_bind].
      replace (str_eqb grant_pre_authorized grant_authorization_code) with false by reflexivity.
      rewrite str_eqb_refl.
      change [lit "pre_authorized_code"; lit "user_pin"] with (map lit ["pre_authorized_code"; "user_pin"]%string).
      rewrite <- fields_positional; [|names_nodup|reflexivity]. cbn [fields_of List.length map Nat.eqb].
      use_values. reflexivity.
  - intros (m & Hm & Hg). destruct Hm as [m|l Hl]; [now apply de_grant_type_obj|].
    destruct g as [|code pin]; cbn [grant_type_names] in Hl, Hg;
      repeat (destruct l as [|? l]; try discriminate Hl); pose proof Hg as Hg0;
      inversion Hg0 as [Hf|? ? Hf]; subst; (apply only_first in Hf; [|names_nodup]); subst j.
    + reflexivity.
    + apply de_grant_type_obj in Hg. unfold de_grant_type in *.
      rewrite (split_tag_positional _ "grant_type" _ ["pre_authorized_code"; "user_pin"]%string) in Hg; [|names_nodup|reflexivity].
      cbn [split_tag tag_name opt_bind] in *. rewrite <- Hg.
      change [lit "pre_authorized_code"; lit "user_pin"] with (map lit ["pre_authorized_code"; "user_pin"]%string).
      rewrite <- fields_positional; [reflexivity|names_nodup|reflexivity].
Qed.
#[global] Hint Resolve grant_type_reads : wire.
Lemma token_request_reads : reads de_token_request (token_request_value Reading).
Proof. unfold token_request_value. struct_tac de_token_request token_request_of. Qed.

(* ---------------- flattened credentials ---------------- *)

Lemma cfp_other names m : disjointb (map lit format_names) names = true ->
  de_cfp_buffered (JObj (other_members names m)) = de_cfp_buffered (JObj m).
Proof.
  intros Hd. unfold de_cfp_buffered. apply cfp_same_members. intros n Hn. unfold other_members.
  apply (named_without (lit n) (fun k => negb (mem_str k names))).
  destruct (mem_str (lit n) names) eqn:E; [|reflexivity]. apply mem_str_In in E. exfalso.
  apply (disjointb_spec _ _ Hd (lit n)); [now apply in_map|exact E].
Qed.

Lemma supported_reads : reads de_supported (supported_value Reading).
Proof.
  intros v x. unfold supported_value, flat_value. split.
  - intros H. destruct v; try discriminate H. exists m. split; [reflexivity|]. revert H.
    unfold de_supported. rewrite (cfp_other) by (vm_compute; reflexivity). unfold supported_fields.
    cbn [fields_of map_opt]. intros H. repeat take_field H. repeat take_value H.
    destruct (de_cfp_buffered (JObj m)) as [f|] eqn:Ef; [|discriminate H]. cbn [opt_bind] in H. apply some_inj in H. subst x.
    unfold supported_of. cbn. split; [now apply (credential_obj Inside)|]. conj_split; intro_member.
  - intros (m & -> & H). destruct x as [f a b c e]. unfold supported_of in H. cbn in H.
    destruct H as (Hf & Ha & Hb & Hc & He). unfold de_supported. rewrite (cfp_other) by (vm_compute; reflexivity).
    unfold supported_fields. cbn [fields_of map_opt]. repeat elim_member. use_values.
    apply (credential_obj Inside) in Hf. change (de_cfp_buffered (JObj m) = Some f) in Hf. rewrite Hf. reflexivity.
Qed.
#[global] Hint Resolve supported_reads : wire.

Lemma request_obj m x : de_request (JObj m) = Some x <-> request_of Reading m x.
Proof.
  unfold de_request, request_of. rewrite (cfp_other) by (vm_compute; reflexivity). split.
  - intros H. repeat take_field H. repeat take_value H.
    destruct (de_cfp_buffered (JObj m)) as [f|] eqn:Ef; [|discriminate H]. cbn [opt_bind] in H. apply some_inj in H. subst x.
    cbn. split; [now apply (credential_obj Inside)|]. intro_member.
  - destruct x as [f p]. cbn. intros (Hf & Hp). repeat elim_member. use_values.
    apply (credential_obj Inside) in Hf. change (de_cfp_buffered (JObj m) = Some f) in Hf. rewrite Hf. reflexivity.
Qed.

Lemma other_except m : other_members metadata_fields m = members_except metadata_names m.
Proof.
  unfold other_members, members_except. apply filter_ext. intros kv.
  destruct (in_dec (list_eq_dec ascii_dec) (fst kv) (map lit metadata_names)) as [H|H].
  - change (In (fst kv) metadata_fields) in H. apply mem_str_In in H. unfold str in *. now rewrite H.
  - change (~ In (fst kv) metadata_fields) in H. apply mem_str_not_In in H. unfold str in *. now rewrite H.
Qed.

Lemma metadata_obj m x : de_metadata (JObj m) = Some x <-> metadata_of Reading m x.
Proof.
  unfold de_metadata, metadata_of. rewrite other_except.
  cbn [fields_of metadata_fields map_opt]. split.
  - intros H. repeat take_field H. repeat take_value H.
    destruct (de_hmap de_value (JObj (members_except metadata_names m))) as [a|] eqn:Ea; [|discriminate H].
    cbn [opt_bind] in H. apply some_inj in H. subst x. cbn [im_credential_issuer im_authorization_server im_credential_endpoint
      im_batch_credential_endpoint im_credentials_supported im_additional_fields].
    conj_split; try intro_member.
    now apply (hmap_reads _ _ value_reads).
  - destruct x as [a b c e f g]. cbn [im_credential_issuer im_authorization_server im_credential_endpoint
      im_batch_credential_endpoint im_credentials_supported im_additional_fields].
    intros (Ha & Hb & Hc & He & Hf & Hh).
    destruct g as [h|]; cbn [additional_fields_of] in Hh; [|discriminate Hh]. repeat elim_member. use_values.
    apply (hmap_reads _ _ value_reads) in Hh. now rewrite Hh.
Qed.

(* ---------------- texts ---------------- *)

Lemma struct_texts {A : Type} (names : list string) (D : json -> option A) P s a :
  reads D P ->
  opt_bind (parse_struct (map lit names) s) D = Some a
  <-> exists v, struct_text (map lit names) s v /\ P v a.
Proof.
  intros HD. split.
  - destruct (parse_struct (map lit names) s) as [v|] eqn:E; [|discriminate]. cbn [opt_bind]. intros H.
    exists v. split; [now apply parse_struct_iff|now apply HD].
  - intros (v & Hs & Hv). apply parse_struct_iff in Hs. rewrite Hs. now apply HD.
Qed.

Lemma shaped_texts {A : Type} (sh : shape) (D : json -> option A) P s a : reads D P ->
  opt_bind (parse_doc sh s) D = Some a <-> exists v, shaped_text sh s v /\ P v a.
Proof.
  intros HD. split.
  - destruct (parse_doc sh s) as [v|] eqn:E; [|discriminate]. cbn [opt_bind]. intros H.
    exists v. split; [now apply parse_doc_iff|now apply HD].
  - intros (v & Hs & Hv). apply parse_doc_iff in Hs. rewrite Hs. now apply HD.
Qed.

Lemma value_texts {A : Type} (D : json -> option A) P s a : reads D P ->
  opt_bind (parse_json s) D = Some a <-> exists v, json_text s v /\ P v a.
Proof.
  intros HD. split.
  - destruct (parse_json s) as [v|] eqn:E; [|discriminate]. cbn [opt_bind]. intros H.
    exists v. split; [now apply parse_json_iff|now apply HD].
  - intros (v & Hs & Hv). apply parse_json_iff in Hs. rewrite Hs. now apply HD.
Qed.

Lemma request_reads : reads de_request (request_value Reading).
Proof.
  intros v x. unfold request_value, flat_value. split.
  - intros H. destruct v; try discriminate H. exists m. split; [reflexivity|]. now apply request_obj.
  - intros (m & -> & H). now apply request_obj.
Qed.
Lemma metadata_reads : reads de_metadata (metadata_value Reading).
Proof.
  intros v x. unfold metadata_value, flat_value. split.
  - intros H. destruct v; try discriminate H. exists m. split; [reflexivity|]. now apply metadata_obj.
  - intros (m & -> & H). now apply metadata_obj.
Qed.

Lemma offer_reading s x : offer_from_json s = Some x <->
  exists v, shaped_text offer_layout s v /\ offer_value Reading v x.
Proof. apply (shaped_texts offer_layout de_offer), offer_reads. Qed.
Lemma token_request_reading s x : token_request_from_json s = Some x <->
  exists v, struct_text [lit "grant_type"] s v /\ token_request_value Reading v x.
Proof. apply (struct_texts ["grant_type"]%string de_token_request), token_request_reads. Qed.
Lemma token_success_reading s x : token_success_from_json s = Some x <->
  exists v, struct_text (map lit token_success_names) s v /\ token_success_value Reading v x.
Proof. apply (struct_texts token_success_names de_token_success), token_success_reads. Qed.
Lemma cfp_reading s x : cfp_from_json s = Some x <->
  exists v, json_text s v /\ credential_value Reading Alone v x.
Proof. apply (value_texts de_cfp), credential_reads. Qed.
Lemma credential_request_reading s x : credential_request_from_json s = Some x <->
  exists v, shaped_text request_layout s v /\ request_value Reading v x.
Proof. apply (shaped_texts request_layout de_request), request_reads. Qed.
Lemma credential_success_reading s x : credential_success_from_json s = Some x <->
  exists v, struct_text (map lit credential_success_names) s v /\ credential_success_value Reading v x.
Proof. apply (struct_texts credential_success_names de_credential_success), credential_success_reads. Qed.
Lemma metadata_reading s x : metadata_from_json s = Some x <->
  exists v, shaped_text metadata_layout s v /\ metadata_value Reading v x.
Proof. apply (shaped_texts metadata_layout de_metadata), metadata_reads. Qed.
Lemma token_options_reading s x : token_options_from_json s = Some x <->
  exists v, struct_text [lit "expected_user_pin"] s v /\ token_options_value Reading v x.
Proof. apply (struct_texts ["expected_user_pin"]%string de_token_options), token_options_reads. Qed.
Lemma c_nonce_reading s x : c_nonce_from_json s = Some x <->
  exists v, struct_text (map lit c_nonce_names) s v /\ c_nonce_value Reading v x.
Proof. apply (struct_texts c_nonce_names de_c_nonce), c_nonce_reads. Qed.
Lemma eval_options_reading d s x : eval_options_from_json d s = Some x <->
  exists v, shaped_text eval_options_layout s v /\ eval_options_value Reading d v x.
Proof. apply (shaped_texts eval_options_layout (de_eval_options d)), eval_options_reads. Qed.
Lemma proof_jwt_reading d s x : proof_jwt_from_json d s = Some x <->
  exists v, shaped_text proof_jwt_layout s v /\ proof_jwt_value Reading d v x.
Proof. apply (shaped_texts proof_jwt_layout (de_proof_jwt d)), proof_jwt_reads. Qed.
Lemma header_reading s x : header_from_json s = Some x <->
  exists v, json_text s v /\ header_value Reading v x.
Proof. apply (value_texts de_header), header_reads. Qed.
Lemma claims_reading d s x : claims_from_json d s = Some x <->
  exists v, struct_text (map lit claim_names) s v /\ claims_value Reading d v x.
Proof. apply (struct_texts claim_names (de_body d)), claims_reads. Qed.
