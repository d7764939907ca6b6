(** How large a document can become when it is read and passed on (C112). *)
From Coq Require Import Lia ZifyBool ZifyN ZifyNat.
From Verif Require Import Model.Prelude Model.Json Model.Types Model.Deps Model.Serde Model.SerdeOptions Model.Wire
  Spec SpecNumber SpecToken SpecJson SpecJwt SpecDocuments SpecWire SpecRelay SpecHops SpecSizes
  Proofs.StrFacts Proofs.JsonFacts Proofs.SerdeFacts Proofs.DocumentFacts Proofs.GrammarFacts Proofs.WireFacts Proofs.RelayFacts Proofs.RenumberFacts
  Proofs.AnyNumbers Proofs.AnyErrors Proofs.HopsFacts Proofs.NumberSize Proofs.SizeFacts.

(* ---------------- what is written, numbers apart ---------------- *)

Fixpoint wt (j : json) : nat :=
  match j with
  | JNull => 4
  | JBool _ => 5
  | JInt _ => 20
  | JFloat _ => 24
  | JStr s => List.length (print_str s)
  | JArr l => 2 + list_sum (map (fun x => S (wt x)) l)
  | JObj m => 2 + list_sum (map (fun kv : str * json => List.length (print_str (fst kv)) + 2 + wt (snd kv)) m)
  end%nat.
Definition wm (kv : str * json) : nat := (List.length (print_str (fst kv)) + 2 + wt (snd kv))%nat.
Definition wms (m : list (str * json)) : nat := list_sum (map wm m).

Lemma wms_app m m' : wms (m ++ m') = (wms m + wms m')%nat.
Proof. unfold wms. now rewrite map_app, list_sum_app. Qed.

Lemma wt_numbers r j : wt (json_numbers r j) = wt j.
Proof.
  induction j as [|b|z|t|s|l IH|m IH] using json_ind'; try reflexivity; cbn [json_numbers wt]; f_equal; f_equal; rewrite map_map;
    apply map_ext_in; rewrite Forall_forall in IH; intros x Hx; [now rewrite IH|]. cbn [fst snd]. now rewrite IH.
Qed.

Lemma print_wt j : json_any j -> (List.length (print j) <= wt j)%nat.
Proof.
  induction j as [|b|z|t|s|l IH|m IH] using json_ind'; intros J.
  - apply Nat.leb_le. reflexivity.
  - destruct b; apply Nat.leb_le; reflexivity.
  - exact (int_size z J).
  - inversion J as [| | |t' F| | |]; subst. exact (f64_length t F).
  - reflexivity.
  - inversion J as [| | | | |l' A|]; subst. cbn [print wt]. rewrite !app_length.
    change (List.length (lit "[")) with 1%nat. change (List.length (lit "]")) with 1%nat.
    pose proof (join_size (map print l)) as Q. rewrite map_map in Q. rewrite Forall_forall in IH.
    assert (list_sum (map (fun x => S (List.length (print x))) l) <= list_sum (map (fun x => S (wt x)) l))%nat as B.
    { apply sum_le. intros x I. specialize (IH x I (A x I)). lia. }
    lia.
  - inversion J as [| | | | | |m' K F]; subst. cbn [print wt]. rewrite !app_length.
    change (List.length (lit "{")) with 1%nat. change (List.length (lit "}")) with 1%nat.
    pose proof (join_size (map (fun kv => print_str (fst kv) ++ lit ":" ++ print (snd kv)) m)) as Q. rewrite map_map in Q.
    rewrite Forall_forall in IH.
    assert (list_sum (map (fun kv => S (List.length (print_str (fst kv) ++ lit ":" ++ print (snd kv)))) m)
      <= list_sum (map (fun kv : str * json => List.length (print_str (fst kv)) + 2 + wt (snd kv)) m))%nat as B.
    { apply sum_le. intros [k x] I. cbn [fst snd]. specialize (IH (k, x) I (F k x I)). cbn [snd] in IH.
      rewrite !app_length. change (List.length (lit ":")) with 1%nat. lia. }
    lia.
Qed.

(* ---------------- what was read ---------------- *)

Definition mass (j : json) : nat := (values j + letters j)%nat.
(** With and without the name of the member. *)
Definition member_mass (kv : str * json) : nat := (List.length (fst kv) + mass (snd kv))%nat.
Definition bare_mass (kv : str * json) : nat := mass (snd kv).

Lemma mass_obj m : mass (JObj m) = S (list_sum (map member_mass m)).
Proof.
  unfold mass, member_mass, mass. cbn [values letters].
  rewrite (map_ext (fun kv : str * json => List.length (fst kv) + (values (snd kv) + letters (snd kv)))%nat
    (fun kv : str * json => values (snd kv) + (List.length (fst kv) + letters (snd kv)))%nat) by (intros; lia).
  rewrite (sum_add (fun kv : str * json => values (snd kv)) (fun kv : str * json => List.length (fst kv) + letters (snd kv))%nat). reflexivity.
Qed.
Lemma mass_arr l : mass (JArr l) = S (list_sum (map mass l)).
Proof. unfold mass. cbn [values letters]. rewrite sum_add. lia. Qed.

Lemma sum_app {A} (f : A -> nat) l l' : list_sum (map f (l ++ l')) = (list_sum (map f l) + list_sum (map f l'))%nat.
Proof. now rewrite map_app, list_sum_app. Qed.

Lemma sum_incl {A} (f : A -> nat) l : NoDup l -> forall m, incl l m -> (list_sum (map f l) <= list_sum (map f m))%nat.
Proof.
  induction 1 as [|x l N D IH]; intros m I; [cbn; lia|].
  destruct (in_split x m (I x (or_introl eq_refl))) as (a & b & ->).
  rewrite sum_app. cbn [map]. rewrite !sum_cons.
  assert (list_sum (map f l) <= list_sum (map f (a ++ b)))%nat as Q; [|rewrite sum_app in Q; lia].
  apply IH. intros y Y. specialize (I y (or_intror Y)). apply in_app_or in I. apply in_or_app.
  destruct I as [I|[I|I]]; [now left| |now right]. subst y. contradiction.
Qed.
Lemma nodup_join {A} (l l' : list A) : NoDup l -> NoDup l' -> (forall x, In x l -> ~ In x l') -> NoDup (l ++ l').
Proof.
  intros N N' D. induction N as [|x l I N IH]; [exact N'|]. cbn [app]. constructor.
  - intros X. apply in_app_or in X as [X|X]; [contradiction|]. exact (D x (or_introl eq_refl) X).
  - apply IH. intros y Y. exact (D y (or_intror Y)).
Qed.
Lemma keys_nodup {A B} (l : list (A * B)) : NoDup (map fst l) -> NoDup l.
Proof.
  induction l as [|x l IH]; [constructor|]. cbn [map]. intros H. apply NoDup_cons_iff in H as (N & H).
  constructor; [|now apply IH]. intros I. apply N. now apply in_map.
Qed.

Lemma members_mass names v m : members_of names v m -> (S (list_sum (map bare_mass m)) <= mass v)%nat.
Proof.
  intros [m'|l E].
  - rewrite mass_obj. apply le_n_S, sum_le. intros x _. unfold bare_mass, member_mass. lia.
  - rewrite mass_arr. apply le_n_S. clear E. revert l. induction (map lit names) as [|k ks IH]; intros [|x l];
      cbn [combine map]; rewrite ?sum_cons; try (cbn; lia). unfold bare_mass at 1. cbn [snd]. specialize (IH l). lia.
Qed.

(* ---------------- members ---------------- *)

Definition grows {A} (P : json -> A -> Prop) (f : A -> json) : Prop :=
  forall v x, P v x -> (wt (f x) + 8 <= 240 * mass v)%nat.

(** [w] is paid for by [o] and by members of [m] with names in [K]. *)
Definition funded (g : str * json -> nat) (m : list (str * json)) (K : list str) (o : nat) (w : list (str * json)) : Prop :=
  exists L, NoDup (map fst L) /\ incl (map fst L) K /\ incl L m
    /\ (wms w <= o + 240 * list_sum (map g L))%nat.

Section Members.
Context (g : str * json -> nat) (ge : forall kv, (mass (snd kv) <= g kv)%nat) (m : list (str * json)).

Lemma funded_app K K' o o' w w' : funded g m K o w -> funded g m K' o' w' ->
  (forall k, In k K -> ~ In k K') -> funded g m (K ++ K') (o + o') (w ++ w').
Proof.
  intros (L & N & I & M & B) (L' & N' & I' & M' & B') D. exists (L ++ L').
  split; [|split; [|split]].
  - rewrite map_app. apply nodup_join; [exact N|exact N'|].
    intros k X Y. exact (D k (I k X) (I' k Y)).
  - rewrite map_app. now apply incl_app_app.
  - now apply incl_app.
  - rewrite wms_app, sum_app. lia.
Qed.
Lemma funded_more K K' o o' w : funded g m K o w -> incl K K' -> (o <= o')%nat -> funded g m K' o' w.
Proof.
  intros (L & N & I & M & B) IK O. exists L. split; [exact N|]. split; [now apply (incl_tran I)|]. split; [exact M|lia].
Qed.
Lemma funded_fixed w : funded g m [] (wms w) w.
Proof. exists []. split; [constructor|]. split; [easy|]. split; [easy|]. cbn. lia. Qed.
Lemma funded_one k v j : In (lit k, v) m -> (wt j + 8 <= 240 * mass v)%nat ->
  funded g m [lit k] (List.length (print_str (lit k)) + 2) (field k j).
Proof.
  intros I B. exists [(lit k, v)]. split; [repeat constructor; easy|]. split; [apply incl_refl|].
  split; [intros x [<-|[]]; exact I|]. unfold field, wms, wm. cbn [map fst snd]. rewrite !sum_cons. cbn [list_sum fold_right].
  pose proof (ge (lit k, v)) as G. cbn [snd] in G. lia.
Qed.

Lemma funded_required {A} k (P : json -> A -> Prop) f a : required_member m k P a -> grows P f ->
  funded g m [lit k] (List.length (print_str (lit k)) + 2) (field k (f a)).
Proof. intros (v & (I & _) & Pv) G. apply funded_one with v; [exact I|exact (G v a Pv)]. Qed.
Lemma funded_optional {A} k (P : json -> A -> Prop) f o : optional_member m k P o -> grows P f ->
  funded g m [lit k] (List.length (print_str (lit k)) + 6) (field k (ser_opt f o)).
Proof.
  intros H G. destruct o as [a|]; cbn [optional_member ser_opt] in *.
  - destruct H as (v & (I & _) & Pv). apply funded_more with [lit k] (List.length (print_str (lit k)) + 2)%nat; [|apply incl_refl|lia].
    apply funded_one with v; [exact I|exact (G v a Pv)].
  - exists []. split; [constructor|]. split; [easy|]. split; [easy|]. unfold field, wms, wm. cbn [map fst snd wt].
    rewrite sum_cons. cbn [list_sum fold_right]. lia.
Qed.
Lemma funded_skipped {A} k (P : json -> A -> Prop) f o : optional_member m k P o -> grows P f ->
  funded g m [lit k] (List.length (print_str (lit k)) + 6) (field_opt k f o).
Proof.
  intros H G. destruct o as [a|]; [exact (funded_optional k P f (Some a) H G)|].
  exists []. split; [constructor|]. split; [easy|]. split; [easy|]. cbn. lia.
Qed.
End Members.

(* ---------------- values ---------------- *)

Lemma bare_ge kv : (mass (snd kv) <= bare_mass kv)%nat. Proof. reflexivity. Qed.
Lemma member_ge kv : (mass (snd kv) <= member_mass kv)%nat. Proof. unfold member_mass. lia. Qed.
Lemma mass_pos j : (1 <= mass j)%nat.
Proof. destruct j; unfold mass; cbn [values]; lia. Qed.

Lemma grows_text : grows text_value JStr.
Proof.
  intros v s ->. unfold mass. cbn [wt values letters]. pose proof (string_size s). lia.
Qed.
Lemma grows_bool : grows bool_value JBool.
Proof. intros v b ->. apply Nat.leb_le. reflexivity. Qed.
Lemma grows_u32 : grows u32_value ser_N.
Proof. intros v n _. pose proof (mass_pos v). unfold ser_N. cbn [wt]. lia. Qed.
Lemma grows_u64 : grows u64_value ser_N.
Proof. intros v n _. pose proof (mass_pos v). unfold ser_N. cbn [wt]. lia. Qed.

Lemma grows_list {A} (P : json -> A -> Prop) f : grows P f -> grows (list_value P) (ser_list f).
Proof.
  intros G v l (js & -> & F). unfold ser_list. rewrite mass_arr. cbn [wt]. rewrite map_map.
  enough (list_sum (map (fun x => S (wt (f x))) l) <= 240 * list_sum (map mass js))%nat by lia.
  induction F as [|j x js l Pj F IH]; [cbn; lia|]. cbn [map]. rewrite !sum_cons. specialize (G j x Pj). lia.
Qed.

(** Members with distinct names, each from a member of that name. *)
Lemma funded_keyed {A} (f : A -> json) m (h : list (str * A)) : NoDup (map fst h) ->
  (forall k a, In (k, a) h -> exists j, In (k, j) m /\ (wt (f a) + 8 <= 240 * mass j)%nat) ->
  funded member_mass m (map fst h) 0 (map (fun kv => (fst kv, f (snd kv))) h).
Proof.
  induction h as [|(k, a) h IH]; intros N H.
  - exists []. split; [constructor|]. split; [easy|]. split; [easy|]. cbn. lia.
  - cbn [map fst] in N. apply NoDup_cons_iff in N as (N & D).
    destruct IH as (L & NL & I & M & B); [exact D|intros k' a' X; apply H; now right|].
    destruct (H k a (or_introl eq_refl)) as (j & J & C). exists ((k, j) :: L). cbn [map fst snd].
    split; [constructor; [intros X; exact (N (I k X))|exact NL]|].
    split; [intros x [<-|X]; [now left|right; exact (I x X)]|]. split; [intros x [<-|X]; [exact J|exact (M x X)]|].
    unfold wms in *. cbn [map]. rewrite !sum_cons. unfold wm at 1, member_mass at 1. cbn [fst snd].
    pose proof (string_size k). lia.
Qed.
Lemma funded_members m K o w : funded member_mass m K o w -> (wms w <= o + 240 * list_sum (map member_mass m))%nat.
Proof.
  intros (L & N & _ & M & B). pose proof (sum_incl member_mass L (keys_nodup L N) m M). lia.
Qed.

Lemma last_in m k j : last_member m k j -> In (k, j) m.
Proof. intros (a & b & -> & _). apply in_or_app. right. now left. Qed.

Lemma grows_map {A} (P : json -> A -> Prop) f : grows P f -> grows (map_value P) (ser_hmap f).
Proof.
  intros G v h (m & -> & F & _ & H). destruct (first_occurrences_distinct _ _ F) as [N _].
  assert (funded member_mass m (map fst h) 0 (map (fun kv => (fst kv, f (snd kv))) h)) as B.
  { apply funded_keyed; [exact N|]. intros k a X. destruct (H k a X) as (j & L & Pj). exists j. split; [now apply last_in|exact (G j a Pj)]. }
  apply funded_members in B. rewrite mass_obj. unfold ser_hmap. cbn [wt]. unfold wms, wm in B. lia.
Qed.

Lemma sorted_nodup (l : list str) : Sorted.StronglySorted str_lt l -> NoDup l.
Proof.
  induction 1 as [|k l S IH F]; [constructor|]. constructor; [|exact IH]. intros I. rewrite Forall_forall in F.
  exact (str_lt_irrefl k (F k I)).
Qed.
Lemma grows_free : grows free_value (fun v => v).
Proof.
  intros j. induction j as [|b|z|t|s|l IH|m IH] using json_ind'; intros v H; inversion H as [| | | | |? l' F|? m' S K G]; subst.
  1-4: apply Nat.leb_le; reflexivity.
  - exact (grows_text (JStr s) s eq_refl).
  - rewrite mass_arr. cbn [wt].
    enough (list_sum (map (fun x => S (wt x)) l') <= 240 * list_sum (map mass l))%nat by lia.
    clear H. induction F as [|j x js l' Pj F IH']; [cbn; lia|]. cbn [map]. rewrite !sum_cons.
    apply Forall_cons_iff in IH as (I1 & I2). specialize (I1 x Pj). specialize (IH' I2). lia.
  - assert (funded member_mass m (map fst m') 0 (map (fun kv => (fst kv, snd kv)) m')) as B.
    { apply (funded_keyed (fun v => v)); [now apply sorted_nodup|]. intros k a X. destruct (G k a X) as (j & L & Pj).
      apply last_in in L. exists j. split; [exact L|]. rewrite Forall_forall in IH. exact (IH (k, j) L a Pj). }
    apply funded_members in B. rewrite mass_obj. cbn [wt]. unfold wms, wm in B.
    rewrite map_map in B. cbn [fst snd] in B. lia.
Qed.

Lemma grows_struct {A} names wr (P : list (str * json) -> A -> Prop) (w : A -> list (str * json)) :
  (forall m x, P m x -> exists K o, funded bare_mass m K o (w x) /\ (o <= 230)%nat) ->
  grows (struct_value Reading names wr P) (fun x => JObj (w x)).
Proof.
  intros H v x (m & M & Px). destruct (H m x Px) as (K & o & (L & N & _ & I & B) & O).
  apply members_mass in M. pose proof (sum_incl bare_mass L (keys_nodup L N) m I).
  cbn [wt]. unfold wms, wm in B. lia.
Qed.
Lemma grows_flat {A} wr (P : list (str * json) -> A -> Prop) (w : A -> list (str * json)) :
  (forall m x, P m x -> exists K o, funded member_mass m K o (w x) /\ (o <= 230)%nat) ->
  grows (flat_value Reading wr P) (fun x => JObj (w x)).
Proof.
  intros H v x (m & -> & Px). destruct (H m x Px) as (K & o & F & O).
  apply funded_members in F. rewrite mass_obj. cbn [wt]. unfold wms, wm in F. lia.
Qed.

Definition apart_b (K K' : list str) : bool := forallb (fun k => negb (mem_str k K')) K.
Lemma apart_keys K K' : apart_b K K' = true -> forall k, In k K -> ~ In k K'.
Proof.
  unfold apart_b. rewrite forallb_forall. intros H k I X. specialize (H k I).
  apply mem_str_In in X. rewrite X in H. discriminate.
Qed.

Ltac funds ge := lazymatch goal with
  | |- funded _ _ _ _ (_ ++ _) => eapply funded_app; [funds ge|funds ge|apply apart_keys; vm_compute; reflexivity]
  | |- funded _ _ _ _ (field_opt _ _ _) => eapply funded_skipped; [exact ge|eassumption|auto with grow]
  | |- funded _ _ _ _ (field _ (ser_opt _ _)) => eapply funded_optional; [exact ge|eassumption|auto with grow]
  | |- funded _ _ _ _ (field _ _) => eapply funded_required; [exact ge|eassumption|auto with grow]
  end.
Ltac struct_grows := apply grows_struct; intros m x H;
  red in H; repeat match goal with X : _ /\ _ |- _ => destruct X end;
  eexists _, _; split; [funds bare_ge|apply Nat.leb_le; vm_compute; reflexivity].

Create HintDb grow.
#[local] Hint Resolve grows_text grows_bool grows_u32 grows_u64 grows_list grows_map : grow.

(* ---------------- credentials ---------------- *)

Lemma grows_texts : grows texts_value (ser_list JStr).
Proof. apply grows_list, grows_text. Qed.
#[local] Hint Resolve grows_texts : grow.
Lemma grows_subject_display : grows (subject_display_value Reading) ser_subject_display.
Proof. struct_grows. Qed.
#[local] Hint Resolve grows_subject_display : grow.
Lemma grows_subject : grows (subject_value Reading) ser_subject.
Proof. struct_grows. Qed.
#[local] Hint Resolve grows_subject : grow.

Lemma grows_context : grows ld_context_value ser_ld_context.
Proof.
  intros v c [s|v' h H]; [exact (grows_text (JStr s) s eq_refl)|]. exact (grows_map free_value (fun v => v) grows_free v' h H).
Qed.
#[local] Hint Resolve grows_context : grow.

Definition credential_keys : list str :=
  map lit ["types"; "credentialSubject"; "order"; "@context"; "doctype"; "claims"]%string.

Lemma funded_credential g (ge : forall kv, (mass (snd kv) <= g kv)%nat) p m c :
  credential_of Reading p m c -> exists o, funded g m credential_keys o (cfp_members c) /\ (o <= 100)%nat.
Proof.
  intros H. unfold cfp_members, cfp_tag.
  destruct H; (eexists; split;
    [eapply funded_more; [eapply funded_app; [apply funded_fixed|funds ge|easy]| |apply (le_n _)]|]);
    try (apply Nat.leb_le; vm_compute; reflexivity); cbn [app]; intros k X; cbn in X |- *; tauto.
Qed.
Lemma grows_credential p : grows (credential_value Reading p) ser_cfp.
Proof.
  intros v c. unfold credential_value, ser_cfp. generalize (credential_names c) SpecWire.credential_written. intros names wr.
  apply (grows_struct names wr (credential_of Reading p) cfp_members). intros m x H.
  destruct (funded_credential bare_mass bare_ge p m x H) as (o & F & O). exists credential_keys, o. split; [exact F|lia].
Qed.
#[local] Hint Resolve grows_credential : grow.

(* ---------------- offers ---------------- *)

Lemma grows_offered : grows (offered_value Reading) ser_credential_or_id.
Proof. intros v c [s|v' c' H]; [exact (grows_text (JStr s) s eq_refl)|exact (grows_credential Inside v' c' H)]. Qed.
#[local] Hint Resolve grows_offered : grow.
Lemma grows_auth wr : grows (struct_value Reading ["issuer_state"]%string wr auth_flow_of) ser_auth_flow.
Proof. struct_grows. Qed.
Lemma grows_pre wr : grows (struct_value Reading ["pre-authorized_code"; "user_pin_required"]%string wr preauth_flow_of) ser_preauth_flow.
Proof. struct_grows. Qed.
#[local] Hint Resolve grows_auth grows_pre : grow.
Lemma grows_grants wr : grows (struct_value Reading grant_names wr (grants_of Reading)) ser_grants.
Proof. struct_grows. Qed.
#[local] Hint Resolve grows_grants : grow.
Lemma grows_offer : grows (offer_value Reading) ser_offer.
Proof. struct_grows. Qed.

(* ---------------- metadata ---------------- *)

Lemma grows_logo wr : grows (struct_value Reading ["url"; "alt_text"]%string wr logo_of) ser_logo.
Proof. struct_grows. Qed.
#[local] Hint Resolve grows_logo : grow.
Lemma grows_display wr : grows (struct_value Reading display_names wr (display_of Reading)) ser_display.
Proof. struct_grows. Qed.
#[local] Hint Resolve grows_display : grow.
Lemma grows_supported : grows (supported_value Reading) ser_supported.
Proof.
  apply grows_flat. intros m x (C & H1 & H2 & H3 & H4).
  destruct (funded_credential member_mass member_ge _ _ _ C) as (o & F & O).
  eexists _, _. split; [eapply funded_app; [exact F|funds member_ge|apply apart_keys; vm_compute; reflexivity]|].
  match goal with |- (_ + ?a <= _)%nat => assert (a <= 120)%nat by (apply Nat.leb_le; vm_compute; reflexivity) end. lia.
Qed.
#[local] Hint Resolve grows_supported : grow.
Lemma grows_metadata : grows (metadata_value Reading) ser_metadata.
Proof.
  apply grows_flat. intros m x (H1 & H2 & H3 & H4 & H5 & H6).
  unfold additional_fields_of in H6. destruct (im_additional_fields x) as [a|]; [|discriminate H6].
  destruct H6 as (m' & [= <-] & F & _ & G). destruct (first_occurrences_distinct _ _ F) as [N C].
  assert (funded member_mass m (map fst a) 0 a) as B.
  { rewrite <- (map_id a) at 2. rewrite (map_ext (fun kv : str * json => kv) (fun kv => (fst kv, snd kv))) by (now intros []).
    apply (funded_keyed (fun v => v)); [exact N|]. intros k v I. destruct (G k v I) as (j & L & Pj). exists j.
    split; [|exact (grows_free j v Pj)]. apply last_in in L. unfold members_except in L. now apply filter_In in L. }
  rewrite !app_assoc. eexists _, _. split.
  - eapply funded_app; [funds member_ge|exact B|]. intros k I X. apply C in X. apply in_map_iff in X as ((k', v) & <- & X).
    unfold members_except in X. apply filter_In in X as (_ & X). cbn [fst] in *.
    destruct (in_dec (list_eq_dec ascii_dec) k' (map lit metadata_names)) as [_|Y]; [discriminate X|]. exact (Y I).
  - apply Nat.leb_le. vm_compute. reflexivity.
Qed.

(* ---------------- requests and responses ---------------- *)

Lemma grows_proof : grows (request_proof_value Reading) ser_proof.
Proof.
  intros v p H. cbn [request_proof_value] in H.
  assert (forall m t j, In (lit "jwt", JStr j) m -> (wt (ser_proof {| rp_proof_type := t; rp_jwt := j |}) + 8
    <= 60 + List.length (print_str t) + 6 * List.length j)%nat) as B.
  { intros m t j _. unfold ser_proof, field. cbn [rp_proof_type rp_jwt app wt map fst snd]. rewrite !sum_cons.
    cbn [list_sum fold_right]. change (List.length (print_str (lit "proof_type"))) with 12%nat.
    change (List.length (print_str (lit "jwt"))) with 5%nat. pose proof (string_size j). lia. }
  destruct H as [m j N (J & _)|m t j (T & _) (J & _)|t j].
  - specialize (B m (lit "JWT") j J). change (List.length (print_str (lit "JWT"))) with 5%nat in B.
    assert (NoDup [(lit "jwt", JStr j)]) as ND by (constructor; [intros []|constructor]).
    pose proof (sum_incl member_mass _ ND m) as I.
    rewrite mass_obj. unfold member_mass at 1, mass at 1 in I. cbn [map snd letters values] in I. rewrite sum_cons in I.
    assert (incl [(lit "jwt", JStr j)] m) as Q by (intros y [<-|[]]; exact J). specialize (I Q). lia.
  - specialize (B m t j J).
    assert (NoDup [(lit "jwt", JStr j); (lit "proof_type", JStr t)]) as ND.
    { apply keys_nodup. repeat constructor; cbn; intros X; repeat destruct X as [X|X]; try discriminate; auto. }
    assert (incl [(lit "jwt", JStr j); (lit "proof_type", JStr t)] m) as Q by (intros y [<-|[<-|[]]]; assumption).
    pose proof (sum_incl member_mass _ ND m Q) as I. rewrite mass_obj.
    unfold member_mass at 1, mass at 1 in I. cbn [map fst snd letters values] in I. rewrite !sum_cons in I.
    pose proof (string_size t). lia.
  - specialize (B [(lit "jwt", JStr j)] t j (or_introl eq_refl)). rewrite mass_arr. cbn [map]. rewrite !sum_cons.
    unfold mass. cbn [values letters]. pose proof (string_size t). lia.
Qed.
#[local] Hint Resolve grows_proof : grow.
Lemma grows_request : grows (request_value Reading) ser_request.
Proof.
  apply grows_flat. intros m x (C & H).
  destruct (funded_credential member_mass member_ge _ _ _ C) as (o & F & O).
  eexists _, _. split; [eapply funded_app; [exact F|funds member_ge|apply apart_keys; vm_compute; reflexivity]|].
  match goal with |- (_ + ?a <= _)%nat => assert (a <= 120)%nat by (apply Nat.leb_le; vm_compute; reflexivity) end. lia.
Qed.

Lemma grows_issued : grows (issued_value Reading) ser_cfp_or_encoded.
Proof.
  intros v c [v' c' H|s]; rewrite mass_obj; cbn [map]; rewrite !sum_cons; unfold member_mass; cbn [fst snd];
    unfold ser_cfp_or_encoded, field; cbn [wt map fst snd]; rewrite sum_cons; cbn [list_sum fold_right].
  - apply grows_credential in H. change (List.length (print_str (lit "CredentialFormatProfile"))) with 25%nat. lia.
  - change (List.length (print_str (lit "Encoded"))) with 9%nat. pose proof (grows_text (JStr s) s eq_refl) as G. cbn [wt] in G. lia.
Qed.
#[local] Hint Resolve grows_issued : grow.
Lemma grows_response : grows (credential_success_value Reading) ser_credential_success.
Proof. struct_grows. Qed.

(* ---------------- tokens ---------------- *)

Lemma grows_token_type : grows (token_type_value Reading) ser_token_type.
Proof. intros v [] _. pose proof (mass_pos v). change (wt (ser_token_type Bearer)) with 8%nat. lia. Qed.
#[local] Hint Resolve grows_token_type : grow.
Lemma grows_token_success : grows (token_success_value Reading) ser_token_success.
Proof. struct_grows. Qed.
Lemma grows_token_options : grows (token_options_value Reading) ser_token_options.
Proof. struct_grows. Qed.
Lemma grows_nonce : grows (c_nonce_value Reading) ser_c_nonce.
Proof. struct_grows. Qed.

Lemma grows_grant wr : forall names, grows (fun v g => struct_value Reading (names g) (wr g) grant_of v g) ser_grant_type.
Proof.
  intros names v g H. revert v H. intros v (m & M & G). apply members_mass in M. destruct G as [T|code pin T C P].
  - assert (wt (ser_grant_type GAuthorizedCode) <= 100)%nat by (apply Nat.leb_le; vm_compute; reflexivity). lia.
  - assert (exists K o, funded bare_mass m K o (field "grant_type" (JStr grant_pre_authorized)
      ++ field "pre_authorized_code" (JStr code) ++ field "user_pin" (ser_opt ser_N pin)) /\ (o <= 230)%nat) as (K & o & F & O).
    { eexists _, _. split.
      - eapply funded_app; [apply funded_fixed| |easy].
        eapply funded_app; [eapply funded_one; [exact bare_ge|exact (proj1 C)|exact (grows_text _ code eq_refl)]
          |eapply funded_optional; [exact bare_ge|exact P|exact grows_u64]|apply apart_keys; vm_compute; reflexivity].
      - apply Nat.leb_le. vm_compute. reflexivity. }
    destruct F as (L & N & _ & I & B). pose proof (sum_incl bare_mass L (keys_nodup L N) m I).
    cbn [ser_grant_type wt]. unfold wms, wm in B. lia.
Qed.
Lemma grows_token_request : grows (token_request_value Reading) ser_token_request.
Proof.
  apply grows_struct. intros m x H. eexists _, _. split; [eapply funded_required; [exact bare_ge|exact H|]|].
  - exact (grows_grant (fun g => all_of (grant_type_names g)) grant_type_names).
  - apply Nat.leb_le. vm_compute. reflexivity.
Qed.

(* ---------------- proofs and options ---------------- *)

Lemma first_key_in m n s key : first_key m (Some key) -> key_is n s key -> In (lit n, JStr s) m.
Proof.
  intros H K. inversion H as [|b a n' s' key' E _ K'|]; subst. apply in_or_app. right. left.
  inversion K; subst; inversion K'; subst; reflexivity.
Qed.
Lemma grows_header : grows (header_value Reading) ser_header.
Proof.
  apply grows_flat. intros m h ((T & _) & _ & K).
  assert (exists k o, funded member_mass m k o (additional_members (h_additional h)) /\ (o <= 10)%nat
    /\ (forall x, In x k -> In x (map lit key_names))) as (Ks & o & F & O & I).
  { destruct (h_additional h) as [[s|s|s]|].
    1-3: eexists _, _; split; [eapply funded_one; [exact member_ge| |exact (grows_text _ s eq_refl)];
      eapply first_key_in; [exact K|constructor]|split; [apply Nat.leb_le; vm_compute; reflexivity|]];
      intros x X; cbn in X |- *; tauto.
    exists [], O. split; [apply funded_fixed|]. split; [lia|intros x []]. }
  exists ([lit "typ"] ++ [] ++ Ks). eexists. split.
  - eapply funded_app; [eapply funded_one; [exact member_ge|exact T|exact (grows_text _ _ eq_refl)]| |].
    + eapply funded_app; [apply funded_fixed|exact F|easy].
    + intros k [<-|[]] X. apply I in X. revert X. cbn [app map key_names]. apply apart_keys with [lit "typ"]; [vm_compute; reflexivity|now left].
  - assert (wms (field "alg" (JStr (alg_name (h_alg h)))) <= 20)%nat as A.
    { destruct (h_alg h); apply Nat.leb_le; vm_compute; reflexivity. }
    change (List.length (print_str (lit "typ"))) with 5%nat. lia.
Qed.
#[local] Hint Resolve grows_header : grow.

Section Dates.
Context (d : deps) (brief : dates_brief d)
  (ranged : dates_in_range d).

Lemma grows_instant : grows (instant_value d) (ser_instant d).
Proof.
  intros v t (s & -> & H). apply ranged, brief in H. pose proof (mass_pos (JStr s)). unfold ser_instant. cbn [wt].
  pose proof (string_size (dt_print d t)). lia.
Qed.
#[local] Hint Resolve grows_instant : grow.
Lemma grows_nonce_options wr : grows (struct_value Reading nonce_option_names wr (nonce_options_of d)) (ser_c_nonce_options d).
Proof. struct_grows. Qed.
#[local] Hint Resolve grows_nonce_options : grow.
Lemma grows_eval_options : grows (eval_options_value Reading d) (ser_eval_options d).
Proof. struct_grows. Qed.

Lemma only_required m k s : only_member m k (JStr s) -> required_member m k text_value s.
Proof. intros H. exists (JStr s). split; [exact H|reflexivity]. Qed.
Lemma grows_claims_any wr : grows (struct_value Reading claim_names wr (claims_of d)) (ser_body d).
Proof.
  apply grows_struct. intros m x (H1 & H2 & H3 & H4 & H5 & H6 & H7). apply only_required in H2, H5.
  change (required_member m "iat" (instant_value d) (b_iat x)) in H4.
  eexists _, _. split; [funds bare_ge|apply Nat.leb_le; vm_compute; reflexivity].
Qed.
#[local] Hint Resolve grows_claims_any : grow.
Lemma grows_claims : grows (claims_value Reading d) (ser_body d).
Proof. apply grows_claims_any. Qed.
Lemma grows_proof_jwt : grows (proof_jwt_value Reading d) (ser_proof_jwt d).
Proof. struct_grows. Qed.
End Dates.

(* ---------------- documents ---------------- *)

Lemma any_members c : cfp_with json_any c -> Forall member_any (cfp_members c).
Proof.
  intros H. apply credential_any in H. unfold ser_cfp in H. inversion H as [| | | | | |m K V]; subst.
  rewrite Forall_forall. intros (k, v) I. split; [exact (K k v I)|exact (V k v I)].
Qed.
Lemma any_opt {A} (f : A -> json) o : on_some (fun a => json_any (f a)) o -> json_any (ser_opt f o).
Proof. destruct o as [a|]; intros H; [exact (H a eq_refl)|constructor]. Qed.
Lemma any_opt_str o : on_some rust_string o -> json_any (ser_opt JStr o).
Proof. intros H. apply any_opt. intros a E. constructor. exact (H a E). Qed.

Lemma request_any n x : request_with (value_any n) x -> json_any (ser_request x).
Proof.
  intros (H1 & H2). apply any_obj. jfields; [apply any_members, (any_credential n), H1|].
  apply any_opt. intros p E. apply (good_any 1), good_proof, (H2 p E).
Qed.
Lemma offer_any n x : offer_with (value_any n) x -> json_any (ser_offer x).
Proof.
  intros (H1 & H2 & H3 & H4). apply any_obj. jfields.
  - now constructor.
  - apply any_arr. rewrite Forall_map. eapply Forall_impl; [|exact H2].
    intros [s|c] H; [now constructor|]. apply credential_any, (any_credential n), H.
  - apply (good_any 2). now apply good_grants.
Qed.
Lemma response_holds n x : credential_success_with (value_any n) x -> json_any (ser_credential_success x).
Proof.
  intros (H1 & H2 & H3 & H4 & H5). apply any_obj. jfields; try now apply any_opt_str.
  - now constructor.
  - apply any_opt. intros c E. specialize (H2 c E). destruct c as [c|s]; cbn [cfp_or_encoded_with ser_cfp_or_encoded] in *;
      apply any_obj; jfields; [apply credential_any, (any_credential n), H2|now constructor].
  - apply (good_any 0). now apply good_opt_u32.
Qed.
Lemma supported_any n x : supported_with (value_any n) x -> json_any (ser_supported x).
Proof.
  intros (H1 & H2 & H3 & H4 & H5). apply any_obj. jfields; try now apply any_opt_str.
  - apply any_members, (any_credential n), H1.
  - apply (good_any 1). now apply good_opt_strs.
  - apply (good_any 1). now apply good_opt_strs.
  - apply any_opt. intros l E. apply any_arr. rewrite Forall_map. eapply Forall_impl; [|exact (H5 l E)].
    intros p Hp. apply (good_any 2). now apply good_display.
Qed.
Lemma metadata_any n k x : metadata_with (value_any n) (value_any k) x -> json_any (ser_metadata x).
Proof.
  intros (H1 & H2 & H3 & H4 & H5 & H6). apply any_obj. jfields; try now apply any_opt_str.
  - now constructor.
  - now constructor.
  - apply any_arr. rewrite Forall_map. eapply Forall_impl; [|exact H5]. intros s. apply supported_any.
  - destruct (im_additional_fields x) as [a|]; [|constructor]. destruct (H6 a eq_refl) as [_ A].
    rewrite Forall_forall. intros (key, v) I. destruct (A key v I) as (K & V). split; [exact K|exact (proj1 V)].
Qed.

Section Relayed.
Context {A : Type} (read : str -> option A) (ser : A -> json) (numbers : (str -> str) -> A -> A).
Hypothesis once : forall r s x, rereads r -> read s = Some x -> read (print (ser x)) = Some (numbers r x).
Hypothesis kept : forall r x, wt (ser (numbers r x)) = wt (ser x).
Hypothesis held : forall s x, read s = Some x -> json_any (ser x).
Hypothesis bound : forall s x, read s = Some x -> (wt (ser x) <= 240 * List.length s)%nat.
Lemma relayed_size k s t : passed_on read (fun x => print (ser x)) k s = Some t -> (List.length t <= 240 * List.length s)%nat.
Proof.
  destruct k as [|k]; cbn [passed_on]; [intros [= <-]; lia|].
  destruct (read s) as [x|] eqn:E; [|discriminate]. pose proof (bound s x E) as B.
  enough (forall k s x, read s = Some x -> passed_on read (fun x => print (ser x)) k (print (ser x)) = Some t ->
    (List.length t <= wt (ser x))%nat) as G.
  { intros H. specialize (G k s x E H). lia. }
  clear k s x E B. induction k as [|k IH]; intros s x E; cbn [passed_on].
  - intros H. apply some_inj in H. subst t. apply print_wt, (held s x E).
  - pose proof (once reread s x reread_rereads E) as O. rewrite O. intros H.
    specialize (IH _ _ O H). now rewrite kept in IH.
Qed.
End Relayed.

Lemma shaped_mass sh s v : shaped_text sh s v -> (mass v <= List.length s)%nat.
Proof.
  intros (a & t & b & -> & _ & _ & V). apply (proj1 texts_size) in V. unfold mass. rewrite !app_length. lia.
Qed.
Lemma grown_text {A} (P : json -> A -> Prop) f sh s v x : grows P f -> shaped_text sh s v -> P v x ->
  (wt (f x) <= 240 * List.length s)%nat.
Proof. intros G T V. specialize (G v x V). apply shaped_mass in T. lia. Qed.

Lemma credential_within : not_amplified cfp_from_json cfp_to_json.
Proof.
  intros k s t. apply (relayed_size cfp_from_json ser_cfp credential_numbers).
  - intros r s' x Hr H. exact (cfp_again r Hr s' x H).
  - intros r x. now rewrite <- RenumberFacts.credential_written, wt_numbers.
  - intros s' x H. apply cfp_reading in H as (v & T & V). apply spelt_text in T.
    apply credential_any, (any_credential 124). exact (credential_sound Alone 127 v x T V).
  - intros s' x H. apply cfp_reading in H as (v & T & V). exact (grown_text _ _ _ _ _ _ (grows_credential Alone) T V).
Qed.
Lemma offer_within : not_amplified offer_from_json offer_to_json.
Proof.
  intros k s t. apply (relayed_size offer_from_json ser_offer offer_numbers).
  - intros r s' x Hr H. exact (offer_again r Hr s' x H).
  - intros r x. now rewrite <- RenumberFacts.offer_written, wt_numbers.
  - intros s' x H. apply offer_reading in H as (v & T & V). apply spelt_text in T.
    exact (offer_any _ x (offer_sound 127 v x T V)).
  - intros s' x H. apply offer_reading in H as (v & T & V). exact (grown_text _ _ _ _ _ _ grows_offer T V).
Qed.
Lemma request_within : not_amplified credential_request_from_json credential_request_to_json.
Proof.
  intros k s t. apply (relayed_size credential_request_from_json ser_request request_numbers).
  - intros r s' x Hr H. exact (request_again r Hr s' x H).
  - intros r x. now rewrite <- RenumberFacts.request_written, wt_numbers.
  - intros s' x H. apply credential_request_reading in H as (v & T & V). apply spelt_text in T.
    exact (request_any _ x (request_sound 127 v x T V)).
  - intros s' x H. apply credential_request_reading in H as (v & T & V). exact (grown_text _ _ _ _ _ _ grows_request T V).
Qed.
Lemma response_within : not_amplified credential_success_from_json credential_success_to_json.
Proof.
  intros k s t. apply (relayed_size credential_success_from_json ser_credential_success response_numbers).
  - intros r s' x Hr H. exact (success_again r Hr s' x H).
  - intros r x. now rewrite <- RenumberFacts.response_written, wt_numbers.
  - intros s' x H. apply credential_success_reading in H as (v & T & V). apply spelt_text in T.
    exact (response_holds _ x (success_sound 127 v x T V)).
  - intros s' x H. apply credential_success_reading in H as (v & T & V). exact (grown_text _ _ _ _ _ _ grows_response T V).
Qed.
Lemma metadata_within : not_amplified metadata_from_json metadata_to_json.
Proof.
  intros k s t. apply (relayed_size metadata_from_json ser_metadata metadata_numbers).
  - intros r s' x Hr H. exact (metadata_again r Hr s' x H).
  - intros r x. now rewrite <- RenumberFacts.metadata_written, wt_numbers.
  - intros s' x H. apply metadata_reading in H as (v & T & m & -> & V). apply spelt_text in T.
    exact (metadata_any _ _ x (proj1 (metadata_sound 127 m x T V))).
  - intros s' x H. apply metadata_reading in H as (v & T & V). exact (grown_text _ _ _ _ _ _ grows_metadata T V).
Qed.

(** Documents that do not change. *)
Lemma fixed_within {A} (read : str -> option A) (ser : A -> json) :
  (forall s x, read s = Some x -> read (print (ser x)) = Some x) ->
  (forall s x, read s = Some x -> json_any (ser x)) ->
  (forall s x, read s = Some x -> (wt (ser x) <= 240 * List.length s)%nat) ->
  not_amplified read (fun x => print (ser x)).
Proof.
  intros H1 H2 H3 k s t. apply (relayed_size read ser (fun _ x => x)); [|reflexivity|exact H2|exact H3].
  intros _ s' x _. apply H1.
Qed.

Lemma token_request_within : not_amplified token_request_from_json token_request_to_json.
Proof.
  apply (fixed_within token_request_from_json ser_token_request token_request_relay);
    intros s x H; apply token_request_reading in H as (v & T & V).
  - apply (good_any 2), good_token_request. apply spelt_text in T. exact (token_request_sound 127 v x T V).
  - exact (grown_text _ _ _ _ _ _ grows_token_request T V).
Qed.
Lemma token_success_within : not_amplified token_success_from_json token_success_to_json.
Proof.
  apply (fixed_within token_success_from_json ser_token_success token_success_relay);
    intros s x H; apply token_success_reading in H as (v & T & V).
  - apply (good_any 1), good_token_success. apply spelt_text in T. exact (token_success_sound 127 v x T V).
  - exact (grown_text _ _ _ _ _ _ grows_token_success T V).
Qed.
Lemma token_options_within : not_amplified token_options_from_json token_options_to_json.
Proof.
  apply (fixed_within token_options_from_json ser_token_options token_options_relay);
    intros s x H; apply token_options_reading in H as (v & T & V).
  - apply spelt_text in T. pose proof (token_options_sound 127 v x T V) as O. apply any_obj. jfields.
    apply any_opt. intros n E. apply (good_any 0), jgood_N, (O n E).
  - exact (grown_text _ _ _ _ _ _ grows_token_options T V).
Qed.
Lemma c_nonce_within : not_amplified c_nonce_from_json c_nonce_to_json.
Proof.
  apply (fixed_within c_nonce_from_json ser_c_nonce c_nonce_relay);
    intros s x H; apply c_nonce_reading in H as (v & T & V).
  - apply spelt_text in T. destruct (c_nonce_sound 127 v x T V) as (O1 & O2). apply any_obj. jfields; [now constructor|].
    apply (good_any 0). now apply good_opt_u32.
  - exact (grown_text _ _ _ _ _ _ grows_nonce T V).
Qed.
Lemma header_within : not_amplified header_from_json header_to_json.
Proof.
  apply (fixed_within header_from_json ser_header header_relay);
    intros s x H; apply header_reading in H as (v & T & V).
  - apply (good_any 1), good_header. apply spelt_text in T. exact (header_sound 127 v x T V).
  - exact (grown_text _ _ _ _ _ _ grows_header T V).
Qed.

Section Dated.
Context (d : deps) (rt : dt_round_trips d) (ranged : dates_in_range d)
  (brief : dates_brief d).
Lemma claims_within : not_amplified (claims_from_json d) (claims_to_json d).
Proof.
  apply (fixed_within (claims_from_json d) (ser_body d) (fun s x => claims_relay d s x rt ranged));
    intros s x H; apply claims_reading in H as (v & T & V).
  - apply spelt_text in T. destruct (claims_sound d ranged 127 v x T V) as [B1 B2]. apply (good_any 1). now apply good_body.
  - exact (grown_text _ _ _ _ _ _ (grows_claims d brief ranged) T V).
Qed.
Lemma options_any x : eval_options_ok x -> json_any (ser_eval_options d x).
Proof.
  intros (H1 & H2). apply any_obj. jfields; [|now apply any_opt_str].
  apply any_opt. intros o E. apply (good_any 1). apply good_c_nonce_options; [exact rt|exact (H1 o E)].
Qed.
Lemma eval_options_within : not_amplified (eval_options_from_json d) (eval_options_to_json d).
Proof.
  apply (fixed_within (eval_options_from_json d) (ser_eval_options d) (fun s x => eval_options_relay d s x rt ranged));
    intros s x H; apply eval_options_reading in H as (v & T & V).
  - apply spelt_text in T. apply options_any. exact (eval_options_sound d ranged 127 v x T V).
  - exact (grown_text _ _ _ _ _ _ (grows_eval_options d brief ranged) T V).
Qed.
Lemma proof_any x : proof_jwt_ok x -> json_any (ser_proof_jwt d x).
Proof.
  intros (H1 & H2 & H3 & H4). apply any_obj. jfields; [| |now apply any_opt_str].
  - apply (good_any 1). now apply good_header.
  - apply (good_any 1). now apply good_body.
Qed.
Lemma proof_jwt_within : not_amplified (proof_jwt_from_json d) (proof_jwt_to_json d).
Proof.
  apply (fixed_within (proof_jwt_from_json d) (ser_proof_jwt d) (fun s x => proof_jwt_relay d s x rt ranged));
    intros s x H; apply proof_jwt_reading in H as (v & T & V).
  - apply spelt_text in T. apply proof_any. exact (proof_jwt_sound d ranged 127 v x T V).
  - exact (grown_text _ _ _ _ _ _ (grows_proof_jwt d brief ranged) T V).
Qed.
End Dated.
