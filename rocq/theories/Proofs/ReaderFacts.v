(** Skipping values that nobody reads accepts every document that reading them
    would accept, and does not change the members that are read. *)
From Coq Require Import Lia ZifyBool ZifyN ZifyNat.
From Verif Require Import Model.Prelude Model.Utf8 Model.Float Model.Json Model.Types Model.Serde Spec SpecToken
  Proofs.StrFacts Proofs.Utf8Facts Proofs.JsonFacts.

Lemma str_body_lenient n : forall s v t,
  (List.length s <= n)%nat -> parse_str_body true s = Some (v, t) ->
  exists v', parse_str_body false s = Some (v', t).
Proof.
  induction n as [|n IH]; intros s v t Hn H.
  - destruct s; [discriminate|simpl in Hn; lia].
  - destruct s as [|b r]; [discriminate|]. cbn [parse_str_body] in H |- *. cbv zeta in H |- *.
    assert (K : forall r1 (g g' : str * str -> str * str), (List.length r1 <= List.length r)%nat ->
              (forall p, snd (g p) = snd p) -> (forall p, snd (g' p) = snd p) ->
              opt_bind (parse_str_body true r1) (fun p => Some (g p)) = Some (v, t) ->
              exists v', opt_bind (parse_str_body false r1) (fun p => Some (g' p)) = Some (v', t)).
    { intros r1 g g' Hl Hg Hg' Hb. destruct (parse_str_body true r1) as [[v1 t1]|] eqn:E1; [|discriminate].
      cbn [opt_bind] in Hb. injection Hb as Hg1. specialize (Hg (v1, t1)). rewrite Hg1 in Hg.
      cbn [snd] in Hg. subst t1. apply IH in E1; [|simpl in *; lia]. destruct E1 as [v2 ->].
      cbn [opt_bind]. exists (fst (g' (v2, t))). f_equal.
      specialize (Hg' (v2, t)). destruct (g' (v2, t)). cbn [fst snd] in *. now subst. }
    destruct (Ascii.eqb b quote); [injection H as <- <-; eauto|].
    destruct (Ascii.eqb b backslash).
    + destruct r as [|e r1]; [discriminate|].
      repeat match type of H with
      | (if Ascii.eqb e ?x then opt_bind (parse_str_body true r1) _ else _) = _ =>
          destruct (Ascii.eqb e x);
          [revert H; apply (K r1 (fun p => (_, snd p)) (fun p => (_, snd p))); [simpl; lia|reflexivity..]|]
      end.
      destruct (Ascii.eqb e "u"%char); [|discriminate].
      destruct r1 as [|h1 [|h2 [|h3 [|h4 r2]]]]; try discriminate.
      destruct (hex4 h1 h2 h3 h4) as [u|]; [|discriminate].
      cbn [negb] in H |- *.
      destruct ((56320 <=? u) && (u <=? 57343)); [discriminate|].
      destruct ((55296 <=? u) && (u <=? 56319)).
      * destruct r2 as [|bs [|uu [|g1 [|g2 [|g3 [|g4 r3]]]]]]; try discriminate.
        destruct (Ascii.eqb bs backslash && Ascii.eqb uu "u"%char) eqn:Eb; [|discriminate].
        destruct (hex4 g1 g2 g3 g4) as [w|] eqn:Eh; [|discriminate].
        destruct ((56320 <=? w) && (w <=? 57343)); [|discriminate].
        destruct (parse_str_body true r3) as [[v3 t3]|] eqn:E3; [|discriminate].
        cbn [opt_bind fst snd] in H. injection H as _ ->.
        apply IH in E3; [|simpl in *; lia]. destruct E3 as [v' E3].
        apply andb_true_iff in Eb. destruct Eb as [Eb1 Eb2].
        apply Ascii.eqb_eq in Eb1, Eb2. subst bs uu.
        assert (parse_str_body false (backslash :: "u"%char :: g1 :: g2 :: g3 :: g4 :: r3)
                = Some (utf8_enc1 w ++ v', t)) as ->.
        { cbn [parse_str_body]. cbv zeta.
          change (Ascii.eqb backslash quote) with false. change (Ascii.eqb backslash backslash) with true.
          cbn [Ascii.eqb]. rewrite Eh. cbn [negb]. rewrite E3. reflexivity. }
        cbn [opt_bind fst snd]. eauto.
      * revert H; apply (K r2 (fun p => (_, snd p)) (fun p => (_, snd p))); [simpl; lia|reflexivity..].
    + destruct (code b <? 32); [discriminate|].
      revert H; apply (K r (fun p => (_, snd p)) (fun p => (_, snd p))); [lia|reflexivity..].
Qed.

Lemma string_lenient s v t : parse_string true s = POk v t -> exists v', parse_string false s = POk v' t.
Proof.
  unfold parse_string. destruct (parse_str_body true s) as [[v1 t1]|] eqn:E; [|discriminate].
  apply str_body_lenient with (n := List.length s) in E; [|lia]. destruct E as [v' ->]. cbn [negb orb].
  destruct (utf8_valid v1); [|discriminate]. intros [= <- <-]. eauto.
Qed.

Lemma string_any w s v t : parse_string w s = POk v t -> exists v', parse_string false s = POk v' t.
Proof. destruct w; [apply string_lenient|eauto]. Qed.

Lemma float_any w b int fr ex t u j : read_float w b int fr ex t = POk j u ->
  exists j', read_float false b int fr ex t = POk j' u.
Proof.
  unfold read_float. destruct w; [|eauto]. destruct (float_text b int fr ex); [|discriminate].
  intros [= _ <-]. eauto.
Qed.

Lemma number_any w s j t : parse_number w s = POk j t -> exists j', parse_number false s = POk j' t.
Proof.
  unfold parse_number.
  destruct (match s with
    | b :: r => if Ascii.eqb b "-"%char then (true, r) else (false, s)
    | [] => (false, []) end) as [neg s1].
  destruct (take_digits s1) as [[|d0 ds] u]; [discriminate|].
  destruct (Ascii.eqb d0 "0"%char && negb (match ds with [] => true | _ => false end)); [discriminate|].
  destruct (parse_frac u) as [[fr t1]|]; [|discriminate].
  destruct (parse_exp t1) as [[ex t2]|]; [|discriminate]. cbv zeta.
  destruct fr as [|f0 fr]; [|apply float_any]. destruct ex as [|e0 ex]; [|apply float_any].
  destruct neg; [destruct (_ || _)|destruct (_ <? _)]; (apply float_any || eauto).
Qed.

(** What is read in any way can also be skipped. *)
Lemma reader_lenient : forall fuel,
  (forall w sh sh' d d' s j t, parse_value w sh fuel d s = POk j t ->
     exists j', parse_value false sh' fuel d' s = POk j' t)
  /\ (forall w sh sh' i i' d d' s l t, parse_elems w sh i fuel d s = POk l t ->
     exists l', parse_elems false sh' i' fuel d' s = POk l' t)
  /\ (forall w sh sh' d d' s m t, parse_members w sh fuel d s = POk m t ->
     exists m', parse_members false sh' fuel d' s = POk m' t).
Proof.
  induction fuel as [|f (IV & IE & IM)].
  { repeat split; intros; discriminate. }
  split; [|split].
  - intros w sh sh' d d' s j t. cbn [parse_value].
    destruct (skip_ws s) as [|b r]; [discriminate|].
    destruct (Ascii.eqb b quote).
    { destruct (parse_string w r) as [v u| |] eqn:Ep; try discriminate. intros [= <- <-].
      apply string_any in Ep. destruct Ep as [v' ->]. eauto. }
    destruct (Ascii.eqb b "["%char).
    { destruct (enter w d) as [d1|]; [|discriminate]. cbn [enter].
      destruct (skip_ws r) as [|c u]; [discriminate|].
      destruct (Ascii.eqb c "]"%char); [intros [= <- <-]; eauto|].
      destruct (parse_elems w sh 0 f d1 r) as [l u'| |] eqn:Ee; try discriminate.
      intros [= <- <-]. apply (IE w sh sh' _ 0%nat _ d') in Ee. destruct Ee as [l' ->]. eauto. }
    destruct (Ascii.eqb b "{"%char).
    { destruct (enter w d) as [d1|]; [|discriminate]. cbn [enter].
      destruct (skip_ws r) as [|c u]; [discriminate|].
      destruct (Ascii.eqb c "}"%char); [intros [= <- <-]; eauto|].
      destruct (parse_members w sh f d1 r) as [l u'| |] eqn:Ee; try discriminate.
      intros [= <- <-]. apply (IM w sh sh' _ d') in Ee. destruct Ee as [l' ->]. eauto. }
    destruct (Ascii.eqb b "t"%char); [eauto|]. destruct (Ascii.eqb b "f"%char); [eauto|].
    destruct (Ascii.eqb b "n"%char); [eauto|]. apply number_any.
  - intros w sh sh' i i' d d' s l t. cbn [parse_elems].
    destruct (parse_value w (elem_shape sh i) f d s) as [v u| |] eqn:Ev; try discriminate.
    apply (IV w _ (elem_shape sh' i') _ d') in Ev. destruct Ev as [v' ->].
    destruct (skip_ws u) as [|c u']; [discriminate|].
    destruct (Ascii.eqb c ","%char).
    + destruct (parse_elems w sh (S i) f d u') as [l' u''| |] eqn:Ee; try discriminate.
      intros [= <- <-]. apply (IE w sh sh' _ (S i') _ d') in Ee. destruct Ee as [l2 ->]. eauto.
    + destruct (Ascii.eqb c "]"%char); [|discriminate]. intros [= <- <-]. eauto.
  - intros w sh sh' d d' s m t. cbn [parse_members].
    destruct (skip_ws s) as [|q r]; [discriminate|].
    destruct (Ascii.eqb q quote); [|discriminate].
    destruct (parse_string w r) as [k u| |] eqn:Ep; try discriminate.
    apply string_any in Ep. destruct Ep as [k' ->].
    destruct (skip_ws u) as [|c t1]; [discriminate|].
    destruct (Ascii.eqb c ":"%char); [|discriminate]. cbn [andb].
    destruct (parse_value (w && wanted sh k) (member_shape sh k) f d t1) as [v t2| |] eqn:Ev; try discriminate.
    apply (IV _ _ (member_shape sh' k') _ d') in Ev. destruct Ev as [v' ->].
    destruct (skip_ws t2) as [|e t3]; [discriminate|].
    destruct (Ascii.eqb e ","%char).
    + destruct (parse_members w sh f d t3) as [l u''| |] eqn:Ee; try discriminate.
      intros [= <- <-]. apply (IM w sh sh' _ d') in Ee. destruct Ee as [l2 ->]. eauto.
    + destruct (Ascii.eqb e "}"%char); [|discriminate]. intros [= <- <-]. eauto.
Qed.

(** [kept sh j j']: the two documents agree on what a reader of shape [sh] takes
    from them. *)
Inductive kept : shape -> json -> json -> Prop :=
| kept_same sh j : kept sh j j
| kept_arr sh l l' : kept_elems sh 0 l l' -> kept sh (JArr l) (JArr l')
| kept_obj sh m m' : kept_members sh m m' -> kept sh (JObj m) (JObj m')
with kept_elems : shape -> nat -> list json -> list json -> Prop :=
| ke_nil sh i : kept_elems sh i [] []
| ke_cons sh i x x' l l' : kept (elem_shape sh i) x x' -> kept_elems sh (S i) l l' ->
    kept_elems sh i (x :: l) (x' :: l')
with kept_members : shape -> list (str * json) -> list (str * json) -> Prop :=
| km_nil sh : kept_members sh [] []
| km_cons sh k v v' m m' : (wanted sh k = true -> kept (member_shape sh k) v v') ->
    kept_members sh m m' -> kept_members sh ((k, v) :: m) ((k, v') :: m').

Scheme kept_mut := Minimality for kept Sort Prop
  with kept_elems_mut := Minimality for kept_elems Sort Prop
  with kept_members_mut := Minimality for kept_members Sort Prop.
Combined Scheme kept_rec from kept_mut, kept_elems_mut, kept_members_mut.

Lemma kept_whole_all :
  (forall sh j j', kept sh j j' -> sh = Whole -> j = j')
  /\ (forall sh i l l', kept_elems sh i l l' -> (forall n, (i <= n)%nat -> elem_shape sh n = Whole) -> l = l')
  /\ (forall sh m m', kept_members sh m m' -> sh = Whole -> m = m').
Proof.
  apply kept_rec.
  - reflexivity.
  - intros sh l l' _ IH ->. f_equal. now apply IH.
  - intros sh m m' _ IH ->. f_equal. now apply IH.
  - reflexivity.
  - intros sh i x x' l l' _ IHx _ IHl H. f_equal; [apply IHx, H; lia|]. apply IHl. intros n Hn. apply H. lia.
  - reflexivity.
  - intros sh k v v' m m' Hw IHv _ IHm ->. f_equal; [f_equal; now apply IHv|now apply IHm].
Qed.

Lemma kept_whole j j' : kept Whole j j' -> j = j'.
Proof. intros H. now apply (proj1 kept_whole_all Whole). Qed.

Lemma kept_elems_whole sh i l l' :
  (forall n, elem_shape sh n = Whole) -> kept_elems sh i l l' -> l = l'.
Proof. intros E H. apply (proj1 (proj2 kept_whole_all) sh i l l' H). auto. Qed.

Lemma kept_members_refl sh m : kept_members sh m m.
Proof. induction m as [|[k v] m IH]; constructor; [intros _; constructor|exact IH]. Qed.

(** Reading with a shape accepts what reading everything accepts. *)
Lemma reader_kept : forall fuel,
  (forall sh d s j t, parse_value true Whole fuel d s = POk j t ->
     exists j', parse_value true sh fuel d s = POk j' t /\ kept sh j j')
  /\ (forall sh i d s l t, parse_elems true Whole i fuel d s = POk l t ->
     exists l', parse_elems true sh i fuel d s = POk l' t /\ kept_elems sh i l l')
  /\ (forall sh d s m t, parse_members true Whole fuel d s = POk m t ->
     exists m', parse_members true sh fuel d s = POk m' t /\ kept_members sh m m').
Proof.
  induction fuel as [|f (IV & IE & IM)].
  { repeat split; intros; discriminate. }
  split; [|split].
  - intros sh d s j t. cbn [parse_value].
    destruct (skip_ws s) as [|b r]; [discriminate|].
    destruct (Ascii.eqb b quote).
    { destruct (parse_string true r) as [v u| |]; try discriminate. intros [= <- <-].
      eexists. split; [reflexivity|constructor]. }
    destruct (Ascii.eqb b "["%char).
    { destruct (enter true d) as [d1|]; [|discriminate].
      destruct (skip_ws r) as [|c u]; [discriminate|].
      destruct (Ascii.eqb c "]"%char); [intros [= <- <-]; eexists; split; [reflexivity|constructor]|].
      destruct (parse_elems true Whole 0 f d1 r) as [l u'| |] eqn:Ee; try discriminate.
      intros [= <- <-]. apply (IE sh) in Ee. destruct Ee as (l' & -> & K).
      eexists. split; [reflexivity|now constructor]. }
    destruct (Ascii.eqb b "{"%char).
    { destruct (enter true d) as [d1|]; [|discriminate].
      destruct (skip_ws r) as [|c u]; [discriminate|].
      destruct (Ascii.eqb c "}"%char); [intros [= <- <-]; eexists; split; [reflexivity|constructor]|].
      destruct (parse_members true Whole f d1 r) as [l u'| |] eqn:Ee; try discriminate.
      intros [= <- <-]. apply (IM sh) in Ee. destruct Ee as (l' & -> & K).
      eexists. split; [reflexivity|now constructor]. }
    intros H. exists j. split; [exact H|constructor].
  - intros sh i d s l t. cbn [parse_elems]. change (elem_shape Whole i) with Whole.
    destruct (parse_value true Whole f d s) as [v u| |] eqn:Ev; try discriminate.
    apply (IV (elem_shape sh i)) in Ev. destruct Ev as (v' & -> & Kv).
    destruct (skip_ws u) as [|c u']; [discriminate|].
    destruct (Ascii.eqb c ","%char).
    + destruct (parse_elems true Whole (S i) f d u') as [l' u''| |] eqn:Ee; try discriminate.
      intros [= <- <-]. apply (IE sh) in Ee. destruct Ee as (l2 & -> & K).
      eexists. split; [reflexivity|now constructor].
    + destruct (Ascii.eqb c "]"%char); [|discriminate]. intros [= <- <-].
      eexists. split; [reflexivity|constructor; [exact Kv|constructor]].
  - intros sh d s m t. cbn [parse_members].
    destruct (skip_ws s) as [|q r]; [discriminate|].
    destruct (Ascii.eqb q quote); [|discriminate].
    destruct (parse_string true r) as [k u| |] eqn:Ep; try discriminate.
    destruct (skip_ws u) as [|c t1]; [discriminate|].
    destruct (Ascii.eqb c ":"%char); [|discriminate]. cbn [andb].
    change (wanted Whole k) with true. change (member_shape Whole k) with Whole.
    destruct (parse_value true Whole f d t1) as [v t2| |] eqn:Ev; try discriminate.
    assert (exists v', parse_value (wanted sh k) (member_shape sh k) f d t1 = POk v' t2
                       /\ (wanted sh k = true -> kept (member_shape sh k) v v')) as (v' & -> & Hv).
    { destruct (wanted sh k).
      - apply (IV (member_shape sh k)) in Ev. destruct Ev as (v' & -> & K). eauto.
      - destruct (reader_lenient f) as (V & _). apply (V _ _ (member_shape sh k) _ d) in Ev.
        destruct Ev as [v' ->]. exists v'. split; [reflexivity|discriminate]. }
    destruct (skip_ws t2) as [|e t3]; [discriminate|].
    destruct (Ascii.eqb e ","%char).
    + destruct (parse_members true Whole f d t3) as [l u''| |] eqn:Ee; try discriminate.
      intros [= <- <-]. apply (IM sh) in Ee. destruct Ee as (l' & -> & Hs).
      exists ((k, v') :: l'). split; [reflexivity|now constructor].
    + destruct (Ascii.eqb e "}"%char); [|discriminate]. intros [= <- <-].
      exists [(k, v')]. split; [reflexivity|]. constructor; [exact Hv|constructor].
Qed.

Lemma parse_doc_kept sh s j : parse_json s = Some j ->
  exists j', parse_doc sh s = Some j' /\ kept sh j j'.
Proof.
  unfold parse_json, parse_doc. generalize recursion_limit as d. intros d.
  destruct (parse_value true Whole (2 * List.length s + 2) d s) as [v t| |] eqn:E; try discriminate.
  apply (proj1 (reader_kept _) sh) in E. destruct E as (j' & -> & K).
  destruct (skip_ws t); [|discriminate]. intros [= <-]. eauto.
Qed.

(** Same keys in the same order, same values where [ig] does not ignore. *)
Definition same_kept (ig : str -> bool) (m m' : list (str * json)) : Prop :=
  Forall2 (fun a b => fst a = fst b /\ (ig (fst a) = false -> snd a = snd b)) m m'.

Lemma whole_field F k : field_shape (map (fun k => (k, Whole)) F) k = if mem_str k F then Some Whole else None.
Proof.
  induction F as [|k' F IH]; [reflexivity|]. cbn [map field_shape]. unfold mem_str in *. cbn [existsb].
  destruct (str_eqb k k'); [reflexivity|exact IH].
Qed.

Lemma whole_struct_member F k : member_shape (plain F) k = Whole.
Proof. cbn [plain member_shape]. rewrite whole_field. now destruct (mem_str k F). Qed.

Lemma whole_struct_wanted F k : wanted (plain F) k = mem_str k F.
Proof. cbn [plain wanted]. rewrite whole_field. now destruct (mem_str k F). Qed.

Lemma whole_struct_elem F i : elem_shape (plain F) i = Whole.
Proof.
  cbn [plain elem_shape]. revert i. induction F as [|k' F IH]; intros [|i]; try reflexivity. apply IH.
Qed.

Lemma members_same_kept F m m' : kept_members (plain F) m m' ->
  same_kept (fun k => negb (mem_str k F)) m m'.
Proof.
  remember (plain F) as sh eqn:E. intros H. revert E.
  induction H as [|sh k v v' m m' Hv _ IH]; intros ->; constructor; [|now apply IH].
  cbn [fst snd]. split; [reflexivity|]. intros Hk. apply negb_false_iff in Hk.
  rewrite whole_struct_wanted, whole_struct_member in Hv. now apply kept_whole, Hv.
Qed.

Lemma struct_kept F s j : parse_json s = Some j ->
  match j with
  | JObj m => exists m', parse_struct F s = Some (JObj m') /\ same_kept (fun k => negb (mem_str k F)) m m'
  | _ => parse_struct F s = Some j
  end.
Proof.
  intros H. apply (parse_doc_kept (plain F)) in H. destruct H as (j' & E & K).
  fold (parse_struct F s) in E.
  inversion K as [|sh l l' Ke|sh m m' Km]; subst.
  - destruct j'; try exact E. exists m. split; [exact E|]. apply members_same_kept, kept_members_refl.
  - apply kept_elems_whole in Ke; [now subst|]. apply whole_struct_elem.
  - exists m'. split; [exact E|]. now apply members_same_kept.
Qed.

(* ---------------- members by name ---------------- *)

Lemma get_unique_kept ig k m m' : ig k = false -> same_kept ig m m' -> get_unique k m = get_unique k m'.
Proof.
  intros Hk Hs. unfold get_unique.
  assert (filter (fun kv => str_eqb k (fst kv)) m = filter (fun kv => str_eqb k (fst kv)) m') as ->;
    [|reflexivity].
  induction Hs as [|[k1 v1] [k2 v2] m m' [H1 H2] Hs IH]; [reflexivity|].
  cbn [filter fst snd] in *. subst k2. destruct (str_eqb k k1) eqn:E; [|exact IH].
  apply str_eqb_eq in E. subst k1. rewrite H2 by assumption. now f_equal.
Qed.

Lemma fields_of_kept fields names m m' :
  incl names fields ->
  same_kept (fun k => negb (mem_str k fields)) m m' -> fields_of names (JObj m) = fields_of names (JObj m').
Proof.
  intros Hi Hs. cbn [fields_of].
  induction names as [|k names IH]; [reflexivity|]. cbn [map_opt].
  rewrite (get_unique_kept _ k _ _) with (2 := Hs).
  - rewrite IH; [reflexivity|]. intros x Hx. apply Hi. now right.
  - cbv beta. apply negb_false_iff, mem_str_In, Hi. now left.
Qed.

Lemma count_filter k (m : list (str * json)) :
  count_occ (list_eq_dec ascii_dec) (map fst m) k
  = List.length (filter (fun kv => str_eqb k (fst kv)) m).
Proof.
  induction m as [|[k' v] m IH]; [reflexivity|]. cbn [map count_occ filter fst].
  destruct (list_eq_dec ascii_dec k' k) as [->|N].
  - rewrite str_eqb_refl. cbn [List.length]. now rewrite IH.
  - rewrite (proj2 (str_eqb_neq k k')) by congruence. exact IH.
Qed.

Lemma get_unique_only k v m : get_unique (lit k) m = Some (Some v) <-> only_member m k v.
Proof.
  unfold get_unique, only_member. rewrite count_filter.
  assert (forall a b, In (a, b) (filter (fun kv => str_eqb (lit k) (fst kv)) m) <->
            In (a, b) m /\ a = lit k) as HI.
  { intros a b. rewrite filter_In. cbn [fst]. rewrite str_eqb_eq. intuition congruence. }
  destruct (filter (fun kv => str_eqb (lit k) (fst kv)) m) as [|[k1 v1] [|x l]].
  - split; [discriminate|]. intros [_ H]. discriminate.
  - split.
    + intros [= <-]. split; [|reflexivity]. destruct (proj1 (HI k1 v1)) as [H ->]; [now left|exact H].
    + intros [H _]. destruct (proj2 (HI (lit k) v)) as [E|[]]; [auto|]. now injection E as _ ->.
  - split; [discriminate|]. intros [_ H]. discriminate.
Qed.

Lemma get_unique_absent k m : get_unique k m = Some None <-> ~ In k (map fst m).
Proof.
  unfold get_unique. rewrite (count_occ_not_In (list_eq_dec ascii_dec)), count_filter.
  destruct (filter (fun kv => str_eqb k (fst kv)) m) as [|[k1 v1] [|x l]]; split; try discriminate; easy.
Qed.
