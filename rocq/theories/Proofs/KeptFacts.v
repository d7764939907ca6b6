(** The decoders of nested structs look only at what a reader of their shape
    takes, so reading with the shape gives the same result as reading everything. *)
From Coq Require Import Lia.
From Verif Require Import Model.Prelude Model.Json Model.Types Model.Deps Model.Serde Model.Wire
  Model.SerdeOptions Spec SpecJson Proofs.StrFacts Proofs.JsonFacts Proofs.ReaderFacts Proofs.GrammarFacts.

(* ---------------- what reading with a shape changes ---------------- *)

Lemma alike_whole j j' : alike Whole j j' -> j = j'.
Proof. intros H. now inversion H. Qed.

Lemma named_filter k (m : list (str * json)) :
  filter (fun kv => str_eqb k (fst kv)) m = map (fun v => (k, v)) (named k m).
Proof.
  induction m as [|[k' v] m IH]; [reflexivity|]. cbn [filter named fst].
  destruct (list_eq_dec ascii_dec k k') as [<-|Hn].
  - rewrite str_eqb_refl. cbn [map]. now rewrite IH.
  - replace (str_eqb k k') with false; [exact IH|]. symmetry. apply not_true_is_false. intros E.
    apply str_eqb_eq in E. contradiction.
Qed.

Lemma kept_alike_all :
  (forall sh j j', kept sh j j' -> alike sh j j')
  /\ (forall sh i l l', kept_elems sh i l l' -> List.length l = List.length l'
      /\ forall n x x', nth_error l n = Some x -> nth_error l' n = Some x' -> alike (elem_shape sh (i + n)) x x')
  /\ (forall sh m m', kept_members sh m m' ->
      (forall k, wanted sh k = true -> Forall2 (alike (member_shape sh k)) (named k m) (named k m'))
      /\ forall p : str -> bool, (forall k, p k = true -> wanted sh k = true /\ member_shape sh k = Whole) ->
         filter (fun kv => p (fst kv)) m = filter (fun kv => p (fst kv)) m').
Proof.
  assert (nth_all : forall l l', List.length l = List.length l' ->
    (forall n x x', nth_error l n = Some x -> nth_error l' n = Some x' -> x = x') -> l = l' :> list json).
  { induction l as [|x l IH]; intros [|x' l'] Hl H; try discriminate; [reflexivity|].
    f_equal; [exact (H 0%nat x x' eq_refl eq_refl)|]. apply IH; [now injection Hl|]. intros n. exact (H (S n)). }
  assert (all_of : forall sh m m', (forall p : str -> bool, (forall k, p k = true -> wanted sh k = true /\ member_shape sh k = Whole) ->
         filter (fun kv => p (fst kv)) m = filter (fun kv => p (fst kv)) m') ->
         (forall k, wanted sh k = true /\ member_shape sh k = Whole) -> m = m' :> list (str * json)).
  { intros sh m m' H Hw. specialize (H (fun _ => true) (fun k _ => Hw k)). cbn beta in H.
    assert (F : forall l : list (str * json), filter (fun _ => true) l = l).
    { induction l as [|x l IH]; [reflexivity|]. cbn. now rewrite IH. }
    now rewrite !F in H. }
  apply kept_rec.
  - constructor.
  - intros sh l l' _ [Hl IH]. cbn [Nat.add] in IH. destruct sh.
    + rewrite (nth_all l l' Hl); [constructor|]. intros n x x' H H'. apply alike_whole. exact (IH n x x' H H').
    + apply al_list. revert l' Hl IH. induction l as [|x l IHl]; intros [|x' l'] Hl IH; try discriminate; constructor.
      * exact (IH 0%nat x x' eq_refl eq_refl).
      * apply IHl; [now injection Hl|]. intros n. exact (IH (S n)).
    + apply al_positional; [exact Hl|]. intros n x x'. rewrite mode_element. apply IH.
    + rewrite (nth_all l l' Hl); [constructor|]. intros n x x' H H'. apply alike_whole. exact (IH n x x' H H').
  - intros sh m m' _ [IH Ho]. destruct sh.
    + rewrite (all_of Whole m m' Ho); [constructor|]. intros k. auto.
    + rewrite (all_of (ListOf sh) m m' Ho); [constructor|]. intros k. auto.
    + apply al_struct. intros k s. rewrite listed_shape. intros E. specialize (IH k).
      cbn [wanted member_shape] in IH. rewrite E in IH. now apply IH.
    + apply al_flattened.
      * intros k s. rewrite listed_shape. intros E. specialize (IH k).
        cbn [wanted member_shape] in IH. rewrite E in IH. now apply IH.
      * unfold unlisted. apply (Ho (fun k => match listed fields k with Some _ => false | None => true end)).
        intros k. rewrite listed_shape. cbn [wanted member_shape]. now destruct (field_shape fields k).
  - intros sh i. split; [reflexivity|]. intros [|n] x x'; discriminate.
  - intros sh i x x' l l' _ IHx _ [Hl IHl]. split; [cbn [List.length]; congruence|].
    intros [|n] y y'; cbn [nth_error].
    + intros [= <-] [= <-]. now rewrite Nat.add_0_r.
    + rewrite Nat.add_succ_r. apply IHl.
  - intros sh. split; [constructor|reflexivity].
  - intros sh k v v' m m' _ IHv _ [IHm IHo]. split.
    + intros k1 Hw. cbn [named]. destruct (list_eq_dec ascii_dec k1 k) as [->|]; [|now apply IHm].
      constructor; [now apply IHv|now apply IHm].
    + intros p Hp. cbn [filter fst]. rewrite (IHo p Hp). destruct (p k) eqn:E; [|reflexivity].
      destruct (Hp k E) as [Hw Hs]. rewrite Hs in IHv. now rewrite (alike_whole v v' (IHv Hw)).
Qed.

Lemma kept_alike sh j j' : kept sh j j' -> alike sh j j'.
Proof. apply kept_alike_all. Qed.

(* ---------------- decoders that see only what is taken ---------------- *)

Definition respects {A : Type} (sh : shape) (D : json -> option A) : Prop :=
  forall j j', alike sh j j' -> D j = D j'.

Lemma respects_parsed {A : Type} sh (D : json -> option A) s j : respects sh D -> parse_json s = Some j ->
  opt_bind (parse_doc sh s) D = D j.
Proof.
  intros R H. apply (parse_doc_kept sh) in H. destruct H as (j' & -> & K). symmetry. now apply R, kept_alike.
Qed.

Lemma respects_read {A : Type} sh (D : json -> option A) s j : respects sh D -> json_text s j ->
  opt_bind (parse_doc sh s) D = D j.
Proof. intros R H. apply parse_json_iff in H. now apply respects_parsed. Qed.

Lemma respects_alike {A : Type} sh (D : json -> option A) s s' j j' : respects sh D ->
  json_text s j -> json_text s' j' -> alike sh j j' ->
  opt_bind (parse_doc sh s) D = opt_bind (parse_doc sh s') D.
Proof. intros R H H' K. rewrite (respects_read sh D s j R H), (respects_read sh D s' j' R H'). now apply R. Qed.

Definition okept (sh : shape) (o o' : option json) : Prop :=
  match o, o' with
  | Some v, Some v' => alike sh v v'
  | None, None => True
  | _, _ => False
  end.

Lemma okept_whole o o' : okept Whole o o' -> o = o'.
Proof.
  destruct o, o'; cbn [okept]; try reflexivity; try contradiction. intros H. f_equal. now apply alike_whole.
Qed.

Lemma respects_req {A : Type} sh (D : json -> option A) o o' : respects sh D -> okept sh o o' ->
  req D o = req D o'.
Proof. intros R. destruct o, o'; cbn [okept req]; try reflexivity; try contradiction. apply R. Qed.

Lemma respects_opt {A : Type} sh (D : json -> option A) o o' : respects sh D -> okept sh o o' ->
  opt D o = opt D o'.
Proof.
  intros R. destruct o as [v|], o' as [v'|]; cbn [okept]; try reflexivity; try contradiction.
  intros K. pose proof (R v v' K) as E. inversion K; subst; cbn [opt]; try reflexivity; now rewrite E.
Qed.

Lemma respects_list {A : Type} sh (D : json -> option A) : respects sh D -> respects (ListOf sh) (de_list D).
Proof.
  intros R j j' K. inversion K as [|s l l' F| | |]; subst; try reflexivity.
  cbn [de_list]. clear K. induction F as [|x x' l l' Kx _ IH]; [reflexivity|].
  cbn [map_opt]. now rewrite (R x x' Kx), IH.
Qed.

Fixpoint lkept (shs : list shape) (l l' : list (option json)) : Prop :=
  match shs, l, l' with
  | [], [], [] => True
  | sh :: shs, o :: l, o' :: l' => okept sh o o' /\ lkept shs l l'
  | _, _, _ => False
  end.

Definition rkept (shs : list shape) (r r' : option (list (option json))) : Prop :=
  match r, r' with
  | Some l, Some l' => lkept shs l l'
  | None, None => True
  | _, _ => False
  end.

Lemma get_unique_rel sh k m m' : Forall2 (alike sh) (named k m) (named k m') ->
  match get_unique k m, get_unique k m' with
  | Some o, Some o' => okept sh o o'
  | None, None => True
  | _, _ => False
  end.
Proof.
  intros F. unfold get_unique. rewrite !named_filter.
  destruct F as [|v v' l l' H F]; [exact I|]. destruct F as [|a b l l' _ F]; [exact H|exact I].
Qed.

Lemma fields_rel_obj (gs : list (str * shape)) m m' :
  (forall k s, In (k, s) gs -> Forall2 (alike s) (named k m) (named k m')) ->
  rkept (map snd gs) (fields_of (map fst gs) (JObj m)) (fields_of (map fst gs) (JObj m')).
Proof.
  cbn [fields_of]. induction gs as [|[k s] gs IH]; intros H; [exact I|].
  cbn [map map_opt fst snd].
  pose proof (get_unique_rel s k m m' (H k s (or_introl eq_refl))) as G.
  assert (forall k s, In (k, s) gs -> Forall2 (alike s) (named k m) (named k m')) as H'.
  { intros k' s' Hi. apply H. now right. }
  specialize (IH H').
  destruct (get_unique k m) as [o|], (get_unique k m') as [o'|]; try contradiction; [|exact I].
  unfold rkept in *.
  destruct (map_opt (fun k => get_unique k m) (map fst gs)), (map_opt (fun k => get_unique k m') (map fst gs));
    try contradiction; [|exact I]. split; assumption.
Qed.

Lemma fields_rel_arr fs l l' : List.length l = List.length l' ->
  (forall i x x', nth_error l i = Some x -> nth_error l' i = Some x' -> alike (element_mode (StructOf fs) i) x x') ->
  rkept (map snd fs) (fields_of (map fst fs) (JArr l)) (fields_of (map fst fs) (JArr l')).
Proof.
  intros Hl K. cbn [fields_of]. rewrite map_length, Hl.
  destruct (Nat.eqb_spec (List.length l') (List.length fs)) as [E|]; [|exact I]. cbn [rkept].
  cbn [element_mode] in K. revert l l' Hl E K.
  induction fs as [|[k s] fs IH]; intros [|x l] [|x' l'] Hl E K; try discriminate; [exact I|].
  split; [exact (K 0%nat x x' eq_refl eq_refl)|].
  apply IH; [now injection Hl|now injection E|]. intros i. exact (K (S i)).
Qed.

Fixpoint distinct (l : list str) : bool :=
  match l with [] => true | k :: l' => negb (mem_str k l') && distinct l' end.

Lemma field_shape_In fs k s : distinct (map fst fs) = true -> In (k, s) fs -> field_shape fs k = Some s.
Proof.
  induction fs as [|[k' s'] fs IH]; [contradiction|]. cbn [map distinct fst field_shape].
  intros H Hi. apply andb_true_iff in H. destruct H as [Hn Hd].
  destruct Hi as [[= -> ->]|Hi]; [now rewrite str_eqb_refl|].
  destruct (str_eqb k k') eqn:E; [|now apply IH]. apply str_eqb_eq in E. subst k'.
  apply negb_true_iff in Hn. assert (mem_str k (map fst fs) = true); [|congruence].
  apply mem_str_In. change k with (fst (k, s)). now apply in_map.
Qed.

Lemma listed_rel fs m m' : distinct (map fst fs) = true ->
  (forall k s, listed fs k = Some s -> Forall2 (alike s) (named k m) (named k m')) ->
  rkept (map snd fs) (fields_of (map fst fs) (JObj m)) (fields_of (map fst fs) (JObj m')).
Proof.
  intros Hd H. apply fields_rel_obj. intros k s Hi. apply H. rewrite listed_shape. now apply field_shape_In.
Qed.

Lemma fields_rel_struct fs j j' : distinct (map fst fs) = true -> alike (StructOf fs) j j' ->
  j = j' \/ rkept (map snd fs) (fields_of (map fst fs) j) (fields_of (map fst fs) j').
Proof.
  intros Hd K. inversion K as [|s l l' F|fields l l' Hl Hn|fields m m' H|fields m m' H Hu]; subst; [now left|right..].
  - now apply fields_rel_arr.
  - now apply listed_rel.
Qed.

Lemma respects_struct {A : Type} fs (K : list (option json) -> option A) :
  distinct (map fst fs) = true -> (forall l l', lkept (map snd fs) l l' -> K l = K l') ->
  respects (StructOf fs) (fun j => match fields_of (map fst fs) j with Some l => K l | None => None end).
Proof.
  intros Hd HK j j' Hj. destruct (fields_rel_struct fs j j' Hd Hj) as [->|R]; [reflexivity|].
  unfold rkept in R. destruct (fields_of (map fst fs) j), (fields_of (map fst fs) j'); try contradiction;
    [now apply HK|reflexivity].
Qed.

Lemma other_members_flat fs m : other_members (map fst fs) m = unlisted fs m.
Proof.
  unfold other_members, unlisted. apply filter_ext. intros [k v]. cbn [fst]. rewrite listed_shape.
  induction fs as [|[k' s] fs IH]; [reflexivity|]. cbn [field_shape map fst]. unfold mem_str in *. cbn [existsb].
  destruct (str_eqb k k'); [reflexivity|exact IH].
Qed.

Lemma respects_flattened {A : Type} fs (K : list (option json) -> list (str * json) -> option A) :
  distinct (map fst fs) = true -> (forall l l' o, lkept (map snd fs) l l' -> K l o = K l' o) ->
  respects (Flattened fs) (fun j =>
    match j with
    | JObj m => match fields_of (map fst fs) j with
                | Some l => K l (other_members (map fst fs) m)
                | None => None
                end
    | _ => None
    end).
Proof.
  intros Hd HK j j' Hj. inversion Hj as [|s l l' F|fields l l' Hl Hn|fields m m' H|fields m m' H Hu]; subst;
    try reflexivity.
  rewrite !other_members_flat, Hu. pose proof (listed_rel fs m m' Hd H) as R.
  unfold rkept in R. destruct (fields_of (map fst fs) (JObj m)), (fields_of (map fst fs) (JObj m'));
    try contradiction; [now apply HK|reflexivity].
Qed.

(* ---------------- the decoders ---------------- *)

Lemma lkept_nil l l' : lkept [] l l' -> l = [] /\ l' = [].
Proof. destruct l, l'; try contradiction; auto. Qed.

Lemma lkept_cons sh shs l l' : lkept (sh :: shs) l l' ->
  exists o o' t t', l = o :: t /\ l' = o' :: t' /\ okept sh o o' /\ lkept shs t t'.
Proof. destruct l as [|o t], l' as [|o' t']; try contradiction. intros [H1 H2]. eauto 8. Qed.

(** Take two related lists of fields apart; fields read whole are equal. *)
Ltac fields_apart := cbn [map snd]; intros ?l ?l';
  repeat match goal with
  | |- lkept [] _ _ -> _ =>
      let E := fresh in let E' := fresh in intros [E E']%lkept_nil; rewrite E, E'; clear E E'
  | |- lkept (_ :: _) _ _ -> _ =>
      let K := fresh "K" in let R := fresh in
      intros (? & ? & ? & ? & -> & -> & K & R)%lkept_cons; revert R;
      try (apply okept_whole in K; rewrite K; clear K)
  end.

Lemma respects_logo : respects logo_shape de_logo.
Proof. apply (respects_struct [(lit "url", Whole); (lit "alt_text", Whole)]); [reflexivity|]. fields_apart. reflexivity. Qed.

Lemma respects_display : respects display_shape de_display.
Proof.
  apply (respects_struct [(lit "name", Whole); (lit "locale", Whole); (lit "logo", logo_shape);
    (lit "description", Whole); (lit "background_color", Whole); (lit "text_color", Whole)]); [reflexivity|].
  fields_apart. now rewrite (respects_opt _ _ _ _ respects_logo K).
Qed.

Lemma respects_supported : respects supported_shape de_supported.
Proof.
  apply (respects_flattened [(lit "id", Whole); (lit "cryptographic_binding_mehtods_supported", Whole);
    (lit "cryptographic_suites_supported", Whole); (lit "display", ListOf display_shape)]
    (fun l o => match l with
       | [a; b; c; d] =>
          let* a' := opt de_str a in
          let* b' := opt (de_list de_str) b in
          let* c' := opt (de_list de_str) c in
          let* d' := opt (de_list de_display) d in
          let* f := de_cfp_buffered (JObj o) in
          Some {| sup_format := f; sup_id := a'; sup_binding_methods := b';
                  sup_suites := c'; sup_display := d' |}
       | _ => None
       end)); [reflexivity|].
  intros l l' o. revert l l'. fields_apart.
  now rewrite (respects_opt _ _ _ _ (respects_list _ _ respects_display) K).
Qed.

Lemma respects_metadata : respects metadata_shape de_metadata.
Proof.
  apply (respects_flattened [(lit "credential_issuer", Whole); (lit "authorization_server", Whole);
    (lit "credential_endpoint", Whole); (lit "batch_credential_endpoint", Whole);
    (lit "credentials_supported", ListOf supported_shape)]
    (fun l o => match l with
       | [a; b; c; d; e] =>
          let* a' := req de_str a in
          let* b' := opt de_str b in
          let* c' := req de_str c in
          let* d' := opt de_str d in
          let* e' := req (de_list de_supported) e in
          let* x := de_hmap de_value (JObj o) in
          Some {| im_credential_issuer := a'; im_authorization_server := b';
                  im_credential_endpoint := c'; im_batch_credential_endpoint := d';
                  im_credentials_supported := e'; im_additional_fields := Some x |}
       | _ => None
       end)); [reflexivity|].
  intros l l' o. revert l l'. fields_apart.
  now rewrite (respects_req _ _ _ _ (respects_list _ _ respects_supported) K).
Qed.

Lemma respects_proof : respects proof_shape de_proof.
Proof. apply (respects_struct [(lit "proof_type", Whole); (lit "jwt", Whole)]); [reflexivity|]. fields_apart. reflexivity. Qed.

Lemma respects_request : respects request_shape de_request.
Proof.
  intros j j' Hj. inversion Hj as [|s l l' F|fields l l' Hl Hn|fields m m' H|fields m m' H Hu]; subst;
    try reflexivity.
  unfold de_request. change [lit "proof"] with (map fst [(lit "proof", proof_shape)]).
  rewrite !other_members_flat, Hu.
  pose proof (get_unique_rel proof_shape (lit "proof") m m' (H (lit "proof") proof_shape eq_refl)) as G.
  destruct (get_unique (lit "proof") m) as [o|], (get_unique (lit "proof") m') as [o'|]; try contradiction;
    [|reflexivity]. cbn [opt_bind]. now rewrite (respects_opt _ _ _ _ respects_proof G).
Qed.

Lemma respects_auth_flow : respects auth_flow_shape de_auth_flow.
Proof. apply (respects_struct [(lit "issuer_state", Whole)]); [reflexivity|]. fields_apart. reflexivity. Qed.

Lemma respects_preauth_flow : respects preauth_flow_shape de_preauth_flow.
Proof.
  apply (respects_struct [(lit "pre-authorized_code", Whole); (lit "user_pin_required", Whole)]); [reflexivity|].
  fields_apart. reflexivity.
Qed.

Lemma respects_grants : respects grants_shape de_grants.
Proof.
  apply (respects_struct [(lit "authorization_code", auth_flow_shape);
    (lit "urn:ietf:params:oauth:grant-type:pre-authorized_code", preauth_flow_shape)]); [reflexivity|].
  fields_apart.
  now rewrite (respects_opt _ _ _ _ respects_auth_flow K), (respects_opt _ _ _ _ respects_preauth_flow K0).
Qed.

Lemma respects_offer : respects offer_shape de_offer.
Proof.
  apply (respects_struct [(lit "credential_issuer", Whole); (lit "credentials", Whole); (lit "grants", grants_shape)]);
    [reflexivity|]. fields_apart. now rewrite (respects_req _ _ _ _ respects_grants K).
Qed.

Lemma respects_c_nonce_options d : respects (plain c_nonce_options_fields) (de_c_nonce_options d).
Proof.
  apply (respects_struct [(lit "c_nonce_expires_in", Whole); (lit "expected_c_nonce", Whole);
    (lit "c_nonce_created_at", Whole)]); [reflexivity|]. fields_apart. reflexivity.
Qed.

Lemma respects_eval_options d : respects eval_options_shape (de_eval_options d).
Proof.
  apply (respects_struct [(lit "c_nonce", plain c_nonce_options_fields); (lit "client_id", Whole)]); [reflexivity|].
  fields_apart. now rewrite (respects_opt _ _ _ _ (respects_c_nonce_options d) K).
Qed.

Lemma respects_claims d : respects (plain body_fields) (de_body d).
Proof.
  apply (respects_struct [(lit "iss", Whole); (lit "aud", Whole); (lit "sub", Whole); (lit "iat", Whole);
    (lit "nonce", Whole); (lit "nbf", Whole); (lit "exp", Whole)]); [reflexivity|]. fields_apart. reflexivity.
Qed.

Lemma respects_proof_jwt d : respects proof_jwt_shape (de_proof_jwt d).
Proof.
  apply (respects_struct [(lit "header", Whole); (lit "body", plain body_fields); (lit "signature", Whole)]);
    [reflexivity|]. fields_apart. now rewrite (respects_req _ _ _ _ (respects_claims d) K).
Qed.
