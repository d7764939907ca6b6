(** What the writers produce. *)
From Coq Require Import Lia ZifyBool ZifyN ZifyNat Sorting.Sorted.
From Verif Require Import Model.Prelude Model.Json Model.Types Model.Deps Model.Serde Model.SerdeOptions Model.Wire
  Spec SpecToken SpecJwt SpecJson SpecDocuments SpecWire
  Proofs.StrFacts Proofs.JsonFacts Proofs.ReaderFacts Proofs.GrammarFacts Proofs.AnyDepth Proofs.CompactFacts Proofs.SpellingFacts Proofs.SerdeFacts
  Proofs.JwtFacts Proofs.ShapeFacts Proofs.DocumentFacts Proofs.WireFacts.

Definition writes {A : Type} (ok : A -> Prop) (S : A -> json) (P : json -> A -> Prop) : Prop :=
  forall a, ok a -> P (S a) a.

Create HintDb written.

Lemma text_writes (s : str) : text_value (JStr s) s. Proof. reflexivity. Qed.
Lemma bool_writes b : bool_value (JBool b) b. Proof. reflexivity. Qed.
Lemma u32_writes n : u32 n -> u32_value (ser_N n) n. Proof. intros H. split; [reflexivity|exact H]. Qed.
Lemma u64_writes n : u64 n -> u64_value (ser_N n) n. Proof. intros H. split; [reflexivity|exact H]. Qed.
Lemma instant_writes d t : dt_round_trips d -> in_instant_range t = true -> instant_value d (ser_instant d t) t.
Proof. intros H R. exists (dt_print d t). split; [reflexivity|]. now apply H. Qed.

Lemma list_writes {A} ok S (P : json -> A -> Prop) l : writes ok S P -> Forall ok l -> list_value P (ser_list S l) l.
Proof.
  intros W H. exists (map S l). split; [reflexivity|]. induction H; constructor; auto.
Qed.
Lemma texts_writes l : texts_value (ser_list JStr l) l.
Proof.
  apply (list_writes (fun _ => True)); [|induction l; auto]. intros a _. reflexivity.
Qed.

Lemma first_occurrences_nodup l : NoDup l -> first_occurrences l l.
Proof.
  induction 1 as [|k l Hk _ IH]; constructor. rewrite SerdeFacts.filter_all; [exact IH|].
  intros x Hx. destruct (list_eq_dec ascii_dec k x); [|reflexivity]. subst. contradiction.
Qed.

Lemma map_writes {A} ok S (P : json -> A -> Prop) h : writes ok S P -> hmap_ok ok h ->
  map_value P (ser_hmap S h) h.
Proof.
  intros W [Hn Ho]. eexists. split; [reflexivity|]. unfold hmap_wf in Hn. split; [|split].
  - rewrite map_map. cbn [fst]. now apply first_occurrences_nodup.
  - intros k j Hin. apply in_map_iff in Hin. destruct Hin as ([k' a] & [= <- <-] & Hin).
    exists a. apply W. now apply (Ho k' a).
  - intros k a Hin. exists (S a). split; [|apply W; now apply (Ho k a)].
    apply in_split in Hin. destruct Hin as (b & c & ->).
    exists (map (fun kv => (fst kv, S (snd kv))) b), (map (fun kv => (fst kv, S (snd kv))) c).
    split; [now rewrite map_app|]. rewrite map_map. cbn [fst].
    rewrite map_app in Hn. apply NoDup_remove_2 in Hn. rewrite in_app_iff in Hn. tauto.
Qed.

Lemma free_writes n v : value_ok n v -> free_value v v.
Proof. intros (_ & H & _). rewrite <- (to_value_id v H) at 2. apply free_value_to_value. Qed.

Ltac on_somes := repeat match goal with H : on_some _ (Some ?a) |- _ => specialize (H a eq_refl) end.

Ltac here := apply get_unique_only; reflexivity.
Ltac value_here := match goal with
  | |- text_value _ _ => reflexivity
  | |- bool_value _ _ => reflexivity
  | |- texts_value _ _ => apply texts_writes
  | |- list_value text_value _ _ => apply texts_writes
  | |- _ => solve [eauto with written]
  end.
Ltac member_here := match goal with
  | |- required_member _ _ _ _ => eexists; split; [here|value_here]
  | |- optional_member _ _ _ (Some _) => eexists; split; [here|value_here]
  | |- optional_member _ _ _ None => first [right; here | left; apply get_unique_absent; reflexivity]
  | |- only_member _ _ _ => here
  end.
#[global] Hint Resolve text_writes bool_writes u32_writes u64_writes texts_writes : written.

Lemma subject_display_writes : writes subject_display_ok ser_subject_display (subject_display_value Writing).
Proof.
  intros [[n|] [l|]] _; eexists; (split; [reflexivity|]); (split; [reflexivity|]);
    split; cbn [sd_name sd_locale]; member_here.
Qed.
Lemma subject_displays_writes l : Forall subject_display_ok l ->
  list_value (subject_display_value Writing) (ser_list ser_subject_display l) l.
Proof. apply list_writes, subject_display_writes. Qed.
#[global] Hint Resolve subject_displays_writes : written.

Lemma subject_writes : writes subject_ok ser_subject (subject_value Writing).
Proof.
  intros [m t l] [_ H]. cbn [cs_display] in H.
  destruct m, t, l; on_somes; eexists; (split; [reflexivity|]); (split; [reflexivity|]);
    unfold subject_of; cbn [cs_mandatory cs_value_type cs_display]; conj_split; member_here.
Qed.
Lemma subjects_writes h : hmap_ok subject_ok h -> map_value (subject_value Writing) (ser_hmap ser_subject h) h.
Proof. apply map_writes, subject_writes. Qed.
#[global] Hint Resolve subjects_writes : written.

Lemma ld_context_writes n : writes (ld_context_ok n) ser_ld_context ld_context_value.
Proof.
  intros [s|h] H; constructor. apply (map_writes (value_ok n)); [|exact H].
  intros v Hv. eapply free_writes, Hv.
Qed.
Lemma ld_contexts_writes n l : Forall (ld_context_ok n) l ->
  list_value ld_context_value (ser_list ser_ld_context l) l.
Proof. apply list_writes, ld_context_writes. Qed.
#[global] Hint Resolve ld_contexts_writes : written.

(** The members of a credential, possibly followed by other members. *)
Lemma credential_written_names c : map fst (cfp_members c) = credential_written c.
Proof. destruct c as [? [] []|? [] []|? ? [] []|? [] []]; reflexivity. Qed.

Lemma credential_writes_members p n c : cfp_ok n c -> credential_of Writing p (cfp_members c) c.
Proof.
  intros H. destruct c as [ty su od|ty su od|cx ty su od|dt cl od]; cbn [cfp_ok] in H; decompose [and] H; clear H;
    match goal with |- credential_of _ _ (cfp_members (?f _ ?s ?o)) _ => destruct s, o
    | |- credential_of _ _ (cfp_members (?f _ _ ?s ?o)) _ => destruct s, o end; on_somes; constructor;
    (match goal with |- format_member _ _ _ _ _ => left | _ => idtac end); member_here.
Qed.

Lemma credential_writes p n : writes (cfp_ok n) ser_cfp (credential_value Writing p).
Proof.
  intros c H. exists (cfp_members c). split; [reflexivity|]. split; [apply credential_written_names|].
  now apply credential_writes_members with n.
Qed.

Lemma offered_writes n : writes (credential_or_id_ok n) ser_credential_or_id (offered_value Writing).
Proof. intros [s|c] H; constructor. now apply (credential_writes _ n). Qed.
Lemma offereds_writes n l : Forall (credential_or_id_ok n) l ->
  list_value (offered_value Writing) (ser_list ser_credential_or_id l) l.
Proof. apply list_writes, offered_writes. Qed.
#[global] Hint Resolve offereds_writes : written.

Lemma auth_flow_writes x :
  struct_value Writing ["issuer_state"]%string (all_of ["issuer_state"]%string) auth_flow_of (ser_auth_flow x) x.
Proof.
  destruct x as [[s|]]; eexists; (split; [reflexivity|]); (split; [reflexivity|]); unfold auth_flow_of;
    cbn [af_issuer_state]; member_here.
Qed.
Lemma preauth_flow_writes x :
  struct_value Writing ["pre-authorized_code"; "user_pin_required"]%string
    (fun x => [lit "pre-authorized_code"] ++ if_some "user_pin_required" (pf_user_pin_required x))
    preauth_flow_of (ser_preauth_flow x) x.
Proof.
  destruct x as [c [b|]]; eexists; (split; [reflexivity|]); (split; [reflexivity|]); split;
    cbn [pf_code pf_user_pin_required]; member_here.
Qed.
#[global] Hint Resolve auth_flow_writes preauth_flow_writes : written.

Lemma grants_writes x : struct_value Writing grant_names grants_written (grants_of Writing) (ser_grants x) x.
Proof.
  destruct x as [[a|] [p|]]; eexists; (split; [reflexivity|]); (split; [reflexivity|]); split;
    cbn [og_auth og_pre]; member_here.
Qed.
#[global] Hint Resolve grants_writes : written.

Lemma offer_writes n : writes (offer_ok n) ser_offer (offer_value Writing).
Proof.
  intros [i cs g] (_ & H & _). cbn [co_credentials] in H. eexists. split; [reflexivity|]. split; [reflexivity|].
  unfold offer_of. cbn [co_credential_issuer co_credentials co_grants]. conj_split; member_here.
Qed.

Lemma grant_type_writes g : token_request_ok {| tr_grant_type := g |} -> grant_type_value Writing (ser_grant_type g) g.
Proof.
  intros H. destruct g as [|c [p|]]; cbn [token_request_ok tr_grant_type] in H;
    eexists; (split; [reflexivity|]); (split; [reflexivity|]); constructor; try member_here.
  destruct H as [_ H]. on_somes. eexists. split; [here|]. now apply u64_writes.
Qed.

Lemma token_request_writes : writes token_request_ok ser_token_request (token_request_value Writing).
Proof.
  intros [g] H. eexists. split; [reflexivity|]. split; [reflexivity|]. unfold token_request_of. cbn [tr_grant_type].
  eexists. split; [here|]. now apply grant_type_writes.
Qed.

Lemma token_success_writes : writes token_success_ok ser_token_success (token_success_value Writing).
Proof.
  intros [a [] e s c ce ap i] H. unfold token_success_ok in H.
  cbn [ts_access_token ts_expires_in ts_scope ts_c_nonce ts_c_nonce_expires_in ts_interval] in H.
  decompose [and] H. clear H.
  destruct e, s, c, ce, ap, i; on_somes; eexists; (split; [reflexivity|]); (split; [reflexivity|]);
    unfold token_success_of; cbn [ts_access_token ts_token_type ts_expires_in ts_scope ts_c_nonce
      ts_c_nonce_expires_in ts_authorization_pending ts_interval]; conj_split;
    match goal with |- required_member _ "token_type" _ _ => eexists; split; [here|constructor] | |- _ => member_here end.
Qed.

Lemma issued_writes n : writes (cfp_or_encoded_ok n) ser_cfp_or_encoded (issued_value Writing).
Proof. intros [c|s] H; constructor. now apply (credential_writes _ n). Qed.

Lemma credential_success_writes n :
  writes (credential_success_ok n) ser_credential_success (credential_success_value Writing).
Proof.
  intros [f c a nc e] H. unfold credential_success_ok in H.
  cbn [cs_format cs_credential cs_acceptance_token cs_c_nonce cs_c_nonce_expires_in] in H. decompose [and] H. clear H.
  pose proof (issued_writes n) as Hi. unfold writes in Hi.
  destruct c, a, nc, e; on_somes; eexists; (split; [reflexivity|]); (split; [reflexivity|]);
    unfold credential_success_of; cbn [cs_format cs_credential cs_acceptance_token cs_c_nonce cs_c_nonce_expires_in];
    conj_split; member_here.
Qed.

Lemma token_options_writes : writes token_options_ok ser_token_options (token_options_value Writing).
Proof.
  intros [[p|]] H; unfold token_options_ok in H; cbn [to_expected_user_pin] in H; on_somes;
    eexists; (split; [reflexivity|]); (split; [reflexivity|]); unfold token_options_of; cbn [to_expected_user_pin]; member_here.
Qed.
Lemma c_nonce_writes : writes c_nonce_ok ser_c_nonce (c_nonce_value Writing).
Proof.
  intros [c [e|]] [H1 H2]; cbn [cn_expires_in] in H2; on_somes;
    eexists; (split; [reflexivity|]); (split; [reflexivity|]); split; cbn [cn_c_nonce cn_expires_in]; member_here.
Qed.
Lemma nonce_options_writes d x : dt_round_trips d -> c_nonce_options_ok x ->
  struct_value Writing nonce_option_names (all_of nonce_option_names) (nonce_options_of d) (ser_c_nonce_options d x) x.
Proof.
  intros Hd (H1 & H2 & H3). destruct x as [e c t]. cbn [cno_expires_in cno_created_at] in *.
  pose proof (instant_writes d t Hd H3).
  eexists; (split; [reflexivity|]); (split; [reflexivity|]). unfold nonce_options_of.
  cbn [cno_expires_in cno_expected cno_created_at]. conj_split; member_here.
Qed.
Lemma eval_options_writes d : dt_round_trips d ->
  writes eval_options_ok (ser_eval_options d) (eval_options_value Writing d).
Proof.
  intros Hd [c i] [H1 H2]. cbn [eo_c_nonce] in H1.
  pose proof (nonce_options_writes d) as Hi.
  destruct c, i; on_somes; eexists; (split; [reflexivity|]); (split; [reflexivity|]); split;
    cbn [eo_c_nonce eo_client_id]; member_here.
Qed.

Lemma header_writes : writes header_ok ser_header (header_value Writing).
Proof.
  intros h H. exists (match ser_header h with JObj m => m | _ => [] end). split; [reflexivity|]. split.
  - destruct h as [t a [[]|]]; reflexivity.
  - apply de_header_iff. exact (header_rt h).
Qed.

Lemma claims_writes d b : dt_round_trips d -> body_instants_ok b -> claims_value Writing d (ser_body d b) b.
Proof.
  intros Hd Hb. exists (match ser_body d b with JObj m => m | _ => [] end). split; [reflexivity|]. split.
  - destruct b as [[] a s i n [] []]; reflexivity.
  - apply de_body_obj. exact (body_rt d b Hd Hb).
Qed.

Lemma proof_jwt_writes d : dt_round_trips d -> writes proof_jwt_ok (ser_proof_jwt d) (proof_jwt_value Writing d).
Proof.
  intros Hd [h b s] (H1 & H2 & H3 & H4). cbn [j_header j_body j_signature] in *.
  pose proof (header_writes h H1). pose proof (claims_writes d b Hd H3). unfold claims_value in *.
  destruct s; eexists; (split; [reflexivity|]); (split; [reflexivity|]); unfold proof_jwt_of;
    cbn [j_header j_body j_signature]; conj_split; member_here.
Qed.

(* ---------------- flattened credentials ---------------- *)

Lemma optional_app_l m1 m2 k {A} (P : json -> A -> Prop) o : ~ In (lit k) (map fst m1) ->
  optional_member m2 k P o -> optional_member (m1 ++ m2) k P o.
Proof.
  intros N. assert (forall v, only_member m2 k v -> only_member (m1 ++ m2) k v) as Ho.
  { intros v [H1 H2]. split; [rewrite in_app_iff; now right|]. rewrite map_app, count_occ_app.
    apply (count_occ_not_In (list_eq_dec ascii_dec)) in N. unfold str in *. rewrite N. exact H2. }
  destruct o as [a|]; cbn [optional_member].
  - intros (v & Hv & HP). eauto.
  - intros [H|H]; [left|right; auto]. unfold no_member in *. rewrite map_app, in_app_iff. tauto.
Qed.

Lemma only_app_r m1 m2 k v : ~ In (lit k) (map fst m2) -> only_member m1 k v -> only_member (m1 ++ m2) k v.
Proof.
  intros N [H1 H2]. split; [rewrite in_app_iff; now left|]. rewrite map_app, count_occ_app.
  apply (count_occ_not_In (list_eq_dec ascii_dec)) in N. unfold str in *. rewrite N, H2. reflexivity.
Qed.
Lemma required_app_r m1 m2 k {A} (P : json -> A -> Prop) a : ~ In (lit k) (map fst m2) ->
  required_member m1 k P a -> required_member (m1 ++ m2) k P a.
Proof. intros N (v & H1 & H2). exists v. split; [now apply only_app_r|exact H2]. Qed.
Lemma optional_app_r m1 m2 k {A} (P : json -> A -> Prop) o : ~ In (lit k) (map fst m2) ->
  optional_member m1 k P o -> optional_member (m1 ++ m2) k P o.
Proof.
  intros N. destruct o as [a|]; cbn [optional_member].
  - intros H. now apply required_app_r.
  - intros [H|H]; [left|right; now apply only_app_r]. unfold no_member in *. rewrite map_app, in_app_iff. tauto.
Qed.

Ltac not_there := cbn [map fst In]; intros Q; repeat destruct Q as [Q|Q]; try (apply lit_inj in Q; discriminate Q); try destruct Q.

Lemma credential_app p c m1 m2 : (forall k, In k (map lit format_names) -> ~ In k (map fst m2)) ->
  credential_of Writing p m1 c -> credential_of Writing p (m1 ++ m2) c.
Proof.
  intros Hd H. assert (forall k, In k format_names -> ~ In (lit k) (map fst m2)) as Hk
    by (intros k Hk; apply Hd, in_map, Hk).
  destruct H; constructor;
    match goal with Q : format_member _ _ _ _ _ |- format_member _ _ _ _ _ =>
      destruct Q as [Q|(Q & _)]; [left|discriminate Q] | _ => idtac end;
    first [apply only_app_r|apply required_app_r|apply optional_app_r];
    try assumption; apply Hk; cbn; tauto.
Qed.

Lemma display_writes : writes display_ok ser_display
  (struct_value Writing display_names (all_of display_names) (display_of Writing)).
Proof.
  intros [n l g ds b t] _. assert (forall x, struct_value Writing ["url"; "alt_text"]%string
    (all_of ["url"; "alt_text"]%string) logo_of (ser_logo x) x) as Hl.
  { intros [[u|] [a|]]; eexists; (split; [reflexivity|]); (split; [reflexivity|]); split;
      cbn [dl_url dl_alt_text]; member_here. }
  destruct l, g, ds, b, t; eexists; (split; [reflexivity|]); (split; [reflexivity|]); unfold display_of;
    cbn [dp_name dp_locale dp_logo dp_description dp_background_color dp_text_color]; conj_split; member_here.
Qed.
Lemma displays_writes l : Forall display_ok l ->
  list_value (struct_value Writing display_names (all_of display_names) (display_of Writing)) (ser_list ser_display l) l.
Proof. apply list_writes, display_writes. Qed.
#[global] Hint Resolve displays_writes : written.

Lemma members_disjoint c names : disjointb cfp_keys names = true ->
  forall k, In k names -> ~ In k (map fst (cfp_members c)).
Proof.
  intros Hd k Hk Hin. apply in_map_iff in Hin. destruct Hin as ([k' v] & <- & Hin).
  exact (cfp_members_disjoint c names Hd k' v Hin Hk).
Qed.

Lemma supported_writes n : writes (supported_ok n) ser_supported (supported_value Writing).
Proof.
  intros [f i b s ds] (H1 & H2 & H3 & H4 & H5). cbn [sup_format sup_id sup_binding_methods sup_suites sup_display] in *.
  eexists. split; [reflexivity|].
  cbn [sup_format sup_id sup_binding_methods sup_suites sup_display]. split.
  - rewrite map_app, credential_written_names. reflexivity.
  - unfold supported_of. cbn [sup_format sup_id sup_binding_methods sup_suites sup_display].
    pose proof (members_disjoint f (map lit supported_names) eq_refl) as Hd.
    split; [apply credential_app|].
    + intros k Hk. cbn [format_names map In] in Hk. repeat destruct Hk as [<-|Hk]; try destruct Hk; not_there.
    + now apply credential_writes_members with n.
    + destruct i, b, s, ds; on_somes; conj_split; apply optional_app_l; try (apply Hd; cbn; tauto); member_here.
Qed.

Lemma request_writes n : writes (request_ok n) ser_request (request_value Writing).
Proof.
  intros [f p] (H1 & H2). cbn [cr_format cr_proof] in *. eexists. split; [reflexivity|].
  cbn [cr_format cr_proof]. split.
  - rewrite map_app, credential_written_names. reflexivity.
  - unfold request_of. cbn [cr_format cr_proof]. split; [apply credential_app|].
    + intros k Hk. cbn [format_names map In] in Hk. repeat destruct Hk as [<-|Hk]; try destruct Hk; not_there.
    + now apply credential_writes_members with n.
    + apply optional_app_l.
      * apply (members_disjoint f [lit "proof"] eq_refl). now left.
      * destruct p as [p|].
        -- eexists. split; [here|]. reflexivity.
        -- right. here.
Qed.

Lemma members_except_own (a : hmap json) m : map fst m = map lit metadata_names ->
  (forall k, In k (map fst a) -> ~ names_metadata k) -> members_except metadata_names (m ++ a) = a.
Proof.
  intros Hm Ha. unfold members_except. rewrite filter_app. rewrite SerdeFacts.filter_none, SerdeFacts.filter_all; [reflexivity| |].
  - intros kv Hin. match goal with |- (if ?x then _ else _) = _ => destruct x as [H|]; [|reflexivity] end. exfalso.
    apply (Ha (fst kv)); [now apply in_map|]. apply in_map_iff in H. destruct H as (x & E & Hx). now exists x.
  - intros kv Hin. match goal with |- (if ?x then _ else _) = _ => destruct x as [|H]; [reflexivity|] end. exfalso. apply H.
    unfold str in *. rewrite <- Hm. now apply in_map.
Qed.

Lemma metadata_writes n md : metadata_ok n md ->
  (forall a k, im_additional_fields md = Some a -> In k (map fst a) -> ~ names_metadata k) ->
  metadata_value Writing (ser_metadata md) md.
Proof.
  intros (H1 & H2 & H3 & H4 & H5 & H6) Hk. destruct md as [i s e b c a].
  cbn [im_credential_issuer im_authorization_server im_credential_endpoint
      im_batch_credential_endpoint im_credentials_supported im_additional_fields] in *.
  unfold ser_metadata. cbn [im_credential_issuer im_authorization_server im_credential_endpoint
      im_batch_credential_endpoint im_credentials_supported im_additional_fields].
  set (rest := match a with Some a0 => a0 | None => [] end).
  assert (forall n, In n metadata_names -> ~ In (lit n) (map fst rest)) as Hrest.
  { intros x Hx Hin. unfold rest in Hin. destruct a as [a|]; [|destruct Hin].
    apply (Hk a (lit x) eq_refl Hin). now exists x. }
  rewrite !app_assoc. eexists. split; [reflexivity|].
  cbn [im_credential_issuer im_authorization_server im_credential_endpoint
      im_batch_credential_endpoint im_credentials_supported im_additional_fields]. split.
  - rewrite map_app. destruct a; reflexivity.
  - unfold metadata_of. cbn [im_credential_issuer im_authorization_server im_credential_endpoint
      im_batch_credential_endpoint im_credentials_supported im_additional_fields].
    assert (list_value (supported_value Writing) (ser_list ser_supported c) c) as Hc
      by (exact (list_writes (supported_ok n) ser_supported (supported_value Writing) c (supported_writes n) H5)).
    split; [apply required_app_r; [apply Hrest; cbn; tauto|member_here]|].
    split; [apply optional_app_r; [apply Hrest; cbn; tauto|destruct s; member_here]|].
    split; [apply required_app_r; [apply Hrest; cbn; tauto|member_here]|].
    split; [apply optional_app_r; [apply Hrest; cbn; tauto|destruct b; member_here]|].
    split; [apply required_app_r; [apply Hrest; cbn; tauto|member_here]|].
    destruct a as [a|]; [|reflexivity]. cbn [additional_fields_of]. unfold rest.
    rewrite members_except_own; [|reflexivity|intros k; now apply Hk].
    specialize (H6 a eq_refl).
    assert (JObj a = ser_hmap (fun v : json => v) a) as ->.
    { unfold ser_hmap. f_equal. rewrite <- (map_id a) at 1. apply map_ext. now intros []. }
    apply (map_writes (value_ok n)); [|exact H6]. intros v Hv. eapply free_writes, Hv.
Qed.

(* ---------------- texts ---------------- *)

Lemma text_written {A : Type} n (S : A -> json) (P : json -> A -> Prop) a : P (S a) a -> jgood n (S a) -> (n <= 127)%nat ->
  exists v, json_text (print (S a)) v /\ compact v (print (S a)) /\ P v a.
Proof.
  intros HP Hg Hn. exists (S a). split; [|split; [apply print_compact|exact HP]]. apply parse_json_iff. now apply (read_written n).
Qed.

(** The same for texts of any nesting. *)
Lemma text_written_deep {A : Type} n (S : A -> json) (P : json -> A -> Prop) a : P (S a) a -> jgood n (S a) ->
  exists v, rfc8259_text (print (S a)) v /\ compact v (print (S a)) /\ P v a.
Proof. intros HP [Hj _]. exists (S a). split; [now apply print_rfc8259|]. split; [apply print_compact|exact HP]. Qed.

Lemma offer_written n x : offer_ok n x ->
  exists v, rfc8259_text (offer_to_json x) v /\ compact v (offer_to_json x) /\ offer_value Writing v x.
Proof.
  intros H. apply (text_written_deep (max 7 (5 + n))); [now apply (offer_writes n)|now apply good_offer].
Qed.
Lemma token_request_written x : token_request_ok x ->
  exists v, json_text (token_request_to_json x) v /\ compact v (token_request_to_json x) /\ token_request_value Writing v x.
Proof.
  intros H. apply (text_written 2); [now apply token_request_writes|now apply good_token_request|lia].
Qed.
Lemma token_success_written x : token_success_ok x ->
  exists v, json_text (token_success_to_json x) v /\ compact v (token_success_to_json x) /\ token_success_value Writing v x.
Proof.
  intros H. apply (text_written 1); [now apply token_success_writes|now apply good_token_success|lia].
Qed.
Lemma credential_written_text n x : cfp_ok n x ->
  exists v, rfc8259_text (cfp_to_json x) v /\ compact v (cfp_to_json x) /\ credential_value Writing Alone v x.
Proof.
  intros H. apply (text_written_deep (max 5 (3 + n))); [now apply (credential_writes _ n)|now apply good_cfp].
Qed.
Lemma request_written n x : request_ok n x ->
  exists v, rfc8259_text (credential_request_to_json x) v /\ compact v (credential_request_to_json x) /\ request_value Writing v x.
Proof.
  intros H. apply (text_written_deep (max 5 (3 + n))); [now apply (request_writes n)|now apply good_request].
Qed.
Lemma credential_success_written n x : credential_success_ok n x ->
  exists v, rfc8259_text (credential_success_to_json x) v /\ compact v (credential_success_to_json x) /\ credential_success_value Writing v x.
Proof.
  intros H. apply (text_written_deep (max 7 (5 + n)));
    [now apply (credential_success_writes n)|now apply good_credential_success].
Qed.
Lemma metadata_written_text n x : metadata_ok n x ->
  (forall a k, im_additional_fields x = Some a -> In k (map fst a) -> ~ names_metadata k) ->
  exists v, rfc8259_text (metadata_to_json x) v /\ compact v (metadata_to_json x) /\ metadata_value Writing v x.
Proof.
  intros H Hk. apply (text_written_deep (max 7 (5 + n)));
    [now apply (metadata_writes n)|now apply good_metadata].
Qed.
Lemma token_options_written x : token_options_ok x ->
  exists v, json_text (token_options_to_json x) v /\ compact v (token_options_to_json x) /\ token_options_value Writing v x.
Proof.
  intros H. apply (text_written 1); [now apply token_options_writes| |lia].
  unfold ser_token_options. apply jgood_obj. jfields. apply jgood_ser_opt.
  eapply on_some_impl; [|exact H]. apply jgood_N.
Qed.
Lemma c_nonce_written x : c_nonce_ok x ->
  exists v, json_text (c_nonce_to_json x) v /\ compact v (c_nonce_to_json x) /\ c_nonce_value Writing v x.
Proof.
  intros H. apply (text_written 1); [now apply c_nonce_writes| |lia].
  destruct H as [H1 H2]. unfold ser_c_nonce. apply jgood_obj. jfields; [now apply jgood_str|now apply good_opt_u32].
Qed.
Lemma eval_options_written d x : dt_round_trips d -> eval_options_ok x ->
  exists v, json_text (eval_options_to_json d x) v /\ compact v (eval_options_to_json d x) /\ eval_options_value Writing d v x.
Proof.
  intros Hd H. apply (text_written 2 (ser_eval_options d)); [now apply eval_options_writes| |lia].
  destruct H as [H1 H2]. unfold ser_eval_options. apply jgood_obj. jfields.
  - apply jgood_ser_opt. intros c Hc. apply good_c_nonce_options; auto.
  - now apply good_opt_str.
Qed.
Lemma proof_jwt_written d x : dt_round_trips d -> proof_jwt_ok x ->
  exists v, json_text (proof_jwt_to_json d x) v /\ compact v (proof_jwt_to_json d x) /\ proof_jwt_value Writing d v x.
Proof.
  intros Hd H. apply (text_written 2 (ser_proof_jwt d)); [now apply proof_jwt_writes| |lia].
  destruct H as (H1 & H2 & H3 & H4). unfold ser_proof_jwt. apply jgood_obj. jfields.
  - now apply good_header.
  - now apply good_body.
  - now apply good_opt_str.
Qed.
Lemma header_written x : header_ok x -> exists v, json_text (header_to_json x) v /\ compact v (header_to_json x) /\ header_value Writing v x.
Proof.
  intros H. apply (text_written 1); [now apply header_writes|now apply good_header|lia].
Qed.
Lemma claims_written_text d x : dt_round_trips d -> body_ok x -> body_instants_ok x ->
  exists v, json_text (claims_to_json d x) v /\ compact v (claims_to_json d x) /\ claims_value Writing d v x.
Proof.
  intros Hd H Hi. apply (text_written 1 (ser_body d)); [now apply claims_writes|now apply good_body|lia].
Qed.
