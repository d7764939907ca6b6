(** What is written for documents with any numbers and of any nesting (C66, C82, C92). *)
From Coq Require Import Lia Sorting.Sorted.
From Verif Require Import Model.Prelude Model.Json Model.Percent Model.Types Model.Deps Model.CredentialIssuer Model.Serde Model.Wire
  Spec SpecNumber SpecOffer SpecJson SpecDocuments SpecWire SpecRelay SpecResults
  Proofs.StrFacts Proofs.JsonFacts Proofs.SerdeFacts Proofs.GrammarFacts Proofs.AnyDepth Proofs.KeptFacts Proofs.DepthFacts
  Proofs.PercentFacts Proofs.OfferFacts Proofs.CompactFacts Proofs.DocumentFacts Proofs.WireFacts Proofs.RelayFacts Proofs.RenumberFacts
  Proofs.SpellingFacts Proofs.WrittenFacts Proofs.ResultFacts.

(* ---------------- values ---------------- *)

Lemma any_good v : json_any v -> jgood (depth v) (json_numbers half v).
Proof. intros H. split; [now apply loose_half|]. now rewrite depth_numbers. Qed.

Lemma good_text r n j : rereads r -> jgood n (json_numbers half j) -> levels_text n (print j) (json_numbers r j).
Proof.
  intros Hr G. exists [], (print j), []. rewrite app_nil_r. split; [reflexivity|].
  split; [apply no_white_text|]. split; [apply no_white_text|]. now apply printed_again.
Qed.

Lemma any_is_json r j : rereads r -> json_any j ->
  (forall n, levels_text n (print j) (json_numbers r j) <-> (depth j <= n)%nat)
  /\ forall j', rfc8259_text (print j) j' -> j' = json_numbers r j.
Proof.
  intros Hr H. assert (G : forall n, levels_text n (print j) (json_numbers r j) <-> (depth j <= n)%nat).
  { intros n. split.
    - intros (a & t & b & _ & _ & _ & Hv). rewrite <- (depth_numbers r j). now apply whole_depth in Hv.
    - intros L. apply good_text; [exact Hr|]. apply (jgood_mono (depth j)); [exact L|]. now apply any_good. }
  split; [exact G|]. intros j' H'. apply (rfc8259_det _ _ _ H'). exists (depth j). now apply G.
Qed.

Lemma any_apart j j' : json_any j -> json_any j' -> print j = print j' -> j = j'.
Proof.
  intros H H'. apply (printed_apart (depth j + depth j')).
  - apply (jgood_mono (depth j)); [lia|]. now apply any_good.
  - apply (jgood_mono (depth j')); [lia|]. now apply any_good.
Qed.

(* ---------------- the members that are written ---------------- *)

Lemma free_held v : value v -> free_value v v.
Proof. intros H. rewrite <- (to_value_id v H) at 2. apply free_value_to_value. Qed.

Lemma contexts_held l : Forall (ld_context_with value) l -> list_value ld_context_value (ser_list ser_ld_context l) l.
Proof.
  apply list_writes. intros [s|h] H; constructor. apply (map_writes value); [|exact H]. exact free_held.
Qed.
#[local] Hint Resolve contexts_held : written.

Lemma members_held p c : cfp_with value c -> credential_of Writing p (cfp_members c) c.
Proof.
  intros H. destruct c as [ty su od|ty su od|cx ty su od|dt cl od]; cbn [cfp_with] in H; decompose [and] H; clear H;
    match goal with |- credential_of _ _ (cfp_members (?f _ ?s ?o)) _ => destruct s, o
    | |- credential_of _ _ (cfp_members (?f _ _ ?s ?o)) _ => destruct s, o end; on_somes; constructor;
    (match goal with |- format_member _ _ _ _ _ => left | _ => idtac end); member_here.
Qed.

Lemma credential_held p : writes (cfp_with value) ser_cfp (credential_value Writing p).
Proof.
  intros c H. exists (cfp_members c). split; [reflexivity|]. split; [apply credential_written_names|].
  now apply members_held.
Qed.

Lemma offereds_held l : Forall (credential_or_id_with value) l ->
  list_value (offered_value Writing) (ser_list ser_credential_or_id l) l.
Proof. apply list_writes. intros [s|c] H; constructor. now apply credential_held. Qed.
#[local] Hint Resolve offereds_held : written.

Lemma offer_held : writes (offer_with value) ser_offer (offer_value Writing).
Proof.
  intros [i cs g] (_ & H & _). cbn [co_credentials] in H. eexists. split; [reflexivity|]. split; [reflexivity|].
  unfold offer_of. cbn [co_credential_issuer co_credentials co_grants]. conj_split; member_here.
Qed.

Lemma issued_held : writes (cfp_or_encoded_with value) ser_cfp_or_encoded (issued_value Writing).
Proof. intros [c|s] H; constructor. now apply credential_held. Qed.

Lemma response_held : writes (credential_success_with value) ser_credential_success (credential_success_value Writing).
Proof.
  intros [f c a nc e] H. unfold credential_success_with in H.
  cbn [cs_format cs_credential cs_acceptance_token cs_c_nonce cs_c_nonce_expires_in] in H. decompose [and] H. clear H.
  pose proof issued_held as Hi. unfold writes in Hi.
  destruct c, a, nc, e; on_somes; eexists; (split; [reflexivity|]); (split; [reflexivity|]);
    unfold credential_success_of; cbn [cs_format cs_credential cs_acceptance_token cs_c_nonce cs_c_nonce_expires_in];
    conj_split; member_here.
Qed.

Lemma supported_held : writes (supported_with value) ser_supported (supported_value Writing).
Proof.
  intros [f i b s ds] (H1 & H2 & H3 & H4 & H5). cbn [sup_format sup_id sup_binding_methods sup_suites sup_display] in *.
  eexists. split; [reflexivity|].
  cbn [sup_format sup_id sup_binding_methods sup_suites sup_display]. split.
  - rewrite map_app, credential_written_names. reflexivity.
  - unfold supported_of. cbn [sup_format sup_id sup_binding_methods sup_suites sup_display].
    pose proof (members_disjoint f (map lit supported_names) eq_refl) as Hd.
    split; [apply credential_app|].
    + intros k Hk. cbn [format_names map In] in Hk. repeat destruct Hk as [<-|Hk]; try destruct Hk; not_there.
    + now apply members_held.
    + destruct i, b, s, ds; on_somes; conj_split; apply optional_app_l; try (apply Hd; cbn; tauto); member_here.
Qed.

Lemma request_held : writes (request_with value) ser_request (request_value Writing).
Proof.
  intros [f p] (H1 & H2). cbn [cr_format cr_proof] in *. eexists. split; [reflexivity|].
  cbn [cr_format cr_proof]. split.
  - rewrite map_app, credential_written_names. reflexivity.
  - unfold request_of. cbn [cr_format cr_proof]. split; [apply credential_app|].
    + intros k Hk. cbn [format_names map In] in Hk. repeat destruct Hk as [<-|Hk]; try destruct Hk; not_there.
    + now apply members_held.
    + apply optional_app_l.
      * apply (members_disjoint f [lit "proof"] eq_refl). now left.
      * destruct p as [p|].
        -- eexists. split; [here|]. reflexivity.
        -- right. here.
Qed.

Lemma metadata_held md : metadata_with value value md ->
  (forall a k, im_additional_fields md = Some a -> In k (map fst a) -> ~ names_metadata k) ->
  metadata_value Writing (ser_metadata md) md.
Proof.
  intros (H1 & H2 & H3 & H4 & H5 & H6) Hk. destruct md as [i s e b c a].
  cbn [im_credential_issuer im_authorization_server im_credential_endpoint
      im_batch_credential_endpoint im_credentials_supported im_additional_fields] in *.
  unfold ser_metadata. cbn [im_credential_issuer im_authorization_server im_credential_endpoint
      im_batch_credential_endpoint im_credentials_supported im_additional_fields].
  set (rest := match a with Some a0 => a0 | None => [] end).
  assert (forall n, In n metadata_names -> ~ In (lit n) (map fst rest)) as Hrest.
  { intros x Hx Hin. unfold rest in Hin. destruct a as [a|]; [|destruct Hin].
    apply (Hk a (lit x) eq_refl Hin). now exists x. }
  rewrite !app_assoc. eexists. split; [reflexivity|].
  cbn [im_credential_issuer im_authorization_server im_credential_endpoint
      im_batch_credential_endpoint im_credentials_supported im_additional_fields]. split.
  - rewrite map_app. destruct a; reflexivity.
  - unfold metadata_of. cbn [im_credential_issuer im_authorization_server im_credential_endpoint
      im_batch_credential_endpoint im_credentials_supported im_additional_fields].
    assert (list_value (supported_value Writing) (ser_list ser_supported c) c) as Hc
      by (exact (list_writes (supported_with value) ser_supported (supported_value Writing) c supported_held H5)).
    split; [apply required_app_r; [apply Hrest; cbn; tauto|member_here]|].
    split; [apply optional_app_r; [apply Hrest; cbn; tauto|destruct s; member_here]|].
    split; [apply required_app_r; [apply Hrest; cbn; tauto|member_here]|].
    split; [apply optional_app_r; [apply Hrest; cbn; tauto|destruct b; member_here]|].
    split; [apply required_app_r; [apply Hrest; cbn; tauto|member_here]|].
    destruct a as [a|]; [|reflexivity]. cbn [additional_fields_of]. unfold rest.
    rewrite members_except_own; [|reflexivity|intros k; now apply Hk].
    specialize (H6 a eq_refl).
    assert (JObj a = ser_hmap (fun v : json => v) a) as ->.
    { unfold ser_hmap. f_equal. rewrite <- (map_id a) at 1. apply map_ext. now intros []. }
    apply (map_writes value); [|exact H6]. exact free_held.
Qed.

Lemma result_held r : cfp_with value (er_credential r) -> result_value (ser_eval_response r) r.
Proof.
  intros H. pose proof (credential_held Alone _ H) as Hc. pose proof evidence_writes as He.
  destruct r as [p s c]. cbn [er_credential] in *.
  destruct p, s; eexists; (split; [reflexivity|]); (split; [reflexivity|]); unfold result_of;
    cbn [er_pop er_subject_id er_credential]; conj_split; member_here.
Qed.

(* ---------------- weaker conditions on the free-form values ---------------- *)

Section Weaken.
Context (P Q P' Q' : json -> Prop) (PQ : forall v, P v -> Q v) (PQ' : forall v, P' v -> Q' v).

Lemma hmap_weaken h : hmap_ok P' h -> hmap_ok Q' h.
Proof. intros [W H]. split; [exact W|]. intros k v I. destruct (H k v I). auto. Qed.
Lemma credential_weaken c : cfp_with P c -> cfp_with Q c.
Proof.
  destruct c as [ty su od|ty su od|cx ty su od|dt cl od]; try (intros H; exact H). intros [H1 H2]. split; [|exact H2].
  eapply Forall_impl; [|exact H1]. intros [s|h]; [auto|]. intros [W H]. split; [exact W|].
  intros k v I. destruct (H k v I). auto.
Qed.
Lemma offer_weaken x : offer_with P x -> offer_with Q x.
Proof.
  intros (H1 & H2 & H3). split; [exact H1|]. split; [|exact H3]. eapply Forall_impl; [|exact H2].
  intros [s|c]; [auto|apply credential_weaken].
Qed.
Lemma request_weaken x : request_with P x -> request_with Q x.
Proof. intros [H1 H2]. split; [now apply credential_weaken|exact H2]. Qed.
Lemma response_weaken x : credential_success_with P x -> credential_success_with Q x.
Proof.
  intros (H1 & H2 & H3). split; [exact H1|]. split; [|exact H3]. intros c E. specialize (H2 c E).
  destruct c; [now apply credential_weaken|exact H2].
Qed.
Lemma metadata_weaken x : metadata_with P P' x -> metadata_with Q Q' x.
Proof.
  intros (H1 & H2 & H3 & H4 & H5 & H6). repeat (split; [assumption|]). split.
  - eapply Forall_impl; [|exact H5]. intros s [F R]. split; [now apply credential_weaken|exact R].
  - intros a E. apply hmap_weaken. now apply H6.
Qed.
End Weaken.

(* ---------------- good documents ---------------- *)

Lemma any_cfp n x : cfp_with (value_any n) x -> jgood (max 5 (3 + n)) (json_numbers half (ser_cfp x)).
Proof.
  intros W. rewrite credential_written. apply good_cfp.
  exact (credential_with_numbers (value_any n) (value_ok n) half (value_half n) x W).
Qed.
Lemma any_offer n x : offer_with (value_any n) x -> jgood (max 7 (5 + n)) (json_numbers half (ser_offer x)).
Proof.
  intros W. rewrite RenumberFacts.offer_written. apply good_offer.
  exact (offer_with_numbers (value_any n) (value_ok n) half (value_half n) x W).
Qed.
Lemma any_request n x : request_with (value_any n) x -> jgood (max 5 (3 + n)) (json_numbers half (ser_request x)).
Proof.
  intros W. rewrite RenumberFacts.request_written. apply good_request.
  exact (request_with_numbers (value_any n) (value_ok n) half (value_half n) x W).
Qed.
Lemma any_response n x : credential_success_with (value_any n) x ->
  jgood (max 7 (5 + n)) (json_numbers half (ser_credential_success x)).
Proof.
  intros W. rewrite response_written. apply good_credential_success.
  exact (response_with_numbers (value_any n) (value_ok n) half (value_half n) x W).
Qed.
Lemma any_metadata n x : metadata_with (value_any n) (value_any n) x ->
  jgood (max 7 (5 + n)) (json_numbers half (ser_metadata x)).
Proof.
  intros W. rewrite metadata_written. apply good_metadata.
  exact (metadata_with_numbers (value_any n) (value_ok n) (value_any n) (value_ok n) half (value_half n) (value_half n) x W).
Qed.

Lemma result_numbers r x : json_numbers r (ser_eval_response x)
  = ser_eval_response {| er_pop := er_pop x; er_subject_id := er_subject_id x; er_credential := credential_numbers r (er_credential x) |}.
Proof.
  assert (B : forall s, fixed (ser_bytes s)).
  { intros s q. unfold ser_bytes. cbn [json_numbers]. f_equal. rewrite map_map. reflexivity. }
  assert (F : forall p, fixed (ser_pop p)).
  { intros p. apply fixed_obj. ffields; try apply B. apply fixed_str. }
  unfold ser_eval_response. rewrite numbers_obj, !numbers_app. cbn [er_pop er_subject_id er_credential].
  rewrite (numbers_fixed _ _ _ (fixed_opt _ _ F)), (numbers_fixed _ _ _ (fixed_opt _ _ fixed_str)), numbers_field.
  now rewrite credential_written.
Qed.
Lemma any_result n x : on_some rust_string (er_subject_id x) -> cfp_with (value_any n) (er_credential x) ->
  jgood (max 6 (4 + n)) (json_numbers half (ser_eval_response x)).
Proof.
  intros S W. rewrite result_numbers. apply good_result. split; [exact S|].
  exact (credential_with_numbers (value_any n) (value_ok n) half (value_half n) _ W).
Qed.

(* ---------------- texts ---------------- *)

Lemma text_any {A : Type} n r (S : A -> json) (P : json -> A -> Prop) a : rereads r ->
  P (S a) a -> jgood n (json_numbers half (S a)) ->
  exists v, compact v (print (S a)) /\ P v a /\ rfc8259_text (print (S a)) (json_numbers r v).
Proof.
  intros Hr HP G. exists (S a). split; [apply print_compact|]. split; [exact HP|]. exists n. now apply good_text.
Qed.

Lemma value_of_any n v : value_any n v -> value v.
Proof. intros H. apply H. Qed.

Lemma offer_text_any n r x : rereads r -> offer_with (value_any n) x ->
  exists v, compact v (offer_to_json x) /\ offer_value Writing v x /\ rfc8259_text (offer_to_json x) (json_numbers r v).
Proof.
  intros Hr W. rewrite offer_to_json_eq. apply (text_any (max 7 (5 + n))); [exact Hr| |now apply any_offer].
  apply offer_held. exact (offer_weaken _ _ (value_of_any n) x W).
Qed.
Lemma cfp_text_any n r x : rereads r -> cfp_with (value_any n) x ->
  exists v, compact v (cfp_to_json x) /\ credential_value Writing Alone v x /\ rfc8259_text (cfp_to_json x) (json_numbers r v).
Proof.
  intros Hr W. rewrite cfp_to_json_eq. apply (text_any (max 5 (3 + n))); [exact Hr| |now apply any_cfp].
  apply credential_held. exact (credential_weaken _ _ (value_of_any n) x W).
Qed.
Lemma request_text_any n r x : rereads r -> request_with (value_any n) x ->
  exists v, compact v (credential_request_to_json x) /\ request_value Writing v x
    /\ rfc8259_text (credential_request_to_json x) (json_numbers r v).
Proof.
  intros Hr W. rewrite request_to_json_eq. apply (text_any (max 5 (3 + n))); [exact Hr| |now apply any_request].
  apply request_held. exact (request_weaken _ _ (value_of_any n) x W).
Qed.
Lemma response_text_any n r x : rereads r -> credential_success_with (value_any n) x ->
  exists v, compact v (credential_success_to_json x) /\ credential_success_value Writing v x
    /\ rfc8259_text (credential_success_to_json x) (json_numbers r v).
Proof.
  intros Hr W. rewrite response_to_json_eq. apply (text_any (max 7 (5 + n))); [exact Hr| |now apply any_response].
  apply response_held. exact (response_weaken _ _ (value_of_any n) x W).
Qed.
Lemma metadata_text_any n r x : rereads r -> metadata_with (value_any n) (value_any n) x ->
  (forall a k, im_additional_fields x = Some a -> In k (map fst a) -> ~ names_metadata k) ->
  exists v, compact v (metadata_to_json x) /\ metadata_value Writing v x
    /\ rfc8259_text (metadata_to_json x) (json_numbers r v).
Proof.
  intros Hr W N. rewrite metadata_to_json_eq. apply (text_any (max 7 (5 + n))); [exact Hr| |now apply any_metadata].
  apply metadata_held; [|exact N]. exact (metadata_weaken _ _ _ _ (value_of_any n) (value_of_any n) x W).
Qed.
Lemma result_text_any n r x : rereads r -> on_some rust_string (er_subject_id x) -> cfp_with (value_any n) (er_credential x) ->
  exists v, compact v (eval_response_to_json x) /\ result_value v x
    /\ rfc8259_text (eval_response_to_json x) (json_numbers r v).
Proof.
  intros Hr S W. apply (text_any (max 6 (4 + n))); [exact Hr| |now apply any_result].
  apply result_held. exact (credential_weaken _ _ (value_of_any n) _ W).
Qed.

(* ---------------- texts tell documents apart ---------------- *)

Lemma cfp_apart n x x' : cfp_with (value_any n) x -> cfp_with (value_any n) x' ->
  cfp_to_json x = cfp_to_json x' -> x = x'.
Proof.
  intros W W' E. rewrite !cfp_to_json_eq in E.
  apply (printed_apart _ _ _ (any_cfp n x W) (any_cfp n x' W')) in E.
  apply (credential_weaken _ _ (value_of_any n)) in W, W'.
  pose proof (credential_decoded value (fun v H => H) x W) as D.
  rewrite E, (credential_decoded value (fun v H => H) x' W') in D. congruence.
Qed.
Lemma offer_apart n x x' : offer_with (value_any n) x -> offer_with (value_any n) x' ->
  offer_to_json x = offer_to_json x' -> x = x'.
Proof.
  intros W W' E. rewrite !offer_to_json_eq in E.
  apply (printed_apart _ _ _ (any_offer n x W) (any_offer n x' W')) in E.
  apply (offer_weaken _ _ (value_of_any n)) in W, W'.
  pose proof (offer_decoded value (fun v H => H) x W) as D.
  rewrite E, (offer_decoded value (fun v H => H) x' W') in D. congruence.
Qed.
Lemma request_apart n x x' : request_with (value_any n) x -> request_with (value_any n) x' ->
  credential_request_to_json x = credential_request_to_json x' -> x = x'.
Proof.
  intros W W' E. rewrite !request_to_json_eq in E.
  apply (printed_apart _ _ _ (any_request n x W) (any_request n x' W')) in E.
  apply (request_weaken _ _ (value_of_any n)) in W, W'.
  pose proof (request_decoded value (fun v H => H) x W) as D.
  rewrite E, (request_decoded value (fun v H => H) x' W') in D. congruence.
Qed.
Lemma response_apart n x x' : credential_success_with (value_any n) x -> credential_success_with (value_any n) x' ->
  credential_success_to_json x = credential_success_to_json x' -> x = x'.
Proof.
  intros W W' E. rewrite !response_to_json_eq in E.
  apply (printed_apart _ _ _ (any_response n x W) (any_response n x' W')) in E.
  apply (response_weaken _ _ (value_of_any n)) in W, W'.
  pose proof (response_decoded value (fun v H => H) x W) as D.
  rewrite E, (response_decoded value (fun v H => H) x' W') in D. congruence.
Qed.

(** No additional fields and an empty map of them are written alike. *)
Lemma metadata_apart n x x' : metadata_with (value_any n) (value_any n) x -> metadata_with (value_any n) (value_any n) x' ->
  (forall a k, im_additional_fields x = Some a -> In k (map fst a) -> ~ names_metadata k) ->
  (forall a k, im_additional_fields x' = Some a -> In k (map fst a) -> ~ names_metadata k) ->
  metadata_to_json x = metadata_to_json x' ->
  with_additional x match im_additional_fields x with Some a => a | None => [] end
  = with_additional x' match im_additional_fields x' with Some a => a | None => [] end.
Proof.
  intros W W' N N' E. rewrite !metadata_to_json_eq in E.
  apply (printed_apart _ _ _ (any_metadata n x W) (any_metadata n x' W')) in E.
  assert (K : forall y, metadata_with (value_any n) (value_any n) y ->
    (forall a k, im_additional_fields y = Some a -> In k (map fst a) -> ~ names_metadata k) ->
    de_metadata (ser_metadata y)
    = Some (with_additional y match im_additional_fields y with Some a => a | None => [] end)).
  { intros y Y M.
    assert (S : ser_metadata y = ser_metadata (with_additional y match im_additional_fields y with Some a => a | None => [] end)).
    { destruct y as [i s e b c [a|]]; reflexivity. }
    rewrite S. apply (metadata_decoded value value (fun v H => H) (fun v H => H) _
      match im_additional_fields y with Some a => a | None => [] end).
    - apply (metadata_weaken _ _ _ _ (value_of_any n) (value_of_any n)) in Y.
      destruct Y as (H1 & H2 & H3 & H4 & H5 & H6). repeat (split; [assumption|]).
      intros a [= <-]. destruct (im_additional_fields y) as [b|]; [now apply H6|].
      split; [constructor|]. intros k v [].
    - reflexivity.
    - intros k I. rewrite <- metadata_names_fields. destruct (im_additional_fields y) as [b|] eqn:B; [now apply (M b)|destruct I]. }
  pose proof (K x W N) as D. rewrite E, (K x' W' N') in D. congruence.
Qed.
Lemma result_apart n x x' : on_some rust_string (er_subject_id x) -> cfp_with (value_any n) (er_credential x) ->
  on_some rust_string (er_subject_id x') -> cfp_with (value_any n) (er_credential x') ->
  eval_response_to_json x = eval_response_to_json x' -> x = x'.
Proof.
  intros S H S' H' E.
  apply (printed_apart _ _ _ (any_result n x S H) (any_result n x' S' H')) in E.
  pose (at_ := fun (i : nat) (o : json) => match o with JObj m => match nth_error m i with Some (_, v) => v | None => JNull end | _ => JNull end).
  pose proof (f_equal (at_ 0%nat) E) as Hp. pose proof (f_equal (at_ 1%nat) E) as Hs.
  pose proof (f_equal (at_ 2%nat) E) as Ec. clear E. unfold at_ in *. clear at_.
  change (ser_opt ser_pop (er_pop x) = ser_opt ser_pop (er_pop x')) in Hp.
  change (ser_opt JStr (er_subject_id x) = ser_opt JStr (er_subject_id x')) in Hs.
  change (ser_cfp (er_credential x) = ser_cfp (er_credential x')) in Ec.
  apply (credential_weaken _ _ (value_of_any n)) in H, H'.
  destruct x as [p s c], x' as [p' s' c']. cbn [er_pop er_subject_id er_credential] in *. f_equal.
  - destruct p, p'; cbn [ser_opt] in Hp; [f_equal; now apply ser_pop_inj|discriminate Hp|discriminate Hp|reflexivity].
  - destruct s, s'; cbn [ser_opt] in Hs; [now injection Hs as ->|discriminate Hs|discriminate Hs|reflexivity].
  - pose proof (credential_decoded value (fun v H => H) c H) as A.
    rewrite Ec, (credential_decoded value (fun v H => H) c' H') in A. congruence.
Qed.

Lemma payload_apart n o o' s : offer_with (value_any n) o -> offer_with (value_any n) o' ->
  offer_url_encode o = Ok s -> offer_url_encode o' = Ok s -> o = o'.
Proof.
  intros W W' E E'. unfold offer_url_encode in E, E'. apply ok_inj in E, E'.
  rewrite <- E' in E. apply url_encode_inj in E. now apply (offer_apart n).
Qed.
