(** Reading what was written changes nothing but numbers (C104). *)
From Coq Require Import Lia Sorting.Sorted.
From Verif Require Import Model.Prelude Model.Json Model.Percent Model.Types Model.Deps Model.CredentialIssuer Model.Serde Model.Wire
  Spec SpecNumber SpecOffer SpecJson SpecDocuments SpecWire SpecRelay
  Proofs.StrFacts Proofs.JsonFacts Proofs.SerdeFacts Proofs.GrammarFacts Proofs.KeptFacts Proofs.DepthFacts
  Proofs.OfferFacts Proofs.CompactFacts Proofs.DocumentFacts Proofs.WireFacts Proofs.NumberValues Proofs.NumberAgain Proofs.RelayFacts.

(* ---------------- numbers that can be read ---------------- *)

(** "0.5" for the text of a number that can be read, else a text that cannot. *)
Definition half (s : str) : str :=
  match parse_number true s with POk (JFloat _) [] => lit "0.5" | _ => [] end.

Lemma half_kept : float_kept (lit "0.5").
Proof. apply becomes_computed; vm_compute; reflexivity. Qed.

Lemma half_again t : f64_text t -> half t = lit "0.5".
Proof.
  intros (neg & x & Hn & H). apply written_again in H; [|exact Hn]. destruct H as (w & H). unfold half.
  assert (parse_number true (t ++ []) = POk (JFloat w) []) as E.
  { apply number_read; [now apply nt_float|exact I]. }
  rewrite app_nil_r in E. now rewrite E.
Qed.

Lemma half_read s : float_kept (half s) -> exists t, float_becomes s t.
Proof.
  unfold half. intros H. destruct (parse_number true s) as [j r| |] eqn:E.
  2, 3: apply parse_json_becomes in H; vm_compute in H; discriminate H.
  assert (N := E). apply number_of_read in N. destruct N as (n & -> & N).
  destruct N as [d _ _|d _ _|u t _ F|u D _].
  1, 2: apply parse_json_becomes in H; vm_compute in H; discriminate H.
  - destruct r; [rewrite app_nil_r; now exists t|]. apply parse_json_becomes in H; vm_compute in H; discriminate H.
  - discriminate D.
Qed.

(* ---------------- values ---------------- *)

Lemma map_fst_numbers r (m : list (str * json)) :
  map fst (map (fun kv => (fst kv, json_numbers r (snd kv))) m) = map fst m.
Proof. rewrite map_map. reflexivity. Qed.

Lemma depth_numbers r j : depth (json_numbers r j) = depth j.
Proof.
  induction j as [|b|z|s|s|l IH|m IH] using json_ind'; try reflexivity; cbn [json_numbers depth]; f_equal; f_equal;
    rewrite map_map; apply map_ext_in.
  - rewrite Forall_forall in IH. exact IH.
  - rewrite Forall_forall in IH. intros kv I. cbn [snd]. now apply IH.
Qed.

Lemma value_numbers r v : value v -> value (json_numbers r v).
Proof.
  induction 1 as [|b|z|s|s|l _ IH|m S _ IH]; cbn [json_numbers]; constructor.
  - intros x I. apply in_map_iff in I. destruct I as (y & <- & I). now apply IH.
  - rewrite map_fst_numbers. exact S.
  - intros k x I. apply in_map_iff in I. destruct I as ([k' y] & [= <- <-] & I). now apply (IH k').
Qed.

Lemma loose_half v : json_any v -> json_ok (json_numbers half v).
Proof.
  induction 1 as [|b|z Z|t F|s R|l _ IH|m R _ IH]; cbn [json_numbers]; try (constructor; assumption); constructor.
  - rewrite (half_again t F). exact half_kept.
  - intros x I. apply in_map_iff in I. destruct I as (y & <- & I). now apply IH.
  - intros k x I. apply in_map_iff in I. destruct I as ([k' y] & [= <- <-] & I). now apply (R k' y).
  - intros k x I. apply in_map_iff in I. destruct I as ([k' y] & [= <- <-] & I). now apply (IH k').
Qed.

Lemma value_half n v : value_any n v -> value_ok n (json_numbers half v).
Proof.
  intros (L & V & D). split; [now apply loose_half|]. split; [now apply value_numbers|]. now rewrite depth_numbers.
Qed.

(* ---------------- the text that is written ---------------- *)

Lemma integer_number w z : (- 2 ^ 63 <= z < 2 ^ 64)%Z -> number_text w (decZ z) (JInt z).
Proof.
  intros Z. pose proof (parse_number_int w z [] Z I) as E. apply number_of_read in E.
  destruct E as (n & E & N). rewrite !app_nil_r in E. now rewrite E.
Qed.

Lemma printed_string w s : rust_string s -> string_text w (print_str s) s.
Proof.
  intros R. pose proof (parse_string_print w s [] R) as E. apply string_of_read in E.
  destruct E as (t & E & N). rewrite app_nil_r in E. unfold print_str. now rewrite E.
Qed.


Lemma no_white_text : white [].
Proof. constructor. Qed.

Definition inner (w : bool) (n : nat) : nat := if w then pred n else n.
Lemma deeper_inner w n : (0 < n)%nat -> deeper w n (inner w n).
Proof. destruct w; cbn; lia. Qed.
Lemma inner_pred w n : (pred n <= inner w n)%nat.
Proof. destruct w; cbn; lia. Qed.

(** Read ([w]) the numbers are those of [r], skipped they are as they stand. *)
Lemma printed_mode (w : bool) r : (w = true -> rereads r) -> (w = false -> forall s, r s = s) ->
  forall j n, jgood n (json_numbers half j) -> value_text w Whole n (print j) (json_numbers r j).
Proof.
  intros Hr Hs. induction j as [|[]|z|s|s|l IH|m IH] using json_ind'; intros n [O D]; cbn [json_numbers] in O.
  - apply vt_null.
  - apply vt_true.
  - apply vt_false.
  - inversion O; subst. apply vt_number. now apply integer_number.
  - inversion O as [| | |? F| | |]; subst. apply half_read in F. destruct F as (t & F). cbn [json_numbers print].
    apply vt_number. destruct w.
    + rewrite (Hr eq_refl s t F). now apply nt_float.
    + rewrite (Hs eq_refl). apply nt_skipped; [reflexivity|].
      destruct F as (neg & int & frac & exp & x & P & N & _). exists neg, int, frac, exp. now split.
  - inversion O; subst. apply vt_string. now apply printed_string.
  - inversion O as [| | | | |? F|]; subst. cbn [json_numbers depth] in D.
    assert (G : forall x, In x l -> value_text w Whole (inner w n) (print x) (json_numbers r x)).
    { intros x I. rewrite Forall_forall in IH. apply IH; [exact I|]. split; [apply F, in_map, I|].
      assert (depth (json_numbers half x) <= list_max (map depth (map (json_numbers half) l)))%nat as L.
      { apply list_max_le_In, in_map, in_map, I. } pose proof (inner_pred w n). lia. }
    assert (D' : deeper w n (inner w n)) by (apply deeper_inner; lia). clear IH O F D. cbn [json_numbers print].
    destruct l as [|x l]; [apply (vt_empty_array w Whole n (inner w n) []); [exact D'|apply no_white_text]|].
    apply vt_array with (inner w n); [exact D'|]. generalize O. revert x G.
    induction l as [|y l IHl]; intros x G i.
    + rewrite <- (app_nil_r (join _ _)). apply (et_last w Whole i (inner w n) [] (print x) []); try apply no_white_text.
      apply G. now left.
    + change (join (lit ",") (map print (x :: y :: l)))
        with ([] ++ print x ++ [] ++ ","%char :: join (lit ",") (map print (y :: l))).
      apply et_next; try apply no_white_text.
      * apply G. now left.
      * apply IHl. intros z I. apply G. now right.
  - inversion O as [| | | | | |? R F]; subst. cbn [json_numbers depth] in D.
    assert (G : forall k x, In (k, x) m -> string_text w (print_str k) k
       /\ value_text w Whole (inner w n) (print x) (json_numbers r x)).
    { intros k x I. rewrite Forall_forall in IH.
      assert (In (k, json_numbers half x) (map (fun kv => (fst kv, json_numbers half (snd kv))) m)) as I'.
      { apply in_map_iff. now exists (k, x). }
      split; [apply printed_string; now apply (R k (json_numbers half x))|].
      apply (IH (k, x) I). split; [now apply (F k)|].
      assert (depth (json_numbers half x)
        <= list_max (map (fun kv => depth (snd kv)) (map (fun kv => (fst kv, json_numbers half (snd kv))) m)))%nat as L.
      { apply list_max_le_In, in_map_iff. now exists (k, json_numbers half x). }
      pose proof (inner_pred w n). cbn [snd]. lia. }
    assert (D' : deeper w n (inner w n)) by (apply deeper_inner; lia). clear IH O F R D. cbn [json_numbers print].
    destruct m as [|[k x] m]; [apply (vt_empty_object w Whole n (inner w n) []); [exact D'|apply no_white_text]|].
    apply vt_object with (inner w n); [exact D'|]. revert k x G.
    induction m as [|[k' y] m IHm]; intros k x G.
    + destruct (G k x (or_introl eq_refl)) as [G1 G2].
      match goal with |- members_text _ _ _ ?t _ =>
        replace t with ([] ++ print_str k ++ [] ++ ":"%char :: [] ++ print x ++ []) by (rewrite app_nil_r; reflexivity) end.
      eapply mt_last; try apply no_white_text; [exact G1|reflexivity|exact G2].
    + destruct (G k x (or_introl eq_refl)) as [G1 G2]. specialize (IHm k' y).
      match type of IHm with _ -> members_text _ _ _ ?t _ => set (rest := t) in IHm end.
      match goal with |- members_text _ _ _ ?t _ =>
        replace t with ([] ++ print_str k ++ [] ++ ":"%char :: [] ++ print x ++ [] ++ ","%char :: rest) end.
      2: { transitivity ((print_str k ++ lit ":" ++ print x) ++ lit "," ++ rest); [|reflexivity].
           cbn [app]. rewrite <- !app_assoc. reflexivity. }
      eapply mt_next; try apply no_white_text; [exact G1|reflexivity|exact G2|].
      apply IHm. intros k0 x0 I. apply G. now right.
Qed.

Lemma printed_again r : rereads r -> forall j n, jgood n (json_numbers half j) ->
  value_text true Whole n (print j) (json_numbers r j).
Proof. intros Hr. apply printed_mode; [now intros _|discriminate]. Qed.

Lemma numbers_same j : json_numbers (fun s => s) j = j.
Proof.
  induction j as [|b|z|s|s|l IH|m IH] using json_ind'; try reflexivity; cbn [json_numbers]; f_equal;
    rewrite Forall_forall in IH.
  - rewrite <- (map_id l) at 2. apply map_ext_in. exact IH.
  - rewrite <- (map_id m) at 2. apply map_ext_in. intros [k v] I. cbn [fst snd]. f_equal. exact (IH _ I).
Qed.

(** The text of a value determines it, whatever numbers it holds. *)
Lemma printed_apart n j j' : jgood n (json_numbers half j) -> jgood n (json_numbers half j') ->
  print j = print j' -> j = j'.
Proof.
  assert (K : forall j, jgood n (json_numbers half j) ->
    parse_value false Whole (List.length (print j)) (S n) (print j) = POk j []).
  { intros v G. pose proof (printed_mode false (fun s => s) ltac:(discriminate) ltac:(reflexivity) v n G) as T.
    rewrite numbers_same in T.
    pose proof (proj1 texts_read _ _ _ _ _ T [] [] (List.length (print v)) no_white_text I (le_n _)) as E.
    cbn [app] in E. now rewrite app_nil_r in E. }
  intros G G' E. pose proof (K j G) as R. pose proof (K j' G') as R'. rewrite E in R. congruence.
Qed.

Lemma read_again r n j : rereads r -> jgood n (json_numbers half j) -> (n <= 127)%nat ->
  parse_json (print j) = Some (json_numbers r j).
Proof.
  intros Hr G L. apply parse_json_iff. exists [], (print j), []. rewrite app_nil_r.
  split; [reflexivity|]. split; [apply no_white_text|]. split; [apply no_white_text|].
  apply printed_again; [exact Hr|]. eapply jgood_mono; [|exact G]. lia.
Qed.

(* ---------------- writing a document with other numbers ---------------- *)

(** Without numbers of that kind. *)
Definition fixed (j : json) : Prop := forall r, json_numbers r j = j.

Lemma fixed_obj m : Forall (fun kv => fixed (snd kv)) m -> fixed (JObj m).
Proof.
  intros H r. cbn [json_numbers]. f_equal. rewrite Forall_forall in H. rewrite <- (map_id m) at 2.
  apply map_ext_in. intros [k v] I. cbn [fst snd]. f_equal. apply (H _ I).
Qed.
Lemma fixed_list {A} (f : A -> json) l : (forall a, fixed (f a)) -> fixed (ser_list f l).
Proof. intros H r. unfold ser_list. cbn [json_numbers]. f_equal. rewrite map_map. apply map_ext. intros a. apply H. Qed.
Lemma fixed_opt {A} (f : A -> json) o : (forall a, fixed (f a)) -> fixed (ser_opt f o).
Proof. intros H. destruct o; [apply H|intros r; reflexivity]. Qed.
Lemma fixed_map {A} (f : A -> json) m : (forall a, fixed (f a)) -> fixed (ser_hmap f m).
Proof. intros H. apply fixed_obj. rewrite Forall_map, Forall_forall. intros [k v] _. apply H. Qed.
Lemma fixed_str s : fixed (JStr s).
Proof. intros r. reflexivity. Qed.
Lemma fixed_bool b : fixed (JBool b).
Proof. intros r. reflexivity. Qed.
Lemma fixed_N n : fixed (ser_N n).
Proof. intros r. reflexivity. Qed.

Ltac ffields :=
  repeat match goal with
    | |- Forall _ (_ ++ _) => apply Forall_app; split
    | |- Forall _ (field _ _) => apply Forall_field; cbn [snd]
    | |- Forall _ (field_opt _ _ _) => apply Forall_field_opt; intros; cbn [snd]
    end.

Lemma fixed_strs l : fixed (ser_list JStr l).
Proof. apply fixed_list, fixed_str. Qed.
Lemma fixed_subject s : fixed (ser_subject s).
Proof.
  apply fixed_obj. ffields; [apply fixed_bool|apply fixed_str|]. apply fixed_list. intros d.
  apply fixed_obj. ffields; apply fixed_str.
Qed.
Lemma fixed_subjects m : fixed (ser_hmap ser_subject m).
Proof. apply fixed_map, fixed_subject. Qed.
Lemma fixed_display p : fixed (ser_display p).
Proof.
  apply fixed_obj. ffields; try apply fixed_opt; try apply fixed_str. intros l. apply fixed_obj. ffields; apply fixed_opt, fixed_str.
Qed.
Lemma fixed_proof p : fixed (ser_proof p).
Proof. apply fixed_obj. ffields; apply fixed_str. Qed.
Lemma fixed_grants g : fixed (ser_grants g).
Proof.
  apply fixed_obj. ffields; apply fixed_obj; ffields; [apply fixed_opt, fixed_str|apply fixed_str|apply fixed_bool].
Qed.

Lemma numbers_obj r m : json_numbers r (JObj m) = JObj (map_numbers r m).
Proof. reflexivity. Qed.
Lemma numbers_app r m m' : map_numbers r (m ++ m') = map_numbers r m ++ map_numbers r m'.
Proof. apply map_app. Qed.
Lemma numbers_field r k v : map_numbers r (field k v) = field k (json_numbers r v).
Proof. reflexivity. Qed.
Lemma numbers_fixed r k v : fixed v -> map_numbers r (field k v) = field k v.
Proof. intros H. unfold field, map_numbers. cbn [map fst snd]. now rewrite H. Qed.
Lemma numbers_fixed_opt {A} r k (f : A -> json) o : (forall a, fixed (f a)) -> map_numbers r (field_opt k f o) = field_opt k f o.
Proof. intros H. destruct o; cbn [field_opt]; [unfold map_numbers; cbn [map fst snd]; now rewrite H|reflexivity]. Qed.
Lemma numbers_list {A B} r (f : A -> json) (g : B -> json) (h : A -> B) l :
  (forall a, json_numbers r (f a) = g (h a)) -> json_numbers r (ser_list f l) = ser_list g (map h l).
Proof. intros H. unfold ser_list. cbn [json_numbers]. f_equal. rewrite !map_map. now apply map_ext. Qed.

Lemma context_written r c : json_numbers r (ser_ld_context c) = ser_ld_context (context_numbers r c).
Proof.
  destruct c as [s|h]; [reflexivity|]. cbn [ser_ld_context context_numbers]. unfold ser_hmap, map_numbers.
  cbn [json_numbers]. f_equal. rewrite !map_map. reflexivity.
Qed.

Lemma members_written r c : map_numbers r (cfp_members c) = cfp_members (credential_numbers r c).
Proof.
  destruct c as [ty su od|ty su od|cx ty su od|dt cl od]; unfold cfp_members; cbn [credential_numbers cfp_tag];
    rewrite !numbers_app, ?(numbers_fixed _ _ _ (fixed_str _)), ?(numbers_fixed _ _ _ (fixed_strs _)),
      ?(numbers_fixed_opt _ _ _ _ fixed_subjects), ?(numbers_fixed_opt _ _ _ _ fixed_strs); try reflexivity.
  rewrite numbers_field, (numbers_list r ser_ld_context ser_ld_context (context_numbers r)); [reflexivity|].
  intros a. apply context_written.
Qed.

Lemma credential_written r c : json_numbers r (ser_cfp c) = ser_cfp (credential_numbers r c).
Proof. unfold ser_cfp. rewrite numbers_obj. f_equal. apply members_written. Qed.

Lemma offered_written r c : json_numbers r (ser_credential_or_id c) = ser_credential_or_id (offered_numbers r c).
Proof. destruct c as [s|c]; [reflexivity|]. apply credential_written. Qed.

Lemma offer_written r x : json_numbers r (ser_offer x) = ser_offer (offer_numbers r x).
Proof.
  unfold ser_offer. rewrite numbers_obj, !numbers_app. cbn [offer_numbers co_credential_issuer co_credentials co_grants].
  rewrite (numbers_fixed _ _ _ (fixed_str _)), (numbers_fixed _ _ _ (fixed_grants _)), numbers_field.
  rewrite (numbers_list r ser_credential_or_id ser_credential_or_id (offered_numbers r)); [reflexivity|].
  intros a. apply offered_written.
Qed.

Lemma request_written r x : json_numbers r (ser_request x) = ser_request (request_numbers r x).
Proof.
  unfold ser_request. rewrite numbers_obj, !numbers_app. cbn [request_numbers cr_format cr_proof].
  now rewrite members_written, (numbers_fixed _ _ _ (fixed_opt _ _ fixed_proof)).
Qed.

Lemma issued_written r c : json_numbers r (ser_cfp_or_encoded c) = ser_cfp_or_encoded (issued_numbers r c).
Proof.
  destruct c as [c|s]; [|reflexivity]. cbn [ser_cfp_or_encoded issued_numbers].
  rewrite numbers_obj, numbers_field. now rewrite credential_written.
Qed.

Lemma response_written r x : json_numbers r (ser_credential_success x) = ser_credential_success (response_numbers r x).
Proof.
  unfold ser_credential_success. rewrite numbers_obj, !numbers_app.
  cbn [response_numbers cs_format cs_credential cs_acceptance_token cs_c_nonce cs_c_nonce_expires_in].
  rewrite (numbers_fixed _ _ _ (fixed_str _)), !(numbers_fixed _ _ _ (fixed_opt _ _ fixed_str)),
    (numbers_fixed _ _ _ (fixed_opt _ _ fixed_N)), numbers_field.
  destruct (cs_credential x) as [c|]; cbn [ser_opt option_map]; [now rewrite issued_written|reflexivity].
Qed.

Lemma supported_written r x : json_numbers r (ser_supported x) = ser_supported (supported_numbers r x).
Proof.
  unfold ser_supported. rewrite numbers_obj, !numbers_app.
  cbn [supported_numbers sup_format sup_id sup_binding_methods sup_suites sup_display].
  now rewrite members_written, (numbers_fixed _ _ _ (fixed_opt _ _ fixed_str)),
    !(numbers_fixed _ _ _ (fixed_opt _ _ fixed_strs)),
    (numbers_fixed _ _ _ (fixed_opt _ _ (fun l => fixed_list _ l fixed_display))).
Qed.

Lemma metadata_written r x : json_numbers r (ser_metadata x) = ser_metadata (metadata_numbers r x).
Proof.
  unfold ser_metadata. rewrite numbers_obj, !numbers_app.
  cbn [metadata_numbers im_credential_issuer im_authorization_server im_credential_endpoint
    im_batch_credential_endpoint im_credentials_supported im_additional_fields].
  rewrite !(numbers_fixed _ _ _ (fixed_str _)), !(numbers_fixed _ _ _ (fixed_opt _ _ fixed_str)), numbers_field.
  rewrite (numbers_list r ser_supported ser_supported (supported_numbers r)) by (intros a; apply supported_written).
  destruct (im_additional_fields x); reflexivity.
Qed.

(* ---------------- documents that were read ---------------- *)

Lemma hmap_numbers (P Q : json -> Prop) r h : (forall v, P v -> Q (json_numbers r v)) -> hmap_ok P h -> hmap_ok Q (map_numbers r h).
Proof.
  intros PQ [W H]. split; [unfold hmap_wf, map_numbers in *; now rewrite map_fst_numbers|].
  intros k v I. apply in_map_iff in I. destruct I as ([k' y] & [= <- <-] & I). destruct (H k' y I) as [H1 H2].
  split; [exact H1|now apply PQ].
Qed.

Section With.
Context (P Q P' Q' : json -> Prop) (r : str -> str)
  (PQ : forall v, P v -> Q (json_numbers r v)) (PQ' : forall v, P' v -> Q' (json_numbers r v)).

Lemma credential_with_numbers c : cfp_with P c -> cfp_with Q (credential_numbers r c).
Proof.
  destruct c as [ty su od|ty su od|cx ty su od|dt cl od]; try (intros H; exact H). intros [H1 H2]. split; [|exact H2].
  rewrite Forall_forall in *. intros c I. apply in_map_iff in I. destruct I as (c' & <- & I). specialize (H1 c' I).
  destruct c' as [s|h]; [exact H1|]. now apply (hmap_numbers P).
Qed.
Lemma offer_with_numbers x : offer_with P x -> offer_with Q (offer_numbers r x).
Proof.
  intros (H1 & H2 & H3). split; [exact H1|]. split; [|exact H3]. cbn [offer_numbers co_credentials].
  rewrite Forall_forall in *. intros c I. apply in_map_iff in I. destruct I as (c' & <- & I). specialize (H2 c' I).
  destruct c'; [exact H2|now apply credential_with_numbers].
Qed.
Lemma request_with_numbers x : request_with P x -> request_with Q (request_numbers r x).
Proof. intros [H1 H2]. split; [now apply credential_with_numbers|exact H2]. Qed.
Lemma response_with_numbers x : credential_success_with P x -> credential_success_with Q (response_numbers r x).
Proof.
  intros (H1 & H2 & H3). split; [exact H1|]. split; [|exact H3]. cbn [response_numbers cs_credential].
  destruct (cs_credential x) as [c|]; intros c' [=<-]. specialize (H2 c eq_refl).
  destruct c; [now apply credential_with_numbers|exact H2].
Qed.
Lemma supported_with_numbers x : supported_with P x -> supported_with Q (supported_numbers r x).
Proof. intros [H1 H2]. split; [now apply credential_with_numbers|exact H2]. Qed.
Lemma metadata_with_numbers x : metadata_with P P' x -> metadata_with Q Q' (metadata_numbers r x).
Proof.
  intros (H1 & H2 & H3 & H4 & H5 & H6). repeat (split; [assumption|]).
  cbn [metadata_numbers im_credentials_supported im_additional_fields]. split.
  - rewrite Forall_forall in *. intros c I. apply in_map_iff in I. destruct I as (c' & <- & I).
    now apply supported_with_numbers, H5.
  - destruct (im_additional_fields x) as [a|]; intros a' [=<-]. apply (hmap_numbers P'); [exact PQ'|now apply H6].
Qed.
End With.

(* ---------------- decoding what was encoded ---------------- *)

Section Decode.
Context (P P' : json -> Prop) (PV : forall v, P v -> value v) (PV' : forall v, P' v -> value v).

Lemma context_decoded c : ld_context_with P c -> de_ld_context (ser_ld_context c) = Some c.
Proof.
  destruct c as [s|m]; cbn [ld_context_with ser_ld_context]; intros H; [reflexivity|].
  unfold de_ld_context. change (ser_hmap (fun v => v) m) with (JObj (map (fun kv => (fst kv, snd kv)) m)).
  cbv iota. change (JObj (map (fun kv => (fst kv, snd kv)) m)) with (ser_hmap (fun v : json => v) m).
  rewrite (de_hmap_rt (fun v => v) de_value m P H); [reflexivity|].
  intros v Hv. unfold de_value. rewrite to_value_id; [reflexivity|now apply PV].
Qed.

Lemma members_decoded ix c : cfp_with P c -> de_cfp_tagged ix (JObj (cfp_members c)) = Some c.
Proof.
  intros H. destruct c as [ty su od|ty su od|cx ty su od|dt cl od].
  1, 2, 4: now apply (de_cfp_members ix 0).
  unfold de_cfp_tagged. rewrite split_tag_cfp. cbn [opt_bind]. cbn [cfp_with] in H; cbn [cfp_tag]. eval_lits.
  destruct H as (H0 & H1 & H2 & H3).
  assert (de_list de_ld_context (ser_list ser_ld_context cx) = Some cx) as Hcx.
  { apply de_list_rt. eapply Forall_impl; [|exact H0]. intros. now apply context_decoded. }
  destruct su as [su|], od as [od|]; eval_fields;
    cbn [req]; rewrite ?Hcx, ?de_strs_rt, ?opt_some_strs, ?opt_subjects_rt by (apply H2; reflexivity);
    reflexivity.
Qed.

Lemma credential_decoded c : cfp_with P c -> de_cfp (ser_cfp c) = Some c.
Proof. apply members_decoded. Qed.

Lemma issued_decoded c : cfp_or_encoded_with P c -> de_cfp_or_encoded (ser_cfp_or_encoded c) = Some c.
Proof.
  destruct c; cbn [cfp_or_encoded_with]; intros H; unfold ser_cfp_or_encoded, de_cfp_or_encoded; cbn [field].
  - eval_lits. rewrite credential_decoded by assumption. reflexivity.
  - reflexivity.
Qed.

Lemma supported_decoded s : supported_with P s -> de_supported (ser_supported s) = Some s.
Proof.
  intros (H1 & H2 & H3 & H4 & H5). unfold ser_supported, de_supported.
  rewrite fields_of_app_l by (apply cfp_members_disjoint; reflexivity).
  unfold supported_fields at 1. eval_fields.
  rewrite opt_str_rt, !opt_strs_rt. cbn [opt_bind].
  rewrite (opt_ser_opt (ser_list ser_display) (de_list de_display)).
  2: { intros l _. split; [|discriminate]. apply de_list_rt. rewrite Forall_forall. intros. apply display_rt. }
  cbn [opt_bind]. rewrite other_members_app.
  rewrite (other_members_all _ (cfp_members (sup_format s))) by (apply cfp_members_disjoint; reflexivity).
  match goal with |- context [other_members supported_fields ?x] =>
    change (other_members supported_fields x) with (@nil (str * json)) end.
  rewrite app_nil_r. unfold de_cfp_buffered. rewrite members_decoded by assumption. destruct s; reflexivity.
Qed.

Lemma metadata_decoded m a :
  metadata_with P P' m -> im_additional_fields m = Some a -> (forall k, In k (map fst a) -> ~ In k metadata_fields) ->
  de_metadata (ser_metadata m) = Some m.
Proof.
  intros (H1 & H2 & H3 & H4 & H5 & H6) Ha Hk. unfold ser_metadata, de_metadata. rewrite Ha.
  rewrite !app_assoc. rewrite fields_of_app_r.
  2: { intros k v Hin. apply Hk, in_map_iff. now exists (k, v). }
  rewrite <- !app_assoc. unfold metadata_fields at 1. eval_fields.
  cbn [req de_str opt_bind]. rewrite !opt_str_rt. cbn [opt_bind].
  rewrite de_list_rt by (eapply Forall_impl; [|exact H5]; intros; now apply supported_decoded).
  cbn [opt_bind]. rewrite !app_assoc, other_members_app.
  rewrite (other_members_all _ a).
  2: { intros k v Hin. apply Hk, in_map_iff. now exists (k, v). }
  match goal with |- context [other_members metadata_fields ?x] =>
    change (other_members metadata_fields x) with (@nil (str * json)) end.
  cbn [app].
  assert (JObj a = ser_hmap (fun v : json => v) a) as ->.
  { unfold ser_hmap. f_equal. rewrite <- (map_id a) at 1. apply map_ext. now intros []. }
  rewrite (de_hmap_rt _ _ a P'); [|now apply H6|].
  - destruct m; cbn in *. subst. reflexivity.
  - intros v Hv. unfold de_value. rewrite to_value_id; [reflexivity|now apply PV'].
Qed.

Lemma request_decoded r : request_with P r -> de_request (ser_request r) = Some r.
Proof.
  intros [H1 H2]. unfold ser_request, de_request.
  rewrite get_unique_app_l.
  2: { intros k v Hin ->. eapply (cfp_members_disjoint _ [lit "proof"]); [reflexivity|exact Hin|now left]. }
  change (get_unique (lit "proof") (field "proof" (ser_opt ser_proof (cr_proof r))))
    with (Some (Some (ser_opt ser_proof (cr_proof r)))). cbn [opt_bind].
  rewrite (opt_ser_opt ser_proof de_proof) by (intros l _; split; [apply proof_rt|discriminate]).
  cbn [opt_bind]. rewrite other_members_app.
  rewrite (other_members_all _ (cfp_members (cr_format r))) by (apply cfp_members_disjoint; reflexivity).
  match goal with |- context [other_members _ (field ?x ?y)] =>
    change (other_members [lit "proof"] (field x y)) with (@nil (str * json)) end.
  rewrite app_nil_r. unfold de_cfp_buffered. rewrite members_decoded by assumption. destruct r; reflexivity.
Qed.

Lemma offered_decoded c : credential_or_id_with P c -> de_credential_or_id (ser_credential_or_id c) = Some c.
Proof.
  destruct c; cbn [credential_or_id_with]; intros H; [reflexivity|].
  unfold ser_credential_or_id, de_credential_or_id, ser_cfp. cbv iota.
  unfold de_cfp_buffered. rewrite members_decoded by assumption. reflexivity.
Qed.

Lemma offer_decoded o : offer_with P o -> de_offer (ser_offer o) = Some o.
Proof.
  intros (H1 & H2 & H3 & H4). unfold de_offer, ser_offer, offer_fields. eval_fields.
  cbn [req de_str opt_bind].
  rewrite de_list_rt by (eapply Forall_impl; [|exact H2]; intros; now apply offered_decoded).
  cbn [opt_bind]. rewrite grants_rt. destruct o; reflexivity.
Qed.

Lemma response_decoded r : credential_success_with P r -> de_credential_success (ser_credential_success r) = Some r.
Proof.
  intros (H1 & H2 & H3 & H4 & H5). unfold de_credential_success, ser_credential_success, credential_success_fields.
  eval_fields. cbn [req de_str opt_bind].
  rewrite (opt_ser_opt ser_cfp_or_encoded de_cfp_or_encoded).
  2: { intros c Hc. split; [apply issued_decoded, H2, Hc|]. destruct c; discriminate. }
  cbn [opt_bind]. rewrite !opt_str_rt, opt_u32_rt by assumption. destruct r; reflexivity.
Qed.
End Decode.

(* ---------------- the documents ---------------- *)

Lemma loose_value n v : value_any n v -> value v.
Proof. intros H. apply H. Qed.

Lemma respects_credential_success : respects (plain credential_success_fields) de_credential_success.
Proof.
  apply (respects_struct [(lit "format", Whole); (lit "credential", Whole); (lit "acceptance_token", Whole);
    (lit "c_nonce", Whole); (lit "c_nonce_expires_in", Whole)]); [reflexivity|]. fields_apart. reflexivity.
Qed.

Lemma cfp_from_json_eq s : cfp_from_json s = opt_bind (parse_json s) de_cfp.
Proof. reflexivity. Qed.
Lemma request_from_json_eq s : credential_request_from_json s = opt_bind (parse_doc request_shape s) de_request.
Proof. reflexivity. Qed.
Lemma request_to_json_eq x : credential_request_to_json x = print (ser_request x).
Proof. reflexivity. Qed.
Lemma response_from_json_eq s :
  credential_success_from_json s = opt_bind (parse_doc (plain credential_success_fields) s) de_credential_success.
Proof. reflexivity. Qed.
Lemma response_to_json_eq x : credential_success_to_json x = print (ser_credential_success x).
Proof. reflexivity. Qed.

Section Relay.
Context (r : str -> str) (Hr : rereads r).

Lemma value_with n v : value_any n v -> value (json_numbers r v).
Proof. intros (_ & V & _). now apply value_numbers. Qed.

Lemma cfp_rewritten x : cfp_with (value_any 124) x -> cfp_from_json (cfp_to_json x) = Some (credential_numbers r x).
Proof.
  intros W. rewrite cfp_from_json_eq, cfp_to_json_eq, (read_again r (max 5 (3 + 124))); [|exact Hr| |lia].
  - cbn [opt_bind]. rewrite credential_written. apply (credential_decoded value); [easy|].
    apply (credential_with_numbers (value_any 124)); [apply value_with|exact W].
  - rewrite credential_written. apply good_cfp.
    exact (credential_with_numbers (value_any 124) (value_ok 124) half (value_half 124) x W).
Qed.

Lemma offer_rewritten x : offer_with (value_any 122) x -> offer_from_json (offer_to_json x) = Some (offer_numbers r x).
Proof.
  intros W.
  assert (parse_json (print (ser_offer x)) = Some (json_numbers r (ser_offer x))) as R.
  { apply (read_again r (max 7 (5 + 122))); [exact Hr| |lia]. rewrite offer_written. apply good_offer.
    exact (offer_with_numbers (value_any 122) (value_ok 122) half (value_half 122) x W). }
  rewrite offer_from_json_eq, offer_to_json_eq, (respects_parsed _ _ _ _ respects_offer R), offer_written.
  apply (offer_decoded value); [easy|]. apply (offer_with_numbers (value_any 122)); [apply value_with|exact W].
Qed.

Lemma request_rewritten x : request_with (value_any 124) x ->
  credential_request_from_json (credential_request_to_json x) = Some (request_numbers r x).
Proof.
  intros W.
  assert (parse_json (print (ser_request x)) = Some (json_numbers r (ser_request x))) as R.
  { apply (read_again r (max 5 (3 + 124))); [exact Hr| |lia]. rewrite request_written. apply good_request.
    exact (request_with_numbers (value_any 124) (value_ok 124) half (value_half 124) x W). }
  rewrite request_from_json_eq, request_to_json_eq, (respects_parsed _ _ _ _ respects_request R), request_written.
  apply (request_decoded value); [easy|]. apply (request_with_numbers (value_any 124)); [apply value_with|exact W].
Qed.

Lemma success_rewritten x : credential_success_with (value_any 122) x ->
  credential_success_from_json (credential_success_to_json x) = Some (response_numbers r x).
Proof.
  intros W.
  assert (parse_json (print (ser_credential_success x)) = Some (json_numbers r (ser_credential_success x))) as R.
  { apply (read_again r (max 7 (5 + 122))); [exact Hr| |lia]. rewrite response_written. apply good_credential_success.
    exact (response_with_numbers (value_any 122) (value_ok 122) half (value_half 122) x W). }
  rewrite response_from_json_eq, response_to_json_eq, (respects_parsed _ _ _ _ respects_credential_success R), response_written.
  apply (response_decoded value); [easy|]. apply (response_with_numbers (value_any 122)); [apply value_with|exact W].
Qed.

Lemma metadata_some x a : metadata_with (value_any 122) (value_any 126) x -> im_additional_fields x = Some a ->
  (forall k, In k (map fst a) -> ~ names_metadata k) ->
  metadata_from_json (metadata_to_json x) = Some (metadata_numbers r x).
Proof.
  intros W E N.
  assert (parse_json (print (ser_metadata x)) = Some (json_numbers r (ser_metadata x))) as R.
  { apply (read_again r (max 7 (max (5 + 122) (1 + 126)))); [exact Hr| |lia]. rewrite metadata_written.
    pose proof (metadata_with_numbers (value_any 122) (value_ok 122) (value_any 126) (value_ok 126) half
      (value_half 122) (value_half 126) x W) as (H1 & H2 & H3 & H4 & H5 & H6).
    apply good_metadata_parts; [|exact H5|exact H6].
    repeat (split; [assumption|]). split.
    - eapply Forall_impl; [|exact H5]. intros s0. apply supported_ok_mono. lia.
    - exact H6. }
  rewrite metadata_from_json_eq, metadata_to_json_eq, (respects_parsed _ _ _ _ respects_metadata R), metadata_written.
  apply (metadata_decoded value value (fun v H => H) (fun v H => H) _ (map_numbers r a)).
  - apply (metadata_with_numbers (value_any 122) _ (value_any 126)); [apply value_with|apply value_with|exact W].
  - cbn [metadata_numbers im_additional_fields]. now rewrite E.
  - unfold map_numbers. rewrite map_fst_numbers. intros k I. rewrite <- metadata_names_fields. now apply N.
Qed.

Lemma metadata_rewritten x : metadata_with (value_any 122) (value_any 126) x ->
  (forall a k, im_additional_fields x = Some a -> In k (map fst a) -> ~ names_metadata k) ->
  metadata_from_json (metadata_to_json x)
  = Some (metadata_numbers r (with_additional x match im_additional_fields x with Some a => a | None => [] end)).
Proof.
  intros W N. destruct (im_additional_fields x) as [a|] eqn:E.
  - rewrite (metadata_some x a W E (fun k => N a k eq_refl)). f_equal. f_equal. destruct x. cbn in *. now subst.
  - assert (metadata_to_json x = metadata_to_json (with_additional x [])) as ->.
    { rewrite !metadata_to_json_eq. f_equal. unfold ser_metadata. cbn. now rewrite E. }
    apply (metadata_some _ []); [|reflexivity|intros k []].
    destruct W as (H1 & H2 & H3 & H4 & H5 & _). repeat (split; [assumption|]).
    intros a [= <-]. split; [constructor|]. intros k v [].
Qed.

Lemma cfp_again s x : cfp_from_json s = Some x -> cfp_from_json (cfp_to_json x) = Some (credential_numbers r x).
Proof.
  intros H. apply cfp_reading in H. destruct H as (v & T & V). apply spelt_text in T.
  apply cfp_rewritten. exact (credential_sound Alone 127 v x T V).
Qed.

Lemma offer_again s x : offer_from_json s = Some x -> offer_from_json (offer_to_json x) = Some (offer_numbers r x).
Proof.
  intros H. apply offer_reading in H. destruct H as (v & T & V). apply spelt_text in T.
  apply offer_rewritten. exact (offer_sound 127 v x T V).
Qed.

Lemma request_again s x : credential_request_from_json s = Some x ->
  credential_request_from_json (credential_request_to_json x) = Some (request_numbers r x).
Proof.
  intros H. apply credential_request_reading in H. destruct H as (v & T & V). apply spelt_text in T.
  apply request_rewritten. exact (request_sound 127 v x T V).
Qed.

Lemma success_again s x : credential_success_from_json s = Some x ->
  credential_success_from_json (credential_success_to_json x) = Some (response_numbers r x).
Proof.
  intros H. apply credential_success_reading in H. destruct H as (v & T & V). apply spelt_text in T.
  apply success_rewritten. exact (success_sound 127 v x T V).
Qed.

Lemma metadata_again s x : metadata_from_json s = Some x ->
  metadata_from_json (metadata_to_json x) = Some (metadata_numbers r x).
Proof.
  intros H. apply metadata_reading in H. destruct H as (v & T & m & -> & V). apply spelt_text in T.
  destruct (metadata_sound 127 m x T V) as (W & a & E & N). now apply (metadata_some x a).
Qed.

Lemma created_rewritten m creds ep a p o url :
  create_offer m creds ep a p = Ok (o, url) -> rust_string (im_credential_issuer m) ->
  Forall (credential_or_id_with (value_any 122)) creds -> on_some preauth_flow_ok p ->
  exists payload text, url = offer_url_prefix ep ++ payload /\ percent_decoded payload text
    /\ offer_from_json text = Some (offer_numbers r o).
Proof.
  intros H H1 H2 H3. pose proof (create_offer_content _ _ _ _ _ _ _ H) as (C1 & C2 & C3 & C4).
  apply create_offer_ok in H as (_ & _ & _ & _ & ->).
  exists (url_encode (offer_to_json o)), (offer_to_json o). split; [reflexivity|].
  split; [apply percent_decoded_encode|]. apply offer_rewritten.
  unfold offer_with. rewrite C1, C2, C3, C4. split; [exact H1|]. split; [exact H2|]. split; [discriminate|exact H3].
Qed.
End Relay.

(** There is such a function. *)
Definition reread (s : str) : str := match parse_json s with Some (JFloat t) => t | _ => s end.
Lemma reread_rereads : rereads reread.
Proof. intros s t H. apply parse_json_becomes in H. unfold reread. now rewrite H. Qed.

Lemma every_f64 neg x : (neg = [] \/ neg = ["-"%char]) -> finite_f64 x ->
  exists t, written_as neg x t /\ f64_text t /\ exists u, parse_json t = Some (JFloat u).
Proof.
  intros Hn F. destruct (written_exists neg x F Hn) as [t W]. exists t. split; [exact W|]. split; [now exists neg, x|].
  apply written_again in W; [|exact Hn]. destruct W as [u W]. exists u. now apply parse_json_becomes.
Qed.
