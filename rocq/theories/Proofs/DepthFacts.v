(** Documents that nest too deeply (C96). *)
From Coq Require Import Lia.
From Verif Require Import Model.Prelude Model.Json Model.Types Model.Serde Model.Wire Model.Percent Model.CredentialIssuer
  Spec SpecOffer SpecDocuments SpecJson
  Proofs.StrFacts Proofs.JsonFacts Proofs.GrammarFacts Proofs.AnyDepth Proofs.SerdeFacts Proofs.PercentFacts Proofs.OfferFacts
  Proofs.ResponseFacts Proofs.DocumentFacts.

(** A written document is read as itself or not at all. *)
Lemma read_own sh j v : json_ok j -> parse_doc sh (print j) = Some v -> v = j.
Proof.
  intros Hj H. apply parse_doc_iff in H as (a & t & b & E & Ha & Hb & Hv).
  apply (proj1 texts_mono) with (k := depth j) in Hv.
  pose proof (proj1 texts_read true sh _ t v Hv a b (2 * List.length (print j) + 2)%nat Ha (ends_white_only _ Hb)) as P.
  rewrite <- E in P.
  pose proof (parse_print_value j Hj true sh (2 * List.length (print j) + 2)%nat (S (127 + depth j)) []) as Q.
  rewrite app_nil_r in Q. rewrite Q in P; [|exact I|right; lia|lia].
  assert (POk j [] = POk v b) as R by (apply P; rewrite E, !app_length; lia). now injection R.
Qed.

(** Going one level down in what is read. *)
Lemma members_down : forall sh n t l k v sh',
  members_text true sh n t l -> In (k, v) l -> taken sh k = Some sh' ->
  exists s, value_text true sh' n s v.
Proof.
  intros sh n t l k v sh' H. remember true as w eqn:Ew.
  induction H as [w sh w' sh1 n a k1 key b c s d j Ha Hb Hc Hd Hk Hm Hv
                 |w sh w' sh1 n a k1 key b c s d t j l Ha Hb Hc Hd Hk Hm Hv Hr IH]; subst; intros Hin Ht.
  - destruct Hin as [[= -> ->]|[]]. unfold member_mode in Hm. rewrite Ht in Hm. injection Hm as <- <-. eauto.
  - destruct Hin as [[= -> ->]|Hin]; [|eauto].
    unfold member_mode in Hm. rewrite Ht in Hm. injection Hm as <- <-. eauto.
Qed.

Lemma object_down sh n s l k v sh' :
  value_text true sh n s (JObj l) -> In (k, v) l -> taken sh k = Some sh' ->
  exists m s', n = S m /\ value_text true sh' m s' v.
Proof.
  intros H Hin Ht. inversion H as [| | |? ? ? ? ? Hn| | | |? ? ? m ? D|? ? ? m t ? D M]; subst.
  - inversion Hn.
  - destruct Hin.
  - cbn [deeper] in D. destruct (members_down _ _ _ _ _ _ _ M Hin Ht) as (s' & V). eauto.
Qed.

Lemma elements_down : forall sh i n t l v, elements_text true sh i n t l -> In v l ->
  exists i' s, value_text true (element_mode sh i') n s v.
Proof.
  intros sh i n t l v H. remember true as w eqn:Ew.
  induction H as [w sh i n a s b j Ha Hb Hv|w sh i n a s b t j l Ha Hb Hv Hr IH]; subst; intros Hin.
  - destruct Hin as [<-|[]]. eauto.
  - destruct Hin as [<-|Hin]; eauto.
Qed.

Lemma array_down sh n s l v : value_text true sh n s (JArr l) -> In v l ->
  exists i m s', n = S m /\ value_text true (element_mode sh i) m s' v.
Proof.
  intros H Hin. inversion H as [| | |? ? ? ? ? Hn| |? ? ? m ? D|? ? ? m t ? D M| |]; subst.
  - inversion Hn.
  - destruct Hin.
  - cbn [deeper] in D. destruct (elements_down _ _ _ _ _ _ M Hin) as (i & s' & V). eauto.
Qed.

(** The contexts of a credential are the only part of it that can be deep. *)
Lemma hmap_ok_shallow n k m :
  hmap_ok (value_ok n) m -> (depth (ser_hmap (fun v => v) m) <= S k)%nat -> hmap_ok (value_ok k) m.
Proof.
  intros [W V] D. split; [exact W|]. intros key v Hin. destruct (V key v Hin) as (R & J & Vv & _).
  split; [exact R|]. split; [exact J|]. split; [exact Vv|].
  unfold ser_hmap in D. cbn [depth] in D. rewrite map_map in D. cbn [snd] in D.
  enough (depth v <= list_max (map (fun kv : str * json => depth (snd kv)) m))%nat by lia.
  apply list_max_le_In, in_map_iff. now exists (key, v).
Qed.

Lemma contexts_shallow n k cx :
  Forall (ld_context_ok n) cx -> (depth (ser_list ser_ld_context cx) <= S (S k))%nat ->
  Forall (ld_context_ok k) cx.
Proof.
  intros H D. rewrite Forall_forall in *. intros c Hc. specialize (H c Hc).
  destruct c as [s|m]; cbn [ld_context_ok] in *; [exact H|]. apply hmap_ok_shallow with n; [exact H|].
  unfold ser_list in D. cbn [depth] in D.
  enough (depth (ser_hmap (fun v => v) m) <= list_max (map depth (map ser_ld_context cx)))%nat by lia.
  apply list_max_le_In, in_map_iff. exists (ser_ld_context (LDMap m)). split; [reflexivity|].
  apply in_map_iff. now exists (LDMap m).
Qed.

Lemma cfp_shallow n k c :
  cfp_ok n c -> (forall v, In (lit "@context", v) (cfp_members c) -> (depth v <= S (S k))%nat) -> cfp_ok k c.
Proof.
  intros H D. destruct c as [ty su od|ty su od|cx ty su od|dt cl od]; cbn [cfp_ok] in *; try exact H.
  destruct H as (H1 & H2). split; [|exact H2]. apply contexts_shallow with n; [exact H1|]. apply D.
  unfold cfp_members. apply in_or_app. right. apply in_or_app. left. now left.
Qed.

Lemma cfp_shallow_whole n k c : cfp_ok n c -> (depth (ser_cfp c) <= S (S (S k)))%nat -> cfp_ok k c.
Proof.
  intros H D. apply cfp_shallow with n; [exact H|]. intros v Hv. unfold ser_cfp in D. cbn [depth] in D.
  enough (depth v <= list_max (map (fun kv : str * json => depth (snd kv)) (cfp_members c)))%nat by lia.
  apply list_max_le_In, in_map_iff. now exists (lit "@context", v).
Qed.

(** A document that is read back was written within the limit. *)
Lemma read_text {A : Type} sh j (de : json -> option A) x :
  json_ok j -> opt_bind (parse_doc sh (print j)) de = Some x ->
  exists s, value_text true sh 127 s j.
Proof.
  intros Hj H. destruct (parse_doc sh (print j)) as [v|] eqn:E; [|discriminate].
  pose proof (read_own sh j v Hj E) as ->. apply parse_doc_iff in E as (a & t & b & _ & _ & _ & V). eauto.
Qed.

Lemma credentials_depth k n l : Forall (credential_or_id_ok n) l ->
  (depth (ser_list ser_credential_or_id l) <= 4 + k)%nat -> Forall (credential_or_id_ok k) l.
Proof.
  intros H D. rewrite Forall_forall in *. intros c Hc. specialize (H c Hc).
  destruct c as [s|c]; cbn [credential_or_id_ok] in *; [exact H|]. apply cfp_shallow_whole with n; [exact H|].
  unfold ser_list in D. cbn [depth] in D.
  enough (depth (ser_cfp c) <= list_max (map depth (map ser_credential_or_id l)))%nat by lia.
  apply list_max_le_In, in_map_iff. exists (ser_credential_or_id (Credential c)). split; [reflexivity|].
  apply in_map_iff. now exists (Credential c).
Qed.

Lemma offer_from_json_eq s : offer_from_json s = opt_bind (parse_doc offer_shape s) de_offer.
Proof. reflexivity. Qed.
Lemma offer_to_json_eq o : offer_to_json o = print (ser_offer o).
Proof. reflexivity. Qed.

Lemma offer_depth n o o' : offer_ok n o -> offer_from_json (offer_to_json o) = Some o' -> offer_ok 122 o.
Proof.
  intros H R. pose proof H as (H1 & H2 & H3). split; [exact H1|]. split; [|exact H3].
  rewrite offer_from_json_eq, offer_to_json_eq in R.
  apply read_text in R as (s & V); [|apply (good_offer n o H)].
  assert (exists m s', 127%nat = S m /\ value_text true Whole m s' (ser_list ser_credential_or_id (co_credentials o)))
    as (m & s' & E & V').
  { (refine (object_down offer_shape 127 s _ (lit "credentials") _ Whole V _ eq_refl); right; now left). }
  assert (m = 126%nat) as -> by lia.
  apply (proj1 whole_depth) in V'; [|reflexivity|reflexivity].
  apply credentials_depth with n; [exact H2|]. lia.
Qed.

Lemma offer_exactly n o : offer_ok n o ->
  (offer_ok 122 o -> offer_from_json (offer_to_json o) = Some o)
  /\ (~ offer_ok 122 o -> offer_from_json (offer_to_json o) = None).
Proof.
  intros H. split.
  - intros K. now apply offer_json_rt with 122%nat.
  - intros K. destruct (offer_from_json (offer_to_json o)) as [o'|] eqn:E; [|reflexivity].
    exfalso. now apply K, (offer_depth n o o').
Qed.

Lemma request_exactly n r : request_ok n r ->
  (request_ok 124 r -> credential_request_from_json (credential_request_to_json r) = Some r)
  /\ (~ request_ok 124 r -> credential_request_from_json (credential_request_to_json r) = None).
Proof.
  intros H. split; [intros K; now apply request_json_rt with 124%nat|].
  intros K. destruct (credential_request_from_json (credential_request_to_json r)) as [r'|] eqn:E; [|reflexivity].
  exfalso. apply K. pose proof H as (H1 & H2). split; [|exact H2].
  unfold credential_request_from_json, credential_request_to_json in E.
  apply read_text in E as (s & V); [|apply (good_request n r H)]. unfold ser_request in V.
  apply cfp_shallow with n; [exact H1|]. intros v Hv.
  apply object_down with (k := lit "@context") (v := v) (sh' := Whole) in V;
    [|apply in_or_app; left; exact Hv|reflexivity].
  destruct V as (m & s' & [= <-] & V). now apply (proj1 whole_depth) in V.
Qed.

Lemma success_exactly n r : credential_success_ok n r ->
  (credential_success_ok 122 r -> credential_success_from_json (credential_success_to_json r) = Some r)
  /\ (~ credential_success_ok 122 r -> credential_success_from_json (credential_success_to_json r) = None).
Proof.
  intros H. split; [intros K; now apply credential_success_json_rt with 122%nat|].
  intros K. destruct (credential_success_from_json (credential_success_to_json r)) as [r'|] eqn:E; [|reflexivity].
  exfalso. apply K. pose proof H as (H1 & H2 & H3). split; [exact H1|]. split; [|exact H3].
  intros c Hc. specialize (H2 c Hc). destruct c as [c|s]; [|exact H2]. cbn [cfp_or_encoded_ok] in *.
  unfold credential_success_from_json, credential_success_to_json, parse_struct in E.
  apply read_text in E as (s & V); [|apply (good_credential_success n r H)]. unfold ser_credential_success in V.
  rewrite Hc in V. cbn [ser_opt ser_cfp_or_encoded] in V.
  apply object_down with (k := lit "credential") (v := JObj (field "CredentialFormatProfile" (ser_cfp c))) (sh' := Whole) in V;
    [|apply in_or_app; right; apply in_or_app; left; now left|reflexivity].
  destruct V as (m & s' & [= <-] & V). apply (proj1 whole_depth) in V; [|reflexivity|reflexivity].
  apply cfp_shallow_whole with n; [exact H2|]. unfold field in V. cbn [depth map snd list_max fold_right] in V. lia.
Qed.

Lemma cfp_to_json_eq c : cfp_to_json c = print (ser_cfp c).
Proof. reflexivity. Qed.

Lemma cfp_exactly n c : cfp_ok n c ->
  (cfp_ok 124 c -> cfp_from_json (cfp_to_json c) = Some c)
  /\ (~ cfp_ok 124 c -> cfp_from_json (cfp_to_json c) = None).
Proof.
  intros H. split.
  - intros K. unfold cfp_from_json, parse_json. rewrite cfp_to_json_eq.
    rewrite (read_written (max 5 (3 + 124))); [|now apply good_cfp|lia]. now apply cfp_rt with 124%nat.
  - intros K. destruct (cfp_from_json (cfp_to_json c)) as [c'|] eqn:E; [|reflexivity].
    exfalso. apply K. unfold cfp_from_json, parse_json in E. rewrite cfp_to_json_eq in E.
    apply read_text in E as (s & V); [|apply (good_cfp n c H)].
    apply (proj1 whole_depth) in V; [|reflexivity|reflexivity]. apply cfp_shallow_whole with n; [exact H|exact V].
Qed.

(* ---------------- issuer metadata ---------------- *)

Lemma good_metadata_parts n a m : metadata_ok (max n a) m ->
  Forall (supported_ok n) (im_credentials_supported m) ->
  on_some (hmap_ok (value_ok a)) (im_additional_fields m) ->
  jgood (max 7 (max (5 + n) (1 + a))) (ser_metadata m).
Proof.
  intros (H1 & H2 & H3 & H4 & _) H5 H6. unfold ser_metadata.
  eapply jgood_mono; [|apply (jgood_obj (max 6 (max (4 + n) a)))]; [lia|].
  jfields; try now apply good_opt_str.
  - now apply jgood_str.
  - now apply jgood_str.
  - eapply jgood_mono; [|apply jgood_ser_list]; [|eapply Forall_impl; [|exact H5]; apply good_supported]. lia.
  - destruct (im_additional_fields m) as [x|] eqn:E; [|constructor].
    destruct (H6 x eq_refl) as [_ H]. rewrite Forall_forall. intros [k v] Hin.
    destruct (H k v Hin) as [Hk Hv]. split; [exact Hk|]. eapply jgood_mono; [|apply good_value, Hv]. lia.
Qed.

Lemma value_ok_mono n k v : (n <= k)%nat -> value_ok n v -> value_ok k v.
Proof. intros L (A & B & C). split; [exact A|]. split; [exact B|]. lia. Qed.

Lemma hmap_ok_mono n k m : (n <= k)%nat -> hmap_ok (value_ok n) m -> hmap_ok (value_ok k) m.
Proof.
  intros L [W V]. split; [exact W|]. intros key v Hin. destruct (V key v Hin) as [R O]. split; [exact R|].
  now apply value_ok_mono with n.
Qed.

Lemma cfp_ok_mono n k c : (n <= k)%nat -> cfp_ok n c -> cfp_ok k c.
Proof.
  intros L H. destruct c as [ty su od|ty su od|cx ty su od|dt cl od]; cbn [cfp_ok] in *; try exact H.
  destruct H as (H1 & H2). split; [|exact H2]. eapply Forall_impl; [|exact H1].
  intros [s|m] Hc; cbn [ld_context_ok] in *; [exact Hc|]. now apply hmap_ok_mono with n.
Qed.

Lemma supported_ok_mono n k s : (n <= k)%nat -> supported_ok n s -> supported_ok k s.
Proof. intros L (H1 & H2). split; [|exact H2]. now apply cfp_ok_mono with n. Qed.

Lemma metadata_ok_mono n k m : (n <= k)%nat -> metadata_ok n m -> metadata_ok k m.
Proof.
  intros L (H1 & H2 & H3 & H4 & H5 & H6). repeat (split; [assumption|]). split.
  - eapply Forall_impl; [|exact H5]. intros s. now apply supported_ok_mono.
  - intros a Ha. specialize (H6 a Ha). now apply hmap_ok_mono with n.
Qed.

Lemma metadata_to_json_eq m : metadata_to_json m = print (ser_metadata m).
Proof. reflexivity. Qed.

Lemma metadata_from_json_eq s : metadata_from_json s = opt_bind (parse_doc metadata_shape s) de_metadata.
Proof. reflexivity. Qed.

Lemma metadata_read_back_eq n m :
  metadata_ok n m -> (forall a k, im_additional_fields m = Some a -> In k (map fst a) -> ~ names_metadata k) ->
  de_metadata (ser_metadata m)
  = Some (with_additional m match im_additional_fields m with Some a => a | None => [] end).
Proof.
  intros H Hk. destruct (im_additional_fields m) as [a|] eqn:E.
  - rewrite (metadata_rt n m a H E).
    + destruct m. cbn in *. subst. reflexivity.
    + intros k Hin. rewrite <- metadata_names_fields. now apply (Hk a).
  - assert (ser_metadata m = ser_metadata (with_additional m [])) as ->.
    { unfold ser_metadata. cbn. now rewrite E. }
    apply (metadata_rt n (with_additional m []) []); [|reflexivity|intros k []].
    destruct H as (H1 & H2 & H3 & H4 & H5 & _). repeat (split; [assumption|]).
    intros a [= <-]. split; [constructor|]. intros k v [].
Qed.

Lemma metadata_exactly n m : metadata_ok n m ->
  (forall a k, im_additional_fields m = Some a -> In k (map fst a) -> ~ names_metadata k) ->
  (shallow_metadata m -> metadata_from_json (metadata_to_json m)
     = Some (with_additional m match im_additional_fields m with Some a => a | None => [] end))
  /\ (~ shallow_metadata m -> metadata_from_json (metadata_to_json m) = None).
Proof.
  intros H Hk. split.
  - intros [S1 S2]. rewrite metadata_from_json_eq, metadata_to_json_eq.
    rewrite (read_written (max 7 (max (5 + 122) (1 + 126)))); [|apply good_metadata_parts; try assumption|lia].
    + cbn [opt_bind]. now apply metadata_read_back_eq with n.
    + destruct H as (H1 & H2 & H3 & H4 & _). repeat (split; [assumption|]). split.
      * eapply Forall_impl; [|exact S1]. intros s. apply supported_ok_mono. lia.
      * exact S2.
  - intros K. destruct (metadata_from_json (metadata_to_json m)) as [m'|] eqn:E; [|reflexivity]. exfalso. apply K.
    rewrite metadata_from_json_eq, metadata_to_json_eq in E.
    apply read_text in E as (s & V); [|apply (good_metadata n m H)]. unfold ser_metadata in V.
    destruct H as (_ & _ & _ & _ & H5 & H6). split.
    + rewrite Forall_forall in *. intros c Hc. specialize (H5 c Hc). destruct H5 as [C5 R5]. split; [|exact R5].
      apply cfp_shallow with n; [exact C5|]. intros v Hv.
      apply object_down with (k := lit "credentials_supported")
          (v := ser_list ser_supported (im_credentials_supported m)) (sh' := ListOf supported_shape) in V;
        [|do 4 (apply in_or_app; right); apply in_or_app; left; now left|reflexivity].
      destruct V as (l1 & s1 & E1 & V).
      apply array_down with (v := ser_supported c) in V; [|apply in_map_iff; now exists c].
      destruct V as (i & l2 & s2 & E2 & V). cbn [element_mode] in V. unfold ser_supported in V.
      apply object_down with (k := lit "@context") (v := v) (sh' := Whole) in V;
        [|apply in_or_app; left; exact Hv|reflexivity].
      destruct V as (l3 & s3 & E3 & V). apply (proj1 whole_depth) in V; [|reflexivity|reflexivity]. lia.
    + intros a Ha. specialize (H6 a Ha). destruct H6 as [W6 V6]. split; [exact W6|].
      intros k v Hin. destruct (V6 k v Hin) as (R & J & Vv & _). split; [exact R|]. split; [exact J|]. split; [exact Vv|].
      rewrite Ha in V.
      assert (taken metadata_shape k = Some Whole) as T.
      { unfold metadata_shape, taken. destruct (listed _ k) as [s'|] eqn:L; [|reflexivity]. exfalso.
        apply (Hk a k Ha); [now apply in_map with (f := fst) in Hin|]. apply metadata_names_fields.
        unfold metadata_fields. revert L. cbn [listed In].
        repeat (destruct (list_eq_dec ascii_dec k _) as [->|]; [tauto|]). discriminate. }
      apply object_down with (k := k) (v := v) (sh' := Whole) in V;
        [|do 5 (apply in_or_app; right); exact Hin|exact T].
      destruct V as (l1 & s1 & E1 & V). apply (proj1 whole_depth) in V; [|reflexivity|reflexivity]. lia.
Qed.

(* ---------------- created offers ---------------- *)

Lemma created_offer_exactly m creds ep a p o url n :
  create_offer m creds ep a p = Ok (o, url) ->
  rust_string (im_credential_issuer m) -> Forall (credential_or_id_ok n) creds -> on_some preauth_flow_ok p ->
  exists payload text,
    url = offer_url_prefix ep ++ payload /\ percent_decoded payload text
    /\ (forall text', percent_decoded payload text' -> text' = text)
    /\ (Forall (credential_or_id_ok 122) creds -> offer_from_json text = Some o)
    /\ (~ Forall (credential_or_id_ok 122) creds -> offer_from_json text = None).
Proof.
  intros H H1 H2 H3. pose proof (created_offer_ok _ _ _ _ _ _ _ n H H1 H2 H3) as Ho.
  pose proof (created_offer_ok _ _ _ _ _ _ _ 122 H H1) as Ho'.
  pose proof (create_offer_content _ _ _ _ _ _ _ H) as (_ & C & _).
  apply create_offer_ok in H as (_ & _ & _ & _ & ->).
  exists (url_encode (offer_to_json o)), (offer_to_json o). split; [reflexivity|].
  split; [apply percent_decoded_encode|]. split; [intros t Ht; now apply percent_encoding in Ht|].
  destruct (offer_exactly n o Ho) as [A B]. split.
  - intros K. apply A, Ho'; assumption.
  - intros K. apply B. intros (_ & K' & _). rewrite C in K'. now apply K.
Qed.

(** A value of any depth. *)
Fixpoint tower (n : nat) : json := match n with O => JNull | S k => JArr [tower k] end.

Lemma tower_depth n : depth (tower n) = n.
Proof. induction n as [|n IH]; [reflexivity|]. cbn [tower depth map list_max fold_right]. rewrite IH. lia. Qed.

Lemma tower_ok n : value_ok n (tower n).
Proof.
  split; [|split; [|rewrite tower_depth; lia]].
  - induction n as [|n IH]; cbn [tower]; constructor. intros x [<-|[]]. exact IH.
  - induction n as [|n IH]; cbn [tower]; constructor. intros x [<-|[]]. exact IH.
Qed.

Lemma tower_context_ok n : cfp_ok n (LdpVc [LDMap [(lit "a", tower n)]] [] None None).
Proof.
  cbn [cfp_ok]. split; [|split; [constructor|split; intros x [=]]]. constructor; [|constructor].
  cbn [ld_context_ok]. split; [repeat constructor; intros []|]. intros k v [[= <- <-]|[]].
  split; [now apply rust_string_ascii|]. apply tower_ok.
Qed.

Lemma tower_context_deep n k : (k < n)%nat -> ~ cfp_ok k (LdpVc [LDMap [(lit "a", tower n)]] [] None None).
Proof.
  intros L (H & _). inversion H as [|c l Hc _]; subst. destruct Hc as [_ V].
  destruct (V _ _ (or_introl eq_refl)) as (_ & _ & _ & D). rewrite tower_depth in D. lia.
Qed.
