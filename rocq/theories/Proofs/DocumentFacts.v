(** Proofs about stored and exchanged documents. *)
From Coq Require Import Lia ZifyBool ZifyN ZifyNat.
From Verif Require Import Model.Prelude Model.Utf8 Model.Json Model.Types Model.Deps Model.Serde Model.CredentialIssuer Model.Wire
  Model.SerdeOptions Spec SpecToken SpecJwt SpecDocuments
  Proofs.StrFacts Proofs.Utf8Facts Proofs.JsonFacts Proofs.ReaderFacts Proofs.KeptFacts Proofs.SerdeFacts Proofs.JwtFacts
  Proofs.EvalFacts3.

(* ---------------- options ---------------- *)

Lemma token_options_json_rt o :
  token_options_ok o -> token_options_from_json (token_options_to_json o) = Some o.
Proof.
  intros H. unfold token_options_from_json, token_options_to_json, parse_struct.
  rewrite (read_written 1); [| |lia].
  - cbn [opt_bind]. unfold de_token_options, ser_token_options, token_options_fields. eval_fields.
    rewrite opt_u64_rt by exact H. destruct o; reflexivity.
  - unfold ser_token_options. apply jgood_obj. jfields. apply jgood_ser_opt.
    eapply on_some_impl; [|exact H]. apply jgood_N.
Qed.

Lemma c_nonce_json_rt n : c_nonce_ok n -> c_nonce_from_json (c_nonce_to_json n) = Some n.
Proof.
  intros [H1 H2]. unfold c_nonce_from_json, c_nonce_to_json, parse_struct.
  rewrite (read_written 1); [| |lia].
  - cbn [opt_bind]. unfold de_c_nonce, ser_c_nonce, c_nonce_fields. eval_fields.
    cbn [req de_str opt_bind]. rewrite opt_u32_rt by exact H2. destruct n; reflexivity.
  - unfold ser_c_nonce. apply jgood_obj. jfields; [now apply jgood_str|now apply good_opt_u32].
Qed.

Lemma instant_rt d t : dt_round_trips d -> in_instant_range t = true -> de_instant d (ser_instant d t) = Some t.
Proof. intros Hd H. cbn. now apply Hd. Qed.

Lemma c_nonce_options_rt d o : dt_round_trips d -> c_nonce_options_ok o ->
  de_c_nonce_options d (ser_c_nonce_options d o) = Some o.
Proof.
  intros Hd (H1 & H2 & H3). unfold de_c_nonce_options, ser_c_nonce_options, c_nonce_options_fields.
  eval_fields. cbn [req de_str opt_bind]. rewrite de_u32_rt by exact H1. cbn [opt_bind].
  rewrite instant_rt by assumption. destruct o; reflexivity.
Qed.

Lemma good_c_nonce_options d o : dt_round_trips d -> c_nonce_options_ok o -> jgood 1 (ser_c_nonce_options d o).
Proof.
  intros Hd (H1 & H2 & H3). unfold ser_c_nonce_options. apply jgood_obj. jfields.
  - apply jgood_N. now apply u32_u64.
  - now apply jgood_str.
  - apply jgood_str. now apply Hd.
Qed.

Lemma eval_options_json_rt d o : dt_round_trips d -> eval_options_ok o ->
  eval_options_from_json d (eval_options_to_json d o) = Some o.
Proof.
  intros Hd [H1 H2]. unfold eval_options_from_json, eval_options_to_json, parse_struct.
  rewrite (read_written 2); [| |lia].
  - cbn [opt_bind]. unfold de_eval_options, ser_eval_options, eval_options_fields.
    match goal with |- context [fields_of ?a ?b] =>
      let r := eval cbv -[ser_opt ser_c_nonce_options] in (fields_of a b) in change (fields_of a b) with r end.
    cbv iota. rewrite (opt_ser_opt (ser_c_nonce_options d) (de_c_nonce_options d)).
    + cbn [opt_bind]. rewrite opt_str_rt. destruct o; reflexivity.
    + intros c Hc. split; [apply c_nonce_options_rt; auto|discriminate].
  - unfold ser_eval_options. apply jgood_obj. jfields.
    + apply jgood_ser_opt. intros c Hc. apply good_c_nonce_options; auto.
    + now apply good_opt_str.
Qed.

Lemma proof_jwt_json_rt d j : dt_round_trips d -> proof_jwt_ok j ->
  proof_jwt_from_json d (proof_jwt_to_json d j) = Some j.
Proof.
  intros Hd (H1 & H2 & H3 & H4). unfold proof_jwt_from_json, proof_jwt_to_json, parse_struct.
  rewrite (read_written 2); [| |lia].
  - cbn [opt_bind]. unfold de_proof_jwt, ser_proof_jwt, proof_jwt_fields.
    match goal with |- context [fields_of ?a ?b] =>
      let r := eval cbv -[ser_opt ser_header ser_body] in (fields_of a b) in change (fields_of a b) with r end.
    cbv iota. cbn [req]. rewrite header_rt. cbn [opt_bind]. rewrite body_rt by assumption. cbn [opt_bind].
    rewrite opt_str_rt. destruct j; reflexivity.
  - unfold ser_proof_jwt. apply jgood_obj. jfields.
    + now apply good_header.
    + now apply good_body.
    + now apply good_opt_str.
Qed.

(* ---------------- credential requests ---------------- *)

Lemma request_json_rt n r : request_ok n r -> (n <= 124)%nat ->
  credential_request_from_json (credential_request_to_json r) = Some r.
Proof.
  intros H Hn. unfold credential_request_from_json, credential_request_to_json, parse_json.
  rewrite (read_written (max 5 (3 + n))); [|now apply good_request|lia]. now apply request_rt with n.
Qed.

Lemma de_proof_obj m p : de_proof (JObj m) = Some p <->
  ((no_member m "proof_type" /\ rp_proof_type p = lit "JWT") \/ only_member m "proof_type" (JStr (rp_proof_type p)))
  /\ only_member m "jwt" (JStr (rp_jwt p)).
Proof.
  unfold de_proof. cbn [fields_of map_opt]. split.
  - destruct (get_unique (lit "proof_type") m) as [a|] eqn:E1; [|discriminate].
    destruct (get_unique (lit "jwt") m) as [b|] eqn:E2; [|discriminate]. intros H.
    destruct a as [a|].
    + destruct (de_str a) as [t|] eqn:Ea; [|discriminate]. cbn [opt_bind] in H.
      apply de_str_iff in Ea. subst a.
      destruct b as [b|]; [|discriminate]. cbn [req] in H.
      destruct (de_str b) as [j|] eqn:Eb; [|discriminate]. cbn [opt_bind] in H.
      apply de_str_iff in Eb. subst b. injection H as <-. cbn [rp_proof_type rp_jwt].
      split; [right|]; now apply get_unique_only.
    + cbn [opt_bind] in H. destruct b as [b|]; [|discriminate]. cbn [req] in H.
      destruct (de_str b) as [j|] eqn:Eb; [|discriminate]. cbn [opt_bind] in H.
      apply de_str_iff in Eb. subst b. injection H as <-. cbn [rp_proof_type rp_jwt].
      split; [left; split; [now apply get_unique_absent|reflexivity]|now apply get_unique_only].
  - intros [[[H1 H1']|H1] H2]; apply get_unique_only in H2; rewrite H2.
    + apply get_unique_absent in H1. rewrite H1. cbn [opt_bind req de_str].
      destruct p. cbn in *. subst. reflexivity.
    + apply get_unique_only in H1. rewrite H1. cbn [opt_bind req de_str]. destruct p; reflexivity.
Qed.

Lemma de_proof_iff v p : de_proof v = Some p <-> proof_value v p.
Proof.
  destruct v as [|b|z|f|t|l|m].
  1-5: split; [discriminate|intros H; inversion H].
  - unfold de_proof. cbn [fields_of]. destruct l as [|a [|b [|c l]]]; cbn [List.length Nat.eqb map].
    1,2,4: split; [discriminate|intros H; inversion H].
    split.
    + destruct (de_str a) eqn:Ea; [|discriminate]. cbn [opt_bind req]. destruct (de_str b) eqn:Eb; [|discriminate].
      apply de_str_iff in Ea, Eb. subst. cbn [opt_bind]. intros [= <-]. constructor.
    + intros H. inversion H; subst. reflexivity.
  - rewrite de_proof_obj. split.
    + intros [[[H1 H2]|H1] H3]; destruct p as [t j]; cbn [rp_proof_type rp_jwt] in *.
      * subst t. now constructor.
      * now constructor.
    + intros H. inversion H; subst; cbn [rp_proof_type rp_jwt]; tauto.
Qed.

Lemma request_proof_read s m r : parse_json s = Some (JObj m) -> credential_request_from_json s = Some r ->
  optional_member m "proof" proof_value (cr_proof r).
Proof.
  intros Hs. unfold credential_request_from_json. rewrite (respects_parsed _ _ s _ respects_request Hs). cbn [de_request].
  destruct (get_unique (lit "proof") m) as [g|] eqn:Eg; [|discriminate]. cbn [opt_bind].
  destruct (opt de_proof g) as [p|] eqn:Ep; [|discriminate]. cbn [opt_bind].
  destruct (de_cfp_buffered _); [|discriminate]. cbn [opt_bind]. intros [= <-]. cbn [cr_proof].
  apply (opt_member m "proof" de_proof proof_value) with (g := g) in Ep; auto.
  - intros v a. apply de_proof_iff.
  - intros a H2. inversion H2.
Qed.

(* ---------------- token requests ---------------- *)

Lemma de_u64_iff v n : de_u64 v = Some n <-> integer_value (2 ^ 64) v n.
Proof.
  unfold integer_value. change (2 ^ 64) with 18446744073709551616. split.
  - destruct v; try discriminate. unfold de_u64, de_uint.
    destruct ((0 <=? z) && (z <? Z.of_N 18446744073709551616))%Z eqn:E; [|discriminate].
    intros [= <-]. apply andb_true_iff in E. split; [f_equal|]; lia.
  - intros [-> H]. apply de_uint_rt. exact H.
Qed.

Lemma get_unique_filtered k t m : str_eqb t k = false ->
  get_unique k (filter (fun kv : str * json => negb (str_eqb t (fst kv))) m) = get_unique k m.
Proof.
  intros H. unfold get_unique.
  assert (filter (fun kv => str_eqb k (fst kv)) (filter (fun kv : str * json => negb (str_eqb t (fst kv))) m)
          = filter (fun kv => str_eqb k (fst kv)) m) as ->; [|reflexivity].
  induction m as [|[k' v] m IH]; [reflexivity|]. cbn [filter fst].
  destruct (str_eqb k k') eqn:E.
  - apply str_eqb_eq in E. subst k'. rewrite H. cbn [negb filter fst]. rewrite str_eqb_refl. now rewrite IH.
  - destruct (str_eqb t k'); cbn [negb filter fst]; [exact IH|]. now rewrite E.
Qed.

Lemma de_grant_type_obj m g : de_grant_type (JObj m) = Some g <-> grant_of m g.
Proof.
  unfold de_grant_type, split_tag.
  assert (forall body, fields_of [lit "pre_authorized_code"; lit "user_pin"]
    (JObj (filter (fun kv : str * json => negb (str_eqb (lit "grant_type") (fst kv))) body))
    = fields_of [lit "pre_authorized_code"; lit "user_pin"] (JObj body)) as HF.
  { intros body. cbn [fields_of map_opt]. now rewrite !get_unique_filtered. }
  split.
  - destruct (get_unique (lit "grant_type") m) as [[v|]|] eqn:E; try discriminate.
    destruct v as [| | | |t| |]; try discriminate. cbn [tag_name opt_bind]. apply get_unique_only in E.
    destruct (str_eqb t grant_authorization_code) eqn:Et.
    + apply str_eqb_eq in Et. subst t. intros [= <-]. now constructor.
    + destruct (str_eqb t grant_pre_authorized) eqn:Et2; [|discriminate].
      apply str_eqb_eq in Et2. subst t. rewrite HF. cbn [fields_of map_opt].
      destruct (get_unique (lit "pre_authorized_code") m) as [a|] eqn:Ea; [|discriminate].
      destruct (get_unique (lit "user_pin") m) as [b|] eqn:Eb; [|discriminate].
      destruct (req de_str a) as [c|] eqn:Ec; [|discriminate]. cbn [opt_bind].
      destruct (opt de_u64 b) as [p|] eqn:Ep; [|discriminate]. cbn [opt_bind]. intros [= <-].
      apply (req_member m "pre_authorized_code" de_str c a Ea) in Ec. destruct Ec as (v & Ev & Hv). apply de_str_iff in Hv. subst v.
      constructor; [exact E|exact Ev|].
      apply (opt_member m "user_pin" de_u64 (integer_value (2 ^ 64))) with (g := b); auto.
      * intros v n. apply de_u64_iff.
      * intros n [H _]. discriminate.
  - intros [H|code pin H1 H2 H3].
    + apply get_unique_only in H. rewrite H. reflexivity.
    + apply get_unique_only in H1. rewrite H1. cbn [tag_name opt_bind].
      replace (str_eqb _ grant_authorization_code) with false by reflexivity.
      replace (str_eqb _ grant_pre_authorized) with true by reflexivity.
      rewrite HF. cbn [fields_of map_opt]. apply get_unique_only in H2. rewrite H2. cbn [opt_bind].
      assert (exists g, get_unique (lit "user_pin") m = Some g) as [g1 Eg].
      { destruct pin as [p|]; cbn [optional_member] in H3.
        - destruct H3 as (v & H3 & _). apply get_unique_only in H3. eauto.
        - destruct H3 as [H3|H3]; [apply get_unique_absent in H3|apply get_unique_only in H3]; eauto. }
      rewrite Eg. cbn [req de_str opt_bind].
      apply (opt_member m "user_pin" de_u64 (integer_value (2 ^ 64))) with (g := g1) in H3; auto.
      * rewrite H3. reflexivity.
      * intros v n. apply de_u64_iff.
      * intros n [Hx _]. discriminate.
Qed.

Lemma token_request_read s m inner r :
  parse_json s = Some (JObj m) -> only_member m "grant_type" (JObj inner) ->
  token_request_from_json s = Some r <-> grant_of inner (tr_grant_type r).
Proof.
  intros H Hm. unfold token_request_from_json.
  apply (struct_kept [lit "grant_type"]) in H.
  destruct H as (m' & -> & Hs). cbn [opt_bind]. unfold de_token_request.
  rewrite <- (fields_of_kept [lit "grant_type"] [lit "grant_type"] m m' (incl_refl _) Hs).
  cbn [fields_of map_opt]. apply get_unique_only in Hm. rewrite Hm. cbn [opt_bind req].
  rewrite <- de_grant_type_obj. split.
  - destruct (de_grant_type (JObj inner)); [|discriminate]. cbn [opt_bind]. now intros [= <-].
  - intros ->. cbn [opt_bind]. destruct r; reflexivity.
Qed.

Lemma text_pin_rejected s m inner p :
  parse_json s = Some (JObj m) -> only_member m "grant_type" (JObj inner) ->
  only_member inner "grant_type" (JStr (lit "urn:ietf:params:oauth:grant-type:pre-authorized_code")) ->
  only_member inner "user_pin" (JStr p) -> token_request_from_json s = None.
Proof.
  intros Hs Hm Ht Hp. destruct (token_request_from_json s) as [r|] eqn:E; [exfalso|reflexivity].
  apply (token_request_read s m inner r Hs Hm) in E. apply get_unique_only in Ht, Hp.
  destruct E as [H|code pin H1 H2 H3].
  - apply get_unique_only in H. rewrite H in Ht. discriminate.
  - destruct pin as [pin|]; cbn [optional_member] in H3.
    + destruct H3 as (v & H3 & -> & _). apply get_unique_only in H3. rewrite H3 in Hp. discriminate.
    + destruct H3 as [H3|H3]; [apply get_unique_absent in H3|apply get_unique_only in H3];
        rewrite H3 in Hp; discriminate.
Qed.

(* ---------------- issuer metadata ---------------- *)

Lemma metadata_names_fields k : names_metadata k <-> In k metadata_fields.
Proof.
  unfold names_metadata, metadata_names, metadata_fields. cbn [In]. split.
  - intros (n & H & ->). intuition (subst; auto).
  - intros [<-|[<-|[<-|[<-|[<-|[]]]]]]; eexists; (split; [|reflexivity]); tauto.
Qed.

Lemma map_opt_Forall2 {A B} (f : A -> option B) l l' :
  map_opt f l = Some l' <-> Forall2 (fun a b => f a = Some b) l l'.
Proof.
  revert l'. induction l as [|a l IH]; intros l'; cbn [map_opt].
  - split; [intros [= <-]; constructor|]. intros H. now inversion H.
  - split.
    + destruct (f a) as [b|] eqn:E; [|discriminate]. cbn [opt_bind].
      destruct (map_opt f l) as [l2|] eqn:E2; [|discriminate]. cbn [opt_bind]. intros [= <-].
      constructor; [exact E|]. now apply IH.
    + intros H. inversion H as [|? b ? l2 Ha Hl]; subst. rewrite Ha. cbn [opt_bind].
      apply IH in Hl. now rewrite Hl.
Qed.

Lemma metadata_written n m sh :
  metadata_ok n m -> (n <= 122)%nat -> parse_doc sh (metadata_to_json m) = Some (ser_metadata m).
Proof.
  intros H Hn. unfold metadata_to_json.
  rewrite (read_written (max 7 (5 + n))); [reflexivity|now apply good_metadata|lia].
Qed.

Lemma metadata_json_rt n m :
  metadata_ok n m -> (n <= 122)%nat ->
  (forall a k, im_additional_fields m = Some a -> In k (map fst a) -> ~ names_metadata k) ->
  metadata_from_json (metadata_to_json m)
  = Some (with_additional m match im_additional_fields m with Some a => a | None => [] end).
Proof.
  intros H Hn Hk. unfold metadata_from_json. rewrite (metadata_written n) by assumption. cbn [opt_bind].
  destruct (im_additional_fields m) as [a|] eqn:E.
  - rewrite (metadata_rt n m a H E).
    + destruct m. cbn in *. subst. reflexivity.
    + intros k Hin. rewrite <- metadata_names_fields. now apply (Hk a).
  - assert (ser_metadata m = ser_metadata (with_additional m [])) as ->.
    { unfold ser_metadata. cbn. now rewrite E. }
    apply (metadata_rt n (with_additional m []) []); [|reflexivity|intros k []].
    destruct H as (H1 & H2 & H3 & H4 & H5 & _). repeat (split; [assumption|]).
    intros a [= <-]. split; [constructor|]. intros k v [].
Qed.

Lemma count_two_get_unique k m : (2 <= count_occ (list_eq_dec ascii_dec) (map fst m) k)%nat -> get_unique k m = None.
Proof.
  rewrite count_filter. unfold get_unique.
  destruct (filter (fun kv => str_eqb k (fst kv)) m) as [|[k1 v1] [|x l]]; cbn [List.length]; try lia. reflexivity.
Qed.

Lemma map_opt_none {A B} (f : A -> option B) l x : In x l -> f x = None -> map_opt f l = None.
Proof.
  induction l as [|a l IH]; [intros []|]. cbn [map_opt In]. intros [->|H] E.
  - now rewrite E.
  - destruct (f a); [|reflexivity]. cbn [opt_bind]. now rewrite IH.
Qed.

Lemma metadata_collision n m a k :
  metadata_ok n m -> (n <= 122)%nat -> im_additional_fields m = Some a -> In k (map fst a) -> names_metadata k ->
  metadata_from_json (metadata_to_json m) = None.
Proof.
  intros H Hn Ea Hk Hk2. unfold metadata_from_json. rewrite (metadata_written n) by assumption. cbn [opt_bind].
  apply metadata_names_fields in Hk2. unfold ser_metadata. rewrite Ea.
  cbn [de_metadata fields_of].
  rewrite (map_opt_none _ metadata_fields k); [reflexivity|exact Hk2|].
  apply count_two_get_unique. rewrite !app_assoc, map_app, count_occ_app.
  apply (count_occ_In (list_eq_dec ascii_dec)) in Hk.
  match goal with |- (2 <= count_occ _ ?l k + _)%nat => assert (In k l) as Hin end.
  { cbn. cbn in Hk2. tauto. }
  apply (count_occ_In (list_eq_dec ascii_dec)) in Hin. unfold str in *. lia.
Qed.

Lemma hmap_insert_keys {V} k (v : V) m x : In x (map fst (hmap_insert k v m)) <-> x = k \/ In x (map fst m).
Proof.
  induction m as [|[k' v'] m IH]; cbn [hmap_insert map fst In]; [intuition congruence|].
  destruct (str_eqb k k') eqn:E; cbn [map fst In].
  - apply str_eqb_eq in E. subst k'. intuition congruence.
  - rewrite IH. tauto.
Qed.

Lemma hmap_insert_wf {V} k (v : V) m : NoDup (map fst m) -> NoDup (map fst (hmap_insert k v m)).
Proof.
  induction m as [|[k' v'] m IH]; cbn [hmap_insert map fst]; [intros _; repeat constructor; intros []|].
  destruct (str_eqb k k') eqn:E; cbn [map fst]; intros H; inversion H as [|? ? H1 H2]; subst.
  - apply str_eqb_eq in E. subst k'. now constructor.
  - constructor; [|now apply IH]. rewrite hmap_insert_keys. intros [->|Hx]; [|contradiction].
    rewrite str_eqb_refl in E. discriminate.
Qed.

Lemma hmap_insert_same {V} k (v : V) m : In (k, v) (hmap_insert k v m).
Proof.
  induction m as [|[k' v'] m IH]; cbn [hmap_insert]; [now left|].
  destruct (str_eqb k k') eqn:E; [|now right]. apply str_eqb_eq in E. subst k'. now left.
Qed.

Lemma hmap_insert_other {V} k (v : V) m x y : x <> k -> In (x, y) m -> In (x, y) (hmap_insert k v m).
Proof.
  intros N. induction m as [|[k' v'] m IH]; cbn [hmap_insert]; [intros []|].
  destruct (str_eqb k k') eqn:E; intros [H|H].
  - apply str_eqb_eq in E. congruence.
  - now right.
  - now left.
  - right. auto.
Qed.

Lemma fold_insert_facts {V} (l acc : list (str * V)) :
  NoDup (map fst acc) ->
  let r := fold_left (fun acc kv => hmap_insert (fst kv) (snd kv) acc) l acc in
  NoDup (map fst r)
  /\ (forall k, In k (map fst r) <-> In k (map fst acc) \/ In k (map fst l))
  /\ (forall k v, In (k, v) acc -> ~ In k (map fst l) -> In (k, v) r)
  /\ (forall k v, In (k, v) l -> count_occ (list_eq_dec ascii_dec) (map fst l) k = 1%nat -> In (k, v) r).
Proof.
  revert acc. induction l as [|[k0 v0] l IH]; intros acc Hn; cbn [fold_left map fst snd].
  - split; [exact Hn|]. split; [intros k; cbn; tauto|]. split; [auto|]. intros k v [].
  - destruct (IH (hmap_insert k0 v0 acc) (hmap_insert_wf k0 v0 acc Hn)) as (R1 & R2 & R3 & R4).
    split; [exact R1|]. split; [|split].
    + intros k. rewrite R2, hmap_insert_keys. cbn [In]. intuition congruence.
    + intros k v Hin Hk. cbn [In] in Hk. apply R3; [|tauto]. apply hmap_insert_other; [intuition congruence|exact Hin].
    + intros k v Hin Hc. cbn [count_occ] in Hc. destruct (list_eq_dec ascii_dec k0 k) as [->|N].
      * assert (~ In k (map fst l)) as Hk by (apply (count_occ_not_In (list_eq_dec ascii_dec)); lia).
        destruct Hin as [E|Hin].
        -- injection E as ->. apply R3; [apply hmap_insert_same|exact Hk].
        -- exfalso. apply Hk. apply in_map_iff. now exists (k, v).
      * destruct Hin as [E|Hin]; [congruence|]. now apply R4.
Qed.

Lemma map_opt_value (m : list (str * json)) :
  map_opt (fun kv => let* v := de_value (snd kv) in Some (fst kv, v)) m
  = Some (map (fun kv => (fst kv, to_value (snd kv))) m).
Proof. apply map_opt_Forall2. induction m; constructor; auto. Qed.

Lemma other_members_In own m k v : In (k, v) (other_members own m) <-> In (k, v) m /\ ~ In k own.
Proof.
  unfold other_members. rewrite filter_In. cbn [fst]. rewrite negb_true_iff.
  split; intros [H1 H2]; (split; [exact H1|]).
  - intros H. apply mem_str_In in H. congruence.
  - destruct (mem_str k own) eqn:E; [|reflexivity]. apply mem_str_In in E. contradiction.
Qed.

Lemma other_members_count own m k : ~ In k own ->
  count_occ (list_eq_dec ascii_dec) (map fst (other_members own m)) k
  = count_occ (list_eq_dec ascii_dec) (map fst m) k.
Proof.
  intros Hk. unfold other_members. induction m as [|[k' v] m IH]; [reflexivity|]. cbn [filter fst map count_occ].
  destruct (mem_str k' own) eqn:E; cbn [negb map fst count_occ].
  - apply mem_str_In in E. destruct (list_eq_dec ascii_dec k' k) as [->|N]; [contradiction|exact IH].
  - now rewrite IH.
Qed.

Lemma metadata_additional s m md :
  parse_json s = Some (JObj m) -> metadata_from_json s = Some md ->
  exists a, im_additional_fields md = Some a /\ additional_of m a.
Proof.
  intros Hs. unfold metadata_from_json.
  rewrite (respects_parsed _ _ s _ respects_metadata Hs). cbn [de_metadata].
  destruct (fields_of metadata_fields (JObj m)) as [[|a [|b [|c [|d [|e [|]]]]]]|]; try discriminate.
  destruct (req de_str a); [|discriminate]. cbn [opt_bind].
  destruct (opt de_str b); [|discriminate]. cbn [opt_bind].
  destruct (req de_str c); [|discriminate]. cbn [opt_bind].
  destruct (opt de_str d); [|discriminate]. cbn [opt_bind].
  destruct (req (de_list de_supported) e); [|discriminate]. cbn [opt_bind].
  unfold de_hmap. rewrite map_opt_value. cbn [opt_bind]. intros [= <-]. cbn [im_additional_fields].
  eexists. split; [reflexivity|].
  destruct (fold_insert_facts (map (fun kv => (fst kv, to_value (snd kv))) (other_members metadata_fields m)) []
              ltac:(constructor)) as (R1 & R2 & _ & R4).
  assert (map fst (map (fun kv : str * json => (fst kv, to_value (snd kv))) (other_members metadata_fields m))
          = map fst (other_members metadata_fields m)) as EM by (rewrite map_map; reflexivity).
  rewrite EM in *. split; [exact R1|]. split.
  - intros k. rewrite R2, metadata_names_fields. cbn [map In]. split.
    + intros [[]|H]. apply in_map_iff in H. destruct H as ([k' v] & <- & H). apply other_members_In in H.
      split; [|tauto]. apply in_map_iff. exists (k', v). tauto.
    + intros [H1 H2]. right. apply in_map_iff in H1. destruct H1 as ([k' v] & <- & H).
      apply in_map_iff. exists (k', v). split; [reflexivity|]. apply other_members_In. tauto.
  - intros k v Hk Hv Hin Hc. rewrite metadata_names_fields in Hk. apply R4.
    + apply in_map_iff. exists (k, v). cbn [fst snd]. rewrite to_value_id by exact Hv. split; [reflexivity|].
      apply other_members_In. tauto.
    + now rewrite other_members_count.
Qed.

(* ---------------- binding methods ---------------- *)

Lemma de_supported_methods e c : de_supported (JObj e) = Some c ->
  optional_member e "cryptographic_binding_mehtods_supported" methods_value (sup_binding_methods c).
Proof.
  cbn [de_supported fields_of supported_fields map_opt].
  destruct (get_unique (lit "id") e) as [x1|]; [|discriminate].
  destruct (get_unique (lit "cryptographic_binding_mehtods_supported") e) as [g|] eqn:Eg; [|discriminate].
  destruct (get_unique (lit "cryptographic_suites_supported") e) as [x3|]; [|discriminate].
  destruct (get_unique (lit "display") e) as [x4|]; [|discriminate]. cbn [opt_bind].
  destruct (opt de_str x1); [|discriminate]. cbn [opt_bind].
  destruct (opt (de_list de_str) g) as [ms|] eqn:Em; [|discriminate]. cbn [opt_bind].
  destruct (opt (de_list de_str) x3); [|discriminate]. cbn [opt_bind].
  destruct (opt (de_list de_display) x4); [|discriminate]. cbn [opt_bind].
  destruct (de_cfp_buffered _); [|discriminate]. cbn [opt_bind]. intros [= <-]. cbn [sup_binding_methods].
  apply (opt_member e "cryptographic_binding_mehtods_supported" (de_list de_str) methods_value) with (g := g) in Em; auto.
  - unfold methods_value. intros v l. split; [|intros ->; apply de_strs_rt].
    destruct v; try discriminate. cbn [de_list]. rewrite map_opt_Forall2. intros F. f_equal. clear - F.
    induction F as [|x y xs ys Hx Hl IH]; [reflexivity|]. apply de_str_iff in Hx. cbn [map]. now f_equal.
  - intros l. discriminate.
Qed.

Lemma metadata_supported s m md l :
  parse_json s = Some (JObj m) -> only_member m "credentials_supported" (JArr l) -> metadata_from_json s = Some md ->
  Forall2 (fun e c => de_supported e = Some c) l (im_credentials_supported md).
Proof.
  intros Hs Hl. unfold metadata_from_json.
  rewrite (respects_parsed _ _ s _ respects_metadata Hs). cbn [de_metadata fields_of metadata_fields map_opt].
  apply get_unique_only in Hl. rewrite Hl.
  destruct (get_unique (lit "credential_issuer") m) as [a|]; [|discriminate]. cbn [opt_bind].
  destruct (get_unique (lit "authorization_server") m) as [b|]; [|discriminate]. cbn [opt_bind].
  destruct (get_unique (lit "credential_endpoint") m) as [c|]; [|discriminate]. cbn [opt_bind].
  destruct (get_unique (lit "batch_credential_endpoint") m) as [d|]; [|discriminate]. cbn [opt_bind].
  destruct (req de_str a); [|discriminate]. cbn [opt_bind].
  destruct (opt de_str b); [|discriminate]. cbn [opt_bind].
  destruct (req de_str c); [|discriminate]. cbn [opt_bind].
  destruct (opt de_str d); [|discriminate]. cbn [opt_bind req de_list].
  destruct (map_opt de_supported l) as [cs|] eqn:E; [|discriminate]. cbn [opt_bind].
  unfold de_hmap. rewrite map_opt_value. cbn [opt_bind]. intros [= <-]. cbn [im_credentials_supported].
  now apply map_opt_Forall2.
Qed.

Lemma Forall2_nth {A B} (R : A -> B -> Prop) l1 l2 i a b :
  Forall2 R l1 l2 -> nth_error l1 i = Some a -> nth_error l2 i = Some b -> R a b.
Proof.
  intros H. revert i. induction H as [|x y xs ys Hx Hl IH]; intros [|i]; cbn [nth_error]; try discriminate.
  - now intros [= <-] [= <-].
  - apply IH.
Qed.

Lemma binding_methods_read s m md l i e c :
  parse_json s = Some (JObj m) -> only_member m "credentials_supported" (JArr l) -> metadata_from_json s = Some md ->
  nth_error l i = Some (JObj e) -> nth_error (im_credentials_supported md) i = Some c ->
  optional_member e "cryptographic_binding_mehtods_supported" methods_value (sup_binding_methods c).
Proof.
  intros Hs Hl Hm He Hc. apply de_supported_methods.
  exact (Forall2_nth _ _ _ i (JObj e) c (metadata_supported s m md l Hs Hl Hm) He Hc).
Qed.

Lemma ser_supported_members c :
  exists e, ser_supported c = JObj e
  /\ no_member e "cryptographic_binding_methods_supported"
  /\ only_member e "cryptographic_binding_mehtods_supported"
       match sup_binding_methods c with None => JNull | Some l => JArr (map JStr l) end.
Proof.
  unfold ser_supported. eexists. split; [reflexivity|]. split.
  - unfold no_member. rewrite map_app, in_app_iff. intros [H|H].
    + apply in_map_iff in H. destruct H as ([k v] & E & H). cbn [fst] in E. subst k.
      apply cfp_members_keys in H. vm_compute in H. intuition discriminate.
    + cbn in H. intuition discriminate.
  - apply get_unique_only. rewrite get_unique_app_l.
    + destruct (sup_binding_methods c); reflexivity.
    + intros k v H ->. apply cfp_members_keys in H. vm_compute in H. intuition discriminate.
Qed.

Lemma binding_methods_written n md :
  metadata_ok n md -> (n <= 122)%nat ->
  exists m l, parse_json (metadata_to_json md) = Some (JObj m) /\ In (lit "credentials_supported", JArr l) m
  /\ Forall2 (fun e c => exists em, e = JObj em
        /\ no_member em "cryptographic_binding_methods_supported"
        /\ only_member em "cryptographic_binding_mehtods_supported"
             match sup_binding_methods c with None => JNull | Some l => JArr (map JStr l) end)
       l (im_credentials_supported md).
Proof.
  intros H Hn. unfold parse_json. rewrite (metadata_written n) by assumption. unfold ser_metadata.
  eexists. exists (map ser_supported (im_credentials_supported md)). split; [reflexivity|]. split.
  - unfold field. cbn [app In]. unfold ser_list. tauto.
  - induction (im_credentials_supported md) as [|c l IH]; cbn [map]; constructor; [|exact IH].
    apply ser_supported_members.
Qed.

(* ---------------- corollaries ---------------- *)

Lemma default_type_valid d s m pm r :
  upper_case_facts d -> parse_json s = Some (JObj m) -> only_member m "proof" (JObj pm) ->
  no_member pm "proof_type" -> credential_request_from_json s = Some r ->
  exists jwt, only_member pm "jwt" (JStr jwt)
  /\ let r' := {| cr_format := cr_format r;
                  cr_proof := Some {| rp_proof_type := lit "jwt"; rp_jwt := jwt |} |} in
     pre_evaluate_credential_request d r = pre_evaluate_credential_request d r'
     /\ forall now ct n, create_credential_success_response d now r ct n
                         = create_credential_success_response d now r' ct n.
Proof.
  intros HU Hs Hm Hp Hr. apply (request_proof_read s m r Hs) in Hr.
  apply get_unique_only in Hm. destruct r as [f [p|]]; cbn [cr_proof cr_format optional_member] in *.
  - destruct Hr as (v & Hv & P). apply get_unique_only in Hv. rewrite Hv in Hm. injection Hm as ->.
    inversion P as [x j H1 H2|x t j H1 H2|]; subst.
    + exists j. split; [exact H2|].
      apply (good_proof_type d f {| rp_proof_type := lit "JWT"; rp_jwt := j |} HU).
      * apply rust_string_ascii. reflexivity.
      * apply same_ascii_ci. reflexivity.
    + exfalso. apply Hp. destruct H1 as [H1 _]. exact (in_map fst _ _ H1).
  - exfalso. destruct Hr as [H|H].
    + apply get_unique_absent in H. congruence.
    + apply get_unique_only in H. congruence.
Qed.

Lemma spec_code_rejected s m inner (code : str) :
  parse_json s = Some (JObj m) -> only_member m "grant_type" (JObj inner) ->
  only_member inner "grant_type" (JStr (lit "urn:ietf:params:oauth:grant-type:pre-authorized_code")) ->
  only_member inner "pre-authorized_code" (JStr code) -> no_member inner "pre_authorized_code" ->
  token_request_from_json s = None.
Proof.
  intros Hs Hm Ht _ Hc. destruct (token_request_from_json s) as [r|] eqn:E; [exfalso|reflexivity].
  apply (token_request_read s m inner r Hs Hm) in E. apply get_unique_only in Ht.
  destruct E as [H|code' pin H1 H2 H3].
  - apply get_unique_only in H. rewrite H in Ht. discriminate.
  - apply Hc. destruct H2 as [H2 _]. exact (in_map fst _ _ H2).
Qed.
