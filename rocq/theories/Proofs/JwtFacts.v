(** Proof tokens. *)
From Coq Require Import Lia ZifyBool ZifyN ZifyNat.
From Verif Require Import Model.Prelude Model.Utf8 Model.Base64 Model.Json Model.Types Model.Deps
  Model.Serde Model.Errors Model.Jwt Model.Wire Spec SpecToken SpecJwt
  Proofs.StrFacts Proofs.Utf8Facts Proofs.Base64Facts Proofs.Base64Bits Proofs.JsonFacts
  Proofs.ReaderFacts Proofs.SerdeFacts.

(* ---------------- base64 ---------------- *)

Lemma codec_exact :
  (forall bytes, base64_text std_alphabet true bytes (base64_encode bytes)
                 /\ base64_text url_alphabet false bytes (base64url_encode bytes))
  /\ (forall text bytes, base64_decode text = Some bytes <-> base64_text std_alphabet true bytes text)
  /\ (forall text bytes, base64url_decode text = Some bytes <-> base64_text url_alphabet false bytes text)
  /\ (forall bytes, base64_decode (base64_encode bytes) = Some bytes
                    /\ base64url_decode (base64url_encode bytes) = Some bytes)
  /\ (forall t1 t2 bytes, base64_decode t1 = Some bytes -> base64_decode t2 = Some bytes -> t1 = t2)
  /\ (forall t1 t2 bytes, base64url_decode t1 = Some bytes -> base64url_decode t2 = Some bytes -> t1 = t2).
Proof.
  split; [intros; split; [now apply base64_text_std|now apply base64_text_url]|].
  split; [intros; rewrite base64_text_std; apply base64_decode_iff|].
  split; [intros; rewrite base64_text_url; apply base64url_decode_iff|].
  split; [intros; split; [apply base64_decode_encode|apply base64url_decode_encode]|].
  split; intros t1 t2 bytes H1 H2.
  - apply base64_decode_inv in H1, H2. congruence.
  - apply base64url_decode_inv in H1, H2. congruence.
Qed.

(* ---------------- header ---------------- *)

Lemma alg_names_is a n : alg_is a n <-> alg_name a = lit n.
Proof.
  split; [intros []; reflexivity|]. intros H.
  assert (forall x y : string, lit x = lit y -> x = y) as Hl.
  { induction x as [|c x IH]; intros [|e y] E; try discriminate; [reflexivity|].
    rewrite !lit_cons in E. injection E as -> E. f_equal. now apply IH. }
  destruct a; apply Hl in H; subst n; constructor.
Qed.

Lemma assoc_alg s a :
  assoc s (map (fun a => (alg_name a, a)) all_algs) = Some a <-> s = alg_name a.
Proof.
  rewrite assoc_nodup.
  - cbn [map all_algs In]. split.
    + intuition congruence.
    + intros ->. destruct a; cbn; tauto.
  - vm_compute. repeat constructor; cbn; intuition discriminate.
Qed.

Lemma de_alg_value v a : de_alg v = Some a <-> alg_value v a.
Proof.
  unfold de_alg, de_unit_variant. split.
  - destruct v as [| | | |s| |[|[k [| | | | | |]] [|]]]; try discriminate; intros H;
      apply assoc_alg in H; subst.
    + destruct a; constructor; constructor.
    + destruct a; apply av_map; constructor.
  - intros [? n H|? n H]; apply alg_names_is in H; apply assoc_alg; now rewrite H.
Qed.

Definition is_key_name (k : str) : bool := mem_str k [lit "kid"; lit "jwk"; lit "x5c"].

Lemma names_key_iff k : names_key k <-> is_key_name k = true.
Proof.
  unfold names_key, is_key_name. rewrite mem_str_In. cbn [key_names In]. split.
  - intros (n & [<-|[<-|[<-|[]]]] & ->); cbn; tauto.
  - intros [<-|[<-|[<-|[]]]]; eexists; (split; [|reflexivity]); tauto.
Qed.

Lemma de_additional_skip k v m : ~ names_key k -> de_additional ((k, v) :: m) = de_additional m.
Proof.
  intros H. cbn [de_additional].
  destruct (str_eqb k (lit "kid")) eqn:E1.
  { apply str_eqb_eq in E1. subst. exfalso. apply H. exists "kid"%string. cbn. auto. }
  destruct (str_eqb k (lit "jwk")) eqn:E2.
  { apply str_eqb_eq in E2. subst. exfalso. apply H. exists "jwk"%string. cbn. auto. }
  destruct (str_eqb k (lit "x5c")) eqn:E3.
  { apply str_eqb_eq in E3. subst. exfalso. apply H. exists "x5c"%string. cbn. auto. }
  reflexivity.
Qed.

Lemma de_additional_skip_list before m :
  (forall k v, In (k, v) before -> ~ names_key k) -> de_additional (before ++ m) = de_additional m.
Proof.
  induction before as [|[k v] l IH]; intros H; [reflexivity|]. cbn [app].
  rewrite de_additional_skip by (eapply H; now left). apply IH. intros. eapply H. right. eassumption.
Qed.

Lemma first_key_sound m o : first_key m o -> de_additional m = o.
Proof.
  intros [Hno|before after n s key -> Hb Hk|before after k v -> Hb Hk Hv].
  - rewrite <- (app_nil_r m). now rewrite de_additional_skip_list.
  - rewrite de_additional_skip_list by exact Hb. destruct Hk; reflexivity.
  - rewrite de_additional_skip_list by exact Hb.
    destruct Hk as (n & Hn & ->). cbn in Hn. destruct Hn as [<-|[<-|[<-|[]]]];
      (destruct v as [| | | |s| |]; try reflexivity; exfalso; now apply (Hv s)).
Qed.

Lemma first_key_total m : first_key m (de_additional m).
Proof.
  assert (exists o, first_key m o) as [o Ho].
  { assert ((forall k v, In (k, v) m -> ~ names_key k)
            \/ exists before k v after, m = before ++ (k, v) :: after
                 /\ (forall k v, In (k, v) before -> ~ names_key k) /\ names_key k) as [H|H].
    { induction m as [|[k v] m IH]; [left; easy|].
      destruct (is_key_name k) eqn:E.
      - right. exists [], k, v, m. split; [reflexivity|]. split; [easy|]. now apply names_key_iff.
      - assert (~ names_key k) as N by (rewrite names_key_iff, E; discriminate).
        destruct IH as [IH|(b & k' & v' & a & -> & Hb & Hk)].
        + left. intros k' v' [[= <- <-]|Hi]; [exact N|now apply IH with v'].
        + right. exists ((k, v) :: b), k', v', a. split; [reflexivity|]. split; [|exact Hk].
          intros k2 v2 [[= <- <-]|Hi]; [exact N|now apply Hb with v2]. }
    - exists None. now constructor.
    - destruct H as (b & k & v & a & -> & Hb & Hk).
      destruct v as [|x|x|x|s|x|x].
      1-4,6-7: exists None; eapply fk_not_text; [reflexivity|exact Hb|exact Hk|discriminate].
      destruct Hk as (n & Hn & ->). cbn in Hn. destruct Hn as [<-|[<-|[<-|[]]]].
      + exists (Some (KeyId s)). eapply fk_some; [reflexivity|exact Hb|constructor].
      + exists (Some (Jwk s)). eapply fk_some; [reflexivity|exact Hb|constructor].
      + exists (Some (X5c s)). eapply fk_some; [reflexivity|exact Hb|constructor]. }
  now rewrite (first_key_sound _ _ Ho).
Qed.

Lemma first_key_iff m o : first_key m o <-> de_additional m = o.
Proof. split; [apply first_key_sound|intros <-; apply first_key_total]. Qed.

Lemma de_additional_other own m :
  (forall k, In k own -> ~ names_key k) -> de_additional (other_members own m) = de_additional m.
Proof.
  intros H. induction m as [|[k v] m IH]; [reflexivity|]. unfold other_members in *. cbn [filter fst].
  destruct (mem_str k own) eqn:E; cbn [negb].
  - rewrite de_additional_skip by (apply H; now apply mem_str_In). exact IH.
  - cbn [de_additional]. now rewrite IH.
Qed.

Lemma de_header_iff m h : de_header (JObj m) = Some h <-> header_of m h.
Proof.
  unfold de_header, header_of. rewrite first_key_iff.
  assert (de_additional (other_members [lit "typ"; lit "alg"] m) = de_additional m) as Hadd.
  { apply de_additional_other. intros k [<-|[<-|[]]] (n & Hn & E); cbn in Hn;
      destruct Hn as [<-|[<-|[<-|[]]]]; discriminate. }
  rewrite Hadd. clear Hadd. split.
  - intros H.
    destruct (get_unique (lit "typ") m) as [[t|]|] eqn:Et; try discriminate; [|cbn in H;
      destruct (get_unique (lit "alg") m); discriminate].
    destruct (get_unique (lit "alg") m) as [[a|]|] eqn:Ea; try discriminate; [|cbn in H;
      destruct (de_str t); discriminate].
    cbn [opt_bind req] in H.
    destruct (de_str t) as [t'|] eqn:Edt; [|discriminate]. cbn [opt_bind] in H.
    destruct (de_alg a) as [a'|] eqn:Eda; [|discriminate]. cbn [opt_bind] in H.
    injection H as <-. cbn [h_typ h_alg h_additional].
    destruct t; try discriminate. injection Edt as ->.
    split; [now apply get_unique_only|]. split; [|reflexivity].
    exists a. split; [now apply get_unique_only|now apply de_alg_value].
  - intros (H1 & (v & H2 & H3) & H4). apply get_unique_only in H1, H2. apply de_alg_value in H3.
    rewrite H1, H2. cbn [opt_bind req de_str]. rewrite H3. cbn [opt_bind]. rewrite H4.
    destruct h; reflexivity.
Qed.

Lemma header_from_json_iff s h :
  header_from_json s = Some h <-> exists m, parse_json s = Some (JObj m) /\ header_of m h.
Proof.
  unfold header_from_json. split.
  - destruct (parse_json s) as [j|]; [|discriminate]. cbn [opt_bind]. intros H.
    destruct j; try discriminate. exists m. split; [reflexivity|]. now apply de_header_iff.
  - intros (m & -> & H). cbn [opt_bind]. now apply de_header_iff.
Qed.

(* ---------------- claims ---------------- *)

Lemma opt_member {A} m k (D : json -> option A) (P : json -> A -> Prop) o g :
  (forall v a, D v = Some a <-> P v a) -> (forall a, ~ P JNull a) ->
  get_unique (lit k) m = Some g -> opt D g = Some o <-> optional_member m k P o.
Proof.
  intros HD HN Hg. unfold optional_member, no_member. destruct g as [v|].
  - destruct o as [a|].
    + split.
      * intros H. exists v. split; [now apply get_unique_only|]. apply HD.
        destruct v; cbn [opt] in H; try discriminate;
          (destruct (D _) as [x|] eqn:E; [|discriminate]; cbn [opt_bind] in H; injection H as ->; reflexivity).
      * intros (v' & H1 & H2). apply get_unique_only in H1. rewrite Hg in H1. injection H1 as ->.
        destruct v'; cbn [opt]; [exfalso; now apply (HN a)|..];
          (apply HD in H2; rewrite H2; reflexivity).
    + split.
      * intros H. right. apply get_unique_only. rewrite Hg.
        destruct v; cbn [opt] in H; [reflexivity|..];
          (destruct (D _); discriminate).
      * intros [H|H].
        -- apply get_unique_absent in H. congruence.
        -- apply get_unique_only in H. rewrite Hg in H. injection H as ->. reflexivity.
  - destruct o as [a|]; cbn [opt].
    + split; [discriminate|]. intros (v & H & _). apply get_unique_only in H. congruence.
    + split; [|reflexivity]. intros _. left. now apply get_unique_absent.
Qed.

Lemma req_member {A} m k (D : json -> option A) a g :
  get_unique (lit k) m = Some g -> req D g = Some a <-> exists v, only_member m k v /\ D v = Some a.
Proof.
  intros Hg. destruct g as [v|]; cbn [req].
  - split.
    + intros H. exists v. split; [now apply get_unique_only|exact H].
    + intros (v' & H & H2). apply get_unique_only in H. rewrite Hg in H. now injection H as ->.
  - split; [discriminate|]. intros (v & H & _). apply get_unique_only in H. congruence.
Qed.

Lemma de_str_iff v s : de_str v = Some s <-> v = JStr s.
Proof. split; [|intros ->; reflexivity]. destruct v; try discriminate. now intros [= ->]. Qed.

Lemma de_instant_iff d v t : de_instant d v = Some t <-> instant_value d v t.
Proof.
  unfold instant_value. split.
  - destruct v; cbn; try discriminate. intros H. eauto.
  - intros (s & -> & H). exact H.
Qed.

Lemma de_body_obj d m b : de_body d (JObj m) = Some b <-> claims_of d m b.
Proof.
  unfold de_body, claims_of. cbn [fields_of body_fields map_opt].
  assert (forall k v, only_member m k v -> get_unique (lit k) m = Some (Some v)) as Ho
    by (intros; now apply get_unique_only).
  assert (forall k, no_member m k -> get_unique (lit k) m = Some None) as Hn
    by (intros; now apply get_unique_absent).
  assert (forall A k (P : json -> A -> Prop) o, optional_member m k P o ->
            exists g, get_unique (lit k) m = Some g) as Hopt.
  { intros A k P [a|]; cbn [optional_member]; [intros (v & H & _); eauto|intros [H|H]; eauto]. }
  split.
  - intros H.
    destruct (get_unique (lit "iss") m) as [iss|] eqn:E1; [|discriminate].
    destruct (get_unique (lit "aud") m) as [aud|] eqn:E2; [|discriminate].
    destruct (get_unique (lit "sub") m) as [sub|] eqn:E3; [|discriminate].
    destruct (get_unique (lit "iat") m) as [iat|] eqn:E4; [|discriminate].
    destruct (get_unique (lit "nonce") m) as [nonce|] eqn:E5; [|discriminate].
    destruct (get_unique (lit "nbf") m) as [nbf|] eqn:E6; [|discriminate].
    destruct (get_unique (lit "exp") m) as [exp|] eqn:E7; [|discriminate].
    destruct (opt de_str iss) as [iss'|] eqn:D1; [|discriminate]. cbn [opt_bind] in H.
    destruct (req de_str aud) as [aud'|] eqn:D2; [|discriminate]. cbn [opt_bind] in H.
    destruct (opt de_str sub) as [sub'|] eqn:D3; [|discriminate]. cbn [opt_bind] in H.
    destruct (req (de_instant d) iat) as [iat'|] eqn:D4; [|discriminate]. cbn [opt_bind] in H.
    destruct (req de_str nonce) as [nonce'|] eqn:D5; [|discriminate]. cbn [opt_bind] in H.
    destruct (opt (de_instant d) nbf) as [nbf'|] eqn:D6; [|discriminate]. cbn [opt_bind] in H.
    destruct (opt (de_instant d) exp) as [exp'|] eqn:D7; [|discriminate]. cbn [opt_bind] in H.
    injection H as <-. cbn [b_iss b_aud b_sub b_iat b_nonce b_nbf b_exp].
    eapply opt_member with (P := text_value) in D1;
      [|apply de_str_iff|intros ?; discriminate|exact E1].
    eapply opt_member with (P := text_value) in D3;
      [|apply de_str_iff|intros ?; discriminate|exact E3].
    eapply opt_member with (P := instant_value d) in D6;
      [|apply de_instant_iff|intros ? (? & ? & _); discriminate|exact E6].
    eapply opt_member with (P := instant_value d) in D7;
      [|apply de_instant_iff|intros ? (? & ? & _); discriminate|exact E7].
    eapply req_member in D2; [|exact E2]. destruct D2 as (v2 & D2 & X2). apply de_str_iff in X2. subst v2.
    eapply req_member in D5; [|exact E5]. destruct D5 as (v5 & D5 & X5). apply de_str_iff in X5. subst v5.
    eapply req_member in D4; [|exact E4]. destruct D4 as (v4 & D4 & X4). apply de_instant_iff in X4.
    repeat (split; [first [assumption|eauto]|]). assumption.
  - intros (H1 & H2 & H3 & (v4 & H4 & X4) & H5 & H6 & H7).
    destruct (Hopt _ _ _ _ H1) as [g1 G1]. destruct (Hopt _ _ _ _ H3) as [g3 G3].
    destruct (Hopt _ _ _ _ H6) as [g6 G6]. destruct (Hopt _ _ _ _ H7) as [g7 G7].
    apply Ho in H2, H4, H5. rewrite G1, H2, G3, H4, H5, G6, G7.
    eapply opt_member in H1; [|apply de_str_iff|intros ?; discriminate|exact G1].
    eapply opt_member in H3; [|apply de_str_iff|intros ?; discriminate|exact G3].
    eapply opt_member in H6; [|apply de_instant_iff|intros ? (? & ? & _); discriminate|exact G6].
    eapply opt_member in H7; [|apply de_instant_iff|intros ? (? & ? & _); discriminate|exact G7].
    rewrite H1. cbn [opt_bind req de_str]. rewrite H3. cbn [opt_bind].
    apply de_instant_iff in X4. rewrite X4. cbn [opt_bind]. rewrite H6. cbn [opt_bind].
    rewrite H7. cbn [opt_bind]. destruct b; reflexivity.
Qed.

Lemma claims_from_json_iff d s m b :
  parse_json s = Some (JObj m) -> claims_from_json d s = Some b <-> claims_of d m b.
Proof.
  intros H. unfold claims_from_json.
  apply (struct_kept body_fields) in H.
  destruct H as (m' & -> & Hs). cbn [opt_bind]. rewrite <- de_body_obj.
  unfold de_body. now rewrite (fields_of_kept body_fields body_fields m m' (incl_refl _) Hs).
Qed.

(* ---------------- compact serialization ---------------- *)

Lemma token_parts_split s :
  (dotless s /\ split_on "."%char s = [s])
  \/ (exists h b, token_parts s h b None /\ split_on "."%char s = [h; b])
  \/ (exists h b t, token_parts s h b (Some t) /\ split_on "."%char s = h :: b :: split_on "."%char t).
Proof.
  destruct (cut "."%char s) as [[h r]|] eqn:E.
  - apply cut_some in E. destruct E as [-> Hh]. rewrite split_on_app by exact Hh.
    destruct (cut "."%char r) as [[b t]|] eqn:E2.
    + apply cut_some in E2. destruct E2 as [-> Hb]. right. right. exists h, b, t. split.
      * change (h ++ "."%char :: b ++ "."%char :: t) with (h ++ lit "." ++ b ++ lit "." ++ t).
        now constructor.
      * now rewrite split_on_app.
    + apply cut_none in E2. right. left. exists h, r. split.
      * change (h ++ "."%char :: r) with (h ++ lit "." ++ r). now constructor.
      * now rewrite split_on_none.
  - apply cut_none in E. left. split; [exact E|]. now apply split_on_none.
Qed.

Lemma first_segment_iff s seg : first_segment s seg <-> nth_error (split_on "."%char s) 0 = Some seg.
Proof.
  unfold first_segment. destruct (cut "."%char s) as [[h r]|] eqn:E.
  - apply cut_some in E. destruct E as [-> Hh]. rewrite split_on_app by exact Hh. cbn [nth_error].
    split.
    + intros [[H _]|(rest & H & Hd)].
      * exfalso. apply H. apply in_or_app. right. now left.
      * assert (cut "."%char (h ++ "."%char :: r) = Some (h, r)) as C1 by now apply cut_some.
        assert (cut "."%char (h ++ "."%char :: r) = Some (seg, rest)) as C2 by now apply cut_some.
        rewrite C1 in C2. now injection C2 as -> _.
    + intros [= <-]. right. exists r. auto.
  - apply cut_none in E. rewrite split_on_none by exact E. cbn [nth_error]. split.
    + intros [[_ ->]|(rest & -> & _)]; [reflexivity|]. exfalso. apply E. apply in_or_app. right. now left.
    + intros [= <-]. now left.
Qed.

Lemma token_parts_det s h b t h' b' t' : token_parts s h b t -> token_parts s h' b' t' -> h = h' /\ b = b' /\ t = t'.
Proof.
  assert (forall s h b t, token_parts s h b t ->
            exists r, cut "."%char s = Some (h, r)
              /\ match t with None => cut "."%char r = None /\ r = b | Some t => cut "."%char r = Some (b, t) end)
    as K.
  { clear. intros s h b t [h' b' Hh Hb|h' b' t' Hh Hb].
    - exists b'. split; [now apply cut_some|]. split; [now apply cut_none|reflexivity].
    - exists (b' ++ "."%char :: t'). split; now apply cut_some. }
  intros H1 H2. apply K in H1, H2. destruct H1 as (r & C & H1), H2 as (r' & C' & H2).
  rewrite C in C'. injection C' as <- <-. split; [reflexivity|].
  destruct t as [t|], t' as [t'|].
  - rewrite H1 in H2. injection H2 as <- <-. auto.
  - destruct H2 as [H2 _]. congruence.
  - destruct H1 as [H1 _]. congruence.
  - destruct H1 as [_ <-], H2 as [_ <-]. auto.
Qed.

Lemma from_str_split d s h b t :
  token_parts s h b t ->
  jwt_from_str d s =
  (let? hb := ok_or (base64url_decode h) (VAny (base64_error d h)) in
   let? bb := ok_or (base64url_decode b) (VAny (base64_error d b)) in
   let? h' := ok_or (header_from_json hb) (VAny (serde_error d hb)) in
   let? b' := ok_or (claims_from_json d bb) (VAny (serde_error d bb)) in
   Ok {| j_header := h'; j_body := b';
         j_signature := match t with None => None | Some t => nth_error (split_on "."%char t) 0 end |}).
Proof.
  intros H. unfold jwt_from_str. cbv zeta.
  assert (split_on "."%char s = h :: b :: match t with None => [] | Some t => split_on "."%char t end) as ->.
  { destruct H as [h b Hh Hb|h b t Hh Hb].
    - cbn [app]. change (lit "." ++ b) with ("."%char :: b). now rewrite split_on_app, split_on_none.
    - change (lit "." ++ b ++ lit "." ++ t) with ("."%char :: b ++ "."%char :: t).
      now rewrite !split_on_app. }
  cbn [nth_error ok_or bind]. unfold header_from_json, claims_from_json.
  destruct t as [t|]; [|reflexivity].
  destruct (split_on "."%char t) eqn:E; reflexivity.
Qed.

Lemma from_str_iff d s j :
  jwt_from_str d s = Ok j <->
  exists hs bs tail ht bt,
    token_parts s hs bs tail
    /\ base64_text url_alphabet false ht hs /\ base64_text url_alphabet false bt bs
    /\ header_from_json ht = Some (j_header j) /\ claims_from_json d bt = Some (j_body j)
    /\ signature_is tail (j_signature j).
Proof.
  split.
  - intros H. destruct (token_parts_split s) as [[Hd E]|[(hs & bs & P & _)|(hs & bs & t & P & _)]].
    + unfold jwt_from_str in H. rewrite E in H. discriminate.
    + rewrite (from_str_split d s _ _ _ P) in H.
      destruct (base64url_decode hs) as [ht|] eqn:Eh; [|discriminate].
      destruct (base64url_decode bs) as [bt|] eqn:Eb; [|discriminate]. cbn [ok_or bind] in H.
      destruct (header_from_json ht) as [h|] eqn:Fh; [|discriminate]. cbn [ok_or bind] in H.
      destruct (claims_from_json d bt) as [b|] eqn:Fb; [|discriminate]. cbn [ok_or bind] in H.
      injection H as <-. exists hs, bs, None, ht, bt.
      rewrite !base64_text_url, <- !base64url_decode_iff. do 5 (split; [assumption|]). exact I.
    + rewrite (from_str_split d s _ _ _ P) in H.
      destruct (base64url_decode hs) as [ht|] eqn:Eh; [|discriminate].
      destruct (base64url_decode bs) as [bt|] eqn:Eb; [|discriminate]. cbn [ok_or bind] in H.
      destruct (header_from_json ht) as [h|] eqn:Fh; [|discriminate]. cbn [ok_or bind] in H.
      destruct (claims_from_json d bt) as [b|] eqn:Fb; [|discriminate]. cbn [ok_or bind] in H.
      injection H as <-. exists hs, bs, (Some t), ht, bt.
      rewrite !base64_text_url, <- !base64url_decode_iff. do 5 (split; [assumption|]).
      unfold signature_is. cbn [j_signature].
      destruct (split_on "."%char t) as [|x l] eqn:E; [now apply split_on_nonnil in E|].
      cbn [nth_error]. apply first_segment_iff. now rewrite E.
  - intros (hs & bs & tail & ht & bt & P & Hh & Hb & Fh & Fb & Sg).
    rewrite (from_str_split d s _ _ _ P).
    apply base64_text_url in Hh, Hb. apply base64url_decode_iff in Hh, Hb. rewrite Hh, Hb.
    cbn [ok_or bind]. rewrite Fh. cbn [ok_or bind]. rewrite Fb. cbn [ok_or bind].
    destruct j as [h b sig]; cbn [j_header j_body j_signature] in *. f_equal. f_equal.
    destruct tail as [t|], sig as [sg|]; cbn [signature_is] in Sg; try easy.
    now apply first_segment_iff.
Qed.

Lemma from_str_no_dot d s : dotless s ->
  jwt_from_str d s = Err (VAny (lit "No body found in the `JWT`")).
Proof. intros H. unfold jwt_from_str. now rewrite split_on_none. Qed.

Lemma from_str_no_panic d s : jwt_from_str d s <> Panic.
Proof.
  unfold jwt_from_str. cbv zeta.
  repeat match goal with
  | |- bind (ok_or ?o ?e) _ <> Panic => destruct o; cbn [ok_or bind]; [|discriminate]
  end. discriminate.
Qed.

Lemma header_json_rt h : header_ok h -> header_from_json (header_to_json h) = Some h.
Proof.
  intros H. unfold header_from_json, header_to_json, parse_json.
  rewrite (read_written 1); [|now apply good_header|lia]. apply header_rt.
Qed.

Lemma claims_json_rt d b :
  dt_round_trips d -> body_ok b -> body_instants_ok b -> claims_from_json d (claims_to_json d b) = Some b.
Proof.
  intros Hd H Hi. unfold claims_from_json, claims_to_json, parse_struct.
  rewrite (read_written 1); [|now apply good_body|lia]. now apply body_rt.
Qed.

Lemma compact_round_trip d j hs bs :
  dt_round_trips d -> header_ok (j_header j) -> body_ok (j_body j) -> body_instants_ok (j_body j) ->
  base64_text url_alphabet false (header_to_json (j_header j)) hs ->
  base64_text url_alphabet false (claims_to_json d (j_body j)) bs ->
  (forall sig, j_signature j = Some sig -> dotless sig) ->
  jwt_from_str d (hs ++ lit "." ++ bs ++ match j_signature j with Some sig => lit "." ++ sig | None => [] end)
  = Ok j.
Proof.
  intros Hd Hh Hb Hi Eh Eb Hsig. apply from_str_iff.
  assert (dotless hs /\ dotless bs) as [Dh Db].
  { apply base64_text_url in Eh, Eb. subst. split; apply base64url_no_dot. }
  exists hs, bs, (j_signature j), (header_to_json (j_header j)), (claims_to_json d (j_body j)).
  split; [destruct (j_signature j); [|rewrite app_nil_r]; now constructor|].
  do 2 (split; [assumption|]). split; [now apply header_json_rt|]. split; [now apply claims_json_rt|].
  destruct (j_signature j) as [sig|]; [|exact I]. cbn. left. split; [now apply Hsig|reflexivity].
Qed.

Lemma surplus_segments d h b sig rest :
  dotless h -> dotless b -> dotless sig ->
  jwt_from_str d (h ++ lit "." ++ b ++ lit "." ++ sig ++ lit "." ++ rest)
  = jwt_from_str d (h ++ lit "." ++ b ++ lit "." ++ sig).
Proof.
  intros Hh Hb Hs. rewrite (from_str_split d _ h b (Some (sig ++ lit "." ++ rest))) by now constructor.
  rewrite (from_str_split d _ h b (Some sig)) by now constructor.
  change (sig ++ lit "." ++ rest) with (sig ++ "."%char :: rest).
  rewrite split_on_app by exact Hs. rewrite (split_on_none _ sig) by exact Hs. reflexivity.
Qed.

(* ---------------- TryInto<String> ---------------- *)

Lemma try_into_string_text d j :
  jwt_try_into_string d j =
  Ok (header_to_json (j_header j) ++ lit "." ++ claims_to_json d (j_body j)
      ++ match j_signature j with Some sig => lit "." ++ sig | None => [] end).
Proof.
  unfold jwt_try_into_string. cbv zeta. f_equal. destruct (j_signature j); cbn [app join].
  - reflexivity.
  - now rewrite app_nil_r.
Qed.

Lemma brace_not_base64 s : base64url_decode ("{"%char :: s) = None.
Proof.
  destruct (base64url_decode ("{"%char :: s)) as [t|] eqn:E; [|reflexivity].
  apply base64url_decode_inv in E. pose proof (base64url_chars t) as H. rewrite <- E in H. discriminate.
Qed.

Lemma token_parts_head c s h b t :
  token_parts (c :: s) h b t -> c <> "."%char -> exists h', h = c :: h'.
Proof.
  intros P Hc. remember (c :: s) as u eqn:E. destruct P as [h b _ _|h b t _ _];
    (destruct h as [|x h']; cbn [app] in E; [exfalso; apply Hc; now injection E|];
     injection E as -> _; eauto).
Qed.

Lemma try_into_string_rejected d j s :
  jwt_try_into_string d j = Ok s -> exists e, jwt_from_str d s = Err e.
Proof.
  rewrite try_into_string_text.
  assert (exists r, header_to_json (j_header j) = "{"%char :: r) as [r ->] by (eexists; reflexivity).
  set (rest := claims_to_json d (j_body j) ++ _). intros H.
  apply ok_inj in H. subst s. cbn [app].
  destruct (token_parts_split ("{"%char :: r ++ lit "." ++ rest)) as [[Hd _]|[(h & b & P & _)|(h & b & t & P & _)]].
  - exfalso. apply Hd. right. apply in_or_app. right. now left.
  - destruct (token_parts_head _ _ _ _ _ P) as [h' ->]; [discriminate|].
    rewrite (from_str_split d _ _ _ _ P), brace_not_base64. cbn [ok_or bind]. eauto.
  - destruct (token_parts_head _ _ _ _ _ P) as [h' ->]; [discriminate|].
    rewrite (from_str_split d _ _ _ _ P), brace_not_base64. cbn [ok_or bind]. eauto.
Qed.

(* ---------------- keys of a header ---------------- *)

Lemma count_occ_app_other (l1 l2 : list str) k :
  ~ In k l2 -> count_occ (list_eq_dec ascii_dec) (l1 ++ l2) k = count_occ (list_eq_dec ascii_dec) l1 k.
Proof.
  intros H. rewrite count_occ_app. rewrite (proj1 (count_occ_not_In _ l2 k) H). apply Nat.add_0_r.
Qed.

Lemma only_member_app m extra k v :
  ~ In (lit k) (map fst extra) -> only_member m k v -> only_member (m ++ extra) k v.
Proof.
  intros H [H1 H2]. split; [apply in_or_app; now left|]. rewrite map_app.
  rewrite count_occ_app_other; assumption.
Qed.

Lemma first_key_app m extra key : first_key m (Some key) -> first_key (m ++ extra) (Some key).
Proof.
  intros H. inversion H as [|before after n s key' E Hb Hk|]. subst.
  apply fk_some with (before := before) (after := after ++ extra) (n := n) (s := s); try assumption.
  now rewrite <- app_assoc.
Qed.

Lemma later_keys_ignored m h key extra :
  header_of m h -> h_additional h = Some key ->
  ~ In (lit "typ") (map fst extra) -> ~ In (lit "alg") (map fst extra) ->
  header_of (m ++ extra) h.
Proof.
  intros (H1 & (v & H2 & H3) & H4) Ha N1 N2. split; [now apply only_member_app|].
  split; [exists v; split; [now apply only_member_app|exact H3]|].
  rewrite Ha in *. now apply first_key_app.
Qed.

(* ---------------- typ ---------------- *)

Lemma ascii_ci_lower s t :
  ascii_only s = true -> (forall c, In c t -> ~ upper_letter c) ->
  map (fun b => lower_ascii (code b)) s = map code t <-> ascii_ci s t.
Proof.
  unfold ascii_ci. revert t. induction s as [|a s IH]; intros [|b t] Ha Ht.
  - split; constructor.
  - split; [discriminate|]. intros H; inversion H.
  - split; [discriminate|]. intros H; inversion H.
  - unfold ascii_only in Ha. cbn [forallb] in Ha. apply andb_true_iff in Ha. destruct Ha as [Ha1 Ha2].
    cbn [map]. assert (forall c, In c t -> ~ upper_letter c) as Ht' by (intros; apply Ht; now right).
    specialize (IH t Ha2 Ht'). assert (~ upper_letter b) as Hb by (apply Ht; now left).
    unfold upper_letter in *.
    assert (lower_ascii (code a) = code b <-> same_letter a b) as Hl.
    { unfold lower_ascii, same_letter, upper_letter.
      destruct ((65 <=? code a) && (code a <=? 90)) eqn:E; split.
      - intros. right. left. lia.
      - intros [->|[[_ H]|[H _]]]; lia.
      - intros H. left. now apply code_inj.
      - intros [->|[[H _]|[H _]]]; lia. }
    split.
    + intros [= H1 H2]. constructor; [now apply Hl|now apply IH].
    + intros H. inversion H; subst. f_equal; [now apply Hl|now apply IH].
Qed.

Lemma ascii_ci_ascii s t : ascii_ci s t -> ascii_only t = true -> ascii_only s = true.
Proof.
  induction 1 as [|a b s t H HF IH]; [reflexivity|]. unfold ascii_only. cbn [forallb].
  rewrite !andb_true_iff. intros [H1 H2]. split; [|now apply IH].
  destruct H as [->|[[[H3 H4] E]|[[H3 H4] E]]]; [exact H1|..]; pose proof (code_bound a); lia.
Qed.

Lemma scalar_value_scalar c : scalar_value c -> scalar c.
Proof. unfold scalar_value, scalar. lia. Qed.

Lemma scalar_scalar_value c : scalar c -> scalar_value c.
Proof. unfold scalar_value, scalar. lia. Qed.

Lemma ascii_ci_upper s t :
  ascii_only s = true -> (forall c, In c t -> ~ (97 <= code c <= 122)) ->
  map (fun b => upper_ascii (code b)) s = map code t <-> ascii_ci s t.
Proof.
  unfold ascii_ci. revert t. induction s as [|a s IH]; intros [|b t] Ha Ht.
  - split; constructor.
  - split; [discriminate|]. intros H; inversion H.
  - split; [discriminate|]. intros H; inversion H.
  - unfold ascii_only in Ha. cbn [forallb] in Ha. apply andb_true_iff in Ha. destruct Ha as [Ha1 Ha2].
    cbn [map]. assert (forall c, In c t -> ~ (97 <= code c <= 122)) as Ht' by (intros; apply Ht; now right).
    specialize (IH t Ha2 Ht'). assert (~ (97 <= code b <= 122)) as Hb by (apply Ht; now left).
    assert (upper_ascii (code a) = code b <-> same_letter a b) as Hl.
    { unfold upper_ascii, same_letter, upper_letter.
      destruct ((97 <=? code a) && (code a <=? 122)) eqn:E; split.
      - intros. right. right. lia.
      - intros [->|[[H ?]|[H ?]]]; lia.
      - intros H. left. now apply code_inj.
      - intros [->|[[H ?]|[H ?]]]; lia. }
    split.
    + intros [= H1 H2]. constructor; [now apply Hl|now apply IH].
    + intros H. inversion H; subst. f_equal; [now apply Hl|now apply IH].
Qed.

Lemma high_not_in x target :
  ascii_only target = true -> 128 <= x -> scalar_value x -> exists b, In b (utf8_enc1 x) /\ ~ In b target.
Proof.
  intros Ht H1 H2. destruct (utf8_enc1_high x) as (b & t & E & Hb); [lia|unfold scalar_value in H2; lia|].
  exists b. split; [rewrite E; now left|]. intros Hin. unfold ascii_only in Ht. rewrite forallb_forall in Ht.
  specialize (Ht b Hin). cbv beta in Ht. lia.
Qed.

Lemma not_in_bool b (t : str) : existsb (Ascii.eqb b) t = false -> ~ In b t.
Proof.
  intros H Hin. assert (existsb (Ascii.eqb b) t = true); [|congruence].
  apply existsb_exists. exists b. split; [exact Hin|apply Ascii.eqb_refl].
Qed.

Lemma typ_check d typ : lower_case_facts d -> rust_string typ ->
  to_lowercase (lower_table d) typ = lit "openid4vci-proof+jwt" <-> ascii_ci typ (lit "openid4vci-proof+jwt").
Proof.
  intros Hf Hs. unfold to_lowercase.
  assert (forall c, In c (lit "openid4vci-proof+jwt") -> ~ upper_letter c) as Hu.
  { intros c Hc. assert (forallb (fun c => negb ((65 <=? code c) && (code c <=? 90)))
      (lit "openid4vci-proof+jwt") = true) as H by reflexivity.
    rewrite forallb_forall in H. specialize (H c Hc). unfold upper_letter. lia. }
  rewrite map_case_target.
  - split.
    + intros [A M]. now apply ascii_ci_lower.
    + intros H. assert (ascii_only typ = true) as A by (eapply ascii_ci_ascii; [exact H|reflexivity]).
      split; [exact A|]. now apply ascii_ci_lower.
  - reflexivity.
  - intros c Hc. unfold lower_ascii. destruct ((65 <=? c) && (c <=? 90)) eqn:E; lia.
  - intros bf c af Hc Hsc. destruct (Hf bf c af Hc (scalar_scalar_value _ Hsc)) as (x & Hx & [[H1 H2]| ->]).
    + exists x. split; [exact Hx|]. now apply high_not_in.
    + exists 107. split; [exact Hx|]. exists (chr 107). split; [now left|].
      apply not_in_bool. reflexivity.
  - now apply rust_string_iff.
Qed.

Lemma proof_type_check d s : upper_case_facts d -> rust_string s ->
  to_uppercase (upper_table d) s = lit "JWT" <-> ascii_ci s (lit "JWT").
Proof.
  intros Hf Hs. unfold to_uppercase.
  assert (forall c, In c (lit "JWT") -> ~ (97 <= code c <= 122)) as Hu.
  { intros c Hc. assert (forallb (fun c => negb ((97 <=? code c) && (code c <=? 122))) (lit "JWT") = true)
      as H by reflexivity.
    rewrite forallb_forall in H. specialize (H c Hc). lia. }
  rewrite map_case_target.
  - split.
    + intros [A M]. now apply ascii_ci_upper.
    + intros H. assert (ascii_only s = true) as A by (eapply ascii_ci_ascii; [exact H|reflexivity]).
      split; [exact A|]. now apply ascii_ci_upper.
  - reflexivity.
  - intros c Hc. unfold upper_ascii. destruct ((97 <=? c) && (c <=? 122)) eqn:E; lia.
  - intros _ c _ Hc Hsc. destruct (Hf c Hc (scalar_scalar_value _ Hsc)) as (x & Hx & [[H1 H2]|[->|[->| ->]]]).
    + exists x. split; [exact Hx|]. now apply high_not_in.
    + exists 73. split; [exact Hx|]. exists (chr 73). split; [now left|]. apply not_in_bool. reflexivity.
    + exists 83. split; [exact Hx|]. exists (chr 83). split; [now left|]. apply not_in_bool. reflexivity.
    + exists 70. split; [exact Hx|]. exists (chr 70). split; [now left|]. apply not_in_bool. reflexivity.
  - now apply rust_string_iff.
Qed.

Lemma typ_exact d j : lower_case_facts d -> rust_string (h_typ (j_header j)) ->
  (jwt_validate d j = Ok tt <-> ascii_ci (h_typ (j_header j)) (lit "openid4vci-proof+jwt"))
  /\ (~ ascii_ci (h_typ (j_header j)) (lit "openid4vci-proof+jwt") ->
      jwt_validate d j = Err (VAny (lit "jwt header `typ` MUST of of value `openid4vci-proof+jwt`"))).
Proof.
  intros Hf Hs. pose proof (typ_check d _ Hf Hs) as T.
  unfold jwt_validate, header_validate, body_validate, openid4vci_proof_type.
  destruct (str_eqb (to_lowercase (lower_table d) (h_typ (j_header j))) (lit "openid4vci-proof+jwt")) eqn:E;
    cbn [negb bind].
  - apply str_eqb_eq in E. split; [split; [intros _; now apply T|reflexivity]|]. intros N. exfalso.
    now apply N, T.
  - apply str_eqb_neq in E. split; [split; [discriminate|intros H; exfalso; now apply E, T]|reflexivity].
Qed.

(* ---------------- verify ---------------- *)

Lemma verify_exact now j :
  (jwt_verify now j = Ok tt <-> in_window (j_body j) now)
  /\ (forall e, jwt_verify now j = Err e <-> window_error (j_body j) now e)
  /\ jwt_verify now j <> Panic.
Proof.
  unfold jwt_verify, in_window.
  destruct (b_nbf (j_body j)) as [nbf|] eqn:En; [destruct (now <? nbf)%Z eqn:E1|]; cbn [bind];
  (destruct (b_exp (j_body j)) as [exp|] eqn:Ee; [destruct (exp <? now)%Z eqn:E2|]; cbn [bind]);
  (split; [|split; [|discriminate]]).
  all: try (split; [intros _|reflexivity]; split; intros x [= <-]; lia).
  all: try (split; [discriminate|]; intros [W1 W2]; exfalso; try specialize (W1 _ eq_refl);
            try specialize (W2 _ eq_refl); lia).
  all: intros e; split; [intros [= <-]|intros [x Hx1 Hx2|x Hx0 Hx1 Hx2]];
    try rewrite En in *; try rewrite Ee in *; try discriminate;
    try (injection Hx1 as <-); try reflexivity; try (exfalso; lia);
    try (exfalso; specialize (Hx0 _ eq_refl); lia).
  all: try (apply we_early; [exact En|lia]).
  all: try (apply we_late; [|exact Ee|lia]; rewrite ?En; intros y; try discriminate; intros [= <-]; lia).
Qed.

(* ---------------- numeric dates ---------------- *)

Lemma numeric_iat_rejected d s m v :
  parse_json s = Some (JObj m) -> In (lit "iat", v) m -> (forall t, v <> JStr t) ->
  claims_from_json d s = None.
Proof.
  intros H Hin Hv. destruct (claims_from_json d s) as [b|] eqn:E; [exfalso|reflexivity].
  apply (claims_from_json_iff d s m b H) in E.
  destruct E as (_ & _ & _ & (v' & Ho & (t & -> & _)) & _).
  assert (v = JStr t); [|now apply (Hv t)].
  apply get_unique_only in Ho. unfold get_unique in Ho.
  assert (In (lit "iat", v) (filter (fun kv => str_eqb (lit "iat") (fst kv)) m)) as Hf
    by (apply filter_In; split; [exact Hin|reflexivity]).
  destruct (filter (fun kv => str_eqb (lit "iat") (fst kv)) m) as [|[k1 v1] [|x l]]; try discriminate.
  injection Ho as ->. destruct Hf as [[= _ ->]|[]]. reflexivity.
Qed.

Lemma numeric_iat_token_rejected d s hs bs tail bt m v :
  token_parts s hs bs tail -> base64_text url_alphabet false bt bs ->
  parse_json bt = Some (JObj m) -> In (lit "iat", v) m -> (forall t, v <> JStr t) ->
  exists e, jwt_from_str d s = Err e.
Proof.
  intros P Eb H Hin Hv. apply base64_text_url, base64url_decode_iff in Eb.
  rewrite (from_str_split d s _ _ _ P). rewrite Eb.
  destruct (base64url_decode hs) as [ht|]; cbn [ok_or bind]; [|eauto].
  destruct (header_from_json ht); cbn [ok_or bind]; [|eauto].
  rewrite (numeric_iat_rejected d bt m v H Hin Hv). cbn [ok_or bind]. eauto.
Qed.
