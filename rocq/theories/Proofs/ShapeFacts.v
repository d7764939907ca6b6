(** Exact forms: percent-encoded text, documents read through fields, tokens. *)
From Coq Require Import Lia ZifyBool ZifyN ZifyNat.
From Verif Require Import Model.Prelude Model.Percent Model.Json Model.Types Model.Deps Model.Serde Model.Errors
  Model.Jwt Model.Wire Spec SpecOffer SpecToken SpecJwt SpecJson
  Proofs.StrFacts Proofs.JsonFacts Proofs.ReaderFacts Proofs.GrammarFacts Proofs.SpellingFacts Proofs.JwtFacts
  Proofs.OfferFacts Proofs.Base64Facts Proofs.Base64Bits.

Ltac Zify.zify_post_hook ::= Z.to_euclidean_division_equations.

(* ---------------- percent-encoding ---------------- *)

Lemma unreserved_iff b : is_unreserved b = true <-> url_unreserved b.
Proof.
  split; [apply unreserved_spec|]. unfold is_unreserved, url_unreserved, digit. intros H.
  destruct H as [H|[H|[H|[->|[->|[->| ->]]]]]]; [lia..|reflexivity|reflexivity|reflexivity|reflexivity].
Qed.

Lemma hex_upper_nth n : n < 16 -> nth_error hex_digits (N.to_nat n) = Some (hex_upper n).
Proof.
  intros H. assert (In n [0;1;2;3;4;5;6;7;8;9;10;11;12;13;14;15]) as Hin.
  { cbn [In]. lia. }
  cbn [In] in Hin. repeat destruct Hin as [<-|Hin]; try reflexivity. destruct Hin.
Qed.

Lemma percent_encoded_iff s t : url_encode s = t <-> percent_encoded s t.
Proof.
  split.
  - intros <-. induction s as [|b s IH]; [constructor|].
    change (url_encode (b :: s)) with (url_encode_byte b ++ url_encode s). unfold url_encode_byte.
    destruct (is_unreserved b) eqn:E.
    + apply pe_plain; [now apply unreserved_iff|exact IH].
    + pose proof (code_bound b). cbn [app]. apply (pe_escape b _ _ (code b / 16) (code b mod 16));
        try (apply hex_upper_nth); try lia; try exact IH.
      rewrite <- unreserved_iff, E. discriminate.
  - induction 1 as [|c s t Hc _ IH|c h l a b s t Hc Ha Hb E Hlt _ IH]; [reflexivity| |].
    + change (url_encode (c :: s)) with (url_encode_byte c ++ url_encode s). unfold url_encode_byte.
      apply unreserved_iff in Hc. now rewrite Hc, IH.
    + change (url_encode (c :: s)) with (url_encode_byte c ++ url_encode s). unfold url_encode_byte.
      destruct (is_unreserved c) eqn:Eu; [now apply unreserved_iff in Eu|]. pose proof (code_bound c).
      replace (code c / 16) with a by lia. replace (code c mod 16) with b by lia.
      rewrite hex_upper_nth in Ha, Hb by lia. injection Ha as <-. injection Hb as <-. now rewrite IH.
Qed.

(* ---------------- fields ---------------- *)

Lemma get_unique_combine_absent k : forall names l,
  ~ In k names -> get_unique k (combine names l) = Some None.
Proof.
  intros names l H. unfold get_unique.
  enough (filter (fun kv => str_eqb k (fst kv)) (combine names l) = []) as -> by reflexivity.
  revert l. induction names as [|n names IH]; intros [|v l]; try reflexivity. cbn [combine filter fst].
  destruct (str_eqb k n) eqn:E.
  - apply str_eqb_eq in E. subst n. exfalso. apply H. now left.
  - apply IH. intros Hin. apply H. now right.
Qed.

Lemma get_unique_cons_same k v m : ~ In k (map fst m) -> get_unique k ((k, v) :: m) = Some (Some v).
Proof.
  intros H. unfold get_unique. cbn [filter fst]. replace (str_eqb k k) with true
    by (symmetry; now apply str_eqb_eq).
  enough (filter (fun kv => str_eqb k (fst kv)) m = []) as -> by reflexivity.
  induction m as [|[k' v'] m IH]; [reflexivity|]. cbn [filter fst].
  destruct (str_eqb k k') eqn:E.
  - apply str_eqb_eq in E. subst k'. exfalso. apply H. now left.
  - apply IH. intros Hin. apply H. now right.
Qed.

Lemma get_unique_cons_other k k' v m : k <> k' -> get_unique k ((k', v) :: m) = get_unique k m.
Proof.
  intros H. unfold get_unique. cbn [filter fst]. destruct (str_eqb k k') eqn:E; [|reflexivity].
  apply str_eqb_eq in E. congruence.
Qed.

Lemma map_opt_positional : forall names l m, NoDup names -> List.length l = List.length names ->
  (forall k, In k names -> get_unique k m = get_unique k (combine names l)) ->
  map_opt (fun k => get_unique k m) names = Some (map Some l).
Proof.
  induction names as [|n names IH]; intros [|v l] m Hn Hl H; try discriminate Hl; [reflexivity|].
  inversion Hn as [|? ? Hni Hnd]; subst. cbn [map_opt].
  rewrite H by now left. cbn [combine]. rewrite get_unique_cons_same.
  2:{ intros Hin. apply in_map_iff in Hin. destruct Hin as ([k w] & <- & Hin).
      apply in_combine_l in Hin. now apply Hni. }
  cbn [opt_bind].
  rewrite (IH l m Hnd); [reflexivity|simpl in Hl; lia|].
  intros k Hk. rewrite H by now right. cbn [combine]. apply get_unique_cons_other. intros ->. now apply Hni.
Qed.

Lemma fields_positional names l : NoDup names -> List.length l = List.length names ->
  fields_of names (JArr l) = fields_of names (JObj (combine names l)).
Proof.
  intros Hn Hl. cbn [fields_of]. rewrite <- Hl, Nat.eqb_refl.
  symmetry. now apply map_opt_positional.
Qed.

(** Reading a struct is reading its members. *)
Lemma struct_reader_iff {A : Type} (names : list string) (D : json -> option A)
    (P : list (str * json) -> A -> Prop) s a :
  through (map lit names) D -> NoDup (map lit names) ->
  (forall m, D (JObj m) = Some a <-> P m a) ->
  (forall j, fields_of (map lit names) j = None -> D j = None) ->
  opt_bind (parse_struct (map lit names) s) D = Some a
  <-> exists j m, struct_text (map lit names) s j /\ members_of names j m /\ P m a.
Proof.
  intros T Hn HD HN. split.
  - destruct (parse_struct (map lit names) s) as [j|] eqn:E; [|discriminate]. cbn [opt_bind]. intros H.
    apply parse_struct_iff in E. exists j.
    destruct (fields_of (map lit names) j) as [fs|] eqn:Ef; [|rewrite (HN j Ef) in H; discriminate].
    destruct j as [| | | | |l|m]; try discriminate Ef.
    + cbn [fields_of] in Ef. destruct (Nat.eqb_spec (List.length l) (List.length (map lit names))) as [Hl|]; [|discriminate].
      exists (combine (map lit names) l). split; [exact E|]. split.
      * constructor. now rewrite map_length in Hl.
      * apply HD. rewrite <- H. apply T. symmetry. now apply fields_positional.
    + exists m. split; [exact E|]. split; [constructor|]. now apply HD.
  - intros (j & m & Hs & Hm & HP). apply parse_struct_iff in Hs. rewrite Hs. cbn [opt_bind].
    destruct Hm as [m|l Hl]; [now apply HD|]. apply HD in HP. rewrite <- HP. apply T.
    apply fields_positional; [exact Hn|now rewrite map_length].
Qed.

Lemma lit_inj a b : lit a = lit b -> a = b.
Proof.
  intros H. unfold lit in H. rewrite <- (string_of_list_ascii_of_string a), <- (string_of_list_ascii_of_string b).
  now rewrite H.
Qed.

Lemma nodup_lit (l : list string) : NoDup l -> NoDup (map lit l).
Proof.
  induction 1 as [|x l Hx _ IH]; [constructor|]. cbn [map]. constructor; [|exact IH].
  intros H. apply in_map_iff in H. destruct H as (y & E & Hy). apply lit_inj in E. now subst y.
Qed.

Lemma claims_read_iff d s b : claims_from_json d s = Some b <->
  exists j m, struct_text (map lit claim_names) s j /\ members_of claim_names j m /\ claims_of d m b.
Proof.
  apply (struct_reader_iff claim_names (de_body d) (claims_of d)).
  - apply thr_claims.
  - apply nodup_lit. repeat constructor; cbn; intuition discriminate.
  - intros m. apply de_body_obj.
  - intros j Hj. unfold de_body. change body_fields with (map lit claim_names). now rewrite Hj.
Qed.

Lemma accepted_tokens d s j :
  jwt_from_str d s = Ok j <->
  exists hs bs tail ht bt hm bv bm,
    token_parts s hs bs tail
    /\ base64_text url_alphabet false ht hs /\ base64_text url_alphabet false bt bs
    /\ json_text ht (JObj hm) /\ header_of hm (j_header j)
    /\ struct_text (map lit claim_names) bt bv /\ members_of claim_names bv bm /\ claims_of d bm (j_body j)
    /\ signature_is tail (j_signature j).
Proof.
  rewrite from_str_iff. split.
  - intros (hs & bs & tail & ht & bt & P & Eh & Eb & Hh & Hb & Hs).
    apply header_from_json_iff in Hh. destruct Hh as (hm & Hj & Hh). apply parse_json_iff in Hj.
    apply claims_read_iff in Hb. destruct Hb as (bv & bm & Hb & Hm & Hc).
    exists hs, bs, tail, ht, bt, hm, bv, bm. tauto.
  - intros (hs & bs & tail & ht & bt & hm & bv & bm & P & Eh & Eb & Hj & Hh & Hb & Hm & Hc & Hs).
    exists hs, bs, tail, ht, bt. repeat (split; [assumption|]). split.
    { apply header_from_json_iff. exists hm. now rewrite parse_json_iff. }
    split; [|assumption]. apply claims_read_iff. eauto.
Qed.

Lemma url_text_det a b text :
  base64_text url_alphabet false a text -> base64_text url_alphabet false b text -> a = b.
Proof.
  intros H H'. apply base64_text_url, base64url_decode_iff in H. apply base64_text_url, base64url_decode_iff in H'.
  rewrite H in H'. now injection H'.
Qed.

Lemma object_or_seven d s j hs bs tail bt bv :
  jwt_from_str d s = Ok j -> token_parts s hs bs tail ->
  base64_text url_alphabet false bt bs -> json_text bt bv ->
  (exists m, bv = JObj m /\ claims_of d m (j_body j))
  \/ (exists l, bv = JArr l /\ List.length l = 7%nat /\ claims_of d (combine (map lit claim_names) l) (j_body j)).
Proof.
  intros H P Eb Hj. apply from_str_iff in H. destruct H as (hs' & bs' & tail' & ht & bt' & P' & _ & Eb' & _ & Hc & _).
  destruct (token_parts_det _ _ _ _ _ _ _ P P') as (<- & <- & <-).
  rewrite <- (url_text_det _ _ _ Eb Eb') in Hc. unfold claims_from_json in Hc.
  rewrite (struct_read _ _ _ _ (thr_claims d) Hj) in Hc.
  destruct bv as [| | | | |l|m]; try discriminate Hc.
  - right. exists l. split; [reflexivity|].
    assert (List.length l = 7%nat) as Hl.
    { unfold de_body in Hc. cbn [fields_of] in Hc.
      destruct (Nat.eqb_spec (List.length l) (List.length body_fields)) as [E|]; [exact E|discriminate]. }
    split; [exact Hl|]. apply de_body_obj. rewrite <- Hc. apply thr_claims. symmetry.
    apply fields_positional; [|exact Hl].
    change body_fields with (map lit claim_names). apply nodup_lit.
    repeat constructor; cbn; intuition discriminate.
  - left. exists m. split; [reflexivity|]. now apply de_body_obj.
Qed.

Lemma header_object d s j hs bs tail ht hv :
  jwt_from_str d s = Ok j -> token_parts s hs bs tail ->
  base64_text url_alphabet false ht hs -> json_text ht hv ->
  exists m, hv = JObj m /\ header_of m (j_header j).
Proof.
  intros H P Eh Hj. apply from_str_iff in H. destruct H as (hs' & bs' & tail' & ht' & bt & P' & Eh' & _ & Hh & _).
  destruct (token_parts_det _ _ _ _ _ _ _ P P') as (<- & <- & <-).
  rewrite <- (url_text_det _ _ _ Eh Eh') in Hh. apply header_from_json_iff in Hh.
  destruct Hh as (m & Hm & Hh). apply parse_json_iff in Hj. rewrite Hj in Hm. injection Hm as ->. eauto.
Qed.
