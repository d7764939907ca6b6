(** Texts that were cut off. *)
From Coq Require Import Lia.
From Verif Require Import Model.Prelude Model.Base64 Model.Json Model.Types Model.Deps Model.Serde Model.SerdeOptions
  Model.Wire Model.Jwt Model.Errors Model.CredentialIssuer Spec SpecToken SpecJson SpecJwt SpecOffer SpecEvaluation SpecWire SpecCut
  Proofs.StrFacts Proofs.JsonFacts Proofs.GrammarFacts Proofs.OfferFacts Proofs.JwtFacts Proofs.EvalFacts Proofs.EvalFacts2.

Definition compound (j : json) : Prop :=
  match j with JStr _ | JArr _ | JObj _ => True | _ => False end.

(** Such a value is read whatever follows it. *)
Lemma compound_read w sh n s j a t f : value_text w sh n s j -> compound j -> white a ->
  (List.length s <= f)%nat -> parse_value w sh f (S n) (a ++ s ++ t) = POk j t.
Proof.
  intros H C Ha Hf. destruct H as [| | |w sh n s j H|w sh n s v H|w sh n m a' Hm Ha'|w sh n m s l Hm He|w sh n m a' Hm Ha'|w sh n m s l Hm He];
    try contradiction.
  - destruct H; contradiction.
  - destruct (string_read w s v t H) as (r & E & P & _).
    destruct f as [|f]; [destruct H; cbn [List.length] in Hf; lia|].
    cbn [parse_value]. rewrite skip_white by exact Ha. rewrite E. cbn [skip_ws].
    change (is_ws quote) with false. cbv iota. rewrite ascii_eqb_refl, P. reflexivity.
  - destruct f as [|f]; [cbn [List.length] in Hf; lia|].
    cbn [parse_value]. rewrite skip_white by exact Ha. cbn [app skip_ws].
    change (is_ws "["%char) with false. cbn [Ascii.eqb Bool.eqb quote].
    rewrite (enter_deeper w n m Hm). rewrite <- app_assoc, skip_white by exact Ha'. reflexivity.
  - cbn [List.length] in Hf. rewrite app_length in Hf. cbn [List.length] in Hf. destruct f as [|f]; [lia|].
    cbn [parse_value]. rewrite skip_white by exact Ha. cbn [app skip_ws].
    change (is_ws "["%char) with false. cbn [Ascii.eqb Bool.eqb quote].
    rewrite (enter_deeper w n m Hm). rewrite <- app_assoc. cbn [app].
    assert (exists b r, skip_ws (s ++ "]"%char :: t) = b :: r /\ Ascii.eqb b "]"%char = false) as (b & r & E & Eb).
    { inversion He as [w' sh' i' n' a1 s1 b1 j1 Ha1 Hb1 Hv|w' sh' i' n' a1 s1 b1 t1 j1 l1 Ha1 Hb1 Hv _]; subst;
        destruct (value_head _ _ _ _ _ Hv) as (b & r & -> & W & Q & _);
        rewrite <- app_assoc, skip_white by exact Ha1; cbn [app skip_ws]; rewrite W; eauto. }
    rewrite E, Eb, (proj1 (proj2 texts_read) w sh 0%nat m s l He) by lia. reflexivity.
  - destruct f as [|f]; [cbn [List.length] in Hf; lia|].
    cbn [parse_value]. rewrite skip_white by exact Ha. cbn [app skip_ws].
    change (is_ws "{"%char) with false. cbn [Ascii.eqb Bool.eqb quote].
    rewrite (enter_deeper w n m Hm). rewrite <- app_assoc, skip_white by exact Ha'. reflexivity.
  - cbn [List.length] in Hf. rewrite app_length in Hf. cbn [List.length] in Hf. destruct f as [|f]; [lia|].
    cbn [parse_value]. rewrite skip_white by exact Ha. cbn [app skip_ws].
    change (is_ws "{"%char) with false. cbn [Ascii.eqb Bool.eqb quote].
    rewrite (enter_deeper w n m Hm). rewrite <- app_assoc. cbn [app].
    assert (exists b r, skip_ws (s ++ "}"%char :: t) = b :: r /\ Ascii.eqb b "}"%char = false) as (b & r & E & Eb).
    { inversion He as [w1 sh1 w2 sh2 n' a1 k1 key1 b1 c1 s1 d1 j1 Ha1 Hb1 Hc1 Hd1 Hk Hw Hv
        |w1 sh1 w2 sh2 n' a1 k1 key1 b1 c1 s1 d1 t1 j1 l1 Ha1 Hb1 Hc1 Hd1 Hk Hw Hv _]; subst;
        destruct Hk; rewrite <- app_assoc, skip_white by exact Ha1; do 2 eexists; split; reflexivity. }
    rewrite E, Eb, (proj2 (proj2 texts_read) w sh m s l He) by lia. reflexivity.
Qed.

(** Only white space can be lost from the end of a text that is read. *)
Lemma doc_whole sh p rest j j' : parse_doc sh (p ++ rest) = Some j -> parse_doc sh p = Some j' -> compound j ->
  compound j' -> j' = j /\ white rest.
Proof.
  intros H H' C C'. apply parse_doc_iff in H, H'.
  destruct H as (a & t & b & E & Ha & Hb & Hv). destruct H' as (a' & t' & b' & -> & Ha' & Hb' & Hv').
  set (f := (List.length t + List.length t')%nat).
  pose proof (compound_read _ _ _ _ _ a b f Hv C Ha ltac:(unfold f; lia)) as R.
  pose proof (compound_read _ _ _ _ _ a' (b' ++ rest) f Hv' C' Ha' ltac:(unfold f; lia)) as R'.
  assert (a' ++ t' ++ b' ++ rest = a ++ t ++ b) as E' by (rewrite <- E; now rewrite <- !app_assoc).
  assert (POk j b = POk j' (b' ++ rest)) as Q by (rewrite <- R, <- R'; now f_equal).
  injection Q as -> ->.
  split; [reflexivity|]. unfold white in *. now apply Forall_app in Hb.
Qed.

Definition takes_compound {A : Type} (de : json -> option A) : Prop := forall j x, de j = Some x -> compound j.

Lemma reader_whole {A : Type} sh (de : json -> option A) : takes_compound de ->
  whole_only (fun s => opt_bind (parse_doc sh s) de).
Proof.
  intros T p rest x x' H H'. cbv beta in *.
  destruct (parse_doc sh (p ++ rest)) as [j|] eqn:E; [|discriminate].
  destruct (parse_doc sh p) as [j'|] eqn:E'; [|discriminate]. cbn [opt_bind] in H, H'.
  destruct (doc_whole _ _ _ _ _ E E' (T _ _ H) (T _ _ H')) as [-> W]. split; [|exact W].
  rewrite H in H'. now injection H'.
Qed.

Ltac compound_only := intros j x; destruct j; (exact (fun _ => I) || discriminate).

Lemma documents_whole d :
  whole_only offer_from_json /\ whole_only metadata_from_json
  /\ whole_only credential_request_from_json /\ whole_only credential_success_from_json
  /\ whole_only token_request_from_json /\ whole_only token_success_from_json
  /\ whole_only header_from_json /\ whole_only (claims_from_json d)
  /\ whole_only cfp_from_json /\ whole_only token_options_from_json /\ whole_only c_nonce_from_json
  /\ whole_only (eval_options_from_json d) /\ whole_only (proof_jwt_from_json d)
  /\ whole_only token_code_from_json /\ whole_only issuer_code_from_json
  /\ whole_only auth_server_metadata_from_json.
Proof.
  repeat match goal with |- _ /\ _ => split end; unfold whole_only;
    [refine (reader_whole _ de_offer _)|refine (reader_whole _ de_metadata _)|refine (reader_whole _ de_request _)
    |refine (reader_whole _ de_credential_success _)|refine (reader_whole _ de_token_request _)
    |refine (reader_whole _ de_token_success _)|refine (reader_whole _ de_header _)|refine (reader_whole _ (de_body d) _)
    |refine (reader_whole _ de_cfp _)|refine (reader_whole _ de_token_options _)|refine (reader_whole _ de_c_nonce _)
    |refine (reader_whole _ (de_eval_options d) _)|refine (reader_whole _ (de_proof_jwt d) _)
    |refine (reader_whole _ de_token_code _)|refine (reader_whole _ de_issuer_code _)
    |refine (reader_whole _ de_auth_server_metadata _)]; compound_only.
Qed.

(* ---------------- base64 ---------------- *)

Ltac opt_step H := match type of H with opt_bind ?o _ = _ => destruct o eqn:?; cbn [opt_bind] in H; [|discriminate H] end.
Ltac same_values :=
  repeat match goal with
  | A : Some ?a = Some ?b |- _ => injection A as A; subst a
  end.

Lemma nopad_cut al : forall n p rest x x', (List.length p <= n)%nat ->
  b64_decode_nopad al (p ++ rest) = Some x -> b64_decode_nopad al p = Some x' -> exists y, x = x' ++ y.
Proof.
  induction n as [|n IH]; intros p rest x x' L H H'.
  - destruct p; [|cbn [List.length] in L; lia]. cbn in H'. injection H' as <-. now exists x.
  - destruct p as [|a [|b [|c [|d p]]]].
    + cbn in H'. injection H' as <-. now exists x.
    + discriminate H'.
    + cbn [b64_decode_nopad] in H'. unfold b64_tail2 in H'. opt_step H'. opt_step H'.
      destruct (n1 mod 16 =? 0); [|discriminate]. injection H' as <-.
      destruct rest as [|c [|d r]]; cbn [app b64_decode_nopad] in H.
      * unfold b64_tail2 in H. opt_step H. opt_step H. destruct (_ =? _); [|discriminate]. injection H as <-.
        exists []. cbn [app]. congruence.
      * unfold b64_tail3 in H. opt_step H. opt_step H. opt_step H. destruct (_ =? _); [|discriminate]. injection H as <-.
        same_values. eexists. cbn [app]. reflexivity.
      * destruct (b64_quad al a b c d) as [q|] eqn:Q; [|discriminate]. cbn [opt_bind] in H. opt_step H.
        unfold b64_quad in Q. opt_step Q. opt_step Q. opt_step Q. opt_step Q. injection Q as <-. injection H as <-.
        same_values. eexists. cbn [app]. reflexivity.
    + cbn [b64_decode_nopad] in H'. unfold b64_tail3 in H'. opt_step H'. opt_step H'. opt_step H'.
      destruct (_ =? _); [|discriminate]. injection H' as <-.
      destruct rest as [|d r]; cbn [app b64_decode_nopad] in H.
      * unfold b64_tail3 in H. opt_step H. opt_step H. opt_step H. destruct (_ =? _); [|discriminate]. injection H as <-.
        exists []. cbn [app]. congruence.
      * destruct (b64_quad al a b c d) as [q|] eqn:Q; [|discriminate]. cbn [opt_bind] in H. opt_step H.
        unfold b64_quad in Q. opt_step Q. opt_step Q. opt_step Q. opt_step Q. injection Q as <-. injection H as <-.
        same_values. eexists. cbn [app]. reflexivity.
    + cbn [app b64_decode_nopad] in H, H'. destruct (b64_quad al a b c d) as [q|]; [|discriminate]. cbn [opt_bind] in H, H'.
      destruct (b64_decode_nopad al (p ++ rest)) as [t|] eqn:E; [|discriminate].
      destruct (b64_decode_nopad al p) as [t'|] eqn:E'; [|discriminate].
      cbn [opt_bind] in H, H'. injection H as <-. injection H' as <-.
      cbn [List.length] in L. destruct (IH p rest t t' ltac:(lia) E E') as (y & ->). exists y. now rewrite app_assoc.
Qed.

Lemma pad_cut al : b64_val al pad_char = None -> forall n p rest x x', (List.length p <= n)%nat ->
  b64_decode_pad al (p ++ rest) = Some x -> b64_decode_pad al p = Some x' -> exists y, x = x' ++ y.
Proof.
  intros P. assert (forall a b c d q, b64_quad al a b c d = Some q -> Ascii.eqb d pad_char = false) as QP.
  { intros a b c d q Q. unfold b64_quad in Q. opt_step Q. opt_step Q. opt_step Q. opt_step Q.
    destruct (Ascii.eqb d pad_char) eqn:E; [|reflexivity]. apply Ascii.eqb_eq in E. subst. congruence. }
  induction n as [|n IH]; intros p rest x x' L H H'.
  - destruct p; [|cbn [List.length] in L; lia]. cbn in H'. injection H' as <-. now exists x.
  - destruct p as [|a [|b [|c [|d p]]]]; try discriminate H'.
    + cbn in H'. injection H' as <-. now exists x.
    + destruct p as [|e p].
      * destruct rest as [|f r]; [rewrite app_nil_r in H; rewrite H in H'; injection H' as ->; exists []; now rewrite app_nil_r|].
        cbn [app b64_decode_pad] in H. destruct (b64_quad al a b c d) as [q|] eqn:Q; [|discriminate].
        cbn [b64_decode_pad] in H'. rewrite (QP _ _ _ _ _ Q), Q in H'. injection H' as <-.
        cbn [opt_bind] in H. opt_step H. injection H as <-. eauto.
      * change ((a :: b :: c :: d :: e :: p) ++ rest) with (a :: b :: c :: d :: (e :: p) ++ rest) in H.
        assert (forall l, l <> [] -> b64_decode_pad al (a :: b :: c :: d :: l)
          = let* q := b64_quad al a b c d in let* t := b64_decode_pad al l in Some (q ++ t)) as S
          by (intros [|]; [easy|reflexivity]).
        rewrite S in H, H' by discriminate. destruct (b64_quad al a b c d) as [q|]; [|discriminate]. cbn [opt_bind] in H, H'.
        destruct (b64_decode_pad al ((e :: p) ++ rest)) as [t|] eqn:E; [|discriminate].
        destruct (b64_decode_pad al (e :: p)) as [t'|] eqn:E'; [|discriminate].
        cbn [opt_bind] in H, H'. injection H as <-. injection H' as <-.
        cbn [List.length] in L. destruct (IH (e :: p) rest t t' ltac:(cbn [List.length]; lia) E E') as (y & ->).
        exists y. now rewrite app_assoc.
Qed.

Lemma base64_cut p rest x x' : base64_decode (p ++ rest) = Some x -> base64_decode p = Some x' -> exists y, x = x' ++ y.
Proof. apply (pad_cut alpha_std eq_refl (List.length p) p rest x x'). lia. Qed.
Lemma base64url_cut p rest x x' :
  base64url_decode (p ++ rest) = Some x -> base64url_decode p = Some x' -> exists y, x = x' ++ y.
Proof. apply (nopad_cut alpha_url (List.length p) p rest x x'). lia. Qed.

(* ---------------- tokens ---------------- *)

Lemma dot_cut a r a' r' : dotless a -> dotless a' -> a ++ "."%char :: r = a' ++ "."%char :: r' -> a = a' /\ r = r'.
Proof.
  revert a'. induction a as [|c a IH]; intros [|c' a'] D D' E; cbn [app] in E.
  - now injection E.
  - injection E as <- _. now destruct D'; left.
  - injection E as -> _. now destruct D; left.
  - injection E as <- E. destruct (IH a') as [-> ->]; auto; intros I; [apply D|apply D']; now right.
Qed.
Lemma before_dot p rest a r : dotless p -> p ++ rest = a ++ "."%char :: r -> exists y, a = p ++ y.
Proof.
  revert a. induction p as [|c p IH]; intros a D E; [now exists a|].
  destruct a as [|c' a]; cbn [app] in E; injection E as -> E; [now destruct D; left|].
  destruct (IH a) as (y & ->); [intros I; apply D; now right|exact E|]. now exists y.
Qed.
Lemma segment_cut t rest s s' : first_segment (t ++ rest) s -> first_segment t s' -> exists y, s = s' ++ y.
Proof.
  intros [[D ->]|(r & E & D)] [[D' ->]|(r' & -> & D')].
  - now exists rest.
  - exfalso. apply D. apply in_or_app. left. apply in_or_app. right. now left.
  - exact (before_dot _ _ _ _ D' E).
  - change (lit ".") with ["."%char] in E. rewrite <- app_assoc in E. cbn [app] in E. apply dot_cut in E as [-> _]; auto. exists []. now rewrite app_nil_r.
Qed.

Lemma token_cut d p rest j j' : jwt_from_str d (p ++ rest) = Ok j -> jwt_from_str d p = Ok j' ->
  j_header j' = j_header j /\ j_body j' = j_body j /\ signature_cut (j_signature j) (j_signature j').
Proof.
  intros H H'. apply from_str_iff in H as (hs & bs & tail & ht & bt & P & Bh & Bb & Fh & Fb & S).
  apply from_str_iff in H' as (hs' & bs' & tail' & ht' & bt' & P' & Bh' & Bb' & Fh' & Fb' & S').
  assert (hs' = hs /\ (exists y, bs = bs' ++ y) /\ forall t', tail' = Some t' -> bs' = bs /\ tail = Some (t' ++ rest))
    as (-> & (y & ->) & T).
  { inversion P' as [h' b' Dh' Db' E1|h' b' t' Dh' Db' E1]; subst h' b' p tail';
      change (lit ".") with ["."%char] in P; rewrite <- app_assoc in P; cbn [app] in P;
      inversion P as [h b Dh Db E2|h b t Dh Db E2]; subst h b tail;
      change (lit ".") with ["."%char] in E2; cbn [app] in E2; apply dot_cut in E2 as [-> E2]; auto; (split; [reflexivity|]).
    - split; [now exists rest|discriminate].
    - split; [|discriminate]. symmetry in E2. exact (before_dot _ _ _ _ Db' E2).
    - exfalso. apply Db. rewrite E2. apply in_or_app. left. apply in_or_app. right. now left.
    - rewrite <- app_assoc in E2. cbn [app] in E2. apply dot_cut in E2 as [-> ->]; auto.
      split; [exists []; now rewrite app_nil_r|]. intros t'' [= <-]. now split. }
  apply (proj1 (proj2 (proj2 codec_exact))) in Bh, Bh', Bb, Bb'.
  assert (ht' = ht) as -> by congruence.
  destruct (base64url_cut _ _ _ _ Bb Bb') as (z & ->).
  destruct (documents_whole d) as (_ & _ & _ & _ & _ & _ & _ & W & _).
  destruct (W _ _ _ _ Fb Fb') as [E _].
  split; [congruence|]. split; [exact E|].
  destruct tail' as [t'|], (j_signature j') as [s'|]; try easy; [|constructor].
  destruct (T t' eq_refl) as [_ ->]. destruct (j_signature j) as [s|]; [|easy]. cbn [signature_is] in S, S'.
  destruct (segment_cut _ _ _ _ S S') as (x & ->). constructor.
Qed.

(** A rejected proof is not accepted when its end is missing. *)
Lemma evaluation_cut d now m r r' offer asm doc options p p' rest j resp' :
  cr_proof r = Some p -> cr_proof r' = Some p' -> rp_jwt p = rp_jwt p' ++ rest ->
  jwt_from_str d (rp_jwt p) = Ok j ->
  evaluate_credential_request d now m r' offer asm doc options = Ok resp' ->
  exists resp pop pop', evaluate_credential_request d now m r offer asm doc options = Ok resp
    /\ er_subject_id resp = er_subject_id resp' /\ er_pop resp = Some pop /\ er_pop resp' = Some pop'
    /\ pop_algorithm pop = pop_algorithm pop' /\ pop_public_key pop = pop_public_key pop'.
Proof.
  intros HP HP' EJ HJ H. unfold evaluate_credential_request in H |- *. rewrite HP. rewrite HP' in H. rewrite HJ.
  destruct (metadata_validate m) as [[]|e|]; cbn [map_err bind] in *; try discriminate.
  destruct offer as [o|]; cbn [ok_or bind] in *; try discriminate.
  destruct (offer_validate o) as [[]|e|]; cbn [map_err bind] in *; try discriminate.
  destruct asm as [a|]; cbn [bind] in *; [destruct (auth_server_metadata_validate a); discriminate|].
  destruct (check_nonce_expiry now options) as [[]|e|]; cbn [bind] in *; try discriminate.
  destruct (jwt_from_str d (rp_jwt p')) as [j'|e|] eqn:HJ'; cbn [map_err bind] in *; try discriminate.
  rewrite EJ in HJ. destruct (token_cut d _ _ _ _ HJ HJ') as (Eh & Eb & S).
  destruct j as [h b s], j' as [h' b' s']. cbn [j_header j_body j_signature] in *. subst h' b'.
  unfold jwt_validate, jwt_check_nonce, jwt_check_iss, jwt_check_aud, jwt_extract_did in *.
  cbn [j_header j_body] in *.
  destruct (header_validate d h) as [[]|e|]; cbn [map_err bind] in *; try discriminate.
  destruct (body_validate b) as [[]|e|]; cbn [map_err bind] in *; try discriminate.
  destruct (opt_str_eqb (Some (b_nonce b)) _); cbn [map_err bind] in *; try discriminate.
  destruct (should_validate_iss options o); cbn [map_err bind] in *;
    [destruct (opt_str_eqb (b_iss b) _); cbn [map_err bind] in *; try discriminate|].
  all: destruct (str_eqb (b_aud b) _); cbn [map_err bind] in *; try discriminate.
  all: destruct (header_extract_key_and_alg d h doc) as [ka|e|]; cbn [map_err bind] in *; try discriminate.
  all: set (j := {| j_header := h; j_body := b; j_signature := s |}) in *;
    set (j' := {| j_header := h; j_body := b; j_signature := s' |}) in *;
    destruct (jwt_extract_signature d j') as [sg'|e|] eqn:E'; cbn [map_err bind] in H; try discriminate H;
    assert (exists sg, jwt_extract_signature d j = Ok sg) as (sg & Eg) by
      (destruct s as [x|];
        [destruct (extract_signature_cases d j) as [(sg & E & _)|[_ N]]; [now exists sg|];
         exfalso; apply N, raw_signed; discriminate
        |inversion S; subst s'; now exists sg']);
    rewrite Eg; cbn [map_err bind];
    destruct (signable d j) as (mg & Em & _), (signable d j') as (mg' & Em' & _);
    rewrite Em; rewrite Em' in H; cbn [map_err bind] in *;
    (destruct (match h_additional h with Some _ => _ | None => _ end) as [did|e|]; cbn [map_err bind] in *; try discriminate H);
    injection H as <-; do 3 eexists; repeat split; reflexivity.
Qed.

(* ---------------- offers in URLs ---------------- *)

Lemma percent_cut p t' : percent_decoded p t' -> forall rest t, percent_decoded (p ++ rest) t ->
  exists y, t = t' ++ y /\ percent_decoded rest y.
Proof.
  intros H. induction H as [|c s t' Hc H IH|h l a b c s t' Hh Hl Hc H IH]; intros rest t D; cbn [app] in D.
  - exists t. now split.
  - inversion D as [|c0 s0 t0 Hc0 D0|h0 l0 a0 b0 c0 s0 t0 Hh0 Hl0 Hc0 D0]; subst; [|easy].
    destruct (IH _ _ D0) as (y & -> & Y). now exists y.
  - inversion D as [|c0 s0 t0 Hc0 D0|h0 l0 a0 b0 c0 s0 t0 Hh0 Hl0 Hc0 D0]; subst; [easy|].
    destruct (IH _ _ D0) as (y & -> & Y). exists y. split; [|exact Y].
    assert (forall x n n', hex_digit x n -> hex_digit x n' -> n = n') as U
      by (intros x n n' [] K; inversion K; lia).
    assert (c0 = c) as -> by (apply code_inj; rewrite Hc0, Hc, (U _ _ _ Hh0 Hh), (U _ _ _ Hl0 Hl); reflexivity).
    reflexivity.
Qed.

Lemma print_object m : print (JObj m)
  = (lit "{" ++ join (lit ",") (map (fun kv => print_str (fst kv) ++ lit ":" ++ print (snd kv)) m)) ++ ["}"%char].
Proof. cbn [print]. now rewrite <- app_assoc. Qed.
Lemma exists_last_or_nil {A : Type} (l : list A) : l = [] \/ exists l' x, l = l' ++ [x].
Proof. destruct l using rev_ind; [now left|right]. eauto. Qed.

Lemma offer_url_cut m creds ep a p o url n part rest text o' :
  create_offer m creds ep a p = Ok (o, url) ->
  rust_string (im_credential_issuer m) -> Forall (credential_or_id_ok n) creds ->
  on_some preauth_flow_ok p -> (n <= 122)%nat ->
  url = offer_url_prefix ep ++ part ++ rest -> percent_decoded part text -> offer_from_json text = Some o' ->
  rest = [].
Proof.
  intros H H1 H2 H3 Hn E D R.
  pose proof (created_offer_ok _ _ _ _ _ _ _ n H H1 H2 H3) as Ho.
  apply create_offer_ok in H as (_ & _ & _ & _ & ->). apply app_inv_head in E.
  pose proof (percent_decoded_encode (offer_to_json o)) as F.
  rewrite E in F.
  destruct (percent_cut _ _ D _ _ F) as (y & Ey & Y).
  pose proof (offer_json_rt n o Ho Hn) as R0. rewrite Ey in R0.
  assert (whole_only offer_from_json) as W by (refine (reader_whole _ de_offer _); compound_only).
  destruct (W _ _ _ _ R0 R) as [_ Wy].
  assert (y = []) as ->.
  { destruct (exists_last_or_nil y) as [->|(y' & c & ->)]; [reflexivity|]. exfalso.
    apply Forall_app in Wy as [_ Wc]. inversion Wc as [|? ? K _]; subst.
    assert (exists x, offer_to_json o = x ++ ["}"%char]) as (x & Ex).
    { unfold offer_to_json, ser_offer. rewrite print_object. eexists. reflexivity. }
    rewrite Ex, app_assoc in Ey. apply app_inj_tail in Ey as [_ <-]. destruct K as [K|[K|[K|K]]]; discriminate K. }
  now inversion Y.
Qed.
