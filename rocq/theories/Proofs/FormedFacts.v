(** What is read is well-formed, and what is written is UTF-8 (C128, C129). *)
From Coq Require Import Lia.
From Verif Require Import Model.Prelude Model.Json Model.Percent Model.Types Model.Deps Model.Chrono Model.Jwt Model.CredentialIssuer
  Model.Errors Model.Serde Model.SerdeOptions Model.Wire
  Spec SpecNumber SpecOffer SpecToken SpecJwt SpecJson SpecDocuments SpecWire SpecRelay SpecAnyErrors SpecEvaluation
  Proofs.StrFacts Proofs.Utf8Facts Proofs.JsonFacts Proofs.SerdeFacts Proofs.JwtFacts Proofs.TokenFacts Proofs.OfferFacts
  Proofs.ResponseFacts Proofs.DocumentFacts Proofs.GrammarFacts Proofs.TimeFacts Proofs.DepthFacts Proofs.EvalFacts Proofs.EvalFacts2 Proofs.ErrorFacts Proofs.ErrorTexts Proofs.WireFacts
  Proofs.FloatText Proofs.RelayFacts Proofs.RenumberFacts Proofs.AnyErrors Proofs.GrowthFacts.

(* ---------------- texts and dots ---------------- *)

Lemma past_bytes (c : ascii) (bs s a b : str) : ~ In c bs -> bs ++ s = a ++ c :: b ->
  exists a', a = bs ++ a' /\ s = a' ++ c :: b.
Proof.
  revert a. induction bs as [|x bs IH]; intros a N E; [now exists a|].
  destruct a as [|y a]; cbn [app] in E; injection E as -> E.
  - exfalso. apply N. now left.
  - destruct (IH a) as (a' & -> & ->); [intros I; apply N; now right|exact E|]. now exists a'.
Qed.

Lemma around (c : ascii) (s : str) : code c < 128 -> rust_string s -> forall a b, s = a ++ c :: b ->
  rust_string a /\ rust_string b.
Proof.
  intros C R. induction R as [|x bs s S U R IH]; intros a b E; [destruct a; discriminate E|].
  assert (M : bs = [c] \/ ~ In c bs).
  { inversion U as [y Y|y e f Y E1 E2|y e f g Y E1 E2 E3|y e f g h Y E1 E2 E3 E4]; subst.
    - destruct (Ascii.eqb_spec y c) as [->|D]; [now left|right]. intros [I|[]]. contradiction.
    - right. intros [<-|[<-|[]]]; lia.
    - right. intros [<-|[<-|[<-|[]]]]; lia.
    - right. intros [<-|[<-|[<-|[<-|[]]]]]; lia. }
  assert (K : ~ In c bs -> rust_string a /\ rust_string b).
  { intros N. destruct (past_bytes c bs s a b N E) as (a' & -> & E'). destruct (IH a' b E') as (A & B).
    split; [now apply (rs_cons x)|exact B]. }
  destruct M as [->|N]; [|exact (K N)].
  destruct a as [|y a]; cbn [app] in E.
  - injection E as <-. split; [constructor|exact R].
  - injection E as <- E2. destruct (IH a b E2) as (A & B). split; [|exact B]. exact (rs_cons x [c] a S U A).
Qed.

Lemma around_dot a b : rust_string (a ++ lit "." ++ b) -> rust_string a /\ rust_string b.
Proof. intros R. apply (around "."%char (a ++ lit "." ++ b)); [reflexivity|exact R|reflexivity]. Qed.

Lemma parts_strings s h b t : rust_string s -> token_parts s h b t ->
  rust_string h /\ rust_string b /\ on_some rust_string t.
Proof.
  intros R P. destruct P as [h b _ _|h b t _ _]; apply around_dot in R as (H & R).
  - split; [exact H|]. split; [exact R|]. intros x E. discriminate E.
  - apply around_dot in R as (B & T). split; [exact H|]. split; [exact B|]. intros x [= <-]. exact T.
Qed.

Lemma segment_string t s : rust_string t -> first_segment t s -> rust_string s.
Proof. intros R [(_ & ->)|(rest & -> & _)]; [exact R|]. now apply around_dot in R. Qed.

(* ---------------- what is read ---------------- *)

Lemma token_request_formed s x : token_request_from_json s = Some x -> token_request_ok x.
Proof. intros H. apply token_request_reading in H as (v & T & V). apply spelt_text in T. exact (token_request_sound 127 v x T V). Qed.
Lemma token_success_formed s x : token_success_from_json s = Some x -> token_success_ok x.
Proof. intros H. apply token_success_reading in H as (v & T & V). apply spelt_text in T. exact (token_success_sound 127 v x T V). Qed.
Lemma token_options_formed s x : token_options_from_json s = Some x -> token_options_ok x.
Proof. intros H. apply token_options_reading in H as (v & T & V). apply spelt_text in T. exact (token_options_sound 127 v x T V). Qed.
Lemma c_nonce_formed s x : c_nonce_from_json s = Some x -> c_nonce_ok x.
Proof. intros H. apply c_nonce_reading in H as (v & T & V). apply spelt_text in T. exact (c_nonce_sound 127 v x T V). Qed.
Lemma header_formed s x : header_from_json s = Some x -> header_ok x.
Proof. intros H. apply header_reading in H as (v & T & V). apply spelt_text in T. exact (header_sound 127 v x T V). Qed.
Lemma claims_formed d s x : dates_in_range d -> claims_from_json d s = Some x -> body_ok x /\ body_instants_ok x.
Proof. intros Hd H. apply claims_reading in H as (v & T & V). apply spelt_text in T. exact (claims_sound d Hd 127 v x T V). Qed.
Lemma eval_options_formed d s x : dates_in_range d -> eval_options_from_json d s = Some x -> eval_options_ok x.
Proof. intros Hd H. apply eval_options_reading in H as (v & T & V). apply spelt_text in T. exact (eval_options_sound d Hd 127 v x T V). Qed.
Lemma proof_jwt_formed d s x : dates_in_range d -> proof_jwt_from_json d s = Some x -> proof_jwt_ok x.
Proof. intros Hd H. apply proof_jwt_reading in H as (v & T & V). apply spelt_text in T. exact (proof_jwt_sound d Hd 127 v x T V). Qed.
Lemma credential_formed s x : cfp_from_json s = Some x -> cfp_with (value_any 124) x.
Proof. intros H. apply cfp_reading in H as (v & T & V). apply spelt_text in T. exact (credential_sound Alone 127 v x T V). Qed.
Lemma offer_formed s x : offer_from_json s = Some x -> offer_with (value_any 122) x.
Proof. intros H. apply offer_reading in H as (v & T & V). apply spelt_text in T. exact (offer_sound 127 v x T V). Qed.
Lemma request_formed s x : credential_request_from_json s = Some x -> request_with (value_any 124) x.
Proof. intros H. apply credential_request_reading in H as (v & T & V). apply spelt_text in T. exact (request_sound 127 v x T V). Qed.
Lemma response_formed s x : credential_success_from_json s = Some x -> credential_success_with (value_any 122) x.
Proof. intros H. apply credential_success_reading in H as (v & T & V). apply spelt_text in T. exact (success_sound 127 v x T V). Qed.
Lemma metadata_formed s x : metadata_from_json s = Some x -> metadata_with (value_any 122) (value_any 126) x.
Proof.
  intros H. apply metadata_reading in H as (v & T & m & -> & V). apply spelt_text in T.
  exact (proj1 (metadata_sound 127 m x T V)).
Qed.

(** A token that arrived as text. *)
Lemma token_formed d s j : dates_in_range d -> jwt_from_str d s = Ok j ->
  header_ok (j_header j) /\ body_ok (j_body j) /\ body_instants_ok (j_body j)
  /\ (rust_string s -> on_some rust_string (j_signature j)).
Proof.
  intros Hd H. apply proof_token_iff in H as (hs & bs & tail & ht & bt & P & _ & _ & H & B & G).
  apply header_formed in H. apply (claims_formed d _ _ Hd) in B as (B1 & B2).
  split; [exact H|]. split; [exact B1|]. split; [exact B2|].
  intros R. apply (parts_strings _ _ _ _ R) in P as (_ & _ & T). intros sig E. rewrite E in G.
  destruct tail as [t|]; [|contradiction G]. exact (segment_string t sig (T t eq_refl) G).
Qed.

(* ---------------- what is written ---------------- *)

Lemma escaped_string s : rust_string s -> rust_string (flat_map escape_byte s).
Proof.
  assert (HX : forall n, n < 16 -> code (hex_lower n) < 128).
  { intros n L. unfold hex_lower. destruct (n <? 10) eqn:E.
    - apply N.ltb_lt in E. rewrite code_chr; lia.
    - rewrite code_chr; lia. }
  assert (High : forall b, 128 <= code b -> escape_byte b = [b]).
  { intros b L. unfold escape_byte. cbv zeta.
    repeat match goal with |- context [?x =? ?y] => replace (x =? y) with false by (symmetry; apply N.eqb_neq; lia) end.
    replace (code b <? 32) with false by (symmetry; apply N.ltb_ge; lia). reflexivity. }
  assert (Low : forall b, code b < 128 -> ascii_only (escape_byte b) = true).
  { intros b L. unfold escape_byte, ascii_only. cbv zeta.
    repeat match goal with |- context [if ?x then _ else _] => destruct x eqn:? end;
      cbn [forallb]; rewrite ?andb_true_iff; repeat split; try reflexivity; apply N.ltb_lt; try exact L.
    - apply HX. apply N.div_lt_upper_bound; lia.
    - apply HX. apply N.mod_lt. discriminate. }
  induction 1 as [|x bs s S U R IH]; [constructor|]. rewrite flat_map_app. apply rust_string_app; [|exact IH].
  inversion U as [y Y|y e f Y E1 E2|y e f g Y E1 E2 E3|y e f g h Y E1 E2 E3 E4]; subst; cbn [flat_map].
  - rewrite app_nil_r. apply rust_string_ascii, Low, Y.
  - rewrite !High by lia. cbn [app]. rewrite <- (app_nil_r [e; f]). now apply (rs_cons x); [| |constructor].
  - rewrite !High by lia. cbn [app]. rewrite <- (app_nil_r [e; f; g]). now apply (rs_cons x); [| |constructor].
  - rewrite !High by lia. cbn [app]. rewrite <- (app_nil_r [e; f; g; h]). now apply (rs_cons x); [| |constructor].
Qed.

Lemma printed_str s : rust_string s -> rust_string (print_str s).
Proof.
  intros R. unfold print_str. change (quote :: flat_map escape_byte s ++ [quote]) with ([quote] ++ flat_map escape_byte s ++ [quote]).
  apply rust_string_app; [now apply rust_string_ascii|]. apply rust_string_app; [now apply escaped_string|now apply rust_string_ascii].
Qed.

Lemma digits_ascii s : Forall (fun c => 48 <= code c <= 57) s -> ascii_only s = true.
Proof.
  intros F. unfold ascii_only. rewrite forallb_forall. rewrite Forall_forall in F. intros c I. apply F in I. apply N.ltb_lt. lia.
Qed.

Lemma decimal_ascii n s : decimal_text n s -> ascii_only s = true.
Proof. intros ((_ & D) & _). now apply digits_ascii. Qed.
Lemma ascii_app a b : ascii_only (a ++ b) = true <-> ascii_only a = true /\ ascii_only b = true.
Proof. unfold ascii_only. now rewrite forallb_app, andb_true_iff. Qed.
Lemma integer_ascii z s : integer_text z s -> ascii_only s = true.
Proof.
  intros [(_ & D)|(_ & t & -> & D)]; [exact (decimal_ascii _ _ D)|].
  apply (ascii_app ["-"%char] t). split; [reflexivity|exact (decimal_ascii _ _ D)].
Qed.
Lemma zeros_ascii s : Forall (eq "0"%char) s -> ascii_only s = true.
Proof. induction 1 as [|c s <- _ IH]; [reflexivity|exact IH]. Qed.
Lemma layout_ascii d k u : decimal_layout d k u -> ascii_only u = true.
Proof.
  intros H. destruct H as [ds zeros T _ _ Z _|a b T _ _ _ _|ds zeros T _ Z _|c ex T _ X|c ds ex T _ _ X];
    apply decimal_ascii in T; try apply zeros_ascii in Z; try apply integer_ascii in X;
    try (apply (ascii_app [c] ds) in T as (T1 & T2)); rewrite !ascii_app in *; repeat split; try tauto; reflexivity.
Qed.
Lemma f64_ascii t : f64_text t -> ascii_only t = true.
Proof.
  intros (neg & x & Hn & [(_ & ->)|(_ & d & k & u & _ & L & ->)]); apply ascii_app; (split; [now destruct Hn as [->| ->]|]).
  - reflexivity.
  - exact (layout_ascii d k u L).
Qed.

Lemma joined_string sep l : rust_string sep -> Forall rust_string l -> rust_string (join sep l).
Proof.
  intros S. induction l as [|x l IH]; intros F; [constructor|]. apply Forall_cons_iff in F as (X & F).
  destruct l as [|y l]; [exact X|].
  change (join sep (x :: y :: l)) with (x ++ sep ++ join sep (y :: l)).
  apply rust_string_app; [exact X|]. apply rust_string_app; [exact S|now apply IH].
Qed.

Lemma print_string v : json_any v -> rust_string (print v).
Proof.
  induction v as [|b|z|t|s|l IH|m IH] using json_ind'; intros J; inversion J as [| |? Z|? F|? R|? G|? K G]; subst; cbn [print].
  - now apply rust_string_ascii.
  - destruct b; now apply rust_string_ascii.
  - apply rust_string_ascii, (integer_ascii z), integer_text_iff. reflexivity.
  - now apply rust_string_ascii, f64_ascii.
  - now apply printed_str.
  - apply rust_string_app; [now apply rust_string_ascii|]. apply rust_string_app; [|now apply rust_string_ascii].
    apply joined_string; [now apply rust_string_ascii|]. rewrite Forall_map, Forall_forall. rewrite Forall_forall in IH.
    intros x I. apply (IH x I), (G x I).
  - apply rust_string_app; [now apply rust_string_ascii|]. apply rust_string_app; [|now apply rust_string_ascii].
    apply joined_string; [now apply rust_string_ascii|]. rewrite Forall_map, Forall_forall. rewrite Forall_forall in IH.
    intros (k, x) I. cbn [fst snd]. apply rust_string_app; [apply printed_str, (K k x I)|].
    apply rust_string_app; [now apply rust_string_ascii|]. exact (IH (k, x) I (G k x I)).
Qed.

Lemma url_encoded_ascii s : ascii_only (url_encode s) = true.
Proof.
  assert (HX : forall n, n < 16 -> code (hex_upper n) < 128).
  { intros n L. unfold hex_upper. destruct (n <? 10) eqn:E.
    - apply N.ltb_lt in E. rewrite code_chr; lia.
    - rewrite code_chr; lia. }
  unfold url_encode. induction s as [|b s IH]; [reflexivity|]. cbn [flat_map]. apply ascii_app. split; [|exact IH].
  unfold url_encode_byte. destruct (is_unreserved b) eqn:E.
  - unfold ascii_only. cbn [forallb]. rewrite andb_true_r. apply N.ltb_lt. unfold is_unreserved in E.
    clear - E. destruct b as [[] [] [] [] [] [] [] []]; vm_compute in E; try discriminate E; reflexivity.
  - unfold ascii_only. cbn [forallb]. rewrite !andb_true_iff. repeat split; apply N.ltb_lt; try reflexivity.
    + apply HX, N.div_lt_upper_bound; [discriminate|]. apply code_bound.
    + apply HX, N.mod_lt. discriminate.
Qed.

(* ---------------- evaluation ---------------- *)

Section Raw.
Context (d : deps) (rt : dt_round_trips d) (ranged : dates_in_range d).

Lemma raw_string s j : rust_string s -> jwt_from_str d s = Ok j -> rust_string (raw_text d j).
Proof.
  intros R H. apply (token_formed d s j ranged) in H as (H & B1 & B2 & G). specialize (G R). unfold raw_text.
  apply rust_string_app; [apply print_string, (good_any 1), good_header, H|].
  apply rust_string_app; [now apply rust_string_ascii|].
  apply rust_string_app; [apply print_string, (good_any 1); now apply good_body|].
  destruct (j_signature j) as [sig|]; [|constructor].
  apply rust_string_app; [now apply rust_string_ascii|exact (G sig eq_refl)].
Qed.

Lemma second_dot_string t sig : rust_string t -> after_second_dot t sig -> rust_string sig.
Proof. intros R (a & b & _ & _ & ->). apply around_dot in R as (_ & R). now apply around_dot in R as (_ & R). Qed.

Lemma message_string t m : rust_string t -> message_of t m -> rust_string m.
Proof.
  intros R [(a & b & c & _ & _ & _ & -> & ->)|(_ & ->)]; [|exact R].
  apply around_dot in R as (A & R). apply around_dot in R as (B & _).
  apply rust_string_app; [exact A|]. apply rust_string_app; [now apply rust_string_ascii|exact B].
Qed.

Lemma evaluated_formed s now m r offer asm doc options resp : lower_case_facts d ->
  credential_request_from_json s = Some r ->
  evaluate_credential_request d now m r offer asm doc options = Ok resp ->
  cfp_with (value_any 124) (er_credential resp)
  /\ exists pop, er_pop resp = Some pop /\ rust_string (pop_message pop) /\ rust_string (pop_signature pop).
Proof.
  intros HL Q E. apply request_formed in Q as (Q1 & Q2).
  apply (accepted_inv d now m r offer asm doc options resp HL) in E
    as (_ & _ & o & p & j & n & doc' & kid & u & k & opts & pop & _ & _ & _ & _ & _ & P & T & _ & _ & _ & _ & _ & _ & _ & _ & O & _ & _ & M & S & _ & C).
  apply proof_token_iff in T. specialize (Q2 p P). assert (rust_string (raw_text d j)) as R.
  { apply (raw_string (rp_jwt p)); [apply Q2|exact T]. }
  rewrite C. split; [exact Q1|]. exists pop. split; [exact O|].
  split; [exact (message_string _ _ R M)|exact (second_dot_string _ _ R S)].
Qed.
End Raw.

(* ---------------- documents ---------------- *)

Lemma token_options_string x : token_options_ok x -> rust_string (token_options_to_json x).
Proof.
  intros O. apply print_string, any_obj. jfields. apply any_opt. intros n E. apply (good_any 0), jgood_N, (O n E).
Qed.
Lemma c_nonce_string x : c_nonce_ok x -> rust_string (c_nonce_to_json x).
Proof.
  intros (O1 & O2). apply print_string, any_obj. jfields; [now constructor|]. apply (good_any 0). now apply good_opt_u32.
Qed.

(** Errors. *)
Lemma answer_string {T : Type} d (code : T -> json) x s : json_any (code (resp_error x)) ->
  on_some rust_string (resp_description x) -> on_some rust_string (resp_uri x) ->
  on_some json_any (resp_details x) -> option_map print (ser_error_response d code x) = Some s -> rust_string s.
Proof.
  intros C D U O W. destruct (ser_error_response d code x) as [v|] eqn:E; [|discriminate W]. injection W as <-.
  apply print_string. unfold ser_error_response in E. cbv zeta in E.
  assert (F : Forall member_any (field "error" (code (resp_error x))
    ++ field "error_description" (ser_opt JStr (resp_description x)) ++ field "error_uri" (ser_opt JStr (resp_uri x)))).
  { jfields; [exact C|now apply any_opt_str|now apply any_opt_str]. }
  assert (K : json_any (JObj (field "error" (code (resp_error x))
    ++ field "error_description" (ser_opt JStr (resp_description x)) ++ field "error_uri" (ser_opt JStr (resp_uri x)))))
    by now apply any_obj.
  destruct (resp_details x) as [[| | | | | |m]|] eqn:R; try discriminate E.
  - destruct (flatten_unit_ok d); [|discriminate E]. injection E as <-. exact K.
  - assert (G : Forall member_any m).
    { specialize (O _ eq_refl). inversion O as [| | | | | |? M1 M2]; subst. rewrite Forall_forall.
      intros (k, w) I. split; [exact (M1 k w I)|exact (M2 k w I)]. }
    injection E as <-. apply any_obj. exact (proj2 (Forall_app member_any _ m) (conj F G)).
  - injection E as <-. exact K.
Qed.
Lemma token_answer_string d x s : on_some rust_string (resp_description x) -> on_some rust_string (resp_uri x) ->
  on_some json_any (resp_details x) -> token_error_response_to_json d x = Some s -> rust_string s.
Proof. intros D U O. apply (answer_string d ser_token_code x s); [|exact D|exact U|exact O]. constructor. apply token_variant_string. Qed.
Lemma issuer_answer_string d x s : on_some rust_string (resp_description x) -> on_some rust_string (resp_uri x) ->
  on_some json_any (resp_details x) -> issuer_error_response_to_json d x = Some s -> rust_string s.
Proof. intros D U O. apply (answer_string d ser_issuer_code x s); [|exact D|exact U|exact O]. constructor. apply issuer_variant_string. Qed.

Lemma display_string e : information_any e -> rust_string (error_information_display e).
Proof.
  intros H. unfold error_information_display. rewrite information_json. now apply print_string, information_members_any.
Qed.

Lemma link_string m credentials endpoint a p offer url : create_offer m credentials endpoint a p = Ok (offer, url) ->
  (exists start rest, url = start ++ lit "credential_offer=" ++ rest
     /\ Forall (fun c => code c < 128) rest
     /\ (endpoint = None -> start = lit "openid-credential-offer://")
     /\ (forall e, endpoint = Some e -> start = e ++ lit "?"))
  /\ (on_some rust_string endpoint -> rust_string url).
Proof.
  unfold create_offer. destruct (map_err IValidationError (metadata_validate m)) as [?|?|]; try discriminate. cbn [bind].
  destruct (is_some a); try discriminate. destruct (resolve_all m credentials) as [?|?|]; try discriminate.
  unfold offer_url_encode. cbn [bind]. set (rest := url_encode _). intros H.
  assert (A : ascii_only rest = true) by apply url_encoded_ascii. clearbody rest.
  injection H as _ <-. split.
  - exists (match endpoint with None => lit "openid-credential-offer://" | Some u => u ++ lit "?" end), rest.
    split; [reflexivity|]. split; [|split].
    + unfold ascii_only in A. rewrite forallb_forall in A. rewrite Forall_forall. intros c I. now apply N.ltb_lt, A.
    + intros ->. reflexivity.
    + intros e ->. reflexivity.
  - intros E. apply rust_string_app; [|exact (rust_string_app (lit "credential_offer=") rest (rust_string_ascii (lit "credential_offer=") eq_refl) (rust_string_ascii rest A))].
    destruct endpoint as [e|]; [|now apply rust_string_ascii].
    apply rust_string_app; [exact (E e eq_refl)|now apply rust_string_ascii].
Qed.
