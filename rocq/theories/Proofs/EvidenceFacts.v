(** What the returned message says about the token: proofs for Properties/Evidence.v. *)
From Coq Require Import Lia.
From Verif Require Import Model.Prelude Model.Base64 Model.Json Model.Types Model.Deps Model.Serde Model.Errors
  Model.Jwt Model.AccessToken Model.CredentialIssuer Model.Percent Model.Wire
  Spec SpecToken SpecOffer SpecJwt SpecEvaluation SpecEvidence
  Proofs.StrFacts Proofs.Base64Facts Proofs.Base64Bits Proofs.JsonFacts Proofs.ReaderFacts Proofs.SerdeFacts Proofs.JwtFacts Proofs.EvalFacts Proofs.EvalFacts2
  Proofs.EvalFacts3 Proofs.OfferFacts.

(* ---------------- a written object ends where its text ends ---------------- *)

Lemma parse_print_obj m sh fuel d t :
  json_ok (JObj m) -> (2 * List.length (print (JObj m)) + 1 <= fuel)%nat ->
  parse_value false sh fuel d (print (JObj m) ++ t) = POk (JObj m) t.
Proof.
  intros Hok Hf. destruct fuel as [|f]; [lia|].
  inversion Hok as [| | | | | |m' H1 H2]; subst. cbn [print].
  change (lit "{") with ["{"%char]. change (lit "}") with ["}"%char].
  change (fun kv : str * json => print_str (fst kv) ++ lit ":" ++ print (snd kv)) with member.
  cbn [app parse_value skip_ws]. change (is_ws "{"%char) with false. cbv iota.
  change (Ascii.eqb "{"%char quote) with false. change (Ascii.eqb "{"%char "["%char) with false.
  change (Ascii.eqb "{"%char "{"%char) with true. cbv iota.
  destruct (enter_ok false d 0%nat (or_introl eq_refl)) as (d' & -> & Hd').
  cbn [print] in Hf. rewrite !app_length in Hf.
  change (fun kv : str * json => print_str (fst kv) ++ lit ":" ++ print (snd kv)) with member in Hf.
  change (List.length (lit "{")) with 1%nat in Hf. change (List.length (lit "}")) with 1%nat in Hf.
  destruct m as [|x m]; [reflexivity|].
  rewrite <- app_assoc. cbn [app].
  destruct (join_head_nonws (map member (x :: m)) ("}"%char :: t) "}"%char) as (b & r & E & W & B).
  { discriminate. }
  { intros y Hy. apply in_map_iff in Hy. destruct Hy as (z & <- & Hz).
    eexists. eexists. split; [reflexivity|]. auto. }
  rewrite E at 1. cbn [skip_ws]. rewrite W, B.
  change (list ascii) with str in Hf.
  rewrite parse_members_print;
    [reflexivity|discriminate|apply Forall_forall; intros kv _; apply parse_print_value|exact H1|exact H2|now left|lia].
Qed.

Lemma object_prefix m1 m2 t1 t2 :
  json_ok (JObj m1) -> json_ok (JObj m2) ->
  print (JObj m1) ++ t1 = print (JObj m2) ++ t2 -> m1 = m2 /\ t1 = t2.
Proof.
  intros H1 H2 E.
  set (f := (2 * List.length (print (JObj m1)) + 1 + (2 * List.length (print (JObj m2)) + 1))%nat).
  pose proof (parse_print_obj m1 Whole f 0%nat t1 H1 ltac:(subst f; lia)) as P1.
  pose proof (parse_print_obj m2 Whole f 0%nat t2 H2 ltac:(subst f; lia)) as P2.
  rewrite E, P2 in P1. now injection P1 as -> ->.
Qed.

(* ---------------- texts inside claims ---------------- *)

Lemma de_str_ok v s : json_read v -> de_str v = Some s -> rust_string s.
Proof. intros H. destruct v; try discriminate. intros [= <-]. now inversion H. Qed.

Lemma opt_str_ok o s : (forall v, o = Some v -> json_read v) -> opt de_str o = Some s -> on_some rust_string s.
Proof.
  intros H E. destruct o as [v|]; cbn [opt] in E; [|injection E as <-; easy].
  intros x ->. destruct v; cbn [opt_bind de_str] in E; try discriminate.
  injection E as <-. specialize (H _ eq_refl). now inversion H.
Qed.

Lemma req_str_ok o s : (forall v, o = Some v -> json_read v) -> req de_str o = Some s -> rust_string s.
Proof. intros H E. destruct o as [v|]; [|discriminate]. now apply (de_str_ok v s (H v eq_refl)). Qed.

Lemma map_opt_forall {A B} (f : A -> option B) (P : B -> Prop) l r :
  map_opt f l = Some r -> (forall a b, In a l -> f a = Some b -> P b) -> Forall P r.
Proof.
  revert r. induction l as [|a l IH]; cbn [map_opt]; intros r H K.
  - injection H as <-. constructor.
  - destruct (f a) as [b|] eqn:E; [|discriminate]. cbn [opt_bind] in H.
    destruct (map_opt f l) as [r'|]; [|discriminate]. injection H as <-.
    constructor; [apply (K a b); [now left|exact E]|]. apply IH; [reflexivity|]. intros a' b' Hin. apply K. now right.
Qed.

Lemma claims_text d b bt : claims_from_json d bt = Some b -> body_ok b.
Proof.
  unfold claims_from_json, parse_struct. intros H.
  destruct (parse_doc (plain body_fields) bt) as [j|] eqn:E; [|discriminate]. cbn [opt_bind] in H.
  apply parse_doc_ok in E. unfold de_body in H.
  destruct (fields_of body_fields j) as [l|] eqn:F; [|discriminate].
  assert (Forall (fun o => forall v, o = Some v -> json_read v) l) as FL.
  { destruct j as [| | | | |a|m]; try discriminate; cbn [fields_of] in F.
    - destruct (Nat.eqb _ _); [|discriminate]. injection F as <-. apply Forall_forall. intros o Ho v ->.
      apply in_map_iff in Ho. destruct Ho as (x & [= ->] & Hx).
      apply In_nth_error in Hx. destruct Hx as [n Hn]. exact (E n v Hn (whole_struct_elem _ n)).
    - apply (map_opt_forall _ _ _ _ F). intros k o Hk Ho v ->.
      unfold get_unique in Ho.
      destruct (filter (fun kv => str_eqb k (fst kv)) m) as [|[k' v'] [|]] eqn:G; try discriminate.
      injection Ho as ->. assert (In (k', v) (filter (fun kv => str_eqb k (fst kv)) m)) as Hin by (rewrite G; now left).
      apply filter_In in Hin. destruct Hin as [Hin Ek]. apply str_eqb_eq in Ek. cbn [fst] in Ek. subst k'.
      apply (E k v Hin); [|apply whole_struct_member]. rewrite whole_struct_wanted. apply mem_str_In, Hk. }
  destruct l as [|iss [|aud [|sub [|iat [|nonce [|nbf [|exp [|]]]]]]]]; try discriminate.
  repeat match goal with X : Forall _ (_ :: _) |- _ => inversion X; clear X; subst end.
  destruct (opt de_str iss) as [iss'|] eqn:E1; [|discriminate]. cbn [opt_bind] in H.
  destruct (req de_str aud) as [aud'|] eqn:E2; [|discriminate]. cbn [opt_bind] in H.
  destruct (opt de_str sub) as [sub'|] eqn:E3; [|discriminate]. cbn [opt_bind] in H.
  destruct (req (de_instant d) iat) as [iat'|] eqn:E4; [|discriminate]. cbn [opt_bind] in H.
  destruct (req de_str nonce) as [nonce'|] eqn:E5; [|discriminate]. cbn [opt_bind] in H.
  destruct (opt (de_instant d) nbf) as [nbf'|]; [|discriminate]. cbn [opt_bind] in H.
  destruct (opt (de_instant d) exp) as [exp'|]; [|discriminate]. cbn [opt_bind] in H. injection H as <-.
  repeat split; cbn [b_iss b_aud b_sub b_nonce].
  - now apply (opt_str_ok iss).
  - now apply (req_str_ok aud).
  - now apply (opt_str_ok sub).
  - now apply (req_str_ok nonce).
Qed.

Lemma token_body_ok d s j : proof_token d s j -> body_ok (j_body j).
Proof. intros (hs & bs & tail & ht & bt & _ & _ & _ & _ & H & _). now apply claims_text in H. Qed.

(* ---------------- the two documents are determined by their joined text ---------------- *)

Lemma jgood_json n j : jgood n j -> json_ok j.
Proof. now intros [H _]. Qed.

Lemma documents_prefix d h h' b b' r r' :
  dt_round_trips d -> header_ok h -> header_ok h' -> body_ok b -> body_ok b' ->
  body_instants_ok b -> body_instants_ok b' ->
  header_to_json h ++ lit "." ++ claims_to_json d b ++ r = header_to_json h' ++ lit "." ++ claims_to_json d b' ++ r' ->
  h = h' /\ b = b' /\ r = r'.
Proof.
  intros Hd H1 H2 B1 B2 I1 I2 E. unfold header_to_json, claims_to_json in E.
  pose proof (jgood_json _ _ (good_header h H1)) as J1. pose proof (jgood_json _ _ (good_header h' H2)) as J2.
  pose proof (jgood_json _ _ (good_body d b Hd I1 B1)) as K1. pose proof (jgood_json _ _ (good_body d b' Hd I2 B2)) as K2.
  assert (de_header (ser_header h) = Some h /\ de_header (ser_header h') = Some h') as [D1 D2]
    by (split; apply header_rt).
  assert (de_body d (ser_body d b) = Some b /\ de_body d (ser_body d b') = Some b') as [D3 D4]
    by (split; apply body_rt; assumption).
  unfold ser_header in *. unfold ser_body in *.
  apply object_prefix in E; [|assumption|assumption]. destruct E as [E1 E].
  apply app_inv_head in E.
  apply object_prefix in E; [|assumption|assumption]. destruct E as [E2 E3].
  rewrite E1, D2 in D1. injection D1 as ->. rewrite E2, D4 in D3. injection D3 as ->. auto.
Qed.

(* ---------------- the message ---------------- *)

Lemma raw_both d j :
  raw_text d j = both_documents d j ++ match j_signature j with Some sig => lit "." ++ sig | None => [] end.
Proof. unfold raw_text, both_documents. now rewrite <- !app_assoc. Qed.

(** The signature segment of a token has no dot. *)
Lemma token_signature_dotless d s j sig : proof_token d s j -> j_signature j = Some sig -> dotless sig.
Proof.
  intros (hs & bs & tail & ht & bt & _ & _ & _ & _ & _ & S) E. rewrite E in S.
  destruct tail as [t|]; [|easy]. destruct S as [[D ->]|(rest & -> & D)]; exact D.
Qed.

Lemma two_dots_front t front :
  two_dots t front -> count "."%char front = 1%nat /\ exists c, dotless c /\ t = front ++ lit "." ++ c.
Proof.
  intros (a & b & c & Ha & Hb & Hc & -> & ->). split.
  - rewrite !count_app. apply count_zero in Ha, Hb. rewrite Ha, Hb. reflexivity.
  - exists c. split; [exact Hc|]. now rewrite <- !app_assoc.
Qed.

Lemma last_dot_unique (a b c c' : str) :
  dotless c -> dotless c' -> a ++ lit "." ++ c = b ++ lit "." ++ c' -> a = b /\ c = c'.
Proof.
  intros Hc Hc' E. apply app_eq_app in E. destruct E as (l & [[-> E]|[-> E]]).
  - destruct l as [|x l]; cbn [app] in E.
    + rewrite app_nil_r. split; [reflexivity|]. now apply app_inv_head in E.
    + change (lit "." ++ c') with ("."%char :: c') in E. injection E as <- E.
      exfalso. apply Hc'. rewrite E. apply in_or_app. right. now left.
  - destruct l as [|x l]; cbn [app] in E.
    + rewrite app_nil_r. split; [reflexivity|]. now apply app_inv_head in E.
    + change (lit "." ++ c) with ("."%char :: c) in E. injection E as <- E.
      exfalso. apply Hc. rewrite E. apply in_or_app. right. now left.
Qed.

Lemma message_signed d s j sig m :
  proof_token d s j -> j_signature j = Some sig -> message_of (raw_text d j) m ->
  exists r, m = both_documents d j ++ r.
Proof.
  intros T E [H|[_ ->]]; [|rewrite raw_both; eauto].
  apply two_dots_front in H. destruct H as (C & c & Hc & Er). rewrite raw_both, E in Er.
  assert (dotless sig) as Hs by exact (token_signature_dotless d s j sig T E).
  exists []. rewrite app_nil_r. now destruct (last_dot_unique (both_documents d j) m sig c Hs Hc Er) as [-> _].
Qed.

Lemma one_dot_count t : one_dot t <-> count "."%char t = 1%nat.
Proof.
  split.
  - intros (a & b & Ha & Hb & ->). rewrite !count_app. apply count_zero in Ha, Hb. rewrite Ha, Hb. reflexivity.
  - intros H. destruct (cut "."%char t) as [[a r]|] eqn:E.
    + apply cut_some in E. destruct E as [-> Ha]. exists a, r.
      rewrite count_app in H. apply count_zero in Ha as Ha'. rewrite Ha' in H.
      change (count "."%char ("."%char :: r)) with (1 + count "."%char r)%nat in H.
      split; [exact Ha|]. split; [|reflexivity]. apply count_zero. lia.
    + apply cut_none in E. apply count_zero in E. congruence.
Qed.

Lemma message_unsigned d j m :
  j_signature j = None -> message_of (raw_text d j) m ->
  (exists r, m = both_documents d j ++ r) <->
  ~ one_dot (header_to_json (j_header j) ++ claims_to_json d (j_body j)).
Proof.
  intros E M. rewrite raw_both, E, app_nil_r in M.
  assert (count "."%char (both_documents d j) = 2%nat <->
          one_dot (header_to_json (j_header j) ++ claims_to_json d (j_body j))) as C.
  { rewrite one_dot_count. unfold both_documents. rewrite !count_app. change (count "."%char (lit ".")) with 1%nat. lia. }
  destruct M as [H|[N ->]].
  - assert (one_dot (header_to_json (j_header j) ++ claims_to_json d (j_body j))) as O
      by (apply C, two_dots_count; eauto).
    split; [|easy]. intros (r & ->). apply two_dots_front in H. destruct H as (_ & c & _ & F).
    apply (f_equal (@List.length _)) in F. rewrite !app_length in F.
    change (List.length (lit ".")) with 1%nat in F. lia.
  - split; [|intros _; exists []; now rewrite app_nil_r].
    intros _ O. apply N. apply two_dots_count, C, O.
Qed.

Lemma evidence_inv d j pop :
  lower_case_facts d -> evidence d j pop ->
  exists s, proof_token d s j /\ message_of (raw_text d j) (pop_message pop)
            /\ after_second_dot (raw_text d j) (pop_signature pop).
Proof.
  intros HL (s & now & m & r & offer & asm & doc & options & resp & p & HE & HP & <- & HT & HR).
  destruct (returned_message _ _ _ _ _ _ _ _ _ _ _ HL HE HP HT) as (pop' & E & M & S & _).
  rewrite HR in E. injection E as <-. eauto.
Qed.

Lemma covers_iff d j pop :
  lower_case_facts d -> evidence d j pop ->
  message_covers d j pop <->
  j_signature j <> None \/ ~ one_dot (header_to_json (j_header j) ++ claims_to_json d (j_body j)).
Proof.
  intros HL HE. destruct (evidence_inv _ _ _ HL HE) as (s & T & M & _). unfold message_covers.
  destruct (j_signature j) as [sig|] eqn:E.
  - split; [left; discriminate|]. intros _. eapply message_signed; eassumption.
  - rewrite (message_unsigned d j _ E M). split; [now right|]. intros [H|H]; [easy|exact H].
Qed.

Lemma message_prefix t m : message_of t m -> exists r, t = m ++ r.
Proof.
  intros [H|[_ ->]]; [|exists []; now rewrite app_nil_r].
  apply two_dots_front in H. destruct H as (_ & c & _ & ->). eauto.
Qed.

Lemma covered_determines d j j' pop pop' :
  lower_case_facts d -> dt_round_trips d -> evidence d j pop -> evidence d j' pop' ->
  body_instants_ok (j_body j) -> body_instants_ok (j_body j') ->
  message_covers d j pop -> pop_message pop = pop_message pop' ->
  j_header j = j_header j' /\ j_body j = j_body j'.
Proof.
  intros HL HD HE HE' I I' (r & C) Em.
  destruct (evidence_inv _ _ _ HL HE) as (s & T & _).
  destruct (evidence_inv _ _ _ HL HE') as (s' & T' & M' & _).
  apply message_prefix in M'. destruct M' as (r' & M'). rewrite <- Em, C in M'.
  unfold raw_text, both_documents in M'. rewrite <- !app_assoc in M'.
  destruct (documents_prefix d _ _ _ _ _ _ HD (token_header_ok _ _ _ T') (token_header_ok _ _ _ T)
    (token_body_ok _ _ _ T') (token_body_ok _ _ _ T) I' I M') as (-> & -> & _). auto.
Qed.

Lemma claims_as_signature d j pop :
  lower_case_facts d -> evidence d j pop -> j_signature j = None ->
  one_dot (header_to_json (j_header j)) -> dotless (claims_to_json d (j_body j)) ->
  pop_message pop = header_to_json (j_header j) /\ pop_signature pop = claims_to_json d (j_body j).
Proof.
  intros HL HE HS (a & b & Ha & Hb & EH) HB.
  destruct (evidence_inv _ _ _ HL HE) as (s & _ & M & S).
  assert (raw_text d j = a ++ lit "." ++ b ++ lit "." ++ claims_to_json d (j_body j)) as R.
  { rewrite raw_both, HS. unfold both_documents. rewrite EH, <- !app_assoc, app_nil_r. reflexivity. }
  rewrite R in M, S. split.
  - rewrite EH. eapply message_of_det; [exact M|]. left. exists a, b, (claims_to_json d (j_body j)). auto.
  - eapply after_second_dot_det; [exact S|]. exists a, b. auto.
Qed.

(* ---------------- what is not in the message ---------------- *)

Lemma same_token_same_outcome d now m r r' offer asm doc options p p' j :
  cr_format r = cr_format r' -> cr_proof r = Some p -> cr_proof r' = Some p' ->
  proof_token d (rp_jwt p) j -> proof_token d (rp_jwt p') j ->
  evaluate_credential_request d now m r offer asm doc options
  = evaluate_credential_request d now m r' offer asm doc options.
Proof.
  intros EF HP HP' T T'. rewrite !evaluate_split. unfold request_part. rewrite HP, HP', EF.
  apply proof_token_iff in T, T'. cbn [ok_or bind]. now rewrite T, T'.
Qed.

(* ---------------- secrets ---------------- *)

Lemma wrong_pin_same code pin offer p1 p2 :
  pin <> p1 -> pin <> p2 ->
  evaluate_access_token_request {| tr_grant_type := GPreAuthorized code (Some pin) |} offer
    (Some {| to_expected_user_pin := Some p1 |})
  = evaluate_access_token_request {| tr_grant_type := GPreAuthorized code (Some pin) |} offer
    (Some {| to_expected_user_pin := Some p2 |}).
Proof.
  intros H1 H2. unfold evaluate_access_token_request, validate_pre_authorized_code_flow.
  cbn [tr_grant_type opt_bind to_expected_user_pin ok_or bind].
  apply N.eqb_neq in H1, H2. now rewrite H1, H2.
Qed.

Lemma wrong_pin_hides_code code pin o c1 c2 expected :
  pin <> expected ->
  evaluate_access_token_request {| tr_grant_type := GPreAuthorized code (Some pin) |} (Some (with_code c1 o))
    (Some {| to_expected_user_pin := Some expected |})
  = evaluate_access_token_request {| tr_grant_type := GPreAuthorized code (Some pin) |} (Some (with_code c2 o))
    (Some {| to_expected_user_pin := Some expected |}).
Proof.
  intros H. unfold evaluate_access_token_request, validate_pre_authorized_code_flow.
  cbn [tr_grant_type opt_bind to_expected_user_pin ok_or bind with_code co_grants og_auth og_pre].
  apply N.eqb_neq in H. rewrite H. cbn [negb bind].
  destruct (og_pre (co_grants o)); reflexivity.
Qed.

Lemma wrong_code_same code pin o c1 c2 options :
  code <> c1 -> code <> c2 ->
  evaluate_access_token_request {| tr_grant_type := GPreAuthorized code pin |} (Some (with_code c1 o)) options
  = evaluate_access_token_request {| tr_grant_type := GPreAuthorized code pin |} (Some (with_code c2 o)) options.
Proof.
  intros H1 H2. unfold evaluate_access_token_request, validate_pre_authorized_code_flow.
  cbn [tr_grant_type with_code co_grants og_auth og_pre].
  destruct (og_pre (co_grants o)) as [p|]; cbn [option_map pf_code pf_user_pin_required]; [|reflexivity].
  assert (str_eqb c1 code = false /\ str_eqb c2 code = false) as [-> ->]
    by (split; apply str_eqb_neq; congruence).
  reflexivity.
Qed.

Lemma no_pin_same code offer o1 o2 :
  evaluate_access_token_request {| tr_grant_type := GPreAuthorized code None |} offer o1
  = evaluate_access_token_request {| tr_grant_type := GPreAuthorized code None |} offer o2.
Proof. reflexivity. Qed.

Lemma with_expected_expiry now e options :
  check_nonce_expiry now (with_expected_nonce e options) = check_nonce_expiry now options.
Proof. destruct options as [[[n|] c]|]; reflexivity. Qed.

Lemma opt_str_eqb_neq s t : s <> t -> opt_str_eqb (Some s) (Some t) = false.
Proof. intros H. cbn [opt_str_eqb]. now apply str_eqb_neq. Qed.

Lemma nonce_disclosure d now m r offer asm doc options p j e1 e2 :
  cr_proof r = Some p -> proof_token d (rp_jwt p) j -> b_nonce (j_body j) <> e1 -> b_nonce (j_body j) <> e2 ->
  let x1 := evaluate_credential_request d now m r offer asm doc (with_expected_nonce e1 options) in
  let x2 := evaluate_credential_request d now m r offer asm doc (with_expected_nonce e2 options) in
  x1 = x2
  \/ (x1 = Err (IJwtError (JNonceMismatch (Some e1) (b_nonce (j_body j))))
      /\ x2 = Err (IJwtError (JNonceMismatch (Some e2) (b_nonce (j_body j))))).
Proof.
  intros HP HT H1 H2. cbv zeta. rewrite !evaluate_split. unfold request_part. rewrite !with_expected_expiry.
  rewrite HP. apply proof_token_iff in HT.
  destruct (map_err IValidationError (metadata_validate m)) as [[]|e|]; cbn [bind]; auto.
  destruct offer as [o|]; cbn [ok_or bind]; auto.
  destruct asm; cbn [bind]; auto.
  destruct (check_nonce_expiry now options) as [[]|e|]; cbn [bind]; auto.
  rewrite HT. cbn [map_err bind fst snd]. unfold token_part.
  destruct (map_err IValidationError (jwt_validate d j)) as [[]|e|]; cbn [bind]; auto.
  destruct options as [[[n|] c]|]; cbn [with_expected_nonce option_map opt_bind eo_c_nonce cno_expected]; [|now left..].
  right. unfold jwt_check_nonce. rewrite !opt_str_eqb_neq by assumption. cbn [map_err bind]. auto.
Qed.

Lemma nonce_obtained d now m r o doc options n p j :
  lower_case_facts d -> ids_distinct (im_credentials_supported m) ->
  nonce_options options n -> representable (nonce_expiry n) -> (now <= nonce_expiry n)%Z ->
  cr_proof r = Some p -> proof_token d (rp_jwt p) j -> ascii_ci (h_typ (j_header j)) proof_typ ->
  b_nonce (j_body j) <> cno_expected n ->
  evaluate_credential_request d now m r (Some o) None doc options
  = Err (IJwtError (JNonceMismatch (Some (cno_expected n)) (b_nonce (j_body j)))).
Proof.
  intros HL HD HN HR HE HP HT HY HW.
  apply (proj1 (proj2 (evaluate_outcomes d now m r (Some o) None doc options HL))).
  right. split.
  - eapply request_checks_pass; eauto. intros n' Hn'. apply nonce_options_bind in HN, Hn'.
    rewrite HN in Hn'. injection Hn' as <-. auto.
  - exists p, j, o. repeat split; auto. unfold token_checks. apply first_reports_cons. right.
    split; [exact HY|]. apply first_reports_cons. left. cbn [reports]. right. eauto.
Qed.

Lemma client_id_disclosure d now m r offer asm doc options p j c1 c2 :
  cr_proof r = Some p -> proof_token d (rp_jwt p) j ->
  b_iss (j_body j) <> Some c1 -> b_iss (j_body j) <> Some c2 ->
  let x1 := evaluate_credential_request d now m r offer asm doc (with_client_id c1 options) in
  let x2 := evaluate_credential_request d now m r offer asm doc (with_client_id c2 options) in
  x1 = x2
  \/ (x1 = Err (IJwtError (JIssuerMismatch (Some c1) (b_iss (j_body j))))
      /\ x2 = Err (IJwtError (JIssuerMismatch (Some c2) (b_iss (j_body j))))).
Proof.
  intros HP HT H1 H2. cbv zeta. rewrite !evaluate_split. unfold request_part. rewrite HP. apply proof_token_iff in HT.
  assert (forall c, check_nonce_expiry now (with_client_id c options) = check_nonce_expiry now options) as EN
    by (intros c; destruct options; reflexivity). rewrite !EN.
  destruct (map_err IValidationError (metadata_validate m)) as [[]|e|]; cbn [bind]; auto.
  destruct offer as [o|]; cbn [ok_or bind]; auto.
  destruct asm; cbn [bind]; auto.
  destruct (check_nonce_expiry now options) as [[]|e|]; cbn [bind]; auto.
  rewrite HT. cbn [map_err bind fst snd]. unfold token_part.
  destruct (map_err IValidationError (jwt_validate d j)) as [[]|e|]; cbn [bind]; auto.
  destruct options as [opts|]; [|now left]. cbn [with_client_id option_map opt_bind eo_c_nonce].
  destruct (jwt_check_nonce j (option_map cno_expected (eo_c_nonce opts))) as [[]|e|]; cbn [map_err bind]; auto.
  right. unfold should_validate_iss. cbn [eo_client_id is_some orb]. unfold jwt_check_iss.
  assert (forall c, b_iss (j_body j) <> Some c -> opt_str_eqb (b_iss (j_body j)) (Some c) = false) as K.
  { intros c H. destruct (b_iss (j_body j)) as [x|]; [|reflexivity]. apply opt_str_eqb_neq. congruence. }
  rewrite !K by assumption. cbn [map_err bind]. auto.
Qed.

(* ---------------- lists of credentials ---------------- *)

Lemma offer_of_list {T : Type} (into : T -> credential_or_id) m l ep g o url :
  create_offer m (credential_or_ids_from_vec into l) ep None g = Ok (o, url) <->
  ids_distinct (im_credentials_supported m) /\ (forall x, In x l -> resolvable m (into x))
  /\ co_credential_issuer o = im_credential_issuer m
  /\ co_grants o = {| og_auth := None; og_pre := g |}
  /\ (forall i, nth_error (co_credentials o) i = option_map into (nth_error l i))
  /\ url = offer_url_prefix ep ++ url_encode (offer_to_json o).
Proof.
  unfold credential_or_ids_from_vec. rewrite create_offer_ok. rewrite Forall_map, Forall_forall.
  assert (forall x : list credential_or_id, (forall i, nth_error x i = option_map into (nth_error l i)) <-> x = map into l) as K.
  { intros x. split; [|intros ->; intros i; apply nth_error_map].
    revert x. induction l as [|a l IH]; intros x H.
    - destruct x; [reflexivity|]. specialize (H O). discriminate.
    - destruct x as [|b x]; [specialize (H O); discriminate|]. cbn [map]. f_equal.
      + specialize (H O). now injection H.
      + apply IH. intros i. exact (H (S i)). }
  rewrite K. destruct o as [ci cc cg]. cbn [co_credential_issuer co_grants co_credentials]. split.
  - intros (H1 & _ & H2 & [= -> -> ->] & H3). auto 10.
  - intros (H1 & H2 & -> & -> & -> & H3). auto 10.
Qed.

Lemma slice_kept l : credential_or_ids_from_slice l = l.
Proof. unfold credential_or_ids_from_slice. apply map_id. Qed.

Lemma offer_of_ids m (ids : list str) ep g o url :
  create_offer m (credential_or_ids_from_vec credential_or_id_from_string ids) ep None g = Ok (o, url) <->
  ids_distinct (im_credentials_supported m) /\ (forall id, In id ids -> known_id m id)
  /\ co_credential_issuer o = im_credential_issuer m /\ co_grants o = {| og_auth := None; og_pre := g |}
  /\ (forall i, nth_error (co_credentials o) i = option_map CredentialId (nth_error ids i))
  /\ url = offer_url_prefix ep ++ url_encode (offer_to_json o).
Proof.
  rewrite (offer_of_list credential_or_id_from_string).
  assert ((forall x, In x ids -> resolvable m (credential_or_id_from_string x))
          <-> (forall id, In id ids -> known_id m id)) as ->.
  { split; [|intros H x Hx id [= <-]; now apply H]. intros H x Hx. now apply (H x Hx). }
  change credential_or_id_from_string with CredentialId. tauto.
Qed.

Lemma offer_of_profiles m (profiles : list cfp) ep g o url :
  create_offer m (credential_or_ids_from_vec credential_or_id_from_profile profiles) ep None g = Ok (o, url) <->
  ids_distinct (im_credentials_supported m)
  /\ co_credential_issuer o = im_credential_issuer m /\ co_grants o = {| og_auth := None; og_pre := g |}
  /\ (forall i, nth_error (co_credentials o) i = option_map Credential (nth_error profiles i))
  /\ url = offer_url_prefix ep ++ url_encode (offer_to_json o).
Proof.
  rewrite (offer_of_list credential_or_id_from_profile).
  assert (forall x, In x profiles -> resolvable m (credential_or_id_from_profile x)) as H by (intros x _ id E; discriminate).
  change credential_or_id_from_profile with Credential in *. tauto.
Qed.

Lemma slices_and_texts :
  (forall l, credential_or_ids_from_slice l = l)
  /\ (forall s, credential_or_id_from_str s = credential_or_id_from_string s)
  /\ (forall m ep g, known_id m [] \/ exists e, create_offer m [credential_or_id_default] ep None g = Err e).
Proof.
  split; [exact slice_kept|]. split; [reflexivity|]. intros m ep g.
  destruct (create_offer m [credential_or_id_default] ep None g) as [[o url]|e|] eqn:E.
  - apply create_offer_ok in E. destruct E as (_ & _ & F & _). inversion F as [|c l H]; subst. left. now apply (H []).
  - right. eauto.
  - now apply create_offer_no_panic in E.
Qed.

Lemma mismatch_discloses d e actual c iss :
  discloses (issuer_error_information d (IJwtError (JNonceMismatch (Some e) actual))) "expected_nonce" e
  /\ discloses (issuer_error_information d (IJwtError (JIssuerMismatch (Some c) iss))) "expected_iss_in_jwt" c.
Proof. split; (eexists; split; [reflexivity|]; right; now left). Qed.

Lemma missing_pin_confirms_code code o p options :
  og_auth (co_grants o) = None -> og_pre (co_grants o) = Some p -> pf_user_pin_required p = Some true ->
  exists matches,
    evaluate_access_token_request {| tr_grant_type := GPreAuthorized code None |} (Some o) options
    = Err (TInvalidPreAuthorizedCodeFlowValues true matches)
    /\ (matches = true <-> pf_code p = code).
Proof.
  intros H1 H2 H3. exists (str_eqb (pf_code p) code). split; [|apply str_eqb_eq].
  unfold evaluate_access_token_request. rewrite H1, H2. unfold validate_pre_authorized_code_flow. now rewrite H3.
Qed.

(* ---------------- verifying the signature ---------------- *)

Lemma evidence_for_inv d s j pop :
  lower_case_facts d -> evidence_for d s j pop ->
  proof_token d s j /\ message_of (raw_text d j) (pop_message pop)
  /\ after_second_dot (raw_text d j) (pop_signature pop).
Proof.
  intros HL (now & m & r & offer & asm & doc & options & resp & p & HE & HP & <- & HT & HR).
  destruct (returned_message _ _ _ _ _ _ _ _ _ _ _ HL HE HP HT) as (pop' & E & M & S & _).
  rewrite HR in E. injection E as <-. eauto.
Qed.

(** The returned signature ends with the segment; more than that contains a dot. *)
Lemma signature_suffix d j sig rest :
  j_signature j = Some sig -> dotless sig -> after_second_dot (raw_text d j) rest ->
  rest = sig \/ exists l, rest = l ++ lit "." ++ sig.
Proof.
  intros E Hs (a & b & _ & _ & R). rewrite raw_both, E in R.
  replace (a ++ lit "." ++ b ++ lit "." ++ rest) with ((a ++ lit "." ++ b) ++ lit "." ++ rest) in R
    by now rewrite <- !app_assoc.
  apply app_eq_app in R. change (lit "." ++ sig) with ("."%char :: sig) in *.
  change (lit "." ++ rest) with ("."%char :: rest) in R. destruct R as (l & [[_ R]|[_ R]]).
  - destruct l as [|x l]; cbn [app] in R; [injection R as <-; now left|].
    injection R as <- ->. right. now exists l.
  - destruct l as [|x l]; cbn [app] in R; [injection R as <-; now left|].
    injection R as <- ->. exfalso. apply Hs. apply in_or_app. right. now left.
Qed.

Lemma jws_segment d verifies key s j input sg :
  proof_token d s j -> jws_signed verifies key s input sg ->
  exists hs bs sig, token_parts s hs bs (Some sig) /\ input = hs ++ lit "." ++ bs
    /\ j_signature j = Some sig /\ dotless sig /\ sig = base64url_encode sg.
Proof.
  intros (hs & bs & tail & ht & bt & T & _ & _ & _ & _ & S) (hs' & bs' & sig & Hh & Hb & -> & -> & B & _).
  assert (token_parts ((hs' ++ lit "." ++ bs') ++ lit "." ++ sig) hs' bs' (Some sig)) as T'.
  { replace ((hs' ++ lit "." ++ bs') ++ lit "." ++ sig) with (hs' ++ lit "." ++ bs' ++ lit "." ++ sig)
      by now rewrite <- !app_assoc. now constructor. }
  destruct (token_parts_det _ _ _ _ _ _ _ T T') as (-> & -> & ->).
  exists hs', bs', sig. split; [exact T'|]. split; [reflexivity|].
  apply base64_text_url in B.
  assert (dotless sig) as D by (rewrite B; apply base64url_no_dot).
  split; [|split; assumption].
  cbn [signature_is] in S. destruct (j_signature j) as [g|]; [|easy]. f_equal.
  destruct S as [[_ ->]|(rest & -> & _)]; [reflexivity|].
  exfalso. apply D. apply in_or_app. right. now left.
Qed.

Lemma never_verifies d n verifies key s j pop input sg :
  lower_case_facts d -> signatures_of_length n verifies -> (0 < n)%nat ->
  evidence_for d s j pop -> jws_signed verifies key s input sg ->
  forall key' message, ~ verifies key' message (pop_signature pop).
Proof.
  intros HL HN Hn HE HS key' message HV. destruct (evidence_for_inv _ _ _ _ HL HE) as (T & _ & A).
  destruct (jws_segment _ _ _ _ _ _ _ T HS) as (hs & bs & sig & _ & _ & E & D & B).
  destruct HS as (_ & _ & _ & _ & _ & _ & _ & _ & V). apply HN in V, HV.
  pose proof (base64url_length sg) as [_ L]. rewrite <- B, V in L.
  destruct (signature_suffix _ _ _ _ E D A) as [R|(l & R)]; rewrite R in HV.
  - lia.
  - rewrite !app_length in HV. lia.
Qed.

Lemma decoded_verifies d verifies key s j pop input sg sg' :
  lower_case_facts d -> evidence_for d s j pop -> jws_signed verifies key s input sg ->
  base64_text url_alphabet false sg' (pop_signature pop) ->
  sg' = sg /\ pop_message pop <> input
  /\ dotless (header_to_json (j_header j)) /\ dotless (claims_to_json d (j_body j)).
Proof.
  intros HL HE HS HB. destruct (evidence_for_inv _ _ _ _ HL HE) as (T & M & A).
  destruct (jws_segment _ _ _ _ _ _ _ T HS) as (hs & bs & sig & P & -> & E & D & B).
  apply base64_text_url in HB.
  destruct (signature_suffix _ _ _ _ E D A) as [R|(l & R)].
  - split.
    { rewrite R, B in HB. apply (f_equal base64url_decode) in HB. rewrite !base64url_decode_encode in HB.
      now injection HB. }
    split; [eapply not_signing_input; eassumption|].
    apply (signature_segment d j sig E). now rewrite <- R.
  - exfalso. apply (base64url_no_dot sg'). rewrite <- HB, R. apply in_or_app. right. now left.
Qed.
