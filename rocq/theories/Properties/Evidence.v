(** What the evidence returned by credential evaluation covers, what rejections
    disclose, and how callers list credentials. Theorems only; proofs are in
    Proofs/EvidenceFacts.v, vocabulary in SpecEvidence.v. *)
From Coq Require Import Lia.
From Verif Require Import Model.Prelude Model.Base64 Model.Json Model.Types Model.Deps Model.Serde Model.Errors
  Model.Jwt Model.AccessToken Model.CredentialIssuer Model.Wire
  Spec SpecToken SpecOffer SpecJwt SpecJson SpecEvaluation SpecEvidence
  Proofs.StrFacts Proofs.JsonFacts Proofs.GrammarFacts Proofs.JwtFacts Proofs.OfferFacts
  Proofs.EvalFacts Proofs.EvalFacts2 Proofs.EvalFacts3 Proofs.EvidenceFacts
  Proofs.OkTac Examples Properties.AccessToken Properties.Offers Properties.Jwt Properties.Evaluation.

Lemma ev_evidence now c t j pop resp :
  jwt_from_str example_deps (ev_token j) = Ok j ->
  ev_evaluate now (ev_request c t j) None = Ok resp -> er_pop resp = Some pop -> evidence example_deps j pop.
Proof.
  intros H1 H2 H3. exists (ev_token j). unfold ev_evaluate in H2. do 9 eexists.
  split; [exact H2|]. repeat split; [now apply proof_token_iff|exact H3].
Qed.

(* ------------------------------------------------------------------ *)
(** * C84: the returned message determines the header and the claims. False for
    unsigned tokens: the message is cut at the second dot, wherever that is. *)
Definition C84_claim : Prop := forall d j j' pop pop',
  lower_case_facts d -> dt_round_trips d -> evidence d j pop -> evidence d j' pop' ->
  body_instants_ok (j_body j) -> body_instants_ok (j_body j') ->
  pop_message pop = pop_message pop' -> j_header j = j_header j' /\ j_body j = j_body j'.

Definition ev_unsigned : proof_jwt := ev_jwt EdDSA "https://issuer.example" None.
Definition ev_unsigned_forever : proof_jwt := with_window None None ev_unsigned.
Lemma ev_parses_forever :
  jwt_from_str example_deps (ev_token ev_unsigned_forever) = Ok ev_unsigned_forever.
Proof. ev_parses. Qed.
Definition ev_cut_message : str :=
  lit "{""typ"":""OpenID4VCI-proof+JWT"",""alg"":""EdDSA"",""kid"":""did:key:z6Mk#z6Mk""}.{""iss"":""client"",""aud"":""https://issuer".
Example ev_unsigned_evidence : exists sig, evidence example_deps ev_unsigned
  {| pop_algorithm := EdDSA; pop_public_key := lit "key bytes"; pop_message := ev_cut_message; pop_signature := sig |}.
Proof.
  eexists. eapply ev_evidence with (now := ev_now) (c := ex_degree) (t := "jwt"%string); [exact ev_parses_unsigned| |].
  - unfold ev_unsigned. rewrite (ev_at ev_now ex_degree "jwt" _ None ev_parses_unsigned eq_refl). vm_compute. reflexivity.
  - reflexivity.
Qed.
Example ev_forever_evidence : exists sig, evidence example_deps ev_unsigned_forever
  {| pop_algorithm := EdDSA; pop_public_key := lit "key bytes"; pop_message := ev_cut_message; pop_signature := sig |}.
Proof.
  eexists. eapply ev_evidence with (now := ev_now) (c := ex_degree) (t := "jwt"%string); [exact ev_parses_forever| |].
  - rewrite (ev_at ev_now ex_degree "jwt" _ None ev_parses_forever eq_refl). vm_compute. reflexivity.
  - reflexivity.
Qed.

Theorem C84_message_determines_token_refuted : ~ C84_claim.
Proof.
  intros H. destruct ev_unsigned_evidence as [s1 E1]. destruct ev_forever_evidence as [s2 E2].
  destruct (H example_deps _ _ _ _ example_lower_case_facts example_dt_round_trips E1 E2) as [_ E].
  - split; [reflexivity|split; intros x X; try discriminate; injection X as <-; reflexivity].
  - split; [reflexivity|split; intros x X; discriminate].
  - reflexivity.
  - discriminate (f_equal b_exp E).
Qed.
Print Assumptions C84_message_determines_token_refuted.

(** When the message contains both documents. *)
Theorem C84_message_covers_iff : forall d j pop,
  lower_case_facts d -> evidence d j pop ->
  (message_covers d j pop <->
   j_signature j <> None \/ ~ one_dot (header_to_json (j_header j) ++ claims_to_json d (j_body j))).
Proof. exact covers_iff. Qed.
Print Assumptions C84_message_covers_iff.

(** Then no other accepted token, signed or not, gives the same message. *)
Theorem C84_covering_message_determines_token : forall d j j' pop pop',
  lower_case_facts d -> dt_round_trips d -> evidence d j pop -> evidence d j' pop' ->
  body_instants_ok (j_body j) -> body_instants_ok (j_body j') ->
  message_covers d j pop -> pop_message pop = pop_message pop' ->
  j_header j = j_header j' /\ j_body j = j_body j'.
Proof. exact covered_determines. Qed.
Print Assumptions C84_covering_message_determines_token.

Theorem C84_signed_message_determines_token_partial : forall d j j' pop pop',
  lower_case_facts d -> dt_round_trips d -> evidence d j pop -> evidence d j' pop' ->
  body_instants_ok (j_body j) -> body_instants_ok (j_body j') ->
  j_signature j <> None -> pop_message pop = pop_message pop' ->
  j_header j = j_header j' /\ j_body j = j_body j'.
Proof.
  intros d j j' pop pop' H1 H2 H3 H4 H5 H6 H7 H8.
  exact (covered_determines d j j' pop pop' H1 H2 H3 H4 H5 H6
           (proj2 (covers_iff d j pop H1 H3) (or_introl H7)) H8).
Qed.
Print Assumptions C84_signed_message_determines_token_partial.

(** The worst case: with its only dot in the header, an unsigned token's message
    is the header, and its claims are returned as the signature. *)
Theorem C84_claims_returned_as_signature : forall d j pop,
  lower_case_facts d -> evidence d j pop -> j_signature j = None ->
  one_dot (header_to_json (j_header j)) -> dotless (claims_to_json d (j_body j)) ->
  pop_message pop = header_to_json (j_header j) /\ pop_signature pop = claims_to_json d (j_body j).
Proof. exact claims_as_signature. Qed.
Print Assumptions C84_claims_returned_as_signature.

Example C84_signed : exists pop, evidence example_deps (ev_good EdDSA) pop
  /\ j_signature (ev_good EdDSA) <> None /\ message_covers example_deps (ev_good EdDSA) pop.
Proof.
  eexists. split; [|split].
  - eapply ev_evidence; [apply ev_parses_signed|exact (ev_accepted EdDSA ex_degree "jwt")|reflexivity].
  - discriminate.
  - exists (lit ".c2ln"). vm_compute. reflexivity.
Qed.

(** An issuer without a dot in its identifier, and a key of did:web. *)
Definition web_token : proof_jwt := {|
  j_header := {| h_typ := lit "openid4vci-proof+jwt"; h_alg := ES256;
                 h_additional := Some (KeyId (lit "did:web:wallet.example#1")) |};
  j_body := {| b_iss := None; b_aud := lit "https://localhost"; b_sub := None;
               b_iat := 1683000000000000000%Z; b_nonce := lit "n1"; b_nbf := None; b_exp := None |};
  j_signature := None |}.
Definition web_metadata : issuer_metadata :=
  {| im_credential_issuer := lit "https://localhost"; im_authorization_server := None;
     im_credential_endpoint := lit "https://localhost/credential";
     im_batch_credential_endpoint := None;
     im_credentials_supported := [ex_supported (Some (lit "Degree")) ex_degree];
     im_additional_fields := None |}.
Definition web_document : ex_document := [(lit "did:web:wallet.example#1", ev_key)].
Lemma web_parses : jwt_from_str example_deps (ev_token web_token) = Ok web_token.
Proof. ev_parses. Qed.
Example C84_claims_lost : exists pop, evidence example_deps web_token pop
  /\ one_dot (header_to_json (j_header web_token)) /\ dotless (claims_to_json example_deps (j_body web_token))
  /\ pop_signature pop = lit "{""aud"":""https://localhost"",""sub"":null,""iat"":""2023-05-02T04:00:00Z"",""nonce"":""n1""}".
Proof.
  exists {| pop_algorithm := ES256; pop_public_key := lit "key bytes";
            pop_message := header_to_json (j_header web_token);
            pop_signature := claims_to_json example_deps (j_body web_token) |}. split; [|split; [|split]].
  - exists (ev_token web_token), ev_now, web_metadata, (ev_request ex_degree "jwt" web_token), (Some ev_offer), None,
      (Some web_document), (ev_options None). do 2 eexists.
    split; [|repeat split; [apply proof_token_iff, web_parses|]].
    + rewrite (evaluate_at example_deps ev_now web_metadata (ev_request ex_degree "jwt" web_token) ev_offer
        (Some web_document) (ev_options None) _ web_token eq_refl eq_refl eq_refl web_parses).
      vm_compute. reflexivity.
    + vm_compute. reflexivity.
  - apply one_dot_count. vm_compute. reflexivity.
  - apply not_in_bool. vm_compute. reflexivity.
  - vm_compute. reflexivity.
Qed.

(* ------------------------------------------------------------------ *)
(** * C85: the message determines the claims as the wallet wrote them. False:
    members the library does not know are dropped before the message is made. *)
Definition C85_claim : Prop := forall d s s' j j' pop pop' hs bs sig hs' bs' sig' bt bt' m m',
  lower_case_facts d -> dt_round_trips d -> evidence_for d s j pop -> evidence_for d s' j' pop' ->
  token_parts s hs bs (Some sig) -> token_parts s' hs' bs' (Some sig') ->
  base64_text url_alphabet false bt bs -> base64_text url_alphabet false bt' bs' ->
  json_text bt (JObj m) -> json_text bt' (JObj m') ->
  pop_message pop = pop_message pop' -> forall k v, In (k, v) m -> In (k, v) m'.

(** What does hold: whatever a token contains beyond what is read from it (C25,
    C24: unknown members, member order, white space, trailing segments), the
    outcome is the same. *)
Theorem C85_outcome_determined_by_known_members_partial : forall d now m r r' offer asm doc options p p' j,
  cr_format r = cr_format r' -> cr_proof r = Some p -> cr_proof r' = Some p' ->
  proof_token d (rp_jwt p) j -> proof_token d (rp_jwt p') j ->
  evaluate_credential_request d now m r offer asm doc options
  = evaluate_credential_request d now m r' offer asm doc options.
Proof. exact same_token_same_outcome. Qed.
Print Assumptions C85_outcome_determined_by_known_members_partial.

Definition known_members : list (str * json) :=
  match ser_body example_deps (j_body (ev_good EdDSA)) with JObj m => m | _ => [] end.
Definition extra_members : list (str * json) := known_members ++ [(lit "jti", JStr (lit "7"))].
Definition extra_header : str := base64url_encode (header_to_json (j_header (ev_good EdDSA))).
Definition extra_token (m : list (str * json)) : str :=
  extra_header ++ lit "." ++ base64url_encode (print (JObj m)) ++ lit "." ++ lit "c2ln".
Lemma extra_parses m :
  claims_from_json example_deps (print (JObj m)) = Some (j_body (ev_good EdDSA)) ->
  token_parts (extra_token m) extra_header (base64url_encode (print (JObj m))) (Some (lit "c2ln")) ->
  proof_token example_deps (extra_token m) (ev_good EdDSA).
Proof.
  intros H T.
  exists extra_header, (base64url_encode (print (JObj m))), (Some (lit "c2ln")),
    (header_to_json (j_header (ev_good EdDSA))), (print (JObj m)).
  split; [exact T|]. split; [apply (proj2 (proj1 codec_exact _))|]. split; [apply (proj2 (proj1 codec_exact _))|].
  split; [vm_compute; reflexivity|]. split; [exact H|].
  left. split; [apply not_in_bool; reflexivity|reflexivity].
Qed.
Lemma extra_evidence m :
  claims_from_json example_deps (print (JObj m)) = Some (j_body (ev_good EdDSA)) ->
  token_parts (extra_token m) extra_header (base64url_encode (print (JObj m))) (Some (lit "c2ln")) ->
  exists pop, evidence_for example_deps (extra_token m) (ev_good EdDSA) pop
              /\ pop_message pop = raw_text example_deps (ev_good EdDSA).
Proof.
  intros H T. pose proof (extra_parses m H T) as P.
  set (r := {| cr_format := ex_degree;
               cr_proof := Some {| rp_proof_type := lit "jwt"; rp_jwt := extra_token m |} |}).
  pose proof (same_token_same_outcome example_deps ev_now ev_metadata r (ev_request ex_degree "jwt" (ev_good EdDSA))
    (Some ev_offer) None (Some ev_document) (ev_options None) _ _ (ev_good EdDSA)
    eq_refl eq_refl eq_refl P (ev_token_good EdDSA)) as E.
  change (evaluate_credential_request example_deps ev_now ev_metadata (ev_request ex_degree "jwt" (ev_good EdDSA))
    (Some ev_offer) None (Some ev_document) (ev_options None))
    with (ev_evaluate ev_now (ev_request ex_degree "jwt" (ev_good EdDSA)) None) in E.
  rewrite ev_accepted in E. eexists. split.
  - do 9 eexists. split; [exact E|]. split; [reflexivity|]. split; [reflexivity|]. split; [exact P|reflexivity].
  - reflexivity.
Qed.

Theorem C85_message_determines_claims_document_refuted : ~ C85_claim.
Proof.
  intros H.
  assert (forall m, existsb (Ascii.eqb "."%char) (base64url_encode (print (JObj m))) = false ->
    token_parts (extra_token m) extra_header (base64url_encode (print (JObj m))) (Some (lit "c2ln"))) as T.
  { intros m E. apply tp_more; [apply not_in_bool; vm_compute; reflexivity|now apply not_in_bool]. }
  assert (token_parts (extra_token known_members) extra_header (base64url_encode (print (JObj known_members))) (Some (lit "c2ln"))) as T1
    by (apply T; vm_compute; reflexivity).
  assert (token_parts (extra_token extra_members) extra_header (base64url_encode (print (JObj extra_members))) (Some (lit "c2ln"))) as T2
    by (apply T; vm_compute; reflexivity).
  destruct (extra_evidence known_members) as (pop1 & E1 & M1); [vm_compute; reflexivity|exact T1|].
  destruct (extra_evidence extra_members) as (pop2 & E2 & M2); [vm_compute; reflexivity|exact T2|].
  assert (In (lit "jti", JStr (lit "7")) known_members) as F.
  { refine (H example_deps _ _ _ _ _ _ _ _ _ _ _ _ (print (JObj extra_members)) (print (JObj known_members))
      extra_members known_members
      example_lower_case_facts example_dt_round_trips E2 E1 T2 T1 _ _ _ _ _ _ _ _).
    - apply (proj2 (proj1 codec_exact _)).
    - apply (proj2 (proj1 codec_exact _)).
    - apply parse_json_iff. vm_compute. reflexivity.
    - apply parse_json_iff. vm_compute. reflexivity.
    - congruence.
    - apply in_or_app. right. now left. }
  vm_compute in F. repeat (destruct F as [F|F]; [discriminate|]). exact F.
Qed.
Print Assumptions C85_message_determines_claims_document_refuted.

(* ------------------------------------------------------------------ *)
(** * C86: a rejected token request says nothing about the secrets beyond being wrong *)
Theorem C86_wrong_pin : forall code pin offer expected expected',
  pin <> expected -> pin <> expected' ->
  evaluate_access_token_request {| tr_grant_type := GPreAuthorized code (Some pin) |} offer
    (Some {| to_expected_user_pin := Some expected |})
  = evaluate_access_token_request {| tr_grant_type := GPreAuthorized code (Some pin) |} offer
    (Some {| to_expected_user_pin := Some expected' |}).
Proof. exact wrong_pin_same. Qed.
Print Assumptions C86_wrong_pin.

(** With a wrong PIN, codes cannot be tried. *)
Theorem C86_wrong_pin_hides_code : forall code pin o c1 c2 expected,
  pin <> expected ->
  evaluate_access_token_request {| tr_grant_type := GPreAuthorized code (Some pin) |} (Some (with_code c1 o))
    (Some {| to_expected_user_pin := Some expected |})
  = evaluate_access_token_request {| tr_grant_type := GPreAuthorized code (Some pin) |} (Some (with_code c2 o))
    (Some {| to_expected_user_pin := Some expected |}).
Proof. exact wrong_pin_hides_code. Qed.
Print Assumptions C86_wrong_pin_hides_code.

Theorem C86_wrong_code : forall code pin o c1 c2 options,
  code <> c1 -> code <> c2 ->
  evaluate_access_token_request {| tr_grant_type := GPreAuthorized code pin |} (Some (with_code c1 o)) options
  = evaluate_access_token_request {| tr_grant_type := GPreAuthorized code pin |} (Some (with_code c2 o)) options.
Proof. exact wrong_code_same. Qed.
Print Assumptions C86_wrong_code.

Theorem C86_no_pin_supplied : forall code offer options options',
  evaluate_access_token_request {| tr_grant_type := GPreAuthorized code None |} offer options
  = evaluate_access_token_request {| tr_grant_type := GPreAuthorized code None |} offer options'.
Proof. exact no_pin_same. Qed.
Print Assumptions C86_no_pin_supplied.

(** But with no PIN they can: the answer says whether the code is right. *)
Theorem C86_missing_pin_confirms_code : forall code o p options,
  og_auth (co_grants o) = None -> og_pre (co_grants o) = Some p -> pf_user_pin_required p = Some true ->
  exists matches,
    evaluate_access_token_request {| tr_grant_type := GPreAuthorized code None |} (Some o) options
    = Err (TInvalidPreAuthorizedCodeFlowValues true matches)
    /\ (matches = true <-> pf_code p = code).
Proof. exact missing_pin_confirms_code. Qed.
Print Assumptions C86_missing_pin_confirms_code.

Example C86_wrong_pin_outcome :
  evaluate_access_token_request (ex_request (Some 1)) (Some (with_code (lit "guess") (ex_offer None)))
    (Some {| to_expected_user_pin := Some 2 |}) = Err TUserPinMismatch
  /\ evaluate_access_token_request (ex_request (Some 2)) (Some (with_code (lit "guess") (ex_offer None)))
       (Some {| to_expected_user_pin := Some 2 |}) <> Err TUserPinMismatch.
Proof. split; [reflexivity|discriminate]. Qed.

(* ------------------------------------------------------------------ *)
(** * C87: a rejected proof says nothing about the expected nonce beyond being
    wrong. False: the error carries the expected nonce. *)
Definition C87_claim : Prop := forall d now m r offer asm doc options p j e1 e2,
  cr_proof r = Some p -> proof_token d (rp_jwt p) j -> b_nonce (j_body j) <> e1 -> b_nonce (j_body j) <> e2 ->
  evaluate_credential_request d now m r offer asm doc (with_expected_nonce e1 options)
  = evaluate_credential_request d now m r offer asm doc (with_expected_nonce e2 options).

(** Any text with a well-formed header and claims obtains the current nonce; it
    need not be signed, name a key or be meant for this issuer. *)
Theorem C87_nonce_obtained : forall d now m r o doc options n p j,
  lower_case_facts d -> ids_distinct (im_credentials_supported m) ->
  nonce_options options n -> representable (nonce_expiry n) -> (now <= nonce_expiry n)%Z ->
  cr_proof r = Some p -> proof_token d (rp_jwt p) j -> ascii_ci (h_typ (j_header j)) proof_typ ->
  b_nonce (j_body j) <> cno_expected n ->
  evaluate_credential_request d now m r (Some o) None doc options
  = Err (IJwtError (JNonceMismatch (Some (cno_expected n)) (b_nonce (j_body j)))).
Proof. exact nonce_obtained. Qed.
Print Assumptions C87_nonce_obtained.

Theorem C87_error_discloses : forall d e actual c iss,
  discloses (issuer_error_information d (IJwtError (JNonceMismatch (Some e) actual))) "expected_nonce" e
  /\ discloses (issuer_error_information d (IJwtError (JIssuerMismatch (Some c) iss))) "expected_iss_in_jwt" c.
Proof. exact mismatch_discloses. Qed.
Print Assumptions C87_error_discloses.

Theorem C87_nonce_hidden_refuted : ~ C87_claim.
Proof.
  intros H.
  specialize (H example_deps ev_now ev_metadata (ev_request ex_degree "jwt" (ev_good EdDSA)) (Some ev_offer) None
    (Some ev_document) (ev_options None) _ (ev_good EdDSA) (lit "n2") (lit "n3") eq_refl (ev_token_good EdDSA)).
  rewrite (nonce_obtained example_deps ev_now ev_metadata (ev_request ex_degree "jwt" (ev_good EdDSA)) ev_offer
    (Some ev_document) (with_expected_nonce (lit "n2") (ev_options None)) _ _ (ev_good EdDSA)
    example_lower_case_facts ltac:(apply metadata_validate_ok; reflexivity)
    (ex_intro _ _ (conj eq_refl eq_refl)) ltac:(split; vm_compute; discriminate) ltac:(vm_compute; discriminate)
    eq_refl (ev_token_good EdDSA) ltac:(apply same_ascii_ci; reflexivity) ltac:(discriminate)) in H.
  rewrite (nonce_obtained example_deps ev_now ev_metadata (ev_request ex_degree "jwt" (ev_good EdDSA)) ev_offer
    (Some ev_document) (with_expected_nonce (lit "n3") (ev_options None)) _ _ (ev_good EdDSA)
    example_lower_case_facts ltac:(apply metadata_validate_ok; reflexivity)
    (ex_intro _ _ (conj eq_refl eq_refl)) ltac:(split; vm_compute; discriminate) ltac:(vm_compute; discriminate)
    eq_refl (ev_token_good EdDSA) ltac:(apply same_ascii_ci; reflexivity) ltac:(discriminate)) in H.
  discriminate (H ltac:(discriminate) ltac:(discriminate)).
Qed.
Print Assumptions C87_nonce_hidden_refuted.

(** Nothing else discloses it: all other rejections are the same whatever the
    nonce is. Likewise for the client id. *)
Theorem C87_only_mismatch_discloses_nonce_partial : forall d now m r offer asm doc options p j e1 e2,
  cr_proof r = Some p -> proof_token d (rp_jwt p) j -> b_nonce (j_body j) <> e1 -> b_nonce (j_body j) <> e2 ->
  let x1 := evaluate_credential_request d now m r offer asm doc (with_expected_nonce e1 options) in
  let x2 := evaluate_credential_request d now m r offer asm doc (with_expected_nonce e2 options) in
  x1 = x2
  \/ (x1 = Err (IJwtError (JNonceMismatch (Some e1) (b_nonce (j_body j))))
      /\ x2 = Err (IJwtError (JNonceMismatch (Some e2) (b_nonce (j_body j))))).
Proof. exact nonce_disclosure. Qed.
Print Assumptions C87_only_mismatch_discloses_nonce_partial.

Theorem C87_only_mismatch_discloses_client_id_partial : forall d now m r offer asm doc options p j c1 c2,
  cr_proof r = Some p -> proof_token d (rp_jwt p) j ->
  b_iss (j_body j) <> Some c1 -> b_iss (j_body j) <> Some c2 ->
  let x1 := evaluate_credential_request d now m r offer asm doc (with_client_id c1 options) in
  let x2 := evaluate_credential_request d now m r offer asm doc (with_client_id c2 options) in
  x1 = x2
  \/ (x1 = Err (IJwtError (JIssuerMismatch (Some c1) (b_iss (j_body j))))
      /\ x2 = Err (IJwtError (JIssuerMismatch (Some c2) (b_iss (j_body j))))).
Proof. exact client_id_disclosure. Qed.
Print Assumptions C87_only_mismatch_discloses_client_id_partial.

(* ------------------------------------------------------------------ *)
(** * C88: callers list credentials by id, by profile or mixed; what they list is
    what is offered *)
Theorem C88_offer_of_ids : forall m (ids : list str) ep g o url,
  create_offer m (credential_or_ids_from_vec credential_or_id_from_string ids) ep None g = Ok (o, url) <->
  ids_distinct (im_credentials_supported m) /\ (forall id, In id ids -> known_id m id)
  /\ co_credential_issuer o = im_credential_issuer m /\ co_grants o = {| og_auth := None; og_pre := g |}
  /\ (forall i, nth_error (co_credentials o) i = option_map CredentialId (nth_error ids i))
  /\ url = offer_url_prefix ep ++ Percent.url_encode (offer_to_json o).
Proof. exact offer_of_ids. Qed.
Print Assumptions C88_offer_of_ids.

(** Profiles are offered whether or not the metadata publishes them. *)
Theorem C88_offer_of_profiles : forall m (profiles : list cfp) ep g o url,
  create_offer m (credential_or_ids_from_vec credential_or_id_from_profile profiles) ep None g = Ok (o, url) <->
  ids_distinct (im_credentials_supported m)
  /\ co_credential_issuer o = im_credential_issuer m /\ co_grants o = {| og_auth := None; og_pre := g |}
  /\ (forall i, nth_error (co_credentials o) i = option_map Credential (nth_error profiles i))
  /\ url = offer_url_prefix ep ++ Percent.url_encode (offer_to_json o).
Proof. exact offer_of_profiles. Qed.
Print Assumptions C88_offer_of_profiles.

Theorem C88_slices_and_texts :
  (forall l, credential_or_ids_from_slice l = l)
  /\ (forall s, credential_or_id_from_str s = credential_or_id_from_string s)
  /\ (forall m ep g, known_id m [] \/ exists e, create_offer m [credential_or_id_default] ep None g = Err e).
Proof. exact slices_and_texts. Qed.
Print Assumptions C88_slices_and_texts.

Example C88_repeated : exists o url,
  create_offer ev_metadata (credential_or_ids_from_vec credential_or_id_from_string [lit "Degree"; lit "Degree"])
    None None (Some ex_pre) = Ok (o, url)
  /\ co_credentials o = [CredentialId (lit "Degree"); CredentialId (lit "Degree")].
Proof. do 2 eexists. split; reflexivity. Qed.
Example C88_unpublished :
  create_offer ev_metadata (credential_or_ids_from_vec credential_or_id_from_string [lit "Degree"; lit "Diploma"])
    None None (Some ex_pre) = Err (ICredentialIdNotInIssuerMetadata (lit "Diploma")).
Proof. reflexivity. Qed.

(* ------------------------------------------------------------------ *)
(** * C90: the returned evidence verifies when the wallet signed its token. False
    for every algorithm whose signatures have a fixed length. *)
Definition C90_claim : Prop := forall d n verifies s j pop input sg,
  lower_case_facts d -> signatures_of_length n verifies -> (0 < n)%nat ->
  evidence_for d s j pop -> jws_signed verifies (pop_public_key pop) s input sg ->
  verifies (pop_public_key pop) (pop_message pop) (pop_signature pop).

(** The returned signature is no signature of that algorithm, whatever the key
    and the message. *)
Theorem C90_evidence_never_verifies : forall d n verifies key s j pop input sg,
  lower_case_facts d -> signatures_of_length n verifies -> (0 < n)%nat ->
  evidence_for d s j pop -> jws_signed verifies key s input sg ->
  forall key' message, ~ verifies key' message (pop_signature pop).
Proof. exact never_verifies. Qed.
Print Assumptions C90_evidence_never_verifies.

(** Even a caller that decodes the returned signature first checks it against
    another message than the one the wallet signed. *)
Theorem C90_decoded_signature_for_other_message : forall d verifies s j pop input sg sg',
  lower_case_facts d -> evidence_for d s j pop -> jws_signed verifies (pop_public_key pop) s input sg ->
  base64_text url_alphabet false sg' (pop_signature pop) ->
  verifies (pop_public_key pop) (pop_message pop) sg' ->
  exists other, other <> input /\ verifies (pop_public_key pop) other sg
    /\ dotless (header_to_json (j_header j)) /\ dotless (claims_to_json d (j_body j)).
Proof.
  intros d verifies s j pop input sg sg' H1 H2 H3 H4 H5.
  destruct (decoded_verifies d verifies _ s j pop input sg sg' H1 H2 H3 H4) as (-> & H6 & H7).
  exists (pop_message pop). auto.
Qed.
Print Assumptions C90_decoded_signature_for_other_message.

(** A token without dots in its documents, and a scheme with one signature of
    three bytes, for any message. *)
Definition local_token : proof_jwt := ev_jwt EdDSA "https://localhost" ev_sig.
Definition three_bytes (key message signature : str) : Prop := signature = lit "sig".
Lemma local_parses : jwt_from_str example_deps (ev_token local_token) = Ok local_token.
Proof. ev_parses. Qed.
Definition local_evidence : proof_of_possession := {|
  pop_algorithm := EdDSA; pop_public_key := lit "key bytes";
  pop_message := both_documents example_deps local_token; pop_signature := lit "c2ln" |}.
Example C90_accepted : evidence_for example_deps (ev_token local_token) local_token local_evidence.
Proof.
  exists ev_now, web_metadata, (ev_request ex_degree "jwt" local_token), (Some ev_offer), None,
    (Some ev_document), (ev_options None). do 2 eexists.
  split; [|repeat split; [apply proof_token_iff, local_parses|]].
  - rewrite (evaluate_at example_deps ev_now web_metadata (ev_request ex_degree "jwt" local_token) ev_offer
      (Some ev_document) (ev_options None) _ local_token eq_refl eq_refl eq_refl local_parses).
    vm_compute. reflexivity.
  - vm_compute. reflexivity.
Qed.
Definition local_input : str := base64url_encode (header_to_json (j_header local_token)) ++ lit "."
  ++ base64url_encode (claims_to_json example_deps (j_body local_token)).
Example C90_signed : jws_signed three_bytes (lit "key bytes") (ev_token local_token) local_input (lit "sig")
  /\ signatures_of_length 3 three_bytes
  /\ base64_text url_alphabet false (lit "sig") (pop_signature local_evidence).
Proof.
  split; [|split].
  - do 2 eexists. exists (lit "c2ln"). split; [|split; [|split; [reflexivity|split; [|split]]]].
    + apply not_in_bool. vm_compute. reflexivity.
    + apply not_in_bool. vm_compute. reflexivity.
    + unfold ev_token, local_input. now rewrite <- !app_assoc.
    + apply is_base64. vm_compute. reflexivity.
    + reflexivity.
  - now intros key message signature ->.
  - apply is_base64. vm_compute. reflexivity.
Qed.

Theorem C90_signed_token_verifies_refuted : ~ C90_claim.
Proof.
  intros H. destruct C90_signed as (S & L & _).
  apply (C90_evidence_never_verifies example_deps 3 three_bytes (lit "key bytes") (ev_token local_token) local_token
    local_evidence local_input (lit "sig") example_lower_case_facts L) with (key' := lit "key bytes")
    (message := pop_message local_evidence); [repeat constructor|exact C90_accepted|exact S|].
  exact (H example_deps 3%nat three_bytes (ev_token local_token) local_token local_evidence local_input (lit "sig")
    example_lower_case_facts L ltac:(repeat constructor) C90_accepted S).
Qed.
Print Assumptions C90_signed_token_verifies_refuted.
