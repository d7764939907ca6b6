(** The specifications of the calls leave no outcome open. Theorems only; proofs
    are in Proofs/CompleteFacts.v, vocabulary in SpecComplete.v and in the
    specifications of the calls. *)
From Verif Require Import Model.Prelude Model.Json Model.Types Model.Deps Model.Errors Model.Jwt Model.AccessToken
  Model.CredentialIssuer Model.Wire Spec SpecJson SpecNumber SpecToken SpecOffer SpecJwt SpecEvaluation SpecResponse SpecErrors SpecComplete
  Proofs.CompleteFacts Proofs.CompleteFacts2 Examples Properties.AccessToken Properties.Offers Properties.Evaluation.

(* ------------------------------------------------------------------ *)
(** * C138: each call has exactly one allowed outcome, so a program of which the
    specification is true is this one. The specifications do not mention the
    functions of the model. *)

Theorem C138_token_requests : forall r offer opts,
  let spec := allowed (fun _ : unit => token_accepted r offer opts) (token_rejected r offer opts) False in
  (exists! x, spec x) /\ forall g, spec g -> g = evaluate_access_token_request r offer opts.
Proof. exact token_complete. Qed.
Print Assumptions C138_token_requests.

Theorem C138_credential_requests : forall d now m r offer asm doc options, lower_case_facts d ->
  let spec := allowed (eval_answer d now m r offer asm doc options) (eval_error d now m r offer asm doc options)
                (eval_panics d now m r offer asm doc options) in
  (exists! x, spec x) /\ forall g, spec g -> g = evaluate_credential_request d now m r offer asm doc options.
Proof. exact evaluation_complete. Qed.
Print Assumptions C138_credential_requests.

Theorem C138_pre_evaluation : forall d r,
  lower_case_facts d -> upper_case_facts d -> on_some (fun p => rust_string (rp_proof_type p)) (cr_proof r) ->
  let spec := allowed (pre_answer d r) (pre_error d r) False in
  (exists! x, spec x) /\ forall g, spec g -> g = pre_evaluate_credential_request d r.
Proof. exact pre_evaluation_complete. Qed.
Print Assumptions C138_pre_evaluation.

Theorem C138_answers : forall d now r ct n,
  lower_case_facts d -> upper_case_facts d -> on_some (fun p => rust_string (rp_proof_type p)) (cr_proof r) ->
  let ok := fun x : credential_success * instant =>
    valid_request d r /\ (exists f, format_of (cr_format r) f /\ cs_format (fst x) = lit f)
    /\ payload_is ct (fst x) /\ nonce_is n (fst x) /\ snd x = now in
  let spec := allowed ok (request_error d r) False in
  (exists! x, spec x) /\ forall g, spec g -> g = create_credential_success_response d now r ct n.
Proof. exact answer_complete. Qed.
Print Assumptions C138_answers.

(** The offer and its link. *)
Theorem C138_offers : forall m creds ep a p,
  let ok := fun x : credential_offer * str => let '(o, url) := x in
    (ids_distinct (im_credentials_supported m) /\ a = None /\ Forall (resolvable m) creds)
    /\ (co_credential_issuer o = im_credential_issuer m /\ co_credentials o = creds
        /\ og_auth (co_grants o) = None /\ og_pre (co_grants o) = p)
    /\ exists payload, percent_encoded (offer_to_json o) payload /\ url = offer_url_prefix ep ++ payload in
  let spec := allowed ok (offer_error m creds a) False in
  (exists! x, spec x) /\ forall g, spec g -> g = create_offer m creds ep a p.
Proof. exact offer_complete. Qed.
Print Assumptions C138_offers.

Theorem C138_resolving : forall m l,
  let spec := allowed (fun ps => Forall2 (resolves m) l ps)
                (fun e => exists id, first_unknown m l id /\ e = ICredentialIdNotInIssuerMetadata id) False in
  (exists! x, spec x) /\ forall g, spec g -> g = resolve_all m l.
Proof. exact resolve_complete. Qed.
Print Assumptions C138_resolving.

Theorem C138_time_window : forall now j,
  let spec := allowed (fun _ : unit => in_window (j_body j) now) (window_error (j_body j) now) False in
  (exists! x, spec x) /\ forall g, spec g -> g = jwt_verify now j.
Proof. exact verify_complete. Qed.
Print Assumptions C138_time_window.

Theorem C138_keys : forall d h doc,
  let ok := fun x => proof_key d doc (h_additional h) (fst x) /\ snd x = h_alg h in
  let spec := allowed ok (key_error d doc (h_additional h)) (key_panics d doc (h_additional h)) in
  (exists! x, spec x) /\ forall g, spec g -> g = header_extract_key_and_alg d h doc.
Proof. exact key_complete. Qed.
Print Assumptions C138_keys.

(** Reading a token. *)
Theorem C138_reading_tokens : forall d s,
  determines (allowed (fun j => exists hs bs tail ht bt hm bv bm,
      token_parts s hs bs tail
      /\ base64_text url_alphabet false ht hs /\ base64_text url_alphabet false bt bs
      /\ json_text ht (JObj hm) /\ header_of hm (j_header j)
      /\ struct_text (map lit claim_names) bt bv /\ members_of claim_names bv bm /\ claims_of d bm (j_body j)
      /\ signature_is tail (j_signature j)) (token_error d s) False) (jwt_from_str d s).
Proof. exact tokens_complete. Qed.
Print Assumptions C138_reading_tokens.

(** The checks on a parsed proof, what is taken out of it, and its text. *)
Theorem C138_proof_methods : forall d j n i u,
  determines (allowed (fun _ : unit => n = Some (b_nonce (j_body j)))
     (fun e => n <> Some (b_nonce (j_body j)) /\ e = JNonceMismatch n (b_nonce (j_body j))) False) (jwt_check_nonce j n)
  /\ determines (allowed (fun _ : unit => b_iss (j_body j) = i)
       (fun e => b_iss (j_body j) <> i /\ e = JIssuerMismatch i (b_iss (j_body j))) False) (jwt_check_iss j i)
  /\ determines (allowed (fun _ : unit => b_aud (j_body j) = u)
       (fun e => b_aud (j_body j) <> u /\ e = JAudienceMismatch u (b_aud (j_body j))) False) (jwt_check_aud j u)
  /\ determines (allowed (proof_did d (h_additional (j_header j))) (did_error d (h_additional (j_header j))) False)
       (jwt_extract_did d j)
  /\ determines (allowed (message_of (raw_text d j)) (fun _ => False) False) (jwt_to_signable_message d j)
  /\ determines (allowed (after_second_dot (raw_text d j))
       (fun e => ~ (exists sig, after_second_dot (raw_text d j) sig) /\ e = JSignatureNotInJwt (raw_text d j)) False)
       (jwt_extract_signature d j)
  /\ determines (allowed (fun s => s = header_to_json (j_header j) ++ lit "." ++ claims_to_json d (j_body j)
                            ++ match j_signature j with Some sig => lit "." ++ sig | None => [] end)
       (fun _ => False) False) (jwt_try_into_string d j).
Proof. exact proofs_complete. Qed.
Print Assumptions C138_proof_methods.

Theorem C138_validating_token_requests : forall r,
  determines (allowed (fun _ : unit => forall code pin, tr_grant_type r = GPreAuthorized code (Some pin) -> pin < 10 ^ 9)
    (fun e => exists code pin, tr_grant_type r = GPreAuthorized code (Some pin) /\ 10 ^ 9 <= pin
                /\ pin_length_error pin (TValidationError e)) False) (token_request_validate r).
Proof. exact token_request_determined. Qed.
Print Assumptions C138_validating_token_requests.

Theorem C138_validating_token_answers : forall t,
  determines (allowed (fun _ : unit => ~ (ts_c_nonce t = None /\ ts_c_nonce_expires_in t <> None))
    (fun e => ts_c_nonce t = None /\ ts_c_nonce_expires_in t <> None
       /\ e = VAny (lit "c_nonce_expires_in is provided, but c_nonce is not")) False) (token_success_validate t).
Proof. exact token_success_determined. Qed.
Print Assumptions C138_validating_token_answers.

Theorem C138_validating_metadata : forall m,
  determines (allowed (fun _ : unit => ids_distinct (im_credentials_supported m))
    (fun e => ~ ids_distinct (im_credentials_supported m) /\ IValidationError e = duplicate_ids_error) False)
    (metadata_validate m).
Proof. exact metadata_determined. Qed.
Print Assumptions C138_validating_metadata.

Theorem C138_validating_offers : forall o,
  determines (allowed (fun _ : unit => True) (fun _ => False) False) (offer_validate o).
Proof. exact offer_determined. Qed.
Print Assumptions C138_validating_offers.

Theorem C138_validating_requests : forall d r,
  lower_case_facts d -> upper_case_facts d -> on_some (fun p => rust_string (rp_proof_type p)) (cr_proof r) ->
  determines (allowed (fun _ : unit => valid_request d r) (fun e => request_error d r (IValidationError e)) False)
    (request_validate d r).
Proof. exact request_determined. Qed.
Print Assumptions C138_validating_requests.

Theorem C138_validating_proofs : forall d j,
  lower_case_facts d -> rust_string (h_typ (j_header j)) ->
  determines (allowed (fun _ : unit => ascii_ci (h_typ (j_header j)) (lit "openid4vci-proof+jwt"))
    (fun e => ~ ascii_ci (h_typ (j_header j)) (lit "openid4vci-proof+jwt") /\ e = typ_error) False) (jwt_validate d j).
Proof. exact proof_determined. Qed.
Print Assumptions C138_validating_proofs.

Theorem C138_validating_keys : forall a,
  determines (allowed (fun _ : unit => exists kid, a = KeyId kid)
    (fun e => (exists s, a = Jwk s) /\ e = VAny (lit "JWK is not supported as key type in the JWT header")
              \/ (exists s, a = X5c s) /\ e = VAny (lit "X5c is not supported as key type in the JWT header")) False)
    (additional_header_validate a).
Proof. exact key_form_determined. Qed.
Print Assumptions C138_validating_keys.

(** The names of error codes and of the token type. *)
Theorem C138_codes : forall s,
  determines (allowed (fun c => exists name, oauth_code c name /\ s = lit name)
    (fun e => (forall c name, oauth_code c name -> s <> lit name) /\ e = VAny (lit "Invalid access token error code")) False)
    (token_code_try_from s)
  /\ determines (allowed (fun c => exists name, vci_code c name /\ s = lit name)
       (fun e => (forall c name, vci_code c name -> s <> lit name) /\ e = VAny (lit "Invalid error code: " ++ s)) False)
       (issuer_code_try_from s)
  /\ determines (allowed (fun _ : token_type => s = lit "Bearer")
       (fun e => s <> lit "Bearer" /\ e = VAny (lit "Invalid access token type")) False) (token_type_try_from s).
Proof. exact codes_determined. Qed.
Print Assumptions C138_codes.

Theorem C138_token_answers : forall now access_token token_type expires_in scope c_nonce c_nonce_expires_in pending interval,
  determines (allowed (fun x : token_success * instant => let '(t, at_) := x in
      ts_access_token t = access_token /\ ts_token_type t = token_type /\ ts_expires_in t = expires_in
      /\ ts_scope t = scope /\ ts_c_nonce t = c_nonce /\ ts_c_nonce_expires_in t = c_nonce_expires_in
      /\ ts_authorization_pending t = pending /\ ts_interval t = interval /\ at_ = now) (fun _ => False) False)
    (create_access_token_success_response now access_token token_type expires_in scope c_nonce c_nonce_expires_in
       pending interval).
Proof. exact token_answers_determined. Qed.
Print Assumptions C138_token_answers.

Theorem C138_error_answers : forall tc ic description uri details,
  determines (allowed (fun r => resp_error r = tc /\ resp_description r = description /\ resp_uri r = uri
                         /\ resp_details r = details) (fun _ => False) False)
    (create_access_token_error_response tc description uri details)
  /\ determines (allowed (fun r => resp_error r = ic /\ resp_description r = description /\ resp_uri r = uri
                         /\ resp_details r = details) (fun _ => False) False)
    (create_credential_error_response ic description uri details).
Proof. exact error_answers_determined. Qed.
Print Assumptions C138_error_answers.

(** What a credential is put in a response as, the text in a link, and a single id. *)
Theorem C138_parts : forall m c p o,
  determines (allowed (issued p) (fun _ => False) False) (cfp_encode p)
  /\ determines (allowed (fun t => percent_encoded (offer_to_json o) t) (fun _ => False) False) (offer_url_encode o)
  /\ determines (allowed (resolves m c)
       (fun e => exists id, c = CredentialId id /\ ~ known_id m id /\ e = ICredentialIdNotInIssuerMetadata id) False)
       (resolve m c).
Proof. exact parts_determined. Qed.
Print Assumptions C138_parts.

(** Hypotheses and outcomes: for the same offer one request must be accepted and
    another one refused with one particular error. *)
Example C138_must_accept : forall g,
  allowed (fun _ : unit => token_accepted (ex_request (Some 493536)) (Some (ex_offer None)) (ex_options 493536))
    (token_rejected (ex_request (Some 493536)) (Some (ex_offer None)) (ex_options 493536)) False g <-> g = Ok tt.
Proof.
  intros g. split.
  - intros H. now rewrite (proj2 (C138_token_requests _ _ _) g H).
  - intros ->. constructor. exact C01_accepted.
Qed.
Example C138_must_refuse : forall g,
  allowed (fun _ : unit => token_accepted {| tr_grant_type := GPreAuthorized (lit "other") (Some 2) |}
      (Some (ex_offer None)) (ex_options 2))
    (token_rejected {| tr_grant_type := GPreAuthorized (lit "other") (Some 2) |} (Some (ex_offer None)) (ex_options 2))
    False g <-> g = Err (TInvalidPreAuthorizedCodeFlowValues true false).
Proof.
  intros g. split.
  - intros H. now rewrite (proj2 (C138_token_requests _ _ _) g H).
  - intros ->. constructor. exact C02_code.
Qed.
(** And the answer that evaluation must give. *)
Example C138_must_answer : lower_case_facts example_deps /\ forall g,
  allowed (eval_answer example_deps ev_now ev_metadata (ev_request ex_degree "jwt" (ev_good EdDSA)) (Some ev_offer)
      None (Some ev_document) (ev_options None))
    (eval_error example_deps ev_now ev_metadata (ev_request ex_degree "jwt" (ev_good EdDSA)) (Some ev_offer)
      None (Some ev_document) (ev_options None))
    (eval_panics example_deps ev_now ev_metadata (ev_request ex_degree "jwt" (ev_good EdDSA)) (Some ev_offer)
      None (Some ev_document) (ev_options None)) g ->
  g = Ok (ev_answer EdDSA ex_degree (raw_text example_deps (ev_good EdDSA)) (ev_rest ++ lit ".c2ln")).
Proof.
  split; [exact example_lower_case_facts|]. intros g H.
  rewrite (proj2 (C138_credential_requests _ _ _ _ _ _ _ _ example_lower_case_facts) g H).
  exact (ev_accepted EdDSA ex_degree "jwt").
Qed.

(** And for the smaller calls: a text with one dot too few must be refused with
    one error, a PIN of nine digits must pass and one of ten must not. *)
Example C138_no_dot : forall d g,
  allowed (fun j => exists hs bs tail ht bt hm bv bm,
      token_parts (lit "abc") hs bs tail
      /\ base64_text url_alphabet false ht hs /\ base64_text url_alphabet false bt bs
      /\ json_text ht (JObj hm) /\ header_of hm (j_header j)
      /\ struct_text (map lit claim_names) bt bv /\ members_of claim_names bv bm /\ claims_of d bm (j_body j)
      /\ signature_is tail (j_signature j)) (token_error d (lit "abc")) False g ->
  g = Err (VAny (lit "No body found in the `JWT`")).
Proof. intros d g H. rewrite (proj2 (C138_reading_tokens d _) g H). reflexivity. Qed.
Example C138_nine_digits :
  token_request_validate {| tr_grant_type := GPreAuthorized [] (Some 999999999) |} = Ok tt
  /\ token_request_validate {| tr_grant_type := GPreAuthorized [] (Some 1000000000) |}
     = Err (VAny (lit "user pin exeeded length. Maximum is 8, supplied is 9")).
Proof. split; reflexivity. Qed.
