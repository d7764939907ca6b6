(** Evaluation of credential requests. Theorems only; proofs are in
    Proofs/EvalFacts*.v, vocabulary in SpecEvaluation.v. [lower_case_facts] and
    [upper_case_facts] are facts about Rust's Unicode case tables (SpecJwt.v). *)
From Coq Require Import Lia.
From Verif Require Import Model.Prelude Model.Base64 Model.Json Model.Types Model.Deps Model.Errors
  Model.Jwt Model.AccessToken Model.CredentialIssuer Model.Wire
  Spec SpecToken SpecOffer SpecJwt SpecEvaluation
  Proofs.StrFacts Proofs.Utf8Facts Proofs.JsonFacts Proofs.JwtFacts Proofs.OfferFacts Proofs.EvalFacts Proofs.EvalFacts2 Proofs.EvalFacts3
  Proofs.OkTac Examples Properties.Offers Properties.Jwt.

(* ------------------------------------------------------------------ *)
(** * Example: an issuer, a document with one key, and tokens *)

Definition ev_metadata : issuer_metadata :=
  {| im_credential_issuer := lit "https://issuer.example"; im_authorization_server := None;
     im_credential_endpoint := lit "https://issuer.example/credential";
     im_batch_credential_endpoint := None;
     im_credentials_supported := [ex_supported (Some (lit "Degree")) ex_degree];
     im_additional_fields := None |}.
Definition ev_offer : credential_offer :=
  {| co_credential_issuer := lit "https://issuer.example"; co_credentials := [CredentialId (lit "Degree")];
     co_grants := {| og_auth := None; og_pre := Some ex_pre |} |}.
Definition ev_key : jwk := {| jwk_algorithm := Some JAEdDSA; jwk_parameters := POKP (lit "key bytes") |}.
Definition ev_document : ex_document := [(lit "did:key:z6Mk#z6Mk", ev_key)].
Definition ev_options (client : option str) : option eval_options :=
  Some {| eo_c_nonce := Some {| cno_expires_in := 300; cno_expected := lit "n1";
                                cno_created_at := 1683000000000000000%Z |};
          eo_client_id := client |}.
Definition ev_now : instant := 1683000001000000000%Z.

Definition ev_token (j : proof_jwt) : str :=
  base64url_encode (header_to_json (j_header j)) ++ lit "."
  ++ base64url_encode (claims_to_json example_deps (j_body j))
  ++ match j_signature j with Some sig => lit "." ++ sig | None => [] end.
Definition ev_request (c : cfp) (proof_type : string) (j : proof_jwt) : credential_request :=
  {| cr_format := c; cr_proof := Some {| rp_proof_type := lit proof_type; rp_jwt := ev_token j |} |}.

Lemma ev_token_parses j :
  header_ok (j_header j) -> body_ok (j_body j) -> body_instants_ok (j_body j) ->
  (forall sig, j_signature j = Some sig -> dotless sig) ->
  jwt_from_str example_deps (ev_token j) = Ok j.
Proof.
  intros H1 H2 H3 H4.
  exact (C24_compact_token_round_trip example_deps j _ _ example_dt_round_trips H1 H2 H3
    (proj2 (proj1 codec_exact _)) (proj2 (proj1 codec_exact _)) H4).
Qed.

(** Variants of [ex_jwt] with the claims and header the examples need. *)
Definition ev_jwt (alg : proof_alg) (aud : string) (sig : option str) : proof_jwt := {|
  j_header := {| h_typ := lit "OpenID4VCI-proof+JWT"; h_alg := alg;
                 h_additional := Some (KeyId (lit "did:key:z6Mk#z6Mk")) |};
  j_body := {| b_iss := Some (lit "client"); b_aud := lit aud; b_sub := None;
               b_iat := 1683000000000000000%Z; b_nonce := lit "n1"; b_nbf := None;
               b_exp := Some 1682000000000000000%Z |};
  j_signature := sig |}.
Definition ev_sig : option str := Some (lit "c2ln").

Ltac ev_parses :=
  apply ev_token_parses;
  [ split; [ok|]; intros s [E|[E|E]]; try discriminate; injection E as <-; ok
  | ok
  | split; [reflexivity|split; intros x E; try discriminate; injection E as <-; reflexivity]
  | intros sig E; try discriminate; injection E as <-; apply not_in_bool; reflexivity ].

Lemma ev_parses_signed : forall alg, jwt_from_str example_deps (ev_token (ev_jwt alg "https://issuer.example" ev_sig))
  = Ok (ev_jwt alg "https://issuer.example" ev_sig).
Proof. intros alg. ev_parses. Qed.
Lemma ev_parses_unsigned : jwt_from_str example_deps (ev_token (ev_jwt EdDSA "https://issuer.example" None))
  = Ok (ev_jwt EdDSA "https://issuer.example" None).
Proof. ev_parses. Qed.

Definition ev_evaluate (now : instant) (r : credential_request) (client : option str) :=
  evaluate_credential_request example_deps now ev_metadata r (Some ev_offer) None (Some ev_document)
    (ev_options client).

Lemma ev_at now c t j client :
  jwt_from_str example_deps (ev_token j) = Ok j -> check_nonce_expiry now (ev_options client) = Ok tt ->
  ev_evaluate now (ev_request c t j) client
  = token_part example_deps ev_metadata ev_offer (Some ev_document) (ev_options client) c j.
Proof.
  intros H1 H2.
  exact (evaluate_at example_deps now ev_metadata (ev_request c t j) ev_offer (Some ev_document)
    (ev_options client) {| rp_proof_type := lit t; rp_jwt := ev_token j |} j eq_refl H2 eq_refl H1).
Qed.

(** The accepted request of the examples. Its exp is in the past and its
    audience contains a dot. *)
Definition ev_good (alg : proof_alg) : proof_jwt := ev_jwt alg "https://issuer.example" ev_sig.
Definition ev_answer (alg : proof_alg) (c : cfp) (message signature : str) : eval_response :=
  {| er_pop := Some {| pop_algorithm := alg; pop_public_key := lit "key bytes";
                       pop_message := message; pop_signature := signature |};
     er_subject_id := Some (lit "did:key:z6Mk"); er_credential := c |}.
Definition ev_rest : str :=
  lit "example"",""sub"":null,""iat"":""2023-05-02T04:00:00Z"",""nonce"":""n1"",""exp"":""2023-04-20T14:13:20Z""}".

Example ev_accepted : forall alg c t,
  ev_evaluate ev_now (ev_request c t (ev_good alg)) None
  = Ok (ev_answer alg c (raw_text example_deps (ev_good alg)) (ev_rest ++ lit ".c2ln")).
Proof.
  intros alg c t. unfold ev_good. rewrite (ev_at ev_now c t _ None (ev_parses_signed alg) eq_refl).
  destruct alg; vm_compute; reflexivity.
Qed.
Example ev_accepted_client : forall t,
  ev_evaluate ev_now (ev_request ex_degree t (ev_good EdDSA)) (Some (lit "client"))
  = Ok (ev_answer EdDSA ex_degree (raw_text example_deps (ev_good EdDSA)) (ev_rest ++ lit ".c2ln")).
Proof.
  intros t. unfold ev_good. rewrite (ev_at ev_now ex_degree t _ (Some (lit "client")) (ev_parses_signed EdDSA) eq_refl).
  vm_compute. reflexivity.
Qed.
Example ev_token_good alg : proof_token example_deps (ev_token (ev_good alg)) (ev_good alg).
Proof. apply proof_token_iff, ev_parses_signed. Qed.

(* ------------------------------------------------------------------ *)
(** * C25: the message for every text that is not a token *)
Theorem C25_rejected_tokens : forall d s e, jwt_from_str d s = Err e <-> token_error d s e.
Proof. exact from_str_err. Qed.
Print Assumptions C25_rejected_tokens.

(** Base64 is decoded before either document is read. *)
Example C25_rejected : token_error example_deps (lit "e30.*") (VAny (base64_error example_deps (lit "*")))
  /\ token_error example_deps (lit "e30.e30") (VAny (serde_error example_deps (lit "{}"))).
Proof.
  split; apply C25_rejected_tokens; vm_compute; reflexivity.
Qed.

(** * C34 *)
Theorem C34_pre_evaluation_answers : forall d r did,
  lower_case_facts d -> upper_case_facts d -> on_some (fun p => rust_string (rp_proof_type p)) (cr_proof r) ->
  (pre_evaluate_credential_request d r = Ok did <-> pre_answer d r did).
Proof. intros d r did H1 H2 H3. exact (proj1 (pre_evaluate_outcomes d r H1 H2 H3) did). Qed.
Print Assumptions C34_pre_evaluation_answers.

Theorem C34_pre_evaluation_errors : forall d r e,
  lower_case_facts d -> upper_case_facts d -> on_some (fun p => rust_string (rp_proof_type p)) (cr_proof r) ->
  (pre_evaluate_credential_request d r = Err e <-> pre_error d r e).
Proof. intros d r e H1 H2 H3. exact (proj2 (pre_evaluate_outcomes d r H1 H2 H3) e). Qed.
Print Assumptions C34_pre_evaluation_errors.

Theorem C34_pre_evaluation_never_panics : forall d r, pre_evaluate_credential_request d r <> Panic.
Proof. exact pre_evaluate_no_panic. Qed.
Print Assumptions C34_pre_evaluation_never_panics.

Example C34_pre_evaluated : forall alg,
  pre_evaluate_credential_request example_deps (ev_request ex_degree "jWt" (ev_good alg))
  = Ok (Some (lit "did:key:z6Mk")).
Proof.
  intros alg. apply C34_pre_evaluation_answers; [exact example_lower_case_facts|exact example_upper_case_facts| |].
  { intros q E. apply some_inj in E. subst q. apply rust_string_ascii. reflexivity. }
  right. exists {| rp_proof_type := lit "jWt"; rp_jwt := ev_token (ev_good alg) |}, (ev_good alg).
  split; [reflexivity|]. split; [|split; [apply ev_token_good|now constructor 2 with (u :=
     {| du_did := lit "did:key:z6Mk"; du_path := []; du_query := None; du_fragment := Some (lit "z6Mk") |})]].
  constructor; [|constructor; [|constructor; [|constructor]]]; cbn [passes rp_proof_type rp_jwt].
  - apply same_ascii_ci. reflexivity.
  - exists (ev_good alg). apply ev_token_good.
  - exists (ev_good alg). split; [apply ev_token_good|]. apply same_ascii_ci. reflexivity.
Qed.

(** * C35 *)
Theorem C35_same_subject : forall d now m r offer asm doc options resp did,
  lower_case_facts d ->
  evaluate_credential_request d now m r offer asm doc options = Ok resp ->
  pre_evaluate_credential_request d r = Ok did ->
  er_subject_id resp = did /\ did <> None.
Proof. exact agree_on_subject. Qed.
Print Assumptions C35_same_subject.

(** * C36 *)
Theorem C36_success_implies_checks : forall d now m r offer asm doc options resp,
  lower_case_facts d ->
  evaluate_credential_request d now m r offer asm doc options = Ok resp ->
  ids_distinct (im_credentials_supported m) /\ asm = None
  /\ exists o p j n doc' kid u k opts pop,
       offer = Some o /\ options = Some opts /\ eo_c_nonce opts = Some n
       /\ (now <= nonce_expiry n)%Z /\ representable (nonce_expiry n)
       /\ cr_proof r = Some p /\ proof_token d (rp_jwt p) j
       /\ ascii_ci (h_typ (j_header j)) (lit "openid4vci-proof+jwt")
       /\ b_nonce (j_body j) = cno_expected n
       /\ b_aud (j_body j) = im_credential_issuer m
       /\ iss_allowed options o (b_iss (j_body j))
       /\ h_additional (j_header j) = Some (KeyId kid) /\ did_url_try_from d kid = inr u
       /\ doc = Some doc' /\ document_key d doc' kid k
       /\ er_pop resp = Some pop /\ pop_algorithm pop = h_alg (j_header j)
       /\ public_key k (pop_public_key pop)
       /\ message_of (raw_text d j) (pop_message pop)
       /\ after_second_dot (raw_text d j) (pop_signature pop)
       /\ er_subject_id resp = Some (du_did u) /\ er_credential resp = cr_format r.
Proof. exact accepted_inv. Qed.
Print Assumptions C36_success_implies_checks.

(** * C37 *)
Theorem C37_success_exactly : forall d now m r offer asm doc options resp,
  lower_case_facts d ->
  (evaluate_credential_request d now m r offer asm doc options = Ok resp <->
   eval_answer d now m r offer asm doc options resp).
Proof. intros d now m r offer asm doc options resp HL. exact (proj1 (evaluate_outcomes d now m r offer asm doc options HL) resp). Qed.
Print Assumptions C37_success_exactly.

Example C37_accepted : exists resp,
  eval_answer example_deps ev_now ev_metadata (ev_request ex_degree "jwt" (ev_good EdDSA)) (Some ev_offer) None
    (Some ev_document) (ev_options (Some (lit "client"))) resp.
Proof.
  exists (ev_answer EdDSA ex_degree (raw_text example_deps (ev_good EdDSA)) (ev_rest ++ lit ".c2ln")).
  refine (proj1 (C37_success_exactly _ _ _ _ _ _ _ _ _ example_lower_case_facts) _).
  exact (ev_accepted_client "jwt").
Qed.

(** * C38 *)
Theorem C38_no_expected_nonce_no_success : forall d now m r offer asm doc options resp,
  lower_case_facts d -> (forall n, ~ nonce_options options n) ->
  evaluate_credential_request d now m r offer asm doc options <> Ok resp.
Proof. exact no_nonce_rejected. Qed.
Print Assumptions C38_no_expected_nonce_no_success.

Theorem C38_no_expected_nonce_error : forall d now m r offer doc options p j,
  lower_case_facts d -> (forall n, ~ nonce_options options n) ->
  ids_distinct (im_credentials_supported m) -> offer <> None ->
  cr_proof r = Some p -> proof_token d (rp_jwt p) j -> ascii_ci (h_typ (j_header j)) proof_typ ->
  evaluate_credential_request d now m r offer None doc options
  = Err (IJwtError (JNonceMismatch None (b_nonce (j_body j)))).
Proof. exact no_nonce_error. Qed.
Print Assumptions C38_no_expected_nonce_error.

Example C38_case : forall client,
  (forall n, ~ nonce_options (Some {| eo_c_nonce := None; eo_client_id := client |}) n)
  /\ ids_distinct (im_credentials_supported ev_metadata) /\ Some ev_offer <> None
  /\ ascii_ci (h_typ (j_header (ev_good EdDSA))) proof_typ.
Proof.
  intros client. split; [intros n (o & [= <-] & E); discriminate|]. split; [|split; [discriminate|]].
  - now apply metadata_validate_ok.
  - apply same_ascii_ci. reflexivity.
Qed.

(** * C39 *)
Theorem C39_expiry_boundary : forall d now m r offer asm doc options a b,
  evaluate_credential_request d now m r offer asm doc options = Err (ICNonceIsExpired a b) <->
  ids_distinct (im_credentials_supported m) /\ offer <> None /\ asm = None
  /\ exists n, nonce_options options n /\ representable (nonce_expiry n) /\ (nonce_expiry n < now)%Z
     /\ a = now /\ b = nonce_expiry n.
Proof. exact expiry_exact. Qed.
Print Assumptions C39_expiry_boundary.

Theorem C39_expired_stays_expired : forall d now now' m r offer asm doc options t x,
  evaluate_credential_request d now m r offer asm doc options = Err (ICNonceIsExpired t x) ->
  (now <= now')%Z ->
  evaluate_credential_request d now' m r offer asm doc options = Err (ICNonceIsExpired now' x).
Proof. exact expiry_later. Qed.
Print Assumptions C39_expired_stays_expired.

Theorem C39_success_at_earlier_times : forall d now now' m r offer asm doc options resp,
  evaluate_credential_request d now m r offer asm doc options = Ok resp ->
  (now' <= now)%Z ->
  evaluate_credential_request d now' m r offer asm doc options = Ok resp.
Proof. exact success_earlier. Qed.
Print Assumptions C39_success_at_earlier_times.

(** Accepted in the nanosecond the nonce expires, rejected in the next. *)
Example C39_last_instant :
  ev_evaluate 1683000300000000000%Z (ev_request ex_degree "jwt" (ev_good EdDSA)) None
  = Ok (ev_answer EdDSA ex_degree (raw_text example_deps (ev_good EdDSA)) (ev_rest ++ lit ".c2ln")).
Proof.
  unfold ev_good. rewrite (ev_at 1683000300000000000%Z ex_degree "jwt" _ None (ev_parses_signed EdDSA) eq_refl). vm_compute. reflexivity.
Qed.
Example C39_too_late :
  ev_evaluate 1683000300000000001%Z (ev_request ex_degree "jwt" (ev_good EdDSA)) None
  = Err (ICNonceIsExpired 1683000300000000001%Z 1683000300000000000%Z).
Proof.
  apply C39_expiry_boundary. split; [now apply metadata_validate_ok|]. split; [discriminate|]. split; [reflexivity|].
  eexists. split; [eexists; split; reflexivity|]. split; [split; vm_compute; discriminate|]. split; [reflexivity|]. auto.
Qed.

(** * C40 *)
Theorem C40_client_id_is_iss : forall d now m r offer asm doc opts resp c p j,
  lower_case_facts d -> eo_client_id opts = Some c ->
  evaluate_credential_request d now m r offer asm doc (Some opts) = Ok resp ->
  cr_proof r = Some p -> proof_token d (rp_jwt p) j -> b_iss (j_body j) = Some c.
Proof. exact client_id_required. Qed.
Print Assumptions C40_client_id_is_iss.

Theorem C40_iss_absent_in_other_flows : forall d now m r o asm doc opts resp p j,
  lower_case_facts d -> eo_client_id opts = None -> ~ only_pre_authorized o ->
  evaluate_credential_request d now m r (Some o) asm doc (Some opts) = Ok resp ->
  cr_proof r = Some p -> proof_token d (rp_jwt p) j -> b_iss (j_body j) = None.
Proof. exact no_client_iss_absent. Qed.
Print Assumptions C40_iss_absent_in_other_flows.

Theorem C40_iss_free_when_pre_authorized : forall d now m r r' o asm doc options p p' j iss,
  client_id options = None -> only_pre_authorized o ->
  cr_format r = cr_format r' -> cr_proof r = Some p -> cr_proof r' = Some p' ->
  proof_token d (rp_jwt p) j -> proof_token d (rp_jwt p') (with_iss iss j) -> j_signature j <> None ->
  same_verdict (evaluate_credential_request d now m r (Some o) asm doc options)
               (evaluate_credential_request d now m r' (Some o) asm doc options).
Proof. exact iss_not_examined. Qed.
Print Assumptions C40_iss_free_when_pre_authorized.

Example C40_case : client_id (ev_options None) = None /\ only_pre_authorized ev_offer
  /\ proof_token example_deps (ev_token (with_iss None (ev_good EdDSA))) (with_iss None (ev_good EdDSA)).
Proof.
  split; [reflexivity|]. split; [split; [discriminate|reflexivity]|]. apply proof_token_iff.
  unfold with_iss, ev_good. ev_parses.
Qed.

(** * C41 *)
Theorem C41_first_failing_check : forall d now m r offer asm doc options e,
  lower_case_facts d ->
  (evaluate_credential_request d now m r offer asm doc options = Err e <->
   eval_error d now m r offer asm doc options e).
Proof. intros d now m r offer asm doc options e HL. exact (proj1 (proj2 (evaluate_outcomes d now m r offer asm doc options HL)) e). Qed.
Print Assumptions C41_first_failing_check.

(** Several checks fail; the first one (missing offer) is reported. *)
Example C41_case : eval_error example_deps ev_now ev_metadata {| cr_format := ex_degree; cr_proof := None |}
  None (Some tt) None None ICredentialOfferMustBeSupplied.
Proof. apply C41_first_failing_check; [exact example_lower_case_facts|reflexivity]. Qed.

(** * C42: false; the nonce expiry can overflow, and a resolver can find
    something that is not a verification method *)
Definition nonces_realistic (options : option eval_options) : Prop :=
  forall n, nonce_options options n -> representable (cno_created_at n) /\ u32 (cno_expires_in n).
Definition C42_claim : Prop :=
  forall d now m r offer asm doc options, nonces_realistic options ->
  evaluate_credential_request d now m r offer asm doc options <> Panic.
Definition ev_last_nonce : option eval_options :=
  Some {| eo_c_nonce := Some {| cno_expires_in := 1; cno_expected := lit "n1"; cno_created_at := instant_max |};
          eo_client_id := None |}.
Theorem C42_never_panics_refuted : ~ C42_claim.
Proof.
  intros H. apply (H example_deps ev_now ev_metadata {| cr_format := ex_degree; cr_proof := None |} (Some ev_offer)
                     None None ev_last_nonce); [|reflexivity].
  intros n (o & [= <-] & [= <-]). split; [split; vm_compute; discriminate|reflexivity].
Qed.
Print Assumptions C42_never_panics_refuted.

(** The same with nonces whose expiry is representable. *)
Definition C42_resolver_claim : Prop :=
  forall d now m r offer asm doc options, (forall n, nonce_options options n -> representable (nonce_expiry n)) ->
  evaluate_credential_request d now m r offer asm doc options <> Panic.
Theorem C42_resolver_refuted : ~ C42_resolver_claim.
Proof.
  intros H. apply (H example_deps_other ev_now ev_metadata (ev_request ex_degree "jwt" (ev_good EdDSA)) (Some ev_offer)
                     None (Some ev_document) (ev_options None)).
  - intros n (o & [= <-] & [= <-]). split; vm_compute; discriminate.
  - rewrite (evaluate_at example_deps_other ev_now ev_metadata (ev_request ex_degree "jwt" (ev_good EdDSA)) ev_offer
      (Some ev_document) (ev_options None) {| rp_proof_type := lit "jwt"; rp_jwt := ev_token (ev_good EdDSA) |}
      (ev_good EdDSA) eq_refl eq_refl eq_refl (ev_parses_signed EdDSA)).
    vm_compute. reflexivity.
Qed.
Print Assumptions C42_resolver_refuted.

Theorem C42_panics_exactly : forall d now m r offer asm doc options,
  lower_case_facts d ->
  (evaluate_credential_request d now m r offer asm doc options = Panic <->
   eval_panics d now m r offer asm doc options).
Proof. exact panic_exact. Qed.
Print Assumptions C42_panics_exactly.

(** * C43 *)
Theorem C43_no_request_panics : forall d now m r offer asm doc options,
  (forall n, nonce_options options n -> representable (nonce_expiry n)) ->
  (forall doc' u, doc = Some doc' -> select_object d doc' u <> inr ROther) ->
  evaluate_credential_request d now m r offer asm doc options <> Panic.
Proof. exact evaluate_no_panic_if. Qed.
Print Assumptions C43_no_request_panics.

Example C43_case : (forall n, nonce_options (ev_options None) n -> representable (nonce_expiry n))
  /\ (forall doc' u, Some ev_document = Some doc' -> select_object example_deps doc' u <> inr ROther).
Proof.
  split.
  - intros n (o & [= <-] & [= <-]). split; vm_compute; discriminate.
  - intros doc' u _ E. cbn in E. unfold ex_select in E. destruct (assoc _ _); discriminate.
Qed.

Theorem C43_other_operations_never_panic :
  (forall m creds ep a p, create_offer m creds ep a p <> Panic)
  /\ (forall m l, resolve_all m l <> Panic)
  /\ (forall o, offer_url_encode o <> Panic)
  /\ (forall d r, pre_evaluate_credential_request d r <> Panic)
  /\ (forall d now r ct n, create_credential_success_response d now r ct n <> Panic)
  /\ (forall e ds u dt, create_credential_error_response e ds u dt <> Panic)
  /\ (forall r offer opts, evaluate_access_token_request r offer opts <> Panic)
  /\ (forall now t ty e sc n ne ap i, create_access_token_success_response now t ty e sc n ne ap i <> Panic)
  /\ (forall e ds u dt, create_access_token_error_response e ds u dt <> Panic)
  /\ (forall m, metadata_validate m <> Panic) /\ (forall d r, request_validate d r <> Panic)
  /\ (forall r, token_request_validate r <> Panic) /\ (forall t, token_success_validate t <> Panic)
  /\ (forall d s, jwt_from_str d s <> Panic) /\ (forall d j, jwt_try_into_string d j <> Panic)
  /\ (forall now j, jwt_verify now j <> Panic) /\ (forall d j, jwt_extract_did d j <> Panic)
  /\ (forall d j, jwt_extract_signature d j <> Panic) /\ (forall d j, jwt_to_signable_message d j <> Panic)
  /\ (forall j x, jwt_check_nonce j x <> Panic) /\ (forall j x, jwt_check_iss j x <> Panic)
  /\ (forall j x, jwt_check_aud j x <> Panic) /\ (forall d j, jwt_validate d j <> Panic).
Proof. exact nothing_else_panics. Qed.
Print Assumptions C43_other_operations_never_panic.

(** * C44: false; the algorithm is not examined *)
Definition C44_claim : Prop :=
  forall d now m r offer asm doc options p j resp,
  cr_proof r = Some p -> proof_token d (rp_jwt p) j -> forbidden_alg (h_alg (j_header j)) ->
  evaluate_credential_request d now m r offer asm doc options <> Ok resp.
Theorem C44_forbidden_algorithms_refuted : ~ C44_claim.
Proof.
  intros H.
  apply (H example_deps ev_now ev_metadata (ev_request ex_degree "jwt" (ev_good AlgNone)) (Some ev_offer) None
            (Some ev_document) (ev_options None)
            {| rp_proof_type := lit "jwt"; rp_jwt := ev_token (ev_good AlgNone) |}
           (ev_good AlgNone) _ eq_refl (ev_token_good AlgNone)) with (2 := ev_accepted AlgNone ex_degree "jwt").
  right. right. now right.
Qed.
Print Assumptions C44_forbidden_algorithms_refuted.

Theorem C44_algorithm_not_examined : forall d now m r r' offer asm doc options p p' j alg,
  cr_format r = cr_format r' -> cr_proof r = Some p -> cr_proof r' = Some p' ->
  proof_token d (rp_jwt p) j -> proof_token d (rp_jwt p') (with_alg alg j) -> j_signature j <> None ->
  same_verdict (evaluate_credential_request d now m r offer asm doc options)
               (evaluate_credential_request d now m r' offer asm doc options).
Proof. exact alg_not_examined. Qed.
Print Assumptions C44_algorithm_not_examined.

Example C44_case : forall alg, j_signature (ev_good EdDSA) <> None
  /\ proof_token example_deps (ev_token (with_alg alg (ev_good EdDSA))) (with_alg alg (ev_good EdDSA)).
Proof. intros alg. split; [discriminate|]. exact (ev_token_good alg). Qed.

(** * C45: false; nbf and exp are not examined *)
Definition C45_claim : Prop :=
  forall d now m r offer asm doc options p j resp,
  cr_proof r = Some p -> proof_token d (rp_jwt p) j ->
  (exists t, b_exp (j_body j) = Some t /\ (t < now)%Z) \/ (exists t, b_nbf (j_body j) = Some t /\ (now < t)%Z) ->
  evaluate_credential_request d now m r offer asm doc options <> Ok resp.
Theorem C45_validity_window_refuted : ~ C45_claim.
Proof.
  intros H.
  apply (H example_deps ev_now ev_metadata (ev_request ex_degree "jwt" (ev_good EdDSA)) (Some ev_offer) None
            (Some ev_document) (ev_options None)
            {| rp_proof_type := lit "jwt"; rp_jwt := ev_token (ev_good EdDSA) |}
           (ev_good EdDSA) _ eq_refl (ev_token_good EdDSA)) with (2 := ev_accepted EdDSA ex_degree "jwt").
  left. exists 1682000000000000000%Z. split; reflexivity.
Qed.
Print Assumptions C45_validity_window_refuted.

Theorem C45_window_not_examined : forall d now m r r' offer asm doc options p p' j nbf exp,
  cr_format r = cr_format r' -> cr_proof r = Some p -> cr_proof r' = Some p' ->
  proof_token d (rp_jwt p) j -> proof_token d (rp_jwt p') (with_window nbf exp j) -> j_signature j <> None ->
  same_verdict (evaluate_credential_request d now m r offer asm doc options)
               (evaluate_credential_request d now m r' offer asm doc options).
Proof. exact window_not_examined. Qed.
Print Assumptions C45_window_not_examined.

Example C45_case : j_signature (ev_good EdDSA) <> None
  /\ proof_token example_deps (ev_token (with_window None None (ev_good EdDSA))) (with_window None None (ev_good EdDSA)).
Proof.
  split; [discriminate|]. apply proof_token_iff. unfold with_window, ev_good. ev_parses.
Qed.

(** * C46: false; the requested credential is only copied to the response *)
Definition C46_claim : Prop :=
  forall d now m r o asm doc options resp,
  evaluate_credential_request d now m r (Some o) asm doc options = Ok resp ->
  (exists s, In s (im_credentials_supported m) /\ cfp_eq (er_credential resp) (sup_format s))
  /\ exists c, In c (co_credentials o) /\
       match c with
       | Credential f => cfp_eq (er_credential resp) f
       | CredentialId i => exists s, In s (im_credentials_supported m) /\ sup_id s = Some i
                                     /\ cfp_eq (er_credential resp) (sup_format s)
       end.
Theorem C46_supported_credentials_refuted : ~ C46_claim.
Proof.
  intros H.
  specialize (H example_deps ev_now ev_metadata (ev_request ex_license "jwt" (ev_good EdDSA)) ev_offer None
    (Some ev_document) (ev_options None) _ (ev_accepted EdDSA ex_license "jwt")).
  destruct H as [(s & [<-|[]] & E) _]. inversion E.
Qed.
Print Assumptions C46_supported_credentials_refuted.

Theorem C46_requested_credential_not_examined : forall d now m r offer asm doc options c,
  evaluate_credential_request d now m {| cr_format := c; cr_proof := cr_proof r |} offer asm doc options
  = (let? resp := evaluate_credential_request d now m r offer asm doc options in
     Ok {| er_pop := er_pop resp; er_subject_id := er_subject_id resp; er_credential := c |}).
Proof. exact format_unexamined. Qed.
Print Assumptions C46_requested_credential_not_examined.

Theorem C46_offered_credentials_not_examined : forall d now m m' r o o' asm doc options,
  ids_distinct (im_credentials_supported m) -> ids_distinct (im_credentials_supported m') ->
  im_credential_issuer m = im_credential_issuer m' -> co_grants o = co_grants o' ->
  evaluate_credential_request d now m r (Some o) asm doc options
  = evaluate_credential_request d now m' r (Some o') asm doc options.
Proof. exact supported_unexamined. Qed.
Print Assumptions C46_offered_credentials_not_examined.

(** * C47: false; evaluation does not look at proof_type *)
Definition C47_claim : Prop :=
  forall d now m r offer asm doc options p resp,
  cr_proof r = Some p -> ~ ascii_ci (rp_proof_type p) (lit "jwt") ->
  evaluate_credential_request d now m r offer asm doc options <> Ok resp.
Theorem C47_proof_type_refuted : ~ C47_claim.
Proof.
  intros H.
  apply (H example_deps ev_now ev_metadata (ev_request ex_degree "cwt" (ev_good EdDSA)) (Some ev_offer) None
            (Some ev_document) (ev_options None)
            {| rp_proof_type := lit "cwt"; rp_jwt := ev_token (ev_good EdDSA) |}
           _ eq_refl) with (2 := ev_accepted EdDSA ex_degree "cwt").
  intros E. inversion E as [|? ? ? ? S _]; subst.
  destruct S as [S|[[S _]|[S _]]]; [discriminate|vm_compute in S; destruct S; congruence..].
Qed.
Print Assumptions C47_proof_type_refuted.

Theorem C47_proof_type_not_examined : forall d now m c p t offer asm doc options,
  evaluate_credential_request d now m
    {| cr_format := c; cr_proof := Some {| rp_proof_type := t; rp_jwt := rp_jwt p |} |} offer asm doc options
  = evaluate_credential_request d now m {| cr_format := c; cr_proof := Some p |} offer asm doc options.
Proof. exact proof_type_unexamined. Qed.
Print Assumptions C47_proof_type_not_examined.

(** * C48 *)
Theorem C48_other_proof_types_rejected : forall d r p,
  upper_case_facts d -> cr_proof r = Some p -> rust_string (rp_proof_type p) ->
  ~ ascii_ci (rp_proof_type p) (lit "jwt") ->
  pre_evaluate_credential_request d r = Err (IValidationError proof_type_error)
  /\ forall now ct n, create_credential_success_response d now r ct n = Err (IValidationError proof_type_error).
Proof. exact bad_proof_type. Qed.
Print Assumptions C48_other_proof_types_rejected.

(** Any casing behaves like [jwt]. *)
Theorem C48_jwt_in_any_casing : forall d c p,
  upper_case_facts d -> rust_string (rp_proof_type p) -> ascii_ci (rp_proof_type p) (lit "jwt") ->
  let r := {| cr_format := c; cr_proof := Some p |} in
  let r' := {| cr_format := c; cr_proof := Some {| rp_proof_type := lit "jwt"; rp_jwt := rp_jwt p |} |} in
  pre_evaluate_credential_request d r = pre_evaluate_credential_request d r'
  /\ forall now ct n, create_credential_success_response d now r ct n
                       = create_credential_success_response d now r' ct n.
Proof. exact good_proof_type. Qed.
Print Assumptions C48_jwt_in_any_casing.

(** [jw] followed by a character that is not ASCII, and a longer name. *)
Example C48_cases : ascii_ci (lit "jWT") (lit "jwt")
  /\ rust_string (lit "jw" ++ [chr 197; chr 167]) /\ ~ ascii_ci (lit "jw" ++ [chr 197; chr 167]) (lit "jwt").
Proof.
  split; [apply same_ascii_ci; reflexivity|]. split; [now apply rust_string_iff|].
  intros E. apply ascii_ci_length in E. vm_compute in E. discriminate.
Qed.

(** * C49: false for every request; the message is made of raw JSON *)
Definition C49_claim : Prop :=
  forall d now m r offer asm doc options resp p hs bs tail pop,
  lower_case_facts d -> evaluate_credential_request d now m r offer asm doc options = Ok resp ->
  cr_proof r = Some p -> token_parts (rp_jwt p) hs bs tail ->
  er_pop resp = Some pop -> pop_message pop = hs ++ lit "." ++ bs.
Theorem C49_message_never_signing_input : forall d now m r offer asm doc options resp p j hs bs tail pop,
  lower_case_facts d -> evaluate_credential_request d now m r offer asm doc options = Ok resp ->
  cr_proof r = Some p -> proof_token d (rp_jwt p) j -> token_parts (rp_jwt p) hs bs tail ->
  er_pop resp = Some pop -> pop_message pop <> hs ++ lit "." ++ bs.
Proof. exact never_signing_input. Qed.
Print Assumptions C49_message_never_signing_input.

Theorem C49_message_is_signing_input_refuted : ~ C49_claim.
Proof.
  intros H. destruct (ev_token_good EdDSA) as (hs & bs & tail & ht & bt & T & _).
  apply (C49_message_never_signing_input example_deps ev_now ev_metadata (ev_request ex_degree "jwt" (ev_good EdDSA)) (Some ev_offer) None
    (Some ev_document) (ev_options None) _ {| rp_proof_type := lit "jwt"; rp_jwt := ev_token (ev_good EdDSA) |}
    (ev_good EdDSA) hs bs tail _ example_lower_case_facts (ev_accepted EdDSA ex_degree "jwt") eq_refl
    (ev_token_good EdDSA) T eq_refl).
  exact (H example_deps ev_now ev_metadata (ev_request ex_degree "jwt" (ev_good EdDSA)) (Some ev_offer) None
    (Some ev_document) (ev_options None) _ {| rp_proof_type := lit "jwt"; rp_jwt := ev_token (ev_good EdDSA) |}
    hs bs tail _ example_lower_case_facts (ev_accepted EdDSA ex_degree "jwt") eq_refl T eq_refl).
Qed.
Print Assumptions C49_message_is_signing_input_refuted.

(** * C50: false; a dot in the header or the claims moves the signature *)
Definition C50_claim : Prop :=
  forall d now m r offer asm doc options resp p j sig pop,
  lower_case_facts d -> evaluate_credential_request d now m r offer asm doc options = Ok resp ->
  cr_proof r = Some p -> proof_token d (rp_jwt p) j -> j_signature j = Some sig -> er_pop resp = Some pop ->
  pop_signature pop = sig \/ exists bytes, base64_text url_alphabet false bytes sig /\ pop_signature pop = bytes.
Theorem C50_signature_is_third_segment_refuted : ~ C50_claim.
Proof.
  intros H.
  specialize (H example_deps ev_now ev_metadata (ev_request ex_degree "jwt" (ev_good EdDSA)) (Some ev_offer) None
    (Some ev_document) (ev_options None) _ {| rp_proof_type := lit "jwt"; rp_jwt := ev_token (ev_good EdDSA) |}
    (ev_good EdDSA) _ _ example_lower_case_facts (ev_accepted EdDSA ex_degree "jwt") eq_refl
    (ev_token_good EdDSA) eq_refl eq_refl).
  destruct H as [H|(bytes & B & H)]; [discriminate|].
  apply is_base64 in B. revert B. cbn in H. rewrite <- H. vm_compute. discriminate.
Qed.
Print Assumptions C50_signature_is_third_segment_refuted.

Theorem C50_third_segment_iff_no_dots : forall d now m r offer asm doc options resp p j sig pop,
  lower_case_facts d -> evaluate_credential_request d now m r offer asm doc options = Ok resp ->
  cr_proof r = Some p -> proof_token d (rp_jwt p) j -> j_signature j = Some sig -> er_pop resp = Some pop ->
  (pop_signature pop = sig <->
   dotless (header_to_json (j_header j)) /\ dotless (claims_to_json d (j_body j))).
Proof. exact signature_iff_dotless. Qed.
Print Assumptions C50_third_segment_iff_no_dots.

(** * C51 *)
Theorem C51_message_and_signature : forall d now m r offer asm doc options resp p j,
  lower_case_facts d -> evaluate_credential_request d now m r offer asm doc options = Ok resp ->
  cr_proof r = Some p -> proof_token d (rp_jwt p) j ->
  exists pop, er_pop resp = Some pop /\ message_of (raw_text d j) (pop_message pop)
    /\ after_second_dot (raw_text d j) (pop_signature pop) /\ pop_algorithm pop = h_alg (j_header j).
Proof. exact returned_message. Qed.
Print Assumptions C51_message_and_signature.

(** The two relations determine the message and the signature. *)
Theorem C51_determined : forall t,
  (forall x y, message_of t x -> message_of t y -> x = y)
  /\ (forall x y, after_second_dot t x -> after_second_dot t y -> x = y)
  /\ exists x, message_of t x.
Proof. exact message_determined. Qed.
Print Assumptions C51_determined.

(** * C52: false; a dot in the header or the claims stands in for the signature *)
Definition C52_claim : Prop :=
  forall d now m r offer asm doc options resp p j,
  lower_case_facts d -> cr_proof r = Some p -> proof_token d (rp_jwt p) j -> j_signature j = None ->
  evaluate_credential_request d now m r offer asm doc options <> Ok resp.
Example ev_unsigned_accepted :
  ev_evaluate ev_now (ev_request ex_degree "jwt" (ev_jwt EdDSA "https://issuer.example" None)) None
  = Ok (ev_answer EdDSA ex_degree
          (header_to_json (j_header (ev_good EdDSA)) ++ lit ".{""iss"":""client"",""aud"":""https://issuer") ev_rest).
Proof.
  rewrite (ev_at ev_now ex_degree "jwt" _ None ev_parses_unsigned eq_refl). vm_compute. reflexivity.
Qed.
Theorem C52_unsigned_rejected_refuted : ~ C52_claim.
Proof.
  intros H.
  refine (H example_deps ev_now ev_metadata (ev_request ex_degree "jwt" (ev_jwt EdDSA "https://issuer.example" None))
    (Some ev_offer) None (Some ev_document) (ev_options None) _
    {| rp_proof_type := lit "jwt"; rp_jwt := ev_token (ev_jwt EdDSA "https://issuer.example" None) |}
    (ev_jwt EdDSA "https://issuer.example" None) example_lower_case_facts eq_refl _ eq_refl ev_unsigned_accepted).
  apply proof_token_iff, ev_parses_unsigned.
Qed.
Print Assumptions C52_unsigned_rejected_refuted.

Theorem C52_unsigned_rejected_without_dots_partial : forall d now m r offer asm doc options resp p j,
  lower_case_facts d -> cr_proof r = Some p -> proof_token d (rp_jwt p) j -> j_signature j = None ->
  dotless (header_to_json (j_header j)) -> dotless (claims_to_json d (j_body j)) ->
  evaluate_credential_request d now m r offer asm doc options <> Ok resp.
Proof. exact unsigned_dotless_rejected. Qed.
Print Assumptions C52_unsigned_rejected_without_dots_partial.

Theorem C52_unsigned_like_signed_with_dots : forall d now m r r' offer asm doc options p p' j sig,
  cr_format r = cr_format r' -> cr_proof r = Some p -> cr_proof r' = Some p' ->
  proof_token d (rp_jwt p) j -> proof_token d (rp_jwt p') (with_signature (Some sig) j) ->
  ~ (dotless (header_to_json (j_header j)) /\ dotless (claims_to_json d (j_body j))) ->
  same_verdict (evaluate_credential_request d now m r offer asm doc options)
               (evaluate_credential_request d now m r' offer asm doc options).
Proof. exact unsigned_like_signed. Qed.
Print Assumptions C52_unsigned_like_signed_with_dots.

(** An issuer without a dot in its name; the kid has no dot either. *)
Example C52_case : exists j, proof_token example_deps (ev_token j) j /\ j_signature j = None
  /\ dotless (header_to_json (j_header j)) /\ dotless (claims_to_json example_deps (j_body j)).
Proof.
  exists (ev_jwt EdDSA "https://issuer" None). split.
  - apply proof_token_iff. ev_parses.
  - split; [reflexivity|]. split; apply not_in_bool; reflexivity.
Qed.

(** * C53 *)
Theorem C53_key_of_document : forall d now m r offer asm doc options resp,
  lower_case_facts d ->
  evaluate_credential_request d now m r offer asm doc options = Ok resp ->
  exists p j kid doc' k pop,
    cr_proof r = Some p /\ proof_token d (rp_jwt p) j /\ h_additional (j_header j) = Some (KeyId kid)
    /\ doc = Some doc' /\ document_key d doc' kid k /\ er_pop resp = Some pop
    /\ public_key k (pop_public_key pop).
Proof. exact returned_key. Qed.
Print Assumptions C53_key_of_document.

Theorem C53_key_depends_on_kid_only :
  forall d doc now m r offer asm options resp pop now' m' r' offer' asm' options' resp' pop' p p' j j',
  lower_case_facts d ->
  evaluate_credential_request d now m r offer asm doc options = Ok resp ->
  evaluate_credential_request d now' m' r' offer' asm' doc options' = Ok resp' ->
  cr_proof r = Some p -> cr_proof r' = Some p' -> proof_token d (rp_jwt p) j -> proof_token d (rp_jwt p') j' ->
  h_additional (j_header j) = h_additional (j_header j') ->
  er_pop resp = Some pop -> er_pop resp' = Some pop' ->
  pop_public_key pop = pop_public_key pop'.
Proof. exact key_depends_on_kid_only. Qed.
Print Assumptions C53_key_depends_on_kid_only.

Theorem C53_other_keys_rejected : forall d now m r offer asm doc options p j kid doc' k e,
  lower_case_facts d ->
  cr_proof r = Some p -> proof_token d (rp_jwt p) j -> h_additional (j_header j) = Some (KeyId kid) ->
  doc = Some doc' -> document_key d doc' kid k -> public_key_error k e ->
  (forall resp, evaluate_credential_request d now m r offer asm doc options <> Ok resp)
  /\ (forall o n, offer = Some o -> asm = None -> ids_distinct (im_credentials_supported m) ->
       nonce_options options n -> representable (nonce_expiry n) -> (now <= nonce_expiry n)%Z ->
       ascii_ci (h_typ (j_header j)) proof_typ -> b_nonce (j_body j) = cno_expected n ->
       iss_allowed options o (b_iss (j_body j)) -> b_aud (j_body j) = im_credential_issuer m ->
       evaluate_credential_request d now m r offer asm doc options = Err (IJwtError e)).
Proof. exact other_keys_rejected. Qed.
Print Assumptions C53_other_keys_rejected.

(** Every key is one or the other. *)
Theorem C53_keys_covered : forall k, (exists bytes, public_key k bytes) \/ exists e, public_key_error k e.
Proof. exact keys_covered. Qed.
Print Assumptions C53_keys_covered.

Example C53_case : document_key example_deps ev_document (lit "did:key:z6Mk#z6Mk") ev_key
  /\ public_key ev_key (lit "key bytes")
  /\ public_key_error {| jwk_algorithm := None; jwk_parameters := PRSA |} (JUnsupportedAlgorithm (lit """none""")).
Proof.
  split; [do 2 eexists; split; [reflexivity|split; reflexivity]|]. split; [now constructor|].
  refine (pe_type _ (lit "none") _ _); [now right|now constructor].
Qed.

(** * C54 *)
Theorem C54_only_kid : forall d now m r offer asm doc options resp p j,
  lower_case_facts d -> cr_proof r = Some p -> proof_token d (rp_jwt p) j ->
  (forall kid, h_additional (j_header j) <> Some (KeyId kid)) ->
  evaluate_credential_request d now m r offer asm doc options <> Ok resp.
Proof. exact only_kid. Qed.
Print Assumptions C54_only_kid.

(** A token with a JWK. *)
Definition ev_with_jwk : proof_jwt :=
  {| j_header := {| h_typ := proof_typ; h_alg := EdDSA; h_additional := Some (Jwk (lit "{""kty"":""OKP""}")) |};
     j_body := j_body (ev_good EdDSA); j_signature := ev_sig |}.
Example C54_case : proof_token example_deps (ev_token ev_with_jwk) ev_with_jwk
  /\ forall kid, h_additional (j_header ev_with_jwk) <> Some (KeyId kid).
Proof.
  split; [|discriminate]. apply proof_token_iff. unfold ev_with_jwk. ev_parses.
Qed.
