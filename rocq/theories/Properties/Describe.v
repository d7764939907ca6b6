(** Descriptions of errors, and the answers made of them, against RFC 6749.
    Theorems only; proofs are in Proofs/SendableFacts.v, vocabulary in
    SpecSendable.v. *)
From Verif Require Import Model.Prelude Model.Json Model.Types Model.Deps Model.Serde Model.Errors Model.Chrono
  Model.AccessToken Model.CredentialIssuer Model.Wire
  Spec SpecToken SpecJson SpecJwt SpecNumber SpecErrors SpecAnyErrors SpecEvaluation SpecOffer SpecDraft SpecRelay SpecSendable
  Proofs.StrFacts Proofs.JsonFacts Proofs.EvalFacts Proofs.OfferFacts Proofs.ErrorFacts Proofs.AnyErrors Proofs.AnyDepth
  Proofs.SendableFacts Proofs.OkTac Proofs.RenumberFacts Proofs.RelayFacts Proofs.EvalFacts3
  Examples Properties.Errors Properties.Offers Properties.Evaluation Properties.Held.

(** * C125: true of the token endpoint, false of the credential endpoint *)
Theorem C125_token_errors : forall e, sendable (token_error_display e).
Proof. exact token_description. Qed.
Print Assumptions C125_token_errors.

Definition C125_claim : Prop :=
  forall d now m r offer asm doc options e,
    lower_case_facts (with_chrono d) ->
    evaluate_credential_request (with_chrono d) now m r offer asm doc options = Err e ->
    sendable (issuer_error_display (with_chrono d) e).
Lemma de_rejected : ev_evaluate ev_now (ev_request ex_degree "jwt" ev_with_jwk) None
  = Err (IJwtError (JUnableToTransformIntoJoseItem (lit "{""kty"":""OKP""}") (lit "invalid JWK"))).
Proof.
  rewrite (ev_at ev_now ex_degree "jwt" ev_with_jwk None (proj2 (proof_token_iff _ _ _) (proj1 C54_case)) eq_refl).
  vm_compute. reflexivity.
Qed.
Theorem C125_descriptions_refuted : ~ C125_claim.
Proof.
  intros H. pose proof (H example_deps ev_now ev_metadata (ev_request ex_degree "jwt" ev_with_jwk) (Some ev_offer)
    None (Some ev_document) (ev_options None) _ example_lower_case_facts de_rejected) as K.
  apply sendable_iff in K. vm_compute in K. discriminate.
Qed.
Print Assumptions C125_descriptions_refuted.

(** The fixed part of every description can be sent, and so can instants of any
    year; what can go wrong is a text that the description repeats. *)
Theorem C125_descriptions : forall d e,
  sendable (issuer_error_display (with_chrono d) e) <-> forall s, repeats e s -> sendable s.
Proof. exact issuer_description. Qed.
Print Assumptions C125_descriptions.

Theorem C125_evaluation : forall d now m r offer asm doc options e,
  lower_case_facts (with_chrono d) ->
  evaluate_credential_request (with_chrono d) now m r offer asm doc options = Err e ->
  ~ sendable (issuer_error_display (with_chrono d) e) ->
  exists s p j, ~ sendable s /\ repeats e s /\ cr_proof r = Some p /\ proof_token (with_chrono d) (rp_jwt p) j
    /\ repeated_from (h_additional (j_header j)) s.
Proof.
  intros d now m r offer asm doc options e L E. apply (evaluate_outcomes _ _ _ _ _ _ _ _ L) in E.
  exact (evaluation_unsendable d now m r offer asm doc options e E).
Qed.
Print Assumptions C125_evaluation.

(** The name of an algorithm is repeated in quotes, which may not be sent. *)
Theorem C125_algorithms : forall d now m r offer asm doc options s,
  lower_case_facts (with_chrono d) ->
  evaluate_credential_request (with_chrono d) now m r offer asm doc options = Err (IJwtError (JUnsupportedAlgorithm s)) ->
  ~ sendable (issuer_error_display (with_chrono d) (IJwtError (JUnsupportedAlgorithm s))).
Proof.
  intros d now m r offer asm doc options s L E. apply (evaluate_outcomes _ _ _ _ _ _ _ _ L) in E.
  exact (algorithm_not _ _ (evaluation_algorithm _ _ _ _ _ _ _ _ _ E)).
Qed.
Print Assumptions C125_algorithms.

Theorem C125_pre_evaluation : forall d r e,
  lower_case_facts (with_chrono d) -> upper_case_facts (with_chrono d) ->
  on_some (fun p => rust_string (rp_proof_type p)) (cr_proof r) ->
  pre_evaluate_credential_request (with_chrono d) r = Err e ->
  ~ sendable (issuer_error_display (with_chrono d) e) ->
  exists s p j, ~ sendable s /\ cr_proof r = Some p /\ proof_token (with_chrono d) (rp_jwt p) j
    /\ (h_additional (j_header j) = Some (Jwk s) \/ h_additional (j_header j) = Some (X5c s)).
Proof.
  intros d r e H1 H2 H3 E. apply (C34_pre_evaluation_errors _ _ _ H1 H2 H3) in E. exact (pre_unsendable d r e E).
Qed.
Print Assumptions C125_pre_evaluation.

Theorem C125_responses : forall d now r ct n e,
  create_credential_success_response (with_chrono d) now r ct n = Err e ->
  sendable (issuer_error_display (with_chrono d) e).
Proof. exact response_description. Qed.
Print Assumptions C125_responses.

Theorem C125_offers : forall d m creds ep a p e,
  create_offer m creds ep a p = Err e ->
  (sendable (issuer_error_display (with_chrono d) e)
   <-> forall id, e = ICredentialIdNotInIssuerMetadata id -> sendable id).
Proof. exact offer_description. Qed.
Print Assumptions C125_offers.

(** An expired nonce; an id with a quote. *)
Example C125_case :
  (exists now expiry, ev_evaluate now (ev_request ex_degree "jwt" (ev_good EdDSA)) None = Err (ICNonceIsExpired now expiry)
     /\ issuer_error_display example_deps (ICNonceIsExpired now expiry)
        = lit "c_nonce expires at 2023-05-02 04:05:00 UTC which is before 2023-05-02 04:05:00.000000001 UTC")
  /\ create_offer ex_good [CredentialId (lit "a""b")] None None None = Err (ICredentialIdNotInIssuerMetadata (lit "a""b"))
  /\ ~ sendable (lit "a""b").
Proof.
  split; [|split; [reflexivity|]].
  - do 2 eexists. split; [exact C39_too_late|]. vm_compute. reflexivity.
  - intros H. apply sendable_iff in H. vm_compute in H. discriminate.
Qed.

(** * C126: false for every answer, because of the code; and null is written for
    texts that are not given *)
Definition C126_token_claim : Prop :=
  forall d c description uri r s v,
    on_some sendable description -> on_some uri_sendable uri ->
    create_access_token_error_response c description uri None = Ok r ->
    token_error_response_to_json d r = Some s -> rfc8259_text s v -> error_answer v.
Definition C126_credential_claim : Prop :=
  forall d c description uri r s v,
    on_some sendable description -> on_some uri_sendable uri ->
    create_credential_error_response c description uri None = Ok r ->
    issuer_error_response_to_json d r = Some s -> rfc8259_text s v -> error_answer v.

Theorem C126_token_answers : forall d n c description uri details r m s v,
  rereads n ->
  create_access_token_error_response c description uri details = Ok r ->
  on_some rust_string description -> on_some rust_string uri -> on_some json_any details -> distinct_details details ->
  mergeable (flatten_unit_ok d) details m ->
  token_error_response_to_json d r = Some s -> rfc8259_text s v ->
  (error_answer v <-> answerable description uri details) /\ ~ error_is_one_of token_codes v.
Proof. exact token_answers. Qed.
Print Assumptions C126_token_answers.

Theorem C126_credential_answers : forall d n c description uri details r m s v,
  rereads n ->
  create_credential_error_response c description uri details = Ok r ->
  on_some rust_string description -> on_some rust_string uri -> on_some json_any details -> distinct_details details ->
  mergeable (flatten_unit_ok d) details m ->
  issuer_error_response_to_json d r = Some s -> rfc8259_text s v ->
  (error_answer v <-> answerable description uri details) /\ ~ error_is_one_of credential_codes v.
Proof. exact issuer_answers. Qed.
Print Assumptions C126_credential_answers.

(** The texts may be left out, says the RFC; then the answer is not of its form. *)
Theorem C126_answers_refuted : ~ C126_token_claim /\ ~ C126_credential_claim.
Proof.
  split; intros H.
  - assert (forall s, token_error_response_to_json example_deps
      {| resp_error := TInvalidGrant; resp_description := None; resp_uri := None; resp_details := None |} = Some s ->
      rfc8259_text s (json_numbers reread (JObj (response_members (lit "InvalidGrant") None None [])))) as T.
    { intros s W. apply (token_response_any example_deps reread TInvalidGrant None None None _ [] s "InvalidGrant" reread_rereads
        eq_refl); try discriminate; try constructor. exact W. }
    specialize (T _ eq_refl).
    specialize (H example_deps TInvalidGrant None None _ _ _ ltac:(discriminate) ltac:(discriminate) eq_refl eq_refl T).
    destruct H as (m & [= <-] & _ & _ & D & _). destruct (D JNull) as (t & E & _); [right; now left|discriminate].
  - assert (forall s, issuer_error_response_to_json example_deps
      {| resp_error := IInvalidToken; resp_description := None; resp_uri := None; resp_details := None |} = Some s ->
      rfc8259_text s (json_numbers reread (JObj (response_members (lit "InvalidToken") None None [])))) as T.
    { intros s W. apply (issuer_response_any example_deps reread IInvalidToken None None None _ [] s "InvalidToken" reread_rereads
        eq_refl); try discriminate; try constructor. exact W. }
    specialize (T _ eq_refl).
    specialize (H example_deps IInvalidToken None None _ _ _ ltac:(discriminate) ltac:(discriminate) eq_refl eq_refl T).
    destruct H as (m & [= <-] & _ & _ & D & _). destruct (D JNull) as (t & E & _); [right; now left|discriminate].
Qed.
Print Assumptions C126_answers_refuted.

(** Both forms: an answer that is of the form, and one whose description has a
    double quote. *)
Example C126_case : answerable (Some (lit "Wrong PIN")) (Some (lit "https://issuer.example/e#1")) (Some ex_details)
  /\ ~ answerable (Some (lit "a ""b""")) (Some (lit "https://issuer.example/e#1")) None.
Proof.
  split.
  - split; [|split].
    + eexists. split; [reflexivity|]. apply sendable_iff. reflexivity.
    + eexists. split; [reflexivity|]. apply uri_sendable_iff. reflexivity.
    + intros m [= <-] k I J. destruct I as [<-|[<-|[<-|[]]]]; destruct J as [E|[E|[]]]; discriminate.
  - intros ((t & E & H) & _). injection E as <-. apply sendable_iff in H. vm_compute in H. discriminate.
Qed.
