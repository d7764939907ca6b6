(** What a caller can add to evaluation. Theorems only; proofs are in
    Proofs/CarefulFacts.v, vocabulary in SpecCareful.v. *)
From Verif Require Import Model.Prelude Model.Base64 Model.Json Model.Types Model.Deps Model.Equality Model.Jwt
  Model.AccessToken Model.CredentialIssuer Model.Wire
  Spec SpecToken SpecOffer SpecJwt SpecSession SpecEvaluation SpecRelay SpecEquality SpecEvidence SpecCareful
  Proofs.JsonFacts Proofs.JwtFacts Proofs.EvalFacts Proofs.EvalFacts2 Proofs.EvalFacts3 Proofs.CarefulFacts Proofs.OkTac
  Examples Properties.Offers Properties.Evaluation Properties.Evidence.

(* ------------------------------------------------------------------ *)
(** * C140: a caller can make up for the checks that evaluation leaves out: proof
    type (C47), validity in time (C45), algorithm (C44), signature (C52), and
    whether the credential is supported and offered (C46). The requests that such
    a caller serves are exactly these. *)
Theorem C140_careful_callers : forall d now m r o doc n client resp,
  lower_case_facts d -> upper_case_facts d -> on_some (fun p => rust_string (rp_proof_type p)) (cr_proof r) ->
  credentials_held m r o ->
  (careful d now m r o doc n client resp <->
   eval_answer d now m r (Some o) None (Some doc) (with_nonce n client) resp /\ beyond_evaluation d now m r o).
Proof. exact careful_exact. Qed.
Print Assumptions C140_careful_callers.

(** A request such a caller serves. *)
Definition ca_proof : proof_jwt :=
  wallet_proof EdDSA (lit "did:key:z6Mk#z6Mk") (lit "https://localhost") (lit "n1") None 1683000000000000000%Z (lit "c2ln").
Definition ca_nonce : c_nonce_options :=
  {| cno_expires_in := 300; cno_expected := lit "n1"; cno_created_at := 1683000000000000000%Z |}.
Definition ca_answer : eval_response :=
  {| er_pop := Some {| pop_algorithm := EdDSA; pop_public_key := lit "key bytes";
                       pop_message := both_documents example_deps ca_proof; pop_signature := lit "c2ln" |};
     er_subject_id := Some (lit "did:key:z6Mk"); er_credential := ex_degree |}.
Lemma ca_parses : jwt_from_str example_deps (ev_token ca_proof) = Ok ca_proof.
Proof. ev_parses. Qed.
Lemma ca_evaluated :
  evaluate_credential_request example_deps ev_now web_metadata (ev_request ex_degree "JWT" ca_proof)
    (Some ev_offer) None (Some ev_document) (with_nonce ca_nonce None) = Ok ca_answer.
Proof.
  rewrite (evaluate_at example_deps ev_now web_metadata (ev_request ex_degree "JWT" ca_proof) ev_offer
    (Some ev_document) (with_nonce ca_nonce None) _ ca_proof eq_refl eq_refl eq_refl ca_parses).
  vm_compute. reflexivity.
Qed.
Example C140_served :
  careful example_deps ev_now web_metadata (ev_request ex_degree "JWT" ca_proof) ev_offer ev_document ca_nonce None ca_answer.
Proof.
  split; [exact ca_evaluated|]. split; [|split; [|split; [|split]]].
  - eexists. unfold pre_evaluate_credential_request, request_validate, ev_request. cbn [cr_proof].
    unfold proof_validate. cbn [rp_proof_type rp_jwt]. rewrite ca_parses. vm_compute. reflexivity.
  - exists {| rp_proof_type := lit "JWT"; rp_jwt := ev_token ca_proof |}, ca_proof. split; [reflexivity|].
    split; [exact ca_parses|reflexivity].
  - do 2 eexists. split; [reflexivity|]. split; [vm_compute; reflexivity|].
    intros [H|[H|[H|H]]]; discriminate.
  - vm_compute. reflexivity.
  - eexists. split; vm_compute; reflexivity.
Qed.
Example C140_hypotheses : lower_case_facts example_deps /\ upper_case_facts example_deps
  /\ on_some (fun p => rust_string (rp_proof_type p)) (cr_proof (ev_request ex_degree "JWT" ca_proof))
  /\ credentials_held web_metadata (ev_request ex_degree "JWT" ca_proof) ev_offer.
Proof.
  assert (H : cfp_with held ex_degree).
  { split; [repeat constructor; apply rust_string_ascii; reflexivity|]. split; intros x X; discriminate. }
  split; [exact example_lower_case_facts|]. split; [exact example_upper_case_facts|]. split.
  - intros p E. injection E as <-. apply rust_string_ascii. reflexivity.
  - split; [exact H|]. split; [intros s [<-|[]]; exact H|]. intros c [E|[]]. discriminate.
Qed.
