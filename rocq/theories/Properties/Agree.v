(** The three calls that take a credential request, compared. Theorems only;
    proofs are in Proofs/AgreeFacts.v. *)
From Verif Require Import Model.Prelude Model.Json Model.Types Model.Deps Model.Errors Model.Jwt
  Model.CredentialIssuer Model.Wire Spec SpecToken SpecOffer SpecJwt SpecEvaluation SpecResponse
  Proofs.StrFacts Proofs.JsonFacts Proofs.JwtFacts Proofs.EvalFacts Proofs.EvalFacts2 Proofs.EvalFacts3 Proofs.AgreeFacts
  Proofs.OkTac Examples Properties.Offers Properties.Jwt Properties.Evaluation.

Lemma ag_cwt : ~ ascii_ci (lit "cwt") (lit "jwt").
Proof.
  intros E. inversion E as [|? ? ? ? S _]; subst.
  destruct S as [S|[[S _]|[S _]]]; [discriminate|vm_compute in S; destruct S; congruence..].
Qed.
Lemma ag_refused :
  pre_evaluate_credential_request example_deps (ev_request ex_degree "cwt" (ev_good EdDSA))
  = Err (IValidationError proof_type_error).
Proof.
  apply (proj1 (bad_proof_type example_deps (ev_request ex_degree "cwt" (ev_good EdDSA))
    {| rp_proof_type := lit "cwt"; rp_jwt := ev_token (ev_good EdDSA) |} example_upper_case_facts
    eq_refl ltac:(apply rust_string_ascii; reflexivity) ag_cwt)).
Qed.

(* ------------------------------------------------------------------ *)
(** * C135: a request that evaluation accepts can be pre-evaluated and answered.
    False: evaluation does not look at the proof type. *)
Definition C135_claim : Prop := forall d now m r offer asm doc options resp,
  lower_case_facts d -> upper_case_facts d ->
  evaluate_credential_request d now m r offer asm doc options = Ok resp ->
  pre_evaluate_credential_request d r = Ok (er_subject_id resp)
  /\ forall now' ct n, exists cs, create_credential_success_response d now' r ct n = Ok (cs, now').

Theorem C135_accepted_can_be_answered_refuted : ~ C135_claim.
Proof.
  intros H.
  destruct (H example_deps ev_now ev_metadata (ev_request ex_degree "cwt" (ev_good EdDSA)) (Some ev_offer) None
    (Some ev_document) (ev_options None)
    (ev_answer EdDSA ex_degree (raw_text example_deps (ev_good EdDSA)) (ev_rest ++ lit ".c2ln"))
    example_lower_case_facts example_upper_case_facts (ev_accepted EdDSA ex_degree "cwt"))
    as [P _].
  rewrite ag_refused in P. discriminate.
Qed.
Print Assumptions C135_accepted_can_be_answered_refuted.

(** With the right proof type it is true: also the subject is the one found by
    pre-evaluation, and the answer can have any content. *)
Theorem C135_accepted_can_be_answered_partial : forall d now m r offer asm doc options resp p,
  lower_case_facts d -> upper_case_facts d ->
  evaluate_credential_request d now m r offer asm doc options = Ok resp ->
  cr_proof r = Some p -> rust_string (rp_proof_type p) -> ascii_ci (rp_proof_type p) (lit "jwt") ->
  pre_evaluate_credential_request d r = Ok (er_subject_id resp)
  /\ forall now' ct n, exists cs, create_credential_success_response d now' r ct n = Ok (cs, now').
Proof. exact accepted_answered. Qed.
Print Assumptions C135_accepted_can_be_answered_partial.

(** A caller that pre-evaluates first is safe: whatever passes can be answered. *)
Theorem C135_pre_evaluated_can_be_answered : forall d r did now ct n,
  pre_evaluate_credential_request d r = Ok did ->
  exists cs, create_credential_success_response d now r ct n = Ok (cs, now).
Proof. exact pre_evaluated_answered. Qed.
Print Assumptions C135_pre_evaluated_can_be_answered.

(** A request that cannot be answered is refused by pre-evaluation, with the same error. *)
Theorem C135_same_errors : forall d now r ct n e,
  create_credential_success_response d now r ct n = Err e -> pre_evaluate_credential_request d r = Err e.
Proof. exact answer_error_pre. Qed.
Print Assumptions C135_same_errors.

(** Whether a request can be answered does not depend on content, nonce or time. *)
Theorem C135_answering_depends_on_the_request : forall d r now ct n now' ct' n',
  (exists cs, create_credential_success_response d now r ct n = Ok (cs, now))
  <-> (exists cs, create_credential_success_response d now' r ct' n' = Ok (cs, now')).
Proof. exact answered_always. Qed.
Print Assumptions C135_answering_depends_on_the_request.

(** Nothing that pre-evaluation refuses for another reason than the proof type is
    accepted, whatever the issuer, the document, the nonce and the time. *)
Theorem C135_refused_early_never_accepted : forall d r p e now m offer asm doc options resp,
  lower_case_facts d -> upper_case_facts d -> cr_proof r = Some p -> rust_string (rp_proof_type p) ->
  ascii_ci (rp_proof_type p) (lit "jwt") -> pre_evaluate_credential_request d r = Err e ->
  evaluate_credential_request d now m r offer asm doc options <> Ok resp.
Proof. exact refused_early. Qed.
Print Assumptions C135_refused_early_never_accepted.

Example C135_case :
  pre_evaluate_credential_request example_deps (ev_request ex_degree "jwt" (ev_good EdDSA)) = Ok (Some (lit "did:key:z6Mk"))
  /\ pre_evaluate_credential_request example_deps (ev_request ex_degree "cwt" (ev_good EdDSA))
     = Err (IValidationError proof_type_error).
Proof.
  split; [|exact ag_refused].
  exact (proj1 (accepted_answered example_deps ev_now ev_metadata (ev_request ex_degree "jwt" (ev_good EdDSA))
    (Some ev_offer) None (Some ev_document) (ev_options None)
    (ev_answer EdDSA ex_degree (raw_text example_deps (ev_good EdDSA)) (ev_rest ++ lit ".c2ln"))
    {| rp_proof_type := lit "jwt"; rp_jwt := ev_token (ev_good EdDSA) |}
    example_lower_case_facts example_upper_case_facts (ev_accepted EdDSA ex_degree "jwt") eq_refl
    ltac:(apply rust_string_ascii; reflexivity) ltac:(apply same_ascii_ci; reflexivity))).
Qed.
