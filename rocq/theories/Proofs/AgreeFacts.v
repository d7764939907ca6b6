(** Proofs about the three calls that take a credential request. *)
From Verif Require Import Model.Prelude Model.Json Model.Types Model.Deps Model.Errors Model.Jwt
  Model.CredentialIssuer Model.Wire Spec SpecToken SpecOffer SpecJwt SpecEvaluation SpecResponse
  Proofs.StrFacts Proofs.JwtFacts Proofs.EvalFacts Proofs.EvalFacts2 Proofs.EvalFacts3 Proofs.ResponseFacts.

Lemma answered_iff d now r ct n :
  (exists cs, create_credential_success_response d now r ct n = Ok (cs, now)) <-> request_validate d r = Ok tt.
Proof.
  unfold create_credential_success_response. split.
  - intros [cs E]. destruct (request_validate d r) as [[]|e|]; [reflexivity|discriminate..].
  - intros ->. cbn [map_err bind]. destruct ct as [[c|t]|].
    + destruct (encode_ok c) as (e & -> & _). cbn [map_err bind]. now eexists.
    + now eexists.
    + now eexists.
Qed.

Lemma answer_error_iff d now r ct n e :
  create_credential_success_response d now r ct n = Err e <-> map_err IValidationError (request_validate d r) = Err e.
Proof.
  unfold create_credential_success_response. destruct (request_validate d r) as [[]|v|]; cbn [map_err bind].
  - split; [|discriminate]. destruct ct as [[c|t]|]; try discriminate.
    destruct (encode_ok c) as (x & -> & _). discriminate.
  - split; intros E; injection E as <-; reflexivity.
  - split; discriminate.
Qed.

Lemma pre_evaluated_valid d r did : pre_evaluate_credential_request d r = Ok did -> request_validate d r = Ok tt.
Proof.
  unfold pre_evaluate_credential_request. destruct (request_validate d r) as [[]|e|]; [reflexivity|discriminate..].
Qed.

Lemma pre_evaluated_answered d r did now ct n : pre_evaluate_credential_request d r = Ok did ->
  exists cs, create_credential_success_response d now r ct n = Ok (cs, now).
Proof. intros H. apply answered_iff. now apply pre_evaluated_valid in H. Qed.

Lemma answer_error_pre d now r ct n e : create_credential_success_response d now r ct n = Err e ->
  pre_evaluate_credential_request d r = Err e.
Proof.
  intros H. apply answer_error_iff in H. unfold pre_evaluate_credential_request.
  destruct (request_validate d r) as [[]|v|]; cbn [map_err bind] in *; [discriminate|injection H as <-; reflexivity|discriminate].
Qed.

Lemma accepted_pre_evaluated d now m r offer asm doc options resp p :
  lower_case_facts d -> upper_case_facts d ->
  evaluate_credential_request d now m r offer asm doc options = Ok resp ->
  cr_proof r = Some p -> rust_string (rp_proof_type p) -> ascii_ci (rp_proof_type p) (lit "jwt") ->
  pre_evaluate_credential_request d r = Ok (er_subject_id resp).
Proof.
  intros HL HU HE HP HR HT.
  apply (evaluate_outcomes d _ _ _ _ _ _ _ HL) in HE.
  destruct HE as (_ & p' & j & o & key & msg & sig & did & P' & T & _ & F & _ & Q & _ & _ & <- & _).
  assert (p' = p) as -> by congruence.
  assert (on_some (fun p => rust_string (rp_proof_type p)) (cr_proof r)) as HO
    by (intros x X; assert (x = p) as -> by congruence; exact HR).
  apply (proj1 (pre_evaluate_outcomes d r HL HU HO)). right. exists p, j.
  assert (ascii_ci (h_typ (j_header j)) proof_typ) as Y by now inversion F.
  repeat split; try assumption. unfold proof_checks.
  apply Forall_cons; [exact HT|]. apply Forall_cons; [now exists j|]. apply Forall_cons; [now exists j|]. apply Forall_nil.
Qed.

(** What pre-evaluation refuses for any other reason is never accepted. *)
Lemma refused_early d r p e now m offer asm doc options resp :
  lower_case_facts d -> upper_case_facts d -> cr_proof r = Some p -> rust_string (rp_proof_type p) ->
  ascii_ci (rp_proof_type p) (lit "jwt") -> pre_evaluate_credential_request d r = Err e ->
  evaluate_credential_request d now m r offer asm doc options <> Ok resp.
Proof.
  intros HL HU HP HR HT HE HV.
  rewrite (accepted_pre_evaluated d now m r offer asm doc options resp p HL HU HV HP HR HT) in HE. discriminate.
Qed.

Lemma accepted_answered d now m r offer asm doc options resp p :
  lower_case_facts d -> upper_case_facts d ->
  evaluate_credential_request d now m r offer asm doc options = Ok resp ->
  cr_proof r = Some p -> rust_string (rp_proof_type p) -> ascii_ci (rp_proof_type p) (lit "jwt") ->
  pre_evaluate_credential_request d r = Ok (er_subject_id resp)
  /\ forall now' ct n, exists cs, create_credential_success_response d now' r ct n = Ok (cs, now').
Proof.
  intros HL HU HE HP HR HT.
  pose proof (accepted_pre_evaluated d now m r offer asm doc options resp p HL HU HE HP HR HT) as P.
  split; [exact P|]. intros now' ct n. exact (pre_evaluated_answered d r _ now' ct n P).
Qed.

Lemma answered_always d r now ct n now' ct' n' :
  (exists cs, create_credential_success_response d now r ct n = Ok (cs, now))
  <-> (exists cs, create_credential_success_response d now' r ct' n' = Ok (cs, now')).
Proof. now rewrite !answered_iff. Qed.
