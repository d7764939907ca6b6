(** C145: algorithms and keys in the evidence. Proofs are in Proofs/SuitsFacts.v,
    vocabulary in SpecSuits.v. *)
From Verif Require Import Model.Prelude Model.Json Model.Types Model.Deps Model.CredentialIssuer
  Spec SpecJwt SpecEvaluation SpecRespell SpecSuits Proofs.SuitsFacts Examples Properties.Offers Properties.Evaluation.

(* ------------------------------------------------------------------ *)
(** * C145 *)

(** The claim: the algorithm in the evidence suits the key. *)
Definition C145_claim : Prop := forall d now m r offer asm doc options resp p j kid k pop, lower_case_facts d ->
  evaluate_credential_request d now m r offer asm (Some doc) options = Ok resp ->
  cr_proof r = Some p -> proof_token d (rp_jwt p) j -> h_additional (j_header j) = Some (KeyId kid) ->
  document_key d doc kid k -> er_pop resp = Some pop -> suits k (pop_algorithm pop).

(** Whatever is accepted is accepted with any other algorithm in the header, with the
    same key, signature and subject. *)
Theorem C145_any_algorithm : forall d now m r offer asm doc options resp pop a, lower_case_facts d ->
  evaluate_credential_request d now m r offer asm doc options = Ok resp -> er_pop resp = Some pop ->
  exists t resp' pop', evaluate_credential_request d now m (with_token t r) offer asm doc options = Ok resp'
    /\ er_pop resp' = Some pop' /\ pop_algorithm pop' = a /\ pop_public_key pop' = pop_public_key pop
    /\ pop_signature pop' = pop_signature pop /\ er_subject_id resp' = er_subject_id resp
    /\ er_credential resp' = er_credential resp.
Proof. exact any_algorithm. Qed.
Print Assumptions C145_any_algorithm.

(** Here a MAC with the key of an Edwards curve. *)
Theorem C145_algorithm_refuted : ~ C145_claim.
Proof.
  intros H.
  pose proof (H example_deps ev_now ev_metadata (ev_request ex_degree "jwt" (ev_good HS256)) (Some ev_offer) None ev_document
    (ev_options None) _ {| rp_proof_type := lit "jwt"; rp_jwt := ev_token (ev_good HS256) |} (ev_good HS256)
    (lit "did:key:z6Mk#z6Mk") ev_key _ example_lower_case_facts (ev_accepted HS256 ex_degree "jwt") eq_refl
    (ev_token_good HS256) eq_refl (proj1 C53_case) eq_refl) as S.
  cbn [pop_algorithm] in S. inversion S as [|x a E]; subst. discriminate E.
Qed.
Print Assumptions C145_algorithm_refuted.

(** When it does suit. *)
Theorem C145_right_exactly : forall d now m r offer asm doc options resp p j kid k pop, lower_case_facts d ->
  evaluate_credential_request d now m r offer asm (Some doc) options = Ok resp ->
  cr_proof r = Some p -> proof_token d (rp_jwt p) j -> h_additional (j_header j) = Some (KeyId kid) ->
  document_key d doc kid k -> er_pop resp = Some pop ->
  (suits k (pop_algorithm pop)
   <-> pop_algorithm pop = EdDSA /\ jwk_parameters k = POKP (pop_public_key pop) /\ stated_is k EdDSA).
Proof. exact right_exactly. Qed.
Print Assumptions C145_right_exactly.

(** So callers can make up for it: with documents whose keys state no algorithm of
    another type, the evidence to take is that with EdDSA. *)
Theorem C145_take_EdDSA_only : forall d now m r offer asm doc options resp p j kid k pop, lower_case_facts d ->
  evaluate_credential_request d now m r offer asm (Some doc) options = Ok resp ->
  cr_proof r = Some p -> proof_token d (rp_jwt p) j -> h_additional (j_header j) = Some (KeyId kid) ->
  document_key d doc kid k -> er_pop resp = Some pop -> well_stated k ->
  (suits k (pop_algorithm pop) <-> pop_algorithm pop = EdDSA).
Proof. exact eddsa_only. Qed.
Print Assumptions C145_take_EdDSA_only.

(** Hypotheses met. *)
Example C145_case : document_key example_deps ev_document (lit "did:key:z6Mk#z6Mk") ev_key
  /\ well_stated ev_key /\ suits ev_key EdDSA
  /\ (exists resp, ev_evaluate ev_now (ev_request ex_degree "jwt" (ev_good EdDSA)) None = Ok resp)
  /\ proof_token example_deps (ev_token (ev_good EdDSA)) (ev_good EdDSA).
Proof.
  assert (S : stated_is ev_key EdDSA) by (intros s [= <-]; exists "EdDSA"%string; split; [constructor|reflexivity]).
  split; [exact (proj1 C53_case)|]. split; [split; [intros bytes _; exact S|intros x [=]]|].
  split; [exact (suits_octets ev_key _ eq_refl S)|].
  split; [eexists; exact (ev_accepted EdDSA ex_degree "jwt")|exact (ev_token_good EdDSA)].
Qed.
