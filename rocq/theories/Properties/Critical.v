(** C144: header extensions that are marked as critical. Proofs are in
    Proofs/CriticalFacts.v, vocabulary in SpecCritical.v. *)
From Verif Require Import Model.Prelude Model.Json Model.Types Model.Deps Model.CredentialIssuer Model.Wire
  Spec SpecJson SpecJwt SpecEvaluation SpecRespell SpecCritical
  Proofs.JsonFacts Proofs.CriticalFacts Examples Properties.Offers Properties.Evaluation.

(* ------------------------------------------------------------------ *)
(** * C144 *)

(** The claim: no accepted token lists critical extensions, as the library
    understands none. *)
Definition C144_claim : Prop := forall d now m r offer asm doc options resp p names,
  lower_case_facts d -> cr_proof r = Some p -> critical (rp_jwt p) names -> names <> [] ->
  evaluate_credential_request d now m r offer asm doc options <> Ok resp.

(** Instead, any accepted token can be marked with any names. *)
Theorem C144_accepted_if_marked : forall d now m r offer asm doc options resp p names, lower_case_facts d ->
  names <> [] -> Forall rust_string names -> cr_proof r = Some p ->
  evaluate_credential_request d now m r offer asm doc options = Ok resp ->
  exists t, critical t names /\ evaluate_credential_request d now m (with_token t r) offer asm doc options = Ok resp.
Proof. exact marked_accepted. Qed.
Print Assumptions C144_accepted_if_marked.

Lemma critical_example_by d now m c t token offer asm doc options resp : lower_case_facts d ->
  evaluate_credential_request d now m {| cr_format := c; cr_proof := Some {| rp_proof_type := t; rp_jwt := token |} |}
    offer asm doc options = Ok resp ->
  exists now m r offer asm doc options resp p, cr_proof r = Some p /\ critical (rp_jwt p) [lit "b64"]
    /\ evaluate_credential_request d now m r offer asm doc options = Ok resp.
Proof.
  intros L E.
  set (r := {| cr_format := c; cr_proof := Some {| rp_proof_type := t; rp_jwt := token |} |}) in *.
  destruct (marked_accepted d now m r offer asm doc options resp {| rp_proof_type := t; rp_jwt := token |} [lit "b64"] L
    ltac:(discriminate) ltac:(repeat constructor; apply rust_string_ascii; reflexivity) eq_refl E) as (u & C & Q).
  exists now, m, (with_token u r), offer, asm, doc, options, resp, {| rp_proof_type := t; rp_jwt := u |}.
  split; [reflexivity|]. split; [exact C|exact Q].
Qed.

Lemma critical_example : exists now m r offer asm doc options resp p, cr_proof r = Some p /\ critical (rp_jwt p) [lit "b64"]
    /\ evaluate_credential_request example_deps now m r offer asm doc options = Ok resp.
Proof.
  pose proof (ev_accepted EdDSA ex_degree "jwt") as H. unfold ev_evaluate, ev_request, ev_options in H.
  revert H. generalize (ev_token (ev_good EdDSA)). intros token H.
  apply (critical_example_by _ _ _ _ _ _ _ _ _ _ _ example_lower_case_facts) in H. exact H.
Qed.

Theorem C144_critical_refuted : ~ C144_claim.
Proof.
  intros H. destruct critical_example as (now & m & r & offer & asm & doc & options & resp & p & P & C & E).
  exact (H _ _ _ _ _ _ _ _ _ _ _ example_lower_case_facts P C ltac:(discriminate) E).
Qed.
Print Assumptions C144_critical_refuted.

(** No extension is seen, marked or not: a token with one more member in its header
    is read as the same proof, and no call tells the two apart. *)
Theorem C144_extensions_not_seen : forall d token t k v j, (forall n, In n header_names -> k <> lit n) ->
  proof_token d token j -> extended token t k v -> proof_token d t j.
Proof. exact extended_token. Qed.
Print Assumptions C144_extensions_not_seen.

Theorem C144_same_outcome : forall d now m r offer asm doc options p t k v,
  (forall n, In n header_names -> k <> lit n) ->
  cr_proof r = Some p -> (exists j, proof_token d (rp_jwt p) j) -> extended (rp_jwt p) t k v ->
  evaluate_credential_request d now m (with_token t r) offer asm doc options
  = evaluate_credential_request d now m r offer asm doc options
  /\ pre_evaluate_credential_request d (with_token t r) = pre_evaluate_credential_request d r
  /\ forall ct n, create_credential_success_response d now (with_token t r) ct n
       = create_credential_success_response d now r ct n.
Proof. exact extended_same. Qed.
Print Assumptions C144_same_outcome.

(** Headers the library writes have no extensions. *)
Theorem C144_none_written : forall h, header_ok h -> forall m, json_text (header_to_json h) (JObj m) ->
  forall k v, In (k, v) m -> exists n, In n header_names /\ k = lit n.
Proof. exact written_unmarked. Qed.
Print Assumptions C144_none_written.

(** Hypotheses met: the token of the examples can be marked, and [crit] is not a name
    that is looked at. *)
Example C144_marked : (forall n, In n header_names -> lit "crit" <> lit n)
  /\ exists t, extended (ev_token (ev_good EdDSA)) t (lit "crit") (JArr [JStr (lit "b64"); JStr (lit "exp")])
       /\ critical t [lit "b64"; lit "exp"] /\ proof_token example_deps t (ev_good EdDSA).
Proof.
  split; [exact crit_other|].
  exact (marked_exists example_deps _ _ [lit "b64"; lit "exp"] ltac:(discriminate)
    ltac:(repeat constructor; apply rust_string_ascii; reflexivity) (ev_token_good EdDSA)).
Qed.

Example C144_written : header_ok (j_header (ev_good EdDSA)).
Proof.
  split; [apply rust_string_ascii; reflexivity|]. intros s [E|[E|E]]; try discriminate. injection E as <-.
  apply rust_string_ascii; reflexivity.
Qed.
