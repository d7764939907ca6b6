(** C130: what offers, pre-evaluation and answers depend on. Theorems only; proofs
    are in Proofs/DependFacts.v, vocabulary in SpecDepend.v. *)
From Verif Require Import Model.Prelude Model.Json Model.Types Model.Deps Model.Jwt Model.CredentialIssuer
  Spec SpecJwt SpecEvaluation SpecResponse SpecResults SpecDepend
  Proofs.JwtFacts Proofs.EvalFacts Proofs.DependFacts Proofs.OkTac Examples Properties.Offers Properties.Evaluation Properties.Results.

(** * C130 *)
(** Offers: of the metadata only the URL of the issuer and the listed ids. *)
Theorem C130_offers : forall m m' credentials endpoint a p, same_issuer m m' ->
  create_offer m credentials endpoint a p = create_offer m' credentials endpoint a p.
Proof. exact offers_look_at. Qed.
Print Assumptions C130_offers.

(** Whether an offer is made depends neither on the endpoint nor on the code and PIN. *)
Theorem C130_offer_errors : forall m credentials endpoint endpoint' a p p' e,
  create_offer m credentials endpoint a p = Err e <-> create_offer m credentials endpoint' a p' = Err e.
Proof. exact offer_errors. Qed.
Print Assumptions C130_offer_errors.

(** Pre-evaluation: only the type of the proof and the header of the token, once the
    token can be read; not the claims, the signature or the credential. *)
Theorem C130_pre_evaluation : forall d r r', same_header d r r' ->
  pre_evaluate_credential_request d r = pre_evaluate_credential_request d r'.
Proof. exact pre_evaluation_looks_at. Qed.
Print Assumptions C130_pre_evaluation.

(** Answers: of the request only these and the format; the time changes nothing but
    the instant that is returned with the answer. *)
Theorem C130_answers : forall d now now' r r' f content nonce, same_header d r r' ->
  format_of (cr_format r) f -> format_of (cr_format r') f ->
  same_answer now now' (create_credential_success_response d now r content nonce)
    (create_credential_success_response d now' r' content nonce).
Proof. exact answers_look_at. Qed.
Print Assumptions C130_answers.

(** A request for another credential whose token is not
    signed. *)
Definition de_request : credential_request :=
  ev_request (JwtVcJson [lit "Unknown"] None None) "jwt" (ev_jwt EdDSA "https://issuer.example" None).
Example C130_case : same_header example_deps (ev_request ex_degree "jwt" (ev_good EdDSA)) de_request
  /\ format_of (cr_format de_request) "jwt_vc_json" /\ format_of ex_degree "jwt_vc_json"
  /\ j_signature (ev_good EdDSA) <> None.
Proof.
  split; [|split; [constructor|split; [constructor|discriminate]]].
  eapply sh_proof; [reflexivity|reflexivity|reflexivity| | |].
  - apply proof_token_iff. exact (ev_parses_signed EdDSA).
  - apply proof_token_iff. exact ev_parses_unsigned.
  - reflexivity.
Qed.
Example C130_offers_case : same_issuer ev_metadata re_metadata /\ ev_metadata <> re_metadata.
Proof. split; [split; reflexivity|]. intros H. apply (f_equal im_credential_endpoint) in H. vm_compute in H. discriminate H. Qed.

(** * C131: false; neither iat nor sub is examined *)
(** Not from the future, not from before the nonce, and for its own subject. *)
Definition accepted_only (P : instant -> option eval_options -> jwt_body -> eval_response -> Prop) : Prop :=
  forall d now m r offer asm doc options p j resp, cr_proof r = Some p -> proof_token d (rp_jwt p) j ->
  evaluate_credential_request d now m r offer asm doc options = Ok resp -> P now options (j_body j) resp.
Definition C131_not_later_claim : Prop := accepted_only (fun now _ b _ => (b_iat b <= now)%Z).
Definition C131_not_before_claim : Prop := accepted_only (fun _ options b _ =>
  forall n, nonce_options options n -> (cno_created_at n <= b_iat b)%Z).
Definition C131_subject_claim : Prop := accepted_only (fun _ _ b resp =>
  forall s, b_sub b = Some s -> er_subject_id resp = Some s).

Theorem C131_not_examined : forall d now m r r' offer asm doc options p p' j iat sub,
  cr_format r = cr_format r' -> cr_proof r = Some p -> cr_proof r' = Some p' ->
  proof_token d (rp_jwt p) j -> proof_token d (rp_jwt p') (with_issue iat sub j) -> j_signature j <> None ->
  same_verdict (evaluate_credential_request d now m r offer asm doc options)
               (evaluate_credential_request d now m r' offer asm doc options).
Proof. exact issue_not_examined. Qed.
Print Assumptions C131_not_examined.

(** A token of the year 2000, and one of the year 2100 for another subject. *)
Definition de_old : proof_jwt := with_issue 946684800000000000%Z None (ev_good EdDSA).
Definition de_future : proof_jwt := with_issue 4102444800000000000%Z (Some (lit "did:key:other")) (ev_good EdDSA).
Lemma de_old_token : proof_token example_deps (ev_token de_old) de_old.
Proof. apply proof_token_iff. unfold de_old, with_issue, ev_good. ev_parses. Qed.
Lemma de_future_token : proof_token example_deps (ev_token de_future) de_future.
Proof. apply proof_token_iff. unfold de_future, with_issue, ev_good. ev_parses. Qed.

Lemma de_accepted iat sub : proof_token example_deps (ev_token (with_issue iat sub (ev_good EdDSA))) (with_issue iat sub (ev_good EdDSA)) ->
  exists resp, ev_evaluate ev_now (ev_request ex_degree "jwt" (with_issue iat sub (ev_good EdDSA))) None = Ok resp
    /\ er_subject_id resp = Some (lit "did:key:z6Mk").
Proof.
  intros T.
  pose proof (C131_not_examined example_deps ev_now ev_metadata (ev_request ex_degree "jwt" (ev_good EdDSA))
    (ev_request ex_degree "jwt" (with_issue iat sub (ev_good EdDSA))) (Some ev_offer) None (Some ev_document) (ev_options None)
    {| rp_proof_type := lit "jwt"; rp_jwt := ev_token (ev_good EdDSA) |}
    {| rp_proof_type := lit "jwt"; rp_jwt := ev_token (with_issue iat sub (ev_good EdDSA)) |} (ev_good EdDSA) iat sub
    eq_refl eq_refl eq_refl (ev_token_good EdDSA) T) as V.
  assert (j_signature (ev_good EdDSA) <> None) as S by discriminate. specialize (V S).
  pose proof (ev_accepted EdDSA ex_degree "jwt") as A. unfold ev_evaluate in A |- *. rewrite A in V.
  destruct (evaluate_credential_request _ _ _ (ev_request ex_degree "jwt" (with_issue iat sub (ev_good EdDSA))) _ _ _ _) as [x|e|];
    try contradiction. exists x. split; [reflexivity|]. symmetry. exact (proj1 V).
Qed.

Theorem C131_not_later_refuted : ~ C131_not_later_claim.
Proof.
  intros H. destruct (de_accepted _ _ de_future_token) as (resp & A & _).
  apply (H example_deps ev_now ev_metadata (ev_request ex_degree "jwt" de_future) (Some ev_offer) None (Some ev_document) (ev_options None)
    {| rp_proof_type := lit "jwt"; rp_jwt := ev_token de_future |} de_future resp eq_refl de_future_token) in A.
  apply A. reflexivity.
Qed.
Print Assumptions C131_not_later_refuted.

Theorem C131_not_before_refuted : ~ C131_not_before_claim.
Proof.
  intros H. destruct (de_accepted _ _ de_old_token) as (resp & A & _).
  pose proof (H example_deps ev_now ev_metadata (ev_request ex_degree "jwt" de_old) (Some ev_offer) None (Some ev_document) (ev_options None)
    {| rp_proof_type := lit "jwt"; rp_jwt := ev_token de_old |} de_old resp eq_refl de_old_token A) as B.
  specialize (B {| cno_expires_in := 300; cno_expected := lit "n1"; cno_created_at := 1683000000000000000%Z |}).
  apply B; [|reflexivity]. eexists. split; reflexivity.
Qed.
Print Assumptions C131_not_before_refuted.

Theorem C131_subject_refuted : ~ C131_subject_claim.
Proof.
  intros H. destruct (de_accepted _ _ de_future_token) as (resp & A & S).
  pose proof (H example_deps ev_now ev_metadata (ev_request ex_degree "jwt" de_future) (Some ev_offer) None (Some ev_document) (ev_options None)
    {| rp_proof_type := lit "jwt"; rp_jwt := ev_token de_future |} de_future resp eq_refl de_future_token A) as B.
  specialize (B _ eq_refl). rewrite S in B. injection B as B. discriminate B.
Qed.
Print Assumptions C131_subject_refuted.

Example C131_case : j_signature (ev_good EdDSA) <> None
  /\ proof_token example_deps (ev_token (ev_good EdDSA)) (ev_good EdDSA)
  /\ proof_token example_deps (ev_token de_old) (with_issue 946684800000000000%Z None (ev_good EdDSA)).
Proof. split; [discriminate|]. split; [exact (ev_token_good EdDSA)|exact de_old_token]. Qed.
