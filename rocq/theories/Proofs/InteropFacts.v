(** Proofs of possession that follow the draft (C127). *)
From Coq Require Import Lia.
From Verif Require Import Model.Prelude Model.Base64 Model.Json Model.Types Model.Deps Model.Jwt Model.CredentialIssuer Model.Wire
  Spec SpecToken SpecJson SpecJwt SpecDocuments SpecWire SpecEvaluation SpecDraft SpecInterop
  Proofs.StrFacts Proofs.JsonFacts Proofs.GrammarFacts Proofs.AnyDepth Proofs.JwtFacts Proofs.WireFacts Proofs.TwiceFacts
  Proofs.WrittenFacts Proofs.EvalFacts Proofs.KeptFacts Proofs.DraftFacts.

Lemma draft_token_rejected d s : draft_token s -> exists e, jwt_from_str d s = Err e.
Proof.
  intros (hs & bs & sig & ht & bt & hv & bv & T & _ & B & _ & J & _ & m & -> & _ & _ & _ & (v & I & D) & _).
  apply parse_json_iff in J. apply (numeric_iat_token_rejected d s hs bs (Some sig) bt m v T B J I).
  intros t ->. destruct D as [(n & D)|(n & D)]; discriminate.
Qed.

Lemma claim_fails d s : draft_token s -> ~ exists j, jwt_from_str d s = Ok j.
Proof. intros D (j & J). destruct (draft_token_rejected d s D) as (e & E). rewrite E in J. discriminate. Qed.

Lemma draft_token_error d s : draft_token s -> exists v, token_error d s v.
Proof. intros H. destruct (draft_token_rejected d s H) as (e & E). exists e. now apply from_str_err. Qed.

Lemma draft_never_evaluated d now m r offer asm doc options p resp :
  lower_case_facts d -> cr_proof r = Some p -> draft_token (rp_jwt p) ->
  evaluate_credential_request d now m r offer asm doc options <> Ok resp.
Proof.
  intros L P D E. apply (evaluate_outcomes _ _ _ _ _ _ _ _ L) in E.
  destruct E as (_ & p' & j & o & _ & _ & _ & _ & P' & T & _). rewrite P in P'. injection P' as <-.
  apply proof_token_iff in T. destruct (draft_token_rejected d _ D) as (e & E). rewrite E in T. discriminate.
Qed.

Lemma draft_never_valid d r p :
  cr_proof r = Some p -> draft_token (rp_jwt p) -> exists e, request_validate d r = Err e.
Proof.
  intros P D. destruct (draft_token_rejected d _ D) as (e & J). unfold request_validate, proof_validate. rewrite P, J.
  destruct (negb _); cbn [bind]; eauto.
Qed.

Lemma draft_never_pre d r p :
  cr_proof r = Some p -> draft_token (rp_jwt p) -> exists e, pre_evaluate_credential_request d r = Err (IValidationError e).
Proof.
  intros P D. destruct (draft_never_valid d r p P D) as (e & E). exists e. unfold pre_evaluate_credential_request. now rewrite E.
Qed.

Lemma draft_never_answered d now r p ct n :
  cr_proof r = Some p -> draft_token (rp_jwt p) ->
  exists e, create_credential_success_response d now r ct n = Err (IValidationError e).
Proof.
  intros P D. destruct (draft_never_valid d r p P D) as (e & E). exists e. unfold create_credential_success_response. now rewrite E.
Qed.

Lemma request_token s v r : json_text s v -> draft_request_with_token v -> credential_request_from_json s = Some r ->
  exists p, cr_proof r = Some p /\ draft_token (rp_jwt p).
Proof.
  intros T (m & q & t & -> & _ & I & J & D) R.
  pose proof (read_value _ _ _ _ _ _ respects_request request_reads T R) as V.
  destruct (flat_members _ _ _ V) as (_ & O). destruct (opt_is _ _ _ _ _ O I) as [E|(p & E & Q)]; [discriminate|].
  exists p. split; [exact E|]. cbn [request_proof_value] in Q. inversion Q; subst; cbn [rp_jwt];
    match goal with H : only_member _ "jwt" _ |- _ => pose proof (only_is _ _ _ _ H J) as K; injection K as <-; exact D end.
Qed.

Lemma written_claims_differ d x v : dt_round_trips d -> body_ok x -> body_instants_ok x ->
  rfc8259_text (claims_to_json d x) v -> ~ draft_claims v.
Proof.
  intros Hd H Hi V (m & -> & _ & _ & _ & (w & I & D) & _).
  destruct (claims_written_text d x Hd H Hi) as (v' & T & _ & m' & E & _ & (_ & _ & _ & (u & O & (t & -> & _)) & _)).
  pose proof (rfc8259_det _ _ _ V (json_text_rfc8259 _ _ T)) as K. rewrite E in K. injection K as <-.
  pose proof (only_is _ _ _ _ O I) as ->. destruct D as [(n & D)|(n & D)]; discriminate.
Qed.
