(** Proofs of possession that follow the specification. Theorems only; proofs are
    in Proofs/InteropFacts.v, vocabulary in SpecInterop.v and SpecDraft.v. *)
From Verif Require Import Model.Prelude Model.Base64 Model.Json Model.Types Model.Deps Model.Jwt Model.CredentialIssuer Model.Wire
  Spec SpecToken SpecJson SpecJwt SpecEvaluation SpecDraft SpecInterop
  Proofs.StrFacts Proofs.JwtFacts Proofs.Base64Bits Proofs.ResponseFacts Proofs.GrammarFacts Proofs.AnyDepth Proofs.InteropFacts
  Examples Properties.Offers Properties.Evaluation Properties.Draft.

(** * C127: false of every such proof; [iat] is a number of seconds, and the library
      only knows dates as RFC 3339 texts *)
Definition C127_claim : Prop := forall d s, draft_token s -> exists j, jwt_from_str d s = Ok j.

Definition in_header : list (str * json) :=
  [(lit "typ", JStr (lit "openid4vci-proof+jwt")); (lit "alg", JStr (lit "EdDSA")); (lit "kid", JStr (lit "did:key:z6Mk#z6Mk"))].
Definition in_claims : list (str * json) :=
  [(lit "iss", JStr (lit "client")); (lit "aud", JStr (lit "https://issuer.example")); (lit "iat", JInt 1683000000);
   (lit "nonce", JStr (lit "n1"))].
Definition in_token : str :=
  base64url_encode (print (JObj in_header)) ++ lit "." ++ base64url_encode (print (JObj in_claims)) ++ lit "." ++ lit "c2ln".
Lemma in_header_draft : draft_header (JObj in_header).
Proof. unfold in_header. holds. apply (dk_kid _ (lit "did:key:z6Mk#z6Mk")); [cbn [In]; auto|holds]. Qed.
Lemma in_claims_draft : draft_claims (JObj in_claims).
Proof. unfold in_claims, draft_claims. holds. left. eexists. reflexivity. Qed.
Lemma in_token_draft : draft_token in_token.
Proof.
  exists (base64url_encode (print (JObj in_header))), (base64url_encode (print (JObj in_claims))), (lit "c2ln"),
    (print (JObj in_header)), (print (JObj in_claims)), (JObj in_header), (JObj in_claims).
  split; [constructor; apply not_in_bool; reflexivity|]. split; [now apply base64_text_url|]. split; [now apply base64_text_url|].
  split; [document|]. split; [document|]. split; [exact in_header_draft|exact in_claims_draft].
Qed.
Theorem C127_tokens_refuted : ~ C127_claim.
Proof.
  intros H. exact (claim_fails example_deps in_token in_token_draft (H example_deps in_token in_token_draft)).
Qed.
Print Assumptions C127_tokens_refuted.

(** No such token is ever read, whatever else it says. *)
Theorem C127_never_read : forall d s, draft_token s -> exists e, jwt_from_str d s = Err e.
Proof. exact draft_token_rejected. Qed.
Print Assumptions C127_never_read.

(** So a request with such a token is never accepted, by any of the three calls. *)
Theorem C127_never_evaluated : forall d now m s v r offer asm doc options resp,
  lower_case_facts d ->
  json_text s v -> draft_request_with_token v -> credential_request_from_json s = Some r ->
  evaluate_credential_request d now m r offer asm doc options <> Ok resp.
Proof.
  intros d now m s v r offer asm doc options resp L T V R. destruct (request_token s v r T V R) as (p & P & D).
  exact (draft_never_evaluated d now m r offer asm doc options p resp L P D).
Qed.
Print Assumptions C127_never_evaluated.

Theorem C127_never_pre_evaluated : forall d s v r,
  json_text s v -> draft_request_with_token v -> credential_request_from_json s = Some r ->
  exists e, pre_evaluate_credential_request d r = Err (IValidationError e).
Proof.
  intros d s v r T V R. destruct (request_token s v r T V R) as (p & P & D). exact (draft_never_pre d r p P D).
Qed.
Print Assumptions C127_never_pre_evaluated.

Theorem C127_never_answered : forall d now s v r ct n,
  json_text s v -> draft_request_with_token v -> credential_request_from_json s = Some r ->
  exists e, create_credential_success_response d now r ct n = Err (IValidationError e).
Proof.
  intros d now s v r ct n T V R. destruct (request_token s v r T V R) as (p & P & D). exact (draft_never_answered d now r p ct n P D).
Qed.
Print Assumptions C127_never_answered.

(** And the library never writes claims that another issuer would accept. *)
Theorem C127_never_written : forall d x v, dt_round_trips d -> body_ok x -> body_instants_ok x ->
  rfc8259_text (claims_to_json d x) v -> ~ draft_claims v.
Proof. exact written_claims_differ. Qed.
Print Assumptions C127_never_written.

(** A request that follows the draft and is read. The token of [ev_good], which is
    accepted (C37), says the same apart from the form of [iat]. *)
Definition in_request : list (str * json) :=
  [(lit "format", JStr (lit "jwt_vc_json")); (lit "types", JArr [JStr (lit "VerifiableCredential")]);
   (lit "proof", JObj [(lit "proof_type", JStr (lit "jwt")); (lit "jwt", JStr in_token)])].
Example C127_case : draft_request_with_token (JObj in_request) /\ json_text (print (JObj in_request)) (JObj in_request)
  /\ credential_request_from_json (print (JObj in_request))
     = Some {| cr_format := JwtVcJson [lit "VerifiableCredential"] None None;
               cr_proof := Some {| rp_proof_type := lit "jwt"; rp_jwt := in_token |} |}.
Proof.
  split; [|split; [document|vm_compute; reflexivity]].
  exists in_request, [(lit "proof_type", JStr (lit "jwt")); (lit "jwt", JStr in_token)], in_token.
  split; [reflexivity|]. split; [|split; [cbn [In in_request]; auto|split; [cbn [In]; auto|exact in_token_draft]]].
  unfold in_request. holds. apply am_jwt; holds.
Qed.
