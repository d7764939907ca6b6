(** Proofs about where DID documents come from. *)
From Verif Require Import Model.Prelude Model.Base64 Model.Json Model.Types Model.Deps Model.Jwt Model.CredentialIssuer Model.Wire
  Spec SpecToken SpecOffer SpecJwt SpecSession SpecEvaluation SpecCareful SpecRegistry
  Proofs.StrFacts Proofs.JsonFacts Proofs.JwtFacts Proofs.EvalFacts Proofs.EvalFacts2 Proofs.EvalFacts3 Proofs.AgreeFacts
  Proofs.ProbeFacts.

Lemma key_for d now m r offer asm doc options resp : lower_case_facts d ->
  evaluate_credential_request d now m r offer asm (Some doc) options = Ok resp ->
  exists kid u k pop, rust_string kid /\ did_url_try_from d kid = inr u /\ document_key d doc kid k
    /\ er_pop resp = Some pop /\ public_key k (pop_public_key pop) /\ er_subject_id resp = Some (du_did u).
Proof.
  intros L H. destruct (accepted_inv _ _ _ _ _ _ _ _ _ L H)
    as (_ & _ & o & p & j & n & doc' & kid & u & k & opts & pop & _ & _ & _ & _ & _ & _ & T & _ & _ & _ & _ & A & U & D
        & K & P & _ & B & _ & _ & S & _).
  injection D as <-. exists kid, u, k, pop. repeat split; try assumption.
  apply (proj2 (token_header_ok _ _ _ T)). now left.
Qed.

Lemma told d reg now m r offer asm doc options resp : lower_case_facts d ->
  resolved_as_told d reg r doc -> evaluate_credential_request d now m r offer asm (Some doc) options = Ok resp ->
  exists did pop, pre_evaluate_credential_request d r = Ok (Some did) /\ er_subject_id resp = Some did
    /\ er_pop resp = Some pop /\ key_of d reg did (pop_public_key pop).
Proof.
  intros L (did & P & R) H. destruct (agree_on_subject _ _ _ _ _ _ _ _ _ _ L H P) as [S _].
  destruct (key_for _ _ _ _ _ _ _ _ _ L H) as (kid & u & k & pop & _ & U & K & E & B & S').
  rewrite S in S'. injection S' as ->. exists (du_did u), pop. repeat split; try assumption.
  exists doc, kid, u, k. repeat split; assumption.
Qed.

Lemma own_document d reg now m r offer asm did doc options resp : lower_case_facts d ->
  reg did = Some doc -> keys_of_only d did doc ->
  evaluate_credential_request d now m r offer asm (Some doc) options = Ok resp ->
  exists pop, er_subject_id resp = Some did /\ er_pop resp = Some pop /\ key_of d reg did (pop_public_key pop).
Proof.
  intros L R O H. destruct (key_for _ _ _ _ _ _ _ _ _ L H) as (kid & u & k & pop & C & U & K & E & B & S).
  pose proof (O _ _ _ _ C U K B) as <-. exists pop. repeat split; try assumption.
  exists doc, kid, u, k. repeat split; assumption.
Qed.

Lemma foreign_key d now m o doc n client kid u k key c : lower_case_facts d -> dt_round_trips d ->
  ids_distinct (im_credentials_supported m) -> representable (nonce_expiry n) -> (now <= nonce_expiry n)%Z ->
  rust_string (cno_expected n) -> on_some rust_string client -> rust_string (im_credential_issuer m) ->
  rust_string kid -> did_url_try_from d kid = inr u -> document_key d doc kid k -> public_key k key ->
  exists r resp, evaluate_credential_request d now m r (Some o) None (Some doc) (with_nonce n client) = Ok resp
    /\ er_subject_id resp = Some (du_did u) /\ er_credential resp = c.
Proof.
  intros L D M R T N C I K U Y B.
  assert (S : forall s : str, rust_string (lit "c2ln") /\ dotless (lit "c2ln")).
  { intros s. split; [apply rust_string_ascii; reflexivity|]. intros X. cbn in X.
    repeat (destruct X as [X|X]; [discriminate X|]). destruct X. }
  destruct (all_known d EdDSA kid 0%Z (fun _ => lit "c2ln") c L D K eq_refl S m o doc n client u k key M R C U Y B
    now {| k_nonce := cno_expected n; k_iss := client; k_aud := im_credential_issuer m |} T
    (conj N (conj C I)) eq_refl eq_refl eq_refl) as (resp & E & F & G).
  eexists. exists resp. split; [exact E|]. split; assumption.
Qed.

Lemma own_documents_only d now m o did doc n client : lower_case_facts d -> dt_round_trips d ->
  ids_distinct (im_credentials_supported m) -> representable (nonce_expiry n) -> (now <= nonce_expiry n)%Z ->
  rust_string (cno_expected n) -> on_some rust_string client -> rust_string (im_credential_issuer m) ->
  ((forall r resp, evaluate_credential_request d now m r (Some o) None (Some doc) (with_nonce n client) = Ok resp ->
     er_subject_id resp = Some did)
   <-> keys_of_only d did doc).
Proof.
  intros L D M R T N C I. split.
  - intros H kid u k key K U Y B.
    destruct (foreign_key d now m o doc n client kid u k key (JwtVcJson [] None None) L D M R T N C I K U Y B)
      as (r & resp & E & S & _).
    rewrite (H r resp E) in S. now injection S as ->.
  - intros O r resp H.
    destruct (own_document d (fun _ => Some doc) now m r (Some o) None did doc _ resp L eq_refl O H) as (pop & S & _).
    exact S.
Qed.

Lemma can_be_told d now m r offer asm doc options resp p : lower_case_facts d -> upper_case_facts d ->
  evaluate_credential_request d now m r offer asm (Some doc) options = Ok resp ->
  cr_proof r = Some p -> rust_string (rp_proof_type p) -> ascii_ci (rp_proof_type p) (lit "jwt") ->
  exists did, pre_evaluate_credential_request d r = Ok (Some did) /\ er_subject_id resp = Some did.
Proof.
  intros L U H P S J. destruct (accepted_answered _ _ _ _ _ _ _ _ _ _ L U H P S J) as [A _].
  destruct (key_for _ _ _ _ _ _ _ _ _ L H) as (kid & u & k & pop & _ & _ & _ & _ & _ & E).
  exists (du_did u). now rewrite A, E.
Qed.
