(** C146: whose key is returned. Proofs are in Proofs/RegistryFacts.v, vocabulary in
    SpecRegistry.v. *)
From Verif Require Import Model.Prelude Model.Json Model.Types Model.Deps Model.CredentialIssuer
  Spec SpecOffer SpecJwt SpecEvaluation SpecCareful SpecRegistry Proofs.StrFacts Proofs.JsonFacts Proofs.EvalFacts2
  Proofs.RegistryFacts Examples Properties.Offers Properties.Evaluation Properties.Evidence Properties.Careful.

(* ------------------------------------------------------------------ *)
(** * C146 *)

(** The claim: with any document out of the registry, the returned key is one of the
    returned subject. *)
Definition C146_claim : Prop := forall d (reg : registry d) now m r offer asm did doc options resp pop,
  lower_case_facts d -> reg did = Some doc ->
  evaluate_credential_request d now m r offer asm (Some doc) options = Ok resp -> er_pop resp = Some pop ->
  exists s, er_subject_id resp = Some s /\ key_of d reg s (pop_public_key pop).

(** Mallory's document names a key for a DID URL of somebody else, who has another one. *)
Definition rg_registry : registry example_deps := fun did =>
  if str_eqb did (lit "did:web:mallory") then Some ev_document
  else if str_eqb did (lit "did:key:z6Mk")
  then Some [(lit "did:key:z6Mk#z6Mk", {| jwk_algorithm := None; jwk_parameters := POKP (lit "other") |})]
  else None.
Theorem C146_any_document_refuted : ~ C146_claim.
Proof.
  intros H.
  destruct (H example_deps rg_registry ev_now web_metadata (ev_request ex_degree "JWT" ca_proof) (Some ev_offer) None
    (lit "did:web:mallory") ev_document (with_nonce ca_nonce None) ca_answer _ example_lower_case_facts eq_refl ca_evaluated
    eq_refl) as (s & S & doc & kid & u & k & R & _ & _ & (u' & vm & _ & V & J) & P).
  injection S as <-. injection R as <-. cbn [pop_public_key] in P.
  cbn [select_object example_deps] in V. unfold ex_select in V. cbn [assoc] in V.
  destruct (str_eqb _ _) in V; [|discriminate V].
  injection V as <-. injection J as <-. inversion P as [? ? E|? ? E]; vm_compute in E; discriminate E.
Qed.
Print Assumptions C146_any_document_refuted.

(** If the caller takes the document of the DID that pre-evaluation names, it holds. *)
Theorem C146_document_as_told : forall d (reg : registry d) now m r offer asm doc options resp, lower_case_facts d ->
  resolved_as_told d reg r doc -> evaluate_credential_request d now m r offer asm (Some doc) options = Ok resp ->
  exists did pop, pre_evaluate_credential_request d r = Ok (Some did) /\ er_subject_id resp = Some did
    /\ er_pop resp = Some pop /\ key_of d reg did (pop_public_key pop).
Proof. exact told. Qed.
Print Assumptions C146_document_as_told.

(** Callers can always do so: pre-evaluation names the subject of whatever would be
    accepted, if the proof type is right. *)
Theorem C146_always_told : forall d now m r offer asm doc options resp p, lower_case_facts d -> upper_case_facts d ->
  evaluate_credential_request d now m r offer asm (Some doc) options = Ok resp ->
  cr_proof r = Some p -> rust_string (rp_proof_type p) -> ascii_ci (rp_proof_type p) (lit "jwt") ->
  exists did, pre_evaluate_credential_request d r = Ok (Some did) /\ er_subject_id resp = Some did.
Proof. exact can_be_told. Qed.
Print Assumptions C146_always_told.

(** It also holds for every document that has keys of its own DID only. *)
Theorem C146_own_keys : forall d (reg : registry d) now m r offer asm did doc options resp, lower_case_facts d ->
  reg did = Some doc -> keys_of_only d did doc ->
  evaluate_credential_request d now m r offer asm (Some doc) options = Ok resp ->
  exists pop, er_subject_id resp = Some did /\ er_pop resp = Some pop /\ key_of d reg did (pop_public_key pop).
Proof. exact own_document. Qed.
Print Assumptions C146_own_keys.

(** But for no other: in every session that can go on, whoever wrote a document
    with a key for somebody else's DID URL can be taken for them. *)
Theorem C146_own_keys_only : forall d now m o did doc n client, lower_case_facts d -> dt_round_trips d ->
  ids_distinct (im_credentials_supported m) -> representable (nonce_expiry n) -> (now <= nonce_expiry n)%Z ->
  rust_string (cno_expected n) -> on_some rust_string client -> rust_string (im_credential_issuer m) ->
  ((forall r resp, evaluate_credential_request d now m r (Some o) None (Some doc) (with_nonce n client) = Ok resp ->
     er_subject_id resp = Some did)
   <-> keys_of_only d did doc).
Proof. exact own_documents_only. Qed.
Print Assumptions C146_own_keys_only.

(** Hypotheses met: a registry in which the DID has its own document. *)
Definition rg_honest : registry example_deps := fun did => if str_eqb did (lit "did:key:z6Mk") then Some ev_document else None.
Example C146_case : resolved_as_told example_deps rg_honest (ev_request ex_degree "JWT" ca_proof) ev_document
  /\ evaluate_credential_request example_deps ev_now web_metadata (ev_request ex_degree "JWT" ca_proof)
       (Some ev_offer) None (Some ev_document) (with_nonce ca_nonce None) = Ok ca_answer
  /\ key_of example_deps rg_honest (lit "did:key:z6Mk") (lit "key bytes").
Proof.
  split; [|split; [exact ca_evaluated|]].
  - exists (lit "did:key:z6Mk"). split; [|reflexivity].
    unfold pre_evaluate_credential_request, request_validate, ev_request. cbn [cr_proof].
    unfold proof_validate. cbn [rp_proof_type rp_jwt]. rewrite ca_parses. vm_compute. reflexivity.
  - exists ev_document, (lit "did:key:z6Mk#z6Mk"). do 2 eexists. split; [reflexivity|]. split; [reflexivity|].
    split; [reflexivity|]. exact (conj (proj1 C53_case) (proj1 (proj2 C53_case))).
Qed.
Example C146_session : ids_distinct (im_credentials_supported web_metadata) /\ representable (nonce_expiry ca_nonce)
  /\ (ev_now <= nonce_expiry ca_nonce)%Z /\ rust_string (cno_expected ca_nonce)
  /\ rust_string (im_credential_issuer web_metadata) /\ dt_round_trips example_deps
  /\ keys_of_only example_deps (lit "did:key:z6Mk") ev_document
  /\ ~ keys_of_only example_deps (lit "did:web:mallory") ev_document.
Proof.
  pose proof (accepted_inv _ _ _ _ _ _ _ _ _ example_lower_case_facts ca_evaluated)
    as (A & _ & o & p & j & n & doc' & kid & u & k & opts & pop & _ & O & N & B & C & _).
  injection O as <-. injection N as <-.
  split; [exact A|]. split; [exact C|]. split; [exact B|]. split; [apply rust_string_ascii; reflexivity|].
  split; [apply rust_string_ascii; reflexivity|]. split; [exact example_dt_round_trips|]. split.
  - intros kid' u' k' key _ U (u2 & vm & U2 & V & _) _. rewrite U in U2. injection U2 as <-.
    cbn [did_url_try_from example_deps] in U. unfold ex_did_url in U. destruct (expect _ _); [|discriminate U].
    cbn [select_object example_deps] in V. unfold ex_select in V. cbn [assoc ev_document] in V.
    destruct (str_eqb _ _) eqn:E in V; [|discriminate V]. apply str_eqb_eq in E.
    destruct (cut _ _) as [[a f]|] eqn:X in U; injection U as <-; cbn [du_did] in *; revert E;
      unfold didurl_to_string; cbn [du_did du_path du_query du_fragment]; intros E.
    + assert (Y : cut "#"%char (lit "did:key:z6Mk#z6Mk") = Some (a, f)).
      { apply cut_some. apply cut_some in X. split; [now rewrite <- E|exact (proj2 X)]. }
      vm_compute in Y. injection Y as <- <-. reflexivity.
    + apply cut_none in X. exfalso. apply X. rewrite !app_nil_r in E. rewrite E. vm_compute. tauto.
  - intros H.
    assert (U : did_url_try_from example_deps (lit "did:key:z6Mk#z6Mk") = inr
      {| du_did := lit "did:key:z6Mk"; du_path := []; du_query := None; du_fragment := Some (lit "z6Mk") |}) by reflexivity.
    assert (S : rust_string (lit "did:key:z6Mk#z6Mk")) by (apply rust_string_ascii; reflexivity).
    pose proof (H _ _ _ _ S U (proj1 C53_case) (proj1 (proj2 C53_case))) as E. vm_compute in E. discriminate E.
Qed.
