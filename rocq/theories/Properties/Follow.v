(** Written documents and the specification. Theorems only; proofs are in
    Proofs/FollowFacts.v, vocabulary in SpecDraft.v. *)
From Verif Require Import Model.Prelude Model.Json Model.Types Model.Deps Model.Wire
  Spec SpecJson SpecDocuments SpecDraft
  Proofs.StrFacts Proofs.ResponseFacts Proofs.WrittenFacts Proofs.FollowFacts Proofs.OkTac Examples Properties.Offers Properties.Documents.

(** * C124: false for every kind of document; a value that is not there is written as
      null, and names and wrappers of the draft are not the ones of the crate *)
Definition C124_offers_claim : Prop := forall n x v, offer_ok n x -> rfc8259_text (offer_to_json x) v -> draft_offer v.
Definition C124_requests_claim : Prop :=
  forall n x v, request_ok n x -> rfc8259_text (credential_request_to_json x) v -> draft_request v.
Definition C124_metadata_claim : Prop := forall n x v, metadata_ok n x -> im_additional_fields x = None ->
  rfc8259_text (metadata_to_json x) v -> draft_metadata v.
Definition C124_tokens_claim : Prop :=
  forall x v, token_success_ok x -> rfc8259_text (token_success_to_json x) v -> draft_token_response v.
Definition C124_responses_claim : Prop := forall n x v, credential_success_ok n x ->
  (cs_credential x <> None \/ cs_acceptance_token x <> None) ->
  rfc8259_text (credential_success_to_json x) v -> draft_credential_response v.
Definition C124_keys_claim : Prop := forall x m, header_ok x -> h_additional x <> None ->
  rfc8259_text (header_to_json x) (JObj m) -> draft_key m.

(** What is written according to the draft, and what is not. *)
Theorem C124_offers : forall n x v, offer_ok n x -> rfc8259_text (offer_to_json x) v ->
  (draft_offer v <->
   (forall c, In (Credential c) (co_credentials x) -> askable c)
   /\ (forall a, og_auth (co_grants x) = Some a -> given (af_issuer_state a))).
Proof. exact offer_follows. Qed.
Print Assumptions C124_offers.

Theorem C124_requests : forall n x v, request_ok n x -> rfc8259_text (credential_request_to_json x) v ->
  (draft_request v <-> askable (cr_format x) /\ exists p, cr_proof x = Some p /\ rp_proof_type p = lit "jwt").
Proof. exact request_follows. Qed.
Print Assumptions C124_requests.

Theorem C124_metadata : forall n x v, metadata_ok n x ->
  (forall a k, im_additional_fields x = Some a -> In k (map fst a) -> ~ names_metadata k) ->
  rfc8259_text (metadata_to_json x) v ->
  (draft_metadata v <->
   given (im_authorization_server x) /\ given (im_batch_credential_endpoint x)
   /\ forall s, In s (im_credentials_supported x) -> supported_given s).
Proof. exact metadata_follows. Qed.
Print Assumptions C124_metadata.

Theorem C124_tokens : forall x v, token_success_ok x -> rfc8259_text (token_success_to_json x) v ->
  (draft_token_response v <->
   given (ts_expires_in x) /\ given (ts_scope x) /\ given (ts_c_nonce x) /\ given (ts_c_nonce_expires_in x)
   /\ given (ts_authorization_pending x) /\ given (ts_interval x)).
Proof. exact token_follows. Qed.
Print Assumptions C124_tokens.

Theorem C124_responses : forall n x v, credential_success_ok n x -> rfc8259_text (credential_success_to_json x) v ->
  ~ draft_credential_response v.
Proof. exact credential_never. Qed.
Print Assumptions C124_responses.

Theorem C124_keys : forall x m, header_ok x -> rfc8259_text (header_to_json x) (JObj m) ->
  (draft_key m <-> exists k, h_additional x = Some (KeyId k)).
Proof. exact header_follows. Qed.
Print Assumptions C124_keys.

Definition fo_offer (state : option str) (c : cfp) : credential_offer :=
  {| co_credential_issuer := lit "https://issuer.example"; co_credentials := [CredentialId (lit "a"); Credential c];
     co_grants := {| og_auth := Some {| af_issuer_state := state |}; og_pre := None |} |}.
Definition fo_jwt : cfp := JwtVcJson [lit "VerifiableCredential"]
  (Some [(lit "degree", {| cs_mandatory := Some true; cs_value_type := Some (lit "string"); cs_display := None |})]) None.
Definition fo_mdoc (m : option bool) : cfp := MsoMdoc (lit "org.iso.18013.5.1.mDL")
  (Some [(lit "org.iso.18013.5.1", {| cs_mandatory := m; cs_value_type := None; cs_display := None |})]) None.
Definition fo_request (c : cfp) (t : string) : credential_request :=
  {| cr_format := c; cr_proof := Some {| rp_proof_type := lit t; rp_jwt := lit "a.b.c" |} |}.
Definition fo_token (s : option str) : token_success :=
  {| ts_access_token := lit "t"; ts_token_type := Bearer; ts_expires_in := Some 3600; ts_scope := s;
     ts_c_nonce := Some (lit "n"); ts_c_nonce_expires_in := Some 60; ts_authorization_pending := Some false;
     ts_interval := Some 5 |}.
Definition fo_response : credential_success :=
  {| cs_format := lit "jwt_vc_json"; cs_credential := Some (Encoded (lit "LUpixVCWJk0eOt4CXQe1NXK"));
     cs_acceptance_token := None; cs_c_nonce := Some (lit "n"); cs_c_nonce_expires_in := Some 60 |}.
Definition fo_header (a : additional_header) : jwt_header :=
  {| h_typ := lit "openid4vci-proof+jwt"; h_alg := EdDSA; h_additional := Some a |}.

Theorem C124_refuted : ~ C124_offers_claim /\ ~ C124_requests_claim /\ ~ C124_metadata_claim /\ ~ C124_tokens_claim
  /\ ~ C124_responses_claim /\ ~ C124_keys_claim.
Proof.
  split; [|split; [|split; [|split; [|split]]]]; intros H.
  - assert (K : offer_ok 0 (fo_offer None fo_jwt)) by ok. destruct (offer_written _ _ K) as (v & T & _).
    specialize (H _ _ _ K T). apply (C124_offers _ _ _ K T) in H. destruct H as [_ H]. now specialize (H _ eq_refl).
  - assert (K : request_ok 0 (fo_request fo_jwt "JWT")) by ok. destruct (request_written _ _ K) as (v & T & _).
    specialize (H _ _ _ K T). apply (C124_requests _ _ _ K T) in H. destruct H as (_ & p & [= <-] & E). apply lit_inj in E.
    discriminate E.
  - assert (K : metadata_ok 0 (do_metadata None)) by ok. destruct (metadata_written_text _ _ K) as (v & T & _);
      [discriminate|]. specialize (H _ _ _ K eq_refl T).
    apply (C124_metadata 0 (do_metadata None) v K) in H; [|discriminate|exact T]. destruct H as (H & _). now apply H.
  - assert (K : token_success_ok (fo_token None)) by ok. destruct (token_success_written _ K) as (v & T & _).
    apply AnyDepth.json_text_rfc8259 in T. specialize (H _ _ K T). apply (C124_tokens _ _ K T) in H. destruct H as (_ & H & _).
    now apply H.
  - assert (K : credential_success_ok 0 fo_response) by ok. destruct (credential_success_written _ _ K) as (v & T & _).
    refine (C124_responses _ _ _ K T (H _ _ _ K _ T)). left. discriminate.
  - assert (K : header_ok (fo_header (Jwk (lit "{}")))).
    { split; [ok|]. intros s [[=]|[[= <-]|[=]]]. ok. }
    destruct (header_written _ K) as (v & T & _ & m & -> & _). apply AnyDepth.json_text_rfc8259 in T.
    assert (D : draft_key m) by (refine (H _ _ K _ T); discriminate).
    apply (C124_keys _ _ K T) in D. destruct D as (k & [=]).
Qed.
Print Assumptions C124_refuted.

Example C124_offers_case : offer_ok 0 (fo_offer (Some (lit "s")) fo_jwt) /\ askable fo_jwt /\ askable (fo_mdoc None)
  /\ ~ askable (fo_mdoc (Some true)) /\ ~ askable (LdpVc [] [lit "VerifiableCredential"] None None).
Proof.
  split; [ok|]. split; [exact I|]. split; [|split].
  - intros h n s [= <-] [[= <- <-]|[]]. repeat split.
  - intros H. destruct (H _ _ _ eq_refl (or_introl eq_refl)) as [[=] _].
  - intros H. exact H.
Qed.
Example C124_requests_case : request_ok 0 (fo_request fo_jwt "jwt") /\ token_success_ok (fo_token (Some (lit "openid"))).
Proof. split; ok. Qed.
Definition fo_metadata (d : display_logo) : issuer_metadata :=
  {| im_credential_issuer := lit "https://issuer.example"; im_authorization_server := Some (lit "https://as.example");
     im_credential_endpoint := lit "https://issuer.example/credential";
     im_batch_credential_endpoint := Some (lit "https://issuer.example/batch");
     im_credentials_supported := [{| sup_format := fo_jwt; sup_id := Some (lit "a"); sup_binding_methods := None;
       sup_suites := Some [lit "Ed25519"];
       sup_display := Some [{| dp_name := lit "License"; dp_locale := Some (lit "en"); dp_logo := Some d;
                             dp_description := Some (lit "a"); dp_background_color := Some (lit "#000");
                             dp_text_color := Some (lit "#fff") |}] |}];
     im_additional_fields := None |}.
Example C124_metadata_case : metadata_ok 0 (fo_metadata {| dl_url := Some (lit "https://x"); dl_alt_text := Some (lit "x") |})
  /\ (forall s, In s (im_credentials_supported (fo_metadata {| dl_url := Some (lit "https://x"); dl_alt_text := Some (lit "x") |}))
       -> supported_given s)
  /\ ~ (forall s, In s (im_credentials_supported (fo_metadata {| dl_url := Some (lit "https://x"); dl_alt_text := None |}))
       -> supported_given s).
Proof.
  split; [ok|]. split.
  - intros s [<-|[]]. repeat split; try discriminate. eexists. split; [reflexivity|]. repeat constructor; try discriminate.
    eexists. split; [reflexivity|]. split; discriminate.
  - intros H. specialize (H _ (or_introl eq_refl)). destruct H as (_ & _ & _ & l & [= <-] & F). inversion F as [|d l D _]; subst.
    destruct D as (_ & _ & _ & _ & g & [= <-] & _ & N). now apply N.
Qed.
Example C124_keys_case : header_ok (fo_header (KeyId (lit "did:example:1#0"))).
Proof. split; [ok|]. intros s [[= <-]|[[=]|[=]]]. ok. Qed.
