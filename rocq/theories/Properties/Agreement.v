(** Wallets that sign, issuers that check, and anyone else in between. Theorems
    only; proofs are in Proofs/AgreementFacts.v, vocabulary in SpecAgreement.v. *)
From Verif Require Import Model.Prelude Model.Json Model.Types Model.Deps Model.Jwt Model.AccessToken
  Model.CredentialIssuer Model.Wire
  Spec SpecToken SpecOffer SpecJwt SpecEvaluation SpecDocuments SpecEvidence SpecRelay SpecAgreement
  Proofs.JsonFacts Proofs.Base64Bits Proofs.JwtFacts Proofs.EvalFacts Proofs.EvalFacts2 Proofs.EvalFacts3 Proofs.EvidenceFacts Proofs.AgreementFacts Proofs.OkTac
  Examples Properties.Offers Properties.Evaluation Properties.Evidence Properties.Relay.

(* ------------------------------------------------------------------ *)
(** * C139: whoever gets a credential for a key has it. [network] says what can
    happen between wallets, an issuer that decodes and checks the signature of
    the evidence, and attackers that choose everything else. *)

(** The owner of a safe key for which the issuer gives out a credential has
    signed, before, a proof for this issuer, nonce and client, naming a key of the
    subject that the credential is given to. *)
Theorem C139_agreement : forall d safe h st a k key url n c s b,
  lower_case_facts d -> dt_round_trips d -> dates_in_range d -> network d safe h st ->
  h = a ++ Trusts k key url n c s :: b -> safe key ->
  exists j text kid u, In (Signs key j text) a
    /\ b_aud (j_body j) = url /\ b_nonce (j_body j) = n /\ (forall x, c = Some x -> b_iss (j_body j) = Some x)
    /\ h_additional (j_header j) = Some (KeyId kid) /\ did_url_try_from d kid = inr u /\ s = Some (du_did u).
Proof. exact agreement. Qed.
Print Assumptions C139_agreement.

(** The nonce was given to that session, and no other credential is given out for
    it, before or after, in whatever session and for whatever key. *)
Theorem C139_nonce_of_the_session : forall d safe h st a k key url n c s b,
  lower_case_facts d -> network d safe h st -> h = a ++ Trusts k key url n c s :: b ->
  In (Gives k n) a /\ forall k' key' url' c' s', ~ In (Trusts k' key' url' n c' s') (a ++ b).
Proof. exact agreement_once. Qed.
Print Assumptions C139_nonce_of_the_session.

(** So nobody gets more credentials for a key than its owner signed proofs. *)
Theorem C139_no_more_than_signed : forall d safe h st key,
  lower_case_facts d -> dt_round_trips d -> dates_in_range d -> network d safe h st -> safe key ->
  (List.length (filter (trusts_in key) h) <= List.length (filter (signs_with key) h))%nat.
Proof. exact trusted_at_most. Qed.
Print Assumptions C139_no_more_than_signed.

(** But a wallet that signs as RFC 7515 says never gets one. *)
Theorem C139_standard_wallets_get_nothing : forall d safe h st key,
  lower_case_facts d -> dt_round_trips d -> dates_in_range d -> network d safe h st -> safe key ->
  (forall j text, In (Signs key j text) h -> standard_text d j text) ->
  forall k url n c s, ~ In (Trusts k key url n c s) h.
Proof. exact standard_never. Qed.
Print Assumptions C139_standard_wallets_get_nothing.

(** Which evidence has a signature that can be decoded: that of tokens which have
    one, if no dot is in the header or the claims. Its message is both documents. *)
Theorem C139_decodable_evidence : forall d s j pop, lower_case_facts d -> evidence_for d s j pop ->
  (forall sg, base64_text url_alphabet false sg (pop_signature pop) <->
     j_signature j = Some (pop_signature pop) /\ base64_text url_alphabet false sg (pop_signature pop)
     /\ dotless (header_to_json (j_header j)) /\ dotless (claims_to_json d (j_body j)))
  /\ (forall sg, base64_text url_alphabet false sg (pop_signature pop) -> pop_message pop = both_documents d j).
Proof. exact decodable. Qed.
Print Assumptions C139_decodable_evidence.

(** A session gets a nonce, the wallet signs both documents and the issuer gives
    out the credential; all keys are safe. *)
Definition ag_nonce : c_nonce_options :=
  {| cno_expires_in := 300; cno_expected := lit "n1"; cno_created_at := 1683000000000000000%Z |}.
Definition ag_history : list happening :=
  [Gives 7 (lit "n1"); Signs (lit "key bytes") local_token (both_documents example_deps local_token);
   Trusts 7 (lit "key bytes") (lit "https://localhost") (lit "n1") None (Some (lit "did:key:z6Mk"))].
Definition ag_answer : eval_response :=
  {| er_pop := Some local_evidence; er_subject_id := Some (lit "did:key:z6Mk"); er_credential := ex_degree |}.
Lemma ag_evaluated :
  evaluate_credential_request example_deps ev_now web_metadata (ev_request ex_degree "jwt" local_token)
    (Some ev_offer) None (Some ev_document) (Some {| eo_c_nonce := Some ag_nonce; eo_client_id := None |})
  = Ok ag_answer.
Proof.
  rewrite (evaluate_at example_deps ev_now web_metadata (ev_request ex_degree "jwt" local_token) ev_offer
    (Some ev_document) (Some {| eo_c_nonce := Some ag_nonce; eo_client_id := None |}) _ local_token eq_refl eq_refl
    eq_refl local_parses).
  vm_compute. reflexivity.
Qed.
Lemma ag_ok : proof_jwt_ok local_token.
Proof.
  split; [|split; [|split]].
  - split; [apply rust_string_ascii; reflexivity|]. intros s [H|[H|H]]; try discriminate. injection H as <-.
    apply rust_string_ascii. reflexivity.
  - split; [|split; [|split]]; try (apply rust_string_ascii; reflexivity); intros x X; try discriminate.
    injection X as <-. apply rust_string_ascii. reflexivity.
  - split; [reflexivity|split; intros x X; try discriminate; injection X as <-; reflexivity].
  - intros x X. injection X as <-. apply rust_string_ascii. reflexivity.
Qed.
Lemma ag_trusts d safe h st k n now m r offer asm doc client resp pop sg e : network d safe h st -> st k = Some n ->
  evaluate_credential_request d now m r offer asm doc (Some {| eo_c_nonce := Some n; eo_client_id := client |}) = Ok resp ->
  er_pop resp = Some pop -> base64_text url_alphabet false sg (pop_signature pop) ->
  (exists j, In (Signs (pop_public_key pop) j (pop_message pop)) h) ->
  e = Trusts k (pop_public_key pop) (im_credential_issuer m) (cno_expected n) client (er_subject_id resp) ->
  exists st', network d safe (h ++ [e]) st'.
Proof. intros H K E R B U ->. rewrite <- K in E. eexists. eapply net_trusts; eauto. Qed.
Example C139_case : (exists st, network example_deps (fun _ => True) ag_history st)
  /\ lower_case_facts example_deps /\ dt_round_trips example_deps /\ dates_in_range example_deps.
Proof.
  split; [|split; [exact example_lower_case_facts|split; [exact example_dt_round_trips|exact (C104_dates example_deps)]]].
  refine (ag_trusts example_deps _ [Gives 7 (lit "n1"); Signs (lit "key bytes") local_token
      (both_documents example_deps local_token)] (store (fun _ => None) 7 (Some ag_nonce)) 7 ag_nonce ev_now web_metadata
      _ _ _ _ _ _ local_evidence (lit "sig") _ _ eq_refl ag_evaluated eq_refl _ _ _).
  - apply (net_signs example_deps (fun _ => True) [Gives 7 (lit "n1")]); [|exact ag_ok|right; now left].
    apply (net_gives example_deps (fun _ => True) [] (fun _ => None) 7 ag_nonce); [constructor|intros []].
  - apply is_base64. vm_compute. reflexivity.
  - exists local_token. right. now left.
  - reflexivity.
Qed.
(** What a wallet that follows RFC 7515 signs for the same proof. *)
Example C139_standard_case : standard_text example_deps local_token local_input.
Proof.
  exists (header_to_json (j_header local_token)), (claims_to_json example_deps (j_body local_token)). do 2 eexists.
  split; [vm_compute; reflexivity|]. split; [vm_compute; reflexivity|].
  split; [apply base64_text_url; reflexivity|]. split; [apply base64_text_url; reflexivity|reflexivity].
Qed.
