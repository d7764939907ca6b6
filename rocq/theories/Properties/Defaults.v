(** Default values. Theorems only; proofs are in Proofs/DefaultFacts.v, the values
    in Model/Defaults.v. *)
From Verif Require Import Model.Prelude Model.Json Model.Types Model.Deps Model.Errors Model.Jwt Model.AccessToken
  Model.CredentialIssuer Model.Serde Model.SerdeOptions Model.Wire Model.Defaults
  Spec SpecToken SpecOffer SpecJwt SpecEvaluation
  Proofs.StrFacts Proofs.OfferFacts Proofs.JwtFacts Proofs.EvalFacts Proofs.EvalFacts2 Proofs.DefaultFacts Proofs.OkTac Examples Properties.Offers Properties.Jwt Properties.Evaluation.

(** * C107: false; credential requests are granted under a default offer *)
Definition C107_claim : Prop :=
  forall d now m r asm doc options resp,
  evaluate_credential_request d now m r (Some offer_default) asm doc options <> Ok resp.
Theorem C107_default_offer_grants_nothing_refuted : ~ C107_claim.
Proof.
  intros H.
  apply (H example_deps ev_now ev_metadata (ev_request ex_degree "jwt" (ev_good EdDSA)) None
           (Some ev_document) (ev_options (Some (lit "client")))
           (ev_answer EdDSA ex_degree (raw_text example_deps (ev_good EdDSA)) (ev_rest ++ lit ".c2ln"))).
  rewrite (evaluate_at example_deps ev_now ev_metadata (ev_request ex_degree "jwt" (ev_good EdDSA)) offer_default
    (Some ev_document) (ev_options (Some (lit "client"))) {| rp_proof_type := lit "jwt"; rp_jwt := ev_token (ev_good EdDSA) |}
    (ev_good EdDSA) eq_refl eq_refl eq_refl (ev_parses_signed EdDSA)).
  vm_compute. reflexivity.
Qed.
Print Assumptions C107_default_offer_grants_nothing_refuted.

(** No token is granted for a default offer. *)
Theorem C107_default_offer_no_token : forall r opts,
  evaluate_access_token_request r (Some offer_default) opts <> Ok tt.
Proof. exact default_offer_not_redeemed. Qed.
Print Assumptions C107_default_offer_no_token.

(** A default pre-authorized flow is redeemed by the empty code without a PIN. *)
Theorem C107_default_flow_redeemed_by : forall r o opts,
  og_pre (co_grants o) = Some preauth_flow_default ->
  evaluate_access_token_request r (Some o) opts = Ok tt <-> r = {| tr_grant_type := GPreAuthorized [] None |}.
Proof. exact default_flow_redeemed. Qed.
Print Assumptions C107_default_flow_redeemed_by.

(** Default options are no options, and with them nothing is granted. *)
Theorem C107_default_options_are_none : forall d now m r offer asm doc,
  evaluate_credential_request d now m r offer asm doc (Some eval_options_default)
  = evaluate_credential_request d now m r offer asm doc None.
Proof. exact default_options_none. Qed.
Print Assumptions C107_default_options_are_none.

Theorem C107_default_options_grant_nothing : forall d now m r offer asm doc resp,
  lower_case_facts d ->
  evaluate_credential_request d now m r offer asm doc (Some eval_options_default) <> Ok resp.
Proof. exact default_options_reject. Qed.
Print Assumptions C107_default_options_grant_nothing.

(** A default nonce expired in 1970. *)
Theorem C107_default_nonce_is_expired : forall d now m r offer asm doc client,
  (0 < now)%Z ->
  let options := Some {| eo_c_nonce := Some c_nonce_options_default; eo_client_id := client |} in
  (forall resp, evaluate_credential_request d now m r offer asm doc options <> Ok resp)
  /\ (ids_distinct (im_credentials_supported m) -> offer <> None -> asm = None ->
      evaluate_credential_request d now m r offer asm doc options = Err (ICNonceIsExpired now 0%Z)).
Proof. exact default_nonce_reject. Qed.
Print Assumptions C107_default_nonce_is_expired.

(** With default metadata no credential can be offered by id, and only proofs for
    the empty audience are accepted. *)
Theorem C107_default_metadata_offers : forall creds ep a p,
  (exists o url, create_offer metadata_default creds ep a p = Ok (o, url)) <->
  a = None /\ Forall (fun c => exists f, c = Credential f) creds.
Proof. exact default_metadata_offers. Qed.
Print Assumptions C107_default_metadata_offers.

Theorem C107_default_metadata_audience : forall d now r offer asm doc options resp,
  lower_case_facts d ->
  evaluate_credential_request d now metadata_default r offer asm doc options = Ok resp ->
  exists p j, cr_proof r = Some p /\ proof_token d (rp_jwt p) j /\ b_aud (j_body j) = [].
Proof. exact default_metadata_audience. Qed.
Print Assumptions C107_default_metadata_audience.

(** A proof with the default claims is accepted only for the empty issuer and nonce. *)
Theorem C107_default_claims : forall d now m r offer asm doc options resp p j,
  lower_case_facts d -> cr_proof r = Some p -> proof_token d (rp_jwt p) j -> j_body j = body_default ->
  evaluate_credential_request d now m r offer asm doc options = Ok resp ->
  im_credential_issuer m = [] /\ exists n, nonce_options options n /\ cno_expected n = [].
Proof. exact default_body_accepted. Qed.
Print Assumptions C107_default_claims.

(** The default reference is the id "". *)
Theorem C107_default_reference : forall m,
  (forall f, resolve m credential_or_id_default = Ok f <-> resolves m (CredentialId []) f)
  /\ (forall e, resolve m credential_or_id_default = Err e <->
        ~ known_id m [] /\ e = ICredentialIdNotInIssuerMetadata []).
Proof. exact default_reference. Qed.
Print Assumptions C107_default_reference.

(** Their documents: texts are empty, numbers 0, the time is the Unix epoch, and
    what is optional is null or absent. *)
Theorem C107_default_documents :
  offer_to_json offer_default = lit "{""credential_issuer"":"""",""credentials"":[],""grants"":{}}"
  /\ metadata_to_json metadata_default
     = lit "{""credential_issuer"":"""",""authorization_server"":null,""credential_endpoint"":"""",""batch_credential_endpoint"":null,""credentials_supported"":[]}"
  /\ c_nonce_to_json c_nonce_default = lit "{""c_nonce"":"""",""c_nonce_expires_in"":null}"
  /\ eval_options_to_json example_deps eval_options_default = lit "{""c_nonce"":null,""client_id"":null}"
  /\ eval_options_to_json example_deps {| eo_c_nonce := Some c_nonce_options_default; eo_client_id := None |}
     = lit "{""c_nonce"":{""c_nonce_expires_in"":0,""expected_c_nonce"":"""",""c_nonce_created_at"":""1970-01-01T00:00:00Z""},""client_id"":null}"
  /\ claims_to_json example_deps body_default = lit "{""aud"":"""",""sub"":null,""iat"":""1970-01-01T00:00:00Z"",""nonce"":""""}"
  /\ print (ser_display display_default)
     = lit "{""name"":"""",""locale"":null,""logo"":null,""description"":null,""background_color"":null,""text_color"":null}"
  /\ print (ser_logo logo_default) = lit "{""url"":null,""alt_text"":null}"
  /\ print (ser_grants {| og_auth := Some auth_flow_default; og_pre := Some preauth_flow_default |})
     = lit "{""authorization_code"":{""issuer_state"":null},""urn:ietf:params:oauth:grant-type:pre-authorized_code"":{""pre-authorized_code"":""""}}"
  /\ pre_eval_response_to_json pre_response_default = lit "{}"
  /\ error_information_display information_default = lit "{""code"":0,""name"":"""",""description"":""""}".
Proof. repeat split. Qed.
Print Assumptions C107_default_documents.

Example C107_case :
  og_pre (co_grants {| co_credential_issuer := lit "https://issuer.example"; co_credentials := [CredentialId (lit "Degree")];
                       co_grants := {| og_auth := None; og_pre := Some preauth_flow_default |} |})
  = Some preauth_flow_default
  /\ (0 < ev_now)%Z /\ ids_distinct (im_credentials_supported ev_metadata).
Proof. split; [reflexivity|]. split; [reflexivity|]. now apply metadata_validate_ok. Qed.

(** The premises of the theorems on default metadata and claims are met: a proof
    with the default claims is accepted by the issuer "" that expects the nonce "". *)
Definition df_jwt : proof_jwt :=
  {| j_header := {| h_typ := lit "openid4vci-proof+jwt"; h_alg := EdDSA;
                    h_additional := Some (KeyId (lit "did:key:z6Mk#z6Mk")) |};
     j_body := body_default; j_signature := ev_sig |}.
Definition df_options : option eval_options :=
  Some {| eo_c_nonce := Some {| cno_expires_in := 300; cno_expected := []; cno_created_at := ev_now |};
          eo_client_id := None |}.
Lemma df_parses : jwt_from_str example_deps (ev_token df_jwt) = Ok df_jwt.
Proof. unfold df_jwt, body_default, instant_default, ev_sig. ev_parses. Qed.
Example C107_accepted : exists resp,
  evaluate_credential_request example_deps ev_now metadata_default (ev_request ex_degree "jwt" df_jwt)
    (Some offer_default) None (Some ev_document) df_options = Ok resp
  /\ proof_token example_deps (ev_token df_jwt) df_jwt /\ j_body df_jwt = body_default.
Proof.
  eexists. split; [|split; [now apply proof_token_iff, df_parses|reflexivity]].
  rewrite (evaluate_at example_deps ev_now metadata_default (ev_request ex_degree "jwt" df_jwt) offer_default
    (Some ev_document) df_options {| rp_proof_type := lit "jwt"; rp_jwt := ev_token df_jwt |}
    df_jwt eq_refl eq_refl eq_refl df_parses).
  vm_compute. reflexivity.
Qed.
