(** What default values allow. *)
From Coq Require Import Lia.
From Verif Require Import Model.Prelude Model.Json Model.Types Model.Deps Model.Errors Model.Jwt Model.AccessToken
  Model.CredentialIssuer Model.Defaults
  Spec SpecToken SpecOffer SpecJwt SpecEvaluation
  Proofs.StrFacts Proofs.TokenFacts Proofs.OfferFacts Proofs.EvalFacts Proofs.EvalFacts2 Proofs.EvalFacts3.

Lemma default_offer_not_redeemed r opts : evaluate_access_token_request r (Some offer_default) opts <> Ok tt.
Proof. intros H. apply evaluate_ok in H. inversion H as [? ? ? ? ? _ G _]; subst. discriminate G. Qed.

Lemma default_flow_redeemed r o opts :
  og_pre (co_grants o) = Some preauth_flow_default ->
  evaluate_access_token_request r (Some o) opts = Ok tt <-> r = {| tr_grant_type := GPreAuthorized [] None |}.
Proof.
  intros G. rewrite evaluate_ok. split.
  - intros H. inversion H as [code pin offer g ? _ G' (C & P & _)]; subst.
    rewrite G in G'. injection G' as <-. cbn in P.
    destruct pin as [n|]; [|reflexivity]. exfalso.
    unfold pin_required in P. cbn in P. destruct P as [P _]. now discriminate P.
  - intros ->. econstructor; [now intros|exact G|]. split; [reflexivity|]. split; [|now intros].
    unfold pin_required. cbn. split; [now intros []|discriminate].
Qed.

Lemma default_options_none d now m r offer asm doc :
  evaluate_credential_request d now m r offer asm doc (Some eval_options_default)
  = evaluate_credential_request d now m r offer asm doc None.
Proof.
  unfold evaluate_credential_request.
  destruct (metadata_validate m); cbn [map_err bind]; reflexivity.
Qed.

Lemma default_options_reject d now m r offer asm doc resp :
  lower_case_facts d ->
  evaluate_credential_request d now m r offer asm doc (Some eval_options_default) <> Ok resp.
Proof.
  intros HL. apply no_nonce_rejected; [exact HL|]. intros n (o & [= <-] & E). discriminate E.
Qed.

Lemma default_nonce_reject d now m r offer asm doc client :
  (0 < now)%Z ->
  let options := Some {| eo_c_nonce := Some c_nonce_options_default; eo_client_id := client |} in
  (forall resp, evaluate_credential_request d now m r offer asm doc options <> Ok resp)
  /\ (ids_distinct (im_credentials_supported m) -> offer <> None -> asm = None ->
      evaluate_credential_request d now m r offer asm doc options = Err (ICNonceIsExpired now 0%Z)).
Proof.
  intros H options. split.
  - intros resp E. unfold evaluate_credential_request in E.
    destruct (metadata_validate m); cbn [map_err bind] in E; try discriminate E.
    destruct offer as [o|]; cbn [ok_or bind] in E; try discriminate E.
    destruct (map_err IValidationError (offer_validate o)) as [[]|?|]; cbn [bind] in E; try discriminate E.
    destruct asm as [as'|]; [discriminate E|]. cbn [bind] in E.
    replace (check_nonce_expiry now options) with (@Err issuer_error unit (ICNonceIsExpired now 0%Z)) in E; [discriminate E|].
    unfold check_nonce_expiry, options. cbn. destruct (Z.ltb_spec 0 now); [reflexivity|lia].
  - intros D O A. apply expiry_exact. split; [exact D|]. split; [exact O|]. split; [exact A|].
    exists c_nonce_options_default. split; [eexists; split; reflexivity|].
    split; [split; vm_compute; discriminate|]. split; [exact H|]. auto.
Qed.

Lemma default_metadata_offers creds ep a p :
  (exists o url, create_offer metadata_default creds ep a p = Ok (o, url)) <->
  a = None /\ Forall (fun c => exists f, c = Credential f) creds.
Proof.
  rewrite create_offer_iff. split.
  - intros (_ & A & F). split; [exact A|]. eapply Forall_impl; [|exact F].
    intros [s|f] R; [|now exists f]. destruct (R s eq_refl) as (c & [] & _).
  - intros (A & F). split; [now apply metadata_validate_ok|]. split; [exact A|].
    eapply Forall_impl; [|exact F]. intros c (f & ->) id [=].
Qed.

Lemma default_metadata_audience d now r offer asm doc options resp :
  lower_case_facts d ->
  evaluate_credential_request d now metadata_default r offer asm doc options = Ok resp ->
  exists p j, cr_proof r = Some p /\ proof_token d (rp_jwt p) j /\ b_aud (j_body j) = [].
Proof.
  intros HL H. apply accepted_inv in H; [|exact HL].
  destruct H as (_ & _ & o & p & j & n & doc' & kid & u & k & opts & pop & H). decompose [and] H.
  exists p, j. auto.
Qed.

Lemma default_body_accepted d now m r offer asm doc options resp p j :
  lower_case_facts d -> cr_proof r = Some p -> proof_token d (rp_jwt p) j -> j_body j = body_default ->
  evaluate_credential_request d now m r offer asm doc options = Ok resp ->
  im_credential_issuer m = [] /\ exists n, nonce_options options n /\ cno_expected n = [].
Proof.
  intros HL P T B H. apply accepted_inv in H; [|exact HL].
  destruct H as (_ & _ & o & p' & j' & n & doc' & kid & u & k & opts & pop & _ & O & N & _ & _ & P' & T' & _ & H1 & H2 & _).
  rewrite P in P'. injection P' as <-. assert (j' = j) as ->.
  { apply proof_token_iff in T, T'. congruence. }
  rewrite B in H1, H2. cbn in H1, H2. split; [now symmetry|]. exists n. split; [|now symmetry].
  exists opts. auto.
Qed.

Lemma default_reference m :
  (forall f, resolve m credential_or_id_default = Ok f <-> resolves m (CredentialId []) f)
  /\ (forall e, resolve m credential_or_id_default = Err e <->
        ~ known_id m [] /\ e = ICredentialIdNotInIssuerMetadata []).
Proof.
  split; [intros f; apply resolve_ok|]. intros e. unfold credential_or_id_default. rewrite resolve_err. split.
  - intros (id & [= <-] & H). exact H.
  - intros H. exists []. auto.
Qed.
