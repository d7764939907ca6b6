(** Documents that follow the specification. Theorems only; proofs are in
    Proofs/DraftFacts.v, vocabulary in SpecDraft.v. *)
From Verif Require Import Model.Prelude Model.Json Model.Types Model.Deps Model.Wire
  Spec SpecJson SpecDraft
  Proofs.StrFacts Proofs.ResponseFacts Proofs.GrammarFacts Proofs.DraftFacts Examples.

(** Concrete documents: members have different names, a member is there, no
    member of that name is anything else. *)
Ltac names_differ := repeat (constructor; [cbn [map fst In]; let Q := fresh in intros Q;
  repeat destruct Q as [Q|Q]; try contradiction; apply lit_inj in Q; discriminate Q|]); constructor.
Ltac holds := match goal with
  | |- an_object _ (JObj _) => eexists; split; [reflexivity|]; split; [names_differ|]; holds
  | |- an_array _ (JArr _) => eexists; split; [reflexivity|]; repeat apply Forall_cons; try apply Forall_nil; holds
  | |- must _ _ _ => eexists; split; [cbn [In]; eauto 9|]; holds
  | |- may _ _ _ => let v := fresh in let I := fresh in intros v I; cbn [In] in I;
      repeat destruct I as [I|I]; try contradiction; apply pair_equal_spec in I;
      let E := fresh in destruct I as [E <-]; try (apply lit_inj in E; discriminate E); clear E; holds
  | |- not_defined _ _ => let k := fresh in let I := fresh in let J := fresh in intros k I J;
      cbn [In map fst] in I, J; repeat destruct I as [<-|I]; try contradiction;
      repeat destruct J as [J|J]; try contradiction; apply lit_inj in J; discriminate J
  | |- _ /\ _ => split; holds
  | |- a_text _ => eexists; reflexivity
  | |- a_truth _ => eexists; reflexivity
  | |- a_count (JInt ?z) => exists (Z.to_N z); reflexivity
  | |- format_is _ _ => unfold format_is; cbn [In]; eauto 9
  | |- present _ _ => unfold present; cbn [In map fst]; eauto 9
  | |- _ \/ _ => first [left; solve [holds] | right; solve [holds] | idtac]
  | |- _ => first [progress unfold draft_offer, draft_offer_members, draft_entry, draft_grants, credential_definition,
        context_entry, texts, draft_request, draft_request_members, draft_proof, draft_metadata, draft_metadata_members,
        draft_supported_members, draft_display, draft_logo, claim_display, draft_token_response, draft_token_members,
        draft_credential_response, draft_credential_members, issued_credential, draft_header, draft_header_members; holds
      | progress cbv beta; holds
      | reflexivity | idtac]
  end.
Ltac document := apply parse_json_iff; vm_compute; reflexivity.

(** * C117: false; an offer without [grants] is refused, and so is one with a
      JSON-LD credential *)
Definition C117_claim : Prop := forall s v, json_text s v -> draft_offer v -> exists x, offer_from_json s = Some x.
Definition dr_ids : list (str * json) :=
  [(lit "credential_issuer", JStr (lit "https://issuer.example"));
   (lit "credentials", JArr [JStr (lit "UniversityDegree_LDP")])].
Example dr_ids_text : json_text (lit "{""credential_issuer"": ""https://issuer.example"", ""credentials"": [""UniversityDegree_LDP""]}") (JObj dr_ids).
Proof. document. Qed.
Example dr_ids_draft : draft_offer (JObj dr_ids).
Proof. unfold dr_ids. holds. Qed.
Theorem C117_offers_refuted : ~ C117_claim.
Proof.
  intros H. specialize (H _ _ dr_ids_text dr_ids_draft). destruct H as [x H].
  vm_compute in H. discriminate H.
Qed.
Print Assumptions C117_offers_refuted.

Theorem C117_offers : forall s m, json_text s (JObj m) -> draft_offer (JObj m) ->
  ((exists x, offer_from_json s = Some x) <->
   present m "grants" /\ forall l, In (lit "credentials", JArr l) m -> Forall plain_entry l).
Proof. exact draft_offers. Qed.
Print Assumptions C117_offers.

Definition dr_offer (entry : json) : list (str * json) :=
  [(lit "credential_issuer", JStr (lit "https://issuer.example"));
   (lit "credentials", JArr [JStr (lit "a"); entry]);
   (lit "grants", JObj [(lit "urn:ietf:params:oauth:grant-type:pre-authorized_code",
      JObj [(lit "pre-authorized_code", JStr (lit "adhjhdjajkdkhjhdj")); (lit "user_pin_required", JBool true)])])].
Definition dr_jwt : json := JObj [(lit "format", JStr (lit "jwt_vc_json")); (lit "types", JArr [JStr (lit "VerifiableCredential")])].
Definition dr_ldp : json := JObj [(lit "format", JStr (lit "ldp_vc"));
  (lit "credential_definition", JObj [(lit "@context", JArr [JStr (lit "https://www.w3.org/2018/credentials/v1")]);
     (lit "types", JArr [JStr (lit "VerifiableCredential")])])].
Example dr_jwt_draft : draft_offer (JObj (dr_offer dr_jwt)).
Proof. unfold dr_offer, dr_jwt. holds. right. holds. apply am_jwt; holds. Qed.
Example dr_ldp_draft : draft_offer (JObj (dr_offer dr_ldp)).
Proof. unfold dr_offer, dr_ldp. holds. right. holds. apply am_ld; holds. Qed.
Example C117_offers_case :
  (exists x, offer_from_json (print (JObj (dr_offer dr_jwt))) = Some x)
  /\ offer_from_json (print (JObj (dr_offer dr_ldp))) = None.
Proof. split; [eexists|]; vm_compute; reflexivity. Qed.
Example C117_texts : json_text (print (JObj (dr_offer dr_jwt))) (JObj (dr_offer dr_jwt))
  /\ json_text (print (JObj (dr_offer dr_ldp))) (JObj (dr_offer dr_ldp)).
Proof. split; document. Qed.

(** * C118: false; a request for a JSON-LD credential is refused *)
Definition C118_claim : Prop := forall s v, json_text s v -> draft_request v ->
  exists x, credential_request_from_json s = Some x.
Definition dr_request (more : list (str * json)) : list (str * json) :=
  more ++ [(lit "proof", JObj [(lit "proof_type", JStr (lit "jwt")); (lit "jwt", JStr (lit "eyJraWQi"))])].
Definition dr_ldp_request : list (str * json) := dr_request
  [(lit "format", JStr (lit "ldp_vc"));
   (lit "credential_definition", JObj [(lit "@context", JArr [JStr (lit "https://www.w3.org/2018/credentials/v1")]);
     (lit "types", JArr [JStr (lit "VerifiableCredential")])])].
Example dr_ldp_request_draft : draft_request (JObj dr_ldp_request).
Proof. unfold dr_ldp_request, dr_request. cbn [app]. holds. apply am_ld; holds. Qed.
Theorem C118_requests_refuted : ~ C118_claim.
Proof.
  intros H. specialize (H (print (JObj dr_ldp_request)) (JObj dr_ldp_request)). destruct H as [x H];
    [document|exact dr_ldp_request_draft|]. vm_compute in H. discriminate H.
Qed.
Print Assumptions C118_requests_refuted.

Theorem C118_requests : forall s m, json_text s (JObj m) -> draft_request (JObj m) ->
  ((exists x, credential_request_from_json s = Some x) <-> plain_members m).
Proof. exact draft_requests. Qed.
Print Assumptions C118_requests.

(** A claim with a part that is called [display]. *)
Definition dr_jwt_request (part : string) : list (str * json) := dr_request
  [(lit "format", JStr (lit "jwt_vc_json")); (lit "types", JArr [JStr (lit "VerifiableCredential")]);
   (lit "credentialSubject", JObj [(lit "screen", JObj [(lit part, JObj [])])])].
Lemma dr_jwt_request_draft part : draft_request (JObj (dr_jwt_request part)).
Proof.
  unfold dr_jwt_request, dr_request. cbn [app]. holds. apply am_jwt; holds.
  exists [(lit "screen", JObj [(lit part, JObj [])])]. split; [reflexivity|]. split; [names_differ|].
  intros k j [E|[]]. apply pair_equal_spec in E. destruct E as [_ <-]. constructor; [repeat constructor; intros []|].
  intros k' j [E|[]]. apply pair_equal_spec in E. destruct E as [_ <-]. apply cm_nested. constructor; [constructor|intros ? ? []].
Qed.
Example C118_case :
  (exists x, credential_request_from_json (print (JObj (dr_jwt_request "size"))) = Some x)
  /\ credential_request_from_json (print (JObj (dr_jwt_request "display"))) = None
  /\ json_text (print (JObj (dr_jwt_request "display"))) (JObj (dr_jwt_request "display")).
Proof. split; [eexists; vm_compute; reflexivity|]. split; [vm_compute; reflexivity|document]. Qed.

(** * C119: false; metadata is refused if it offers a credential in any other
      format, or if a claim has a part with an unlucky name *)
Definition C119_claim : Prop := forall s v, json_text s v -> draft_metadata v -> exists x, metadata_from_json s = Some x.
Definition dr_metadata (entry : json) : list (str * json) :=
  [(lit "credential_issuer", JStr (lit "https://issuer.example"));
   (lit "credential_endpoint", JStr (lit "https://issuer.example/credential"));
   (lit "display", JArr [JObj [(lit "name", JStr (lit "Issuer")); (lit "locale", JStr (lit "en"))]]);
   (lit "credentials_supported", JArr [entry])].
Definition dr_other : json := JObj [(lit "format", JStr (lit "ac_vc")); (lit "id", JStr (lit "x"))].
Example dr_other_draft : draft_metadata (JObj (dr_metadata dr_other)).
Proof.
  unfold dr_metadata, dr_other. holds. apply dm_other. exists (lit "ac_vc"). split; [now left|].
  intros n I E. apply lit_inj in E. subst n. cbn [In] in I. repeat destruct I as [I|I]; discriminate I || contradiction.
Qed.
Theorem C119_metadata_refuted : ~ C119_claim.
Proof.
  intros H. specialize (H (print (JObj (dr_metadata dr_other))) (JObj (dr_metadata dr_other))). destruct H as [x H];
    [document|exact dr_other_draft|]. vm_compute in H. discriminate H.
Qed.
Print Assumptions C119_metadata_refuted.

Theorem C119_metadata : forall s m, json_text s (JObj m) -> draft_metadata (JObj m) ->
  ((exists x, metadata_from_json s = Some x) <->
   forall l, In (lit "credentials_supported", JArr l) m -> Forall plain_supported l).
Proof. exact draft_metadatas. Qed.
Print Assumptions C119_metadata.

(** The example of the draft, with a binding method, a logo and claims. *)
Definition dr_degree : json := JObj
  [(lit "format", JStr (lit "jwt_vc_json")); (lit "id", JStr (lit "UniversityDegree_JWT"));
   (lit "types", JArr [JStr (lit "VerifiableCredential"); JStr (lit "UniversityDegreeCredential")]);
   (lit "cryptographic_binding_methods_supported", JArr [JStr (lit "did")]);
   (lit "cryptographic_suites_supported", JArr [JStr (lit "ES256K")]);
   (lit "display", JArr [JObj [(lit "name", JStr (lit "University Credential"));
      (lit "logo", JObj [(lit "url", JStr (lit "https://exampleuniversity.com/public/logo.png"))])]]);
   (lit "credentialSubject", JObj [(lit "given_name", JObj [(lit "value_type", JStr (lit "string")); (lit "mandatory", JBool true);
      (lit "display", JArr [JObj [(lit "name", JStr (lit "Given Name"))]])])])].
Example dr_degree_draft : draft_metadata (JObj (dr_metadata dr_degree)).
Proof.
  unfold dr_metadata, dr_degree. holds. apply dm_jwt; holds.
  eexists. split; [reflexivity|]. split; [names_differ|].
  intros k j [E|[]]. apply pair_equal_spec in E. destruct E as [_ <-]. constructor; [names_differ|].
  intros k' j [E|[E|[E|[]]]]; apply pair_equal_spec in E; destruct E as [<- <-].
  - apply cm_value_type. holds.
  - apply cm_mandatory. holds.
  - apply cm_display. holds.
Qed.
Example C119_metadata_case : (exists x, metadata_from_json (print (JObj (dr_metadata dr_degree))) = Some x)
  /\ json_text (print (JObj (dr_metadata dr_degree))) (JObj (dr_metadata dr_degree)).
Proof. split; [eexists; vm_compute; reflexivity|document]. Qed.

(** * C120: false; what the metadata says about the type of a claim's value is lost,
      and for mdoc credentials everything it says about claims *)
Definition C120_claim : Prop := forall s m c h n x d t, json_text s (JObj m) -> NoDup (map fst m) -> described_members m ->
  cfp_from_json s = Some c -> claims_in c = Some h -> In (n, x) h ->
  claim_listed m n d -> In (lit "value_type", JStr t) d -> cs_value_type x = Some t.
Definition dr_described : list (str * json) :=
  [(lit "format", JStr (lit "jwt_vc_json")); (lit "types", JArr [JStr (lit "VerifiableCredential")]);
   (lit "credentialSubject", JObj [(lit "photo", JObj [(lit "value_type", JStr (lit "image/jpeg")); (lit "mandatory", JBool true);
      (lit "display", JArr [JObj [(lit "name", JStr (lit "Photo"))]])])])].
Lemma dr_described_draft : described_members dr_described.
Proof.
  apply dm_jwt; unfold dr_described; holds.
  eexists. split; [reflexivity|]. split; [names_differ|].
  intros k j [E|[]]. apply pair_equal_spec in E. destruct E as [_ <-]. constructor; [names_differ|].
  intros k' j [E|[E|[E|[]]]]; apply pair_equal_spec in E; destruct E as [<- <-].
  - apply cm_value_type. holds.
  - apply cm_mandatory. holds.
  - apply cm_display. holds.
Qed.
Definition dr_photo : credential_subject :=
  {| cs_mandatory := Some true; cs_value_type := None; cs_display := Some [{| sd_name := Some (lit "Photo"); sd_locale := None |}] |}.
Example C120_case : json_text (print (JObj dr_described)) (JObj dr_described) /\ NoDup (map fst dr_described)
  /\ cfp_from_json (print (JObj dr_described))
     = Some (JwtVcJson [lit "VerifiableCredential"] (Some [(lit "photo", dr_photo)]) None).
Proof. split; [document|]. split; [unfold dr_described; names_differ|]. vm_compute. reflexivity. Qed.
Theorem C120_value_types_refuted : ~ C120_claim.
Proof.
  intros H. destruct C120_case as (T & N & R).
  specialize (H _ _ _ _ (lit "photo") dr_photo
    [(lit "value_type", JStr (lit "image/jpeg")); (lit "mandatory", JBool true);
      (lit "display", JArr [JObj [(lit "name", JStr (lit "Photo"))]])] (lit "image/jpeg") T N dr_described_draft R eq_refl).
  discriminate H.
  - now left.
  - eapply cl_subject; [|unfold dr_described; cbn [In]; right; right; left; reflexivity|now left].
    intros F. unfold format_is, dr_described in F. cbn [In] in F.
    repeat destruct F as [F|F]; try contradiction; apply pair_equal_spec in F; destruct F as [F G];
      try (apply lit_inj in F; discriminate F). apply (f_equal (fun j => match j with JStr s => s | _ => [] end)) in G.
    apply lit_inj in G. discriminate G.
  - now left.
Qed.
Print Assumptions C120_value_types_refuted.

(** What is learnt: the crate looks for [valueType] instead. *)
Theorem C120_claims : forall s m c h n x, json_text s (JObj m) -> NoDup (map fst m) -> described_members m ->
  cfp_from_json s = Some c -> claims_in c = Some h -> In (n, x) h ->
  exists d, claim_listed m n d
    /\ (forall b, cs_mandatory x = Some b <-> In (lit "mandatory", JBool b) d)
    /\ (forall t, cs_value_type x = Some t <-> In (lit "valueType", JStr t) d)
    /\ displayed d (cs_display x).
Proof. exact claims_learnt. Qed.
Print Assumptions C120_claims.

(** No claim or namespace is left out. *)
Theorem C120_no_claim_lost : forall s m c n d, json_text s (JObj m) -> NoDup (map fst m) -> described_members m ->
  cfp_from_json s = Some c -> claim_listed m n d -> exists h x, claims_in c = Some h /\ In (n, x) h.
Proof. exact claims_listed_read. Qed.
Print Assumptions C120_no_claim_lost.

Theorem C120_value_types_lost : forall s m c h n x, json_text s (JObj m) -> NoDup (map fst m) -> described_members m ->
  (forall n d, claim_listed m n d -> ~ present d "valueType") ->
  cfp_from_json s = Some c -> claims_in c = Some h -> In (n, x) h -> cs_value_type x = None.
Proof. exact value_types_lost. Qed.
Print Assumptions C120_value_types_lost.

Theorem C120_mdoc_claims_lost : forall s m c h n x, json_text s (JObj m) -> NoDup (map fst m) -> described_members m ->
  format_is m "mso_mdoc" -> cfp_from_json s = Some c -> claims_in c = Some h -> In (n, x) h ->
  x = {| cs_mandatory := None; cs_value_type := None; cs_display := None |}.
Proof. exact namespaces_lost. Qed.
Print Assumptions C120_mdoc_claims_lost.

Definition dr_license : list (str * json) :=
  [(lit "format", JStr (lit "mso_mdoc")); (lit "doctype", JStr (lit "org.iso.18013.5.1.mDL"));
   (lit "claims", JObj [(lit "org.iso.18013.5.1", JObj [(lit "given_name", JObj [(lit "mandatory", JBool true)])])])].
Example C120_mdoc_case : json_text (print (JObj dr_license)) (JObj dr_license) /\ NoDup (map fst dr_license)
  /\ described_members dr_license /\ format_is dr_license "mso_mdoc"
  /\ cfp_from_json (print (JObj dr_license)) = Some (MsoMdoc (lit "org.iso.18013.5.1.mDL")
       (Some [(lit "org.iso.18013.5.1", {| cs_mandatory := None; cs_value_type := None; cs_display := None |})]) None).
Proof.
  split; [document|]. split; [unfold dr_license; names_differ|]. split; [|split; [now left|vm_compute; reflexivity]].
  apply dm_mdoc; unfold dr_license; holds.
  eexists. split; [reflexivity|]. split; [names_differ|].
  intros k j [E|[]]. apply pair_equal_spec in E. destruct E as [_ <-].
  eexists. split; [reflexivity|]. split; [names_differ|].
  intros k' j [E|[]]. apply pair_equal_spec in E. destruct E as [_ <-]. constructor; [names_differ|].
  intros k'' j [E|[]]. apply pair_equal_spec in E. destruct E as [<- <-]. apply cm_mandatory. holds.
Qed.

(** * C121: false; a token response is refused unless the type is spelt [Bearer] *)
Definition C121_claim : Prop := forall s v, json_text s v -> draft_token_response v ->
  exists x, token_success_from_json s = Some x.
Definition dr_token (type : string) : list (str * json) :=
  [(lit "access_token", JStr (lit "eyJhbGciOiJSUzI1NiIsInR5cCI6Ikp..sHQ")); (lit "token_type", JStr (lit type));
   (lit "expires_in", JInt 86400); (lit "c_nonce", JStr (lit "tZignsnFbp")); (lit "c_nonce_expires_in", JInt 86400)].
Lemma dr_token_draft type : ascii_ci (lit type) (lit "bearer") -> draft_token_response (JObj (dr_token type)).
Proof. intros H. unfold dr_token. holds. eexists. split; [reflexivity|exact H]. Qed.
Lemma ascii_ci_refl s : ascii_ci s s.
Proof. induction s; constructor; [now left|assumption]. Qed.
Example dr_spellings : ascii_ci (lit "Bearer") (lit "bearer").
Proof. constructor; [right; left; vm_compute; repeat split; discriminate|apply ascii_ci_refl]. Qed.
Theorem C121_token_responses_refuted : ~ C121_claim.
Proof.
  intros H. specialize (H (print (JObj (dr_token "bearer"))) (JObj (dr_token "bearer"))). destruct H as [x H];
    [document|apply dr_token_draft, ascii_ci_refl|vm_compute in H; discriminate H].
Qed.
Print Assumptions C121_token_responses_refuted.

Theorem C121_token_responses : forall s m, json_text s (JObj m) -> draft_token_response (JObj m) ->
  ((exists x, token_success_from_json s = Some x) <->
   In (lit "token_type", JStr (lit "Bearer")) m
   /\ counts_fit m ["expires_in"; "c_nonce_expires_in"; "interval"]%string).
Proof. exact draft_tokens. Qed.
Print Assumptions C121_token_responses.

Example C121_case : draft_token_response (JObj (dr_token "Bearer"))
  /\ json_text (print (JObj (dr_token "Bearer"))) (JObj (dr_token "Bearer"))
  /\ exists x, token_success_from_json (print (JObj (dr_token "Bearer"))) = Some x.
Proof. split; [apply dr_token_draft, dr_spellings|]. split; [document|]. eexists. vm_compute. reflexivity. Qed.

(** * C122: false; a response with a credential is refused *)
Definition C122_claim : Prop := forall s v, json_text s v -> draft_credential_response v ->
  exists x, credential_success_from_json s = Some x.
Definition dr_response (member : string) (v : json) : list (str * json) :=
  [(lit "format", JStr (lit "jwt_vc_json")); (lit member, v); (lit "c_nonce", JStr (lit "fGFF7UkhLa"));
   (lit "c_nonce_expires_in", JInt 86400)].
Lemma dr_response_draft : draft_credential_response (JObj (dr_response "credential" (JStr (lit "LUpixVCWJk0eOt4CXQe1NXK"))))
  /\ draft_credential_response (JObj (dr_response "acceptance_token" (JStr (lit "8xLOxBtZp8")))).
Proof. unfold dr_response. split; holds. Qed.
Theorem C122_credential_responses_refuted : ~ C122_claim.
Proof.
  intros H. specialize (H (print (JObj (dr_response "credential" (JStr (lit "LUpixVCWJk0eOt4CXQe1NXK")))))
    (JObj (dr_response "credential" (JStr (lit "LUpixVCWJk0eOt4CXQe1NXK"))))).
  destruct H as [x Hx]; [document|exact (proj1 dr_response_draft)|]. vm_compute in Hx. discriminate Hx.
Qed.
Print Assumptions C122_credential_responses_refuted.

Theorem C122_credential_responses : forall s m, json_text s (JObj m) -> draft_credential_response (JObj m) ->
  ((exists x, credential_success_from_json s = Some x) <->
   ~ present m "credential" /\ counts_fit m ["c_nonce_expires_in"]%string).
Proof. exact draft_credentials. Qed.
Print Assumptions C122_credential_responses.

Example C122_case : json_text (print (JObj (dr_response "acceptance_token" (JStr (lit "8xLOxBtZp8")))))
    (JObj (dr_response "acceptance_token" (JStr (lit "8xLOxBtZp8"))))
  /\ exists x, credential_success_from_json (print (JObj (dr_response "acceptance_token" (JStr (lit "8xLOxBtZp8"))))) = Some x.
Proof. split; [document|]. eexists. vm_compute. reflexivity. Qed.

(** * C123: false; a key that is given as a JWK or by certificates is dropped *)
Definition C123_claim : Prop := forall s v h, json_text s v -> draft_header v ->
  header_from_json s = Some h -> h_additional h <> None.
Definition dr_header (member : string) (v : json) : list (str * json) :=
  [(lit "typ", JStr (lit "openid4vci-proof+jwt")); (lit "alg", JStr (lit "ES256")); (lit member, v)].
Definition dr_key : json := JObj [(lit "kty", JStr (lit "EC")); (lit "crv", JStr (lit "P-256"))].
Lemma dr_header_draft : draft_header (JObj (dr_header "jwk" dr_key))
  /\ draft_header (JObj (dr_header "kid" (JStr (lit "did:example:ebfeb1f#keys-1")))).
Proof.
  unfold dr_header, dr_key. split; holds.
  - eapply dk_jwk; [cbn [In]; eauto|holds|holds].
  - eapply dk_kid; [cbn [In]; eauto|holds].
Qed.
Theorem C123_keys_refuted : ~ C123_claim.
Proof.
  intros H. refine (H (print (JObj (dr_header "jwk" dr_key))) (JObj (dr_header "jwk" dr_key))
    {| h_typ := lit "openid4vci-proof+jwt"; h_alg := ES256; h_additional := None |} _ (proj1 dr_header_draft) _ eq_refl).
  - document.
  - vm_compute. reflexivity.
Qed.
Print Assumptions C123_keys_refuted.

(** The header is read all the same; its key is the [kid] or none at all. *)
Theorem C123_keys : forall s m, json_text s (JObj m) -> draft_header (JObj m) ->
  exists h, header_from_json s = Some h
    /\ (forall k, h_additional h = Some (KeyId k) <-> In (lit "kid", JStr k) m)
    /\ (~ present m "kid" -> h_additional h = None).
Proof. exact draft_headers. Qed.
Print Assumptions C123_keys.

Example C123_case : header_from_json (print (JObj (dr_header "kid" (JStr (lit "did:example:ebfeb1f#keys-1")))))
  = Some {| h_typ := lit "openid4vci-proof+jwt"; h_alg := ES256; h_additional := Some (KeyId (lit "did:example:ebfeb1f#keys-1")) |}.
Proof. vm_compute. reflexivity. Qed.
