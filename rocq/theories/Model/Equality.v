(** The derived [PartialEq] implementations ([==]). Paths are relative to
    /repo/crates/openid4vci/src. Derived equality compares variants, then fields
    in order; the functions below are written out the same way. No proofs. *)
From Verif Require Import Model.Prelude Model.Json Model.Types.

(** [Option<T>], [Vec<T>] and [HashMap<String, V>] of the standard library. Two maps
    are equal if they have as many entries and every key of the first is found in
    the second with an equal value. *)
Definition opt_eqb {A : Type} (eqb : A -> A -> bool) (a b : option A) : bool :=
  match a, b with Some x, Some y => eqb x y | None, None => true | _, _ => false end.
Definition list_eqb {A : Type} (eqb : A -> A -> bool) : list A -> list A -> bool :=
  fix go a b := match a, b with
    | [], [] => true
    | x :: a', y :: b' => eqb x y && go a' b'
    | _, _ => false
    end.
Definition hmap_eqb {V : Type} (eqb : V -> V -> bool) (a b : hmap V) : bool :=
  Nat.eqb (List.length a) (List.length b)
  && forallb (fun kv => match assoc (fst kv) b with Some v => eqb (snd kv) v | None => false end) a.

(** [f64 ==] on the numbers that two texts are written for. Different numbers have
    different texts, and equal numbers the same text, except that the two zeros are
    equal ([-0.0 == 0.0]). *)
Definition zero_text (s : str) : bool := str_eqb s (lit "0.0") || str_eqb s (lit "-0.0").
Definition float_eqb (s t : str) : bool := str_eqb s t || (zero_text s && zero_text t).

(** [serde_json::Value] (serde_json 1.0.96): an integer never equals an [f64];
    objects are B-tree maps, compared member by member in key order. *)
Fixpoint json_eqb (a b : json) : bool :=
  match a, b with
  | JNull, JNull => true
  | JBool x, JBool y => Bool.eqb x y
  | JInt x, JInt y => Z.eqb x y
  | JFloat s, JFloat t => float_eqb s t
  | JStr s, JStr t => str_eqb s t
  | JArr l, JArr l' => list_eqb json_eqb l l'
  | JObj m, JObj m' => list_eqb (fun kv kv' => str_eqb (fst kv) (fst kv') && json_eqb (snd kv) (snd kv')) m m'
  | _, _ => false
  end.

(** types/credential.rs:11-19 [LinkedDataContext]. *)
Definition ld_context_eqb (a b : ld_context) : bool :=
  match a, b with
  | LDString s, LDString t => str_eqb s t
  | LDMap m, LDMap m' => hmap_eqb json_eqb m m'
  | _, _ => false
  end.

(** types/credential.rs:146-157 [CredentialSubjectDisplay]. *)
Definition subject_display_eqb (a b : subject_display) : bool :=
  opt_eqb str_eqb (sd_name a) (sd_name b) && opt_eqb str_eqb (sd_locale a) (sd_locale b).

(** types/credential.rs:124-143 [CredentialSubject]. *)
Definition subject_eqb (a b : credential_subject) : bool :=
  opt_eqb Bool.eqb (cs_mandatory a) (cs_mandatory b)
  && opt_eqb str_eqb (cs_value_type a) (cs_value_type b)
  && opt_eqb (list_eqb subject_display_eqb) (cs_display a) (cs_display b).

(** types/credential.rs:23-119 [CredentialFormatProfile]. *)
Definition cfp_eqb (a b : cfp) : bool :=
  match a, b with
  | JwtVcJson ty su od, JwtVcJson ty' su' od' =>
      list_eqb str_eqb ty ty' && opt_eqb (hmap_eqb subject_eqb) su su' && opt_eqb (list_eqb str_eqb) od od'
  | JwtVcJsonLd ty su od, JwtVcJsonLd ty' su' od' =>
      list_eqb str_eqb ty ty' && opt_eqb (hmap_eqb subject_eqb) su su' && opt_eqb (list_eqb str_eqb) od od'
  | LdpVc cx ty su od, LdpVc cx' ty' su' od' =>
      list_eqb ld_context_eqb cx cx' && list_eqb str_eqb ty ty'
      && opt_eqb (hmap_eqb subject_eqb) su su' && opt_eqb (list_eqb str_eqb) od od'
  | MsoMdoc dt cl od, MsoMdoc dt' cl' od' =>
      str_eqb dt dt' && opt_eqb (hmap_eqb subject_eqb) cl cl' && opt_eqb (list_eqb str_eqb) od od'
  | _, _ => false
  end.

(** types/credential.rs:168-175 [CredentialFormatProfileOrEncoded]. *)
Definition cfp_or_encoded_eqb (a b : cfp_or_encoded) : bool :=
  match a, b with
  | CFP c, CFP c' => cfp_eqb c c'
  | Encoded s, Encoded t => str_eqb s t
  | _, _ => false
  end.

(** types/credential_issuer_metadata.rs:119-126 [DisplayLogo]. *)
Definition logo_eqb (a b : display_logo) : bool :=
  opt_eqb str_eqb (dl_url a) (dl_url b) && opt_eqb str_eqb (dl_alt_text a) (dl_alt_text b).

(** types/credential_issuer_metadata.rs:91-115 [DisplayProperties]. *)
Definition display_eqb (a b : display_properties) : bool :=
  str_eqb (dp_name a) (dp_name b) && opt_eqb str_eqb (dp_locale a) (dp_locale b)
  && opt_eqb logo_eqb (dp_logo a) (dp_logo b) && opt_eqb str_eqb (dp_description a) (dp_description b)
  && opt_eqb str_eqb (dp_background_color a) (dp_background_color b)
  && opt_eqb str_eqb (dp_text_color a) (dp_text_color b).

(** types/credential_issuer_metadata.rs:45-87 [CredentialSupported]. *)
Definition supported_eqb (a b : credential_supported) : bool :=
  cfp_eqb (sup_format a) (sup_format b) && opt_eqb str_eqb (sup_id a) (sup_id b)
  && opt_eqb (list_eqb str_eqb) (sup_binding_methods a) (sup_binding_methods b)
  && opt_eqb (list_eqb str_eqb) (sup_suites a) (sup_suites b)
  && opt_eqb (list_eqb display_eqb) (sup_display a) (sup_display b).

(** types/token_type.rs:6-10 [AccessTokenType]. *)
Definition token_type_eqb (a b : token_type) : bool := match a, b with Bearer, Bearer => true end.

(** jwt/mod.rs:13-64 [ProofJwtAlgorithm]. *)
Definition alg_eqb (a b : proof_alg) : bool :=
  match a, b with
  | HS256, HS256 | HS384, HS384 | HS512, HS512 | RS256, RS256 | RS384, RS384 | RS512, RS512
  | ES256, ES256 | ES384, ES384 | ES512, ES512 | PS256, PS256 | PS384, PS384 | PS512, PS512
  | EdDSA, EdDSA | ES256K, ES256K | ECDHES, ECDHES | AlgNone, AlgNone => true
  | _, _ => false
  end.

(** jwt/mod.rs:475-492 [ProofJwtAdditionalHeader]. *)
Definition additional_header_eqb (a b : additional_header) : bool :=
  match a, b with
  | KeyId x, KeyId y | Jwk x, Jwk y | X5c x, X5c y => str_eqb x y
  | _, _ => false
  end.

(** access_token/mod.rs:79-99 [GrantType]. *)
Definition grant_type_eqb (a b : grant_type) : bool :=
  match a, b with
  | GAuthorizedCode, GAuthorizedCode => true
  | GPreAuthorized c p, GPreAuthorized c' p' => str_eqb c c' && opt_eqb N.eqb p p'
  | _, _ => false
  end.

(** access_token/mod.rs:125-129 [AccessTokenRequest]. *)
Definition token_request_eqb (a b : token_request) : bool := grant_type_eqb (tr_grant_type a) (tr_grant_type b).

(** access_token/mod.rs:140-144 [EvaluateAccessTokenRequestOptions]. *)
Definition token_options_eqb (a b : token_options) : bool :=
  opt_eqb N.eqb (to_expected_user_pin a) (to_expected_user_pin b).

(** access_token/mod.rs:31-64 [AccessTokenSuccessResponse]. *)
Definition token_success_eqb (a b : token_success) : bool :=
  str_eqb (ts_access_token a) (ts_access_token b) && token_type_eqb (ts_token_type a) (ts_token_type b)
  && opt_eqb N.eqb (ts_expires_in a) (ts_expires_in b) && opt_eqb str_eqb (ts_scope a) (ts_scope b)
  && opt_eqb str_eqb (ts_c_nonce a) (ts_c_nonce b)
  && opt_eqb N.eqb (ts_c_nonce_expires_in a) (ts_c_nonce_expires_in b)
  && opt_eqb Bool.eqb (ts_authorization_pending a) (ts_authorization_pending b)
  && opt_eqb N.eqb (ts_interval a) (ts_interval b).

(** access_token/error_response.rs:8-63 [AccessTokenErrorCode]. *)
Definition token_error_code_eqb (a b : token_error_code) : bool :=
  match a, b with
  | TInvalidRequest, TInvalidRequest | TInvalidGrant, TInvalidGrant | TInvalidClient, TInvalidClient
  | TAccessDenied, TAccessDenied | TUnsupportedResponseType, TUnsupportedResponseType
  | TInvalidScope, TInvalidScope | TServerError, TServerError
  | TTemporarilyUnavailable, TTemporarilyUnavailable => true
  | _, _ => false
  end.

(** credential_issuer/error_code.rs:6-24 [CredentialIssuerErrorCode]. *)
Definition issuer_error_code_eqb (a b : issuer_error_code) : bool :=
  match a, b with
  | IInvalidRequest, IInvalidRequest | IInvalidToken, IInvalidToken
  | IUnsupportedCredentialType, IUnsupportedCredentialType
  | IUnsupportedCredentialFormat, IUnsupportedCredentialFormat
  | IInvalidOrMissingProof, IInvalidOrMissingProof => true
  | _, _ => false
  end.

(** credential_issuer/mod.rs:34-42 [CredentialOrId]. *)
Definition credential_or_id_eqb (a b : credential_or_id) : bool :=
  match a, b with
  | CredentialId s, CredentialId t => str_eqb s t
  | Credential c, Credential c' => cfp_eqb c c'
  | _, _ => false
  end.

(** credential_issuer/mod.rs:141-145 [AuthorizedCodeFlow]. *)
Definition auth_flow_eqb (a b : auth_flow) : bool := opt_eqb str_eqb (af_issuer_state a) (af_issuer_state b).

(** credential_issuer/mod.rs:148-166 [PreAuthorizedCodeFlow]. *)
Definition preauth_flow_eqb (a b : preauth_flow) : bool :=
  str_eqb (pf_code a) (pf_code b) && opt_eqb Bool.eqb (pf_user_pin_required a) (pf_user_pin_required b).

(** credential_issuer/mod.rs:266-280 [CredentialOfferGrants]. *)
Definition grants_eqb (a b : offer_grants) : bool :=
  opt_eqb auth_flow_eqb (og_auth a) (og_auth b) && opt_eqb preauth_flow_eqb (og_pre a) (og_pre b).

(** credential_issuer/mod.rs:170-194 [CredentialOffer] and 78-79 [CredentialOrIds]. *)
Definition offer_eqb (a b : credential_offer) : bool :=
  str_eqb (co_credential_issuer a) (co_credential_issuer b)
  && list_eqb credential_or_id_eqb (co_credentials a) (co_credentials b)
  && grants_eqb (co_grants a) (co_grants b).

(** credential_issuer/mod.rs:354-365 [CNonce]. *)
Definition c_nonce_eqb (a b : c_nonce) : bool :=
  str_eqb (cn_c_nonce a) (cn_c_nonce b) && opt_eqb N.eqb (cn_expires_in a) (cn_expires_in b).

(** credential_issuer/mod.rs:394-404 [CNonceOptions]. *)
Definition c_nonce_options_eqb (a b : c_nonce_options) : bool :=
  N.eqb (cno_expires_in a) (cno_expires_in b) && str_eqb (cno_expected a) (cno_expected b)
  && Z.eqb (cno_created_at a) (cno_created_at b).

(** credential_issuer/mod.rs:368-391 [EvaluateCredentialRequestOptions]. *)
Definition eval_options_eqb (a b : eval_options) : bool :=
  opt_eqb c_nonce_options_eqb (eo_c_nonce a) (eo_c_nonce b) && opt_eqb str_eqb (eo_client_id a) (eo_client_id b).

(** credential_issuer/mod.rs:308-322 [ProofOfPossession]. *)
Definition pop_eqb (a b : proof_of_possession) : bool :=
  alg_eqb (pop_algorithm a) (pop_algorithm b) && str_eqb (pop_public_key a) (pop_public_key b)
  && str_eqb (pop_message a) (pop_message b) && str_eqb (pop_signature a) (pop_signature b).

(** credential_issuer/mod.rs:295-305 [CredentialIssuerEvaluateRequestResponse]. *)
Definition eval_response_eqb (a b : eval_response) : bool :=
  opt_eqb pop_eqb (er_pop a) (er_pop b) && opt_eqb str_eqb (er_subject_id a) (er_subject_id b)
  && cfp_eqb (er_credential a) (er_credential b).

(** credential_issuer/mod.rs:325-350 [CredentialSuccessResponse]. *)
Definition credential_success_eqb (a b : credential_success) : bool :=
  str_eqb (cs_format a) (cs_format b) && opt_eqb cfp_or_encoded_eqb (cs_credential a) (cs_credential b)
  && opt_eqb str_eqb (cs_acceptance_token a) (cs_acceptance_token b)
  && opt_eqb str_eqb (cs_c_nonce a) (cs_c_nonce b)
  && opt_eqb N.eqb (cs_c_nonce_expires_in a) (cs_c_nonce_expires_in b).

(** error_response.rs:4-23 [ErrorResponse<T>]. *)
Definition error_response_eqb {T : Type} (eqb : T -> T -> bool) (a b : error_response T) : bool :=
  eqb (resp_error a) (resp_error b) && opt_eqb str_eqb (resp_description a) (resp_description b)
  && opt_eqb str_eqb (resp_uri a) (resp_uri b) && opt_eqb json_eqb (resp_details a) (resp_details b).

(** validate.rs:5-15 [ValidationError]. *)
Definition validation_error_eqb (a b : validation_error) : bool :=
  match a, b with VAny s, VAny t => str_eqb s t end.

(** jwt/error.rs:8-155 [JwtError]. *)
Definition jwt_error_eqb (a b : jwt_error) : bool :=
  match a, b with
  | JValidationError e, JValidationError e' => validation_error_eqb e e'
  | JNotYetValid v n, JNotYetValid v' n' => Z.eqb v v' && Z.eqb n n'
  | JNotValidAnymore v n, JNotValidAnymore v' n' => Z.eqb v v' && Z.eqb n n'
  | JIssuerMismatch x y, JIssuerMismatch x' y' => opt_eqb str_eqb x x' && opt_eqb str_eqb y y'
  | JNoKeyFoundInProof, JNoKeyFoundInProof => true
  | JNoDidDocumentProvidedForKidAsDid, JNoDidDocumentProvidedForKidAsDid => true
  | JUnableToTransformIntoDid k m, JUnableToTransformIntoDid k' m' => str_eqb k k' && str_eqb m m'
  | JUnableToResolveDidInDidDocument k m, JUnableToResolveDidInDidDocument k' m' => str_eqb k k' && str_eqb m m'
  | JUnableToMapVerificationMethodToJwk m, JUnableToMapVerificationMethodToJwk m' => str_eqb m m'
  | JUnableToTransformIntoJoseItem o m, JUnableToTransformIntoJoseItem o' m' => str_eqb o o' && str_eqb m m'
  | JUnsupportedAlgorithm s, JUnsupportedAlgorithm s' => str_eqb s s'
  | JEdDSAHasNoXCoordinate, JEdDSAHasNoXCoordinate => true
  | JESXXXHasNoXOrYCoordinate s x y, JESXXXHasNoXOrYCoordinate s' x' y' =>
      str_eqb s s' && opt_eqb str_eqb x x' && opt_eqb str_eqb y y'
  | JSignatureNotInJwt s, JSignatureNotInJwt s' => str_eqb s s'
  | JUnsupportedKeyTypeInJwtHeader k t, JUnsupportedKeyTypeInJwtHeader k' t' => str_eqb k k' && str_eqb t t'
  | JNonceMismatch x y, JNonceMismatch x' y' => opt_eqb str_eqb x x' && str_eqb y y'
  | JAudienceMismatch x y, JAudienceMismatch x' y' => str_eqb x x' && str_eqb y y'
  | _, _ => false
  end.

(** credential_issuer/error.rs:13-94 [CredentialIssuerError]. *)
Definition issuer_error_eqb (a b : issuer_error) : bool :=
  match a, b with
  | IValidationError e, IValidationError e' => validation_error_eqb e e'
  | IJwtError e, IJwtError e' => jwt_error_eqb e e'
  | IAuthorizedFlowNotSupported, IAuthorizedFlowNotSupported => true
  | ICredentialIdNotInIssuerMetadata s, ICredentialIdNotInIssuerMetadata s' => str_eqb s s'
  | IInvalidCredentialOfferEncoding s, IInvalidCredentialOfferEncoding s' => str_eqb s s'
  | IInvalidRequestedCredential c l, IInvalidRequestedCredential c' l' => cfp_eqb c c' && list_eqb cfp_eqb l l'
  | IExpiredCNonce n e, IExpiredCNonce n' e' => Z.eqb n n' && opt_eqb Z.eqb e e'
  | ICredentialAndAcceptanceTokenSupplied, ICredentialAndAcceptanceTokenSupplied => true
  | IAuthorizationServerMetadataNotSupported, IAuthorizationServerMetadataNotSupported => true
  | ICredentialOfferMustBeSupplied, ICredentialOfferMustBeSupplied => true
  | IEvaluteCredentialRequestOptionsNotSupplied s, IEvaluteCredentialRequestOptionsNotSupplied s' => str_eqb s s'
  | ICNonceIsExpired n e, ICNonceIsExpired n' e' => Z.eqb n n' && Z.eqb e e'
  | INoProofInCredentialRequest, INoProofInCredentialRequest => true
  | _, _ => false
  end.

(** access_token/error.rs:12-70 [AccessTokenError]. *)
Fixpoint token_error_eqb (a b : token_error) : bool :=
  match a, b with
  | TValidationError e, TValidationError e' => validation_error_eqb e e'
  | TInvalidGrantType s l, TInvalidGrantType s' l' => str_eqb s s' && list_eqb str_eqb l l'
  | TAuthorizedFlowNotSupported, TAuthorizedFlowNotSupported => true
  | TNoFlowSupportedInCredentialOffer, TNoFlowSupportedInCredentialOffer => true
  | TInvalidPreAuthorizedCodeFlowValues p c, TInvalidPreAuthorizedCodeFlowValues p' c' =>
      Bool.eqb p p' && Bool.eqb c c'
  | TInvalidAuthorizedAndPreAuthorizedCodeFlow x y, TInvalidAuthorizedAndPreAuthorizedCodeFlow x' y' =>
      token_error_eqb x x' && token_error_eqb y y'
  | TOptionsAreRequiredForEvaluation s, TOptionsAreRequiredForEvaluation s' => str_eqb s s'
  | TUserPinMismatch, TUserPinMismatch => true
  | TCredentialOfferMustBeSupplied, TCredentialOfferMustBeSupplied => true
  | _, _ => false
  end.

(** return_object.rs:4-21 [ReturnObject<T, E, W>]. *)
Definition return_object_eqb {T E W : Type} (t : T -> T -> bool) (e : E -> E -> bool) (w : W -> W -> bool)
    (a b : return_object T E W) : bool :=
  opt_eqb t (ro_info a) (ro_info b) && opt_eqb e (ro_error a) (ro_error b)
  && opt_eqb (list_eqb w) (ro_warnings a) (ro_warnings b).
