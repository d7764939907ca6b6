(** Data types of the crate. Paths are relative to
    /repo/crates/openid4vci/src. *)
From Verif Require Import Model.Prelude Model.Json.

(** [chrono::DateTime<Utc>]: nanoseconds since the Unix epoch. Leap seconds
    (chrono's nanosecond field above 10^9) are not modelled. *)
Definition instant : Type := Z.

(** Range of [DateTime<Utc>] in chrono 0.4.24: years -262144 to 262143. *)
Definition instant_min : Z := (-8334632851200 * 1000000000)%Z.
Definition instant_max : Z := (8210298412799 * 1000000000 + 999999999)%Z.
Definition in_instant_range (t : instant) : bool := ((instant_min <=? t) && (t <=? instant_max))%Z.

(** [DateTime + Duration::seconds(s)], which panics on overflow
    (credential_issuer/mod.rs:523-524). *)
Definition add_seconds {E : Type} (t : instant) (s : N) : res E instant :=
  let r := (t + Z.of_N s * 1000000000)%Z in
  if in_instant_range r then Ok r else Panic.

(* ---------------- types/credential.rs ---------------- *)

(** types/credential.rs:13-19 [LinkedDataContext]. *)
Inductive ld_context : Type :=
| LDString (s : str)
| LDMap (m : hmap json).

(** types/credential.rs:147-157 [CredentialSubjectDisplay]. *)
Record subject_display : Type := { sd_name : option str; sd_locale : option str }.

(** types/credential.rs:126-143 [CredentialSubject]. *)
Record credential_subject : Type := {
  cs_mandatory : option bool;
  cs_value_type : option str;
  cs_display : option (list subject_display) }.

(** types/credential.rs:25-119 [CredentialFormatProfile]. *)
Inductive cfp : Type :=
| JwtVcJson (types : list str) (subject : option (hmap credential_subject)) (order : option (list str))
| JwtVcJsonLd (types : list str) (subject : option (hmap credential_subject)) (order : option (list str))
| LdpVc (context : list ld_context) (types : list str)
        (subject : option (hmap credential_subject)) (order : option (list str))
| MsoMdoc (doctype : str) (claims : option (hmap credential_subject)) (order : option (list str)).

(** types/credential.rs:169-175 [CredentialFormatProfileOrEncoded]. *)
Inductive cfp_or_encoded : Type :=
| CFP (c : cfp)
| Encoded (s : str).

(* ---------------- types/credential_issuer_metadata.rs ---------------- *)

(** types/credential_issuer_metadata.rs:120-126 [DisplayLogo]. *)
Record display_logo : Type := { dl_url : option str; dl_alt_text : option str }.

(** types/credential_issuer_metadata.rs:92-115 [DisplayProperties]. *)
Record display_properties : Type := {
  dp_name : str; dp_locale : option str; dp_logo : option display_logo;
  dp_description : option str; dp_background_color : option str; dp_text_color : option str }.

(** types/credential_issuer_metadata.rs:46-87 [CredentialSupported]. *)
Record credential_supported : Type := {
  sup_format : cfp;
  sup_id : option str;
  sup_binding_methods : option (list str);
  sup_suites : option (list str);
  sup_display : option (list display_properties) }.

(** types/credential_issuer_metadata.rs:13-41 [CredentialIssuerMetadata]. *)
Record issuer_metadata : Type := {
  im_credential_issuer : str;
  im_authorization_server : option str;
  im_credential_endpoint : str;
  im_batch_credential_endpoint : option str;
  im_credentials_supported : list credential_supported;
  im_additional_fields : option (hmap json) }.

(* ---------------- types/credential_request.rs ---------------- *)

(** types/credential_request.rs:40-48 [CredentialRequestProof]. *)
Record request_proof : Type := { rp_proof_type : str; rp_jwt : str }.

(** types/credential_request.rs:18-35 [CredentialRequest]. *)
Record credential_request : Type := { cr_format : cfp; cr_proof : option request_proof }.

(* ---------------- types/authorization_server_metadata.rs ---------------- *)

(** types/authorization_server_metadata.rs:7 [AuthorizationServerMetadata {}]. *)
Definition auth_server_metadata : Type := unit.

(* ---------------- types/token_type.rs ---------------- *)

(** types/token_type.rs:7-10 [AccessTokenType]. *)
Inductive token_type : Type := Bearer.

(* ---------------- jwt/mod.rs ---------------- *)

(** jwt/mod.rs:14-64 [ProofJwtAlgorithm]. *)
Inductive proof_alg : Type :=
| HS256 | HS384 | HS512 | RS256 | RS384 | RS512 | ES256 | ES384 | ES512
| PS256 | PS384 | PS512 | EdDSA | ES256K | ECDHES | AlgNone.

(** jwt/mod.rs:476-492 [ProofJwtAdditionalHeader]. *)
Inductive additional_header : Type :=
| KeyId (kid : str)
| Jwk (jwk : str)
| X5c (x5c : str).

(** jwt/mod.rs:319-332 [ProofJwtHeader]. *)
Record jwt_header : Type := {
  h_typ : str; h_alg : proof_alg; h_additional : option additional_header }.

(** jwt/mod.rs:497-538 [ProofJwtBody]. *)
Record jwt_body : Type := {
  b_iss : option str; b_aud : str; b_sub : option str; b_iat : instant;
  b_nonce : str; b_nbf : option instant; b_exp : option instant }.

(** jwt/mod.rs:69-78 [ProofJwt]. *)
Record proof_jwt : Type := { j_header : jwt_header; j_body : jwt_body; j_signature : option str }.

(* ---------------- access_token/mod.rs ---------------- *)

(** access_token/mod.rs:81-99 [GrantType]; a PIN is a [u64]. *)
Inductive grant_type : Type :=
| GAuthorizedCode
| GPreAuthorized (code : str) (user_pin : option N).

(** access_token/mod.rs:126-129 [AccessTokenRequest]. *)
Record token_request : Type := { tr_grant_type : grant_type }.

(** access_token/mod.rs:141-144 [EvaluateAccessTokenRequestOptions]. *)
Record token_options : Type := { to_expected_user_pin : option N }.

(** access_token/mod.rs:32-64 [AccessTokenSuccessResponse]; integers are [u32]. *)
Record token_success : Type := {
  ts_access_token : str; ts_token_type : token_type; ts_expires_in : option N;
  ts_scope : option str; ts_c_nonce : option str; ts_c_nonce_expires_in : option N;
  ts_authorization_pending : option bool; ts_interval : option N }.

(** access_token/error_response.rs:9-63 [AccessTokenErrorCode]. *)
Inductive token_error_code : Type :=
| TInvalidRequest | TInvalidGrant | TInvalidClient | TAccessDenied
| TUnsupportedResponseType | TInvalidScope | TServerError | TTemporarilyUnavailable.

(* ---------------- credential_issuer/mod.rs ---------------- *)

(** credential_issuer/mod.rs:36-42 [CredentialOrId]. *)
Inductive credential_or_id : Type :=
| CredentialId (id : str)
| Credential (c : cfp).

(** credential_issuer/mod.rs:142-145 [AuthorizedCodeFlow]. *)
Record auth_flow : Type := { af_issuer_state : option str }.

(** credential_issuer/mod.rs:149-166 [PreAuthorizedCodeFlow]. *)
Record preauth_flow : Type := { pf_code : str; pf_user_pin_required : option bool }.

(** credential_issuer/mod.rs:267-280 [CredentialOfferGrants]. *)
Record offer_grants : Type := { og_auth : option auth_flow; og_pre : option preauth_flow }.

(** credential_issuer/mod.rs:171-194 [CredentialOffer]; [CredentialOrIds]
    (lines 79-79) is its list. *)
Record credential_offer : Type := {
  co_credential_issuer : str; co_credentials : list credential_or_id; co_grants : offer_grants }.

(** credential_issuer/mod.rs:251-257 [CredentialOrAcceptanceToken]. *)
Inductive credential_or_token : Type :=
| CTCredential (c : cfp)
| CTAcceptanceToken (t : str).

(** credential_issuer/mod.rs:355-365 [CNonce]. *)
Record c_nonce : Type := { cn_c_nonce : str; cn_expires_in : option N }.

(** credential_issuer/mod.rs:395-404 [CNonceOptions]; the lifetime is a [u32]. *)
Record c_nonce_options : Type := {
  cno_expires_in : N; cno_expected : str; cno_created_at : instant }.

(** credential_issuer/mod.rs:369-391 [EvaluateCredentialRequestOptions]. *)
Record eval_options : Type := { eo_c_nonce : option c_nonce_options; eo_client_id : option str }.

(** credential_issuer/mod.rs:309-322 [ProofOfPossession]. *)
Record proof_of_possession : Type := {
  pop_algorithm : proof_alg; pop_public_key : str; pop_message : str; pop_signature : str }.

(** credential_issuer/mod.rs:296-305 [CredentialIssuerEvaluateRequestResponse]. *)
Record eval_response : Type := {
  er_pop : option proof_of_possession; er_subject_id : option str; er_credential : cfp }.

(** credential_issuer/mod.rs:326-350 [CredentialSuccessResponse]. *)
Record credential_success : Type := {
  cs_format : str; cs_credential : option cfp_or_encoded; cs_acceptance_token : option str;
  cs_c_nonce : option str; cs_c_nonce_expires_in : option N }.

(** credential_issuer/error_code.rs:7-24 [CredentialIssuerErrorCode]. *)
Inductive issuer_error_code : Type :=
| IInvalidRequest | IInvalidToken | IUnsupportedCredentialType
| IUnsupportedCredentialFormat | IInvalidOrMissingProof.

(** error_response.rs:5-23 [ErrorResponse<T>]; the details are any
    [serde_json::Value]. *)
Record error_response (T : Type) : Type := {
  resp_error : T; resp_description : option str; resp_uri : option str;
  resp_details : option json }.
Arguments resp_error {T}. Arguments resp_description {T}. Arguments resp_uri {T}.
Arguments resp_details {T}.

(* ---------------- errors ---------------- *)

(** validate.rs:8-15 [ValidationError]. *)
Inductive validation_error : Type := VAny (validation_message : str).

(** jwt/error.rs:11-155 [JwtError]. *)
Inductive jwt_error : Type :=
| JValidationError (e : validation_error)
| JNotYetValid (valid_from now : instant)
| JNotValidAnymore (valid_until now : instant)
| JIssuerMismatch (expected_iss_in_jwt actual_iss_in_jwt : option str)
| JNoKeyFoundInProof
| JNoDidDocumentProvidedForKidAsDid
| JUnableToTransformIntoDid (kid message : str)
| JUnableToResolveDidInDidDocument (did message : str)
| JUnableToMapVerificationMethodToJwk (messsage : str)
| JUnableToTransformIntoJoseItem (original_string serde_message : str)
| JUnsupportedAlgorithm (algorithm : str)
| JEdDSAHasNoXCoordinate
| JESXXXHasNoXOrYCoordinate (algorithm : str) (x y : option str)
| JSignatureNotInJwt (jwt : str)
| JUnsupportedKeyTypeInJwtHeader (key_name key_type : str)
| JNonceMismatch (expected_nonce : option str) (actual_nonce : str)
| JAudienceMismatch (expected_aud_in_jwt actual_aud_in_jwt : str).

(** credential_issuer/error.rs:15-94 [CredentialIssuerError]. *)
Inductive issuer_error : Type :=
| IValidationError (e : validation_error)
| IJwtError (e : jwt_error)
| IAuthorizedFlowNotSupported
| ICredentialIdNotInIssuerMetadata (id : str)
| IInvalidCredentialOfferEncoding (error_message : str)
| IInvalidRequestedCredential (requested_credential : cfp) (supported_formats : list cfp)
| IExpiredCNonce (now : instant) (expires_in : option instant)
| ICredentialAndAcceptanceTokenSupplied
| IAuthorizationServerMetadataNotSupported
| ICredentialOfferMustBeSupplied
| IEvaluteCredentialRequestOptionsNotSupplied (reason : str)
| ICNonceIsExpired (now expiry_timestamp : instant)
| INoProofInCredentialRequest.

(** access_token/error.rs:14-70 [AccessTokenError]. *)
Inductive token_error : Type :=
| TValidationError (e : validation_error)
| TInvalidGrantType (requested_grant_type : str) (accepted_grant_type : list str)
| TAuthorizedFlowNotSupported
| TNoFlowSupportedInCredentialOffer
| TInvalidPreAuthorizedCodeFlowValues (should_pin_be_supplied does_code_match : bool)
| TInvalidAuthorizedAndPreAuthorizedCodeFlow (authorized_error pre_authorized_error : token_error)
| TOptionsAreRequiredForEvaluation (reason : str)
| TUserPinMismatch
| TCredentialOfferMustBeSupplied.

(** error.rs:16-31 [ErrorInformation]. *)
Record error_information : Type := {
  ei_code : N; ei_name : str; ei_description : str; ei_additional : option json }.

(** return_object.rs:5-21 [ReturnObject<T, E, W>]. *)
Record return_object (T E W : Type) : Type := {
  ro_info : option T; ro_error : option E; ro_warnings : option (list W) }.
Arguments ro_info {T E W}. Arguments ro_error {T E W}. Arguments ro_warnings {T E W}.
