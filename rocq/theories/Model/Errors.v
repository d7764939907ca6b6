(** The four error enums and the code of [error_impl!]. *)
From Verif Require Import Model.Prelude Model.Json Model.Types Model.Deps Model.Serde.

(** strum's [AsRefStr] of the error enums: the variant names.
    validate.rs:5-15, jwt/error.rs:8-155, credential_issuer/error.rs:13-94,
    access_token/error.rs:12-70. *)
Definition validation_error_name (e : validation_error) : str :=
  match e with VAny _ => lit "Any" end.

Definition jwt_error_name (e : jwt_error) : str :=
  match e with
  | JValidationError _ => lit "ValidationError"
  | JNotYetValid _ _ => lit "NotYetValid"
  | JNotValidAnymore _ _ => lit "NotValidAnymore"
  | JIssuerMismatch _ _ => lit "IssuerMismatch"
  | JNoKeyFoundInProof => lit "NoKeyFoundInProof"
  | JNoDidDocumentProvidedForKidAsDid => lit "NoDidDocumentProvidedForKidAsDid"
  | JUnableToTransformIntoDid _ _ => lit "UnableToTransformIntoDid"
  | JUnableToResolveDidInDidDocument _ _ => lit "UnableToResolveDidInDidDocument"
  | JUnableToMapVerificationMethodToJwk _ => lit "UnableToMapVerificationMethodToJwk"
  | JUnableToTransformIntoJoseItem _ _ => lit "UnableToTransformIntoJoseItem"
  | JUnsupportedAlgorithm _ => lit "UnsupportedAlgorithm"
  | JEdDSAHasNoXCoordinate => lit "EdDSAHasNoXCoordinate"
  | JESXXXHasNoXOrYCoordinate _ _ _ => lit "ESXXXHasNoXOrYCoordinate"
  | JSignatureNotInJwt _ => lit "SignatureNotInJwt"
  | JUnsupportedKeyTypeInJwtHeader _ _ => lit "UnsupportedKeyTypeInJwtHeader"
  | JNonceMismatch _ _ => lit "NonceMismatch"
  | JAudienceMismatch _ _ => lit "AudienceMismatch"
  end.

Definition issuer_error_name (e : issuer_error) : str :=
  match e with
  | IValidationError _ => lit "ValidationError"
  | IJwtError _ => lit "JwtError"
  | IAuthorizedFlowNotSupported => lit "AuthorizedFlowNotSupported"
  | ICredentialIdNotInIssuerMetadata _ => lit "CredentialIdNotInIssuerMetadata"
  | IInvalidCredentialOfferEncoding _ => lit "InvalidCredentialOfferEncoding"
  | IInvalidRequestedCredential _ _ => lit "InvalidRequestedCredential"
  | IExpiredCNonce _ _ => lit "ExpiredCNonce"
  | ICredentialAndAcceptanceTokenSupplied => lit "CredentialAndAcceptanceTokenSupplied"
  | IAuthorizationServerMetadataNotSupported => lit "AuthorizationServerMetadataNotSupported"
  | ICredentialOfferMustBeSupplied => lit "CredentialOfferMustBeSupplied"
  | IEvaluteCredentialRequestOptionsNotSupplied _ => lit "EvaluteCredentialRequestOptionsNotSupplied"
  | ICNonceIsExpired _ _ => lit "CNonceIsExpired"
  | INoProofInCredentialRequest => lit "NoProofInCredentialRequest"
  end.

Definition token_error_name (e : token_error) : str :=
  match e with
  | TValidationError _ => lit "ValidationError"
  | TInvalidGrantType _ _ => lit "InvalidGrantType"
  | TAuthorizedFlowNotSupported => lit "AuthorizedFlowNotSupported"
  | TNoFlowSupportedInCredentialOffer => lit "NoFlowSupportedInCredentialOffer"
  | TInvalidPreAuthorizedCodeFlowValues _ _ => lit "InvalidPreAuthorizedCodeFlowValues"
  | TInvalidAuthorizedAndPreAuthorizedCodeFlow _ _ => lit "InvalidAuthorizedAndPreAuthorizedCodeFlow"
  | TOptionsAreRequiredForEvaluation _ => lit "OptionsAreRequiredForEvaluation"
  | TUserPinMismatch => lit "UserPinMismatch"
  | TCredentialOfferMustBeSupplied => lit "CredentialOfferMustBeSupplied"
  end.

(** [code()]: the explicit enum discriminants (macros.rs:28-32, 50-52). The
    pointer cast reads the [repr(u32)] tag, which Rust places first. *)
Definition validation_error_code (e : validation_error) : N := match e with VAny _ => 1 end.

Definition jwt_error_code (e : jwt_error) : N :=
  match e with
  | JValidationError _ => 300
  | JNotYetValid _ _ => 301
  | JNotValidAnymore _ _ => 302
  | JIssuerMismatch _ _ => 303
  | JNoKeyFoundInProof => 304
  | JNoDidDocumentProvidedForKidAsDid => 305
  | JUnableToTransformIntoDid _ _ => 306
  | JUnableToResolveDidInDidDocument _ _ => 307
  | JUnableToMapVerificationMethodToJwk _ => 308
  | JUnableToTransformIntoJoseItem _ _ => 309
  | JUnsupportedAlgorithm _ => 310
  | JEdDSAHasNoXCoordinate => 311
  | JESXXXHasNoXOrYCoordinate _ _ _ => 312
  | JSignatureNotInJwt _ => 313
  | JUnsupportedKeyTypeInJwtHeader _ _ => 314
  | JNonceMismatch _ _ => 315
  | JAudienceMismatch _ _ => 316
  end.

Definition issuer_error_code_num (e : issuer_error) : N :=
  match e with
  | IValidationError _ => 100
  | IJwtError _ => 101
  | IAuthorizedFlowNotSupported => 102
  | ICredentialIdNotInIssuerMetadata _ => 103
  | IInvalidCredentialOfferEncoding _ => 104
  | IInvalidRequestedCredential _ _ => 105
  | IExpiredCNonce _ _ => 106
  | ICredentialAndAcceptanceTokenSupplied => 107
  | IAuthorizationServerMetadataNotSupported => 108
  | ICredentialOfferMustBeSupplied => 109
  | IEvaluteCredentialRequestOptionsNotSupplied _ => 110
  | ICNonceIsExpired _ _ => 111
  | INoProofInCredentialRequest => 112
  end.

Definition token_error_code_num (e : token_error) : N :=
  match e with
  | TValidationError _ => 400
  | TInvalidGrantType _ _ => 401
  | TAuthorizedFlowNotSupported => 402
  | TNoFlowSupportedInCredentialOffer => 403
  | TInvalidPreAuthorizedCodeFlowValues _ _ => 404
  | TInvalidAuthorizedAndPreAuthorizedCodeFlow _ _ => 405
  | TOptionsAreRequiredForEvaluation _ => 406
  | TUserPinMismatch => 407
  | TCredentialOfferMustBeSupplied => 409
  end.

(** thiserror's [Display]: the [#[error(...)]] attributes; [transparent] forwards
    to the inner error. *)
Definition validation_error_display (e : validation_error) : str :=
  match e with
  | VAny _ => lit "An error occurred during validation, serialization or deserialization"
  end.

Definition jwt_error_display (d : deps) (e : jwt_error) : str :=
  match e with
  | JValidationError _ => lit "An error occurred while validating"
  | JNotYetValid valid_from now =>
      lit "JWT is not yet valid. Valid from: " ++ dt_display d valid_from
      ++ lit " and checked at " ++ dt_display d now
  | JNotValidAnymore valid_until now =>
      lit "JWT is not valid anymore. Valid until: " ++ dt_display d valid_until
      ++ lit " and checked at " ++ dt_display d now
  | JIssuerMismatch _ _ => lit "`iss` field in the body mismatched with provided client id"
  | JNoKeyFoundInProof => lit "No `kid`, `jwk` or `x5c` found in the JWT header"
  | JNoDidDocumentProvidedForKidAsDid => lit "No did document provided when the `kid` is a did"
  | JUnableToTransformIntoDid _ _ => lit "Unable to transform did, from `kid`, into a Did type"
  | JUnableToResolveDidInDidDocument _ _ =>
      lit "Unable to find the verification method the did, `kid`, was referring to"
  | JUnableToMapVerificationMethodToJwk _ => lit "Unable to map the verification method to a JWK"
  | JUnableToTransformIntoJoseItem original_string _ =>
      lit "Unable to convert '" ++ original_string ++ lit "' into a valid Jose Item"
  | JUnsupportedAlgorithm algorithm =>
      lit "supplied algorithm, '" ++ algorithm ++ lit "' is not valid"
  | JEdDSAHasNoXCoordinate => lit "JWK with algorithm of 'edDSA' has no x coordinate"
  | JESXXXHasNoXOrYCoordinate algorithm _ _ =>
      lit "JWK with algorithm of '" ++ algorithm ++ lit "' has no 'x' or 'y' coordinate"
  | JSignatureNotInJwt _ => lit "Signature was expected but not found in the JWT"
  | JUnsupportedKeyTypeInJwtHeader _ key_type =>
      lit "Unsupported key type `" ++ key_type ++ lit "` found in JWT header"
  | JNonceMismatch _ _ => lit "Expected nonce was not found in the JWT"
  | JAudienceMismatch _ _ =>
      lit "`aud` field in the body mismatched with provided credential issuer url"
  end.

Definition issuer_error_display (d : deps) (e : issuer_error) : str :=
  match e with
  | IValidationError e => validation_error_display e
  | IJwtError e => jwt_error_display d e
  | IAuthorizedFlowNotSupported => lit "The Authorized flow is currently not supported"
  | ICredentialIdNotInIssuerMetadata id =>
      lit "The id `" ++ id ++ lit "` does not refer to a credential format inside the issuer metadata"
  | IInvalidCredentialOfferEncoding _ => lit "Could not url-encode the credential"
  | IInvalidRequestedCredential _ _ => lit "Requested credential not found in issuer metadata"
  | IExpiredCNonce _ _ => lit "`c_nonce_expires_in` is not valid anymore."
  | ICredentialAndAcceptanceTokenSupplied =>
      lit "Credential and acceptance token cannot both be supplied for the success response"
  | IAuthorizationServerMetadataNotSupported =>
      lit "Authorization server metadata is not yet supported"
  | ICredentialOfferMustBeSupplied =>
      lit "Credential offer must be supplied, other flows are not supported yet"
  | IEvaluteCredentialRequestOptionsNotSupplied _ =>
      lit "evaluate credential request called without options, but were needed"
  | ICNonceIsExpired now expiry =>
      lit "c_nonce expires at " ++ dt_display d expiry ++ lit " which is before " ++ dt_display d now
  | INoProofInCredentialRequest => lit "The credential request does not contain a JWT proof"
  end.

Definition token_error_display (e : token_error) : str :=
  match e with
  | TValidationError e => validation_error_display e
  | TInvalidGrantType _ _ => lit "Invalid requested grant type"
  | TAuthorizedFlowNotSupported => lit "The Authorized flow is currently not supported"
  | TNoFlowSupportedInCredentialOffer =>
      lit "Supplied credential offer has no authorized, or pre-authorized, code flow"
  | TInvalidPreAuthorizedCodeFlowValues _ _ =>
      lit "Requested pre-authorized code flow has invalid values"
  | TInvalidAuthorizedAndPreAuthorizedCodeFlow _ _ =>
      lit "Both the authorized and pre-authorized are incorrect"
  | TOptionsAreRequiredForEvaluation _ =>
      lit "Options are required when evaluating the access token request"
  | TUserPinMismatch => lit "Provided user pin does not match user pin from access token request"
  | TCredentialOfferMustBeSupplied =>
      lit "Access token request is not yet supported without a credential offer"
  end.

(** The derived [Serialize] of the untagged error enums. *)
Definition ser_validation_error (e : validation_error) : json :=
  match e with VAny m => JObj (field "validation_message" (JStr m)) end.

Definition ser_jwt_error (d : deps) (e : jwt_error) : json :=
  match e with
  | JValidationError e => ser_validation_error e
  | JNotYetValid a b =>
      JObj (field "valid_from" (ser_instant d a) ++ field "now" (ser_instant d b))
  | JNotValidAnymore a b =>
      JObj (field "valid_until" (ser_instant d a) ++ field "now" (ser_instant d b))
  | JIssuerMismatch a b =>
      JObj (field "expected_iss_in_jwt" (ser_opt JStr a)
            ++ field "actual_iss_in_jwt" (ser_opt JStr b))
  | JNoKeyFoundInProof => JNull
  | JNoDidDocumentProvidedForKidAsDid => JNull
  | JUnableToTransformIntoDid a b => JObj (field "kid" (JStr a) ++ field "message" (JStr b))
  | JUnableToResolveDidInDidDocument a b => JObj (field "did" (JStr a) ++ field "message" (JStr b))
  | JUnableToMapVerificationMethodToJwk a => JObj (field "messsage" (JStr a))
  | JUnableToTransformIntoJoseItem a b =>
      JObj (field "original_string" (JStr a) ++ field "serde_message" (JStr b))
  | JUnsupportedAlgorithm a => JObj (field "algorithm" (JStr a))
  | JEdDSAHasNoXCoordinate => JNull
  | JESXXXHasNoXOrYCoordinate a x y =>
      JObj (field "algorithm" (JStr a) ++ field "x" (ser_opt ser_bytes x)
            ++ field "y" (ser_opt ser_bytes y))
  | JSignatureNotInJwt a => JObj (field "jwt" (JStr a))
  | JUnsupportedKeyTypeInJwtHeader a b =>
      JObj (field "key_name" (JStr a) ++ field "key_type" (JStr b))
  | JNonceMismatch a b =>
      JObj (field "expected_nonce" (ser_opt JStr a) ++ field "actual_nonce" (JStr b))
  | JAudienceMismatch a b =>
      JObj (field "expected_aud_in_jwt" (JStr a) ++ field "actual_aud_in_jwt" (JStr b))
  end.

Definition ser_issuer_error (d : deps) (e : issuer_error) : json :=
  match e with
  | IValidationError e => ser_validation_error e
  | IJwtError e => ser_jwt_error d e
  | IAuthorizedFlowNotSupported => JNull
  | ICredentialIdNotInIssuerMetadata id => JObj (field "id" (JStr id))
  | IInvalidCredentialOfferEncoding m => JObj (field "error_message" (JStr m))
  | IInvalidRequestedCredential c l =>
      JObj (field "requested_credential" (ser_cfp c)
            ++ field "supported_formats" (ser_list ser_cfp l))
  | IExpiredCNonce now e =>
      JObj (field "now" (ser_instant d now) ++ field "expires_in" (ser_opt (ser_instant d) e))
  | ICredentialAndAcceptanceTokenSupplied => JNull
  | IAuthorizationServerMetadataNotSupported => JNull
  | ICredentialOfferMustBeSupplied => JNull
  | IEvaluteCredentialRequestOptionsNotSupplied r => JObj (field "reason" (JStr r))
  | ICNonceIsExpired now e =>
      JObj (field "now" (ser_instant d now) ++ field "expiry_timestamp" (ser_instant d e))
  | INoProofInCredentialRequest => JNull
  end.

Fixpoint ser_token_error (e : token_error) : json :=
  match e with
  | TValidationError e => ser_validation_error e
  | TInvalidGrantType r a =>
      JObj (field "requested_grant_type" (JStr r) ++ field "accepted_grant_type" (ser_list JStr a))
  | TAuthorizedFlowNotSupported => JNull
  | TNoFlowSupportedInCredentialOffer => JNull
  | TInvalidPreAuthorizedCodeFlowValues s m =>
      JObj (field "should_pin_be_supplied" (JBool s) ++ field "does_code_match" (JBool m))
  | TInvalidAuthorizedAndPreAuthorizedCodeFlow a p =>
      JObj (field "authorized_error" (ser_token_error a)
            ++ field "pre_authorized_error" (ser_token_error p))
  | TOptionsAreRequiredForEvaluation r => JObj (field "reason" (JStr r))
  | TUserPinMismatch => JNull
  | TCredentialOfferMustBeSupplied => JNull
  end.

(** macros.rs:34-46 [information()] of the two-argument [error_impl!]:
    [serde_json::to_value(self).ok()]; none of the four enums can fail to
    serialize, so it is always [Some]. *)
Definition information_of (code : N) (name display : str) (ser : json) : error_information :=
  {| ei_code := code; ei_name := name; ei_description := display;
     ei_additional := Some (to_value ser) |}.

Definition validation_error_information (e : validation_error) : error_information :=
  information_of (validation_error_code e) (validation_error_name e)
                 (validation_error_display e) (ser_validation_error e).
Definition jwt_error_information (d : deps) (e : jwt_error) : error_information :=
  information_of (jwt_error_code e) (jwt_error_name e) (jwt_error_display d e) (ser_jwt_error d e).
Definition issuer_error_information (d : deps) (e : issuer_error) : error_information :=
  information_of (issuer_error_code_num e) (issuer_error_name e)
                 (issuer_error_display d e) (ser_issuer_error d e).
Definition token_error_information (e : token_error) : error_information :=
  information_of (token_error_code_num e) (token_error_name e)
                 (token_error_display e) (ser_token_error e).

(** error.rs:15-31 serde form and error.rs:33-41 [Display] of
    [ErrorInformation]. *)
Definition ser_error_information (e : error_information) : json :=
  JObj (field "code" (ser_N (ei_code e))
        ++ field "name" (JStr (ei_name e))
        ++ field "description" (JStr (ei_description e))
        ++ field_opt "additional_information" (fun v => v) (ei_additional e)).
Definition error_information_display (e : error_information) : str :=
  print (ser_error_information e).

(** macros.rs:55-78 [to_return_object]. *)
Definition to_return_object {T E : Type} (info : E -> error_information) (r : T + E)
    : return_object T error_information str :=
  match r with
  | inl t => {| ro_info := Some t; ro_error := None; ro_warnings := None |}
  | inr e => {| ro_info := None; ro_error := Some (info e); ro_warnings := None |}
  end.

(** return_object.rs:31-39 [add_warning]. *)
Definition add_warning {T E W : Type} (r : return_object T E W) (w : W) : return_object T E W :=
  let warnings := match ro_warnings r with Some l => l | None => [] end in
  {| ro_info := ro_info r; ro_error := ro_error r; ro_warnings := Some (warnings ++ [w]) |}.

(** return_object.rs:4-21 serde form. *)
Definition ser_return_object {T E W : Type} (ft : T -> json) (fe : E -> json) (fw : W -> json)
    (r : return_object T E W) : json :=
  JObj (field_opt "info" ft (ro_info r)
        ++ field_opt "error" fe (ro_error r)
        ++ field_opt "warnings" (ser_list fw) (ro_warnings r)).
