(** Error codes, names, payloads and error responses, as documented; without the
    model's functions. *)
From Coq Require Import Sorted Permutation.
From Verif Require Import Model.Prelude Model.Json Model.Types Model.Deps Spec.

(** The four public error enums. *)
Inductive any_error : Type :=
| AValidation (e : validation_error)
| AJwt (e : jwt_error)
| AIssuer (e : issuer_error)
| AToken (e : token_error).

Inductive enum : Type := EValidation | EJwt | EIssuer | EToken.

Definition enum_of (e : any_error) : enum :=
  match e with AValidation _ => EValidation | AJwt _ => EJwt | AIssuer _ => EIssuer | AToken _ => EToken end.

(** The published table of codes and names. *)
Definition error_table : list (enum * N * string) := [
  (EValidation, 1, "Any");
  (EIssuer, 100, "ValidationError"); (EIssuer, 101, "JwtError");
  (EIssuer, 102, "AuthorizedFlowNotSupported"); (EIssuer, 103, "CredentialIdNotInIssuerMetadata");
  (EIssuer, 104, "InvalidCredentialOfferEncoding"); (EIssuer, 105, "InvalidRequestedCredential");
  (EIssuer, 106, "ExpiredCNonce"); (EIssuer, 107, "CredentialAndAcceptanceTokenSupplied");
  (EIssuer, 108, "AuthorizationServerMetadataNotSupported"); (EIssuer, 109, "CredentialOfferMustBeSupplied");
  (EIssuer, 110, "EvaluteCredentialRequestOptionsNotSupplied"); (EIssuer, 111, "CNonceIsExpired");
  (EIssuer, 112, "NoProofInCredentialRequest");
  (EJwt, 300, "ValidationError"); (EJwt, 301, "NotYetValid"); (EJwt, 302, "NotValidAnymore");
  (EJwt, 303, "IssuerMismatch"); (EJwt, 304, "NoKeyFoundInProof");
  (EJwt, 305, "NoDidDocumentProvidedForKidAsDid"); (EJwt, 306, "UnableToTransformIntoDid");
  (EJwt, 307, "UnableToResolveDidInDidDocument"); (EJwt, 308, "UnableToMapVerificationMethodToJwk");
  (EJwt, 309, "UnableToTransformIntoJoseItem"); (EJwt, 310, "UnsupportedAlgorithm");
  (EJwt, 311, "EdDSAHasNoXCoordinate"); (EJwt, 312, "ESXXXHasNoXOrYCoordinate");
  (EJwt, 313, "SignatureNotInJwt"); (EJwt, 314, "UnsupportedKeyTypeInJwtHeader");
  (EJwt, 315, "NonceMismatch"); (EJwt, 316, "AudienceMismatch");
  (EToken, 400, "ValidationError"); (EToken, 401, "InvalidGrantType");
  (EToken, 402, "AuthorizedFlowNotSupported"); (EToken, 403, "NoFlowSupportedInCredentialOffer");
  (EToken, 404, "InvalidPreAuthorizedCodeFlowValues");
  (EToken, 405, "InvalidAuthorizedAndPreAuthorizedCodeFlow");
  (EToken, 406, "OptionsAreRequiredForEvaluation"); (EToken, 407, "UserPinMismatch");
  (EToken, 409, "CredentialOfferMustBeSupplied")]%string.

(** Range of codes of each enum. *)
Definition in_enum_range (e : enum) (n : N) : Prop :=
  match e with
  | EValidation => n < 100
  | EIssuer => 100 <= n < 200
  | EJwt => 300 <= n < 400
  | EToken => 400 <= n < 500
  end.

(** Rust's variant, that is the constructor, of an error. *)
Definition same_validation_variant (a b : validation_error) : Prop :=
  match a, b with VAny _, VAny _ => True end.

Definition same_jwt_variant (a b : jwt_error) : Prop :=
  match a, b with
  | JValidationError _, JValidationError _ | JNotYetValid _ _, JNotYetValid _ _
  | JNotValidAnymore _ _, JNotValidAnymore _ _ | JIssuerMismatch _ _, JIssuerMismatch _ _
  | JNoKeyFoundInProof, JNoKeyFoundInProof
  | JNoDidDocumentProvidedForKidAsDid, JNoDidDocumentProvidedForKidAsDid
  | JUnableToTransformIntoDid _ _, JUnableToTransformIntoDid _ _
  | JUnableToResolveDidInDidDocument _ _, JUnableToResolveDidInDidDocument _ _
  | JUnableToMapVerificationMethodToJwk _, JUnableToMapVerificationMethodToJwk _
  | JUnableToTransformIntoJoseItem _ _, JUnableToTransformIntoJoseItem _ _
  | JUnsupportedAlgorithm _, JUnsupportedAlgorithm _
  | JEdDSAHasNoXCoordinate, JEdDSAHasNoXCoordinate
  | JESXXXHasNoXOrYCoordinate _ _ _, JESXXXHasNoXOrYCoordinate _ _ _
  | JSignatureNotInJwt _, JSignatureNotInJwt _
  | JUnsupportedKeyTypeInJwtHeader _ _, JUnsupportedKeyTypeInJwtHeader _ _
  | JNonceMismatch _ _, JNonceMismatch _ _ | JAudienceMismatch _ _, JAudienceMismatch _ _ => True
  | _, _ => False
  end.

Definition same_issuer_variant (a b : issuer_error) : Prop :=
  match a, b with
  | IValidationError _, IValidationError _ | IJwtError _, IJwtError _
  | IAuthorizedFlowNotSupported, IAuthorizedFlowNotSupported
  | ICredentialIdNotInIssuerMetadata _, ICredentialIdNotInIssuerMetadata _
  | IInvalidCredentialOfferEncoding _, IInvalidCredentialOfferEncoding _
  | IInvalidRequestedCredential _ _, IInvalidRequestedCredential _ _
  | IExpiredCNonce _ _, IExpiredCNonce _ _
  | ICredentialAndAcceptanceTokenSupplied, ICredentialAndAcceptanceTokenSupplied
  | IAuthorizationServerMetadataNotSupported, IAuthorizationServerMetadataNotSupported
  | ICredentialOfferMustBeSupplied, ICredentialOfferMustBeSupplied
  | IEvaluteCredentialRequestOptionsNotSupplied _, IEvaluteCredentialRequestOptionsNotSupplied _
  | ICNonceIsExpired _ _, ICNonceIsExpired _ _
  | INoProofInCredentialRequest, INoProofInCredentialRequest => True
  | _, _ => False
  end.

Definition same_token_variant (a b : token_error) : Prop :=
  match a, b with
  | TValidationError _, TValidationError _ | TInvalidGrantType _ _, TInvalidGrantType _ _
  | TAuthorizedFlowNotSupported, TAuthorizedFlowNotSupported
  | TNoFlowSupportedInCredentialOffer, TNoFlowSupportedInCredentialOffer
  | TInvalidPreAuthorizedCodeFlowValues _ _, TInvalidPreAuthorizedCodeFlowValues _ _
  | TInvalidAuthorizedAndPreAuthorizedCodeFlow _ _, TInvalidAuthorizedAndPreAuthorizedCodeFlow _ _
  | TOptionsAreRequiredForEvaluation _, TOptionsAreRequiredForEvaluation _
  | TUserPinMismatch, TUserPinMismatch
  | TCredentialOfferMustBeSupplied, TCredentialOfferMustBeSupplied => True
  | _, _ => False
  end.

Definition same_variant (a b : any_error) : Prop :=
  match a, b with
  | AValidation a, AValidation b => same_validation_variant a b
  | AJwt a, AJwt b => same_jwt_variant a b
  | AIssuer a, AIssuer b => same_issuer_variant a b
  | AToken a, AToken b => same_token_variant a b
  | _, _ => False
  end.

(** The fields of an error, under their Rust names. [None]: the variant has no
    fields. Instants appear as their serde text, byte strings as numbers,
    a wrapped error as its own fields. *)
Definition opt_text (o : option str) : json := match o with Some s => JStr s | None => JNull end.
Definition instant_text (d : deps) (t : instant) : json := JStr (dt_print d t).
Definition opt_bytes (o : option str) : json :=
  match o with Some s => JArr (map (fun b => JInt (Z.of_N (code b))) s) | None => JNull end.

Definition validation_fields (e : validation_error) : option (list (string * json)) :=
  match e with VAny m => Some [("validation_message"%string, JStr m)] end.

Definition jwt_fields (d : deps) (e : jwt_error) : option (list (string * json)) :=
  match e with
  | JValidationError e => validation_fields e
  | JNotYetValid a b => Some [("valid_from", instant_text d a); ("now", instant_text d b)]
  | JNotValidAnymore a b => Some [("valid_until", instant_text d a); ("now", instant_text d b)]
  | JIssuerMismatch a b => Some [("expected_iss_in_jwt", opt_text a); ("actual_iss_in_jwt", opt_text b)]
  | JUnableToTransformIntoDid a b => Some [("kid", JStr a); ("message", JStr b)]
  | JUnableToResolveDidInDidDocument a b => Some [("did", JStr a); ("message", JStr b)]
  | JUnableToMapVerificationMethodToJwk a => Some [("messsage", JStr a)]
  | JUnableToTransformIntoJoseItem a b => Some [("original_string", JStr a); ("serde_message", JStr b)]
  | JUnsupportedAlgorithm a => Some [("algorithm", JStr a)]
  | JESXXXHasNoXOrYCoordinate a x y =>
      Some [("algorithm", JStr a); ("x", opt_bytes x); ("y", opt_bytes y)]
  | JSignatureNotInJwt a => Some [("jwt", JStr a)]
  | JUnsupportedKeyTypeInJwtHeader a b => Some [("key_name", JStr a); ("key_type", JStr b)]
  | JNonceMismatch a b => Some [("expected_nonce", opt_text a); ("actual_nonce", JStr b)]
  | JAudienceMismatch a b => Some [("expected_aud_in_jwt", JStr a); ("actual_aud_in_jwt", JStr b)]
  | JNoKeyFoundInProof | JNoDidDocumentProvidedForKidAsDid | JEdDSAHasNoXCoordinate => None
  end%string.

(** [InvalidRequestedCredential] carries credentials; [cred] is their JSON. It is
    raised nowhere in the crate. *)
Definition issuer_fields (d : deps) (cred : cfp -> json) (e : issuer_error) : option (list (string * json)) :=
  match e with
  | IValidationError e => validation_fields e
  | IJwtError e => jwt_fields d e
  | ICredentialIdNotInIssuerMetadata id => Some [("id", JStr id)]
  | IInvalidCredentialOfferEncoding m => Some [("error_message", JStr m)]
  | IInvalidRequestedCredential c l =>
      Some [("requested_credential", cred c); ("supported_formats", JArr (map cred l))]
  | IExpiredCNonce now e =>
      Some [("now", instant_text d now);
            ("expires_in", match e with Some t => instant_text d t | None => JNull end)]
  | IEvaluteCredentialRequestOptionsNotSupplied r => Some [("reason", JStr r)]
  | ICNonceIsExpired now e => Some [("now", instant_text d now); ("expiry_timestamp", instant_text d e)]
  | IAuthorizedFlowNotSupported | ICredentialAndAcceptanceTokenSupplied
  | IAuthorizationServerMetadataNotSupported | ICredentialOfferMustBeSupplied
  | INoProofInCredentialRequest => None
  end%string.

(** The additional information for given fields: null without fields, otherwise
    exactly those members, in key order. *)
Definition additional_for (fields : option (list (string * json))) (v : json) : Prop :=
  match fields with
  | None => v = JNull
  | Some l => exists m, v = JObj m /\ Permutation m (map (fun kv => (lit (fst kv), snd kv)) l)
                        /\ StronglySorted str_lt (map fst m)
  end.

(** Likewise for token errors, which nest. *)
Fixpoint token_additional (e : token_error) (v : json) : Prop :=
  match e with
  | TValidationError e => additional_for (validation_fields e) v
  | TInvalidGrantType r a =>
      additional_for (Some [("requested_grant_type", JStr r); ("accepted_grant_type", JArr (map JStr a))]) v
  | TInvalidPreAuthorizedCodeFlowValues s m =>
      additional_for (Some [("should_pin_be_supplied", JBool s); ("does_code_match", JBool m)]) v
  | TInvalidAuthorizedAndPreAuthorizedCodeFlow a p =>
      exists va vp, token_additional a va /\ token_additional p vp
        /\ additional_for (Some [("authorized_error", va); ("pre_authorized_error", vp)]) v
  | TOptionsAreRequiredForEvaluation r => additional_for (Some [("reason", JStr r)]) v
  | TAuthorizedFlowNotSupported | TNoFlowSupportedInCredentialOffer
  | TUserPinMismatch | TCredentialOfferMustBeSupplied => additional_for None v
  end%string.

(** The name under which Rust knows an error code. *)
Inductive token_rust_name : token_error_code -> string -> Prop :=
| tr_request : token_rust_name TInvalidRequest "InvalidRequest"
| tr_client : token_rust_name TInvalidClient "InvalidClient"
| tr_grant : token_rust_name TInvalidGrant "InvalidGrant"
| tr_denied : token_rust_name TAccessDenied "AccessDenied"
| tr_response_type : token_rust_name TUnsupportedResponseType "UnsupportedResponseType"
| tr_scope : token_rust_name TInvalidScope "InvalidScope"
| tr_server : token_rust_name TServerError "ServerError"
| tr_unavailable : token_rust_name TTemporarilyUnavailable "TemporarilyUnavailable".

Inductive issuer_rust_name : issuer_error_code -> string -> Prop :=
| ir_request : issuer_rust_name IInvalidRequest "InvalidRequest"
| ir_token : issuer_rust_name IInvalidToken "InvalidToken"
| ir_type : issuer_rust_name IUnsupportedCredentialType "UnsupportedCredentialType"
| ir_format : issuer_rust_name IUnsupportedCredentialFormat "UnsupportedCredentialFormat"
| ir_proof : issuer_rust_name IInvalidOrMissingProof "InvalidOrMissingProof".

(** Members of an error response: the three standard ones, then the details. *)
Definition response_members (error : str) (description uri : option str) (details : list (str * json))
  : list (str * json) :=
  (lit "error", JStr error) :: (lit "error_description", opt_text description)
  :: (lit "error_uri", opt_text uri) :: details.

(** Details that can be merged into the response, and what they add. *)
Inductive mergeable (null_ok : bool) : option json -> list (str * json) -> Prop :=
| mg_none : mergeable null_ok None []
| mg_object m : mergeable null_ok (Some (JObj m)) m
| mg_null : null_ok = true -> mergeable null_ok (Some JNull) [].

Definition details_ok (details : option json) : Prop := on_some (value_ok 127) details.

(** Serializable error information. *)
Definition information_ok (n : nat) (e : error_information) : Prop :=
  ei_code e < 2 ^ 32 /\ rust_string (ei_name e) /\ rust_string (ei_description e)
  /\ on_some (value_ok n) (ei_additional e).

(** The texts an error carries; an instant is shown and serialized as text. *)
Definition validation_texts (e : validation_error) : list str := match e with VAny m => [m] end.
Definition instant_texts (d : deps) (t : instant) : list str := [dt_print d t; dt_display d t].
Definition texts_of (o : option str) : list str := match o with Some s => [s] | None => [] end.
Definition jwt_texts (d : deps) (e : jwt_error) : list str :=
  match e with
  | JValidationError e => validation_texts e
  | JNotYetValid a b | JNotValidAnymore a b => instant_texts d a ++ instant_texts d b
  | JIssuerMismatch a b => texts_of a ++ texts_of b
  | JUnableToTransformIntoDid a b | JUnableToResolveDidInDidDocument a b
  | JUnableToTransformIntoJoseItem a b | JUnsupportedKeyTypeInJwtHeader a b
  | JAudienceMismatch a b => [a; b]
  | JUnableToMapVerificationMethodToJwk a | JUnsupportedAlgorithm a | JSignatureNotInJwt a
  | JESXXXHasNoXOrYCoordinate a _ _ => [a]
  | JNonceMismatch a b => texts_of a ++ [b]
  | JNoKeyFoundInProof | JNoDidDocumentProvidedForKidAsDid | JEdDSAHasNoXCoordinate => []
  end.
Definition issuer_texts (d : deps) (e : issuer_error) : list str :=
  match e with
  | IValidationError e => validation_texts e
  | IJwtError e => jwt_texts d e
  | ICredentialIdNotInIssuerMetadata a | IInvalidCredentialOfferEncoding a
  | IEvaluteCredentialRequestOptionsNotSupplied a => [a]
  | IExpiredCNonce now e =>
      instant_texts d now ++ match e with Some t => instant_texts d t | None => [] end
  | ICNonceIsExpired now e => instant_texts d now ++ instant_texts d e
  | _ => []
  end.
Fixpoint token_texts (e : token_error) : list str :=
  match e with
  | TValidationError e => validation_texts e
  | TInvalidGrantType r a => r :: a
  | TInvalidAuthorizedAndPreAuthorizedCodeFlow a p => token_texts a ++ token_texts p
  | TOptionsAreRequiredForEvaluation r => [r]
  | _ => []
  end.
(** How many errors are wrapped in one another. *)
Fixpoint token_nesting (e : token_error) : nat :=
  match e with
  | TInvalidAuthorizedAndPreAuthorizedCodeFlow a p => S (max (token_nesting a) (token_nesting p))
  | _ => O
  end.

(** Errors as Rust has them, nested so that a reader follows them. *)
Definition error_ok (d : deps) (e : any_error) : Prop :=
  match e with
  | AValidation e => Forall rust_string (validation_texts e)
  | AJwt e => Forall rust_string (jwt_texts d e)
  | AIssuer (IInvalidRequestedCredential c l) => cfp_ok 120 c /\ Forall (cfp_ok 120) l
  | AIssuer e => Forall rust_string (issuer_texts d e)
  | AToken e => Forall rust_string (token_texts e) /\ (token_nesting e <= 123)%nat
  end.

(** Members of its JSON form. *)
Definition information_members (e : error_information) : list (str * json) :=
  (lit "code", JInt (Z.of_N (ei_code e))) :: (lit "name", JStr (ei_name e))
  :: (lit "description", JStr (ei_description e))
  :: match ei_additional e with Some v => [(lit "additional_information", v)] | None => [] end.

(** The published messages: a template with [{field}] placeholders for each code;
    the codes absent here (100, 101, 400) forward to the wrapped error. *)
Definition message_table : list (enum * N * string) := [
  (EValidation, 1, "An error occurred during validation, serialization or deserialization");
  (EIssuer, 102, "The Authorized flow is currently not supported");
  (EIssuer, 103, "The id `{id}` does not refer to a credential format inside the issuer metadata");
  (EIssuer, 104, "Could not url-encode the credential");
  (EIssuer, 105, "Requested credential not found in issuer metadata");
  (EIssuer, 106, "`c_nonce_expires_in` is not valid anymore.");
  (EIssuer, 107, "Credential and acceptance token cannot both be supplied for the success response");
  (EIssuer, 108, "Authorization server metadata is not yet supported");
  (EIssuer, 109, "Credential offer must be supplied, other flows are not supported yet");
  (EIssuer, 110, "evaluate credential request called without options, but were needed");
  (EIssuer, 111, "c_nonce expires at {expiry_timestamp} which is before {now}");
  (EIssuer, 112, "The credential request does not contain a JWT proof");
  (EJwt, 300, "An error occurred while validating");
  (EJwt, 301, "JWT is not yet valid. Valid from: {valid_from} and checked at {now}");
  (EJwt, 302, "JWT is not valid anymore. Valid until: {valid_until} and checked at {now}");
  (EJwt, 303, "`iss` field in the body mismatched with provided client id");
  (EJwt, 304, "No `kid`, `jwk` or `x5c` found in the JWT header");
  (EJwt, 305, "No did document provided when the `kid` is a did");
  (EJwt, 306, "Unable to transform did, from `kid`, into a Did type");
  (EJwt, 307, "Unable to find the verification method the did, `kid`, was referring to");
  (EJwt, 308, "Unable to map the verification method to a JWK");
  (EJwt, 309, "Unable to convert '{original_string}' into a valid Jose Item");
  (EJwt, 310, "supplied algorithm, '{algorithm}' is not valid");
  (EJwt, 311, "JWK with algorithm of 'edDSA' has no x coordinate");
  (EJwt, 312, "JWK with algorithm of '{algorithm}' has no 'x' or 'y' coordinate");
  (EJwt, 313, "Signature was expected but not found in the JWT");
  (EJwt, 314, "Unsupported key type `{key_type}` found in JWT header");
  (EJwt, 315, "Expected nonce was not found in the JWT");
  (EJwt, 316, "`aud` field in the body mismatched with provided credential issuer url");
  (EToken, 401, "Invalid requested grant type");
  (EToken, 402, "The Authorized flow is currently not supported");
  (EToken, 403, "Supplied credential offer has no authorized, or pre-authorized, code flow");
  (EToken, 404, "Requested pre-authorized code flow has invalid values");
  (EToken, 405, "Both the authorized and pre-authorized are incorrect");
  (EToken, 406, "Options are required when evaluating the access token request");
  (EToken, 407, "Provided user pin does not match user pin from access token request");
  (EToken, 409, "Access token request is not yet supported without a credential offer")]%string.

(** The texts of the fields that messages mention. *)
Definition shown (d : deps) (e : any_error) : list (string * str) :=
  match e with
  | AIssuer (ICredentialIdNotInIssuerMetadata id) => [("id", id)]
  | AIssuer (ICNonceIsExpired now e) => [("now", dt_display d now); ("expiry_timestamp", dt_display d e)]
  | AJwt (JNotYetValid a b) => [("valid_from", dt_display d a); ("now", dt_display d b)]
  | AJwt (JNotValidAnymore a b) => [("valid_until", dt_display d a); ("now", dt_display d b)]
  | AJwt (JUnableToTransformIntoJoseItem a b) => [("original_string", a); ("serde_message", b)]
  | AJwt (JUnsupportedAlgorithm a) => [("algorithm", a)]
  | AJwt (JESXXXHasNoXOrYCoordinate a _ _) => [("algorithm", a)]
  | AJwt (JUnsupportedKeyTypeInJwtHeader a b) => [("key_name", a); ("key_type", b)]
  | _ => []
  end%string.

(** Rust's formatting of named placeholders. *)
Fixpoint field_text (fields : list (string * str)) (name : str) : str :=
  match fields with
  | [] => []
  | (k, v) :: r => if list_eq_dec ascii_dec (lit k) name then v else field_text r name
  end.
Fixpoint fill (fields : list (string * str)) (name : option str) (t : str) : str :=
  match t with
  | [] => []
  | c :: t' =>
      match name with
      | None => if ascii_dec c "{"%char then fill fields (Some []) t' else c :: fill fields None t'
      | Some n => if ascii_dec c "}"%char then field_text fields n ++ fill fields None t'
                  else fill fields (Some (n ++ [c])) t'
      end
  end.
