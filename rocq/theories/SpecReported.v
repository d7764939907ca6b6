(** C132: which errors each call reports. *)
From Verif Require Import Model.Prelude Model.Json Model.Types Model.Deps Model.Errors Model.Jwt
  Model.AccessToken Model.CredentialIssuer SpecErrors.

(** The error itself, and the errors an error carries. *)
Inductive within : any_error -> any_error -> Prop :=
| wi_self a : within a a
| wi_issuer_validation a v : within a (AValidation v) -> within a (AIssuer (IValidationError v))
| wi_issuer_jwt a e : within a (AJwt e) -> within a (AIssuer (IJwtError e))
| wi_jwt_validation a v : within a (AValidation v) -> within a (AJwt (JValidationError v))
| wi_token_validation a v : within a (AValidation v) -> within a (AToken (TValidationError v))
| wi_token_authorized a e f :
    within a (AToken e) -> within a (AToken (TInvalidAuthorizedAndPreAuthorizedCodeFlow e f))
| wi_token_pre_authorized a e f :
    within a (AToken f) -> within a (AToken (TInvalidAuthorizedAndPreAuthorizedCodeFlow e f)).

(** The calls that return a [Result]. *)
Inductive call : Type :=
| CCreateOffer | CUrlEncode | CResolve | CResolveAll | CPreEvaluate | CEvaluate | CSuccessResponse
| CErrorResponse | CEvaluateToken | CTokenSuccessResponse | CTokenErrorResponse
| CProofFromText | CProofToText | CVerify | CExtractDid | CExtractKey | CSignature | CMessage
| CCheckNonce | CCheckIss | CCheckAud
| CIssuerCode | CTokenCode | CTokenType | CEncodeCredential
| CValidateMetadata | CValidateOffer | CValidateRequest | CValidateToken | CValidateTokenSuccess
| CValidateProof | CValidateKey.

(** An application makes the call and gets the error. *)
Inductive reported (d : deps) : call -> any_error -> Prop :=
| re_create_offer m l u a p e : create_offer m l u a p = Err e -> reported d CCreateOffer (AIssuer e)
| re_url_encode o e : offer_url_encode o = Err e -> reported d CUrlEncode (AIssuer e)
| re_resolve m c e : resolve m c = Err e -> reported d CResolve (AIssuer e)
| re_resolve_all m l e : resolve_all m l = Err e -> reported d CResolveAll (AIssuer e)
| re_pre_evaluate r e :
    pre_evaluate_credential_request d r = Err e -> reported d CPreEvaluate (AIssuer e)
| re_evaluate now m r o s doc opts e :
    evaluate_credential_request d now m r o s doc opts = Err e -> reported d CEvaluate (AIssuer e)
| re_success now r c n e :
    create_credential_success_response d now r c n = Err e -> reported d CSuccessResponse (AIssuer e)
| re_error code x y z e :
    create_credential_error_response code x y z = Err e -> reported d CErrorResponse (AIssuer e)
| re_token r o opts e : evaluate_access_token_request r o opts = Err e -> reported d CEvaluateToken (AToken e)
| re_token_success now a t x sc n xn ap i e :
    create_access_token_success_response now a t x sc n xn ap i = Err e ->
    reported d CTokenSuccessResponse (AToken e)
| re_token_error code x y z e :
    create_access_token_error_response code x y z = Err e -> reported d CTokenErrorResponse (AToken e)
| re_from_text s e : jwt_from_str d s = Err e -> reported d CProofFromText (AValidation e)
| re_to_text j e : jwt_try_into_string d j = Err e -> reported d CProofToText (AJwt e)
| re_verify now j e : jwt_verify now j = Err e -> reported d CVerify (AJwt e)
| re_did j e : jwt_extract_did d j = Err e -> reported d CExtractDid (AJwt e)
| re_key h doc e : header_extract_key_and_alg d h doc = Err e -> reported d CExtractKey (AJwt e)
| re_signature j e : jwt_extract_signature d j = Err e -> reported d CSignature (AJwt e)
| re_message j e : jwt_to_signable_message d j = Err e -> reported d CMessage (AJwt e)
| re_nonce j n e : jwt_check_nonce j n = Err e -> reported d CCheckNonce (AJwt e)
| re_iss j i e : jwt_check_iss j i = Err e -> reported d CCheckIss (AJwt e)
| re_aud j u e : jwt_check_aud j u = Err e -> reported d CCheckAud (AJwt e)
| re_issuer_code s e : issuer_code_try_from s = Err e -> reported d CIssuerCode (AValidation e)
| re_token_code s e : token_code_try_from s = Err e -> reported d CTokenCode (AValidation e)
| re_token_type s e : token_type_try_from s = Err e -> reported d CTokenType (AValidation e)
| re_encode c e : cfp_encode c = Err e -> reported d CEncodeCredential (AValidation e)
| re_metadata m e : metadata_validate m = Err e -> reported d CValidateMetadata (AValidation e)
| re_offer o e : offer_validate o = Err e -> reported d CValidateOffer (AValidation e)
| re_request r e : request_validate d r = Err e -> reported d CValidateRequest (AValidation e)
| re_token_request r e : token_request_validate r = Err e -> reported d CValidateToken (AValidation e)
| re_token_answer t e : token_success_validate t = Err e -> reported d CValidateTokenSuccess (AValidation e)
| re_proof j e : jwt_validate d j = Err e -> reported d CValidateProof (AValidation e)
| re_header a e : additional_header_validate a = Err e -> reported d CValidateKey (AValidation e).

(** The codes an application can meet in the error of a call, and in the errors
    that error carries. *)
Definition codes_of (c : call) : list N :=
  match c with
  | CCreateOffer => [1; 100; 102; 103]
  | CResolve | CResolveAll => [103]
  | CPreEvaluate => [1; 100; 101; 306; 314]
  | CEvaluate => [1; 100; 101; 108; 109; 111; 112;
                  303; 304; 305; 306; 307; 308; 309; 310; 311; 313; 314; 315; 316]
  | CSuccessResponse => [1; 100]
  | CEvaluateToken => [1; 400; 401; 402; 403; 404; 405; 406; 407; 409]
  | CVerify => [301; 302]
  | CExtractDid => [306; 314]
  | CExtractKey => [304; 305; 306; 307; 308; 309; 310; 311; 314]
  | CSignature => [313]
  | CCheckNonce => [315]
  | CCheckIss => [303]
  | CCheckAud => [316]
  | CProofFromText | CIssuerCode | CTokenCode | CTokenType
  | CValidateMetadata | CValidateRequest | CValidateToken | CValidateTokenSuccess
  | CValidateProof | CValidateKey => [1]
  | CUrlEncode | CErrorResponse | CTokenSuccessResponse | CTokenErrorResponse
  | CProofToText | CMessage | CEncodeCredential | CValidateOffer => []
  end.

(** The code in the published information of an error. *)
Definition code_shown (d : deps) (a : any_error) : N :=
  match a with
  | AValidation e => ei_code (validation_error_information e)
  | AJwt e => ei_code (jwt_error_information d e)
  | AIssuer e => ei_code (issuer_error_information d e)
  | AToken e => ei_code (token_error_information e)
  end.

(** Some application making the call meets the code. *)
Definition met (d : deps) (c : call) (n : N) : Prop :=
  exists e a, reported d c e /\ within a e /\ code_shown d a = n.

(** The published codes nobody meets. *)
Definition never_met : list N := [104; 105; 106; 107; 110; 300; 312].
