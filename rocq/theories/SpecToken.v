(** What the token endpoint is supposed to do, without the model's functions. *)
From Verif Require Import Model.Prelude Model.Json Model.Types Spec.

(** The PIN length check that exists: at most nine decimal digits. *)
Definition pin_length_ok (pin : option N) : Prop :=
  forall n k, pin = Some n -> decimal_digits n k -> k <= 9.

(** The error for a longer PIN; the number in the text is one less than the
    number of digits. *)
Definition pin_length_error (n : N) (e : token_error) : Prop :=
  exists k text, decimal_digits n k /\ decimal_text (k - 1) text
    /\ e = TValidationError
             (VAny (lit "user pin exeeded length. Maximum is 8, supplied is " ++ text)).

(** A grant requires a PIN only if it says so. *)
Definition pin_required (g : preauth_flow) : Prop := pf_user_pin_required g = Some true.

Definition expected_pin (opts : option token_options) (n : N) : Prop :=
  exists o, opts = Some o /\ to_expected_user_pin o = Some n.

(** The pre-authorized rule: right code, PIN present exactly when required, and
    a present PIN is the expected one. *)
Definition grant_satisfied (g : preauth_flow) (code : str) (pin : option N)
    (opts : option token_options) : Prop :=
  code = pf_code g
  /\ (pin <> None <-> pin_required g)
  /\ (forall n, pin = Some n -> expected_pin opts n).

(** Acceptance of a token request. *)
Inductive token_accepted
  : token_request -> option credential_offer -> option token_options -> Prop :=
| token_accept code pin offer g opts :
    pin_length_ok pin ->
    og_pre (co_grants offer) = Some g ->
    grant_satisfied g code pin opts ->
    token_accepted {| tr_grant_type := GPreAuthorized code pin |} (Some offer) opts.

(** Why a pre-authorized grant is not satisfied; the first applicable reason. *)
Inductive grant_error (g : preauth_flow) (code : str) (opts : option token_options)
  : option N -> token_error -> Prop :=
| ge_no_expected n :
    (forall m, ~ expected_pin opts m) ->
    grant_error g code opts (Some n)
      (TOptionsAreRequiredForEvaluation (lit "user_pin was supplied in the access token request"))
| ge_mismatch n m :
    expected_pin opts m -> n <> m -> grant_error g code opts (Some n) TUserPinMismatch
| ge_values pin required code_matches :
    (forall n, pin = Some n -> expected_pin opts n) ->
    (required = true <-> pin_required g) ->
    (code_matches = true <-> code = pf_code g) ->
    ~ (code = pf_code g /\ (pin <> None <-> pin_required g)) ->
    grant_error g code opts pin (TInvalidPreAuthorizedCodeFlowValues required code_matches).

(** The error for a pre-authorized request against an authorized grant. *)
Definition wrong_grant_error : token_error :=
  TInvalidGrantType (lit "pre_authorized_code_flow") [lit "authorized_code_flow"].

(** Rejection of a token request with its reason; the rules are in order of
    precedence and their premises exclude each other. *)
Inductive token_rejected
  : token_request -> option credential_offer -> option token_options -> token_error -> Prop :=
| rej_pin_length code n k offer opts e :
    decimal_digits n k -> 9 < k -> pin_length_error n e ->
    token_rejected {| tr_grant_type := GPreAuthorized code (Some n) |} offer opts e
| rej_authorization_code offer opts :
    token_rejected {| tr_grant_type := GAuthorizedCode |} offer opts TAuthorizedFlowNotSupported
| rej_no_offer code pin opts :
    pin_length_ok pin ->
    token_rejected {| tr_grant_type := GPreAuthorized code pin |} None opts
                   TCredentialOfferMustBeSupplied
| rej_no_grants code pin offer opts :
    pin_length_ok pin -> og_auth (co_grants offer) = None -> og_pre (co_grants offer) = None ->
    token_rejected {| tr_grant_type := GPreAuthorized code pin |} (Some offer) opts
                   TNoFlowSupportedInCredentialOffer
| rej_only_authorized code pin offer opts a :
    pin_length_ok pin -> og_auth (co_grants offer) = Some a -> og_pre (co_grants offer) = None ->
    token_rejected {| tr_grant_type := GPreAuthorized code pin |} (Some offer) opts
                   wrong_grant_error
| rej_pre_authorized code pin offer opts g e :
    pin_length_ok pin -> og_auth (co_grants offer) = None -> og_pre (co_grants offer) = Some g ->
    grant_error g code opts pin e ->
    token_rejected {| tr_grant_type := GPreAuthorized code pin |} (Some offer) opts e
| rej_both code pin offer opts a g e :
    pin_length_ok pin -> og_auth (co_grants offer) = Some a -> og_pre (co_grants offer) = Some g ->
    grant_error g code opts pin e ->
    token_rejected {| tr_grant_type := GPreAuthorized code pin |} (Some offer) opts
                   (TInvalidAuthorizedAndPreAuthorizedCodeFlow wrong_grant_error e).

(** The pre-authorized reason inside an error. *)
Definition pre_authorized_reason (e : token_error) : token_error :=
  match e with TInvalidAuthorizedAndPreAuthorizedCodeFlow _ p => p | _ => e end.

(** OAuth / OpenID4VCI names of the error codes, as documented at
    access_token/error_response.rs and RFC 6749. *)
Inductive oauth_code : token_error_code -> string -> Prop :=
| oc_request : oauth_code TInvalidRequest "invalid_request"
| oc_client : oauth_code TInvalidClient "invalid_client"
| oc_grant : oauth_code TInvalidGrant "invalid_grant"
| oc_denied : oauth_code TAccessDenied "access_denied"
| oc_response_type : oauth_code TUnsupportedResponseType "unsupported_response_type"
| oc_scope : oauth_code TInvalidScope "invalid_scope"
| oc_server : oauth_code TServerError "server_error"
| oc_unavailable : oauth_code TTemporarilyUnavailable "temporarily_unavailable".

(** OpenID4VCI 7.3.1 names. *)
Inductive vci_code : issuer_error_code -> string -> Prop :=
| vc_request : vci_code IInvalidRequest "invalid_request"
| vc_token : vci_code IInvalidToken "invalid_token"
| vc_type : vci_code IUnsupportedCredentialType "unsupported_credential_type"
| vc_format : vci_code IUnsupportedCredentialFormat "unsupported_credential_format"
| vc_proof : vci_code IInvalidOrMissingProof "invalid_or_missing_proof".

(** A JSON object has member [k] with value [v], and no other member [k]. *)
Definition only_member (m : list (str * json)) (k : string) (v : json) : Prop :=
  In (lit k, v) m /\ count_occ (list_eq_dec ascii_dec) (map fst m) (lit k) = 1%nat.
