(** access_token/ and types/token_type.rs *)
From Verif Require Import Model.Prelude Model.Json Model.Types Model.Deps Model.Serde Model.Errors.

(** [u64::checked_ilog10]: the exponent of the largest power of ten not above
    [n]; [None] for 0. The fuel (bit size) bounds the number of divisions. *)
Fixpoint ilog10_fuel (fuel : nat) (n : N) : N :=
  match fuel with
  | O => 0
  | S f => if n <? 10 then 0 else 1 + ilog10_fuel f (n / 10)
  end.
Definition checked_ilog10 (n : N) : option N :=
  if n =? 0 then None else Some (ilog10_fuel (N.to_nat (N.size n)) n).

(** access_token/mod.rs:101-122 [GrantType::validate]. *)
Definition grant_type_validate (g : grant_type) : res validation_error unit :=
  match g with
  | GAuthorizedCode => Ok tt
  | GPreAuthorized _ user_pin =>
      match user_pin with
      | Some pin =>
          let max := 8 in
          let length := match checked_ilog10 pin with Some l => l | None => 0 end in
          if max <? length then
            Err (VAny (lit "user pin exeeded length. Maximum is " ++ dec max
                       ++ lit ", supplied is " ++ dec length))
          else Ok tt
      | None => Ok tt
      end
  end.

(** access_token/mod.rs:131-137 [AccessTokenRequest::validate]. *)
Definition token_request_validate (r : token_request) : res validation_error unit :=
  let? _ := grant_type_validate (tr_grant_type r) in Ok tt.

(** access_token/mod.rs:166-175, closure [validate_authorized_code_flow]. *)
Definition validate_authorized_code_flow (a : auth_flow) (g : grant_type) : res token_error unit :=
  match g with
  | GAuthorizedCode => Ok tt
  | GPreAuthorized _ _ =>
      Err (TInvalidGrantType (lit "pre_authorized_code_flow") [lit "authorized_code_flow"])
  end.

(** access_token/mod.rs:177-213, closure [validate_pre_authorized_code_flow]. *)
Definition validate_pre_authorized_code_flow (options : option token_options)
    (p : preauth_flow) (g : grant_type) : res token_error unit :=
  match g with
  | GAuthorizedCode =>
      Err (TInvalidGrantType (lit "authorized_code_flow") [lit "pre_authorized_code_flow"])
  | GPreAuthorized pre_authorized_code user_pin =>
      let? _ :=
        match user_pin with
        | Some pin =>
            let? expected :=
              ok_or (opt_bind options to_expected_user_pin)
                (TOptionsAreRequiredForEvaluation
                   (lit "user_pin was supplied in the access token request")) in
            if negb (pin =? expected) then Err TUserPinMismatch else Ok tt
        | None => Ok tt
        end in
      let should_pin_be_supplied :=
        match pf_user_pin_required p with Some b => b | None => false end in
      let does_code_match := str_eqb (pf_code p) pre_authorized_code in
      let is_valid := Bool.eqb (is_some user_pin) should_pin_be_supplied && does_code_match in
      if is_valid then Ok tt
      else Err (TInvalidPreAuthorizedCodeFlowValues should_pin_be_supplied does_code_match)
  end.

(** access_token/mod.rs:155-255 [evaluate_access_token_request]. *)
Definition evaluate_access_token_request (r : token_request) (offer : option credential_offer)
    (options : option token_options) : res token_error unit :=
  let? _ := map_err TValidationError (token_request_validate r) in
  match tr_grant_type r with
  | GAuthorizedCode => Err TAuthorizedFlowNotSupported
  | GPreAuthorized _ _ =>
      match offer with
      | Some o =>
          match og_auth (co_grants o), og_pre (co_grants o) with
          | None, None => Err TNoFlowSupportedInCredentialOffer
          | None, Some p => validate_pre_authorized_code_flow options p (tr_grant_type r)
          | Some a, None => validate_authorized_code_flow a (tr_grant_type r)
          | Some a, Some p =>
              match validate_authorized_code_flow a (tr_grant_type r),
                    validate_pre_authorized_code_flow options p (tr_grant_type r) with
              | Panic, _ => Panic
              | _, Panic => Panic
              | Err ae, Err pe => Err (TInvalidAuthorizedAndPreAuthorizedCodeFlow ae pe)
              | _, _ => Ok tt
              end
          end
      | None => Err TCredentialOfferMustBeSupplied
      end
  end.

(** access_token/mod.rs:262-276 [create_access_token_error_response]. *)
Definition create_access_token_error_response (error : token_error_code)
    (description uri : option str) (details : option json)
    : res token_error (error_response token_error_code) :=
  Ok {| resp_error := error; resp_description := description; resp_uri := uri;
        resp_details := details |}.

(** access_token/mod.rs:284-306 [create_access_token_success_response]; [now] is
    [Utc::now()]. *)
Definition create_access_token_success_response (now : instant) (access_token : str)
    (token_type : token_type) (expires_in : option N) (scope : option str) (c_nonce : option str)
    (c_nonce_expires_in : option N) (authorization_pending : option bool) (interval : option N)
    : res token_error (token_success * instant) :=
  Ok ({| ts_access_token := access_token; ts_token_type := token_type;
         ts_expires_in := expires_in; ts_scope := scope; ts_c_nonce := c_nonce;
         ts_c_nonce_expires_in := c_nonce_expires_in;
         ts_authorization_pending := authorization_pending; ts_interval := interval |}, now).

(** access_token/mod.rs:66-75 [AccessTokenSuccessResponse::validate]. *)
Definition token_success_validate (t : token_success) : res validation_error unit :=
  if is_none (ts_c_nonce t) && is_some (ts_c_nonce_expires_in t)
  then Err (VAny (lit "c_nonce_expires_in is provided, but c_nonce is not"))
  else Ok tt.

(** access_token/error_response.rs:65-78 [From<AccessTokenErrorCode> for &str]. *)
Definition token_code_to_str (c : token_error_code) : str :=
  match c with
  | TInvalidRequest => lit "invalid_request"
  | TInvalidClient => lit "invalid_client"
  | TInvalidGrant => lit "invalid_grant"
  | TAccessDenied => lit "access_denied"
  | TUnsupportedResponseType => lit "unsupported_response_type"
  | TInvalidScope => lit "invalid_scope"
  | TServerError => lit "server_error"
  | TTemporarilyUnavailable => lit "temporarily_unavailable"
  end.

(** access_token/error_response.rs:80-98 [TryFrom<String>]. *)
Definition token_code_try_from (s : str) : res validation_error token_error_code :=
  if str_eqb s (lit "invalid_request") then Ok TInvalidRequest
  else if str_eqb s (lit "invalid_client") then Ok TInvalidClient
  else if str_eqb s (lit "invalid_grant") then Ok TInvalidGrant
  else if str_eqb s (lit "access_denied") then Ok TAccessDenied
  else if str_eqb s (lit "unsupported_response_type") then Ok TUnsupportedResponseType
  else if str_eqb s (lit "invalid_scope") then Ok TInvalidScope
  else if str_eqb s (lit "server_error") then Ok TServerError
  else if str_eqb s (lit "temporarily_unavailable") then Ok TTemporarilyUnavailable
  else Err (VAny (lit "Invalid access token error code")).

(** types/token_type.rs:12-18 and 20-31. *)
Definition token_type_to_str (t : token_type) : str := match t with Bearer => lit "Bearer" end.
Definition token_type_try_from (s : str) : res validation_error token_type :=
  if str_eqb s (lit "Bearer") then Ok Bearer
  else Err (VAny (lit "Invalid access token type")).
