(** Properties of the token endpoint (access_token/). Theorems only; proofs are
    in Proofs/TokenFacts.v, vocabulary in Spec.v and SpecToken.v. *)
From Coq Require Import Lia.
From Verif Require Import Model.Prelude Model.Json Model.Types Model.Serde Model.Errors
  Model.AccessToken Model.Wire Spec SpecToken SpecJson Proofs.GrammarFacts Proofs.TokenFacts.

(** Shared examples: an offer with a PIN-protected grant. *)
Definition ex_grant : preauth_flow :=
  {| pf_code := lit "SplxlOBeZQQYbYS6WxSbIA"; pf_user_pin_required := Some true |}.
Definition ex_offer (a : option auth_flow) : credential_offer :=
  {| co_credential_issuer := lit "https://issuer.example.com";
     co_credentials := [CredentialId (lit "UniversityDegree")];
     co_grants := {| og_auth := a; og_pre := Some ex_grant |} |}.
Definition ex_request (pin : option N) : token_request :=
  {| tr_grant_type := GPreAuthorized (lit "SplxlOBeZQQYbYS6WxSbIA") pin |}.
Definition ex_options (pin : N) : option token_options := Some {| to_expected_user_pin := Some pin |}.

(** * C01 *)
Theorem C01_token_request_accepted_iff : forall r offer opts,
  evaluate_access_token_request r offer opts = Ok tt <-> token_accepted r offer opts.
Proof. exact evaluate_ok. Qed.
Print Assumptions C01_token_request_accepted_iff.

Example C01_accepted : token_accepted (ex_request (Some 493536)) (Some (ex_offer None)) (ex_options 493536).
Proof. apply evaluate_ok. reflexivity. Qed.
Example C01_not_accepted : ~ token_accepted (ex_request (Some 493536)) (Some (ex_offer None)) (ex_options 493537).
Proof. intros H. apply evaluate_ok in H. discriminate. Qed.

(** * C02: every rejection, with its reason, and no third outcome *)
Theorem C02_token_request_rejected_iff : forall r offer opts e,
  evaluate_access_token_request r offer opts = Err e <-> token_rejected r offer opts e.
Proof. exact evaluate_err. Qed.
Print Assumptions C02_token_request_rejected_iff.

Theorem C02_token_evaluation_never_panics : forall r offer opts,
  evaluate_access_token_request r offer opts <> Panic.
Proof. exact evaluate_no_panic. Qed.
Print Assumptions C02_token_evaluation_never_panics.

Example C02_wrapped : token_rejected (ex_request (Some 1)) (Some (ex_offer (Some {| af_issuer_state := None |})))
  (ex_options 2) (TInvalidAuthorizedAndPreAuthorizedCodeFlow wrong_grant_error TUserPinMismatch).
Proof. apply evaluate_err. reflexivity. Qed.
Example C02_code : token_rejected {| tr_grant_type := GPreAuthorized (lit "other") (Some 2) |}
  (Some (ex_offer None)) (ex_options 2) (TInvalidPreAuthorizedCodeFlowValues true false).
Proof. apply evaluate_err. reflexivity. Qed.

(** * C03 *)
Theorem C03_authorization_code_never_accepted : forall offer opts,
  evaluate_access_token_request {| tr_grant_type := GAuthorizedCode |} offer opts
  = Err TAuthorizedFlowNotSupported.
Proof. exact authorization_code_rejected. Qed.
Print Assumptions C03_authorization_code_never_accepted.

(** * C04: the documented bound of eight digits is false; nine digits pass *)
Definition C04_claim : Prop :=
  forall code n k, u64 n -> decimal_digits n k -> 8 < k ->
    exists e, token_request_validate {| tr_grant_type := GPreAuthorized code (Some n) |} = Err e.
Theorem C04_eight_digit_bound_refuted : ~ C04_claim.
Proof. exact nine_digit_counterexample. Qed.
Print Assumptions C04_eight_digit_bound_refuted.

Theorem C04_up_to_nine_digits_pass : forall code n k, decimal_digits n k -> k <= 9 ->
  token_request_validate {| tr_grant_type := GPreAuthorized code (Some n) |} = Ok tt.
Proof. exact pin_validate_ok. Qed.
Print Assumptions C04_up_to_nine_digits_pass.

Example C04_nine_digits : decimal_digits 123456789 9.
Proof. right. vm_compute. repeat split; discriminate. Qed.
Example C04_nine_digits_redeemed :
  token_accepted (ex_request (Some 123456789)) (Some (ex_offer None)) (ex_options 123456789).
Proof. apply evaluate_ok. reflexivity. Qed.

(** * C05 *)
Theorem C05_pin_length_boundary : forall code pin,
  (exists e, token_request_validate {| tr_grant_type := GPreAuthorized code pin |} = Err e)
  <-> (exists n k, pin = Some n /\ decimal_digits n k /\ 10 <= k).
Proof. exact pin_validate_iff. Qed.
Print Assumptions C05_pin_length_boundary.

Theorem C05_reported_length_is_one_too_small : forall code n k, decimal_digits n k -> 9 < k ->
  exists text, decimal_text (k - 1) text /\
    token_request_validate {| tr_grant_type := GPreAuthorized code (Some n) |}
    = Err (VAny (lit "user pin exeeded length. Maximum is 8, supplied is " ++ text)).
Proof. exact pin_validate_err. Qed.
Print Assumptions C05_reported_length_is_one_too_small.

Theorem C05_digit_count_is_a_function : forall n,
  (exists k, decimal_digits n k) /\ (forall k1 k2, decimal_digits n k1 -> decimal_digits n k2 -> k1 = k2).
Proof. exact (fun n => conj (decimal_digits_exists n) (decimal_digits_unique n)). Qed.
Print Assumptions C05_digit_count_is_a_function.

Example C05_zero_passes :
  token_request_validate {| tr_grant_type := GPreAuthorized [] (Some 0) |} = Ok tt
  /\ token_request_validate {| tr_grant_type := GPreAuthorized [] None |} = Ok tt.
Proof. split; reflexivity. Qed.
Example C05_ten_digits : decimal_digits 1000000000 10 /\ u64 1000000000.
Proof. split; [right; vm_compute; repeat split; discriminate|reflexivity]. Qed.
Example C05_largest_pin : decimal_digits 18446744073709551615 20.
Proof. right. vm_compute. repeat split; discriminate. Qed.

(** * C06: the two offers may differ in everything but the pre-authorized grant *)
Theorem C06_authorized_grant_is_irrelevant : forall r o1 o2 opts g,
  og_pre (co_grants o1) = Some g -> og_pre (co_grants o2) = Some g ->
  (evaluate_access_token_request r (Some o1) opts = Ok tt <->
   evaluate_access_token_request r (Some o2) opts = Ok tt)
  /\ (forall e1, evaluate_access_token_request r (Some o1) opts = Err e1 ->
      exists e2, evaluate_access_token_request r (Some o2) opts = Err e2
        /\ pre_authorized_reason e1 = pre_authorized_reason e2).
Proof. exact same_grant_same_verdict. Qed.
Print Assumptions C06_authorized_grant_is_irrelevant.

Example C06_case : og_pre (co_grants (ex_offer None)) = Some ex_grant
  /\ og_pre (co_grants (ex_offer (Some {| af_issuer_state := None |}))) = Some ex_grant.
Proof. split; reflexivity. Qed.

(** * C07 *)
Theorem C07_token_success_response :
  forall now access_token token_type expires_in scope c_nonce c_nonce_expires_in
         authorization_pending interval,
  exists t,
    create_access_token_success_response now access_token token_type expires_in scope c_nonce
      c_nonce_expires_in authorization_pending interval = Ok (t, now)
    /\ ts_access_token t = access_token /\ ts_token_type t = token_type
    /\ ts_expires_in t = expires_in /\ ts_scope t = scope /\ ts_c_nonce t = c_nonce
    /\ ts_c_nonce_expires_in t = c_nonce_expires_in
    /\ ts_authorization_pending t = authorization_pending /\ ts_interval t = interval
    /\ (rust_string access_token -> on_some u32 expires_in -> on_some rust_string scope ->
        on_some rust_string c_nonce -> on_some u32 c_nonce_expires_in -> on_some u32 interval ->
        token_success_from_json (token_success_to_json t) = Some t).
Proof. exact create_token_success. Qed.
Print Assumptions C07_token_success_response.

Example C07_json :
  token_success_to_json
    {| ts_access_token := lit "eyJhbGci"; ts_token_type := Bearer; ts_expires_in := Some 86400;
       ts_scope := None; ts_c_nonce := Some (lit "tZignsnFbp"); ts_c_nonce_expires_in := Some 86400;
       ts_authorization_pending := Some false; ts_interval := None |}
  = lit "{""access_token"":""eyJhbGci"",""token_type"":""Bearer"",""expires_in"":86400,""scope"":null,""c_nonce"":""tZignsnFbp"",""c_nonce_expires_in"":86400,""authorization_pending"":false,""interval"":null}".
Proof. reflexivity. Qed.

(** * C08: false; exactly a lifetime without a nonce fails *)
Definition C08_claim : Prop :=
  forall now access_token token_type expires_in scope c_nonce c_nonce_expires_in
         authorization_pending interval t clock,
  create_access_token_success_response now access_token token_type expires_in scope c_nonce
    c_nonce_expires_in authorization_pending interval = Ok (t, clock) ->
  token_success_validate t = Ok tt.
Theorem C08_created_response_validates_refuted : ~ C08_claim.
Proof. exact token_success_validate_refuted. Qed.
Print Assumptions C08_created_response_validates_refuted.

Theorem C08_response_validates_iff : forall t,
  token_success_validate t = Ok tt <-> ~ (ts_c_nonce t = None /\ ts_c_nonce_expires_in t <> None).
Proof. exact token_success_validate_iff. Qed.
Print Assumptions C08_response_validates_iff.

Theorem C08_response_rejected_iff : forall t e,
  token_success_validate t = Err e <->
  ts_c_nonce t = None /\ ts_c_nonce_expires_in t <> None
  /\ e = VAny (lit "c_nonce_expires_in is provided, but c_nonce is not").
Proof. exact token_success_validate_err. Qed.
Print Assumptions C08_response_rejected_iff.

(** * C09 *)
Theorem C09_token_error_codes_bijective :
  (forall c name, oauth_code c name -> token_code_to_str c = lit name)
  /\ (forall c, token_code_try_from (token_code_to_str c) = Ok c)
  /\ (forall a b, token_code_to_str a = token_code_to_str b -> a = b)
  /\ (forall s, (forall c name, oauth_code c name -> s <> lit name) ->
      token_code_try_from s = Err (VAny (lit "Invalid access token error code")))
  /\ token_type_to_str Bearer = lit "Bearer"
  /\ token_type_try_from (lit "Bearer") = Ok Bearer
  /\ (forall s, s <> lit "Bearer" -> token_type_try_from s = Err (VAny (lit "Invalid access token type"))).
Proof. exact token_codes_bijection. Qed.
Print Assumptions C09_token_error_codes_bijective.

Example C09_case_variant : exists e, token_code_try_from (lit "Invalid_request") = Err e.
Proof. eexists. reflexivity. Qed.

(** * C67: round trip holds; the wire form is not the OAuth form, for any request *)
Theorem C67_token_request_round_trip : forall r, token_request_ok r ->
  token_request_from_json (token_request_to_json r) = Some r.
Proof. exact token_request_json_rt. Qed.
Print Assumptions C67_token_request_round_trip.

Theorem C67_flat_wire_form_refuted : forall r, token_request_ok r ->
  ~ (exists members name, json_text (token_request_to_json r) (JObj members)
       /\ In (lit "grant_type", JStr name) members).
Proof. by_reader token_request_wire_refuted. Qed.
Print Assumptions C67_flat_wire_form_refuted.

Theorem C67_actual_wire_form : forall r, token_request_ok r -> exists inner,
  json_text (token_request_to_json r) (JObj [(lit "grant_type", JObj inner)])
  /\ In (lit "grant_type", JStr (match tr_grant_type r with
       | GAuthorizedCode => lit "authorization_code"
       | GPreAuthorized _ _ => lit "urn:ietf:params:oauth:grant-type:pre-authorized_code" end)) inner.
Proof. by_reader token_request_wire. Qed.
Print Assumptions C67_actual_wire_form.

Example C67_json : token_request_to_json (ex_request (Some 493536))
  = lit "{""grant_type"":{""grant_type"":""urn:ietf:params:oauth:grant-type:pre-authorized_code"",""pre_authorized_code"":""SplxlOBeZQQYbYS6WxSbIA"",""user_pin"":493536}}".
Proof. reflexivity. Qed.
