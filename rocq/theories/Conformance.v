(** The crate's own unit tests, run on the model: 52 of the 53 [#[test]]s of /repo with its
    inputs and the result it asserts. They are no theorems about all inputs; they
    tie the model to outputs the authors of the code expect. The JSON documents of
    the tests are given in compact form. Where a test needs ssi (DID documents,
    JWKs), the value ssi would hand over is written down here. *)
From Verif Require Import Model.Prelude Model.Utf8 Model.Base64 Model.Json Model.Types Model.Deps
  Model.Chrono Model.Serde Model.Errors Model.Jwt Model.AccessToken Model.CredentialIssuer Examples.

(* ------------------------------------------------------------------ *)
(** * What the tests take from ssi *)

(** [DIDURL::try_from]: DID, path from the first [/], query after [?], fragment
    after [#]. *)
Fixpoint until (stop : list ascii) (s : str) : str * str :=
  match s with
  | [] => ([], [])
  | c :: r => if existsb (Ascii.eqb c) stop then ([], s)
              else let (a, b) := until stop r in (c :: a, b)
  end.
Definition test_did_url (s : str) : str + didurl :=
  match expect (lit "did:") s with
  | None => inl (lit "invalid DID URL")
  | Some _ =>
      let (did, rest) := until ["/"; "?"; "#"]%char s in
      let (path, rest) := until ["?"; "#"]%char rest in
      let (query, fragment) := until ["#"]%char rest in
      inr {| du_did := did; du_path := path;
             du_query := match query with [] => None | _ :: q => Some q end;
             du_fragment := match fragment with [] => None | _ :: f => Some f end |}
  end.

(** A DID document as its verification methods by DID URL; [jwk] is what the text
    of a JWK is read as. *)
Definition test_deps (k : jwk) : deps := {|
  Document := list (str * jwk);
  VerificationMethod := jwk;
  did_url_try_from := test_did_url;
  select_object := fun doc u =>
    match assoc (didurl_to_string u) doc with
    | Some k => inr (RVerificationMethod k)
    | None => inl (lit "Resource not found")
    end;
  get_jwk := fun k => inr k;
  jwk_from_str := fun _ => inr k;
  dt_parse := chrono_parse;
  dt_print := chrono_print;
  dt_display := chrono_display;
  base64_error := fun _ => lit "base64";
  serde_error := fun _ => lit "serde";
  lower_table := fun _ c _ => [c];
  upper_table := fun c => [c];
  flatten_unit_ok := true |}.
Definition no_jwk : jwk := {| jwk_algorithm := None; jwk_parameters := PSymmetric |}.
Definition d0 : deps := test_deps no_jwk.

Definition bytes (l : list N) : str := map chr l.
Definition is_ok {E A : Type} (r : res E A) : bool := match r with Ok _ => true | _ => false end.

(* ------------------------------------------------------------------ *)
(** * jwt/mod.rs *)

Definition test_vector : str := lit "eyJraWQiOiJkaWQ6ZXhhbXBsZTplYmZlYjFmNzEyZWJjNmYxYzI3NmUxMmVjMjEva2V5cy8xIiwiYWxnIjoiRVMyNTYiLCJ0eXAiOiJKV1QifQ.eyJpc3MiOiJzNkJoZFJrcXQzIiwiYXVkIjoiaHR0cHM6Ly9zZXJ2ZXIuZXhhbXBsZS5jb20iLCJpYXQiOiIyMDE4LTA5LTE0VDIxOjE5OjEwWiIsIm5vbmNlIjoidFppZ25zbkZicCJ9".
Definition header (alg : proof_alg) (a : option additional_header) : jwt_header :=
  {| h_typ := lit "JWT"; h_alg := alg; h_additional := a |}.

(** jwt/mod.rs:590-615. 1536959950 is the Unix time the test asserts. *)
Definition vector_jwt : proof_jwt :=
  {| j_header := header ES256 (Some (KeyId (lit "did:example:ebfeb1f712ebc6f1c276e12ec21/keys/1")));
     j_body := {| b_iss := Some (lit "s6BhdRkqt3"); b_aud := lit "https://server.example.com";
                  b_sub := None; b_iat := (1536959950 * 1000000000)%Z; b_nonce := lit "tZignsnFbp";
                  b_nbf := None; b_exp := None |};
     j_signature := None |}.
Example should_create_structure_from_valid_jwt : jwt_from_str d0 test_vector = Ok vector_jwt.
Proof. vm_compute. reflexivity. Qed.

(** jwt/mod.rs:617-624, at every time. *)
Example should_verify_valid_jwt : forall now, jwt_verify now vector_jwt = Ok tt.
Proof. reflexivity. Qed.

(** jwt/mod.rs:626-640. *)
Example should_error_on_invalid_issuer_id :
  jwt_check_iss vector_jwt (Some (lit "invalid-id"))
  = Err (JIssuerMismatch (Some (lit "invalid-id")) (Some (lit "s6BhdRkqt3"))).
Proof. vm_compute. reflexivity. Qed.

(** jwt/mod.rs:642-696, at every time and for every earlier, or later, instant. *)
Definition dated (now : instant) (nbf exp : option instant) : proof_jwt :=
  {| j_header := header HS256 None;
     j_body := {| b_iss := None; b_aud := lit "aud"; b_sub := None; b_iat := now;
                  b_nonce := lit "nonce"; b_nbf := nbf; b_exp := exp |};
     j_signature := None |}.
Example should_error_on_invalid_expires_date : forall now past, (past < now)%Z ->
  jwt_verify now (dated now None (Some past)) = Err (JNotValidAnymore past now).
Proof. intros now past H. apply Z.ltb_lt in H. unfold jwt_verify, dated. cbn [j_body b_nbf b_exp]. now rewrite H. Qed.
Example should_error_on_invalid_not_before_date : forall now future, (now < future)%Z ->
  jwt_verify now (dated now (Some future) None) = Err (JNotYetValid future now).
Proof. intros now future H. apply Z.ltb_lt in H. unfold jwt_verify, dated. cbn [j_body b_nbf b_exp]. now rewrite H. Qed.

(** jwt/mod.rs:698-742. ssi reads the key [x] as base64url. *)
Definition okp (x : str) : jwk := {| jwk_algorithm := None; jwk_parameters := POKP x |}.
Definition doc_123 (x : str) : list (str * jwk) := [(lit "did:example:123#key-0", okp x)].
Example should_correctly_extract_public_key_from_did_and_did_doc : exists x,
  base64url_decode (lit "abc") = Some x /\
  header_extract_key_and_alg d0 (header AlgNone (Some (KeyId (lit "did:example:123#key-0"))))
    (Some (doc_123 x)) = Ok (x, AlgNone).
Proof. eexists. split; [vm_compute; reflexivity|]. vm_compute. reflexivity. Qed.

(** jwt/mod.rs:744-786. *)
Example should_fail_if_did_is_not_in_did_doc : forall x,
  header_extract_key_and_alg d0 (header AlgNone (Some (KeyId (lit "did:example:123#key-100"))))
    (Some (doc_123 x))
  = Err (JUnableToResolveDidInDidDocument (lit "did:example:123#key-100") (lit "Resource not found")).
Proof. reflexivity. Qed.

(** jwt/mod.rs:788-801. *)
Example should_error_if_did_is_supplied_without_did_doc :
  header_extract_key_and_alg d0 (header AlgNone (Some (KeyId (lit "did:example/key1")))) None
  = Err JNoDidDocumentProvidedForKidAsDid.
Proof. reflexivity. Qed.

(** jwt/mod.rs:803-827. *)
Definition read_as (a : jwk_alg) (p : jwk_params) : deps :=
  test_deps {| jwk_algorithm := Some a; jwk_parameters := p |}.
Example should_correctly_extract_public_key_ed25519_as_jwk : forall text,
  header_extract_key_and_alg (read_as JAEdDSA (PEC (Some (bytes [0; 1; 2; 3]))))
    (header EdDSA (Some (Jwk text))) None
  = Ok (bytes [0; 1; 2; 3], EdDSA).
Proof. reflexivity. Qed.

(** jwt/mod.rs:829-846. *)
Example should_not_extract_ed25519_key_if_x_is_not_defined : forall text,
  header_extract_key_and_alg (read_as JAEdDSA (PEC None)) (header EdDSA (Some (Jwk text))) None
  = Err JEdDSAHasNoXCoordinate.
Proof. reflexivity. Qed.

(** jwt/mod.rs:848-865. *)
Example should_not_extract_es256_key : forall text,
  header_extract_key_and_alg (read_as (JAOther (lit "ES256")) (PEC None))
    (header ES256 (Some (Jwk text))) None
  = Err (JUnsupportedAlgorithm (lit """ES256""")).
Proof. reflexivity. Qed.

(** jwt/mod.rs:867-924. *)
Example should_fail_when_unsupported_rsa_algorithm_is_used : forall text,
  header_extract_key_and_alg (read_as (JAOther (lit "RS256")) PRSA)
    (header RS256 (Some (Jwk text))) None
  = Err (JUnsupportedAlgorithm (lit """RS256""")).
Proof. reflexivity. Qed.
Example should_fail_when_unsupported_rsassa_ps_algorithm_is_used : forall text,
  header_extract_key_and_alg (read_as (JAOther (lit "PS256")) PRSA)
    (header PS256 (Some (Jwk text))) None
  = Err (JUnsupportedAlgorithm (lit """PS256""")).
Proof. reflexivity. Qed.
Example should_fail_when_symmetric_is_used : forall text,
  header_extract_key_and_alg (read_as (JAOther (lit "HS256")) PSymmetric)
    (header HS256 (Some (Jwk text))) None
  = Err (JUnsupportedAlgorithm (lit """HS256""")).
Proof. reflexivity. Qed.

(* ------------------------------------------------------------------ *)
(** * base.rs:53-71. The test of validate.rs:66-73 reads a type of its own and is not
      repeated: in the model too, a document that cannot be read is always [VAny]. *)

Example should_round_trip_base64 :
  base64_decode (base64_encode (lit "Hello World!")) = Some (lit "Hello World!").
Proof. vm_compute. reflexivity. Qed.

Example should_round_trip_base64_url :
  base64url_decode (base64url_encode (lit "Hello World!")) = Some (lit "Hello World!").
Proof. vm_compute. reflexivity. Qed.

(* ------------------------------------------------------------------ *)
(** * access_token/mod.rs *)

Definition pre_request (code : string) (pin : option N) : token_request :=
  {| tr_grant_type := GPreAuthorized (lit code) pin |}.
Definition me_offer (a : option auth_flow) (p : option preauth_flow) : credential_offer :=
  {| co_credential_issuer := lit "me"; co_credentials := [];
     co_grants := {| og_auth := a; og_pre := p |} |}.
Definition abc_flow (required : option bool) : preauth_flow :=
  {| pf_code := lit "abc"; pf_user_pin_required := required |}.
Definition no_state : auth_flow := {| af_issuer_state := None |}.
Definition expects (pin : N) : option token_options := Some {| to_expected_user_pin := Some pin |}.

(** access_token/mod.rs:315-346. *)
Example should_evaluate_access_token_request :
  evaluate_access_token_request (pre_request "abc" (Some 123213))
    (Some (me_offer (Some no_state) (Some (abc_flow (Some true))))) (expects 123213) = Ok tt.
Proof. vm_compute. reflexivity. Qed.

(** access_token/mod.rs:348-368. *)
Example should_not_evaluate_access_token_request_without_credential_offer :
  evaluate_access_token_request (pre_request "0123" (Some 123213)) None (expects 123213)
  = Err TCredentialOfferMustBeSupplied.
Proof. vm_compute. reflexivity. Qed.

(** access_token/mod.rs:370-401. *)
Example should_not_evaluate_access_token_request_with_pin_mismatch :
  evaluate_access_token_request (pre_request "0123" (Some 123213))
    (Some (me_offer None (Some (abc_flow (Some true))))) (expects 111) = Err TUserPinMismatch.
Proof. vm_compute. reflexivity. Qed.

(** access_token/mod.rs:403-440. *)
Example should_not_evaluate_access_token_request_with_pre_authorized_code_mismatch : exists b,
  evaluate_access_token_request (pre_request "0123" (Some 123213))
    (Some (me_offer None (Some (abc_flow (Some true))))) (expects 123213)
  = Err (TInvalidPreAuthorizedCodeFlowValues b false).
Proof. eexists. vm_compute. reflexivity. Qed.

(** access_token/mod.rs:442-472. *)
Example should_evaluate_access_token_with_both_grant_types_in_credential_offer :
  evaluate_access_token_request (pre_request "abc" None)
    (Some (me_offer (Some no_state) (Some (abc_flow None)))) None = Ok tt.
Proof. vm_compute. reflexivity. Qed.

(** access_token/mod.rs:474-506. *)
Example should_evaluate_access_token_with_matching_grant_type_in_credential_offer :
  evaluate_access_token_request (pre_request "abc" (Some 123))
    (Some (me_offer None (Some (abc_flow (Some true))))) (expects 123) = Ok tt.
Proof. vm_compute. reflexivity. Qed.

(** access_token/mod.rs:508-544. *)
Example should_not_evaluate_access_token_with_required_pin_but_none_supplied :
  evaluate_access_token_request (pre_request "abc" None)
    (Some (me_offer None (Some (abc_flow (Some true))))) None
  = Err (TInvalidPreAuthorizedCodeFlowValues true true).
Proof. vm_compute. reflexivity. Qed.

(** access_token/mod.rs:546-572: a PIN of eleven digits, called ten. *)
Example should_not_evaluate_access_token_request_when_user_pin_is_invalid :
  evaluate_access_token_request (pre_request "0123" (Some 11111111111)) None None
  = Err (TValidationError (VAny (lit "user pin exeeded length. Maximum is 8, supplied is 10"))).
Proof. vm_compute. reflexivity. Qed.

(** access_token/mod.rs:574-591. *)
Example should_not_evaluate_access_token_request_when_authorized_code_flow_is_used :
  evaluate_access_token_request {| tr_grant_type := GAuthorizedCode |} None None
  = Err TAuthorizedFlowNotSupported.
Proof. vm_compute. reflexivity. Qed.

(** access_token/mod.rs:593-623. *)
Example should_not_evaluate_access_token_request_when_grant_type_in_offer_does_not_match :
  exists requested accepted,
  evaluate_access_token_request (pre_request "abc" None) (Some (me_offer (Some no_state) None)) None
  = Err (TInvalidGrantType requested accepted).
Proof. do 2 eexists. vm_compute. reflexivity. Qed.

(** access_token/mod.rs:630-646. *)
Example token_error_response : exists r,
  create_access_token_error_response TInvalidRequest (Some (lit "error description"))
    (Some (lit "error uri")) None = Ok r /\
  resp_error r = TInvalidRequest /\ resp_description r = Some (lit "error description") /\
  resp_uri r = Some (lit "error uri").
Proof. eexists. repeat split. Qed.

(** access_token/mod.rs:653-675. *)
Example token_success_response : forall now, exists r t,
  create_access_token_success_response now (lit "Hello") Bearer (Some 3600) (Some (lit "scope"))
    (Some (lit "c_nonce")) (Some 3600) (Some true) (Some 5) = Ok (r, t) /\
  ts_access_token r = lit "Hello" /\ ts_token_type r = Bearer /\ ts_expires_in r = Some 3600 /\
  ts_scope r = Some (lit "scope") /\ ts_c_nonce r = Some (lit "c_nonce") /\
  ts_c_nonce_expires_in r = Some 3600 /\ ts_authorization_pending r = Some true /\
  ts_interval r = Some 5.
Proof. intros now. do 2 eexists. repeat split. Qed.

(** access_token/error_response.rs:104-136. *)
Example should_convert_valid_error_names_to_enum :
  map token_code_to_str
    [TInvalidRequest; TInvalidGrant; TInvalidClient; TAccessDenied; TUnsupportedResponseType;
     TInvalidScope; TServerError; TTemporarilyUnavailable]
  = map lit ["invalid_request"; "invalid_grant"; "invalid_client"; "access_denied";
             "unsupported_response_type"; "invalid_scope"; "server_error";
             "temporarily_unavailable"]%string.
Proof. reflexivity. Qed.

(* ------------------------------------------------------------------ *)
(** * credential_issuer/error_code.rs:86-102 *)

Definition issuer_codes : list issuer_error_code :=
  [IInvalidRequest; IInvalidToken; IUnsupportedCredentialType; IUnsupportedCredentialFormat;
   IInvalidOrMissingProof].
Definition issuer_code_texts : list str :=
  map lit ["invalid_request"; "invalid_token"; "unsupported_credential_type";
           "unsupported_credential_format"; "invalid_or_missing_proof"]%string.
Example should_transform_to_correct_string : map issuer_code_to_str issuer_codes = issuer_code_texts.
Proof. reflexivity. Qed.
Example should_transform_to_correct_enum_value :
  map issuer_code_try_from issuer_code_texts = map Ok issuer_codes.
Proof. reflexivity. Qed.

(* ------------------------------------------------------------------ *)
(** * credential_issuer/error.rs *)

(** credential_issuer/error.rs:104-121. The test asserts the description
    ["some error"], but [#[error(transparent)]] shows the fixed text of
    validate.rs:12: that assertion does not hold of the code. The other three do. *)
Example should_extract_correct_information_for_validation_error :
  let i := issuer_error_information d0 (IValidationError (VAny (lit "some error"))) in
  ei_code i = 100 /\ ei_name i = lit "ValidationError" /\
  ei_additional i = Some (JObj [(lit "validation_message", JStr (lit "some error"))]) /\
  ei_description i <> lit "some error".
Proof. vm_compute. repeat split; discriminate. Qed.

(** credential_issuer/error.rs:123-131. *)
Example should_extract_correct_information_for_authorized_flow_not_supported :
  issuer_error_information d0 IAuthorizedFlowNotSupported
  = {| ei_code := 102; ei_name := lit "AuthorizedFlowNotSupported";
       ei_description := lit "The Authorized flow is currently not supported";
       ei_additional := Some JNull |}.
Proof. reflexivity. Qed.

(** credential_issuer/error.rs:133-149. *)
Example should_extract_correct_information_for_credential_id_not_in_issuer_metadata :
  issuer_error_information d0 (ICredentialIdNotInIssuerMetadata (lit "cred_id_one"))
  = {| ei_code := 103; ei_name := lit "CredentialIdNotInIssuerMetadata";
       ei_description := lit "The id `cred_id_one` does not refer to a credential format inside the issuer metadata";
       ei_additional := Some (JObj [(lit "id", JStr (lit "cred_id_one"))]) |}.
Proof. vm_compute. reflexivity. Qed.

(** credential_issuer/error.rs:151-168. *)
Example should_extract_correct_information_for_invalid_credential_offer_encoding :
  issuer_error_information d0 (IInvalidCredentialOfferEncoding (lit "invalid encoding"))
  = {| ei_code := 104; ei_name := lit "InvalidCredentialOfferEncoding";
       ei_description := lit "Could not url-encode the credential";
       ei_additional := Some (JObj [(lit "error_message", JStr (lit "invalid encoding"))]) |}.
Proof. vm_compute. reflexivity. Qed.

(* ------------------------------------------------------------------ *)
(** * types/credential.rs *)

Definition read_cfp (text : string) : option cfp := opt_bind (parse_json (lit text)) de_cfp.
Definition both_types : list str := map lit ["VerifiableCredential"; "UniversityDegreeCredential"]%string.

(** types/credential.rs:211-282. *)
Example should_deserialize_jwt_vc_json_credential_from_json : exists subject,
  read_cfp "{""format"":""jwt_vc_json"",""id"":""UniversityDegree_JWT"",""types"":[""VerifiableCredential"",""UniversityDegreeCredential""],""cryptographic_binding_methods_supported"":[""did""],""cryptographic_suites_supported"":[""ES256K""],""display"":[{""name"":""University Credential"",""locale"":""en-US"",""logo"":{""url"":""https://exampleuniversity.com/public/logo.png"",""alt_text"":""a square logo of a university""},""background_color"":""#12107c"",""text_color"":""#FFFFFF""}],""credentialSubject"":{""given_name"":{""display"":[{""name"":""Given Name"",""locale"":""en-US""}]},""last_name"":{""display"":[{""name"":""Surname"",""locale"":""en-US""}]},""degree"":{},""gpa"":{""display"":[{""name"":""GPA""}]}}}"
  = Some (JwtVcJson both_types (Some subject) None).
Proof. eexists. vm_compute. reflexivity. Qed.

(** types/credential.rs:285-356. *)
Example should_deserialize_jwt_vc_json_ld_credential_from_json : exists subject,
  read_cfp "{""format"":""jwt_vc_json-ld"",""id"":""UniversityDegree_JWT"",""types"":[""VerifiableCredential"",""UniversityDegreeCredential""],""cryptographic_binding_methods_supported"":[""did""],""cryptographic_suites_supported"":[""ES256K""],""display"":[{""name"":""University Credential"",""locale"":""en-US"",""logo"":{""url"":""https://exampleuniversity.com/public/logo.png"",""alt_text"":""a square logo of a university""},""background_color"":""#12107c"",""text_color"":""#FFFFFF""}],""credentialSubject"":{""given_name"":{""display"":[{""name"":""Given Name"",""locale"":""en-US""}]},""last_name"":{""display"":[{""name"":""Surname"",""locale"":""en-US""}]},""degree"":{},""gpa"":{""display"":[{""name"":""GPA""}]}}}"
  = Some (JwtVcJsonLd both_types (Some subject) None).
Proof. eexists. vm_compute. reflexivity. Qed.

(** types/credential.rs:359-446. *)
Example should_deserialize_ldp_vc_credential_from_json : exists subject,
  read_cfp "{""format"":""ldp_vc"",""@context"":[""https://www.w3.org/2018/credentials/v1"",""https://www.w3.org/2018/credentials/examples/v1""],""types"":[""VerifiableCredential"",""UniversityDegreeCredential""],""cryptographic_binding_methods_supported"":[""did""],""cryptographic_suites_supported"":[""Ed25519Signature2018""],""display"":[{""name"":""University Credential"",""locale"":""en-US"",""logo"":{""url"":""https://exampleuniversity.com/public/logo.png"",""alt_text"":""a square logo of a university""},""background_color"":""#12107c"",""text_color"":""#FFFFFF""}],""credentialSubject"":{""given_name"":{""display"":[{""name"":""Given Name"",""locale"":""en-US""}]},""last_name"":{""display"":[{""name"":""Surname"",""locale"":""en-US""}]},""degree"":{},""gpa"":{""display"":[{""name"":""GPA""}]}}}"
  = Some (LdpVc [LDString (lit "https://www.w3.org/2018/credentials/v1");
                 LDString (lit "https://www.w3.org/2018/credentials/examples/v1")]
                both_types (Some subject) None).
Proof. eexists. vm_compute. reflexivity. Qed.

(* ------------------------------------------------------------------ *)
(** * credential_issuer/mod.rs: offers *)

(** [CredentialIssuerMetadata::default()], [PreAuthorizedCodeFlow::default()]. *)
Definition default_metadata : issuer_metadata :=
  {| im_credential_issuer := []; im_authorization_server := None; im_credential_endpoint := [];
     im_batch_credential_endpoint := None; im_credentials_supported := [];
     im_additional_fields := None |}.
Definition default_flow : preauth_flow := {| pf_code := []; pf_user_pin_required := None |}.

(** credential_issuer/mod.rs:676-701. *)
Example create_offer_happy_flow : exists o,
  create_offer default_metadata
    [Credential (LdpVc [LDString (lit "context_one")] [lit "type_one"] None None)]
    None None (Some {| pf_code := lit "ABC"; pf_user_pin_required := None |})
  = Ok (o, lit "openid-credential-offer://credential_offer=%7B%22credential_issuer%22%3A%22%22%2C%22credentials%22%3A%5B%7B%22format%22%3A%22ldp_vc%22%2C%22%40context%22%3A%5B%22context_one%22%5D%2C%22types%22%3A%5B%22type_one%22%5D%7D%5D%2C%22grants%22%3A%7B%22urn%3Aietf%3Aparams%3Aoauth%3Agrant-type%3Apre-authorized_code%22%3A%7B%22pre-authorized_code%22%3A%22ABC%22%7D%7D%7D") /\
  co_credential_issuer o = [] /\ is_some (og_pre (co_grants o)) = true /\ og_auth (co_grants o) = None.
Proof. eexists. split; [vm_compute; reflexivity|]. repeat split. Qed.

(** credential_issuer/mod.rs:703-714. *)
Example should_error_when_using_authorized_flow :
  create_offer default_metadata [] (Some []) (Some no_state) None = Err IAuthorizedFlowNotSupported.
Proof. reflexivity. Qed.

(** credential_issuer/mod.rs:716-729. *)
Example should_error_when_supplying_credential_id_that_is_not_in_issuer_metadata :
  create_offer default_metadata [CredentialId (lit "id_one")] (Some []) None (Some default_flow)
  = Err (ICredentialIdNotInIssuerMetadata (lit "id_one")).
Proof. reflexivity. Qed.

(* ------------------------------------------------------------------ *)
(** * credential_issuer/mod.rs: credential requests *)

Definition ldp_format : cfp := LdpVc [] [] None None.
Definition with_proof (jwt : string) : credential_request :=
  {| cr_format := ldp_format;
     cr_proof := Some {| rp_proof_type := lit "jwt"; rp_jwt := lit jwt |} |}.

(** credential_issuer/mod.rs:738-759. *)
Example pre_evaluate_happy_flow :
  pre_evaluate_credential_request d0 (with_proof "eyJraWQiOiJkaWQ6ZXhhbXBsZTplYmZlYjFmNzEyZWJjNmYxYzI3NmUxMmVjMjEva2V5cy8xIiwiYWxnIjoiRVMyNTYiLCJ0eXAiOiJvcGVuaWQ0dmNpLXByb29mK2p3dCJ9.eyJpc3MiOiJzNkJoZFJrcXQzIiwiYXVkIjoiaHR0cHM6Ly9zZXJ2ZXIuZXhhbXBsZS5jb20iLCJpYXQiOiIyMDE4LTA5LTE0VDIxOjE5OjEwWiIsIm5vbmNlIjoidFppZ25zbkZicCJ9")
  = Ok (Some (lit "did:example:ebfeb1f712ebc6f1c276e12ec21")).
Proof. vm_compute. reflexivity. Qed.

(** credential_issuer/mod.rs:761-786. *)
Example should_not_work_with_jwk :
  pre_evaluate_credential_request d0 (with_proof "eyJqd2siOiJ1bmtub3duIiwiYWxnIjoiRVMyNTYiLCJ0eXAiOiJvcGVuaWQ0dmNpLXByb29mK2p3dCJ9.eyJpc3MiOiJzNkJoZFJrcXQzIiwiYXVkIjoiaHR0cHM6Ly9zZXJ2ZXIuZXhhbXBsZS5jb20iLCJpYXQiOiIyMDE4LTA5LTE0VDIxOjE5OjEwWiIsIm5vbmNlIjoidFppZ25zbkZicCJ9")
  = Err (IJwtError (JUnsupportedKeyTypeInJwtHeader (lit "jwk") (lit "unknown"))).
Proof. vm_compute. reflexivity. Qed.

(** credential_issuer/mod.rs:796-868. The documents are read from JSON. *)
Definition university : string := "{""format"":""jwt_vc_json"",""id"":""UniversityDegree_JWT"",""types"":[""VerifiableCredential"",""UniversityDegreeCredential""],""credentialSubject"":{""given_name"":{""display"":[{""name"":""Given Name"",""locale"":""en-US""}]},""last_name"":{""display"":[{""name"":""Surname"",""locale"":""en-US""}]},""degree"":{},""gpa"":{""display"":[{""name"":""GPA""}]}}}".
Definition metadata_of (issuer : string) : option issuer_metadata :=
  opt_bind (parse_json (lit "{""credential_issuer"":""" ++ lit issuer
      ++ lit """,""credential_endpoint"":""https://example.org"",""credentials_supported"":["
      ++ lit university ++ lit "]}")) de_metadata.
Definition valid_request : credential_request := with_proof "ewogICJraWQiOiAiZGlkOmtleTp6Nk1rcFRIUjhWTnNCeFlBQVdIdXQyR2VhZGQ5alN3dUJWOHhSb0Fud1dzZHZrdEgjejZNa3BUSFI4Vk5zQnhZQUFXSHV0MkdlYWRkOWpTd3VCVjh4Um9BbndXc2R2a3RIIiwKICAiYWxnIjogIkVkRFNBIiwKICAidHlwIjogIm9wZW5pZDR2Y2ktcHJvb2Yrand0Igp9.eyJpc3MiOiJzNkJoZFJrcXQzIiwiYXVkIjoiaHR0cHM6Ly9zZXJ2ZXIuZXhhbXBsZS5jb20iLCJpYXQiOiIyMDE4LTA5LTE0VDIxOjE5OjEwWiIsIm5vbmNlIjoidFppZ25zbkZicCJ9".

Definition subject_did : str := lit "did:key:z6MkpTHR8VNsBxYAAWHut2Geadd9jSwuBV8xRoAnwWsdvktH".
Definition subject_key : str := bytes [148; 150; 107; 124; 8; 228; 5; 119; 95; 141; 230; 204; 28; 69; 8; 246; 235; 34; 116; 3; 225; 2; 91; 44; 138; 210; 215; 71; 115; 152; 197; 178].

(** credential_issuer/mod.rs:870-907: one verification method, whose [x] is the
    base64url form of the key. *)
Example subject_key_text :
  base64url_decode (lit "lJZrfAjkBXdfjebMHEUI9usidAPhAlssitLXR3OYxbI") = Some subject_key.
Proof. vm_compute. reflexivity. Qed.
Definition valid_document : list (str * jwk) :=
  [(subject_did ++ lit "#z6MkpTHR8VNsBxYAAWHut2Geadd9jSwuBV8xRoAnwWsdvktH", okp subject_key)].

(** credential_issuer/mod.rs:921-968. *)
Definition nonce_options (expected : string) (created : instant) (client : option str) : eval_options :=
  {| eo_c_nonce := Some {| cno_expires_in := 1000; cno_expected := lit expected;
                           cno_created_at := created |};
     eo_client_id := client |}.
Definition the_client : option str := Some (lit "s6BhdRkqt3").

(** 2023-06-01, a time at which the tests could have run. *)
Definition test_time : instant := (1685577600 * 1000000000)%Z.

(** The calls of the tests: metadata with the given issuer, an offer for the
    credential of the metadata by its id, the request above. *)
Definition evaluate (issuer : string) (with_offer : bool) (asm : option auth_server_metadata)
    (doc : option (list (str * jwk))) (options : eval_options) : option (res issuer_error eval_response) :=
  match metadata_of issuer, metadata_of "https://server.example.com" with
  | Some m, Some m0 =>
      match create_offer m0 [CredentialId (lit "UniversityDegree_JWT")] (Some []) None (Some default_flow) with
      | Ok (o, _) =>
          Some (evaluate_credential_request d0 test_time m valid_request
                  (if with_offer then Some o else None) asm doc (Some options))
      | _ => None
      end
  | _, _ => None
  end.
Definition server : string := "https://server.example.com".

(** credential_issuer/mod.rs:970-1038. *)
Definition evaluated : eval_response :=
  {| er_pop := Some {| pop_algorithm := EdDSA; pop_public_key := subject_key;
                       pop_message := lit "{""typ"":""openid4vci-proof+jwt"",""alg"":""EdDSA"",""kid"":""did:key:z6MkpTHR8VNsBxYAAWHut2Geadd9jSwuBV8xRoAnwWsdvktH#z6MkpTHR8VNsBxYAAWHut2Geadd9jSwuBV8xRoAnwWsdvktH""}.{""iss"":""s6BhdRkqt3"",""aud"":""https://server.example.com"",""sub"":null,""iat"":""2018-09-14T21:19:10Z"",""nonce"":""tZignsnFbp""}";
                       pop_signature := lit "example.com"",""sub"":null,""iat"":""2018-09-14T21:19:10Z"",""nonce"":""tZignsnFbp""}" |};
     er_subject_id := Some subject_did;
     er_credential := ldp_format |}.
Example should_evaluate_credential_request :
  evaluate server true None (Some valid_document) (nonce_options "tZignsnFbp" test_time the_client)
  = Some (Ok evaluated).
Proof. vm_compute. reflexivity. Qed.

(** credential_issuer/mod.rs:1040-1060. *)
Example should_not_evaluate_credential_request_without_offer :
  evaluate server false None (Some valid_document) (nonce_options "tZignsnFbp" test_time the_client)
  = Some (Err ICredentialOfferMustBeSupplied).
Proof. vm_compute. reflexivity. Qed.

(** credential_issuer/mod.rs:1062-1084. *)
Example should_not_evaluate_credential_request_with_authorized_server_metadata :
  evaluate server true (Some tt) (Some valid_document) (nonce_options "tZignsnFbp" test_time the_client)
  = Some (Err IAuthorizationServerMetadataNotSupported).
Proof. vm_compute. reflexivity. Qed.

(** credential_issuer/mod.rs:1086-1108. *)
Example should_not_evaluate_credential_request_without_did_document_when_kid_in_jwk :
  evaluate server true None None (nonce_options "tZignsnFbp" test_time the_client)
  = Some (Err (IJwtError JNoDidDocumentProvidedForKidAsDid)).
Proof. vm_compute. reflexivity. Qed.

(** credential_issuer/mod.rs:1110-1135. *)
Example should_not_evaluate_credential_request_with_nonce_mismatch :
  evaluate server true None (Some valid_document)
    (nonce_options "some_invalid_nonce" test_time the_client)
  = Some (Err (IJwtError (JNonceMismatch (Some (lit "some_invalid_nonce")) (lit "tZignsnFbp")))).
Proof. vm_compute. reflexivity. Qed.

(** credential_issuer/mod.rs:1137-1159: created a hundred hours ago. *)
Example should_not_evaluate_credential_request_with_expired_nonce : exists now expiry,
  evaluate server true None (Some valid_document)
    (nonce_options "tZignsnFbp" (test_time - 100 * 3600 * 1000000000)%Z the_client)
  = Some (Err (ICNonceIsExpired now expiry)).
Proof. do 2 eexists. vm_compute. reflexivity. Qed.

(** credential_issuer/mod.rs:1161-1181. *)
Example should_evaluate_credential_request_with_when_pre_authorized_code_flow_is_used_and_no_client_id :
  option_map is_ok
    (evaluate server true None (Some valid_document) (nonce_options "tZignsnFbp" test_time None))
  = Some true.
Proof. vm_compute. reflexivity. Qed.

(** credential_issuer/mod.rs:1183-1210. *)
Example should_not_evaluate_credential_request_with_credential_issuer_mismatch_in_metadata_and_proof :
  evaluate "some-invalid-id" true None (Some valid_document)
    (nonce_options "tZignsnFbp" test_time the_client)
  = Some (Err (IJwtError (JAudienceMismatch (lit "some-invalid-id") (lit server)))).
Proof. vm_compute. reflexivity. Qed.

(** credential_issuer/mod.rs:1218-1304: a [jwt_vc_json] credential comes back as
    base64url text from which it is read again. *)
Example should_create_success_response : exists credential text r t,
  read_cfp university = Some credential /\
  create_credential_success_response d0 test_time valid_request (Some (CTCredential credential))
    (Some {| cn_c_nonce := lit "nonce"; cn_expires_in := Some 10 |}) = Ok (r, t) /\
  cs_format r = lit "ldp_vc" /\ cs_credential r = Some (Encoded text) /\
  opt_bind (opt_bind (base64url_decode text) parse_json) de_cfp = Some credential /\
  cs_acceptance_token r = None /\ cs_c_nonce r = Some (lit "nonce") /\
  cs_c_nonce_expires_in r = Some 10.
Proof.
  do 4 eexists. split; [vm_compute; reflexivity|]. split; [vm_compute; reflexivity|].
  repeat split; vm_compute; reflexivity.
Qed.
