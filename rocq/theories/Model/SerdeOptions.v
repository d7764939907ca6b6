(** The derived serde code of the types a caller stores between calls: options,
    nonces and parsed proofs. *)
From Verif Require Import Model.Prelude Model.Json Model.Types Model.Deps Model.Serde.

(** access_token/mod.rs:140-144 [EvaluateAccessTokenRequestOptions]; its field is
    private, so outside of the crate JSON is the only way to build one. *)
Definition token_options_fields : list str := [lit "expected_user_pin"].
Definition ser_token_options (o : token_options) : json :=
  JObj (field "expected_user_pin" (ser_opt ser_N (to_expected_user_pin o))).
Definition de_token_options (j : json) : option token_options :=
  match fields_of token_options_fields j with
  | Some [a] => let* a' := opt de_u64 a in Some {| to_expected_user_pin := a' |}
  | _ => None
  end.
Definition token_options_to_json (o : token_options) : str := print (ser_token_options o).
Definition token_options_from_json (s : str) : option token_options :=
  opt_bind (parse_struct token_options_fields s) de_token_options.

(** credential_issuer/mod.rs:354-365 [CNonce]. *)
Definition c_nonce_fields : list str := [lit "c_nonce"; lit "c_nonce_expires_in"].
Definition ser_c_nonce (n : c_nonce) : json :=
  JObj (field "c_nonce" (JStr (cn_c_nonce n))
        ++ field "c_nonce_expires_in" (ser_opt ser_N (cn_expires_in n))).
Definition de_c_nonce (j : json) : option c_nonce :=
  match fields_of c_nonce_fields j with
  | Some [a; b] =>
      let* a' := req de_str a in
      let* b' := opt de_u32 b in
      Some {| cn_c_nonce := a'; cn_expires_in := b' |}
  | _ => None
  end.
Definition c_nonce_to_json (n : c_nonce) : str := print (ser_c_nonce n).
Definition c_nonce_from_json (s : str) : option c_nonce :=
  opt_bind (parse_struct c_nonce_fields s) de_c_nonce.

(** credential_issuer/mod.rs:394-404 [CNonceOptions]. *)
Definition c_nonce_options_fields : list str :=
  [lit "c_nonce_expires_in"; lit "expected_c_nonce"; lit "c_nonce_created_at"].
Definition ser_c_nonce_options (d : deps) (o : c_nonce_options) : json :=
  JObj (field "c_nonce_expires_in" (ser_N (cno_expires_in o))
        ++ field "expected_c_nonce" (JStr (cno_expected o))
        ++ field "c_nonce_created_at" (ser_instant d (cno_created_at o))).
Definition de_c_nonce_options (d : deps) (j : json) : option c_nonce_options :=
  match fields_of c_nonce_options_fields j with
  | Some [a; b; c] =>
      let* a' := req de_u32 a in
      let* b' := req de_str b in
      let* c' := req (de_instant d) c in
      Some {| cno_expires_in := a'; cno_expected := b'; cno_created_at := c' |}
  | _ => None
  end.

(** credential_issuer/mod.rs:368-391 [EvaluateCredentialRequestOptions]. *)
Definition eval_options_fields : list str := [lit "c_nonce"; lit "client_id"].
Definition ser_eval_options (d : deps) (o : eval_options) : json :=
  JObj (field "c_nonce" (ser_opt (ser_c_nonce_options d) (eo_c_nonce o))
        ++ field "client_id" (ser_opt JStr (eo_client_id o))).
Definition de_eval_options (d : deps) (j : json) : option eval_options :=
  match fields_of eval_options_fields j with
  | Some [a; b] =>
      let* a' := opt (de_c_nonce_options d) a in
      let* b' := opt de_str b in
      Some {| eo_c_nonce := a'; eo_client_id := b' |}
  | _ => None
  end.
Definition eval_options_shape : shape :=
  StructOf [(lit "c_nonce", plain c_nonce_options_fields); (lit "client_id", Whole)].
Definition eval_options_to_json (d : deps) (o : eval_options) : str := print (ser_eval_options d o).
Definition eval_options_from_json (d : deps) (s : str) : option eval_options :=
  opt_bind (parse_doc eval_options_shape s) (de_eval_options d).

(** jwt/mod.rs:68-78 [ProofJwt], as a struct (not the compact form). *)
Definition proof_jwt_fields : list str := [lit "header"; lit "body"; lit "signature"].
Definition ser_proof_jwt (d : deps) (j : proof_jwt) : json :=
  JObj (field "header" (ser_header (j_header j))
        ++ field "body" (ser_body d (j_body j))
        ++ field "signature" (ser_opt JStr (j_signature j))).
Definition de_proof_jwt (d : deps) (j : json) : option proof_jwt :=
  match fields_of proof_jwt_fields j with
  | Some [a; b; c] =>
      let* a' := req de_header a in
      let* b' := req (de_body d) b in
      let* c' := opt de_str c in
      Some {| j_header := a'; j_body := b'; j_signature := c' |}
  | _ => None
  end.
Definition proof_jwt_shape : shape :=
  StructOf [(lit "header", Whole); (lit "body", plain body_fields); (lit "signature", Whole)].
Definition proof_jwt_to_json (d : deps) (j : proof_jwt) : str := print (ser_proof_jwt d j).
Definition proof_jwt_from_json (d : deps) (s : str) : option proof_jwt :=
  opt_bind (parse_doc proof_jwt_shape s) (de_proof_jwt d).

(** access_token/error_response.rs:8-63 [AccessTokenErrorCode] and
    credential_issuer/error_code.rs:6-24 [CredentialIssuerErrorCode]: the derived
    [Deserialize] knows the Rust names of the variants. *)
Definition all_token_codes : list token_error_code :=
  [TInvalidRequest; TInvalidGrant; TInvalidClient; TAccessDenied; TUnsupportedResponseType; TInvalidScope;
   TServerError; TTemporarilyUnavailable].
Definition de_token_code : json -> option token_error_code :=
  de_unit_variant (map (fun c => (token_code_variant c, c)) all_token_codes).
Definition token_code_to_json (c : token_error_code) : str := print (ser_token_code c).
Definition token_code_from_json (s : str) : option token_error_code := opt_bind (parse_json s) de_token_code.

Definition all_issuer_codes : list issuer_error_code :=
  [IInvalidRequest; IInvalidToken; IUnsupportedCredentialType; IUnsupportedCredentialFormat;
   IInvalidOrMissingProof].
Definition de_issuer_code : json -> option issuer_error_code :=
  de_unit_variant (map (fun c => (issuer_code_variant c, c)) all_issuer_codes).
Definition issuer_code_to_json (c : issuer_error_code) : str := print (ser_issuer_code c).
Definition issuer_code_from_json (s : str) : option issuer_error_code := opt_bind (parse_json s) de_issuer_code.

(** types/authorization_server_metadata.rs:6-7 [AuthorizationServerMetadata], a
    struct without fields: every member is skipped. *)
Definition ser_auth_server_metadata (a : auth_server_metadata) : json := JObj [].
Definition de_auth_server_metadata (j : json) : option auth_server_metadata :=
  match fields_of [] j with Some _ => Some tt | None => None end.
Definition auth_server_metadata_to_json (a : auth_server_metadata) : str := print (ser_auth_server_metadata a).
Definition auth_server_metadata_from_json (s : str) : option auth_server_metadata :=
  opt_bind (parse_struct [] s) de_auth_server_metadata.
