(** jwt/mod.rs *)
From Verif Require Import Model.Prelude Model.Utf8 Model.Base64 Model.Json Model.Types Model.Deps
  Model.Serde Model.Errors.

(** jwt/mod.rs:80-107 [ProofJwt::from_str]. [split] never yields an empty
    iterator, so the first [ok_or] cannot fire. *)
Definition jwt_from_str (d : deps) (s : str) : res validation_error proof_jwt :=
  let parts := split_on "."%char s in
  let? header := ok_or (nth_error parts 0) (VAny (lit "No header found in the `JWT`")) in
  let? body := ok_or (nth_error parts 1) (VAny (lit "No body found in the `JWT`")) in
  let signature := nth_error parts 2 in
  let? header := ok_or (base64url_decode header) (VAny (base64_error d header)) in
  let? body := ok_or (base64url_decode body) (VAny (base64_error d body)) in
  let? h := ok_or (opt_bind (parse_json header) de_header) (VAny (serde_error d header)) in
  let? b := ok_or (opt_bind (parse_struct body_fields body) (de_body d)) (VAny (serde_error d body)) in
  Ok {| j_header := h; j_body := b; j_signature := signature |}.

(** jwt/mod.rs:109-137 [TryInto<String>]. [serde_json::to_string] of these types
    cannot fail, so the error branches are not modelled. *)
Definition jwt_try_into_string (d : deps) (j : proof_jwt) : res jwt_error str :=
  let s_header := print (ser_header (j_header j)) in
  let s_body := print (ser_body d (j_body j)) in
  Ok (join (lit ".")
        ([s_header; s_body] ++ match j_signature j with Some s => [s] | None => [] end)).

(** jwt/mod.rs:146-168 [verify]; [now] is [Utc::now()]. *)
Definition jwt_verify (now : instant) (j : proof_jwt) : res jwt_error unit :=
  let? _ := match b_nbf (j_body j) with
            | Some nbf => if (now <? nbf)%Z then Err (JNotYetValid nbf now) else Ok tt
            | None => Ok tt
            end in
  let? _ := match b_exp (j_body j) with
            | Some exp => if (exp <? now)%Z then Err (JNotValidAnymore exp now) else Ok tt
            | None => Ok tt
            end in
  Ok tt.

(** jwt/mod.rs:178-207 [extract_did]. *)
Definition jwt_extract_did (d : deps) (j : proof_jwt) : res jwt_error (option str) :=
  match h_additional (j_header j) with
  | Some (KeyId kid) =>
      match did_url_try_from d kid with
      | inr u => Ok (Some (du_did u))
      | inl m => Err (JUnableToTransformIntoDid kid m)
      end
  | Some (Jwk k) => Err (JUnsupportedKeyTypeInJwtHeader (lit "jwk") k)
  | Some (X5c k) => Err (JUnsupportedKeyTypeInJwtHeader (lit "x5c") k)
  | None => Ok None
  end.

(** jwt/mod.rs:422-471 [jwk_to_public_key_bytes]. *)
Definition jwk_to_public_key_bytes (k : jwk) : res jwt_error str :=
  let alg := match jwk_algorithm k with Some a => a | None => jwk_alg_default end in
  let alg_name := print (JStr (jwk_alg_name alg)) in
  match jwk_parameters k with
  | PEC x =>
      match alg with
      | JAEdDSA => ok_or x JEdDSAHasNoXCoordinate
      | JAOther _ => Err (JUnsupportedAlgorithm alg_name)
      end
  | POKP pk => Ok pk
  | PSymmetric | PRSA => Err (JUnsupportedAlgorithm alg_name)
  end.

(** jwt/mod.rs:341-410 [ProofJwtHeader::extract_key_and_alg] (and the wrapper at
    lines 214-219). *)
Definition header_extract_key_and_alg (d : deps) (h : jwt_header) (doc : option (Document d))
    : res jwt_error (str * proof_alg) :=
  match h_additional h with
  | Some (KeyId kid) =>
      match did_url_try_from d kid with
      | inl m => Err (JUnableToTransformIntoDid kid m)
      | inr did =>
          let? doc := ok_or doc JNoDidDocumentProvidedForKidAsDid in
          match select_object d doc did with
          | inl m => Err (JUnableToResolveDidInDidDocument (didurl_to_string did) m)
          | inr (RVerificationMethod vm) =>
              match get_jwk d vm with
              | inl m => Err (JUnableToMapVerificationMethodToJwk m)
              | inr k =>
                  let? pk := jwk_to_public_key_bytes k in
                  Ok (pk, h_alg h)
              end
          | inr ROther => Panic (* unreachable!() *)
          end
      end
  | Some (Jwk s) =>
      match jwk_from_str d s with
      | inl m => Err (JUnableToTransformIntoJoseItem s m)
      | inr k =>
          let? pk := jwk_to_public_key_bytes k in
          Ok (pk, h_alg h)
      end
  | Some (X5c s) => Err (JUnsupportedKeyTypeInJwtHeader (lit "x5c") s)
  | None => Err JNoKeyFoundInProof
  end.

(** jwt/mod.rs:229-243 [to_signable_message]; indexing [parts[0]], [parts[1]]
    panics when absent. *)
Definition jwt_to_signable_message (d : deps) (j : proof_jwt) : res jwt_error str :=
  let? message := jwt_try_into_string d j in
  if Nat.eqb (count "."%char message) 2 then
    let parts := split_on "."%char message in
    match nth_error parts 0, nth_error parts 1 with
    | Some a, Some b => Ok (a ++ lit "." ++ b)
    | _, _ => Panic
    end
  else Ok message.

(** jwt/mod.rs:250-265 [extract_signature]. *)
Definition jwt_extract_signature (d : deps) (j : proof_jwt) : res jwt_error str :=
  let? s_jwt := jwt_try_into_string d j in
  let parts := splitn_on 3 "."%char s_jwt in
  ok_or (nth_error parts 2) (JSignatureNotInJwt s_jwt).

(** jwt/mod.rs:272-281 [check_nonce]. *)
Definition jwt_check_nonce (j : proof_jwt) (nonce : option str) : res jwt_error unit :=
  if opt_str_eqb (Some (b_nonce (j_body j))) nonce then Ok tt
  else Err (JNonceMismatch nonce (b_nonce (j_body j))).

(** jwt/mod.rs:288-297 [check_iss]. *)
Definition jwt_check_iss (j : proof_jwt) (iss : option str) : res jwt_error unit :=
  if opt_str_eqb (b_iss (j_body j)) iss then Ok tt
  else Err (JIssuerMismatch iss (b_iss (j_body j))).

(** jwt/mod.rs:304-313 [check_aud]. *)
Definition jwt_check_aud (j : proof_jwt) (url : str) : res jwt_error unit :=
  if str_eqb (b_aud (j_body j)) url then Ok tt
  else Err (JAudienceMismatch url (b_aud (j_body j))).

(** types/credential_request.rs:10 [OPENID4VCI_PROOF_TYPE]. *)
Definition openid4vci_proof_type : str := lit "openid4vci-proof+jwt".

(** jwt/mod.rs:549-561 [ProofJwtHeader::validate]. *)
Definition header_validate (d : deps) (h : jwt_header) : res validation_error unit :=
  if negb (str_eqb (to_lowercase (lower_table d) (h_typ h)) openid4vci_proof_type)
  then Err (VAny (lit "jwt header `typ` MUST of of value `openid4vci-proof+jwt`"))
  else Ok tt.

(** jwt/mod.rs:563-575 [ProofJwtAdditionalHeader::validate] (called by nobody). *)
Definition additional_header_validate (a : additional_header) : res validation_error unit :=
  match a with
  | KeyId _ => Ok tt
  | Jwk _ => Err (VAny (lit "JWK is not supported as key type in the JWT header"))
  | X5c _ => Err (VAny (lit "X5c is not supported as key type in the JWT header"))
  end.

(** jwt/mod.rs:577-581 [ProofJwtBody::validate]. *)
Definition body_validate (b : jwt_body) : res validation_error unit := Ok tt.

(** jwt/mod.rs:540-547 [ProofJwt::validate]. *)
Definition jwt_validate (d : deps) (j : proof_jwt) : res validation_error unit :=
  let? _ := header_validate d (j_header j) in
  let? _ := body_validate (j_body j) in
  Ok tt.
