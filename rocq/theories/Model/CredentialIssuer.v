(** credential_issuer/ and the validation code of types/ *)
From Verif Require Import Model.Prelude Model.Utf8 Model.Base64 Model.Percent Model.Json
  Model.Types Model.Deps Model.Serde Model.Errors Model.Jwt.

(* ---------------- types/credential_issuer_metadata.rs ---------------- *)

(** types/credential_issuer_metadata.rs:183-187 [DisplayLogo::validate]. *)
Definition logo_validate (l : display_logo) : res validation_error unit := Ok tt.

(** types/credential_issuer_metadata.rs:173-181 [DisplayProperties::validate]. *)
Definition display_validate (p : display_properties) : res validation_error unit :=
  let? _ := match dp_logo p with Some l => logo_validate l | None => Ok tt end in Ok tt.

(** A [for] loop whose body may return an error. *)
Fixpoint for_each {A E : Type} (f : A -> res E unit) (l : list A) : res E unit :=
  match l with
  | [] => Ok tt
  | x :: l' => let? _ := f x in for_each f l'
  end.

(** types/credential.rs:159-163 [CredentialFormatProfile::validate]. *)
Definition cfp_validate (c : cfp) : res validation_error unit := Ok tt.

(** types/credential_issuer_metadata.rs:159-171 [CredentialSupported::validate]. *)
Definition supported_validate (s : credential_supported) : res validation_error unit :=
  let? _ := cfp_validate (sup_format s) in
  let? _ := match sup_display s with
            | Some l => for_each display_validate l
            | None => Ok tt
            end in
  Ok tt.

(** types/credential_issuer_metadata.rs:130-142: [Iterator::all] with a [HashSet]
    of the ids seen so far; [insert] is false for an id already present. *)
Fixpoint ids_unique (seen : list str) (l : list credential_supported) : bool :=
  match l with
  | [] => true
  | c :: l' =>
      match sup_id c with
      | Some id => if mem_str id seen then false else ids_unique (id :: seen) l'
      | None => ids_unique seen l'
      end
  end.

(** types/credential_issuer_metadata.rs:128-157 [CredentialIssuerMetadata::validate]. *)
Definition metadata_validate (m : issuer_metadata) : res validation_error unit :=
  if negb (ids_unique [] (im_credentials_supported m))
  then Err (VAny (lit "Ids in supported credentials of the issuer metadata are not unique"))
  else
    let? _ := for_each supported_validate (im_credentials_supported m) in
    Ok tt.

(* ---------------- types/credential_request.rs ---------------- *)

(** types/credential_request.rs:65-79 [CredentialRequestProof::validate]. *)
Definition proof_validate (d : deps) (p : request_proof) : res validation_error unit :=
  if negb (str_eqb (to_uppercase (upper_table d) (rp_proof_type p)) jwt_proof_type)
  then Err (VAny (lit "`proof_type` MUST of of value `JWT`"))
  else
    let? jwt := jwt_from_str d (rp_jwt p) in
    let? _ := jwt_validate d jwt in
    Ok tt.

(** types/credential_request.rs:55-63 [CredentialRequest::validate]. *)
Definition request_validate (d : deps) (r : credential_request) : res validation_error unit :=
  let? _ := match cr_proof r with Some p => proof_validate d p | None => Ok tt end in
  Ok tt.

(* ---------------- types/credential.rs ---------------- *)

(** types/credential.rs:177-190 [TryFrom<CredentialFormatProfile>];
    [serde_json::to_string] of a profile cannot fail. *)
Definition cfp_encode (c : cfp) : res validation_error cfp_or_encoded :=
  match c with
  | MsoMdoc _ _ _ | JwtVcJson _ _ _ | JwtVcJsonLd _ _ _ =>
      Ok (Encoded (base64url_encode (print (ser_cfp c))))
  | LdpVc _ _ _ _ => Ok (CFP c)
  end.

(* ---------------- credential_issuer/mod.rs ---------------- *)

(** credential_issuer/mod.rs:56-74 [CredentialOrId::resolve]. *)
Definition resolve (m : issuer_metadata) (c : credential_or_id) : res issuer_error cfp :=
  match c with
  | Credential c => Ok c
  | CredentialId s =>
      ok_or (option_map sup_format
               (find (fun c => opt_str_eqb (sup_id c) (Some s)) (im_credentials_supported m)))
            (ICredentialIdNotInIssuerMetadata s)
  end.

(** credential_issuer/mod.rs:93-103 [CredentialOrIds::resolve_all]; the loop
    pushes at the end of [acc]. *)
Fixpoint resolve_all_loop (m : issuer_metadata) (l : list credential_or_id) (acc : list cfp)
    : res issuer_error (list cfp) :=
  match l with
  | [] => Ok acc
  | c :: l' => let? p := resolve m c in resolve_all_loop m l' (acc ++ [p])
  end.
Definition resolve_all (m : issuer_metadata) (l : list credential_or_id)
    : res issuer_error (list cfp) := resolve_all_loop m l [].

(** credential_issuer/mod.rs:44-48 [CredentialOrId::default]. *)
Definition credential_or_id_default : credential_or_id := CredentialId [].

(** credential_issuer/mod.rs:122-126 [From<String>] and 128-132 [From<&str>]. *)
Definition credential_or_id_from_string (value : str) : credential_or_id := CredentialId value.
Definition credential_or_id_from_str (value : str) : credential_or_id := CredentialId value.

(** credential_issuer/mod.rs:134-138 [From<CredentialFormatProfile>]. *)
Definition credential_or_id_from_profile (value : cfp) : credential_or_id := Credential value.

(** credential_issuer/mod.rs:113-120 [From<Vec<T>> for CredentialOrIds]; [into]
    is [T]'s [Into<CredentialOrId>]. *)
Definition credential_or_ids_from_vec {T : Type} (into : T -> credential_or_id) (value : list T)
    : list credential_or_id := map into value.

(** credential_issuer/mod.rs:106-111 [From<&[&CredentialOrId]>]. *)
Definition credential_or_ids_from_slice (val : list credential_or_id) : list credential_or_id :=
  map (fun c => c) val.

(** credential_issuer/mod.rs:196-216 [CredentialOffer::validate] and its two
    trivial parts. *)
Definition offer_validate (o : credential_offer) : res validation_error unit := Ok tt.

(** credential_issuer/mod.rs:221-235 [CredentialOffer::new]. *)
Definition offer_new (credential_issuer : str) (credentials : list credential_or_id)
    (a : option auth_flow) (p : option preauth_flow) : credential_offer :=
  {| co_credential_issuer := credential_issuer; co_credentials := credentials;
     co_grants := {| og_auth := a; og_pre := p |} |}.

(** credential_issuer/mod.rs:242-246 [CredentialOffer::url_encode];
    [serde_json::to_string] of an offer cannot fail. *)
Definition offer_url_encode (o : credential_offer) : res issuer_error str :=
  Ok (url_encode (print (ser_offer o))).

(** credential_issuer/mod.rs:419-463 [create_offer]; the caller's [impl Into] is
    already applied. *)
Definition create_offer (m : issuer_metadata) (credentials : list credential_or_id)
    (endpoint : option str) (a : option auth_flow) (p : option preauth_flow)
    : res issuer_error (credential_offer * str) :=
  let? _ := map_err IValidationError (metadata_validate m) in
  if is_some a then Err IAuthorizedFlowNotSupported
  else
    let? _ := resolve_all m credentials in
    let offer := offer_new (im_credential_issuer m) credentials a p in
    let? encoded := offer_url_encode offer in
    let prefix := match endpoint with
                  | None => lit "openid-credential-offer://"
                  | Some u => u ++ lit "?"
                  end in
    Ok (offer, prefix ++ lit "credential_offer=" ++ encoded).

(** credential_issuer/mod.rs:473-487 [pre_evaluate_credential_request]; the
    response has the single field [did]. *)
Definition pre_evaluate_credential_request (d : deps) (r : credential_request)
    : res issuer_error (option str) :=
  let? _ := map_err IValidationError (request_validate d r) in
  match cr_proof r with
  | Some p =>
      let? jwt := map_err IValidationError (jwt_from_str d (rp_jwt p)) in
      let? _ := map_err IValidationError (jwt_validate d jwt) in
      map_err IJwtError (jwt_extract_did d jwt)
  | None => Ok None
  end.

(** types/authorization_server_metadata.rs:9-13. *)
Definition auth_server_metadata_validate (a : auth_server_metadata) : res validation_error unit := Ok tt.

(** credential_issuer/mod.rs:549-571, the decision whether [iss] is checked. *)
Definition should_validate_iss (options : option eval_options) (o : credential_offer) : bool :=
  match options with
  | Some opts =>
      let should_validate := is_some (eo_client_id opts) || is_some (og_auth (co_grants o)) in
      let should_not_validate := is_none (eo_client_id opts) && is_some (og_pre (co_grants o)) in
      should_validate || negb should_not_validate
  | None => false
  end.

(** credential_issuer/mod.rs:519-533, the nonce expiry check. *)
Definition check_nonce_expiry (now : instant) (options : option eval_options) : res issuer_error unit :=
  match opt_bind options eo_c_nonce with
  | Some n =>
      let? expiry := add_seconds (cno_created_at n) (cno_expires_in n) in
      if (expiry <? now)%Z then Err (ICNonceIsExpired now expiry) else Ok tt
  | None => Ok tt
  end.

(** credential_issuer/mod.rs:500-596 [evaluate_credential_request]; [now] is the
    [Utc::now()] of line 525. *)
Definition evaluate_credential_request (d : deps) (now : instant) (m : issuer_metadata)
    (r : credential_request) (offer : option credential_offer)
    (asm : option auth_server_metadata) (doc : option (Document d))
    (options : option eval_options) : res issuer_error eval_response :=
  let? _ := map_err IValidationError (metadata_validate m) in
  let? o := ok_or offer ICredentialOfferMustBeSupplied in
  let? _ := map_err IValidationError (offer_validate o) in
  let? _ := match asm with
            | Some a =>
                let? _ := map_err IValidationError (auth_server_metadata_validate a) in
                Err IAuthorizationServerMetadataNotSupported
            | None => Ok tt
            end in
  let? _ := check_nonce_expiry now options in
  match cr_proof r with
  | Some p =>
      let? jwt := map_err IValidationError (jwt_from_str d (rp_jwt p)) in
      let? _ := map_err IValidationError (jwt_validate d jwt) in
      let expected_c_nonce := option_map cno_expected (opt_bind options eo_c_nonce) in
      let? _ := map_err IJwtError (jwt_check_nonce jwt expected_c_nonce) in
      let expected_issuer := opt_bind options eo_client_id in
      let? _ := if should_validate_iss options o
                then map_err IJwtError (jwt_check_iss jwt expected_issuer)
                else Ok tt in
      let? _ := map_err IJwtError (jwt_check_aud jwt (im_credential_issuer m)) in
      let? ka := map_err IJwtError (header_extract_key_and_alg d (j_header jwt) doc) in
      let? signature := map_err IJwtError (jwt_extract_signature d jwt) in
      let? message := map_err IJwtError (jwt_to_signable_message d jwt) in
      let? did := map_err IJwtError (jwt_extract_did d jwt) in
      Ok {| er_pop := Some {| pop_algorithm := snd ka; pop_public_key := fst ka;
                              pop_message := message; pop_signature := signature |};
            er_subject_id := did;
            er_credential := cr_format r |}
  | None => Err INoProofInCredentialRequest
  end.

(** credential_issuer/mod.rs:610-645 [create_credential_success_response];
    [now] is [Utc::now()]. *)
Definition create_credential_success_response (d : deps) (now : instant) (r : credential_request)
    (ct : option credential_or_token) (n : option c_nonce)
    : res issuer_error (credential_success * instant) :=
  let? _ := map_err IValidationError (request_validate d r) in
  let nonce := option_map cn_c_nonce n in
  let nonce_expires_in := opt_bind n cn_expires_in in
  let? ca := match ct with
             | Some (CTCredential c) =>
                 let? e := map_err IValidationError (cfp_encode c) in Ok (Some e, None)
             | Some (CTAcceptanceToken t) => Ok (None, Some t)
             | None => Ok (None, None)
             end in
  Ok ({| cs_format := format_name (cr_format r); cs_credential := fst ca;
         cs_acceptance_token := snd ca; cs_c_nonce := nonce;
         cs_c_nonce_expires_in := nonce_expires_in |}, now).

(** credential_issuer/mod.rs:652-665 [create_credential_error_response]. *)
Definition create_credential_error_response (error : issuer_error_code)
    (description uri : option str) (details : option json)
    : res issuer_error (error_response issuer_error_code) :=
  Ok {| resp_error := error; resp_description := description; resp_uri := uri;
        resp_details := details |}.

(** credential_issuer/error_code.rs:26-38 [From<CredentialIssuerErrorCode> for &str]. *)
Definition issuer_code_to_str (c : issuer_error_code) : str :=
  match c with
  | IInvalidRequest => lit "invalid_request"
  | IInvalidToken => lit "invalid_token"
  | IUnsupportedCredentialType => lit "unsupported_credential_type"
  | IUnsupportedCredentialFormat => lit "unsupported_credential_format"
  | IInvalidOrMissingProof => lit "invalid_or_missing_proof"
  end.

(** credential_issuer/error_code.rs:40-59 [TryFrom<String>]. *)
Definition issuer_code_try_from (s : str) : res validation_error issuer_error_code :=
  if str_eqb s (lit "invalid_request") then Ok IInvalidRequest
  else if str_eqb s (lit "invalid_token") then Ok IInvalidToken
  else if str_eqb s (lit "unsupported_credential_type") then Ok IUnsupportedCredentialType
  else if str_eqb s (lit "unsupported_credential_format") then Ok IUnsupportedCredentialFormat
  else if str_eqb s (lit "invalid_or_missing_proof") then Ok IInvalidOrMissingProof
  else Err (VAny (lit "Invalid error code: " ++ s)).
