(** The code generated by serde's derive macros for the types of the crate, as
    functions to and from JSON documents. *)
From Verif Require Import Model.Prelude Model.Utf8 Model.Json Model.Types Model.Deps.

(* ------------------------------------------------------------------ *)
(** * Building blocks *)

(** A member that is always written. *)
Definition field (k : string) (v : json) : list (str * json) := [(lit k, v)].

(** [skip_serializing_if = "Option::is_none"]. *)
Definition field_opt {A : Type} (k : string) (f : A -> json) (o : option A) : list (str * json) :=
  match o with Some a => [(lit k, f a)] | None => [] end.

(** An [Option] without that attribute: [None] is written as null. *)
Definition ser_opt {A : Type} (f : A -> json) (o : option A) : json :=
  match o with Some a => f a | None => JNull end.

Definition ser_list {A : Type} (f : A -> json) (l : list A) : json := JArr (map f l).
Definition ser_hmap {A : Type} (f : A -> json) (m : hmap A) : json :=
  JObj (map (fun kv => (fst kv, f (snd kv))) m).
Definition ser_N (n : N) : json := JInt (Z.of_N n).

(** Values of a known field: [None] = the field occurs twice (error),
    [Some None] = absent. *)
Definition get_unique (k : str) (m : list (str * json)) : option (option json) :=
  match filter (fun kv => str_eqb k (fst kv)) m with
  | [] => Some None
  | [(_, v)] => Some (Some v)
  | _ => None
  end.

(** Derived struct visitor: a map (unknown members ignored) or a sequence with
    exactly the fields in order. *)
Definition fields_of (names : list str) (j : json) : option (list (option json)) :=
  match j with
  | JObj m => map_opt (fun k => get_unique k m) names
  | JArr l => if Nat.eqb (List.length l) (List.length names) then Some (map Some l) else None
  | _ => None
  end.

(** A required field and an [Option] field (absent or null is [None]). *)
Definition req {A : Type} (d : json -> option A) (o : option json) : option A :=
  match o with Some v => d v | None => None end.
Definition opt {A : Type} (d : json -> option A) (o : option json) : option (option A) :=
  match o with
  | None => Some None
  | Some JNull => Some None
  | Some v => let* x := d v in Some (Some x)
  end.

Definition de_str (j : json) : option str := match j with JStr s => Some s | _ => None end.
Definition de_bool (j : json) : option bool := match j with JBool b => Some b | _ => None end.
Definition de_uint (bound : N) (j : json) : option N :=
  match j with
  | JInt z => if ((0 <=? z) && (z <? Z.of_N bound))%Z then Some (Z.to_N z) else None
  | _ => None
  end.
Definition de_u32 : json -> option N := de_uint 4294967296.
Definition de_u64 : json -> option N := de_uint 18446744073709551616.
Definition de_list {A : Type} (d : json -> option A) (j : json) : option (list A) :=
  match j with JArr l => map_opt d l | _ => None end.

(** [HashMap<String, V>]: members are inserted in order, the last one wins. *)
Definition de_hmap {A : Type} (d : json -> option A) (j : json) : option (hmap A) :=
  match j with
  | JObj m =>
      let* kvs := map_opt (fun kv => let* v := d (snd kv) in Some (fst kv, v)) m in
      Some (fold_left (fun acc kv => hmap_insert (fst kv) (snd kv) acc) kvs [])
  | _ => None
  end.

(** [serde_json::Value]. *)
Definition de_value (j : json) : option json := Some (to_value j).

(** A unit variant of an externally tagged enum: its name, or an object whose
    only member has that name and value null. *)
Definition de_unit_variant {A : Type} (tbl : list (str * A)) (j : json) : option A :=
  match j with
  | JStr s => assoc s tbl
  | JObj [(k, JNull)] => assoc k tbl
  | _ => None
  end.

(** The tag of an internally tagged enum. serde_json reads only its name; when the
    value was buffered first (inside a flattened or an untagged type),
    [ContentDeserializer::deserialize_identifier] also takes the position of the
    variant, [index]. *)
Definition tag_name (index : Z -> option str) (v : json) : option str :=
  match v with
  | JStr t => Some t
  | JInt z => index z
  | _ => None
  end.
Definition no_index : Z -> option str := fun _ => None.

(** Internally tagged enum: the tag and what the variant's visitor sees. In the
    sequence form the tag comes first. *)
Definition split_tag (index : Z -> option str) (tag : str) (j : json) : option (str * json) :=
  match j with
  | JObj m =>
      match get_unique tag m with
      | Some (Some v) =>
          let* t := tag_name index v in
          Some (t, JObj (filter (fun kv => negb (str_eqb tag (fst kv))) m))
      | _ => None
      end
  | JArr (v :: l) => let* t := tag_name index v in Some (t, JArr l)
  | _ => None
  end.

(** Members of a flattened struct that are not its own fields. *)
Definition other_members (own : list str) (m : list (str * json)) : list (str * json) :=
  filter (fun kv => negb (mem_str (fst kv) own)) m.

(* ------------------------------------------------------------------ *)
(** * types/credential.rs *)

(** types/credential.rs:11-19 [LinkedDataContext], untagged. *)
Definition ser_ld_context (c : ld_context) : json :=
  match c with LDString s => JStr s | LDMap m => ser_hmap (fun v => v) m end.
Definition de_ld_context (j : json) : option ld_context :=
  match j with
  | JStr s => Some (LDString s)
  | _ => let* m := de_hmap de_value j in Some (LDMap m)
  end.

(** types/credential.rs:146-157 [CredentialSubjectDisplay]. *)
Definition ser_subject_display (d : subject_display) : json :=
  JObj (field_opt "name" JStr (sd_name d) ++ field_opt "locale" JStr (sd_locale d)).
Definition de_subject_display (j : json) : option subject_display :=
  match fields_of [lit "name"; lit "locale"] j with
  | Some [n; l] =>
      let* n' := opt de_str n in
      let* l' := opt de_str l in
      Some {| sd_name := n'; sd_locale := l' |}
  | _ => None
  end.

(** types/credential.rs:124-143 [CredentialSubject], camelCase. *)
Definition ser_subject (s : credential_subject) : json :=
  JObj (field_opt "mandatory" JBool (cs_mandatory s)
        ++ field_opt "valueType" JStr (cs_value_type s)
        ++ field_opt "display" (ser_list ser_subject_display) (cs_display s)).
Definition de_subject (j : json) : option credential_subject :=
  match fields_of [lit "mandatory"; lit "valueType"; lit "display"] j with
  | Some [a; b; c] =>
      let* a' := opt de_bool a in
      let* b' := opt de_str b in
      let* c' := opt (de_list de_subject_display) c in
      Some {| cs_mandatory := a'; cs_value_type := b'; cs_display := c' |}
  | _ => None
  end.

(** types/credential.rs:192-205 [get_format_name]; the same names are the serde
    renames at lines 29, 52, 74 and 101. *)
Definition format_name (c : cfp) : str :=
  match c with
  | JwtVcJson _ _ _ => lit "jwt_vc_json"
  | JwtVcJsonLd _ _ _ => lit "jwt_vc_json-ld"
  | LdpVc _ _ _ _ => lit "ldp_vc"
  | MsoMdoc _ _ _ => lit "mso_mdoc"
  end.

(** types/credential.rs:23-119 serde renames of the variants. *)
Definition cfp_tag (c : cfp) : str :=
  match c with
  | JwtVcJson _ _ _ => lit "jwt_vc_json"
  | JwtVcJsonLd _ _ _ => lit "jwt_vc_json-ld"
  | LdpVc _ _ _ _ => lit "ldp_vc"
  | MsoMdoc _ _ _ => lit "mso_mdoc"
  end.

(** types/credential.rs:23-119 [CredentialFormatProfile], internally tagged by
    [format]: the members, also used where the enum is flattened. *)
Definition cfp_members (c : cfp) : list (str * json) :=
  field "format" (JStr (cfp_tag c)) ++
  match c with
  | JwtVcJson types subject order | JwtVcJsonLd types subject order =>
      field "types" (ser_list JStr types)
      ++ field_opt "credentialSubject" (ser_hmap ser_subject) subject
      ++ field_opt "order" (ser_list JStr) order
  | LdpVc context types subject order =>
      field "@context" (ser_list ser_ld_context context)
      ++ field "types" (ser_list JStr types)
      ++ field_opt "credentialSubject" (ser_hmap ser_subject) subject
      ++ field_opt "order" (ser_list JStr) order
  | MsoMdoc doctype claims order =>
      field "doctype" (JStr doctype)
      ++ field_opt "claims" (ser_hmap ser_subject) claims
      ++ field_opt "order" (ser_list JStr) order
  end.
Definition ser_cfp (c : cfp) : json := JObj (cfp_members c).

(** types/credential.rs:29,52,74,101: the variants in the order of declaration. *)
Definition format_index (z : Z) : option str :=
  match z with
  | 0%Z => Some (lit "jwt_vc_json")
  | 1%Z => Some (lit "jwt_vc_json-ld")
  | 2%Z => Some (lit "ldp_vc")
  | 3%Z => Some (lit "mso_mdoc")
  | _ => None
  end.

Definition de_cfp_tagged (index : Z -> option str) (j : json) : option cfp :=
  let* tb := split_tag index (lit "format") j in
  let (t, body) := (tb : str * json) in
  if str_eqb t (lit "jwt_vc_json") then
    match fields_of [lit "types"; lit "credentialSubject"; lit "order"] body with
    | Some [ty; su; od] =>
        let* ty' := req (de_list de_str) ty in
        let* su' := opt (de_hmap de_subject) su in
        let* od' := opt (de_list de_str) od in
        Some (JwtVcJson ty' su' od')
    | _ => None
    end
  else if str_eqb t (lit "jwt_vc_json-ld") then
    match fields_of [lit "types"; lit "credentialSubject"; lit "order"] body with
    | Some [ty; su; od] =>
        let* ty' := req (de_list de_str) ty in
        let* su' := opt (de_hmap de_subject) su in
        let* od' := opt (de_list de_str) od in
        Some (JwtVcJsonLd ty' su' od')
    | _ => None
    end
  else if str_eqb t (lit "ldp_vc") then
    match fields_of [lit "@context"; lit "types"; lit "credentialSubject"; lit "order"] body with
    | Some [cx; ty; su; od] =>
        let* cx' := req (de_list de_ld_context) cx in
        let* ty' := req (de_list de_str) ty in
        let* su' := opt (de_hmap de_subject) su in
        let* od' := opt (de_list de_str) od in
        Some (LdpVc cx' ty' su' od')
    | _ => None
    end
  else if str_eqb t (lit "mso_mdoc") then
    match fields_of [lit "doctype"; lit "claims"; lit "order"] body with
    | Some [dt; cl; od] =>
        let* dt' := req de_str dt in
        let* cl' := opt (de_hmap de_subject) cl in
        let* od' := opt (de_list de_str) od in
        Some (MsoMdoc dt' cl' od')
    | _ => None
    end
  else None.

(** Read by itself, and from a buffered value. *)
Definition de_cfp : json -> option cfp := de_cfp_tagged no_index.
Definition de_cfp_buffered : json -> option cfp := de_cfp_tagged format_index.

(** types/credential.rs:168-175 [CredentialFormatProfileOrEncoded], externally
    tagged. *)
Definition ser_cfp_or_encoded (c : cfp_or_encoded) : json :=
  match c with
  | CFP c => JObj (field "CredentialFormatProfile" (ser_cfp c))
  | Encoded s => JObj (field "Encoded" (JStr s))
  end.
Definition de_cfp_or_encoded (j : json) : option cfp_or_encoded :=
  match j with
  | JObj [(k, v)] =>
      if str_eqb k (lit "CredentialFormatProfile") then let* c := de_cfp v in Some (CFP c)
      else if str_eqb k (lit "Encoded") then let* s := de_str v in Some (Encoded s)
      else None
  | _ => None
  end.

(* ------------------------------------------------------------------ *)
(** * types/credential_issuer_metadata.rs *)

(** types/credential_issuer_metadata.rs:119-126 [DisplayLogo]. *)
Definition ser_logo (l : display_logo) : json :=
  JObj (field "url" (ser_opt JStr (dl_url l)) ++ field "alt_text" (ser_opt JStr (dl_alt_text l))).
Definition de_logo (j : json) : option display_logo :=
  match fields_of [lit "url"; lit "alt_text"] j with
  | Some [a; b] =>
      let* a' := opt de_str a in
      let* b' := opt de_str b in
      Some {| dl_url := a'; dl_alt_text := b' |}
  | _ => None
  end.

Definition logo_shape : shape := plain [lit "url"; lit "alt_text"].

(** types/credential_issuer_metadata.rs:91-115 [DisplayProperties]. *)
Definition ser_display (p : display_properties) : json :=
  JObj (field "name" (JStr (dp_name p))
        ++ field "locale" (ser_opt JStr (dp_locale p))
        ++ field "logo" (ser_opt ser_logo (dp_logo p))
        ++ field "description" (ser_opt JStr (dp_description p))
        ++ field "background_color" (ser_opt JStr (dp_background_color p))
        ++ field "text_color" (ser_opt JStr (dp_text_color p))).
Definition de_display (j : json) : option display_properties :=
  match fields_of [lit "name"; lit "locale"; lit "logo"; lit "description";
                   lit "background_color"; lit "text_color"] j with
  | Some [a; b; c; d; e; f] =>
      let* a' := req de_str a in
      let* b' := opt de_str b in
      let* c' := opt de_logo c in
      let* d' := opt de_str d in
      let* e' := opt de_str e in
      let* f' := opt de_str f in
      Some {| dp_name := a'; dp_locale := b'; dp_logo := c'; dp_description := d';
              dp_background_color := e'; dp_text_color := f' |}
  | _ => None
  end.

Definition display_shape : shape :=
  StructOf [(lit "name", Whole); (lit "locale", Whole); (lit "logo", logo_shape); (lit "description", Whole);
            (lit "background_color", Whole); (lit "text_color", Whole)].

(** types/credential_issuer_metadata.rs:45-87 [CredentialSupported], flattened
    format first. *)
Definition supported_fields : list str :=
  [lit "id"; lit "cryptographic_binding_mehtods_supported";
   lit "cryptographic_suites_supported"; lit "display"].
Definition ser_supported (s : credential_supported) : json :=
  JObj (cfp_members (sup_format s)
        ++ field "id" (ser_opt JStr (sup_id s))
        ++ field "cryptographic_binding_mehtods_supported"
                 (ser_opt (ser_list JStr) (sup_binding_methods s))
        ++ field "cryptographic_suites_supported" (ser_opt (ser_list JStr) (sup_suites s))
        ++ field "display" (ser_opt (ser_list ser_display) (sup_display s))).
Definition de_supported (j : json) : option credential_supported :=
  match j with
  | JObj m =>
      match fields_of supported_fields j with
      | Some [a; b; c; d] =>
          let* a' := opt de_str a in
          let* b' := opt (de_list de_str) b in
          let* c' := opt (de_list de_str) c in
          let* d' := opt (de_list de_display) d in
          let* f := de_cfp_buffered (JObj (other_members supported_fields m)) in
          Some {| sup_format := f; sup_id := a'; sup_binding_methods := b';
                  sup_suites := c'; sup_display := d' |}
      | _ => None
      end
  | _ => None
  end.

Definition supported_shape : shape :=
  Flattened [(lit "id", Whole); (lit "cryptographic_binding_mehtods_supported", Whole);
             (lit "cryptographic_suites_supported", Whole); (lit "display", ListOf display_shape)].

(** types/credential_issuer_metadata.rs:12-41 [CredentialIssuerMetadata]: the
    flattened map receives every other member, so it is always [Some]. *)
Definition metadata_fields : list str :=
  [lit "credential_issuer"; lit "authorization_server"; lit "credential_endpoint";
   lit "batch_credential_endpoint"; lit "credentials_supported"].
Definition ser_metadata (m : issuer_metadata) : json :=
  JObj (field "credential_issuer" (JStr (im_credential_issuer m))
        ++ field "authorization_server" (ser_opt JStr (im_authorization_server m))
        ++ field "credential_endpoint" (JStr (im_credential_endpoint m))
        ++ field "batch_credential_endpoint" (ser_opt JStr (im_batch_credential_endpoint m))
        ++ field "credentials_supported" (ser_list ser_supported (im_credentials_supported m))
        ++ match im_additional_fields m with Some a => a | None => [] end).
Definition de_metadata (j : json) : option issuer_metadata :=
  match j with
  | JObj m =>
      match fields_of metadata_fields j with
      | Some [a; b; c; d; e] =>
          let* a' := req de_str a in
          let* b' := opt de_str b in
          let* c' := req de_str c in
          let* d' := opt de_str d in
          let* e' := req (de_list de_supported) e in
          let* x := de_hmap de_value (JObj (other_members metadata_fields m)) in
          Some {| im_credential_issuer := a'; im_authorization_server := b';
                  im_credential_endpoint := c'; im_batch_credential_endpoint := d';
                  im_credentials_supported := e'; im_additional_fields := Some x |}
      | _ => None
      end
  | _ => None
  end.

Definition metadata_shape : shape :=
  Flattened [(lit "credential_issuer", Whole); (lit "authorization_server", Whole);
             (lit "credential_endpoint", Whole); (lit "batch_credential_endpoint", Whole);
             (lit "credentials_supported", ListOf supported_shape)].

(* ------------------------------------------------------------------ *)
(** * types/credential_request.rs *)

(** types/credential_request.rs:13 [JWT_PROOF_TYPE], default at lines 51-53. *)
Definition jwt_proof_type : str := lit "JWT".

(** types/credential_request.rs:39-48 [CredentialRequestProof]. *)
Definition ser_proof (p : request_proof) : json :=
  JObj (field "proof_type" (JStr (rp_proof_type p)) ++ field "jwt" (JStr (rp_jwt p))).
Definition de_proof (j : json) : option request_proof :=
  match fields_of [lit "proof_type"; lit "jwt"] j with
  | Some [a; b] =>
      let* a' := match a with None => Some jwt_proof_type | Some v => de_str v end in
      let* b' := req de_str b in
      Some {| rp_proof_type := a'; rp_jwt := b' |}
  | _ => None
  end.

Definition proof_shape : shape := plain [lit "proof_type"; lit "jwt"].

(** types/credential_request.rs:17-35 [CredentialRequest], flattened format. *)
Definition ser_request (r : credential_request) : json :=
  JObj (cfp_members (cr_format r) ++ field "proof" (ser_opt ser_proof (cr_proof r))).
Definition de_request (j : json) : option credential_request :=
  match j with
  | JObj m =>
      let* p := get_unique (lit "proof") m in
      let* p' := opt de_proof p in
      let* f := de_cfp_buffered (JObj (other_members [lit "proof"] m)) in
      Some {| cr_format := f; cr_proof := p' |}
  | _ => None
  end.

Definition request_shape : shape := Flattened [(lit "proof", proof_shape)].

(* ------------------------------------------------------------------ *)
(** * jwt/mod.rs *)

(** jwt/mod.rs:14-64 serde names of [ProofJwtAlgorithm]. *)
Definition alg_name (a : proof_alg) : str :=
  match a with
  | HS256 => lit "HS256" | HS384 => lit "HS384" | HS512 => lit "HS512"
  | RS256 => lit "RS256" | RS384 => lit "RS384" | RS512 => lit "RS512"
  | ES256 => lit "ES256" | ES384 => lit "ES384" | ES512 => lit "ES512"
  | PS256 => lit "PS256" | PS384 => lit "PS384" | PS512 => lit "PS512"
  | EdDSA => lit "EdDSA" | ES256K => lit "ES256K" | ECDHES => lit "ECDH-ES"
  | AlgNone => lit "none"
  end.
Definition all_algs : list proof_alg :=
  [HS256; HS384; HS512; RS256; RS384; RS512; ES256; ES384; ES512; PS256; PS384; PS512;
   EdDSA; ES256K; ECDHES; AlgNone].
Definition de_alg : json -> option proof_alg :=
  de_unit_variant (map (fun a => (alg_name a, a)) all_algs).

(** jwt/mod.rs:475-492 [ProofJwtAdditionalHeader] as flattened member. *)
Definition additional_members (a : option additional_header) : list (str * json) :=
  match a with
  | Some (KeyId s) => field "kid" (JStr s)
  | Some (Jwk s) => field "jwk" (JStr s)
  | Some (X5c s) => field "x5c" (JStr s)
  | None => []
  end.

(** Flattened [Option<enum>]: the first member whose name is a variant is taken;
    if its value is not a string the error is dropped and the field is [None]. *)
Fixpoint de_additional (m : list (str * json)) : option additional_header :=
  match m with
  | [] => None
  | (k, v) :: m' =>
      if str_eqb k (lit "kid") then let* s := de_str v in Some (KeyId s)
      else if str_eqb k (lit "jwk") then let* s := de_str v in Some (Jwk s)
      else if str_eqb k (lit "x5c") then let* s := de_str v in Some (X5c s)
      else de_additional m'
  end.

(** jwt/mod.rs:318-332 [ProofJwtHeader]; a struct with a flattened field is only
    read from an object. *)
Definition ser_header (h : jwt_header) : json :=
  JObj (field "typ" (JStr (h_typ h)) ++ field "alg" (JStr (alg_name (h_alg h)))
        ++ additional_members (h_additional h)).
Definition de_header (j : json) : option jwt_header :=
  match j with
  | JObj m =>
      let* t := get_unique (lit "typ") m in
      let* a := get_unique (lit "alg") m in
      let* t' := req de_str t in
      let* a' := req de_alg a in
      Some {| h_typ := t'; h_alg := a';
              h_additional := de_additional (other_members [lit "typ"; lit "alg"] m) |}
  | _ => None
  end.

(** chrono's serde form of [DateTime<Utc>]. *)
Definition ser_instant (d : deps) (t : instant) : json := JStr (dt_print d t).
Definition de_instant (d : deps) (j : json) : option instant :=
  match j with JStr s => dt_parse d s | _ => None end.

(** jwt/mod.rs:496-538 [ProofJwtBody]. *)
Definition body_fields : list str :=
  [lit "iss"; lit "aud"; lit "sub"; lit "iat"; lit "nonce"; lit "nbf"; lit "exp"].
Definition ser_body (d : deps) (b : jwt_body) : json :=
  JObj (field_opt "iss" JStr (b_iss b)
        ++ field "aud" (JStr (b_aud b))
        ++ field "sub" (ser_opt JStr (b_sub b))
        ++ field "iat" (ser_instant d (b_iat b))
        ++ field "nonce" (JStr (b_nonce b))
        ++ field_opt "nbf" (ser_instant d) (b_nbf b)
        ++ field_opt "exp" (ser_instant d) (b_exp b)).
Definition de_body (d : deps) (j : json) : option jwt_body :=
  match fields_of body_fields j with
  | Some [iss; aud; sub; iat; nonce; nbf; exp] =>
      let* iss' := opt de_str iss in
      let* aud' := req de_str aud in
      let* sub' := opt de_str sub in
      let* iat' := req (de_instant d) iat in
      let* nonce' := req de_str nonce in
      let* nbf' := opt (de_instant d) nbf in
      let* exp' := opt (de_instant d) exp in
      Some {| b_iss := iss'; b_aud := aud'; b_sub := sub'; b_iat := iat';
              b_nonce := nonce'; b_nbf := nbf'; b_exp := exp' |}
  | _ => None
  end.

(* ------------------------------------------------------------------ *)
(** * access_token *)

(** access_token/mod.rs:79-99 [GrantType], internally tagged by [grant_type]. *)
Definition grant_authorization_code : str := lit "authorization_code".
Definition grant_pre_authorized : str := lit "urn:ietf:params:oauth:grant-type:pre-authorized_code".
Definition ser_grant_type (g : grant_type) : json :=
  match g with
  | GAuthorizedCode => JObj (field "grant_type" (JStr grant_authorization_code))
  | GPreAuthorized c p =>
      JObj (field "grant_type" (JStr grant_pre_authorized)
            ++ field "pre_authorized_code" (JStr c)
            ++ field "user_pin" (ser_opt ser_N p))
  end.
Definition de_grant_type (j : json) : option grant_type :=
  let* tb := split_tag no_index (lit "grant_type") j in
  let (t, body) := (tb : str * json) in
  if str_eqb t grant_authorization_code then
    match body with JArr (_ :: _) => None | _ => Some GAuthorizedCode end
  else if str_eqb t grant_pre_authorized then
    match fields_of [lit "pre_authorized_code"; lit "user_pin"] body with
    | Some [a; b] =>
        let* a' := req de_str a in
        let* b' := opt de_u64 b in
        Some (GPreAuthorized a' b')
    | _ => None
    end
  else None.

(** access_token/mod.rs:125-129 [AccessTokenRequest]. *)
Definition ser_token_request (r : token_request) : json :=
  JObj (field "grant_type" (ser_grant_type (tr_grant_type r))).
Definition de_token_request (j : json) : option token_request :=
  match fields_of [lit "grant_type"] j with
  | Some [g] => let* g' := req de_grant_type g in Some {| tr_grant_type := g' |}
  | _ => None
  end.

(** types/token_type.rs:6-10 [AccessTokenType]. *)
Definition ser_token_type (t : token_type) : json := match t with Bearer => JStr (lit "Bearer") end.
Definition de_token_type : json -> option token_type := de_unit_variant [(lit "Bearer", Bearer)].

(** access_token/mod.rs:31-64 [AccessTokenSuccessResponse]. *)
Definition token_success_fields : list str :=
  [lit "access_token"; lit "token_type"; lit "expires_in"; lit "scope"; lit "c_nonce";
   lit "c_nonce_expires_in"; lit "authorization_pending"; lit "interval"].
Definition ser_token_success (t : token_success) : json :=
  JObj (field "access_token" (JStr (ts_access_token t))
        ++ field "token_type" (ser_token_type (ts_token_type t))
        ++ field "expires_in" (ser_opt ser_N (ts_expires_in t))
        ++ field "scope" (ser_opt JStr (ts_scope t))
        ++ field "c_nonce" (ser_opt JStr (ts_c_nonce t))
        ++ field "c_nonce_expires_in" (ser_opt ser_N (ts_c_nonce_expires_in t))
        ++ field "authorization_pending" (ser_opt JBool (ts_authorization_pending t))
        ++ field "interval" (ser_opt ser_N (ts_interval t))).
Definition de_token_success (j : json) : option token_success :=
  match fields_of token_success_fields j with
  | Some [a; b; c; d; e; f; g; h] =>
      let* a' := req de_str a in
      let* b' := req de_token_type b in
      let* c' := opt de_u32 c in
      let* d' := opt de_str d in
      let* e' := opt de_str e in
      let* f' := opt de_u32 f in
      let* g' := opt de_bool g in
      let* h' := opt de_u32 h in
      Some {| ts_access_token := a'; ts_token_type := b'; ts_expires_in := c'; ts_scope := d';
              ts_c_nonce := e'; ts_c_nonce_expires_in := f'; ts_authorization_pending := g';
              ts_interval := h' |}
  | _ => None
  end.

(** access_token/error_response.rs:8-63: unit variants are written under their
    Rust names. *)
Definition token_code_variant (c : token_error_code) : str :=
  match c with
  | TInvalidRequest => lit "InvalidRequest"
  | TInvalidGrant => lit "InvalidGrant"
  | TInvalidClient => lit "InvalidClient"
  | TAccessDenied => lit "AccessDenied"
  | TUnsupportedResponseType => lit "UnsupportedResponseType"
  | TInvalidScope => lit "InvalidScope"
  | TServerError => lit "ServerError"
  | TTemporarilyUnavailable => lit "TemporarilyUnavailable"
  end.
Definition ser_token_code (c : token_error_code) : json := JStr (token_code_variant c).

(** credential_issuer/error_code.rs:6-24, likewise. *)
Definition issuer_code_variant (c : issuer_error_code) : str :=
  match c with
  | IInvalidRequest => lit "InvalidRequest"
  | IInvalidToken => lit "InvalidToken"
  | IUnsupportedCredentialType => lit "UnsupportedCredentialType"
  | IUnsupportedCredentialFormat => lit "UnsupportedCredentialFormat"
  | IInvalidOrMissingProof => lit "InvalidOrMissingProof"
  end.
Definition ser_issuer_code (c : issuer_error_code) : json := JStr (issuer_code_variant c).

(** error_response.rs:4-23 [ErrorResponse<T>] with [error_additional_details]
    flattened: [None] writes nothing, an object writes its members, anything
    else cannot be flattened and is a serialization error. *)
Definition ser_error_response {T : Type} (d : deps) (code : T -> json) (r : error_response T)
    : option json :=
  let std :=
    field "error" (code (resp_error r))
    ++ field "error_description" (ser_opt JStr (resp_description r))
    ++ field "error_uri" (ser_opt JStr (resp_uri r)) in
  match resp_details r with
  | None => Some (JObj std)
  | Some (JObj m) => Some (JObj (std ++ m))
  | Some JNull => if flatten_unit_ok d then Some (JObj std) else None
  | Some _ => None
  end.

(* ------------------------------------------------------------------ *)
(** * credential_issuer/mod.rs *)

(** credential_issuer/mod.rs:34-42 [CredentialOrId], untagged. *)
Definition ser_credential_or_id (c : credential_or_id) : json :=
  match c with CredentialId s => JStr s | Credential c => ser_cfp c end.
Definition de_credential_or_id (j : json) : option credential_or_id :=
  match j with
  | JStr s => Some (CredentialId s)
  | _ => let* c := de_cfp_buffered j in Some (Credential c)
  end.

(** credential_issuer/mod.rs:141-145 [AuthorizedCodeFlow]. *)
Definition ser_auth_flow (a : auth_flow) : json :=
  JObj (field "issuer_state" (ser_opt JStr (af_issuer_state a))).
Definition de_auth_flow (j : json) : option auth_flow :=
  match fields_of [lit "issuer_state"] j with
  | Some [a] => let* a' := opt de_str a in Some {| af_issuer_state := a' |}
  | _ => None
  end.

Definition auth_flow_shape : shape := plain [lit "issuer_state"].

(** credential_issuer/mod.rs:148-166 [PreAuthorizedCodeFlow]. *)
Definition ser_preauth_flow (p : preauth_flow) : json :=
  JObj (field "pre-authorized_code" (JStr (pf_code p))
        ++ field_opt "user_pin_required" JBool (pf_user_pin_required p)).
Definition de_preauth_flow (j : json) : option preauth_flow :=
  match fields_of [lit "pre-authorized_code"; lit "user_pin_required"] j with
  | Some [a; b] =>
      let* a' := req de_str a in
      let* b' := opt de_bool b in
      Some {| pf_code := a'; pf_user_pin_required := b' |}
  | _ => None
  end.

Definition preauth_flow_shape : shape := plain [lit "pre-authorized_code"; lit "user_pin_required"].

(** credential_issuer/mod.rs:266-280 [CredentialOfferGrants]. *)
Definition ser_grants (g : offer_grants) : json :=
  JObj (field_opt "authorization_code" ser_auth_flow (og_auth g)
        ++ field_opt "urn:ietf:params:oauth:grant-type:pre-authorized_code"
                     ser_preauth_flow (og_pre g)).
Definition de_grants (j : json) : option offer_grants :=
  match fields_of [lit "authorization_code";
                   lit "urn:ietf:params:oauth:grant-type:pre-authorized_code"] j with
  | Some [a; b] =>
      let* a' := opt de_auth_flow a in
      let* b' := opt de_preauth_flow b in
      Some {| og_auth := a'; og_pre := b' |}
  | _ => None
  end.

Definition grants_shape : shape :=
  StructOf [(lit "authorization_code", auth_flow_shape);
            (lit "urn:ietf:params:oauth:grant-type:pre-authorized_code", preauth_flow_shape)].

(** credential_issuer/mod.rs:170-194 [CredentialOffer]; the entries of
    [credentials] are an untagged enum, which serde buffers. *)
Definition offer_fields : list str := [lit "credential_issuer"; lit "credentials"; lit "grants"].
Definition ser_offer (o : credential_offer) : json :=
  JObj (field "credential_issuer" (JStr (co_credential_issuer o))
        ++ field "credentials" (ser_list ser_credential_or_id (co_credentials o))
        ++ field "grants" (ser_grants (co_grants o))).
Definition de_offer (j : json) : option credential_offer :=
  match fields_of offer_fields j with
  | Some [a; b; c] =>
      let* a' := req de_str a in
      let* b' := req (de_list de_credential_or_id) b in
      let* c' := req de_grants c in
      Some {| co_credential_issuer := a'; co_credentials := b'; co_grants := c' |}
  | _ => None
  end.

Definition offer_shape : shape :=
  StructOf [(lit "credential_issuer", Whole); (lit "credentials", Whole); (lit "grants", grants_shape)].

(** credential_issuer/mod.rs:325-350 [CredentialSuccessResponse]. *)
Definition credential_success_fields : list str :=
  [lit "format"; lit "credential"; lit "acceptance_token"; lit "c_nonce"; lit "c_nonce_expires_in"].
Definition ser_credential_success (r : credential_success) : json :=
  JObj (field "format" (JStr (cs_format r))
        ++ field "credential" (ser_opt ser_cfp_or_encoded (cs_credential r))
        ++ field "acceptance_token" (ser_opt JStr (cs_acceptance_token r))
        ++ field "c_nonce" (ser_opt JStr (cs_c_nonce r))
        ++ field "c_nonce_expires_in" (ser_opt ser_N (cs_c_nonce_expires_in r))).
Definition de_credential_success (j : json) : option credential_success :=
  match fields_of credential_success_fields j with
  | Some [a; b; c; d; e] =>
      let* a' := req de_str a in
      let* b' := opt de_cfp_or_encoded b in
      let* c' := opt de_str c in
      let* d' := opt de_str d in
      let* e' := opt de_u32 e in
      Some {| cs_format := a'; cs_credential := b'; cs_acceptance_token := c';
              cs_c_nonce := d'; cs_c_nonce_expires_in := e' |}
  | _ => None
  end.

(** credential_issuer/mod.rs:307-322 [ProofOfPossession]; [Vec<u8>] is an array
    of numbers. *)
Definition ser_bytes (s : str) : json := JArr (map (fun b => ser_N (code b)) s).
Definition ser_pop (p : proof_of_possession) : json :=
  JObj (field "algorithm" (JStr (alg_name (pop_algorithm p)))
        ++ field "public_key" (ser_bytes (pop_public_key p))
        ++ field "message" (ser_bytes (pop_message p))
        ++ field "signature" (ser_bytes (pop_signature p))).

(** credential_issuer/mod.rs:295-305 [CredentialIssuerEvaluateRequestResponse]. *)
Definition ser_eval_response (r : eval_response) : json :=
  JObj (field "proof_of_possession" (ser_opt ser_pop (er_pop r))
        ++ field "subject_id" (ser_opt JStr (er_subject_id r))
        ++ field "credential" (ser_cfp (er_credential r))).

(** credential_issuer/mod.rs:286-292 [PreEvaluateCredentialRequestResponse]. *)
Definition ser_pre_eval_response (did : option str) : json := JObj (field_opt "did" JStr did).
