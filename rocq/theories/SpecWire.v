(** What the JSON documents of the crate's types look like (OpenID4VCI draft 11 as
    far as the crate follows it), without the model's functions. *)
From Coq Require Import Sorting.Sorted.
From Verif Require Import Model.Prelude Model.Json Model.Types Model.Deps Spec SpecToken SpecJwt SpecDocuments.

(* ------------------------------------------------------------------ *)
(** * Values *)

Definition bool_value (v : json) (b : bool) : Prop := v = JBool b.
Definition u32_value : json -> N -> Prop := integer_value (2 ^ 32).
Definition u64_value : json -> N -> Prop := integer_value (2 ^ 64).
Definition list_value {A : Type} (P : json -> A -> Prop) (v : json) (l : list A) : Prop :=
  exists js, v = JArr js /\ Forall2 P js l.
Definition texts_value : json -> list str -> Prop := list_value text_value.

(** A required member, exactly once. *)
Definition required_member {A : Type} (m : list (str * json)) (k : string)
    (P : json -> A -> Prop) (a : A) : Prop :=
  exists v, only_member m k v /\ P v a.

(** The same description serves for reading and for writing. *)
Inductive use : Type := Reading | Writing.

(** A struct. Reading: an object with any further members, in any order, or an
    array of the values of all fields. Writing: an object with exactly the members
    [written a], in that order. *)
Definition struct_value {A : Type} (u : use) (names : list string) (written : A -> list str)
    (P : list (str * json) -> A -> Prop) (v : json) (a : A) : Prop :=
  match u with
  | Reading => exists m, members_of names v m /\ P m a
  | Writing => exists m, v = JObj m /\ map fst m = written a /\ P m a
  end.

(** All members are written, absent values as null. *)
Definition all_of {A : Type} (names : list string) : A -> list str := fun _ => map lit names.

(** An optional member that is left out when there is no value. *)
Definition if_some {A : Type} (k : string) (o : option A) : list str :=
  match o with Some _ => [lit k] | None => [] end.

(** The last member of a given name. *)
Definition last_member (m : list (str * json)) (k : str) (v : json) : Prop :=
  exists before after, m = before ++ (k, v) :: after /\ ~ In k (map fst after).

(** The names in a list, each at its first occurrence. *)
Inductive first_occurrences : list str -> list str -> Prop :=
| fo_nil : first_occurrences [] []
| fo_cons k l l' :
    first_occurrences (filter (fun x => if list_eq_dec ascii_dec k x then false else true) l) l' ->
    first_occurrences (k :: l) (k :: l').

(** A map: every member is readable, the last one of a name counts. The model
    iterates in the order of the document; Rust's order is arbitrary (C68). *)
Definition map_value {A : Type} (P : json -> A -> Prop) (v : json) (h : hmap A) : Prop :=
  exists m, v = JObj m
  /\ first_occurrences (map fst m) (map fst h)
  /\ (forall k j, In (k, j) m -> exists a, P j a)
  /\ (forall k a, In (k, a) h -> exists j, last_member m k j /\ P j a).

(** A free-form value: of members with the same name the last one counts, and the
    members are kept in the order of their names. *)
Inductive free_value : json -> json -> Prop :=
| fv_null : free_value JNull JNull
| fv_bool b : free_value (JBool b) (JBool b)
| fv_int z : free_value (JInt z) (JInt z)
| fv_float s : free_value (JFloat s) (JFloat s)
| fv_str s : free_value (JStr s) (JStr s)
| fv_arr l l' : Forall2 free_value l l' -> free_value (JArr l) (JArr l')
| fv_obj m m' :
    StronglySorted str_lt (map fst m') ->
    (forall k, In k (map fst m') <-> In k (map fst m)) ->
    (forall k v, In (k, v) m' -> exists j, last_member m k j /\ free_value j v) ->
    free_value (JObj m) (JObj m').

(* ------------------------------------------------------------------ *)
(** * Credentials *)

Section Use.
Context (u : use).

Definition subject_display_of (m : list (str * json)) (x : subject_display) : Prop :=
  optional_member m "name" text_value (sd_name x) /\ optional_member m "locale" text_value (sd_locale x).
Definition subject_display_value := struct_value u ["name"; "locale"]%string
  (fun x => if_some "name" (sd_name x) ++ if_some "locale" (sd_locale x)) subject_display_of.

Definition subject_of (m : list (str * json)) (x : credential_subject) : Prop :=
  optional_member m "mandatory" bool_value (cs_mandatory x)
  /\ optional_member m "valueType" text_value (cs_value_type x)
  /\ optional_member m "display" (list_value subject_display_value) (cs_display x).
Definition subject_value := struct_value u ["mandatory"; "valueType"; "display"]%string
  (fun x => if_some "mandatory" (cs_mandatory x) ++ if_some "valueType" (cs_value_type x)
            ++ if_some "display" (cs_display x)) subject_of.

Inductive ld_context_value : json -> ld_context -> Prop :=
| lv_string s : ld_context_value (JStr s) (LDString s)
| lv_map v h : map_value free_value v h -> ld_context_value v (LDMap h).

(** A credential stands by itself, or inside a type that is read through a buffer:
    then its format may also be given by its position. *)
Inductive place : Type := Alone | Inside.
Definition format_member (p : place) (m : list (str * json)) (name : string) (position : Z) : Prop :=
  only_member m "format" (JStr (lit name))
  \/ u = Reading /\ p = Inside /\ only_member m "format" (JInt position).

(** The members of a credential of each format. *)
Inductive credential_of (p : place) (m : list (str * json)) : cfp -> Prop :=
| cr_jwt types subject order :
    format_member p m "jwt_vc_json" 0 ->
    required_member m "types" texts_value types ->
    optional_member m "credentialSubject" (map_value subject_value) subject ->
    optional_member m "order" texts_value order ->
    credential_of p m (JwtVcJson types subject order)
| cr_jwt_ld types subject order :
    format_member p m "jwt_vc_json-ld" 1 ->
    required_member m "types" texts_value types ->
    optional_member m "credentialSubject" (map_value subject_value) subject ->
    optional_member m "order" texts_value order ->
    credential_of p m (JwtVcJsonLd types subject order)
| cr_ldp context types subject order :
    format_member p m "ldp_vc" 2 ->
    required_member m "@context" (list_value ld_context_value) context ->
    required_member m "types" texts_value types ->
    optional_member m "credentialSubject" (map_value subject_value) subject ->
    optional_member m "order" texts_value order ->
    credential_of p m (LdpVc context types subject order)
| cr_mdoc doctype claims order :
    format_member p m "mso_mdoc" 3 ->
    required_member m "doctype" text_value doctype ->
    optional_member m "claims" (map_value subject_value) claims ->
    optional_member m "order" texts_value order ->
    credential_of p m (MsoMdoc doctype claims order).

(** The members of a format in the order of the declaration. *)
Definition credential_names (c : cfp) : list string :=
  match c with
  | JwtVcJson _ _ _ | JwtVcJsonLd _ _ _ => ["format"; "types"; "credentialSubject"; "order"]
  | LdpVc _ _ _ _ => ["format"; "@context"; "types"; "credentialSubject"; "order"]
  | MsoMdoc _ _ _ => ["format"; "doctype"; "claims"; "order"]
  end%string.
Definition credential_written (c : cfp) : list str :=
  lit "format" ::
  match c with
  | JwtVcJson _ subject order | JwtVcJsonLd _ subject order =>
      [lit "types"] ++ if_some "credentialSubject" subject ++ if_some "order" order
  | LdpVc _ _ subject order =>
      [lit "@context"; lit "types"] ++ if_some "credentialSubject" subject ++ if_some "order" order
  | MsoMdoc _ claims order => [lit "doctype"] ++ if_some "claims" claims ++ if_some "order" order
  end.
Definition credential_value (p : place) (v : json) (c : cfp) : Prop :=
  struct_value u (credential_names c) credential_written (credential_of p) v c.

(* ------------------------------------------------------------------ *)
(** * Offers *)

Inductive offered_value : json -> credential_or_id -> Prop :=
| ov_id s : offered_value (JStr s) (CredentialId s)
| ov_credential v c : credential_value Inside v c -> offered_value v (Credential c).

Definition auth_flow_of (m : list (str * json)) (x : auth_flow) : Prop :=
  optional_member m "issuer_state" text_value (af_issuer_state x).
Definition preauth_flow_of (m : list (str * json)) (x : preauth_flow) : Prop :=
  required_member m "pre-authorized_code" text_value (pf_code x)
  /\ optional_member m "user_pin_required" bool_value (pf_user_pin_required x).
Definition grant_names : list string :=
  ["authorization_code"; "urn:ietf:params:oauth:grant-type:pre-authorized_code"]%string.
Definition grants_of (m : list (str * json)) (x : offer_grants) : Prop :=
  optional_member m "authorization_code" (struct_value u ["issuer_state"]%string (all_of ["issuer_state"]%string) auth_flow_of) (og_auth x)
  /\ optional_member m "urn:ietf:params:oauth:grant-type:pre-authorized_code"
       (struct_value u ["pre-authorized_code"; "user_pin_required"]%string
          (fun x => [lit "pre-authorized_code"] ++ if_some "user_pin_required" (pf_user_pin_required x))
          preauth_flow_of) (og_pre x).
Definition grants_written (x : offer_grants) : list str :=
  if_some "authorization_code" (og_auth x)
  ++ if_some "urn:ietf:params:oauth:grant-type:pre-authorized_code" (og_pre x).
Definition offer_names : list string := ["credential_issuer"; "credentials"; "grants"]%string.
Definition offer_of (m : list (str * json)) (x : credential_offer) : Prop :=
  required_member m "credential_issuer" text_value (co_credential_issuer x)
  /\ required_member m "credentials" (list_value offered_value) (co_credentials x)
  /\ required_member m "grants" (struct_value u grant_names grants_written grants_of) (co_grants x).

(* ------------------------------------------------------------------ *)
(** * Issuer metadata *)

Definition logo_of (m : list (str * json)) (x : display_logo) : Prop :=
  optional_member m "url" text_value (dl_url x) /\ optional_member m "alt_text" text_value (dl_alt_text x).
Definition display_names : list string :=
  ["name"; "locale"; "logo"; "description"; "background_color"; "text_color"]%string.
Definition display_of (m : list (str * json)) (x : display_properties) : Prop :=
  required_member m "name" text_value (dp_name x)
  /\ optional_member m "locale" text_value (dp_locale x)
  /\ optional_member m "logo" (struct_value u ["url"; "alt_text"]%string (all_of ["url"; "alt_text"]%string) logo_of) (dp_logo x)
  /\ optional_member m "description" text_value (dp_description x)
  /\ optional_member m "background_color" text_value (dp_background_color x)
  /\ optional_member m "text_color" text_value (dp_text_color x).

(** The misspelt name is the one the crate uses (C70). *)
Definition supported_of (m : list (str * json)) (x : credential_supported) : Prop :=
  credential_of Inside m (sup_format x)
  /\ optional_member m "id" text_value (sup_id x)
  /\ optional_member m "cryptographic_binding_mehtods_supported" texts_value (sup_binding_methods x)
  /\ optional_member m "cryptographic_suites_supported" texts_value (sup_suites x)
  /\ optional_member m "display" (list_value (struct_value u display_names (all_of display_names) display_of)) (sup_display x).
(** A struct with a flattened field is never read from an array. *)
Definition flat_value {A : Type} (written : A -> list str) (P : list (str * json) -> A -> Prop)
    (v : json) (a : A) : Prop :=
  match u with
  | Reading => exists m, v = JObj m /\ P m a
  | Writing => exists m, v = JObj m /\ map fst m = written a /\ P m a
  end.
Definition supported_names : list string :=
  ["id"; "cryptographic_binding_mehtods_supported"; "cryptographic_suites_supported"; "display"]%string.
Definition supported_value : json -> credential_supported -> Prop :=
  flat_value (fun x => credential_written (sup_format x) ++ map lit supported_names) supported_of.

(** The members that are not listed. *)
Definition members_except (names : list string) (m : list (str * json)) : list (str * json) :=
  filter (fun kv => if in_dec (list_eq_dec ascii_dec) (fst kv) (map lit names) then false else true) m.

Definition additional_fields_of (m : list (str * json)) (o : option (hmap json)) : Prop :=
  match o with
  | Some a => map_value free_value (JObj (members_except metadata_names m)) a
  | None => u = Writing
  end.

Definition metadata_of (m : list (str * json)) (x : issuer_metadata) : Prop :=
  required_member m "credential_issuer" text_value (im_credential_issuer x)
  /\ optional_member m "authorization_server" text_value (im_authorization_server x)
  /\ required_member m "credential_endpoint" text_value (im_credential_endpoint x)
  /\ optional_member m "batch_credential_endpoint" text_value (im_batch_credential_endpoint x)
  /\ required_member m "credentials_supported" (list_value supported_value) (im_credentials_supported x)
  /\ additional_fields_of m (im_additional_fields x).
Definition metadata_value : json -> issuer_metadata -> Prop :=
  flat_value (fun x => map lit metadata_names
                       ++ match im_additional_fields x with Some a => map fst a | None => [] end)
    metadata_of.

(* ------------------------------------------------------------------ *)
(** * Requests and responses *)

Definition request_proof_value (v : json) (p : request_proof) : Prop :=
  match u with
  | Reading => proof_value v p
  | Writing => v = JObj [(lit "proof_type", JStr (rp_proof_type p)); (lit "jwt", JStr (rp_jwt p))]
  end.
Definition request_of (m : list (str * json)) (x : credential_request) : Prop :=
  credential_of Inside m (cr_format x) /\ optional_member m "proof" request_proof_value (cr_proof x).
Definition request_value : json -> credential_request -> Prop :=
  flat_value (fun x => credential_written (cr_format x) ++ [lit "proof"]) request_of.

Definition grant_type_names (g : grant_type) : list string :=
  match g with
  | GAuthorizedCode => ["grant_type"]
  | GPreAuthorized _ _ => ["grant_type"; "pre_authorized_code"; "user_pin"]
  end%string.
Definition grant_type_value (v : json) (g : grant_type) : Prop :=
  struct_value u (grant_type_names g) (all_of (grant_type_names g)) grant_of v g.
Definition token_request_of (m : list (str * json)) (x : token_request) : Prop :=
  required_member m "grant_type" grant_type_value (tr_grant_type x).

Inductive token_type_value : json -> token_type -> Prop :=
| tt_name : token_type_value (JStr (lit "Bearer")) Bearer
| tt_map : u = Reading -> token_type_value (JObj [(lit "Bearer", JNull)]) Bearer.
Definition token_success_names : list string :=
  ["access_token"; "token_type"; "expires_in"; "scope"; "c_nonce"; "c_nonce_expires_in";
   "authorization_pending"; "interval"]%string.
Definition token_success_of (m : list (str * json)) (x : token_success) : Prop :=
  required_member m "access_token" text_value (ts_access_token x)
  /\ required_member m "token_type" token_type_value (ts_token_type x)
  /\ optional_member m "expires_in" u32_value (ts_expires_in x)
  /\ optional_member m "scope" text_value (ts_scope x)
  /\ optional_member m "c_nonce" text_value (ts_c_nonce x)
  /\ optional_member m "c_nonce_expires_in" u32_value (ts_c_nonce_expires_in x)
  /\ optional_member m "authorization_pending" bool_value (ts_authorization_pending x)
  /\ optional_member m "interval" u32_value (ts_interval x).

(** The names of the Rust variants appear in the document (C58). *)
Inductive issued_value : json -> cfp_or_encoded -> Prop :=
| iv_plain v c : credential_value Alone v c -> issued_value (JObj [(lit "CredentialFormatProfile", v)]) (CFP c)
| iv_encoded s : issued_value (JObj [(lit "Encoded", JStr s)]) (Encoded s).
Definition credential_success_names : list string :=
  ["format"; "credential"; "acceptance_token"; "c_nonce"; "c_nonce_expires_in"]%string.
Definition credential_success_of (m : list (str * json)) (x : credential_success) : Prop :=
  required_member m "format" text_value (cs_format x)
  /\ optional_member m "credential" issued_value (cs_credential x)
  /\ optional_member m "acceptance_token" text_value (cs_acceptance_token x)
  /\ optional_member m "c_nonce" text_value (cs_c_nonce x)
  /\ optional_member m "c_nonce_expires_in" u32_value (cs_c_nonce_expires_in x).

(* ------------------------------------------------------------------ *)
(** * Options, nonces, parsed proofs *)

Definition token_options_of (m : list (str * json)) (x : token_options) : Prop :=
  optional_member m "expected_user_pin" u64_value (to_expected_user_pin x).
Definition c_nonce_names : list string := ["c_nonce"; "c_nonce_expires_in"]%string.
Definition c_nonce_of (m : list (str * json)) (x : c_nonce) : Prop :=
  required_member m "c_nonce" text_value (cn_c_nonce x)
  /\ optional_member m "c_nonce_expires_in" u32_value (cn_expires_in x).
Definition nonce_option_names : list string :=
  ["c_nonce_expires_in"; "expected_c_nonce"; "c_nonce_created_at"]%string.
Definition nonce_options_of (d : deps) (m : list (str * json)) (x : c_nonce_options) : Prop :=
  required_member m "c_nonce_expires_in" u32_value (cno_expires_in x)
  /\ required_member m "expected_c_nonce" text_value (cno_expected x)
  /\ required_member m "c_nonce_created_at" (instant_value d) (cno_created_at x).
Definition eval_option_names : list string := ["c_nonce"; "client_id"]%string.
Definition eval_options_of (d : deps) (m : list (str * json)) (x : eval_options) : Prop :=
  optional_member m "c_nonce" (struct_value u nonce_option_names (all_of nonce_option_names) (nonce_options_of d)) (eo_c_nonce x)
  /\ optional_member m "client_id" text_value (eo_client_id x).
Definition key_written (o : option additional_header) : list str :=
  match o with
  | Some (KeyId _) => [lit "kid"]
  | Some (Jwk _) => [lit "jwk"]
  | Some (X5c _) => [lit "x5c"]
  | None => []
  end.
Definition header_value : json -> jwt_header -> Prop :=
  flat_value (fun h => [lit "typ"; lit "alg"] ++ key_written (h_additional h)) header_of.
Definition claims_written (b : jwt_body) : list str :=
  if_some "iss" (b_iss b) ++ [lit "aud"; lit "sub"; lit "iat"; lit "nonce"]
  ++ if_some "nbf" (b_nbf b) ++ if_some "exp" (b_exp b).
Definition proof_jwt_names : list string := ["header"; "body"; "signature"]%string.
Definition proof_jwt_of (d : deps) (m : list (str * json)) (x : proof_jwt) : Prop :=
  required_member m "header" header_value (j_header x)
  /\ required_member m "body" (struct_value u claim_names claims_written (claims_of d)) (j_body x)
  /\ optional_member m "signature" text_value (j_signature x).

(* ------------------------------------------------------------------ *)
(** * Whole documents *)

Definition offer_value := struct_value u offer_names (all_of offer_names) offer_of.
Definition token_request_value :=
  struct_value u ["grant_type"]%string (all_of ["grant_type"]%string) token_request_of.
Definition token_success_value :=
  struct_value u token_success_names (all_of token_success_names) token_success_of.
Definition credential_success_value :=
  struct_value u credential_success_names (all_of credential_success_names) credential_success_of.
Definition token_options_value :=
  struct_value u ["expected_user_pin"]%string (all_of ["expected_user_pin"]%string) token_options_of.
Definition c_nonce_value := struct_value u c_nonce_names (all_of c_nonce_names) c_nonce_of.
Definition eval_options_value (d : deps) :=
  struct_value u eval_option_names (all_of eval_option_names) (eval_options_of d).
Definition proof_jwt_value (d : deps) :=
  struct_value u proof_jwt_names (all_of proof_jwt_names) (proof_jwt_of d).
Definition claims_value (d : deps) := struct_value u claim_names claims_written (claims_of d).

End Use.

(* ------------------------------------------------------------------ *)
(** * What is taken from a document ([shape], SpecJson.v)

    Only where a struct contains structs; the others are [plain]. *)

Definition whole (names : list string) : list (str * shape) := map (fun n => (lit n, Whole)) names.

Definition offer_layout : shape :=
  StructOf (whole ["credential_issuer"; "credentials"]%string ++
    [(lit "grants", StructOf
        [(lit "authorization_code", plain [lit "issuer_state"]);
         (lit "urn:ietf:params:oauth:grant-type:pre-authorized_code",
            plain [lit "pre-authorized_code"; lit "user_pin_required"])])]).

Definition request_layout : shape :=
  Flattened [(lit "proof", plain [lit "proof_type"; lit "jwt"])].

Definition display_layout : shape :=
  StructOf (whole ["name"; "locale"]%string ++ [(lit "logo", plain [lit "url"; lit "alt_text"])]
    ++ whole ["description"; "background_color"; "text_color"]%string).

Definition supported_layout : shape :=
  Flattened (whole ["id"; "cryptographic_binding_mehtods_supported"; "cryptographic_suites_supported"]%string
    ++ [(lit "display", ListOf display_layout)]).

Definition metadata_layout : shape :=
  Flattened (whole ["credential_issuer"; "authorization_server"; "credential_endpoint";
                    "batch_credential_endpoint"]%string
    ++ [(lit "credentials_supported", ListOf supported_layout)]).

Definition eval_options_layout : shape :=
  StructOf ((lit "c_nonce", plain (map lit nonce_option_names)) :: whole ["client_id"]%string).

Definition proof_jwt_layout : shape :=
  StructOf (whole ["header"]%string ++ [(lit "body", plain (map lit claim_names))] ++ whole ["signature"]%string).
