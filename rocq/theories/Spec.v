(** Specification vocabulary. Nothing here mentions the functions of the model;
    only its data types (strings as byte lists, JSON documents, records). *)
From Coq Require Import Permutation Sorted.
From Verif Require Import Model.Prelude Model.Json Model.Types.
From Verif Require Export SpecNumber.

(* ------------------------------------------------------------------ *)
(** * Text *)

(** Unicode scalar values and the UTF-8 encoding (RFC 3629), stated as a relation. *)
Definition scalar_value (c : N) : Prop := c < 55296 \/ (57343 < c /\ c < 1114112).

Inductive utf8_char : N -> str -> Prop :=
| utf8_1 a : code a < 128 -> utf8_char (code a) [a]
| utf8_2 c a b :
    128 <= c < 2048 -> code a = 192 + c / 64 -> code b = 128 + c mod 64 ->
    utf8_char c [a; b]
| utf8_3 c a b d :
    2048 <= c < 65536 -> code a = 224 + c / 4096 -> code b = 128 + (c / 64) mod 64 ->
    code d = 128 + c mod 64 -> utf8_char c [a; b; d]
| utf8_4 c a b d e :
    65536 <= c < 1114112 -> code a = 240 + c / 262144 -> code b = 128 + (c / 4096) mod 64 ->
    code d = 128 + (c / 64) mod 64 -> code e = 128 + c mod 64 -> utf8_char c [a; b; d; e].

(** A Rust [String]: a sequence of UTF-8 encoded scalar values. *)
Inductive rust_string : str -> Prop :=
| rs_nil : rust_string []
| rs_cons c bytes s :
    scalar_value c -> utf8_char c bytes -> rust_string s -> rust_string (bytes ++ s).

(** Equality of texts up to the case of ASCII letters. *)
Definition upper_letter (c : ascii) : Prop := 65 <= code c <= 90.

Definition same_letter (a b : ascii) : Prop :=
  a = b
  \/ (upper_letter a /\ code b = code a + 32)
  \/ (upper_letter b /\ code a = code b + 32).

Definition ascii_ci (s t : str) : Prop := Forall2 same_letter s t.

(** Number of decimal digits: [k] digits iff 10^(k-1) <= n < 10^k; 0 has one. *)
Definition decimal_digits (n k : N) : Prop :=
  (n = 0 /\ k = 1) \/ (n <> 0 /\ k <> 0 /\ 10 ^ (k - 1) <= n /\ n < 10 ^ k).

(** Unreserved characters of a URL (RFC 3986, 2.3). *)
Definition url_unreserved (c : ascii) : Prop :=
  digit c \/ 65 <= code c <= 90 \/ 97 <= code c <= 122
  \/ c = "-"%char \/ c = "."%char \/ c = "_"%char \/ c = "~"%char.

Definition upper_hex (c : ascii) : Prop := digit c \/ 65 <= code c <= 70.

(** Text made of unreserved characters and upper-case %XX escapes. *)
Inductive url_payload : str -> Prop :=
| up_nil : url_payload []
| up_char c s : url_unreserved c -> url_payload s -> url_payload (c :: s)
| up_esc h l s :
    upper_hex h -> upper_hex l -> url_payload s -> url_payload ("%"%char :: h :: l :: s).

(* ------------------------------------------------------------------ *)
(** * JSON documents *)

(** Documents that are read to themselves: integers of 64 bits, other numbers whose
    text is kept, UTF-8 strings. *)
Inductive json_ok : json -> Prop :=
| ok_null : json_ok JNull
| ok_bool b : json_ok (JBool b)
| ok_int z : (- 2 ^ 63 <= z < 2 ^ 64)%Z -> json_ok (JInt z)
| ok_float s : float_kept s -> json_ok (JFloat s)
| ok_str s : rust_string s -> json_ok (JStr s)
| ok_arr l : (forall x, In x l -> json_ok x) -> json_ok (JArr l)
| ok_obj m :
    (forall k v, In (k, v) m -> rust_string k) ->
    (forall k v, In (k, v) m -> json_ok v) -> json_ok (JObj m).

(** Nesting depth: scalars 0, a container one more than its deepest member. *)
Fixpoint depth (j : json) : nat :=
  match j with
  | JArr l => S (list_max (map depth l))
  | JObj m => S (list_max (map (fun kv => depth (snd kv)) m))
  | _ => O
  end.

(* ------------------------------------------------------------------ *)
(** * Hash maps *)

Definition hmap_wf {V : Type} (m : hmap V) : Prop := NoDup (map fst m).

(** Equal maps: the same entries, in whatever iteration order. *)
Definition hmap_eq {V : Type} (m1 m2 : hmap V) : Prop := Permutation m1 m2.

(* ------------------------------------------------------------------ *)
(** * Values the Rust types can hold *)

(** [String]s are UTF-8, [u32]/[u64] fit, map keys are distinct. A type of the
    model is a superset of the Rust type; these predicates cut it down. *)
Definition on_some {A : Type} (P : A -> Prop) (o : option A) : Prop := forall a, o = Some a -> P a.

Definition u32 (n : N) : Prop := n < 2 ^ 32.
Definition u64 (n : N) : Prop := n < 2 ^ 64.

(** Byte order of keys. *)
Inductive str_lt : str -> str -> Prop :=
| sl_nil c s : str_lt [] (c :: s)
| sl_head a b s t : code a < code b -> str_lt (a :: s) (b :: t)
| sl_tail a s t : str_lt s t -> str_lt (a :: s) (a :: t).

(** A [serde_json::Value]: the members of every object are in key order. *)
Inductive value : json -> Prop :=
| v_null : value JNull
| v_bool b : value (JBool b)
| v_int z : value (JInt z)
| v_float s : value (JFloat s)
| v_str s : value (JStr s)
| v_arr l : (forall x, In x l -> value x) -> value (JArr l)
| v_obj m :
    StronglySorted str_lt (map fst m) ->
    (forall k v, In (k, v) m -> value v) -> value (JObj m).

(** A value nested at most [n] deep. *)
Definition value_ok (n : nat) (v : json) : Prop := json_ok v /\ value v /\ (depth v <= n)%nat.

Definition hmap_ok {V : Type} (P : V -> Prop) (m : hmap V) : Prop :=
  hmap_wf m /\ (forall k v, In (k, v) m -> rust_string k /\ P v).

Definition ld_context_ok (n : nat) (c : ld_context) : Prop :=
  match c with
  | LDString s => rust_string s
  | LDMap m => hmap_ok (value_ok n) m
  end.

Definition subject_display_ok (d : subject_display) : Prop :=
  on_some rust_string (sd_name d) /\ on_some rust_string (sd_locale d).

Definition subject_ok (s : credential_subject) : Prop :=
  on_some rust_string (cs_value_type s) /\ on_some (Forall subject_display_ok) (cs_display s).

(** [n] bounds the nesting of the free-form values in [@context]. *)
Definition cfp_ok (n : nat) (c : cfp) : Prop :=
  match c with
  | JwtVcJson ty su od | JwtVcJsonLd ty su od =>
      Forall rust_string ty /\ on_some (hmap_ok subject_ok) su /\ on_some (Forall rust_string) od
  | LdpVc cx ty su od =>
      Forall (ld_context_ok n) cx
      /\ Forall rust_string ty /\ on_some (hmap_ok subject_ok) su /\ on_some (Forall rust_string) od
  | MsoMdoc dt cl od =>
      rust_string dt /\ on_some (hmap_ok subject_ok) cl /\ on_some (Forall rust_string) od
  end.

Definition cfp_or_encoded_ok (n : nat) (c : cfp_or_encoded) : Prop :=
  match c with CFP c => cfp_ok n c | Encoded s => rust_string s end.

Definition logo_ok (l : display_logo) : Prop :=
  on_some rust_string (dl_url l) /\ on_some rust_string (dl_alt_text l).

Definition display_ok (p : display_properties) : Prop :=
  rust_string (dp_name p) /\ on_some rust_string (dp_locale p) /\ on_some logo_ok (dp_logo p)
  /\ on_some rust_string (dp_description p) /\ on_some rust_string (dp_background_color p)
  /\ on_some rust_string (dp_text_color p).

Definition supported_ok (n : nat) (s : credential_supported) : Prop :=
  cfp_ok n (sup_format s) /\ on_some rust_string (sup_id s)
  /\ on_some (Forall rust_string) (sup_binding_methods s)
  /\ on_some (Forall rust_string) (sup_suites s)
  /\ on_some (Forall display_ok) (sup_display s).

Definition metadata_ok (n : nat) (m : issuer_metadata) : Prop :=
  rust_string (im_credential_issuer m) /\ on_some rust_string (im_authorization_server m)
  /\ rust_string (im_credential_endpoint m) /\ on_some rust_string (im_batch_credential_endpoint m)
  /\ Forall (supported_ok n) (im_credentials_supported m)
  /\ on_some (hmap_ok (value_ok n)) (im_additional_fields m).

Definition proof_ok (p : request_proof) : Prop :=
  rust_string (rp_proof_type p) /\ rust_string (rp_jwt p).

Definition request_ok (n : nat) (r : credential_request) : Prop :=
  cfp_ok n (cr_format r) /\ on_some proof_ok (cr_proof r).

Definition header_ok (h : jwt_header) : Prop :=
  rust_string (h_typ h)
  /\ (forall s, h_additional h = Some (KeyId s) \/ h_additional h = Some (Jwk s)
                \/ h_additional h = Some (X5c s) -> rust_string s).

(** Instants are what chrono can print and read back. *)
Definition body_ok (b : jwt_body) : Prop :=
  on_some rust_string (b_iss b) /\ rust_string (b_aud b) /\ on_some rust_string (b_sub b)
  /\ rust_string (b_nonce b).

Definition token_request_ok (r : token_request) : Prop :=
  match tr_grant_type r with
  | GAuthorizedCode => True
  | GPreAuthorized c p => rust_string c /\ on_some u64 p
  end.

Definition token_success_ok (t : token_success) : Prop :=
  rust_string (ts_access_token t) /\ on_some u32 (ts_expires_in t)
  /\ on_some rust_string (ts_scope t) /\ on_some rust_string (ts_c_nonce t)
  /\ on_some u32 (ts_c_nonce_expires_in t) /\ on_some u32 (ts_interval t).

Definition credential_or_id_ok (n : nat) (c : credential_or_id) : Prop :=
  match c with CredentialId s => rust_string s | Credential c => cfp_ok n c end.

Definition auth_flow_ok (a : auth_flow) : Prop := on_some rust_string (af_issuer_state a).
Definition preauth_flow_ok (p : preauth_flow) : Prop := rust_string (pf_code p).

Definition offer_ok (n : nat) (o : credential_offer) : Prop :=
  rust_string (co_credential_issuer o)
  /\ Forall (credential_or_id_ok n) (co_credentials o)
  /\ on_some auth_flow_ok (og_auth (co_grants o))
  /\ on_some preauth_flow_ok (og_pre (co_grants o)).

Definition credential_success_ok (n : nat) (r : credential_success) : Prop :=
  rust_string (cs_format r) /\ on_some (cfp_or_encoded_ok n) (cs_credential r)
  /\ on_some rust_string (cs_acceptance_token r) /\ on_some rust_string (cs_c_nonce r)
  /\ on_some u32 (cs_c_nonce_expires_in r).

(* ------------------------------------------------------------------ *)
(** * Equality up to the iteration order of maps

    Finer than Rust's [==] only in that it tells [-0.0] from [0.0]; [==] itself is
    in Model.Equality and C106. *)

Inductive opt_rel {A : Type} (R : A -> A -> Prop) : option A -> option A -> Prop :=
| or_none : opt_rel R None None
| or_some a b : R a b -> opt_rel R (Some a) (Some b).

(** Free-form values have sorted members. *)
Inductive ld_context_eq : ld_context -> ld_context -> Prop :=
| le_string s : ld_context_eq (LDString s) (LDString s)
| le_map m1 m2 : hmap_eq m1 m2 -> ld_context_eq (LDMap m1) (LDMap m2).

Inductive cfp_eq : cfp -> cfp -> Prop :=
| ce_jwt ty su1 su2 od :
    opt_rel hmap_eq su1 su2 -> cfp_eq (JwtVcJson ty su1 od) (JwtVcJson ty su2 od)
| ce_jwtld ty su1 su2 od :
    opt_rel hmap_eq su1 su2 -> cfp_eq (JwtVcJsonLd ty su1 od) (JwtVcJsonLd ty su2 od)
| ce_ldp cx1 cx2 ty su1 su2 od :
    Forall2 ld_context_eq cx1 cx2 -> opt_rel hmap_eq su1 su2 ->
    cfp_eq (LdpVc cx1 ty su1 od) (LdpVc cx2 ty su2 od)
| ce_mdoc dt cl1 cl2 od :
    opt_rel hmap_eq cl1 cl2 -> cfp_eq (MsoMdoc dt cl1 od) (MsoMdoc dt cl2 od).

Inductive credential_or_id_eq : credential_or_id -> credential_or_id -> Prop :=
| ci_id s : credential_or_id_eq (CredentialId s) (CredentialId s)
| ci_cred c1 c2 : cfp_eq c1 c2 -> credential_or_id_eq (Credential c1) (Credential c2).

Definition offer_eq (o1 o2 : credential_offer) : Prop :=
  co_credential_issuer o1 = co_credential_issuer o2
  /\ Forall2 credential_or_id_eq (co_credentials o1) (co_credentials o2)
  /\ co_grants o1 = co_grants o2.
