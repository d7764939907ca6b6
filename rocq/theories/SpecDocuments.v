(** Documents a caller stores or exchanges, without the model's functions. *)
From Verif Require Import Model.Prelude Model.Json Model.Types Model.Deps Spec SpecToken SpecJwt.

(* ------------------------------------------------------------------ *)
(** * Values the option types can hold *)

Definition token_options_ok (o : token_options) : Prop := on_some u64 (to_expected_user_pin o).

Definition c_nonce_ok (n : c_nonce) : Prop :=
  rust_string (cn_c_nonce n) /\ on_some u32 (cn_expires_in n).

Definition c_nonce_options_ok (o : c_nonce_options) : Prop :=
  u32 (cno_expires_in o) /\ rust_string (cno_expected o) /\ in_instant_range (cno_created_at o) = true.

Definition eval_options_ok (o : eval_options) : Prop :=
  on_some c_nonce_options_ok (eo_c_nonce o) /\ on_some rust_string (eo_client_id o).

Definition proof_jwt_ok (j : proof_jwt) : Prop :=
  header_ok (j_header j) /\ body_ok (j_body j) /\ body_instants_ok (j_body j)
  /\ on_some rust_string (j_signature j).

(* ------------------------------------------------------------------ *)
(** * Documents *)

(** A JSON integer between 0 and [bound] (excluded). *)
Definition integer_value (bound : N) (v : json) (n : N) : Prop := v = JInt (Z.of_N n) /\ n < bound.

(** What a token request says, given the members of its [grant_type] object. *)
Inductive grant_of (m : list (str * json)) : grant_type -> Prop :=
| go_authorization_code :
    only_member m "grant_type" (JStr (lit "authorization_code")) -> grant_of m GAuthorizedCode
| go_pre_authorized code pin :
    only_member m "grant_type" (JStr (lit "urn:ietf:params:oauth:grant-type:pre-authorized_code")) ->
    only_member m "pre_authorized_code" (JStr code) ->
    optional_member m "user_pin" (integer_value (2 ^ 64)) pin ->
    grant_of m (GPreAuthorized code pin).

(** The members of issuer metadata that have a meaning of their own. *)
Definition metadata_names : list string :=
  ["credential_issuer"; "authorization_server"; "credential_endpoint";
   "batch_credential_endpoint"; "credentials_supported"]%string.
Definition names_metadata (k : str) : Prop := exists n, In n metadata_names /\ k = lit n.

(** The same metadata with other additional fields. *)
Definition with_additional (m : issuer_metadata) (a : hmap json) : issuer_metadata :=
  {| im_credential_issuer := im_credential_issuer m;
     im_authorization_server := im_authorization_server m;
     im_credential_endpoint := im_credential_endpoint m;
     im_batch_credential_endpoint := im_batch_credential_endpoint m;
     im_credentials_supported := im_credentials_supported m;
     im_additional_fields := Some a |}.

(** Metadata whose text has at most 127 levels: five around the values in the
    contexts of a published credential, one around additional fields. *)
Definition shallow_metadata (m : issuer_metadata) : Prop :=
  Forall (supported_ok 122) (im_credentials_supported m)
  /\ on_some (hmap_ok (value_ok 126)) (im_additional_fields m).

(** The additional fields are the members without a meaning of their own. *)
Definition additional_of (m : list (str * json)) (a : hmap json) : Prop :=
  hmap_wf a
  /\ (forall k, In k (map fst a) <-> In k (map fst m) /\ ~ names_metadata k)
  /\ (forall k v, ~ names_metadata k -> value v -> In (k, v) m ->
        count_occ (list_eq_dec ascii_dec) (map fst m) k = 1%nat -> In (k, v) a).

(** A proof in a credential request; without [proof_type] it is a JWT. serde also
    reads a struct from an array. *)
Inductive proof_value : json -> request_proof -> Prop :=
| pv_default m jwt :
    no_member m "proof_type" -> only_member m "jwt" (JStr jwt) ->
    proof_value (JObj m) {| rp_proof_type := lit "JWT"; rp_jwt := jwt |}
| pv_object m t jwt :
    only_member m "proof_type" (JStr t) -> only_member m "jwt" (JStr jwt) ->
    proof_value (JObj m) {| rp_proof_type := t; rp_jwt := jwt |}
| pv_list t jwt : proof_value (JArr [JStr t; JStr jwt]) {| rp_proof_type := t; rp_jwt := jwt |}.

(** The values of [cryptographic_binding_methods_supported] in JSON. *)
Definition methods_value (v : json) (l : list str) : Prop := v = JArr (map JStr l).
