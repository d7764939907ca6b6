(** Documents that are read and written again (C104). *)
From Verif Require Import Model.Prelude Model.Json Model.Types Model.Deps Spec SpecNumber.

(** The numbers other than integers inside a value, by their text. *)
Inductive number_in : str -> json -> Prop :=
| ni_here s : number_in s (JFloat s)
| ni_element s x l : In x l -> number_in s x -> number_in s (JArr l)
| ni_member s k x m : In (k, x) m -> number_in s x -> number_in s (JObj m).

(** All of them are read to themselves ([float_kept]; C94 says which are). *)
Definition numbers_kept (v : json) : Prop := forall s, number_in s v -> float_kept s.

(** The free-form values in a credential: those in the maps of [@context]. *)
Inductive free_in : json -> cfp -> Prop :=
| fi_context v k h context types subject order :
    In (LDMap h) context -> In (k, v) h -> free_in v (LdpVc context types subject order).

Definition credential_kept (c : cfp) : Prop := forall v, free_in v c -> numbers_kept v.

(** In an offer, a request, a response and in metadata. *)
Definition offer_kept (x : credential_offer) : Prop :=
  forall c, In (Credential c) (co_credentials x) -> credential_kept c.
Definition response_kept (x : credential_success) : Prop :=
  forall c, cs_credential x = Some (CFP c) -> credential_kept c.
Definition metadata_kept (x : issuer_metadata) : Prop :=
  (forall s, In s (im_credentials_supported x) -> credential_kept (sup_format s))
  /\ (forall h k v, im_additional_fields x = Some h -> In (k, v) h -> numbers_kept v).

(** Numbers in memory: a text that is written for an [f64]. *)
Definition f64_text (t : str) : Prop :=
  exists neg x, (neg = [] \/ neg = ["-"%char]) /\ written_as neg x t.

(** Free-form values as the program can hold them, with any such number. *)
Inductive json_any : json -> Prop :=
| ja_null : json_any JNull
| ja_bool b : json_any (JBool b)
| ja_int z : (- 2 ^ 63 <= z < 2 ^ 64)%Z -> json_any (JInt z)
| ja_float t : f64_text t -> json_any (JFloat t)
| ja_str s : rust_string s -> json_any (JStr s)
| ja_arr l : (forall x, In x l -> json_any x) -> json_any (JArr l)
| ja_obj m :
    (forall k v, In (k, v) m -> rust_string k) ->
    (forall k v, In (k, v) m -> json_any v) -> json_any (JObj m).
Definition value_any (n : nat) (v : json) : Prop := json_any v /\ value v /\ (depth v <= n)%nat.

(** [cfp_ok n] and so on, with [P] in place of [value_ok n] for the free-form values. *)
Definition ld_context_with (P : json -> Prop) (c : ld_context) : Prop :=
  match c with LDString s => rust_string s | LDMap m => hmap_ok P m end.
Definition cfp_with (P : json -> Prop) (c : cfp) : Prop :=
  match c with
  | JwtVcJson ty su od | JwtVcJsonLd ty su od =>
      Forall rust_string ty /\ on_some (hmap_ok subject_ok) su /\ on_some (Forall rust_string) od
  | LdpVc cx ty su od =>
      Forall (ld_context_with P) cx
      /\ Forall rust_string ty /\ on_some (hmap_ok subject_ok) su /\ on_some (Forall rust_string) od
  | MsoMdoc dt cl od =>
      rust_string dt /\ on_some (hmap_ok subject_ok) cl /\ on_some (Forall rust_string) od
  end.
Definition cfp_or_encoded_with (P : json -> Prop) (c : cfp_or_encoded) : Prop :=
  match c with CFP c => cfp_with P c | Encoded s => rust_string s end.
Definition supported_with (P : json -> Prop) (s : credential_supported) : Prop :=
  cfp_with P (sup_format s) /\ on_some rust_string (sup_id s)
  /\ on_some (Forall rust_string) (sup_binding_methods s)
  /\ on_some (Forall rust_string) (sup_suites s)
  /\ on_some (Forall display_ok) (sup_display s).
Definition request_with (P : json -> Prop) (r : credential_request) : Prop :=
  cfp_with P (cr_format r) /\ on_some proof_ok (cr_proof r).
Definition credential_or_id_with (P : json -> Prop) (c : credential_or_id) : Prop :=
  match c with CredentialId s => rust_string s | Credential c => cfp_with P c end.
Definition offer_with (P : json -> Prop) (o : credential_offer) : Prop :=
  rust_string (co_credential_issuer o)
  /\ Forall (credential_or_id_with P) (co_credentials o)
  /\ on_some auth_flow_ok (og_auth (co_grants o))
  /\ on_some preauth_flow_ok (og_pre (co_grants o)).
Definition credential_success_with (P : json -> Prop) (r : credential_success) : Prop :=
  rust_string (cs_format r) /\ on_some (cfp_or_encoded_with P) (cs_credential r)
  /\ on_some rust_string (cs_acceptance_token r) /\ on_some rust_string (cs_c_nonce r)
  /\ on_some u32 (cs_c_nonce_expires_in r).
Definition metadata_with (P R : json -> Prop) (m : issuer_metadata) : Prop :=
  rust_string (im_credential_issuer m) /\ on_some rust_string (im_authorization_server m)
  /\ rust_string (im_credential_endpoint m) /\ on_some rust_string (im_batch_credential_endpoint m)
  /\ Forall (supported_with P) (im_credentials_supported m)
  /\ on_some (hmap_ok R) (im_additional_fields m).

(** The same with every number other than an integer replaced: [r s] for [s]. *)
Fixpoint json_numbers (r : str -> str) (v : json) : json :=
  match v with
  | JFloat s => JFloat (r s)
  | JArr l => JArr (map (json_numbers r) l)
  | JObj m => JObj (map (fun kv => (fst kv, json_numbers r (snd kv))) m)
  | _ => v
  end.
Definition map_numbers (r : str -> str) (h : hmap json) : hmap json :=
  map (fun kv => (fst kv, json_numbers r (snd kv))) h.

Definition context_numbers (r : str -> str) (c : ld_context) : ld_context :=
  match c with LDString s => LDString s | LDMap h => LDMap (map_numbers r h) end.
Definition credential_numbers (r : str -> str) (c : cfp) : cfp :=
  match c with
  | LdpVc context types subject order => LdpVc (map (context_numbers r) context) types subject order
  | c => c
  end.
Definition offered_numbers (r : str -> str) (c : credential_or_id) : credential_or_id :=
  match c with CredentialId s => CredentialId s | Credential c => Credential (credential_numbers r c) end.
Definition offer_numbers (r : str -> str) (x : credential_offer) : credential_offer :=
  {| co_credential_issuer := co_credential_issuer x;
     co_credentials := map (offered_numbers r) (co_credentials x);
     co_grants := co_grants x |}.
Definition request_numbers (r : str -> str) (x : credential_request) : credential_request :=
  {| cr_format := credential_numbers r (cr_format x); cr_proof := cr_proof x |}.
Definition issued_numbers (r : str -> str) (c : cfp_or_encoded) : cfp_or_encoded :=
  match c with CFP c => CFP (credential_numbers r c) | Encoded s => Encoded s end.
Definition response_numbers (r : str -> str) (x : credential_success) : credential_success :=
  {| cs_format := cs_format x; cs_credential := option_map (issued_numbers r) (cs_credential x);
     cs_acceptance_token := cs_acceptance_token x; cs_c_nonce := cs_c_nonce x;
     cs_c_nonce_expires_in := cs_c_nonce_expires_in x |}.
Definition supported_numbers (r : str -> str) (x : credential_supported) : credential_supported :=
  {| sup_format := credential_numbers r (sup_format x); sup_id := sup_id x;
     sup_binding_methods := sup_binding_methods x; sup_suites := sup_suites x; sup_display := sup_display x |}.
Definition metadata_numbers (r : str -> str) (x : issuer_metadata) : issuer_metadata :=
  {| im_credential_issuer := im_credential_issuer x; im_authorization_server := im_authorization_server x;
     im_credential_endpoint := im_credential_endpoint x;
     im_batch_credential_endpoint := im_batch_credential_endpoint x;
     im_credentials_supported := map (supported_numbers r) (im_credentials_supported x);
     im_additional_fields := option_map (map_numbers r) (im_additional_fields x) |}.

(** [r] gives the text of the number that a text is read to. *)
Definition rereads (r : str -> str) : Prop := forall s t, float_becomes s t -> r s = t.

(** Dates that are read are dates the program can hold. *)
Definition dates_in_range (d : deps) : Prop :=
  forall s t, dt_parse d s = Some t -> in_instant_range t = true.
