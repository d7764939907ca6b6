(** What OpenID4VCI draft 11 says documents look like (sections 4.1.1, 6.2, 7.2,
    7.2.1, 7.3, 10.2.3 and appendix E, as quoted in the crate's doc comments, with
    RFC 6749, RFC 7515 and the VC data model where the draft refers to them).
    Nothing here looks at what the crate does. Members that are not mentioned may
    be there and may hold anything. *)
From Verif Require Import Model.Prelude Model.Json Model.Types Spec.

(* ------------------------------------------------------------------ *)
(** * Vocabulary *)

Definition a_text (v : json) : Prop := exists s, v = JStr s.
Definition a_truth (v : json) : Prop := exists b, v = JBool b.
(** A number of seconds. *)
Definition a_count (v : json) : Prop := exists n, v = JInt (Z.of_N n).
Definition an_array (P : json -> Prop) (v : json) : Prop := exists l, v = JArr l /\ Forall P l.
Definition an_object (P : list (str * json) -> Prop) (v : json) : Prop :=
  exists m, v = JObj m /\ NoDup (map fst m) /\ P m.
Definition texts : json -> Prop := an_array a_text.

(** A REQUIRED member, an OPTIONAL one, members that are not defined here. *)
Definition must (m : list (str * json)) (k : string) (P : json -> Prop) : Prop :=
  exists v, In (lit k, v) m /\ P v.
Definition may (m : list (str * json)) (k : string) (P : json -> Prop) : Prop :=
  forall v, In (lit k, v) m -> P v.
Definition not_defined (m : list (str * json)) (names : list string) : Prop :=
  forall k, In k names -> ~ In (lit k) (map fst m).
Definition present (m : list (str * json)) (k : string) : Prop := In (lit k) (map fst m).

Definition format_is (m : list (str * json)) (f : string) : Prop := In (lit "format", JStr (lit f)) m.
(** A format of some other profile. *)
Definition other_format (m : list (str * json)) : Prop :=
  exists f, In (lit "format", JStr f) m
    /\ forall n, In n ["jwt_vc_json"; "jwt_vc_json-ld"; "ldp_vc"; "mso_mdoc"]%string -> f <> lit n.

(** An entry of [@context]. *)
Definition context_entry (v : json) : Prop := a_text v \/ exists m, v = JObj m.

(* ------------------------------------------------------------------ *)
(** * Claims (E.1.1.2, E.2.2) *)

Definition claim_display (v : json) : Prop :=
  an_object (fun m => may m "name" a_text /\ may m "locale" a_text) v.

(** A claim is described by three members; it can also have claims of its own,
    whatever they are called. *)
Inductive claim_object : json -> Prop :=
| co_claim m : NoDup (map fst m) -> (forall k v, In (k, v) m -> claim_member k v) -> claim_object (JObj m)
with claim_member : str -> json -> Prop :=
| cm_mandatory v : a_truth v -> claim_member (lit "mandatory") v
| cm_value_type v : a_text v -> claim_member (lit "value_type") v
| cm_display v : an_array claim_display v -> claim_member (lit "display") v
| cm_nested k v : claim_object v -> claim_member k v
| cm_other k v : ~ In k (map lit ["mandatory"; "value_type"; "display"]%string) -> claim_member k v.

Definition every_member (P : json -> Prop) (v : json) : Prop :=
  an_object (fun m => forall k j, In (k, j) m -> P j) v.
Definition subject_claims : json -> Prop := every_member claim_object.
(** By namespace. *)
Definition mdoc_claims : json -> Prop := every_member (every_member claim_object).

(** Nothing in the description of a claim takes the place of what the crate calls
    [mandatory], [display] and [valueType]. *)
Definition undisturbed (d : list (str * json)) : Prop :=
  (forall m, ~ In (lit "mandatory", JObj m) d)
  /\ (forall m, ~ In (lit "display", JObj m) d)
  /\ (forall v, In (lit "valueType", v) d -> v = JNull \/ a_text v).
Definition claims_undisturbed (m : list (str * json)) (k : string) : Prop :=
  forall c n d, In (lit k, JObj c) m -> In (n, JObj d) c -> undisturbed d.

(* ------------------------------------------------------------------ *)
(** * Credentials in offers and requests (E.1.1.3, E.1.1.5, E.1.3.3, E.1.3.5, E.2.3, E.2.5) *)

Definition credential_definition (v : json) : Prop :=
  an_object (fun d => must d "@context" (an_array context_entry) /\ must d "types" texts) v.

Inductive asked_members (m : list (str * json)) : Prop :=
| am_jwt : format_is m "jwt_vc_json" -> must m "types" texts ->
    may m "credentialSubject" subject_claims -> may m "order" texts -> asked_members m
| am_ld : format_is m "jwt_vc_json-ld" \/ format_is m "ldp_vc" ->
    must m "credential_definition" credential_definition -> not_defined m ["@context"; "types"]%string ->
    asked_members m
| am_mdoc : format_is m "mso_mdoc" -> must m "doctype" a_text ->
    may m "claims" mdoc_claims -> may m "order" texts -> asked_members m
| am_other : other_format m -> asked_members m.

(** A format of the draft that does not use JSON-LD, with undisturbed claims. *)
Definition plain_members (m : list (str * json)) : Prop :=
  format_is m "jwt_vc_json" /\ claims_undisturbed m "credentialSubject"
  \/ format_is m "mso_mdoc" /\ claims_undisturbed m "claims".

(* ------------------------------------------------------------------ *)
(** * Offers (4.1.1) *)

Definition draft_entry (v : json) : Prop := a_text v \/ an_object asked_members v.

Definition draft_grants (v : json) : Prop :=
  an_object (fun m =>
    may m "authorization_code" (an_object (fun g => may g "issuer_state" a_text))
    /\ may m "urn:ietf:params:oauth:grant-type:pre-authorized_code"
         (an_object (fun g => must g "pre-authorized_code" a_text /\ may g "user_pin_required" a_truth))) v.

Definition draft_offer_members (m : list (str * json)) : Prop :=
  must m "credential_issuer" a_text
  /\ must m "credentials" (an_array draft_entry)
  /\ may m "grants" draft_grants.
Definition draft_offer : json -> Prop := an_object draft_offer_members.

Definition plain_entry (v : json) : Prop := a_text v \/ exists m, v = JObj m /\ plain_members m.

(* ------------------------------------------------------------------ *)
(** * Credential requests (7.2) *)

Definition draft_proof (v : json) : Prop :=
  an_object (fun m => must m "proof_type" (fun t => t = JStr (lit "jwt")) /\ must m "jwt" a_text) v.
Definition draft_request_members (m : list (str * json)) : Prop :=
  asked_members m /\ may m "proof" draft_proof.
Definition draft_request : json -> Prop := an_object draft_request_members.

(* ------------------------------------------------------------------ *)
(** * Issuer metadata (10.2.3, 10.2.3.1; E.1.1.2, E.1.3.2, E.2.2) *)

Definition draft_logo (v : json) : Prop :=
  an_object (fun m => may m "url" a_text /\ may m "alt_text" a_text) v.
Definition draft_display (v : json) : Prop :=
  an_object (fun m => must m "name" a_text /\ may m "locale" a_text /\ may m "logo" draft_logo
    /\ may m "description" a_text /\ may m "background_color" a_text /\ may m "text_color" a_text) v.

Inductive described_members (m : list (str * json)) : Prop :=
| dm_jwt : format_is m "jwt_vc_json" -> must m "types" texts ->
    may m "credentialSubject" subject_claims -> may m "order" texts -> described_members m
| dm_ld : format_is m "jwt_vc_json-ld" \/ format_is m "ldp_vc" ->
    must m "@context" (an_array context_entry) -> must m "types" texts ->
    may m "credentialSubject" subject_claims -> may m "order" texts -> described_members m
| dm_mdoc : format_is m "mso_mdoc" -> must m "doctype" a_text ->
    may m "claims" mdoc_claims -> may m "order" texts -> described_members m
| dm_other : other_format m -> described_members m.

Definition draft_supported_members (m : list (str * json)) : Prop :=
  described_members m
  /\ may m "id" a_text
  /\ may m "cryptographic_binding_methods_supported" texts
  /\ may m "cryptographic_suites_supported" texts
  /\ may m "display" (an_array draft_display).
Definition draft_metadata_members (m : list (str * json)) : Prop :=
  must m "credential_issuer" a_text
  /\ may m "authorization_server" a_text
  /\ must m "credential_endpoint" a_text
  /\ may m "batch_credential_endpoint" a_text
  /\ must m "credentials_supported" (an_array (an_object draft_supported_members)).
Definition draft_metadata : json -> Prop := an_object draft_metadata_members.

(** The crate looks for the binding methods under a misspelt name (C70). *)
Definition misspelt_undisturbed (m : list (str * json)) : Prop :=
  may m "cryptographic_binding_mehtods_supported" (fun v => v = JNull \/ texts v).
(** A description in one of the four formats, with undisturbed claims. *)
Definition plain_description (m : list (str * json)) : Prop :=
  (format_is m "jwt_vc_json" \/ format_is m "jwt_vc_json-ld" \/ format_is m "ldp_vc")
  /\ claims_undisturbed m "credentialSubject"
  \/ format_is m "mso_mdoc" /\ claims_undisturbed m "claims".
Definition plain_supported (v : json) : Prop :=
  exists m, v = JObj m /\ plain_description m /\ misspelt_undisturbed m.

(* ------------------------------------------------------------------ *)
(** * Token responses (6.2; RFC 6749, 5.1 and 7.1) *)

Definition draft_token_members (m : list (str * json)) : Prop :=
  must m "access_token" a_text
  /\ must m "token_type" (fun v => exists s, v = JStr s /\ ascii_ci s (lit "bearer"))
  /\ may m "expires_in" a_count
  /\ may m "scope" a_text
  /\ may m "c_nonce" a_text
  /\ may m "c_nonce_expires_in" a_count
  /\ may m "authorization_pending" a_truth
  /\ may m "interval" a_count.
Definition draft_token_response : json -> Prop := an_object draft_token_members.

(** The numbers of seconds are below 2^32. *)
Definition counts_fit (m : list (str * json)) (names : list string) : Prop :=
  forall k n, In k names -> In (lit k, JInt (Z.of_N n)) m -> n < 2 ^ 32.

(* ------------------------------------------------------------------ *)
(** * Credential responses (7.3; E.1.1.6, E.1.3.6, E.2.6) *)

(** An encoded credential, or one in JSON-LD. *)
Definition issued_credential (v : json) : Prop :=
  a_text v \/ an_object (fun m => present m "@context") v.
Definition draft_credential_members (m : list (str * json)) : Prop :=
  must m "format" a_text
  /\ may m "credential" issued_credential
  /\ may m "acceptance_token" a_text
  /\ may m "c_nonce" a_text
  /\ may m "c_nonce_expires_in" a_count
  /\ (present m "credential" \/ present m "acceptance_token").
Definition draft_credential_response : json -> Prop := an_object draft_credential_members.

(* ------------------------------------------------------------------ *)
(** * The key in the header of a proof (7.2.1.1; RFC 7515, 4.1.3, 4.1.4, 4.1.6) *)

(** Exactly one of the three is there: a text, a JWK, a chain of certificates. *)
Inductive draft_key (m : list (str * json)) : Prop :=
| dk_kid s : In (lit "kid", JStr s) m -> not_defined m ["jwk"; "x5c"]%string -> draft_key m
| dk_jwk v : In (lit "jwk", v) m -> an_object (fun k => must k "kty" a_text) v ->
    not_defined m ["kid"; "x5c"]%string -> draft_key m
| dk_x5c v : In (lit "x5c", v) m -> texts v -> not_defined m ["kid"; "jwk"]%string -> draft_key m.
Definition draft_header_members (m : list (str * json)) : Prop :=
  must m "typ" a_text /\ must m "alg" (fun v => v = JStr (lit "EdDSA") \/ v = JStr (lit "ES256")) /\ draft_key m.
Definition draft_header : json -> Prop := an_object draft_header_members.

(* ------------------------------------------------------------------ *)
(** * What a reader learns about claims *)


(** The claims of a credential as the crate holds them. *)
Definition claims_in (c : cfp) : option (hmap credential_subject) :=
  match c with
  | JwtVcJson _ s _ | JwtVcJsonLd _ s _ | LdpVc _ _ s _ => s
  | MsoMdoc _ s _ => s
  end.

(** [d] describes the claim (or namespace) [n] in a description of a credential. *)
Inductive claim_listed (m : list (str * json)) (n : str) (d : list (str * json)) : Prop :=
| cl_subject c : ~ format_is m "mso_mdoc" -> In (lit "credentialSubject", JObj c) m -> In (n, JObj d) c ->
    claim_listed m n d
| cl_mdoc c : format_is m "mso_mdoc" -> In (lit "claims", JObj c) m -> In (n, JObj d) c -> claim_listed m n d.

Definition shows (v : json) (y : subject_display) : Prop :=
  exists m, v = JObj m
    /\ (forall t, sd_name y = Some t <-> In (lit "name", JStr t) m)
    /\ (forall t, sd_locale y = Some t <-> In (lit "locale", JStr t) m).
Definition displayed (d : list (str * json)) (o : option (list subject_display)) : Prop :=
  match o with
  | Some l => exists js, In (lit "display", JArr js) d /\ Forall2 shows js l
  | None => ~ present d "display"
  end.

(* ------------------------------------------------------------------ *)
(** * What can be written according to the draft *)

(** A description of an mso_mdoc credential that says nothing about claims. *)
Definition says_nothing (o : option (hmap credential_subject)) : Prop :=
  forall h n s, o = Some h -> In (n, s) h -> cs_mandatory s = None /\ cs_value_type s = None /\ cs_display s = None.

(** Credentials in offers and requests, and in metadata. *)
Definition askable (c : cfp) : Prop :=
  match c with
  | JwtVcJson _ _ _ => True
  | MsoMdoc _ claims _ => says_nothing claims
  | _ => False
  end.
Definition describable (c : cfp) : Prop :=
  match c with
  | JwtVcJson _ _ _ | LdpVc _ _ _ _ => True
  | JwtVcJsonLd _ _ _ => False
  | MsoMdoc _ claims _ => says_nothing claims
  end.

Definition given {A : Type} (o : option A) : Prop := o <> None.
Definition display_given (d : display_properties) : Prop :=
  given (dp_locale d) /\ given (dp_description d) /\ given (dp_background_color d) /\ given (dp_text_color d)
  /\ exists l, dp_logo d = Some l /\ given (dl_url l) /\ given (dl_alt_text l).
Definition supported_given (x : credential_supported) : Prop :=
  describable (sup_format x) /\ given (sup_id x) /\ given (sup_suites x)
  /\ exists l, sup_display x = Some l /\ Forall display_given l.
