(** Vocabulary for C115: the objects inside a document of which members are read by
    name, with these names. A struct can also be given as the list of its values
    ([members_of]); then every name occurs once. *)
From Verif Require Import Model.Prelude Model.Json Model.Types Model.Deps Model.AccessToken Model.CredentialIssuer
  Model.Serde Model.SerdeOptions Model.Wire Spec SpecToken SpecJwt SpecDocuments SpecWire.

Definition member_list : Type := list (str * json).
Definition times (n : string) (m : member_list) : nat :=
  count_occ (list_eq_dec ascii_dec) (map fst m) (lit n).

Definition subject_names : list string := ["mandatory"; "valueType"; "display"]%string.
Definition label_names : list string := ["name"; "locale"]%string.
Inductive subject_object (v : json) : list string -> member_list -> Prop :=
| so_self m : members_of subject_names v m -> subject_object v subject_names m
| so_label m l e o : members_of subject_names v m -> In (lit "display", JArr l) m -> In e l ->
    members_of label_names e o -> subject_object v label_names o.

(** The member that describes the claims of a credential. *)
Definition subjects_name (c : cfp) : string :=
  match c with MsoMdoc _ _ _ => "claims" | _ => "credentialSubject" end%string.
(** The objects below the members [m] of a credential that is read as [c]. *)
Inductive described (c : cfp) (m : member_list) : list string -> member_list -> Prop :=
| dc_subject l k v ns o : In (lit (subjects_name c), JObj l) m -> In (k, v) l ->
    subject_object v ns o -> described c m ns o.
Inductive credential_object (c : cfp) (v : json) : list string -> member_list -> Prop :=
| co_self m : members_of (credential_names c) v m -> credential_object c v (credential_names c) m
| co_below m ns o : members_of (credential_names c) v m -> described c m ns o -> credential_object c v ns o.

Definition pre_authorized : string := "urn:ietf:params:oauth:grant-type:pre-authorized_code".
Definition auth_names : list string := ["issuer_state"]%string.
Definition pre_names : list string := ["pre-authorized_code"; "user_pin_required"]%string.
Inductive offer_object (x : credential_offer) (v : json) : list string -> member_list -> Prop :=
| oo_self m : members_of offer_names v m -> offer_object x v offer_names m
| oo_credential m l i e c ns o : members_of offer_names v m -> In (lit "credentials", JArr l) m ->
    nth_error l i = Some e -> nth_error (co_credentials x) i = Some (Credential c) ->
    credential_object c e ns o -> offer_object x v ns o
| oo_grants m g o : members_of offer_names v m -> In (lit "grants", g) m ->
    members_of grant_names g o -> offer_object x v grant_names o
| oo_auth m g gm f o : members_of offer_names v m -> In (lit "grants", g) m -> members_of grant_names g gm ->
    In (lit "authorization_code", f) gm -> members_of auth_names f o -> offer_object x v auth_names o
| oo_pre m g gm f o : members_of offer_names v m -> In (lit "grants", g) m -> members_of grant_names g gm ->
    In (lit pre_authorized, f) gm -> members_of pre_names f o -> offer_object x v pre_names o.

Definition logo_names : list string := ["url"; "alt_text"]%string.
Inductive supported_object (x : credential_supported) (m : member_list) : list string -> member_list -> Prop :=
| po_self : supported_object x m (supported_names ++ credential_names (sup_format x)) m
| po_below ns o : described (sup_format x) m ns o -> supported_object x m ns o
| po_display l e o : In (lit "display", JArr l) m -> In e l -> members_of display_names e o ->
    supported_object x m display_names o
| po_logo l e em g o : In (lit "display", JArr l) m -> In e l -> members_of display_names e em ->
    In (lit "logo", g) em -> members_of logo_names g o -> supported_object x m logo_names o.
Inductive metadata_object (x : issuer_metadata) (v : json) : list string -> member_list -> Prop :=
| mo_self m : v = JObj m -> metadata_object x v metadata_names m
| mo_supported m l i em c ns o : v = JObj m -> In (lit "credentials_supported", JArr l) m ->
    nth_error l i = Some (JObj em) -> nth_error (im_credentials_supported x) i = Some c ->
    supported_object c em ns o -> metadata_object x v ns o.

Definition proof_names : list string := ["proof_type"; "jwt"]%string.
Inductive request_object (x : credential_request) (v : json) : list string -> member_list -> Prop :=
| qo_self m : v = JObj m -> request_object x v ("proof"%string :: credential_names (cr_format x)) m
| qo_below m ns o : v = JObj m -> described (cr_format x) m ns o -> request_object x v ns o
| qo_proof m o : v = JObj m -> In (lit "proof", JObj o) m -> request_object x v proof_names o.

Inductive response_object (x : credential_success) (v : json) : list string -> member_list -> Prop :=
| ro_self m : members_of credential_success_names v m -> response_object x v credential_success_names m
| ro_credential m e c ns o : members_of credential_success_names v m ->
    In (lit "credential", JObj [(lit "CredentialFormatProfile", e)]) m -> cs_credential x = Some (CFP c) ->
    credential_object c e ns o -> response_object x v ns o.

Inductive token_request_object (x : token_request) (v : json) : list string -> member_list -> Prop :=
| to_self m : members_of ["grant_type"]%string v m -> token_request_object x v ["grant_type"]%string m
| to_grant m g o : members_of ["grant_type"]%string v m -> In (lit "grant_type", g) m ->
    members_of (grant_type_names (tr_grant_type x)) g o ->
    token_request_object x v (grant_type_names (tr_grant_type x)) o.

Inductive options_object (v : json) : list string -> member_list -> Prop :=
| eo_self m : members_of eval_option_names v m -> options_object v eval_option_names m
| eo_nonce m g o : members_of eval_option_names v m -> In (lit "c_nonce", g) m ->
    members_of nonce_option_names g o -> options_object v nonce_option_names o.

Definition header_names (key : bool) : list string :=
  if key then ["typ"; "alg"; "kid"; "jwk"; "x5c"]%string else ["typ"; "alg"]%string.

Inductive proof_object (key : bool) (v : json) : list string -> member_list -> Prop :=
| jo_self m : members_of proof_jwt_names v m -> proof_object key v proof_jwt_names m
| jo_header m o : members_of proof_jwt_names v m -> In (lit "header", JObj o) m ->
    proof_object key v (header_names key) o
| jo_body m b o : members_of proof_jwt_names v m -> In (lit "body", b) m -> members_of claim_names b o ->
    proof_object key v claim_names o.

(** [s] is read, [v] is what it says, and [m] is one of its objects, of which the
    members [ns] are read. [key]: the names of a proof's key are among them. *)
Inductive read_object (d : deps) (key : bool) (s : str) (v : json) : list string -> member_list -> Prop :=
| rob_offer x ns m : offer_from_json s = Some x -> offer_object x v ns m -> read_object d key s v ns m
| rob_metadata x ns m : metadata_from_json s = Some x -> metadata_object x v ns m -> read_object d key s v ns m
| rob_request x ns m : credential_request_from_json s = Some x -> request_object x v ns m -> read_object d key s v ns m
| rob_response x ns m : credential_success_from_json s = Some x -> response_object x v ns m -> read_object d key s v ns m
| rob_token_request x ns m : token_request_from_json s = Some x -> token_request_object x v ns m -> read_object d key s v ns m
| rob_token_response x m : token_success_from_json s = Some x -> members_of token_success_names v m ->
    read_object d key s v token_success_names m
| rob_header x m : header_from_json s = Some x -> v = JObj m ->
    read_object d key s v (header_names key) m
| rob_claims x m : claims_from_json d s = Some x -> members_of claim_names v m -> read_object d key s v claim_names m
| rob_options x ns m : eval_options_from_json d s = Some x -> options_object v ns m -> read_object d key s v ns m
| rob_pin x m : token_options_from_json s = Some x -> members_of ["expected_user_pin"]%string v m ->
    read_object d key s v ["expected_user_pin"]%string m
| rob_nonce x m : c_nonce_from_json s = Some x -> members_of c_nonce_names v m -> read_object d key s v c_nonce_names m
| rob_proof x ns m : proof_jwt_from_json d s = Some x -> proof_object key v ns m -> read_object d key s v ns m.
