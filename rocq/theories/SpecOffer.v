(** What issuer metadata, offers and their URLs are supposed to be, without the
    model's functions. *)
From Verif Require Import Model.Prelude Model.Json Model.Types Spec.

(** No two supported credentials (at different positions) carry the same id. *)
Definition ids_distinct (l : list credential_supported) : Prop :=
  forall i j a b id,
    nth_error l i = Some a -> nth_error l j = Some b -> i <> j ->
    sup_id a = Some id -> sup_id b <> Some id.

(** The first supported credential with a given id. *)
Definition first_with_id (l : list credential_supported) (id : str) (c : credential_supported) : Prop :=
  exists before after,
    l = before ++ c :: after /\ sup_id c = Some id
    /\ Forall (fun b => sup_id b <> Some id) before.

Definition known_id (m : issuer_metadata) (id : str) : Prop :=
  exists c, In c (im_credentials_supported m) /\ sup_id c = Some id.

(** An inline credential stands for itself, an id for the format of the first
    supported credential with that id. *)
Inductive resolves (m : issuer_metadata) : credential_or_id -> cfp -> Prop :=
| resolves_inline c : resolves m (Credential c) c
| resolves_id id c :
    first_with_id (im_credentials_supported m) id c -> resolves m (CredentialId id) (sup_format c).

(** An entry that can be resolved. *)
Definition resolvable (m : issuer_metadata) (c : credential_or_id) : Prop :=
  forall id, c = CredentialId id -> known_id m id.

(** The first entry, in order, that names an unknown id. *)
Definition first_unknown (m : issuer_metadata) (l : list credential_or_id) (id : str) : Prop :=
  exists before after,
    l = before ++ CredentialId id :: after
    /\ Forall (resolvable m) before /\ ~ known_id m id.

Definition duplicate_ids_error : issuer_error :=
  IValidationError (VAny (lit "Ids in supported credentials of the issuer metadata are not unique")).

(** Errors of offer creation, in order of precedence. *)
Inductive offer_error (m : issuer_metadata) (l : list credential_or_id)
  : option auth_flow -> issuer_error -> Prop :=
| oe_duplicate a : ~ ids_distinct (im_credentials_supported m) -> offer_error m l a duplicate_ids_error
| oe_authorized a :
    ids_distinct (im_credentials_supported m) ->
    offer_error m l (Some a) IAuthorizedFlowNotSupported
| oe_unknown id :
    ids_distinct (im_credentials_supported m) -> first_unknown m l id ->
    offer_error m l None (ICredentialIdNotInIssuerMetadata id).

(** Text before the parameter value. *)
Definition offer_url_prefix (endpoint : option str) : str :=
  match endpoint with
  | None => lit "openid-credential-offer://credential_offer="
  | Some u => u ++ lit "?credential_offer="
  end.

(** Characters with a meaning in a URL (RFC 3986, 2.2), and space. *)
Definition url_delimiters : list ascii :=
  [":"; "/"; "?"; "#"; "["; "]"; "@"; "!"; "$"; "&"; "'"; "("; ")"; "*"; "+"; ","; ";"; "="; " "]%char.

(** Hexadecimal digits of either case and their values. *)
Inductive hex_digit : ascii -> N -> Prop :=
| hd_dec c : 48 <= code c <= 57 -> hex_digit c (code c - 48)
| hd_upper c : 65 <= code c <= 70 -> hex_digit c (code c - 55)
| hd_lower c : 97 <= code c <= 102 -> hex_digit c (code c - 87).

(** Percent-decoding (RFC 3986, 2.1) as a relation: every escape is replaced. *)
Inductive percent_decoded : str -> str -> Prop :=
| pd_nil : percent_decoded [] []
| pd_char c s t : c <> "%"%char -> percent_decoded s t -> percent_decoded (c :: s) (c :: t)
| pd_escape h l a b c s t :
    hex_digit h a -> hex_digit l b -> code c = 16 * a + b ->
    percent_decoded s t -> percent_decoded ("%"%char :: h :: l :: s) (c :: t).

Definition hex_digits : str := lit "0123456789ABCDEF".

(** [percent_encoded s t]: [t] is [s] with every byte that is not unreserved
    replaced by [%] and two upper-case digits. *)
Inductive percent_encoded : str -> str -> Prop :=
| pe_nil : percent_encoded [] []
| pe_plain c s t : url_unreserved c -> percent_encoded s t -> percent_encoded (c :: s) (c :: t)
| pe_escape c h l a b s t : ~ url_unreserved c ->
    nth_error hex_digits (N.to_nat a) = Some h -> nth_error hex_digits (N.to_nat b) = Some l ->
    code c = 16 * a + b -> b < 16 ->
    percent_encoded s t -> percent_encoded (c :: s) ("%"%char :: h :: l :: t).

(** The text after the first [?] of a URL starts with the parameter. *)
Definition query_is (url : str) (param : str) : Prop :=
  exists before, url = before ++ "?"%char :: param /\ ~ In "?"%char before.

(** Rust's [==] on metadata: supported formats are compared as [cfp_eq]. *)
Definition supported_eq (a b : credential_supported) : Prop :=
  cfp_eq (sup_format a) (sup_format b) /\ sup_id a = sup_id b
  /\ sup_binding_methods a = sup_binding_methods b /\ sup_suites a = sup_suites b
  /\ sup_display a = sup_display b.

Definition metadata_eq (a b : issuer_metadata) : Prop :=
  im_credential_issuer a = im_credential_issuer b
  /\ im_authorization_server a = im_authorization_server b
  /\ im_credential_endpoint a = im_credential_endpoint b
  /\ im_batch_credential_endpoint a = im_batch_credential_endpoint b
  /\ Forall2 supported_eq (im_credentials_supported a) (im_credentials_supported b)
  /\ opt_rel hmap_eq (im_additional_fields a) (im_additional_fields b).
