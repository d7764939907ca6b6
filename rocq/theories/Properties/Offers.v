(** Properties of issuer metadata, offers and offer URLs (credential_issuer/mod.rs,
    types/credential_issuer_metadata.rs). Theorems only; proofs are in
    Proofs/OfferFacts.v, vocabulary in Spec.v, SpecToken.v and SpecOffer.v. *)
From Coq Require Import Permutation.
From Verif Require Import Model.Prelude Model.Percent Model.Json Model.Types Model.Serde Model.Errors
  Model.AccessToken Model.CredentialIssuer Model.Wire Spec SpecToken SpecOffer SpecJson
  Proofs.StrFacts Proofs.Utf8Facts Proofs.JsonFacts Proofs.AnyDepth Proofs.CompactFacts Proofs.TokenFacts Proofs.OfferFacts Proofs.ShapeFacts Proofs.OkTac.

(** Shared examples: two supported credentials, one of them with an id. *)
Definition ex_degree : cfp := JwtVcJson [lit "VerifiableCredential"; lit "UniversityDegreeCredential"] None None.
Definition ex_supported (id : option str) (c : cfp) : credential_supported :=
  {| sup_format := c; sup_id := id; sup_binding_methods := Some [lit "did"]; sup_suites := None;
     sup_display := None |}.
Definition ex_license : cfp := MsoMdoc (lit "org.iso.18013.5.1.mDL") None (Some [lit "family_name"]).
Definition ex_metadata (l : list credential_supported) : issuer_metadata :=
  {| im_credential_issuer := lit "https://issuer.example.com"; im_authorization_server := None;
     im_credential_endpoint := lit "https://issuer.example.com/credential";
     im_batch_credential_endpoint := None; im_credentials_supported := l; im_additional_fields := None |}.
Definition ex_good : issuer_metadata :=
  ex_metadata [ex_supported None ex_license; ex_supported (Some (lit "Degree")) ex_degree;
               ex_supported None ex_degree].
Definition ex_duplicate : issuer_metadata :=
  ex_metadata [ex_supported (Some (lit "Degree")) ex_license; ex_supported None ex_license;
               ex_supported (Some (lit "Degree")) ex_degree].
Definition ex_pre : preauth_flow := {| pf_code := lit "1 2&3"; pf_user_pin_required := Some false |}.

(** * C13 *)
Theorem C13_create_offer_succeeds_iff : forall m creds ep a p,
  (exists o url, create_offer m creds ep a p = Ok (o, url)) <->
  ids_distinct (im_credentials_supported m) /\ a = None /\ Forall (resolvable m) creds.
Proof. exact create_offer_iff. Qed.
Print Assumptions C13_create_offer_succeeds_iff.

Example C13_created : ids_distinct (im_credentials_supported ex_good)
  /\ Forall (resolvable ex_good) [CredentialId (lit "Degree"); Credential ex_license].
Proof.
  destruct (proj1 (create_offer_iff ex_good [CredentialId (lit "Degree"); Credential ex_license] None None None))
    as (D & _ & F); [do 2 eexists; reflexivity|auto].
Qed.

(** * C14 *)
Theorem C14_created_offer_content : forall m creds ep a p o url,
  create_offer m creds ep a p = Ok (o, url) ->
  co_credential_issuer o = im_credential_issuer m /\ co_credentials o = creds
  /\ og_auth (co_grants o) = None /\ og_pre (co_grants o) = p.
Proof. exact create_offer_content. Qed.
Print Assumptions C14_created_offer_content.

(** * C15 *)
Theorem C15_offer_url_shape : forall m creds ep a p o url,
  create_offer m creds ep a p = Ok (o, url) ->
  exists payload, url = offer_url_prefix ep ++ payload /\ url_payload payload
    /\ (forall c, In c payload -> ~ In c url_delimiters).
Proof. exact create_offer_url_shape. Qed.
Print Assumptions C15_offer_url_shape.

Example C15_url : exists o,
  create_offer ex_good [CredentialId (lit "Degree")] (Some (lit "https://w.example/cb")) None (Some ex_pre)
  = Ok (o, lit "https://w.example/cb?credential_offer=%7B%22credential_issuer%22%3A%22https%3A%2F%2Fissuer.example.com%22%2C%22credentials%22%3A%5B%22Degree%22%5D%2C%22grants%22%3A%7B%22urn%3Aietf%3Aparams%3Aoauth%3Agrant-type%3Apre-authorized_code%22%3A%7B%22pre-authorized_code%22%3A%221%202%263%22%2C%22user_pin_required%22%3Afalse%7D%7D%7D").
Proof. eexists. vm_compute. reflexivity. Qed.

(** * C16: [n] bounds the nesting of free-form values in an inline credential's
    [@context]; 122 levels plus the five around them is serde_json's limit of 127. *)
Theorem C16_offer_recovered_from_url : forall m creds ep a p o url n,
  create_offer m creds ep a p = Ok (o, url) ->
  rust_string (im_credential_issuer m) -> Forall (credential_or_id_ok n) creds ->
  on_some preauth_flow_ok p -> (n <= 122)%nat ->
  exists payload text,
    url = offer_url_prefix ep ++ payload /\ percent_decoded payload text
    /\ (forall text', percent_decoded payload text' -> text' = text)
    /\ offer_from_json text = Some o.
Proof. exact offer_url_recover_args. Qed.
Print Assumptions C16_offer_recovered_from_url.

Example C16_case : rust_string (im_credential_issuer ex_good)
  /\ Forall (credential_or_id_ok 1)
       [CredentialId (lit "Degree");
        Credential (LdpVc [LDString (lit "https://www.w3.org/2018/credentials/v1");
                           LDMap [(lit "@vocab", JArr [JNull; JInt (-3)])]]
                          [lit "VerifiableCredential"] None None)]
  /\ on_some preauth_flow_ok (Some ex_pre).
Proof.
  ok.
Qed.

(** * C17 *)
Theorem C17_offer_payload_injective : forall n1 n2 o1 o2 s,
  offer_ok n1 o1 -> offer_ok n2 o2 ->
  offer_url_encode o1 = Ok s -> offer_url_encode o2 = Ok s -> o1 = o2.
Proof. exact offer_payload_inj. Qed.
Print Assumptions C17_offer_payload_injective.

Example C17_case : offer_ok 0 {| co_credential_issuer := lit "a"; co_credentials := [Credential ex_license];
  co_grants := {| og_auth := None; og_pre := Some ex_pre |} |}.
Proof. ok. Qed.

(** * C18 *)
Theorem C18_metadata_validates_iff : forall m,
  (metadata_validate m = Ok tt <-> ids_distinct (im_credentials_supported m))
  /\ (metadata_validate m <> Ok tt ->
      map_err IValidationError (metadata_validate m) = Err duplicate_ids_error).
Proof. exact metadata_validate_total. Qed.
Print Assumptions C18_metadata_validates_iff.

Theorem C18_only_ids_matter : forall m1 m2,
  Permutation (map sup_id (im_credentials_supported m1)) (map sup_id (im_credentials_supported m2)) ->
  metadata_validate m1 = metadata_validate m2.
Proof. exact metadata_validate_only_ids. Qed.
Print Assumptions C18_only_ids_matter.

Example C18_duplicate : ~ ids_distinct (im_credentials_supported ex_duplicate).
Proof. intros H. apply metadata_validate_ok in H. discriminate. Qed.

(** * C19 *)
Theorem C19_resolve_ok : forall m c p, resolve m c = Ok p <-> resolves m c p.
Proof. exact resolve_ok. Qed.
Print Assumptions C19_resolve_ok.

Theorem C19_resolve_err : forall m c e, resolve m c = Err e <->
  exists id, c = CredentialId id /\ ~ known_id m id /\ e = ICredentialIdNotInIssuerMetadata id.
Proof. exact resolve_err. Qed.
Print Assumptions C19_resolve_err.

Theorem C19_validated_metadata_resolves_uniquely : forall m id c,
  metadata_validate m = Ok tt -> In c (im_credentials_supported m) -> sup_id c = Some id ->
  resolve m (CredentialId id) = Ok (sup_format c).
Proof. exact resolve_in_validated. Qed.
Print Assumptions C19_validated_metadata_resolves_uniquely.

Theorem C19_order_is_irrelevant : forall m1 m2 c,
  metadata_validate m1 = Ok tt ->
  Permutation (im_credentials_supported m1) (im_credentials_supported m2) ->
  resolve m2 c = resolve m1 c.
Proof. exact resolve_order. Qed.
Print Assumptions C19_order_is_irrelevant.

Example C19_good : metadata_validate ex_good = Ok tt
  /\ resolve ex_good (CredentialId (lit "Degree")) = Ok ex_degree
  /\ resolve ex_duplicate (CredentialId (lit "Degree")) = Ok ex_license.
Proof. repeat split. Qed.

(** * C20 *)
Theorem C20_resolve_all : forall m l,
  (forall ps, resolve_all m l = Ok ps <-> Forall2 (resolves m) l ps)
  /\ (forall e, resolve_all m l = Err e <->
        exists id, first_unknown m l id /\ e = ICredentialIdNotInIssuerMetadata id)
  /\ resolve_all m l <> Panic
  /\ (forall ps, resolve_all m l = Ok ps -> List.length ps = List.length l).
Proof. exact resolve_all_total. Qed.
Print Assumptions C20_resolve_all.

Example C20_first_unknown :
  first_unknown ex_good [CredentialId (lit "Degree"); CredentialId (lit "b"); CredentialId (lit "a")] (lit "b").
Proof.
  destruct (proj1 (resolve_all_err ex_good
    [CredentialId (lit "Degree"); CredentialId (lit "b"); CredentialId (lit "a")]
    (ICredentialIdNotInIssuerMetadata (lit "b"))) eq_refl) as (id & H & E).
  injection E as <-. exact H.
Qed.

(** * C21: every failure with its precedence, and no third outcome *)
Theorem C21_create_offer_fails_iff : forall m creds ep a p e,
  create_offer m creds ep a p = Err e <-> offer_error m creds a e.
Proof. exact create_offer_err. Qed.
Print Assumptions C21_create_offer_fails_iff.

Theorem C21_create_offer_never_panics : forall m creds ep a p, create_offer m creds ep a p <> Panic.
Proof. exact create_offer_no_panic. Qed.
Print Assumptions C21_create_offer_never_panics.

Example C21_precedence :
  offer_error ex_duplicate [CredentialId (lit "none")] (Some {| af_issuer_state := None |}) duplicate_ids_error
  /\ offer_error ex_good [CredentialId (lit "none")] (Some {| af_issuer_state := None |}) IAuthorizedFlowNotSupported
  /\ offer_error ex_good [CredentialId (lit "none")] None (ICredentialIdNotInIssuerMetadata (lit "none")).
Proof. repeat split; apply (create_offer_err _ _ None _ None); reflexivity. Qed.

(** * C22: false without an endpoint, and for an endpoint that has a query *)
Definition C22_claim : Prop :=
  forall m creds ep a p o url, create_offer m creds ep a p = Ok (o, url) ->
    exists payload, url_payload payload /\ query_is url (lit "credential_offer=" ++ payload).
Theorem C22_offer_in_query_refuted : ~ C22_claim.
Proof. exact create_offer_query_refuted. Qed.
Print Assumptions C22_offer_in_query_refuted.

Theorem C22_offer_in_query_iff : forall m creds ep a p o url,
  create_offer m creds ep a p = Ok (o, url) ->
  (exists payload, url_payload payload /\ query_is url (lit "credential_offer=" ++ payload))
  <-> (exists u, ep = Some u /\ ~ In "?"%char u).
Proof. exact create_offer_query. Qed.
Print Assumptions C22_offer_in_query_iff.

(** * C23 *)
Theorem C23_percent_encoding : forall s,
  percent_decoded (url_encode s) s
  /\ (forall t, percent_decoded (url_encode s) t -> t = s)
  /\ url_decode (url_encode s) = s
  /\ (forall s', url_encode s' = url_encode s -> s' = s)
  /\ (List.length (url_encode s) <= 3 * List.length s)%nat.
Proof. exact percent_encoding. Qed.
Print Assumptions C23_percent_encoding.

(** Exactly the bytes that are not unreserved are escaped, in upper case. *)
Theorem C23_encoded_form : forall s t, url_encode s = t <-> percent_encoded s t.
Proof. exact percent_encoded_iff. Qed.
Print Assumptions C23_encoded_form.

Example C23_case : url_encode (lit "a%2 /~") = lit "a%252%20%2F~".
Proof. reflexivity. Qed.

(** * C65 *)
Theorem C65_created_offers_redeemable : forall m creds ep a p o url n,
  create_offer m creds ep a p = Ok (o, url) ->
  rust_string (im_credential_issuer m) -> Forall (credential_or_id_ok n) creds ->
  on_some preauth_flow_ok p -> (n <= 122)%nat ->
  exists payload text o',
    url = offer_url_prefix ep ++ payload /\ percent_decoded payload text
    /\ offer_from_json text = Some o'
    /\ forall r opts,
         evaluate_access_token_request r (Some o') opts = Ok tt
         <-> exists code pin g, r = {| tr_grant_type := GPreAuthorized code pin |}
               /\ p = Some g /\ pin_length_ok pin /\ grant_satisfied g code pin opts.
Proof. exact redeem_created. Qed.
Print Assumptions C65_created_offers_redeemable.

Example C65_case : grant_satisfied ex_pre (lit "1 2&3") None None /\ pin_length_ok None.
Proof.
  split; [|discriminate]. split; [reflexivity|]. split; [|discriminate].
  split; [congruence|discriminate].
Qed.

(** * C66 *)
Theorem C66_json_round_trip : forall j, json_ok j -> (depth j <= 127)%nat ->
  parse_json (print j) = Some j.
Proof. exact (parse_doc_print Whole). Qed.
Print Assumptions C66_json_round_trip.

(** Whatever its nesting, a written value is RFC 8259 text, of as many levels as
    the value has, and the text denotes no other value. *)
Theorem C66_text_is_json : forall j, json_ok j ->
  (forall n, levels_text n (print j) j <-> (depth j <= n)%nat)
  /\ forall j', rfc8259_text (print j) j' -> j' = j.
Proof. exact printed_is_json. Qed.
Print Assumptions C66_text_is_json.

(** The written text is the compact form of the value, to the byte. *)
Theorem C66_text_is_compact : forall j s, compact j s <-> s = print j.
Proof. exact compact_iff. Qed.
Print Assumptions C66_text_is_compact.

(** The grammar gives every text at most one value. *)
Theorem C66_grammar_unambiguous : forall s j j', rfc8259_text s j -> rfc8259_text s j' -> j = j'.
Proof. exact rfc8259_det. Qed.
Print Assumptions C66_grammar_unambiguous.

Example C66_case : json_ok (JObj [(lit "a""b", JArr [JNull; JInt (-3); JStr (lit "\")])])
  /\ print (JObj [(lit "a""b", JArr [JNull; JInt (-3); JStr (lit "\")])]) = lit "{""a\""b"":[null,-3,""\\""]}".
Proof. split; [ok|reflexivity]. Qed.
