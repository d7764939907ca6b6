(** How deeply documents may nest. Theorems only; proofs are in Proofs/DepthFacts.v,
    vocabulary in Spec.v and SpecDocuments.v. *)
From Verif Require Import Model.Prelude Model.Percent Model.Json Model.Types Model.Serde Model.CredentialIssuer Model.Wire
  Spec SpecOffer SpecDocuments
  Proofs.StrFacts Proofs.OfferFacts Proofs.DepthFacts Proofs.OkTac Properties.Offers.

(** * C96: false; a context can nest more deeply than any reader accepts *)
Definition C96_claim : Prop :=
  forall m creds ep a p o url n,
  create_offer m creds ep a p = Ok (o, url) ->
  rust_string (im_credential_issuer m) -> Forall (credential_or_id_ok n) creds -> on_some preauth_flow_ok p ->
  exists payload text,
    url = offer_url_prefix ep ++ payload /\ percent_decoded payload text /\ offer_from_json text = Some o.

(** An offer can be read from its URL exactly if no value in a context nests more
    than 122 levels. *)
Theorem C96_offers : forall m creds ep a p o url n,
  create_offer m creds ep a p = Ok (o, url) ->
  rust_string (im_credential_issuer m) -> Forall (credential_or_id_ok n) creds -> on_some preauth_flow_ok p ->
  exists payload text,
    url = offer_url_prefix ep ++ payload /\ percent_decoded payload text
    /\ (forall text', percent_decoded payload text' -> text' = text)
    /\ (Forall (credential_or_id_ok 122) creds -> offer_from_json text = Some o)
    /\ (~ Forall (credential_or_id_ok 122) creds -> offer_from_json text = None).
Proof. exact created_offer_exactly. Qed.
Print Assumptions C96_offers.

(** The limits of the other documents. *)
Theorem C96_requests : forall n r, request_ok n r ->
  (request_ok 124 r -> credential_request_from_json (credential_request_to_json r) = Some r)
  /\ (~ request_ok 124 r -> credential_request_from_json (credential_request_to_json r) = None).
Proof. exact request_exactly. Qed.
Print Assumptions C96_requests.

Theorem C96_responses : forall n r, credential_success_ok n r ->
  (credential_success_ok 122 r -> credential_success_from_json (credential_success_to_json r) = Some r)
  /\ (~ credential_success_ok 122 r -> credential_success_from_json (credential_success_to_json r) = None).
Proof. exact success_exactly. Qed.
Print Assumptions C96_responses.

Theorem C96_credentials : forall n c, cfp_ok n c ->
  (cfp_ok 124 c -> cfp_from_json (cfp_to_json c) = Some c)
  /\ (~ cfp_ok 124 c -> cfp_from_json (cfp_to_json c) = None).
Proof. exact cfp_exactly. Qed.
Print Assumptions C96_credentials.

Theorem C96_metadata : forall n m, metadata_ok n m ->
  (forall a k, im_additional_fields m = Some a -> In k (map fst a) -> ~ names_metadata k) ->
  (shallow_metadata m -> metadata_from_json (metadata_to_json m)
     = Some (with_additional m match im_additional_fields m with Some a => a | None => [] end))
  /\ (~ shallow_metadata m -> metadata_from_json (metadata_to_json m) = None).
Proof. exact metadata_exactly. Qed.
Print Assumptions C96_metadata.

(** A credential whose context holds a value of a given depth. *)
Definition de_credential (n : nat) : cfp := LdpVc [LDMap [(lit "a", tower n)]] [] None None.

(** It can be requested (124 levels) and not be delivered (122 levels). *)
Example C96_case :
  let r := {| cr_format := de_credential 123; cr_proof := None |} in
  let s := {| cs_format := lit "ldp_vc"; cs_credential := Some (CFP (de_credential 123)); cs_acceptance_token := None;
              cs_c_nonce := None; cs_c_nonce_expires_in := None |} in
  credential_request_from_json (credential_request_to_json r) = Some r
  /\ credential_success_from_json (credential_success_to_json s) = None.
Proof.
  intros r s. split.
  - apply (C96_requests 123 r); split; try (apply (tower_context_ok 123)); try (intros x [=]).
    apply (cfp_ok_mono 123 124); [repeat constructor|apply tower_context_ok].
  - apply (C96_responses 123 s).
    + split; [now apply Proofs.JsonFacts.rust_string_ascii|]. split; [intros x [= <-]; apply (tower_context_ok 123)|].
      repeat split; intros x [=].
    + intros (_ & H & _). apply (tower_context_deep 123 122); [repeat constructor|]. apply (H _ eq_refl).
Qed.

Theorem C96_created_offers_readable_refuted : ~ C96_claim.
Proof.
  intros H.
  destruct (proj2 (C13_create_offer_succeeds_iff ex_good [Credential (de_credential 123)] None None None))
    as (o & url & E).
  { split; [apply C13_created|]. split; [reflexivity|]. constructor; [intros id [=]|constructor]. }
  assert (rust_string (im_credential_issuer ex_good)) as R by now apply Proofs.JsonFacts.rust_string_ascii.
  assert (Forall (credential_or_id_ok 123) [Credential (de_credential 123)]) as F
    by (constructor; [apply tower_context_ok|constructor]).
  assert (on_some preauth_flow_ok None) as P by (intros x [=]).
  destruct (H _ _ _ _ _ _ _ _ E R F P) as (pl & t & E1 & D & J).
  destruct (C96_offers _ _ _ _ _ _ _ _ E R F P) as (pl' & t' & E2 & D' & U & _ & N).
  rewrite E1 in E2. apply app_inv_head in E2. subst pl'. apply U in D. subst t'.
  rewrite N in J; [discriminate J|]. intros K. inversion K as [|c l Hc _]; subst.
  apply (tower_context_deep 123 122); [repeat constructor|exact Hc].
Qed.
Print Assumptions C96_created_offers_readable_refuted.
