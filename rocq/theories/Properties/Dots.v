(** C148: issuers with dots in their identifiers. Proofs are in Proofs/DotsFacts.v,
    vocabulary in SpecDots.v. *)
From Verif Require Import Model.Prelude Model.Json Model.Types Model.Deps Model.Jwt Model.AccessToken
  Model.CredentialIssuer Model.Wire
  Spec SpecToken SpecOffer SpecJwt SpecEvaluation SpecDocuments SpecEvidence SpecAgreement SpecCareful SpecDots
  Proofs.StrFacts Proofs.JsonFacts Proofs.OfferFacts Proofs.EvalFacts2 Proofs.DotsFacts
  Examples Properties.Offers Properties.Evaluation Properties.Evidence Properties.Careful Properties.Agreement.

(* ------------------------------------------------------------------ *)
(** * C148 *)

(** The claim: in every session that can go on, a wallet with a usable key can make the
    issuer return evidence with a signature that can be decoded. *)
Definition C148_claim : Prop := forall d now m o doc n client kid key, lower_case_facts d -> dt_round_trips d ->
  whole_seconds d -> can_go_on now m n client -> usable_key d doc kid key ->
  exists pop signature, checkable d now m o doc n client pop signature.

(** It can if and only if there is no dot in the issuer's identifier, the nonce, the
    client id, and some key id. *)
Theorem C148_exactly_without_dots : forall d now m o doc n client, lower_case_facts d -> dt_round_trips d ->
  whole_seconds d -> can_go_on now m n client ->
  ((exists pop signature, checkable d now m o doc n client pop signature)
   <-> dotless (im_credential_issuer m) /\ dotless (cno_expected n) /\ on_some dotless client
       /\ exists kid key, dotless kid /\ usable_key d doc kid key).
Proof. exact checkable_iff. Qed.
Print Assumptions C148_exactly_without_dots.

(** Then it can for each such key, and the signature is whatever it signs the returned
    message with. *)
Theorem C148_whatever_is_signed : forall d now m o doc n client kid key (sign : str -> str), lower_case_facts d ->
  dt_round_trips d -> whole_seconds d -> can_go_on now m n client ->
  dotless (im_credential_issuer m) -> dotless (cno_expected n) -> on_some dotless client ->
  dotless kid -> usable_key d doc kid key ->
  exists pop, checkable d now m o doc n client pop (sign (pop_message pop)) /\ pop_public_key pop = key.
Proof. exact can_be_checked. Qed.
Print Assumptions C148_whatever_is_signed.

(** Otherwise never: whatever the request, the offer and the document. *)
Theorem C148_dots : forall d now m r offer asm doc n client resp pop signature, lower_case_facts d ->
  evaluate_credential_request d now m r offer asm doc (with_nonce n client) = Ok resp ->
  er_pop resp = Some pop -> base64_text url_alphabet false signature (pop_signature pop) ->
  dotless (im_credential_issuer m) /\ dotless (cno_expected n) /\ on_some dotless client
  /\ exists doc' kid, doc = Some doc' /\ dotless kid /\ usable_key d doc' kid (pop_public_key pop).
Proof. exact decodable_inv. Qed.
Print Assumptions C148_dots.

(** So there is no history in which an issuer with a dot in its identifier gives out a
    credential because of a signature. *)
Theorem C148_no_history : forall d safe h st k key url n c s, lower_case_facts d -> network d safe h st ->
  In (Trusts k key url n c s) h -> dotless url /\ dotless n /\ on_some dotless c.
Proof. exact no_history. Qed.
Print Assumptions C148_no_history.

(** Hypotheses met, without and with a dot. *)
Lemma do_whole : whole_seconds example_deps.
Proof.
  exists 1683000000000000000%Z. split; [reflexivity|]. intros I. vm_compute in I.
  repeat destruct I as [I|I]; try discriminate I. destruct I.
Qed.
Lemma do_key : usable_key example_deps ev_document (lit "did:key:z6Mk#z6Mk") (lit "key bytes").
Proof.
  split; [apply rust_string_ascii; reflexivity|]. exists ev_key. exact (conj (proj1 C53_case) (proj1 (proj2 C53_case))).
Qed.
Lemma do_goes_on m : rust_string (im_credential_issuer m) -> ids_distinct (im_credentials_supported m) ->
  can_go_on ev_now m ca_nonce None.
Proof.
  intros I D.
  split; [exact D|]. split; [split; vm_compute; discriminate|]. split; [vm_compute; discriminate|].
  split; [apply rust_string_ascii; reflexivity|]. split; [intros x [=]|exact I].
Qed.
Lemma do_ids : ids_distinct (im_credentials_supported ev_metadata) /\ ids_distinct (im_credentials_supported web_metadata).
Proof.
  split; apply metadata_validate_ok; vm_compute; reflexivity.
Qed.
Example C148_case : can_go_on ev_now web_metadata ca_nonce None /\ dotless (im_credential_issuer web_metadata)
  /\ dotless (cno_expected ca_nonce) /\ dotless (lit "did:key:z6Mk#z6Mk")
  /\ exists pop, checkable example_deps ev_now web_metadata ev_offer ev_document ca_nonce None pop (lit "sig").
Proof.
  assert (A : dotless (im_credential_issuer web_metadata)) by (intros I; vm_compute in I; repeat destruct I as [I|I]; try discriminate I; destruct I).
  assert (B : dotless (cno_expected ca_nonce)) by (intros I; vm_compute in I; repeat destruct I as [I|I]; try discriminate I; destruct I).
  assert (C : dotless (lit "did:key:z6Mk#z6Mk")) by (intros I; vm_compute in I; repeat destruct I as [I|I]; try discriminate I; destruct I).
  assert (G : can_go_on ev_now web_metadata ca_nonce None)
    by (apply do_goes_on; [apply rust_string_ascii; reflexivity|exact (proj2 do_ids)]).
  split; [exact G|]. split; [exact A|]. split; [exact B|]. split; [exact C|].
  destruct (C148_whatever_is_signed example_deps ev_now web_metadata ev_offer ev_document ca_nonce None _ _ (fun _ => lit "sig")
    example_lower_case_facts example_dt_round_trips do_whole G A B ltac:(intros x [=]) C do_key) as (pop & P & _).
  now exists pop.
Qed.

(** The identifier https://issuer.example has a dot. *)
Theorem C148_domain_names_refuted : ~ C148_claim.
Proof.
  intros H.
  destruct (H example_deps ev_now ev_metadata ev_offer ev_document ca_nonce None _ _ example_lower_case_facts
    example_dt_round_trips do_whole
    (do_goes_on ev_metadata ltac:(apply rust_string_ascii; reflexivity) (proj1 do_ids)) do_key)
    as (pop & sg & r & resp & E & R & B).
  destruct (C148_dots _ _ _ _ _ _ _ _ _ _ _ _ example_lower_case_facts E R B) as (D & _).
  apply D. vm_compute. tauto.
Qed.
Print Assumptions C148_domain_names_refuted.
