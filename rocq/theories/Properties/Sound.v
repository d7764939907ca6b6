(** C150: issuers that ask the registry and check the token. Proofs are in
    Proofs/SoundFacts.v, vocabulary in SpecSound.v. *)
From Verif Require Import Model.Prelude Model.Base64 Model.Json Model.Types Model.Deps Model.Jwt Model.AccessToken
  Model.CredentialIssuer Model.Wire
  Spec SpecToken SpecOffer SpecJwt SpecEvaluation SpecDocuments SpecEvidence SpecAgreement SpecCareful SpecDots SpecIdentity SpecSound
  Proofs.StrFacts Proofs.JsonFacts Proofs.OfferFacts Proofs.EvalFacts2 Proofs.SoundFacts
  Examples Properties.Offers Properties.Evaluation Properties.Evidence Properties.Careful Properties.Agreement Properties.Dots
  Properties.Identity.

(* ------------------------------------------------------------------ *)
(** * C150 *)

(** A credential for a DID whose keys are kept safe was asked for by its owner, with a
    key that it has at that time. *)
Theorem C150_asked_for : forall d safe h st a k key url n c did b,
  lower_case_facts d -> sound_world d safe h st ->
  h = a ++ Happens (Trusts k key url n c (Some did)) :: b -> keeps_its_keys safe a did -> asked a did key url n c.
Proof. exact sound_asked. Qed.
Print Assumptions C150_asked_for.

(** Every credential has a subject, and the key is one that the subject has then. *)
Theorem C150_key_of_that_time : forall d safe h st a k key url n c s b,
  lower_case_facts d -> sound_world d safe h st -> h = a ++ Happens (Trusts k key url n c s) :: b ->
  exists did doc, s = Some did /\ current a did doc /\ has_key d did doc key.
Proof. exact sound_key. Qed.
Print Assumptions C150_key_of_that_time.

(** A lost key is of no use once the DID has a document without it. *)
Theorem C150_lost_keys : forall d safe h st a did doc b k key url n c,
  lower_case_facts d -> sound_world d safe h st -> h = a ++ Registers did doc :: b ->
  (forall doc', In (Registers did doc') b -> ~ has_key d did doc' key) -> ~ has_key d did doc key ->
  ~ In (Happens (Trusts k key url n c (Some did))) b.
Proof. exact sound_lost. Qed.
Print Assumptions C150_lost_keys.

(** The nonce was given to that session, and nothing else is given out for it. *)
Theorem C150_nonce_of_the_session : forall d safe h st a k key url n c s b, sound_world d safe h st ->
  h = a ++ Happens (Trusts k key url n c s) :: b ->
  In (Happens (Gives k n)) a /\ forall k' key' url' c' s', ~ In (Happens (Trusts k' key' url' n c' s')) (a ++ b).
Proof. exact sound_once. Qed.
Print Assumptions C150_nonce_of_the_session.

(** Whoever owns a DID gets a credential in its name, whatever has happened before, in
    each session that can go on, by signing as RFC 7515 says with a key that the DID has
    now. *)
Theorem C150_owners_are_served : forall d safe h st k n now m (o : credential_offer) client did key (sign : str -> str),
  lower_case_facts d -> upper_case_facts d -> dt_round_trips d -> sound_world d safe h st -> st k = Some n ->
  can_go_on now m n client -> owns h did key ->
  exists j text st', standard_text d j text
    /\ sound_world d safe ((h ++ [Happens (Signs key j text)])
         ++ [Happens (Trusts k key (im_credential_issuer m) (cno_expected n) client (Some did))]) st'.
Proof. exact sound_served. Qed.
Print Assumptions C150_owners_are_served.

(** Hypotheses met: Mallory has registered a document with a key of somebody else, who
    gets a credential of an issuer with a dot in its identifier; all keys are safe. *)
Definition so_before : list (entry example_deps) :=
  [Registers (d := example_deps) (lit "did:web:mallory") ev_document;
   Registers (d := example_deps) (lit "did:key:z6Mk") ev_document; Happens (Gives 7 (cno_expected ca_nonce))].
Lemma so_owns : owns so_before (lit "did:key:z6Mk") (lit "key bytes").
Proof.
  exists ev_document, (lit "did:key:z6Mk#z6Mk"). do 2 eexists. split.
  - exists [Registers (d := example_deps) (lit "did:web:mallory") ev_document], [Happens (Gives 7 (cno_expected ca_nonce))].
    split; [reflexivity|]. intros doc' [X|[]]. discriminate X.
  - split; [apply rust_string_ascii; reflexivity|]. split; [reflexivity|]. split; [reflexivity|].
    exact (conj (proj1 C53_case) (proj1 (proj2 C53_case))).
Qed.
Lemma so_start : sound_world example_deps (fun _ => True) so_before (store (fun _ => None) 7 (Some ca_nonce)).
Proof.
  apply (sound_gives example_deps (fun _ => True)
    [Registers (d := example_deps) (lit "did:web:mallory") ev_document;
     Registers (d := example_deps) (lit "did:key:z6Mk") ev_document] (fun _ => None) 7 ca_nonce); [|intros []].
  apply (sound_registers example_deps (fun _ => True)
    [Registers (d := example_deps) (lit "did:web:mallory") ev_document]).
  apply (sound_registers example_deps (fun _ => True) []). constructor.
Qed.
Example C150_case : exists j text st', sound_world example_deps (fun _ => True)
    ((so_before ++ [Happens (Signs (lit "key bytes") j text)])
     ++ [Happens (Trusts 7 (lit "key bytes") (lit "https://issuer.example") (cno_expected ca_nonce) None
          (Some (lit "did:key:z6Mk")))]) st'
  /\ keeps_its_keys (d := example_deps) (fun _ => True) (so_before ++ [Happens (Signs (lit "key bytes") j text)])
       (lit "did:key:z6Mk").
Proof.
  destruct (C150_owners_are_served example_deps (fun _ => True) _ _ 7 ca_nonce ev_now ev_metadata ev_offer None _ _ (fun x => x)
    example_lower_case_facts example_upper_case_facts example_dt_round_trips so_start eq_refl
    (do_goes_on ev_metadata ltac:(apply rust_string_ascii; reflexivity) (proj1 do_ids)) so_owns) as (j & text & st' & _ & X).
  exists j, text, st'. split; [exact X|]. intros doc key _ _. exact Logic.I.
Qed.
