(** C147: credentials in somebody's name. Proofs are in Proofs/IdentityFacts.v,
    vocabulary in SpecIdentity.v. *)
From Verif Require Import Model.Prelude Model.Json Model.Types Model.Deps Model.Jwt Model.AccessToken
  Model.CredentialIssuer Model.Wire
  Spec SpecToken SpecOffer SpecJwt SpecEvaluation SpecDocuments SpecEvidence SpecRelay SpecAgreement SpecIdentity
  Proofs.StrFacts Proofs.JsonFacts Proofs.Base64Bits Proofs.EvalFacts2 Proofs.EvalFacts Proofs.IdentityFacts
  Examples Properties.Offers Properties.Evaluation Properties.Evidence Properties.Relay Properties.Agreement.

(* ------------------------------------------------------------------ *)
(** * C147: [world] says what can happen between wallets, an issuer that decodes and
    checks the signature of the evidence, a registry of documents that change, and
    attackers that choose everything else and register documents of their own. *)

(** The claim: whichever document the caller supplies, a credential for a DID whose
    keys are kept safe was asked for by its owner. *)
Definition C147_claim : Prop := forall d safe h st a k key url n c did b,
  lower_case_facts d -> dt_round_trips d -> dates_in_range d -> world d safe AnyDocument h st ->
  h = a ++ Happens (Trusts k key url n c (Some did)) :: b -> keeps_its_keys safe a did -> asked a did key url n c.

(** If the caller supplies the document of the DID that pre-evaluation names, it is true. *)
Theorem C147_asked_for : forall d safe h st a k key url n c did b,
  lower_case_facts d -> dt_round_trips d -> dates_in_range d -> world d safe AsTold h st ->
  h = a ++ Happens (Trusts k key url n c (Some did)) :: b -> keeps_its_keys safe a did -> asked a did key url n c.
Proof. exact asked_for. Qed.
Print Assumptions C147_asked_for.

(** Then every credential has a subject, and the key is one that the subject has at
    that time, whether it is kept safe or not. *)
Theorem C147_key_of_that_time : forall d safe h st a k key url n c s b,
  lower_case_facts d -> world d safe AsTold h st -> h = a ++ Happens (Trusts k key url n c s) :: b ->
  exists did doc, s = Some did /\ current a did doc /\ has_key d did doc key.
Proof. exact current_key. Qed.
Print Assumptions C147_key_of_that_time.

(** So a lost key is of no use once the DID has a document without it. *)
Theorem C147_lost_keys : forall d safe h st a did doc b k key url n c,
  lower_case_facts d -> world d safe AsTold h st -> h = a ++ Registers did doc :: b ->
  (forall doc', In (Registers did doc') b -> ~ has_key d did doc' key) -> ~ has_key d did doc key ->
  ~ In (Happens (Trusts k key url n c (Some did))) b.
Proof. exact replaced. Qed.
Print Assumptions C147_lost_keys.

(** With documents from a cache, the owner has asked too, but maybe with a key that was
    replaced since; and a lost key can still be used. *)
Theorem C147_asked_for_with_a_cache : forall d safe h st a k key url n c did b,
  lower_case_facts d -> dt_round_trips d -> dates_in_range d -> world d safe Cached h st ->
  h = a ++ Happens (Trusts k key url n c (Some did)) :: b -> keeps_its_keys safe a did -> asked_once a did key url n c.
Proof. exact asked_for_once. Qed.
Print Assumptions C147_asked_for_with_a_cache.

Definition C147_cache_claim : Prop := forall d safe h st a did doc b k key url n c,
  lower_case_facts d -> world d safe Cached h st -> h = a ++ Registers did doc :: b ->
  (forall doc', In (Registers did doc') b -> ~ has_key d did doc' key) -> ~ has_key d did doc key ->
  ~ In (Happens (Trusts k key url n c (Some did))) b.

(** Mallory registers a document with a key for a DID URL of somebody else, and gets a
    credential in their name. *)
Definition id_theirs : ex_document :=
  [(lit "did:key:z6Mk#z6Mk", {| jwk_algorithm := None; jwk_parameters := POKP (lit "other") |})].
Definition id_before : list (entry example_deps) :=
  [Registers (d := example_deps) (lit "did:web:mallory") ev_document;
   Registers (d := example_deps) (lit "did:key:z6Mk") id_theirs; Happens (Gives 7 (lit "n1"))].
Definition id_trusts : happening :=
  Trusts 7 (lit "key bytes") (lit "https://localhost") (lit "n1") None (Some (lit "did:key:z6Mk")).
Lemma id_step d safe p h st k n now m r offer asm doc client resp pop sg e : world d safe p h st -> st k = Some n ->
  supplied p h r doc ->
  evaluate_credential_request d now m r offer asm (Some doc) (Some {| eo_c_nonce := Some n; eo_client_id := client |})
    = Ok resp ->
  er_pop resp = Some pop -> base64_text url_alphabet false sg (pop_signature pop) ->
  (safe (pop_public_key pop) -> exists j, In (Happens (Signs (pop_public_key pop) j (pop_message pop))) h) ->
  e = Trusts k (pop_public_key pop) (im_credential_issuer m) (cno_expected n) client (er_subject_id resp) ->
  exists st', world d safe p (h ++ [Happens e]) st'.
Proof. intros H K D E R B U ->. rewrite <- K in E. eexists. eapply world_trusts; eauto. Qed.
Lemma id_sig : base64_text url_alphabet false (lit "sig") (pop_signature local_evidence).
Proof. apply is_base64. vm_compute. reflexivity. Qed.

Lemma id_world : exists st, world example_deps (eq (lit "other")) AnyDocument (id_before ++ [Happens id_trusts]) st.
Proof.
  refine (id_step example_deps (eq (lit "other")) AnyDocument id_before (store (fun _ => None) 7 (Some ag_nonce)) 7 ag_nonce ev_now web_metadata _ _ _
    ev_document _ _ local_evidence (lit "sig") id_trusts _ eq_refl _ ag_evaluated eq_refl id_sig _ eq_refl).
  - apply (world_gives example_deps (eq (lit "other")) AnyDocument
      [Registers (d := example_deps) (lit "did:web:mallory") ev_document;
       Registers (d := example_deps) (lit "did:key:z6Mk") id_theirs] (fun _ => None) 7 ag_nonce); [|intros []].
    apply (world_registers example_deps (eq (lit "other")) AnyDocument
      [Registers (d := example_deps) (lit "did:web:mallory") ev_document]).
    apply (world_registers example_deps (eq (lit "other")) AnyDocument []). constructor.
  - exists (lit "did:web:mallory"), id_before, []. split; [now rewrite app_nil_r|].
    split; [|split; [intros X; now contradiction X|reflexivity]].
    exists [], [Registers (d := example_deps) (lit "did:key:z6Mk") id_theirs; Happens (Gives 7 (lit "n1"))].
    split; [reflexivity|]. intros doc' [X|[X|[]]]; [|discriminate X]. injection X as X _. vm_compute in X. discriminate X.
  - intros X. exfalso. vm_compute in X. discriminate X.
Qed.

Lemma id_keeps : keeps_its_keys (d := example_deps) (eq (lit "other")) id_before (lit "did:key:z6Mk").
Proof.
  intros doc key [X|[X|[X|[]]]]; [injection X as X _; vm_compute in X; discriminate X| |discriminate X].
  injection X as <-. intros (kid & u & k & _ & _ & (u' & vm & _ & V & J) & P).
  cbn [select_object example_deps] in V. unfold ex_select in V. cbn [assoc id_theirs] in V.
  destruct (str_eqb _ _) in V; [|discriminate V]. injection V as <-. injection J as <-.
  inversion P as [? ? E|? ? E]; [now injection E|discriminate E].
Qed.

Theorem C147_any_document_refuted : ~ C147_claim.
Proof.
  intros H. destruct id_world as [st W].
  destruct (H example_deps (eq (lit "other")) _ st id_before 7 _ _ _ _ _ [] example_lower_case_facts example_dt_round_trips
    (C104_dates example_deps) W eq_refl id_keeps) as [_ (j & text & kid & u & I & _)].
  destruct I as [I|[I|[I|[]]]]; discriminate I.
Qed.
Print Assumptions C147_any_document_refuted.

(** Hypotheses met: the owner of the DID signs and gets the credential, although
    Mallory has registered the same document. *)
Definition id_honest : list (entry example_deps) :=
  [Registers (d := example_deps) (lit "did:web:mallory") ev_document;
   Registers (d := example_deps) (lit "did:key:z6Mk") ev_document; Happens (Gives 7 (lit "n1"));
   Happens (Signs (lit "key bytes") local_token (both_documents example_deps local_token))].
Example C147_case : (exists st, world example_deps (fun _ => True) AsTold (id_honest ++ [Happens id_trusts]) st)
  /\ keeps_its_keys (d := example_deps) (fun _ => True) id_honest (lit "did:key:z6Mk").
Proof.
  split; [|intros doc key _ _; exact I].
  refine (id_step example_deps (fun _ => True) AsTold id_honest (store (fun _ => None) 7 (Some ag_nonce)) 7 ag_nonce ev_now web_metadata _ _ _
    ev_document _ _ local_evidence (lit "sig") id_trusts _ eq_refl _ ag_evaluated eq_refl id_sig _ eq_refl).
  - apply (world_signs example_deps (fun _ => True) AsTold
      [Registers (d := example_deps) (lit "did:web:mallory") ev_document;
       Registers (d := example_deps) (lit "did:key:z6Mk") ev_document; Happens (Gives 7 (lit "n1"))]);
      [|exact ag_ok|right; now left].
    apply (world_gives example_deps (fun _ => True) AsTold
      [Registers (d := example_deps) (lit "did:web:mallory") ev_document;
       Registers (d := example_deps) (lit "did:key:z6Mk") ev_document] (fun _ => None) 7 ag_nonce); [|intros []].
    apply (world_registers example_deps (fun _ => True) AsTold
      [Registers (d := example_deps) (lit "did:web:mallory") ev_document]).
    apply (world_registers example_deps (fun _ => True) AsTold []). constructor.
  - exists (lit "did:key:z6Mk"), id_honest, []. split; [now rewrite app_nil_r|]. split; [|split; [|reflexivity]].
    + exists [Registers (d := example_deps) (lit "did:web:mallory") ev_document],
        [Happens (Gives 7 (lit "n1")); Happens (Signs (lit "key bytes") local_token (both_documents example_deps local_token))].
      split; [reflexivity|]. intros doc' [X|[X|[]]]; discriminate X.
    + intros _. unfold pre_evaluate_credential_request, request_validate, ev_request. cbn [cr_proof].
      unfold proof_validate. cbn [rp_proof_type rp_jwt]. rewrite local_parses. vm_compute. reflexivity.
  - intros _. exists local_token. right. right. right. now left.
Qed.
Example C147_cached : exists st, world example_deps (fun _ => True) Cached (id_honest ++ [Happens id_trusts]) st.
Proof. destruct (proj1 C147_case) as [st W]. exists st. exact (told_cached _ _ _ _ W). Qed.
(** A key that the new document does not have. *)
Example C147_lost : has_key example_deps (lit "did:key:z6Mk") ev_document (lit "key bytes")
  /\ ~ has_key example_deps (lit "did:key:z6Mk") id_theirs (lit "key bytes").
Proof.
  split.
  - exists (lit "did:key:z6Mk#z6Mk"). do 2 eexists. split; [reflexivity|]. split; [reflexivity|].
    exact (conj (proj1 C53_case) (proj1 (proj2 C53_case))).
  - intros K. assert (E : lit "other" = lit "key bytes").
    { apply (id_keeps id_theirs); [right; now left|exact K]. }
    vm_compute in E. discriminate E.
Qed.

(** The document with the key was replaced, but the caller still has it. *)
Definition id_late : list (entry example_deps) :=
  [Registers (d := example_deps) (lit "did:key:z6Mk") ev_document;
   Registers (d := example_deps) (lit "did:key:z6Mk") id_theirs; Happens (Gives 7 (lit "n1"))].
Lemma id_late_world : exists st, world example_deps (eq (lit "other")) Cached (id_late ++ [Happens id_trusts]) st.
Proof.
  refine (id_step example_deps (eq (lit "other")) Cached id_late (store (fun _ => None) 7 (Some ag_nonce)) 7 ag_nonce ev_now web_metadata _ _ _
    ev_document _ _ local_evidence (lit "sig") id_trusts _ eq_refl _ ag_evaluated eq_refl id_sig _ eq_refl).
  - apply (world_gives example_deps (eq (lit "other")) Cached
      [Registers (d := example_deps) (lit "did:key:z6Mk") ev_document;
       Registers (d := example_deps) (lit "did:key:z6Mk") id_theirs] (fun _ => None) 7 ag_nonce); [|intros []].
    apply (world_registers example_deps (eq (lit "other")) Cached
      [Registers (d := example_deps) (lit "did:key:z6Mk") ev_document]).
    apply (world_registers example_deps (eq (lit "other")) Cached []). constructor.
  - exists (lit "did:key:z6Mk"), [Registers (d := example_deps) (lit "did:key:z6Mk") ev_document],
      [Registers (d := example_deps) (lit "did:key:z6Mk") id_theirs; Happens (Gives 7 (lit "n1"))].
    split; [reflexivity|]. split; [|split; [|intros X; now contradiction X]].
    + exists [], []. split; [reflexivity|intros doc' []].
    + intros _. unfold pre_evaluate_credential_request, request_validate, ev_request. cbn [cr_proof].
      unfold proof_validate. cbn [rp_proof_type rp_jwt]. rewrite local_parses. vm_compute. reflexivity.
  - intros X. exfalso. vm_compute in X. discriminate X.
Qed.
Theorem C147_lost_keys_with_a_cache_refuted : ~ C147_cache_claim.
Proof.
  intros H. destruct id_late_world as [st W].
  apply (H example_deps (eq (lit "other")) _ st [Registers (d := example_deps) (lit "did:key:z6Mk") ev_document]
    (lit "did:key:z6Mk") id_theirs [Happens (Gives 7 (lit "n1")); Happens id_trusts] 7 (lit "key bytes")
    (lit "https://localhost") (lit "n1") None example_lower_case_facts W eq_refl).
  - intros doc' [X|[X|[]]]; discriminate X.
  - exact (proj2 C147_lost).
  - right. now left.
Qed.
Print Assumptions C147_lost_keys_with_a_cache_refuted.
