(** C143: offers and metadata that change. Proofs are in Proofs/VersionsFacts.v,
    vocabulary in SpecVersions.v. *)
From Coq Require Import Permutation.
From Verif Require Import Model.Prelude Model.Json Model.Types Model.Deps Model.CredentialIssuer
  Spec SpecOffer SpecJwt SpecEvaluation SpecRelay SpecEquality SpecCareful SpecVersions Proofs.OfferFacts Proofs.VersionsFacts
  Examples Properties.Offers Properties.Evaluation Properties.Evidence Properties.History Properties.Careful.

(* ------------------------------------------------------------------ *)
(** * C143 *)

(** The claim: an offer that resolves under two versions of the metadata stands for
    the same credentials under both, as long as each version is valid. *)
Definition C143_claim : Prop := forall h m m' creds ep a p o url ps ps',
  maintained FreeAgain h -> In m h -> In m' h -> create_offer m creds ep a p = Ok (o, url) ->
  resolve_all m (co_credentials o) = Ok ps -> resolve_all m' (co_credentials o) = Ok ps' -> ps' = ps.

(** The id of a withdrawn credential is given to another one. *)
Definition vs_reused := ex_supported (Some (lit "Degree")) (MsoMdoc (lit "mdl") None None).
Definition vs_history : list issuer_metadata :=
  [hi_more [vs_reused] "x"; hi_more [] "x"; hi_more [hi_degree] "x"].

Lemma vs_one c : ids_distinct [c].
Proof.
  intros [|[|i]] [|[|j]] a b id A B N; cbn in A, B; try discriminate; now destruct N.
Qed.

Lemma vs_maintained : maintained FreeAgain vs_history.
Proof.
  apply (maintained_publish _ _ _ _ vs_reused [] []); [|reflexivity|reflexivity|].
  - apply (maintained_withdraw _ _ _ _ hi_degree [] []); [|reflexivity|reflexivity].
    constructor. apply vs_one.
  - intros id v _ [<-|[]] (c & [] & _).
Qed.

Lemma vs_offer : exists o url,
  create_offer (hi_more [hi_degree] "x") [CredentialId (lit "Degree")] None None (Some ex_pre) = Ok (o, url)
  /\ co_credentials o = [CredentialId (lit "Degree")].
Proof. do 2 eexists. split; [|shelve]. vm_compute. reflexivity. Unshelve. reflexivity. Qed.

Theorem C143_ids_reused_refuted : ~ C143_claim.
Proof.
  intros H. destruct vs_offer as (o & url & C & E).
  assert (A : resolve_all (hi_more [hi_degree] "x") (co_credentials o) = Ok [ex_degree]) by (rewrite E; reflexivity).
  assert (B : resolve_all (hi_more [vs_reused] "x") (co_credentials o) = Ok [MsoMdoc (lit "mdl") None None])
    by (rewrite E; reflexivity).
  pose proof (H _ _ _ _ _ _ _ _ _ _ _ vs_maintained (or_intror (or_intror (or_introl eq_refl))) (or_introl eq_refl) C A B) as X.
  discriminate.
Qed.
Print Assumptions C143_ids_reused_refuted.

(** If no id is ever given to a second credential, an offer stands for the same
    credentials under all versions in which its ids are known, and otherwise an id
    that was withdrawn is reported. *)
Theorem C143_ids_not_reused : forall h m m' creds ep a p o url,
  maintained NeverAgain h -> In m h -> In m' h -> create_offer m creds ep a p = Ok (o, url) ->
  exists ps, resolve_all m (co_credentials o) = Ok ps
  /\ ((resolve_all m' (co_credentials o) = Ok ps /\ forall id, In (CredentialId id) (co_credentials o) -> known_id m' id)
      \/ exists id, In (CredentialId id) (co_credentials o) /\ known_id m id /\ ~ known_id m' id
           /\ resolve_all m' (co_credentials o) = Err (ICredentialIdNotInIssuerMetadata id)).
Proof. exact offers_later. Qed.
Print Assumptions C143_ids_not_reused.

(** All versions are valid, with either policy. *)
Theorem C143_versions_valid : forall p h m, maintained p h -> In m h -> metadata_validate m = Ok tt.
Proof. exact (fun p h m M I => proj2 (metadata_validate_ok m) (versions_distinct p h M m I)). Qed.
Print Assumptions C143_versions_valid.

(** One withdrawal stops the offers that name the id, and no others. *)
Theorem C143_withdrawal : forall m m' c id before after l ps, ids_distinct (im_credentials_supported m) ->
  im_credentials_supported m = before ++ c :: after -> im_credentials_supported m' = before ++ after ->
  sup_id c = Some id -> resolve_all m l = Ok ps ->
  (In (CredentialId id) l -> resolve_all m' l = Err (ICredentialIdNotInIssuerMetadata id))
  /\ (~ In (CredentialId id) l -> resolve_all m' l = Ok ps).
Proof. exact withdrawn. Qed.
Print Assumptions C143_withdrawal.

(** Whatever was changed: the meaning is kept exactly if it is for each id. *)
Theorem C143_kept_exactly_when : forall m m' l ps, resolve_all m l = Ok ps ->
  (resolve_all m' l = Ok ps
   <-> forall id, In (CredentialId id) l -> resolve m' (CredentialId id) = resolve m (CredentialId id)).
Proof. exact kept_iff. Qed.
Print Assumptions C143_kept_exactly_when.

(** Credentials that are given in full stand for themselves under all metadata. *)
Theorem C143_given_in_full : forall l m, resolve_all m (map Credential l) = Ok l.
Proof. exact inline_kept. Qed.
Print Assumptions C143_given_in_full.

(** A caller that makes the checks of C140 under a later version serves only what the
    offer stood for when it was created. *)
Theorem C143_careful_callers : forall h m m' creds ep a p o url d now r doc n client resp,
  maintained NeverAgain h -> In m h -> In m' h -> create_offer m creds ep a p = Ok (o, url) ->
  lower_case_facts d -> upper_case_facts d -> on_some (fun p => rust_string (rp_proof_type p)) (cr_proof r) ->
  credentials_held m' r o -> careful d now m' r o doc n client resp ->
  exists entry c, In entry (co_credentials o) /\ resolves m entry c /\ resolves m' entry c /\ same_credential (cr_format r) c.
Proof. exact careful_later. Qed.
Print Assumptions C143_careful_callers.

(** Hypotheses met: published, withdrawn, edited, without reuse; the offer of the
    first version is refused under the last and kept under the second. *)
Definition vs_careful : list issuer_metadata :=
  [hi_more [hi_licence] "y"; hi_more [hi_licence] "x"; hi_more [hi_licence; hi_degree] "x"; hi_more [hi_degree] "x"].

Example C143_maintained : maintained NeverAgain vs_careful
  /\ resolve_all (hi_more [hi_licence; hi_degree] "x") [CredentialId (lit "Degree")] = Ok [ex_degree]
  /\ resolve_all (hi_more [hi_licence] "y") [CredentialId (lit "Degree")]
     = Err (ICredentialIdNotInIssuerMetadata (lit "Degree")).
Proof.
  split; [|split; reflexivity].
  apply maintained_edit; [|apply Permutation_refl].
  apply (maintained_withdraw _ _ _ _ hi_degree [hi_licence] []); [|reflexivity|reflexivity].
  apply (maintained_publish _ _ _ _ hi_licence [] [hi_degree]); [|reflexivity|reflexivity|].
  - constructor. apply vs_one.
  - intros id v E [<-|[]] (c & [<-|[]] & F). vm_compute in E. vm_compute in F. rewrite <- E in F. discriminate F.
Qed.

(** And the request that C140 serves, for an offer of an earlier version. *)
Example C143_served_later :
  maintained NeverAgain [web_metadata; hi_more [hi_degree] "x"; hi_more [hi_licence; hi_degree] "x"]
  /\ (exists url, create_offer (hi_more [hi_licence; hi_degree] "x") [CredentialId (lit "Degree")] None None (Some ex_pre)
                  = Ok (ev_offer, url))
  /\ careful example_deps ev_now web_metadata (ev_request ex_degree "JWT" ca_proof) ev_offer ev_document ca_nonce None ca_answer
  /\ credentials_held web_metadata (ev_request ex_degree "JWT" ca_proof) ev_offer.
Proof.
  split; [|split; [|split]].
  - apply maintained_edit; [|apply Permutation_refl].
    apply (maintained_withdraw _ _ _ _ hi_licence [] [hi_degree]); [|reflexivity|reflexivity].
    constructor. apply ids_distinct_nodup. repeat constructor; intros H; cbn in H; intuition discriminate.
  - eexists. vm_compute. reflexivity.
  - exact C140_served.
  - exact (proj2 (proj2 (proj2 C140_hypotheses))).
Qed.
