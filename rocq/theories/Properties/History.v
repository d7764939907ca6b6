(** C109, C110: metadata that grows, and documents that reach a party through others. *)
From Verif Require Import Model.Prelude Model.Json Model.Types Model.Deps Model.AccessToken Model.CredentialIssuer
  Model.Serde Model.SerdeOptions Model.Wire
  Spec SpecNumber SpecOffer SpecToken SpecJwt SpecDocuments SpecResults SpecRelay SpecHops SpecHistory Examples
  Proofs.StrFacts Proofs.OfferFacts Proofs.RenumberFacts Proofs.HopsFacts Proofs.HistoryFacts
  Properties.Offers Properties.Evaluation Properties.Numbers Properties.Relay.

(** * C109 *)
Theorem C109_still_valid : forall m m', grown m m' -> metadata_validate m' = metadata_validate m.
Proof. exact grown_validate. Qed.
Print Assumptions C109_still_valid.

Theorem C109_resolution_kept : forall m m' x p, grown m m' -> resolve m x = Ok p -> resolve m' x = Ok p.
Proof. exact grown_resolve. Qed.
Print Assumptions C109_resolution_kept.

Theorem C109_resolution_of_lists_kept : forall m m' l ps, grown m m' ->
  resolve_all m l = Ok ps -> resolve_all m' l = Ok ps.
Proof. exact grown_resolve_all. Qed.
Print Assumptions C109_resolution_of_lists_kept.

(** The same offer, with the same URL. *)
Theorem C109_offers_kept : forall m m' creds ep a p r, grown m m' ->
  create_offer m creds ep a p = Ok r -> create_offer m' creds ep a p = Ok r.
Proof. exact grown_offer. Qed.
Print Assumptions C109_offers_kept.

(** The same verdict on every request, with or without an offer, acceptance or error. *)
Theorem C109_verdicts_kept : forall d now m m' r offer asm doc options, grown m m' ->
  evaluate_credential_request d now m' r offer asm doc options
  = evaluate_credential_request d now m r offer asm doc options.
Proof. exact grown_evaluate. Qed.
Print Assumptions C109_verdicts_kept.

(** A publication under an id that is in use stops everything. *)
Theorem C109_reused_id : forall c m m' id, adds c m m' -> sup_id c = Some id -> known_id m id ->
  (forall creds ep a p, create_offer m' creds ep a p = Err duplicate_ids_error)
  /\ (forall d now r offer asm doc options,
        evaluate_credential_request d now m' r offer asm doc options = Err duplicate_ids_error).
Proof. exact reused_id. Qed.
Print Assumptions C109_reused_id.

Definition hi_more (l : list credential_supported) (endpoint : string) : issuer_metadata :=
  {| im_credential_issuer := lit "https://issuer.example"; im_authorization_server := None;
     im_credential_endpoint := lit endpoint; im_batch_credential_endpoint := None;
     im_credentials_supported := l; im_additional_fields := None |}.
Definition hi_degree := ex_supported (Some (lit "Degree")) ex_degree.
Definition hi_licence := ex_supported (Some (lit "Licence")) (MsoMdoc (lit "mdl") None None).
Definition hi_nameless := ex_supported None (JwtVcJson [lit "T"] None None).

(** Twice more, the first time in front and with another endpoint. *)
Example C109_case : grown ev_metadata (hi_more [hi_licence; hi_nameless; hi_degree] "https://new")
  /\ exists r, create_offer ev_metadata [CredentialId (lit "Degree")] None None (Some ex_pre) = Ok r.
Proof.
  split; [|eexists; vm_compute; reflexivity].
  apply (grown_more _ (hi_more [hi_licence; hi_degree] "https://new") hi_nameless).
  - apply (grown_more _ ev_metadata hi_licence); [constructor| |].
    + split; [reflexivity|]. exists [], [hi_degree]. split; reflexivity.
    + intros id E (c & [<-|[]] & F). vm_compute in E. vm_compute in F. rewrite <- E in F. discriminate F.
  - split; [reflexivity|]. exists [hi_licence], [hi_degree]. split; reflexivity.
  - discriminate.
Qed.

Example C109_reused_case :
  adds (ex_supported (Some (lit "Degree")) (MsoMdoc (lit "mdl") None None)) ev_metadata
    (hi_more [hi_degree; ex_supported (Some (lit "Degree")) (MsoMdoc (lit "mdl") None None)] "x")
  /\ known_id ev_metadata (lit "Degree").
Proof.
  split; [|exists hi_degree; split; [left; reflexivity|reflexivity]].
  split; [reflexivity|]. exists [hi_degree], []. split; reflexivity.
Qed.

(** * C110 *)
Theorem C110_credential_verdict :
  forall d now sm m km m' sr r kr r' so o ko o' sp p kp p' asm doc,
  dt_round_trips d -> dates_in_range d ->
  reaches metadata_from_json metadata_to_json sm m km m' ->
  reaches credential_request_from_json credential_request_to_json sr r kr r' ->
  reaches offer_from_json offer_to_json so o ko o' ->
  reaches (eval_options_from_json d) (eval_options_to_json d) sp p kp p' ->
  same_outcome (cr_format r')
    (evaluate_credential_request d now m r (Some o) asm doc (Some p))
    (evaluate_credential_request d now m' r' (Some o') asm doc (Some p'))
  /\ same_outcome (cr_format r')
    (evaluate_credential_request d now m r (Some o) asm doc None)
    (evaluate_credential_request d now m' r' (Some o') asm doc None).
Proof. exact relayed_verdicts. Qed.
Print Assumptions C110_credential_verdict.

(** The credential that is returned is the requested one, but for numbers. *)
Theorem C110_credential : forall s r k r', 
  reaches credential_request_from_json credential_request_to_json s r k r' ->
  forall q, rereads q -> cr_format r' = credential_numbers (times k q) (cr_format r).
Proof. exact relayed_credential. Qed.
Print Assumptions C110_credential.

Theorem C110_token_verdict : forall sr r kr r' so o ko o' sp p kp p',
  reaches token_request_from_json token_request_to_json sr r kr r' ->
  reaches offer_from_json offer_to_json so o ko o' ->
  reaches token_options_from_json token_options_to_json sp p kp p' ->
  evaluate_access_token_request r' (Some o') (Some p') = evaluate_access_token_request r (Some o) (Some p)
  /\ evaluate_access_token_request r' (Some o') None = evaluate_access_token_request r (Some o) None.
Proof. exact relayed_token_verdict. Qed.
Print Assumptions C110_token_verdict.

(** The same offer, with the same URL, or the same error. *)
Theorem C110_offer : forall s m k m' creds ep a p,
  reaches metadata_from_json metadata_to_json s m k m' ->
  create_offer m' creds ep a p = create_offer m creds ep a p.
Proof. exact relayed_create. Qed.
Print Assumptions C110_offer.

(** Every document that is read at all reaches the next party, however long the way. *)
Theorem C110_arrives : forall d k s, dt_round_trips d -> dates_in_range d ->
  (forall x, metadata_from_json s = Some x ->
     exists x', reaches metadata_from_json metadata_to_json s x k x')
  /\ (forall x, offer_from_json s = Some x -> exists x', reaches offer_from_json offer_to_json s x k x')
  /\ (forall x, credential_request_from_json s = Some x ->
     exists x', reaches credential_request_from_json credential_request_to_json s x k x')
  /\ (forall x, eval_options_from_json d s = Some x ->
     reaches (eval_options_from_json d) (eval_options_to_json d) s x k x)
  /\ (forall x, token_request_from_json s = Some x ->
     reaches token_request_from_json token_request_to_json s x k x)
  /\ (forall x, token_options_from_json s = Some x ->
     reaches token_options_from_json token_options_to_json s x k x).
Proof. exact arrives. Qed.
Print Assumptions C110_arrives.

(** Metadata whose number is another one after three parties, and a request in which
    one changes at the first. *)
Example C110_metadata_case : exists x x',
  reaches metadata_from_json metadata_to_json (nu_metadata "4.6428839496425715e91") x 3 x' /\ x' <> x.
Proof.
  destruct C104_passed_on_case as (_ & (x & X) & P). 
  destruct (metadata_from_json (nu_metadata "4.642883949642571e91")) as [y|] eqn:Y;
    [|vm_compute in Y; discriminate Y].
  exists x, y. split; [split; [exact X|]; exists (nu_metadata "4.642883949642571e91"); split; [exact P|exact Y]|].
  intros <-. apply rl_apart. pose proof rl_up as U. pose proof rl_down as D. unfold relayed in U, D. rewrite X in U.
  rewrite Y in D. rewrite U in D. now apply some_inj in D.
Qed.

Definition hi_request : str :=
  lit "{""proof"":{""jwt"":""a.b.c"",""proof_type"":""jwt""},""format"":""ldp_vc"",""types"":[],""@context"":[{""v"":4.6428839496425715e91}]}".
Example C110_request_case : exists r r',
  reaches credential_request_from_json credential_request_to_json hi_request r 1 r' /\ cr_format r' <> cr_format r.
Proof.
  destruct (credential_request_from_json hi_request) as [r|] eqn:R; [|vm_compute in R; discriminate R].
  destruct (credential_request_from_json (credential_request_to_json r)) as [r'|] eqn:R'.
  - exists r, r'. split.
    + split; [exact R|]. exists (credential_request_to_json r). split; [cbn [passed_on]; now rewrite R|exact R'].
    + vm_compute in R. injection R as <-. vm_compute in R'. injection R' as <-. vm_compute. discriminate.
  - vm_compute in R. injection R as <-. vm_compute in R'. discriminate R'.
Qed.
