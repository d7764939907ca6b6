(** One token at several issuers, and an offer in the hands of a wallet. Theorems
    only; proofs are in Proofs/PartyFacts.v, vocabulary in SpecEvaluation.v,
    SpecOffer.v and SpecDocuments.v. *)
From Verif Require Import Model.Prelude Model.Json Model.Types Model.Deps Model.Jwt Model.CredentialIssuer Model.Wire
  Spec SpecOffer SpecJwt SpecEvaluation SpecDocuments SpecJson SpecResults
  Proofs.PartyFacts Proofs.OkTac Examples Properties.Offers Properties.Evaluation Properties.Documents.

(** * C98 *)
Theorem C98_one_token_one_issuer :
  forall d now m r offer asm doc options resp now' m' r' offer' asm' doc' options' resp',
  lower_case_facts d -> same_token r r' ->
  evaluate_credential_request d now m r offer asm doc options = Ok resp ->
  evaluate_credential_request d now' m' r' offer' asm' doc' options' = Ok resp' ->
  im_credential_issuer m = im_credential_issuer m'
  /\ (forall n n', nonce_options options n -> nonce_options options' n' -> cno_expected n = cno_expected n')
  /\ (forall c c', client_id options = Some c -> client_id options' = Some c' -> c = c')
  /\ er_subject_id resp = er_subject_id resp'
  /\ exists pop pop', er_pop resp = Some pop /\ er_pop resp' = Some pop'
       /\ pop_algorithm pop = pop_algorithm pop' /\ pop_message pop = pop_message pop'
       /\ pop_signature pop = pop_signature pop'.
Proof. exact token_bound. Qed.
Print Assumptions C98_one_token_one_issuer.

(** Two accepting calls for different credentials, with and without a client. *)
Example C98_case :
  same_token (ev_request ex_degree "jwt" (ev_good EdDSA)) (ev_request ex_license "x" (ev_good EdDSA))
  /\ (exists resp, ev_evaluate ev_now (ev_request ex_degree "jwt" (ev_good EdDSA)) (Some (lit "client")) = Ok resp)
  /\ (exists resp, ev_evaluate ev_now (ev_request ex_license "x" (ev_good EdDSA)) None = Ok resp).
Proof.
  split; [reflexivity|]. split; eexists; [apply ev_accepted_client|apply ev_accepted].
Qed.

(** * C99: primes mark what the wallet reads *)
Theorem C99_wallet_resolves_what_was_offered : forall m creds ep a p o url n k,
  create_offer m creds ep a p = Ok (o, url) ->
  metadata_ok k m -> (k <= 122)%nat ->
  (forall f x, im_additional_fields m = Some f -> In x (map fst f) -> ~ names_metadata x) ->
  Forall (credential_or_id_ok n) creds -> (n <= 122)%nat -> on_some preauth_flow_ok p ->
  exists payload text o' m' ps,
    url = offer_url_prefix ep ++ payload /\ percent_decoded payload text /\ offer_from_json text = Some o'
    /\ metadata_from_json (metadata_to_json m) = Some m'
    /\ co_credential_issuer o' = im_credential_issuer m'
    /\ metadata_validate m' = Ok tt
    /\ resolve_all m' (co_credentials o') = Ok ps
    /\ Forall2 (resolves m) creds ps.
Proof. exact wallet_resolves. Qed.
Print Assumptions C99_wallet_resolves_what_was_offered.

Definition pa_metadata : issuer_metadata :=
  do_metadata (Some [(lit "display", JArr [JObj [(lit "name", JStr (lit "x"))]])]).
Definition pa_creds : list credential_or_id := [CredentialId (lit "license"); Credential ex_degree].
Example C99_case :
  (exists o url, create_offer pa_metadata pa_creds None None None = Ok (o, url))
  /\ metadata_ok 2 pa_metadata /\ Forall (credential_or_id_ok 0) pa_creds
  /\ (forall f x, im_additional_fields pa_metadata = Some f -> In x (map fst f) -> ~ names_metadata x)
  /\ Forall2 (resolves pa_metadata) pa_creds [ex_license; ex_degree].
Proof.
  split; [eexists; eexists; reflexivity|]. split; [exact C69_extra|].
  split; [constructor; [ok|constructor; [change (cfp_ok 0 ex_degree); ok|constructor]]|]. split.
  { intros f x E I. injection E as <-. destruct I as [<-|[]]. intros H.
    destruct H as (n & I & E). cbn [metadata_names In] in I.
    repeat destruct I as [<-|I]; try discriminate E; exact I. }
  constructor; [|constructor; [constructor|constructor]].
  apply (resolves_id pa_metadata (lit "license") (do_supported (Some [lit "did"]))).
  exists [], []. split; [reflexivity|]. split; [reflexivity|]. constructor.
Qed.
