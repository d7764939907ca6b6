(** One token at several issuers, and what a wallet makes of an offer (C98, C99). *)
From Coq Require Import Lia.
From Verif Require Import Model.Prelude Model.Json Model.Types Model.Deps Model.Errors Model.Jwt
  Model.CredentialIssuer Model.Wire
  Spec SpecOffer SpecJwt SpecEvaluation SpecDocuments SpecJson SpecWire SpecResults
  Proofs.OfferFacts Proofs.EvalFacts Proofs.EvalFacts2 Proofs.EvalFacts3 Proofs.DepthFacts Proofs.DocumentFacts.

Lemma token_bound d now m r offer asm doc options resp now' m' r' offer' asm' doc' options' resp' :
  lower_case_facts d -> same_token r r' ->
  evaluate_credential_request d now m r offer asm doc options = Ok resp ->
  evaluate_credential_request d now' m' r' offer' asm' doc' options' = Ok resp' ->
  im_credential_issuer m = im_credential_issuer m'
  /\ (forall n n', nonce_options options n -> nonce_options options' n' -> cno_expected n = cno_expected n')
  /\ (forall c c', client_id options = Some c -> client_id options' = Some c' -> c = c')
  /\ er_subject_id resp = er_subject_id resp'
  /\ exists pop pop', er_pop resp = Some pop /\ er_pop resp' = Some pop'
       /\ pop_algorithm pop = pop_algorithm pop' /\ pop_message pop = pop_message pop'
       /\ pop_signature pop = pop_signature pop'.
Proof.
  intros HL HT E E'.
  destruct (accepted_inv _ _ _ _ _ _ _ _ _ HL E)
    as (_ & _ & o & p & j & n & dc & kid & u & k & opts & pop & _ & Eo & En & _ & _ & Ep & Hj & _ & Hn & Ha & Hi
        & Hk & Hu & _ & _ & Hp & Hal & _ & Hm & Hs & Hsub & _).
  destruct (accepted_inv _ _ _ _ _ _ _ _ _ HL E')
    as (_ & _ & o' & p' & j' & n' & dc' & kid' & u' & k' & opts' & pop' & _ & Eo' & En' & _ & _ & Ep' & Hj' & _ & Hn'
        & Ha' & Hi' & Hk' & Hu' & _ & _ & Hp' & Hal' & _ & Hm' & Hs' & Hsub' & _).
  unfold same_token in HT. rewrite Ep, Ep' in HT. cbn [option_map] in HT. injection HT as HT.
  rewrite <- HT in Hj'. pose proof (proof_token_det _ _ _ _ Hj' Hj) as ->.
  split; [now rewrite <- Ha, <- Ha'|].
  split.
  { intros x x' (q & Eq & Ex) (q' & Eq' & Ex'). rewrite Eo in Eq. injection Eq as <-. rewrite Eo' in Eq'. injection Eq' as <-.
    rewrite En in Ex. injection Ex as <-. rewrite En' in Ex'. injection Ex' as <-. now rewrite <- Hn, <- Hn'. }
  split.
  { intros c c' Ec Ec'. rewrite Eo in Ec, Hi. rewrite Eo' in Ec', Hi'. cbn [client_id iss_allowed] in *.
    rewrite Ec in Hi. rewrite Ec' in Hi'. rewrite Hi in Hi'. now injection Hi'. }
  rewrite Hk in Hk'. injection Hk' as <-. rewrite Hu in Hu'. injection Hu' as <-.
  split; [now rewrite Hsub, Hsub'|].
  exists pop, pop'. split; [exact Hp|]. split; [exact Hp'|]. split; [now rewrite Hal, Hal'|].
  split; [exact (message_of_det _ _ _ Hm Hm')|exact (after_second_dot_det _ _ _ Hs Hs')].
Qed.

Lemma resolves_same m m' c p : im_credentials_supported m = im_credentials_supported m' ->
  resolves m c p -> resolves m' c p.
Proof. intros E [c0|id c0 H]; constructor. now rewrite <- E. Qed.

Lemma wallet_resolves m creds ep a p o url n k :
  create_offer m creds ep a p = Ok (o, url) ->
  metadata_ok k m -> (k <= 122)%nat ->
  (forall f x, im_additional_fields m = Some f -> In x (map fst f) -> ~ names_metadata x) ->
  Forall (credential_or_id_ok n) creds -> (n <= 122)%nat -> on_some preauth_flow_ok p ->
  exists payload text o' m' ps,
    url = offer_url_prefix ep ++ payload /\ percent_decoded payload text /\ offer_from_json text = Some o'
    /\ metadata_from_json (metadata_to_json m) = Some m'
    /\ co_credential_issuer o' = im_credential_issuer m'
    /\ metadata_validate m' = Ok tt
    /\ resolve_all m' (co_credentials o') = Ok ps
    /\ Forall2 (resolves m) creds ps.
Proof.
  intros E M Hk Hf C Hn P.
  assert (rust_string (im_credential_issuer m)) as R by exact (proj1 M).
  destruct (created_offer_exactly _ _ _ _ _ _ _ _ E R C P) as (pl & t & Eu & D & _ & Hr & _).
  assert (Forall (credential_or_id_ok 122) creds) as C'.
  { revert C. apply Forall_impl. intros [s|c]; [exact (fun h => h)|]. apply cfp_ok_mono. exact Hn. }
  specialize (Hr C').
  apply create_offer_ok in E as (I & _ & F & Eo & _).
  destruct (proj2 (resolve_all_iff m creds) F) as (ps & Eps). apply resolve_all_ok in Eps.
  exists pl, t, o, (with_additional m match im_additional_fields m with Some f => f | None => [] end), ps.
  split; [exact Eu|]. split; [exact D|]. split; [exact Hr|].
  split; [exact (metadata_json_rt k m M Hk Hf)|].
  split; [rewrite Eo; reflexivity|].
  split; [|split; [|exact Eps]].
  - apply metadata_validate_ok. exact I.
  - apply resolve_all_ok. rewrite Eo. cbn [co_credentials]. revert Eps. clear. induction 1; constructor; [|assumption].
    revert H. apply resolves_same. reflexivity.
Qed.
