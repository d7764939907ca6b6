(** What offers, pre-evaluation and answers depend on (C130). *)
From Verif Require Import Model.Prelude Model.Json Model.Types Model.Deps Model.Serde Model.Jwt Model.CredentialIssuer
  Spec SpecJwt SpecEvaluation SpecResponse SpecResults SpecDepend
  Proofs.StrFacts Proofs.EvalFacts Proofs.ResponseFacts Proofs.ResultFacts Proofs.EvalFacts2.

Lemma resolve_loop_ids m m' l acc acc' : same_issuer m m' ->
  (exists x y, resolve_all_loop m l acc = Ok x /\ resolve_all_loop m' l acc' = Ok y)
  \/ exists e, resolve_all_loop m l acc = Err e /\ resolve_all_loop m' l acc' = Err e.
Proof.
  intros [_ H]. revert acc acc'. induction l as [|c l IH]; intros acc acc'; cbn [resolve_all_loop]; [left; eauto|].
  destruct c as [i|c]; cbn [resolve]; [|apply IH].
  assert (F : forall a b, map sup_id a = map sup_id b ->
    (exists x y, find (fun c => opt_str_eqb (sup_id c) (Some i)) a = Some x
       /\ find (fun c => opt_str_eqb (sup_id c) (Some i)) b = Some y)
    \/ find (fun c => opt_str_eqb (sup_id c) (Some i)) a = None
       /\ find (fun c => opt_str_eqb (sup_id c) (Some i)) b = None).
  { induction a as [|x a IHa]; intros [|y b] E; try discriminate E; [now right|]. cbn [map] in E. injection E as E1 E2.
    cbn [find]. rewrite <- E1. destruct (opt_str_eqb (sup_id x) (Some i)); [left; eauto|now apply IHa]. }
  destruct (F _ _ H) as [(x & y & -> & ->)|(-> & ->)]; cbn [option_map ok_or bind]; [apply IH|right; eauto].
Qed.

Lemma offers_look_at m m' credentials endpoint a p : same_issuer m m' ->
  create_offer m credentials endpoint a p = create_offer m' credentials endpoint a p.
Proof.
  intros S. unfold create_offer. rewrite (metadata_validate_ids m m' S).
  destruct (map_err IValidationError (metadata_validate m')) as [?|?|]; try reflexivity. cbn [bind].
  destruct (is_some a); [reflexivity|]. rewrite <- (proj1 S). unfold resolve_all.
  destruct (resolve_loop_ids m m' credentials [] [] S) as [(x & y & -> & ->)|(e & -> & ->)]; reflexivity.
Qed.

Lemma offer_errors m credentials endpoint endpoint' a p p' e :
  create_offer m credentials endpoint a p = Err e <-> create_offer m credentials endpoint' a p' = Err e.
Proof.
  unfold create_offer. destruct (map_err IValidationError (metadata_validate m)) as [?|?|]; cbn [bind]; try reflexivity.
  destruct (is_some a); [reflexivity|]. destruct (resolve_all m credentials) as [?|?|]; cbn [bind]; try reflexivity.
  unfold offer_url_encode. cbn [bind]. split; discriminate.
Qed.

(** Two requests whose proofs have the same type and header, or that both have none. *)
Lemma request_validate_header d r r' : same_header d r r' -> request_validate d r = request_validate d r'.
Proof.
  intros H. destruct H as [E E'|p p' j j' E E' T P P' H]; unfold request_validate; rewrite E, E'; [reflexivity|].
  cbn [bind]. unfold proof_validate. rewrite <- T.
  apply proof_token_iff in P, P'. rewrite P, P'. cbn [bind]. unfold jwt_validate. now rewrite H.
Qed.

Lemma pre_evaluation_looks_at d r r' : same_header d r r' ->
  pre_evaluate_credential_request d r = pre_evaluate_credential_request d r'.
Proof.
  intros S. pose proof (request_validate_header d r r' S) as V. unfold pre_evaluate_credential_request. rewrite V.
  destruct (map_err IValidationError (request_validate d r')) as [?|?|]; try reflexivity. cbn [bind].
  destruct S as [E E'|p p' j j' E E' T P P' H]; rewrite E, E'; [reflexivity|].
  apply proof_token_iff in P, P'. rewrite P, P'. cbn [map_err bind]. unfold jwt_validate, jwt_extract_did. now rewrite H.
Qed.

Lemma format_of_name c f : format_of c f -> format_name c = lit f.
Proof. now destruct 1. Qed.

Lemma answers_look_at d now now' r r' f content nonce : same_header d r r' ->
  format_of (cr_format r) f -> format_of (cr_format r') f ->
  same_answer now now' (create_credential_success_response d now r content nonce)
    (create_credential_success_response d now' r' content nonce).
Proof.
  intros S F F'. unfold create_credential_success_response. rewrite (request_validate_header d r r' S).
  rewrite (format_of_name _ _ F), (format_of_name _ _ F').
  destruct (map_err IValidationError (request_validate d r')) as [?|?|]; cbn [bind]; [|reflexivity|exact I].
  destruct content as [[c|t]|]; cbn [bind].
  - destruct (map_err IValidationError (cfp_encode c)) as [?|?|]; cbn; [|reflexivity|exact I]. repeat split.
  - cbn. repeat split.
  - cbn. repeat split.
Qed.

Lemma issue_not_examined d now m r r' offer asm doc options p p' j iat sub :
  cr_format r = cr_format r' -> cr_proof r = Some p -> cr_proof r' = Some p' ->
  proof_token d (rp_jwt p) j -> proof_token d (rp_jwt p') (with_issue iat sub j) -> j_signature j <> None ->
  same_verdict (evaluate_credential_request d now m r offer asm doc options)
               (evaluate_credential_request d now m r' offer asm doc options).
Proof. intros EF HP HP' T T' HS. eapply verdict_congruent; eauto. Qed.
