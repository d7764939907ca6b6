(** Independence of iteration order (C68). *)
From Coq Require Import Lia Permutation.
From Verif Require Import Model.Prelude Model.Utf8 Model.Base64 Model.Percent Model.Json Model.Types Model.Deps
  Model.Serde Model.Errors Model.Jwt Model.AccessToken Model.CredentialIssuer Model.Wire
  Spec SpecToken SpecOffer SpecJwt SpecEvaluation SpecResponse
  Proofs.StrFacts Proofs.PercentFacts Proofs.JsonFacts Proofs.SerdeFacts Proofs.TokenFacts Proofs.OfferFacts
  Proofs.JwtFacts Proofs.EvalFacts Proofs.ResponseFacts.

Lemma supported_ids l1 l2 : Forall2 supported_eq l1 l2 -> map sup_id l1 = map sup_id l2.
Proof. induction 1 as [|a b l1 l2 (_ & E & _) _ IH]; cbn; congruence. Qed.

Lemma validate_order m1 m2 : metadata_eq m1 m2 -> metadata_validate m1 = metadata_validate m2.
Proof.
  intros (_ & _ & _ & _ & H & _). apply metadata_validate_only_ids. now rewrite (supported_ids _ _ H).
Qed.

Lemma find_order f l1 l2 :
  (forall a b, supported_eq a b -> f a = f b) -> Forall2 supported_eq l1 l2 ->
  opt_rel supported_eq (find f l1) (find f l2).
Proof.
  intros Hf. induction 1 as [|a b l1 l2 E _ IH]; cbn; [constructor|]. rewrite (Hf a b E).
  destruct (f b); [now constructor|exact IH].
Qed.

Lemma resolve_order_eq m1 m2 c1 c2 :
  metadata_eq m1 m2 -> credential_or_id_eq c1 c2 -> same_outcome cfp_eq (resolve m1 c1) (resolve m2 c2).
Proof.
  intros (_ & _ & _ & _ & H & _) [s|a b E]; cbn [resolve]; [|exact E].
  pose proof (find_order (fun c => opt_str_eqb (sup_id c) (Some s)) _ _
    (fun a b E => f_equal (fun x => opt_str_eqb x (Some s)) (proj1 (proj2 E))) H) as F.
  destruct F as [|a b (F & _)]; cbn; auto.
Qed.

Lemma resolve_all_order m1 m2 l1 l2 :
  metadata_eq m1 m2 -> Forall2 credential_or_id_eq l1 l2 ->
  same_outcome (Forall2 cfp_eq) (resolve_all m1 l1) (resolve_all m2 l2).
Proof.
  intros Hm H. unfold resolve_all.
  assert (forall acc1 acc2, Forall2 cfp_eq acc1 acc2 ->
    same_outcome (Forall2 cfp_eq) (resolve_all_loop m1 l1 acc1) (resolve_all_loop m2 l2 acc2)) as K; [|now apply K].
  induction H as [|a b l1 l2 E _ IH]; intros acc1 acc2 Ha; cbn [resolve_all_loop]; [exact Ha|].
  pose proof (resolve_order_eq m1 m2 a b Hm E) as R.
  destruct (resolve m1 a), (resolve m2 b); cbn in R |- *; try easy.
  apply IH. apply Forall2_app; auto.
Qed.

Lemma create_offer_order m1 m2 l1 l2 ep a p :
  metadata_eq m1 m2 -> Forall2 credential_or_id_eq l1 l2 ->
  same_outcome (fun x y => offer_eq (fst x) (fst y)) (create_offer m1 l1 ep a p) (create_offer m2 l2 ep a p).
Proof.
  intros Hm H. unfold create_offer. rewrite (validate_order m1 m2 Hm).
  destruct (metadata_validate m2) as [[]|e|]; cbn [map_err bind same_outcome]; auto.
  destruct (is_some a); cbn [same_outcome]; auto.
  pose proof (resolve_all_order m1 m2 l1 l2 Hm H) as R.
  destruct (resolve_all m1 l1), (resolve_all m2 l2); cbn [bind same_outcome] in R |- *; try easy.
  unfold offer_url_encode. cbn [bind same_outcome fst]. unfold offer_eq, offer_new. cbn.
  repeat split; auto. apply Hm.
Qed.

Lemma payload_order n o1 o2 :
  offer_ok n o1 -> offer_ok n o2 -> (n <= 122)%nat -> offer_eq o1 o2 ->
  exists s1 s2 t1 t2 p1 p2,
    offer_url_encode o1 = Ok s1 /\ offer_url_encode o2 = Ok s2
    /\ percent_decoded s1 t1 /\ percent_decoded s2 t2
    /\ offer_from_json t1 = Some p1 /\ offer_from_json t2 = Some p2 /\ offer_eq p1 p2.
Proof.
  intros H1 H2 Hn E. exists (url_encode (offer_to_json o1)), (url_encode (offer_to_json o2)),
    (offer_to_json o1), (offer_to_json o2), o1, o2.
  split; [reflexivity|]. split; [reflexivity|].
  split; [apply percent_decoded_encode|]. split; [apply percent_decoded_encode|].
  split; [now apply (offer_json_rt n)|]. split; [now apply (offer_json_rt n)|]. exact E.
Qed.

Lemma token_request_order r o1 o2 opts :
  opt_rel offer_eq o1 o2 -> evaluate_access_token_request r o1 opts = evaluate_access_token_request r o2 opts.
Proof. intros [|a b (_ & _ & E)]; [reflexivity|]. unfold evaluate_access_token_request. now rewrite E. Qed.

Lemma request_order d r1 r2 :
  request_eq r1 r2 ->
  request_validate d r1 = request_validate d r2
  /\ pre_evaluate_credential_request d r1 = pre_evaluate_credential_request d r2.
Proof.
  intros (_ & E). unfold pre_evaluate_credential_request, request_validate. now rewrite E.
Qed.

Lemma evaluate_order d now m1 m2 r1 r2 o1 o2 asm doc options :
  metadata_eq m1 m2 -> request_eq r1 r2 -> opt_rel offer_eq o1 o2 ->
  same_outcome eval_response_eq (evaluate_credential_request d now m1 r1 o1 asm doc options)
                                (evaluate_credential_request d now m2 r2 o2 asm doc options).
Proof.
  intros Hm (Ef & Ep) Ho. unfold evaluate_credential_request. rewrite (validate_order m1 m2 Hm), <- Ep.
  destruct (metadata_validate m2) as [[]|e|]; cbn [map_err bind same_outcome]; auto.
  destruct Ho as [|a b (_ & _ & Eg)]; cbn [ok_or bind same_outcome]; auto. cbn [offer_validate map_err bind].
  destruct asm; cbn [auth_server_metadata_validate map_err bind same_outcome]; auto.
  destruct (check_nonce_expiry now options) as [[]|e|]; cbn [bind same_outcome]; auto.
  destruct (cr_proof r1) as [p|]; cbn [same_outcome]; auto.
  destruct (jwt_from_str d (rp_jwt p)) as [j|e|]; cbn [map_err bind same_outcome]; auto.
  destruct (jwt_validate d j) as [[]|e|]; cbn [map_err bind same_outcome]; auto.
  destruct (jwt_check_nonce j _) as [[]|e|]; cbn [map_err bind same_outcome]; auto.
  assert (should_validate_iss options a = should_validate_iss options b) as ->
    by (unfold should_validate_iss; now rewrite Eg).
  destruct (if should_validate_iss options b then _ else _) as [[]|e|]; cbn [map_err bind same_outcome]; auto.
  destruct Hm as (-> & _).
  destruct (jwt_check_aud j _) as [[]|e|]; cbn [map_err bind same_outcome]; auto.
  destruct (header_extract_key_and_alg d _ doc) as [ka|e|]; cbn [map_err bind same_outcome]; auto.
  destruct (jwt_extract_signature d j) as [sig|e|]; cbn [map_err bind same_outcome]; auto.
  destruct (jwt_to_signable_message d j) as [msg|e|]; cbn [map_err bind same_outcome]; auto.
  destruct (jwt_extract_did d j) as [did|e|]; cbn [map_err bind same_outcome]; auto.
  repeat split; auto.
Qed.

Lemma format_order c1 c2 : cfp_eq c1 c2 -> format_name c1 = format_name c2.
Proof. now intros []. Qed.

Lemma issued_order n c1 c2 e1 e2 :
  cfp_eq c1 c2 -> cfp_ok n c1 -> cfp_ok n c2 -> issued c1 e1 -> issued c2 e2 -> issued_eq e1 e2.
Proof.
  intros E H1 H2 I1 I2. pose proof (issued_recovered n c1 e1 H1 I1) as R1.
  pose proof (issued_recovered n c2 e2 H2 I2) as R2.
  apply format_order in E as EN.
  destruct I1 as [F1|f1 t1 F1 N1 B1], I2 as [F2|f2 t2 F2 N2 B2].
  - now constructor.
  - exfalso. destruct E; inversion F1; subst; inversion F2; subst; congruence.
  - exfalso. destruct E; inversion F1; subst; inversion F2; subst; congruence.
  - destruct R1 as (b1 & B1' & D1), R2 as (b2 & B2' & D2). eapply ie_encoded; eassumption.
Qed.

Lemma success_order d now r1 r2 ct1 ct2 nonce n :
  request_eq r1 r2 -> payload_eq ct1 ct2 ->
  (forall c, ct1 = Some (CTCredential c) -> cfp_ok n c) ->
  (forall c, ct2 = Some (CTCredential c) -> cfp_ok n c) ->
  same_outcome success_eq (create_credential_success_response d now r1 ct1 nonce)
                          (create_credential_success_response d now r2 ct2 nonce).
Proof.
  intros Hr Hc H1 H2. unfold create_credential_success_response.
  destruct (request_order d r1 r2 Hr) as (-> & _).
  destruct (request_validate d r2) as [[]|e|]; cbn [map_err bind same_outcome]; auto.
  pose proof (format_order _ _ (proj1 Hr)) as ->.
  destruct ct1 as [[c1|t1]|], ct2 as [[c2|t2]|]; cbn [payload_eq] in Hc; try easy.
  - destruct (encode_ok c1) as (e1 & -> & I1), (encode_ok c2) as (e2 & -> & I2).
    cbn [map_err bind same_outcome fst snd]. repeat split; cbn; auto. constructor.
    eapply (issued_order n c1 c2); eauto.
  - subst. cbn [map_err bind same_outcome fst snd]. repeat split; cbn; auto. constructor.
  - cbn [map_err bind same_outcome fst snd]. repeat split; cbn; auto. constructor.
Qed.

Lemma metadata_order m1 m2 :
  metadata_eq m1 m2 ->
  metadata_validate m1 = metadata_validate m2
  /\ (forall c1 c2, credential_or_id_eq c1 c2 -> same_outcome cfp_eq (resolve m1 c1) (resolve m2 c2))
  /\ (forall l1 l2, Forall2 credential_or_id_eq l1 l2 ->
        same_outcome (Forall2 cfp_eq) (resolve_all m1 l1) (resolve_all m2 l2))
  /\ (forall l1 l2 ep a p, Forall2 credential_or_id_eq l1 l2 ->
        same_outcome (fun x y => offer_eq (fst x) (fst y)) (create_offer m1 l1 ep a p) (create_offer m2 l2 ep a p)).
Proof.
  intros H. split; [now apply validate_order|]. split; [intros; now apply resolve_order_eq|].
  split; intros; [now apply resolve_all_order|now apply create_offer_order].
Qed.

Lemma request_decisions_order d r1 r2 :
  request_eq r1 r2 ->
  request_validate d r1 = request_validate d r2
  /\ pre_evaluate_credential_request d r1 = pre_evaluate_credential_request d r2
  /\ (forall now m1 m2 o1 o2 asm doc options, metadata_eq m1 m2 -> opt_rel offer_eq o1 o2 ->
        same_outcome eval_response_eq (evaluate_credential_request d now m1 r1 o1 asm doc options)
                                      (evaluate_credential_request d now m2 r2 o2 asm doc options))
  /\ (forall now ct1 ct2 nonce n, payload_eq ct1 ct2 ->
        (forall c, ct1 = Some (CTCredential c) -> cfp_ok n c) ->
        (forall c, ct2 = Some (CTCredential c) -> cfp_ok n c) ->
        same_outcome success_eq (create_credential_success_response d now r1 ct1 nonce)
                                (create_credential_success_response d now r2 ct2 nonce)).
Proof.
  intros H. destruct (request_order d r1 r2 H) as (E1 & E2). split; [exact E1|]. split; [exact E2|].
  split; intros; [now apply evaluate_order|now apply (success_order d now r1 r2 ct1 ct2 nonce n)].
Qed.
