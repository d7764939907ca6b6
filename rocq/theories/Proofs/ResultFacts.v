(** Evaluation results in JSON, and what evaluations look at. *)
From Coq Require Import Lia.
From Verif Require Import Model.Prelude Model.Json Model.Types Model.Deps Model.Serde Model.Wire Model.Errors Model.Jwt
  Model.AccessToken Model.CredentialIssuer
  Spec SpecToken SpecJwt SpecJson SpecDocuments SpecWire SpecResults
  Proofs.StrFacts Proofs.JsonFacts Proofs.ReaderFacts Proofs.GrammarFacts Proofs.AnyDepth Proofs.SerdeFacts Proofs.JwtFacts
  Proofs.WireFacts Proofs.WrittenFacts.

(* ---------------- results in JSON ---------------- *)

Lemma bytes_writes s : bytes_value (ser_bytes s) s.
Proof. exists (map (fun b => ser_N (code b)) s). split; [reflexivity|]. induction s; constructor; auto. Qed.

Lemma algorithm_writes a : algorithm_value (JStr (alg_name a)) a.
Proof. destruct a; eexists; (split; [constructor|reflexivity]). Qed.

#[local] Hint Resolve bytes_writes algorithm_writes : written.

Lemma evidence_writes p : evidence_value (ser_pop p) p.
Proof.
  eexists. split; [reflexivity|]. split; [reflexivity|]. unfold evidence_of. conj_split; member_here.
Qed.
#[local] Hint Resolve evidence_writes : written.

Lemma result_writes n r : result_ok n r -> result_value (ser_eval_response r) r.
Proof.
  intros [_ H]. pose proof (credential_writes Alone n _ H) as Hc.
  destruct r as [p s c]. cbn [er_credential] in *.
  destruct p, s; eexists; (split; [reflexivity|]); (split; [reflexivity|]); unfold result_of;
    cbn [er_pop er_subject_id er_credential]; conj_split; member_here.
Qed.

Lemma good_bytes s : jgood 1 (ser_bytes s).
Proof.
  apply jgood_arr. rewrite Forall_map. apply Forall_forall. intros b _. apply jgood_N.
  unfold u64. pose proof (N_ascii_bounded b). unfold code. lia.
Qed.

Lemma good_pop p : jgood 2 (ser_pop p).
Proof.
  apply jgood_obj. jfields; try apply good_bytes. apply jgood_str. destruct (pop_algorithm p); jlit.
Qed.

Lemma good_result n r : result_ok n r -> jgood (max 6 (4 + n)) (ser_eval_response r).
Proof.
  intros [H1 H2]. unfold ser_eval_response.
  eapply jgood_mono; [|apply (jgood_obj (max 5 (3 + n)))]; [lia|]. jfields.
  - eapply jgood_mono; [|apply (jgood_ser_opt 2)]; [lia|]. intros p _. apply good_pop.
  - now apply good_opt_str.
  - now apply good_cfp.
Qed.

Lemma result_written n r : result_ok n r ->
  exists v, rfc8259_text (eval_response_to_json r) v /\ compact v (eval_response_to_json r)
    /\ result_value v r.
Proof.
  intros H. apply (text_written_deep (max 6 (4 + n))); [now apply (result_writes n)|now apply good_result].
Qed.

Lemma ser_bytes_inj s s' : ser_bytes s = ser_bytes s' -> s = s'.
Proof.
  intros [= H]. revert s' H. induction s as [|b s IH]; intros [|b' s'] H; try discriminate; [reflexivity|].
  cbn [map] in H. injection H as Hb Hs. f_equal; [|now apply IH].
  unfold code in Hb. apply N2Z.inj in Hb. rewrite <- (ascii_N_embedding b), <- (ascii_N_embedding b'). now f_equal.
Qed.

Lemma alg_name_inj a a' : alg_name a = alg_name a' -> a = a'.
Proof. destruct a, a'; first [reflexivity|discriminate]. Qed.

Lemma ser_pop_inj p p' : ser_pop p = ser_pop p' -> p = p'.
Proof.
  destruct p as [a k m s], p' as [a' k' m' s']. unfold ser_pop, field.
  cbn [pop_algorithm pop_public_key pop_message pop_signature app]. intros H. injection H as Ha Hk Hm Hs.
  apply alg_name_inj in Ha. subst a'.
  f_equal; apply ser_bytes_inj; unfold ser_bytes; now f_equal.
Qed.

Lemma result_injective n n' r r' : result_ok n r -> result_ok n' r' ->
  eval_response_to_json r = eval_response_to_json r' -> r = r'.
Proof.
  intros H H' E. unfold eval_response_to_json in E.
  pose proof (print_rfc8259 _ (proj1 (good_result n r H))) as R.
  pose proof (print_rfc8259 _ (proj1 (good_result n' r' H'))) as R0.
  rewrite E in R. pose proof (rfc8259_det _ _ _ R R0) as R'. clear R0.
  pose (at_ := fun (i : nat) (o : json) => match o with JObj m => match nth_error m i with Some (_, v) => v | None => JNull end | _ => JNull end).
  pose proof (f_equal (at_ 0%nat) R') as Hp. pose proof (f_equal (at_ 1%nat) R') as Hs.
  pose proof (f_equal (at_ 2%nat) R') as Ec. clear R R' E. unfold at_ in *. clear at_.
  change (ser_opt ser_pop (er_pop r) = ser_opt ser_pop (er_pop r')) in Hp.
  change (ser_opt JStr (er_subject_id r) = ser_opt JStr (er_subject_id r')) in Hs.
  change (ser_cfp (er_credential r) = ser_cfp (er_credential r')) in Ec.
  destruct r as [p s c], r' as [p' s' c']. destruct H as [_ H], H' as [_ H'].
  cbn [er_pop er_subject_id er_credential] in *. f_equal.
  - destruct p, p'; cbn [ser_opt] in Hp; [f_equal; now apply ser_pop_inj|discriminate Hp|discriminate Hp|reflexivity].
  - destruct s, s'; cbn [ser_opt] in Hs; [now injection Hs as ->|discriminate Hs|discriminate Hs|reflexivity].
  - pose proof (cfp_rt n c H) as A. pose proof (cfp_rt n' c' H') as B. rewrite Ec, B in A. now injection A.
Qed.

Lemma pre_result_written did : on_some rust_string did ->
  exists v, json_text (pre_eval_response_to_json did) v /\ compact v (pre_eval_response_to_json did)
    /\ v = JObj (match did with Some s => [(lit "did", JStr s)] | None => [] end).
Proof.
  intros H. apply (text_written 1 ser_pre_eval_response
    (fun v did => v = JObj (match did with Some s => [(lit "did", JStr s)] | None => [] end))); [now destruct did| |lia].
  apply jgood_obj. jfields. apply jgood_str. now apply H.
Qed.

(* ---------------- what evaluations look at ---------------- *)

Lemma display_validate_ok l : for_each display_validate l = Ok tt.
Proof.
  induction l as [|p l IH]; [reflexivity|]. cbn [for_each]. unfold display_validate at 1.
  destruct (dp_logo p); exact IH.
Qed.

Lemma supported_validate_ok l : for_each supported_validate l = Ok tt.
Proof.
  induction l as [|c l IH]; [reflexivity|]. cbn [for_each]. unfold supported_validate at 1. cbn [bind cfp_validate].
  destruct (sup_display c); [rewrite display_validate_ok|]; exact IH.
Qed.

Lemma ids_unique_ids l l' seen : map sup_id l = map sup_id l' -> ids_unique seen l = ids_unique seen l'.
Proof.
  revert l' seen. induction l as [|c l IH]; intros [|c' l'] seen H; try discriminate; [reflexivity|].
  cbn [map] in H. injection H as Hc Hl. cbn [ids_unique]. rewrite <- Hc.
  destruct (sup_id c) as [i|]; [destruct (mem_str i seen); [reflexivity|]|]; now apply IH.
Qed.

Lemma metadata_validate_ids m m' : same_issuer m m' -> metadata_validate m = metadata_validate m'.
Proof.
  intros [_ H]. unfold metadata_validate. now rewrite (ids_unique_ids _ _ [] H), !supported_validate_ok.
Qed.

Lemma none_iff_some {A B : Type} (o : option A) (o' : option B) : (o = None <-> o' = None) -> is_some o = is_some o'.
Proof. destruct o, o'; intros [H H']; try reflexivity; [now specialize (H' eq_refl)|now specialize (H eq_refl)]. Qed.

Lemma should_validate_flows options o o' : same_flows o o' ->
  should_validate_iss options o = should_validate_iss options o'.
Proof.
  intros [Ha Hp]. destruct options as [opts|]; [|reflexivity]. cbn [should_validate_iss].
  now rewrite (none_iff_some _ _ Ha), (none_iff_some _ _ Hp).
Qed.

Lemma bind_outcome {E A : Type} c (x : res E A) f f' : (forall a, same_outcome c (f a) (f' a)) ->
  same_outcome c (bind x f) (bind x f').
Proof. intros H. destruct x; cbn [bind]; [apply H|reflexivity|exact I]. Qed.

Lemma evaluation_looks_at d now m m' r r' o o' asm doc options :
  same_issuer m m' -> same_flows o o' -> same_token r r' ->
  same_outcome (cr_format r')
    (evaluate_credential_request d now m r (Some o) asm doc options)
    (evaluate_credential_request d now m' r' (Some o') asm doc options).
Proof.
  intros Hm Ho Hr. unfold evaluate_credential_request.
  rewrite (metadata_validate_ids m m' Hm). apply bind_outcome. intros _. cbn [ok_or bind offer_validate map_err].
  apply bind_outcome. intros _. apply bind_outcome. intros _.
  unfold same_token in Hr. destruct (cr_proof r) as [p|], (cr_proof r') as [p'|]; try discriminate; [|reflexivity].
  cbn [option_map] in Hr. injection Hr as Hr. rewrite Hr. apply bind_outcome. intros jwt.
  apply bind_outcome. intros _. apply bind_outcome. intros _.
  rewrite (should_validate_flows options o o' Ho). apply bind_outcome. intros _.
  destruct Hm as [Hi _]. rewrite Hi.
  apply bind_outcome. intros _. apply bind_outcome. intros ka. apply bind_outcome. intros sg.
  apply bind_outcome. intros ms. apply bind_outcome. intros did. reflexivity.
Qed.

Lemma pre_flow_looks_at options p p' g : pf_code p = pf_code p' ->
  (pf_user_pin_required p = Some true <-> pf_user_pin_required p' = Some true) ->
  validate_pre_authorized_code_flow options p g = validate_pre_authorized_code_flow options p' g.
Proof.
  intros Hc Hp. destruct g as [|c u]; [reflexivity|]. cbn [validate_pre_authorized_code_flow]. rewrite Hc.
  assert (match pf_user_pin_required p with Some b => b | None => false end
          = match pf_user_pin_required p' with Some b => b | None => false end) as ->; [|reflexivity].
  destruct Hp as [H H']. destruct (pf_user_pin_required p) as [[]|], (pf_user_pin_required p') as [[]|];
    try reflexivity; try (now specialize (H eq_refl)); now specialize (H' eq_refl).
Qed.

Lemma token_evaluation_looks_at r o o' options : same_grants o o' ->
  evaluate_access_token_request r (Some o) options = evaluate_access_token_request r (Some o') options.
Proof.
  intros [Ha Hp]. unfold evaluate_access_token_request. destruct (map_err _ _) as [[]|e|]; try reflexivity.
  cbn [bind]. destruct (tr_grant_type r) as [|c u]; [reflexivity|].
  destruct (og_pre (co_grants o)) as [p|], (og_pre (co_grants o')) as [p'|]; try contradiction.
  - destruct Hp as [Hc Hp]. rewrite (pre_flow_looks_at options p p' (GPreAuthorized c u) Hc Hp).
    destruct (og_auth (co_grants o)), (og_auth (co_grants o')); try reflexivity;
      destruct Ha as [H H']; [now specialize (H' eq_refl)|now specialize (H eq_refl)].
  - destruct (og_auth (co_grants o)), (og_auth (co_grants o')); try reflexivity;
      destruct Ha as [H H']; [now specialize (H' eq_refl)|now specialize (H eq_refl)].
Qed.
