(** C142: other spellings of a token. Proofs are in Proofs/RespellFacts.v, vocabulary
    in SpecRespell.v. *)
From Verif Require Import Model.Prelude Model.Json Model.Types Model.Deps Model.Jwt Model.CredentialIssuer
  Spec SpecJson SpecJwt SpecEvaluation SpecRespell
  Proofs.RespellFacts Examples Properties.Offers Properties.Evaluation Properties.Race.

(* ------------------------------------------------------------------ *)
(** * C142 *)

(** The claim: a caller that accepts no token text twice gets no evidence twice. *)
Definition C142_claim : Prop := forall d n h,
  lower_case_facts d -> remembering its_text d n h -> NoDup (map (fun x => er_pop (snd x)) h).

(** Every token that is read has as many other spellings as wanted. *)
Theorem C142_other_spellings : forall d token j, proof_token d token j ->
  forall k, exists l, List.length l = k /\ NoDup l /\ Forall (respelled token) l.
Proof. exact many_respelled. Qed.
Print Assumptions C142_other_spellings.

(** They are different texts, what RFC 7515 has signed is different, and they are
    read as the same proof. *)
Theorem C142_read_as_the_same : forall d token t j, proof_token d token j -> respelled token t -> proof_token d t j.
Proof. exact respelled_token. Qed.
Print Assumptions C142_read_as_the_same.

Theorem C142_different_texts : forall token t i i', respelled token t ->
  signing_input token i -> signing_input t i' -> i <> i' /\ token <> t.
Proof. exact respelled_signing_input. Qed.
Print Assumptions C142_different_texts.

(** No call tells them apart. *)
Theorem C142_same_outcome : forall d now m r offer asm doc options p t, cr_proof r = Some p ->
  (exists j, proof_token d (rp_jwt p) j) -> respelled (rp_jwt p) t ->
  evaluate_credential_request d now m (with_token t r) offer asm doc options
  = evaluate_credential_request d now m r offer asm doc options
  /\ pre_evaluate_credential_request d (with_token t r) = pre_evaluate_credential_request d r
  /\ forall ct n, create_credential_success_response d now (with_token t r) ct n
       = create_credential_success_response d now r ct n.
Proof. exact same_outcome. Qed.
Print Assumptions C142_same_outcome.

(** So whatever is accepted once is accepted as often as wanted, with the same result. *)
Theorem C142_as_often_as_wanted : forall d now m r offer asm doc n client resp p,
  lower_case_facts d -> cr_proof r = Some p ->
  evaluate_credential_request d now m r offer asm doc (Some {| eo_c_nonce := Some n; eo_client_id := client |}) = Ok resp ->
  forall k, exists h, remembering its_text d n h /\ List.length h = k /\ Forall (fun x => snd x = resp) h.
Proof. exact accepted_again. Qed.
Print Assumptions C142_as_often_as_wanted.

Lemma respell_twice d now m c t token offer asm doc client resp n : lower_case_facts d ->
  evaluate_credential_request d now m {| cr_format := c; cr_proof := Some {| rp_proof_type := t; rp_jwt := token |} |}
    offer asm doc (Some {| eo_c_nonce := Some n; eo_client_id := client |}) = Ok resp ->
  exists h, remembering its_text d n h /\ ~ NoDup (map (fun x => er_pop (snd x)) h).
Proof.
  intros L E. destruct (accepted_again d now m {| cr_format := c; cr_proof := Some {| rp_proof_type := t; rp_jwt := token |} |} offer asm doc n client resp {| rp_proof_type := t; rp_jwt := token |} L eq_refl E 2) as (h & R & N & F).
  exists h. split; [exact R|]. destruct h as [|[t1 x1] [|[t2 x2] [|]]]; try discriminate.
  inversion F as [|? ? F1 F2]; subst. inversion F2 as [|? ? F3 _]; subst. cbn in *. subst.
  intros D. inversion D as [|? ? M _]. apply M. now left.
Qed.

Lemma respell_example : exists h, remembering its_text example_deps race_nonce h /\ ~ NoDup (map (fun x => er_pop (snd x)) h).
Proof.
  pose proof (ev_accepted EdDSA ex_degree "jwt") as H. unfold ev_evaluate, ev_request, ev_options in H.
  revert H. generalize (ev_token (ev_good EdDSA)). intros token H.
  apply (respell_twice _ _ _ _ _ _ _ _ _ _ _ _ example_lower_case_facts) in H. exact H.
Qed.

Theorem C142_texts_remembered_refuted : ~ C142_claim.
Proof.
  intros H. destruct respell_example as (h & R & N). exact (N (H _ _ _ example_lower_case_facts R)).
Qed.
Print Assumptions C142_texts_remembered_refuted.

(** What works: remembering messages. No two accepted tokens are read as the same
    proof, so none is a spelling of another. *)
Theorem C142_messages_remembered : forall d n h, remembering its_message d n h ->
  forall a t1 x1 b t2 x2 c j1 j2, h = a ++ (t1, x1) :: b ++ (t2, x2) :: c ->
    proof_token d t1 j1 -> proof_token d t2 j2 -> j1 <> j2.
Proof. exact messages_tell. Qed.
Print Assumptions C142_messages_remembered.

Theorem C142_spellings_caught : forall d n h, lower_case_facts d -> remembering its_message d n h ->
  forall a t1 x1 b t2 x2 c, h = a ++ (t1, x1) :: b ++ (t2, x2) :: c ->
    t1 <> t2 /\ ~ respelled t1 t2 /\ ~ respelled t2 t1.
Proof. exact messages_catch. Qed.
Print Assumptions C142_spellings_caught.

(** Hypotheses met: the accepted token of the examples has other spellings, and they
    are accepted. *)
Example C142_spelled : exists t, respelled (ev_token (ev_good EdDSA)) t
  /\ proof_token example_deps t (ev_good EdDSA).
Proof.
  destruct (many_respelled _ _ _ (ev_token_good EdDSA) 1) as (l & N & _ & F).
  destruct l as [|t l]; [discriminate|]. inversion F as [|? ? S _]; subst.
  exists t. split; [exact S|]. exact (respelled_token _ _ _ _ (ev_token_good EdDSA) S).
Qed.

(** And a caller that remembers messages accepts two proofs. *)
Lemma respell_next d h now m c t token offer asm doc client resp n : remembering its_message d n h ->
  evaluate_credential_request d now m {| cr_format := c; cr_proof := Some {| rp_proof_type := t; rp_jwt := token |} |}
    offer asm doc (Some {| eo_c_nonce := Some n; eo_client_id := client |}) = Ok resp ->
  ~ In (option_map pop_message (er_pop resp)) (map (fun x => option_map pop_message (er_pop (snd x))) h) ->
  remembering its_message d n ((token, resp) :: h).
Proof.
  intros R E N.
  exact (remembering_accept its_message d n h now m {| cr_format := c; cr_proof := Some {| rp_proof_type := t; rp_jwt := token |} |} offer asm doc client resp {| rp_proof_type := t; rp_jwt := token |} R eq_refl E N).
Qed.

Lemma respell_step alg h :
  remembering its_message example_deps race_nonce h ->
  ~ In (Some (raw_text example_deps (ev_good alg))) (map (fun x => option_map pop_message (er_pop (snd x))) h) ->
  remembering its_message example_deps race_nonce
    ((ev_token (ev_good alg), ev_answer alg ex_degree (raw_text example_deps (ev_good alg)) (ev_rest ++ lit ".c2ln")) :: h).
Proof.
  intros R. pose proof (ev_accepted alg ex_degree "jwt") as H. unfold ev_evaluate, ev_request, ev_options in H.
  revert H. generalize (ev_token (ev_good alg)), (raw_text example_deps (ev_good alg)), (ev_rest ++ lit ".c2ln").
  intros token msg sg H N. exact (respell_next _ _ _ _ _ _ _ _ _ _ _ _ _ R H N).
Qed.

Lemma respell_messages_differ : raw_text example_deps (ev_good EdDSA) <> raw_text example_deps (ev_good ES256K).
Proof. intros H. apply (f_equal (@List.length _)) in H. vm_compute in H. discriminate. Qed.

Example C142_remembered : exists x1 x2, remembering its_message example_deps race_nonce
  [(ev_token (ev_good EdDSA), x1); (ev_token (ev_good ES256K), x2)].
Proof.
  eexists. eexists. apply respell_step.
  - apply respell_step; [constructor|intros []].
  - intros [E|[]]. cbn [snd ev_answer er_pop option_map pop_message] in E. revert E. generalize respell_messages_differ.
    generalize (raw_text example_deps (ev_good EdDSA)) (raw_text example_deps (ev_good ES256K)). intros a b N E.
    apply N. injection E as E. now symmetry.
Qed.
