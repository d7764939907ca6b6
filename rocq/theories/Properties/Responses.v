(** Credential success responses, and independence of the iteration order of
    maps. Theorems only; proofs are in Proofs/ResponseFacts.v and
    Proofs/OrderFacts.v, vocabulary in SpecResponse.v. *)
From Coq Require Import Permutation.
From Verif Require Import Model.Prelude Model.Base64 Model.Percent Model.Json Model.Types Model.Deps Model.Errors
  Model.Jwt Model.AccessToken Model.CredentialIssuer Model.Wire
  Spec SpecToken SpecOffer SpecJwt SpecEvaluation SpecResponse SpecJson
  Proofs.StrFacts Proofs.Utf8Facts Proofs.JsonFacts Proofs.GrammarFacts Proofs.SpellingFacts Proofs.JwtFacts Proofs.OfferFacts
  Proofs.ResponseFacts Proofs.OrderFacts
  Proofs.OkTac Examples Properties.Offers Properties.Jwt Properties.Evaluation.

(** * C55 *)
Theorem C55_success_response_iff : forall d now r ct n resp t,
  lower_case_facts d -> upper_case_facts d -> on_some (fun p => rust_string (rp_proof_type p)) (cr_proof r) ->
  (create_credential_success_response d now r ct n = Ok (resp, t) <->
   valid_request d r /\ (exists f, format_of (cr_format r) f /\ cs_format resp = lit f)
   /\ payload_is ct resp /\ nonce_is n resp /\ t = now).
Proof. exact success_iff. Qed.
Print Assumptions C55_success_response_iff.

Theorem C55_success_response_errors : forall d now r ct n e,
  lower_case_facts d -> upper_case_facts d -> on_some (fun p => rust_string (rp_proof_type p)) (cr_proof r) ->
  (create_credential_success_response d now r ct n = Err e <-> request_error d r e).
Proof. exact success_err. Qed.
Print Assumptions C55_success_response_errors.

Theorem C55_never_both : forall d now r ct n resp t,
  create_credential_success_response d now r ct n = Ok (resp, t) ->
  (cs_credential resp <> None <-> exists c, ct = Some (CTCredential c))
  /\ (forall a, cs_acceptance_token resp = Some a <-> ct = Some (CTAcceptanceToken a))
  /\ ~ (cs_credential resp <> None /\ cs_acceptance_token resp <> None)
  /\ (cs_c_nonce_expires_in resp <> None -> cs_c_nonce resp <> None).
Proof. exact never_both. Qed.
Print Assumptions C55_never_both.

(** A response for a request with a proof, one for a request without, and a
    rejected request. *)
Definition re_response (c : cfp) (ct : option credential_or_token) (n : option c_nonce) :=
  create_credential_success_response example_deps ev_now {| cr_format := c; cr_proof := None |} ct n.
Definition re_nonce : c_nonce := {| cn_c_nonce := lit "n2"; cn_expires_in := Some 300 |}.

Example C55_cases :
  valid_request example_deps (ev_request ex_degree "jwt" (ev_good EdDSA))
  /\ re_response ex_degree (Some (CTAcceptanceToken (lit "later"))) (Some re_nonce)
     = Ok ({| cs_format := lit "jwt_vc_json"; cs_credential := None; cs_acceptance_token := Some (lit "later");
              cs_c_nonce := Some (lit "n2"); cs_c_nonce_expires_in := Some 300 |}, ev_now)
  /\ request_error example_deps (ev_request ex_degree "cwt" (ev_good EdDSA)) (IValidationError proof_type_error).
Proof.
  split; [|split; [reflexivity|]].
  - intros p E. injection E as <-. apply Forall_cons; [|apply Forall_cons; [|apply Forall_cons; [|constructor]]];
      cbn [passes rp_proof_type rp_jwt].
    + apply EvalFacts3.same_ascii_ci. reflexivity.
    + exists (ev_good EdDSA). exact (ev_token_good EdDSA).
    + exists (ev_good EdDSA). split; [exact (ev_token_good EdDSA)|]. apply EvalFacts3.same_ascii_ci. reflexivity.
  - exists {| rp_proof_type := lit "cwt"; rp_jwt := ev_token (ev_good EdDSA) |}. split; [reflexivity|].
    exists [], (hd (did_check example_deps {| rp_proof_type := []; rp_jwt := [] |})
                  (proof_checks example_deps {| rp_proof_type := lit "cwt"; rp_jwt := ev_token (ev_good EdDSA) |})),
      (tl (proof_checks example_deps {| rp_proof_type := lit "cwt"; rp_jwt := ev_token (ev_good EdDSA) |})).
    split; [reflexivity|]. split; [constructor|]. cbn [hd proof_checks reports rp_proof_type]. split; [|reflexivity].
    intros E. inversion E as [|? ? ? ? S _]; subst.
    destruct S as [S|[[S _]|[S _]]]; [discriminate|vm_compute in S; destruct S; congruence..].
Qed.

(** * C56 *)
Theorem C56_credential_recovered : forall d now r c n resp t k,
  create_credential_success_response d now r (Some (CTCredential c)) n = Ok (resp, t) -> cfp_ok k c ->
  (format_of c "ldp_vc" /\ cs_credential resp = Some (CFP c))
  \/ (~ format_of c "ldp_vc" /\ exists text bytes, cs_credential resp = Some (Encoded text)
      /\ base64_text url_alphabet false bytes text /\ cfp_from_json bytes = Some c).
Proof. exact response_recovered. Qed.
Print Assumptions C56_credential_recovered.

Example C56_case : exists resp, re_response ex_degree (Some (CTCredential ex_degree)) None = Ok (resp, ev_now)
  /\ cfp_ok 0 ex_degree
  /\ cs_credential resp = Some (Encoded (lit "eyJmb3JtYXQiOiJqd3RfdmNfanNvbiIsInR5cGVzIjpbIlZlcmlmaWFibGVDcmVkZW50aWFsIiwiVW5pdmVyc2l0eURlZ3JlZUNyZWRlbnRpYWwiXX0")).
Proof. eexists. split; [reflexivity|]. split; [ok|]. vm_compute. reflexivity. Qed.

(** * C57: false; the member names the format of the request *)
Definition C57_claim : Prop :=
  forall d now r c n resp t f,
  create_credential_success_response d now r (Some (CTCredential c)) n = Ok (resp, t) ->
  format_of c f -> cs_format resp = lit f.
Theorem C57_format_of_credential_refuted : ~ C57_claim.
Proof.
  intros H. specialize (H example_deps ev_now {| cr_format := ex_degree; cr_proof := None |} ex_license None _ _
    _ eq_refl ltac:(constructor)). discriminate.
Qed.
Print Assumptions C57_format_of_credential_refuted.

Theorem C57_holds_iff_formats_agree : forall d now r c n resp t f g,
  create_credential_success_response d now r (Some (CTCredential c)) n = Ok (resp, t) ->
  format_of (cr_format r) g -> format_of c f ->
  cs_format resp = lit g /\ (cs_format resp = lit f <-> f = g).
Proof. exact response_format. Qed.
Print Assumptions C57_holds_iff_formats_agree.

(** * C58: false; the member is a tagged object *)
Definition C58_claim : Prop :=
  forall d now r c n resp t k,
  create_credential_success_response d now r (Some (CTCredential c)) n = Ok (resp, t) ->
  cfp_ok k c -> (k <= 122)%nat ->
  exists m, json_text (credential_success_to_json resp) (JObj m)
    /\ ((~ format_of c "ldp_vc" /\ exists text, only_member m "credential" (JStr text))
        \/ (format_of c "ldp_vc" /\ exists v, cfp_from_json (print v) = Some c /\ only_member m "credential" v)).
Theorem C58_credential_member_exact : forall n r,
  credential_success_ok n r -> (n <= 122)%nat ->
  exists m, json_text (credential_success_to_json r) (JObj m)
    /\ only_member m "format" (JStr (cs_format r))
    /\ match cs_credential r with
       | None => only_member m "credential" JNull
       | Some (Encoded text) => only_member m "credential" (JObj [(lit "Encoded", JStr text)])
       | Some (CFP c) => exists v, cfp_from_json (print v) = Some c
                           /\ only_member m "credential" (JObj [(lit "CredentialFormatProfile", v)])
       end.
Proof. by_reader credential_member. Qed.
Print Assumptions C58_credential_member_exact.

Theorem C58_credential_member_refuted : ~ C58_claim.
Proof.
  intros H.
  destruct (H example_deps ev_now {| cr_format := ex_degree; cr_proof := None |} ex_degree None _ _ 0%nat eq_refl
              ltac:(ok) ltac:(apply Nat.le_0_l)) as (m & E & [(_ & text & M)|(F & _)]); [|inversion F].
  edestruct (C58_credential_member_exact 0%nat) as (m' & E' & _ & M'); [| |pose proof (unambiguous _ _ _ E E') as K; injection K as ->].
  3: { cbn [cs_credential] in M'. pose proof (only_member_det _ _ _ _ M M'). discriminate. }
  - ok.
  - apply Nat.le_0_l.
Qed.
Print Assumptions C58_credential_member_refuted.

(** * C59 *)
Theorem C59_success_response_round_trip : forall n r,
  credential_success_ok n r -> (n <= 122)%nat ->
  credential_success_from_json (credential_success_to_json r) = Some r.
Proof. exact credential_success_json_rt. Qed.
Print Assumptions C59_success_response_round_trip.

Example C59_case : credential_success_ok 0
  {| cs_format := lit "ldp_vc"; cs_credential := Some (CFP ex_license); cs_acceptance_token := None;
     cs_c_nonce := Some (lit "n"); cs_c_nonce_expires_in := Some 10 |}.
Proof. ok. Qed.

(** * C68 *)
Theorem C68_payloads_decode_to_equal_offers : forall n o1 o2,
  offer_ok n o1 -> offer_ok n o2 -> (n <= 122)%nat -> offer_eq o1 o2 ->
  exists s1 s2 t1 t2 p1 p2,
    offer_url_encode o1 = Ok s1 /\ offer_url_encode o2 = Ok s2
    /\ percent_decoded s1 t1 /\ percent_decoded s2 t2
    /\ offer_from_json t1 = Some p1 /\ offer_from_json t2 = Some p2 /\ offer_eq p1 p2.
Proof. exact payload_order. Qed.
Print Assumptions C68_payloads_decode_to_equal_offers.

Theorem C68_metadata_decisions : forall m1 m2,
  metadata_eq m1 m2 ->
  metadata_validate m1 = metadata_validate m2
  /\ (forall c1 c2, credential_or_id_eq c1 c2 -> same_outcome cfp_eq (resolve m1 c1) (resolve m2 c2))
  /\ (forall l1 l2, Forall2 credential_or_id_eq l1 l2 ->
        same_outcome (Forall2 cfp_eq) (resolve_all m1 l1) (resolve_all m2 l2))
  /\ (forall l1 l2 ep a p, Forall2 credential_or_id_eq l1 l2 ->
        same_outcome (fun x y => offer_eq (fst x) (fst y)) (create_offer m1 l1 ep a p) (create_offer m2 l2 ep a p)).
Proof. exact metadata_order. Qed.
Print Assumptions C68_metadata_decisions.

Theorem C68_token_request_decision : forall r o1 o2 opts,
  opt_rel offer_eq o1 o2 -> evaluate_access_token_request r o1 opts = evaluate_access_token_request r o2 opts.
Proof. exact token_request_order. Qed.
Print Assumptions C68_token_request_decision.

Theorem C68_request_decisions : forall d r1 r2,
  request_eq r1 r2 ->
  request_validate d r1 = request_validate d r2
  /\ pre_evaluate_credential_request d r1 = pre_evaluate_credential_request d r2
  /\ (forall now m1 m2 o1 o2 asm doc options, metadata_eq m1 m2 -> opt_rel offer_eq o1 o2 ->
        same_outcome eval_response_eq (evaluate_credential_request d now m1 r1 o1 asm doc options)
                                      (evaluate_credential_request d now m2 r2 o2 asm doc options))
  /\ (forall now ct1 ct2 nonce n, payload_eq ct1 ct2 ->
        (forall c, ct1 = Some (CTCredential c) -> cfp_ok n c) ->
        (forall c, ct2 = Some (CTCredential c) -> cfp_ok n c) ->
        same_outcome success_eq (create_credential_success_response d now r1 ct1 nonce)
                                (create_credential_success_response d now r2 ct2 nonce)).
Proof. exact request_decisions_order. Qed.
Print Assumptions C68_request_decisions.

(** Two orders of the same claims: different credentials, different encodings. *)
Definition re_subject : credential_subject := {| cs_mandatory := Some true; cs_value_type := None; cs_display := None |}.
Definition re_claims (swap : bool) : cfp :=
  let a := (lit "given_name", re_subject) in
  let b := (lit "last_name", {| cs_mandatory := None; cs_value_type := None; cs_display := None |}) in
  JwtVcJson [lit "T"] (Some (if swap then [b; a] else [a; b])) None.
Example C68_case : cfp_eq (re_claims false) (re_claims true) /\ re_claims false <> re_claims true
  /\ cfp_to_json (re_claims false) <> cfp_to_json (re_claims true)
  /\ cfp_ok 0 (re_claims false) /\ cfp_ok 0 (re_claims true).
Proof.
  split; [constructor; constructor; apply perm_swap|]. split; [intros E; vm_compute in E; discriminate|].
  split; [vm_compute; discriminate|]. split; ok.
Qed.
