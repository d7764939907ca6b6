(** Sequences of calls: complete runs and histories. Theorems only; proofs are in
    Proofs/SessionFacts.v, vocabulary in SpecSession.v. *)
From Coq Require Import Lia.
From Verif Require Import Model.Prelude Model.Base64 Model.Json Model.Types Model.Deps Model.Errors
  Model.Jwt Model.AccessToken Model.CredentialIssuer Model.Wire
  Spec SpecToken SpecOffer SpecJwt SpecEvaluation SpecResponse SpecSession
  Proofs.StrFacts Proofs.Utf8Facts Proofs.JsonFacts Proofs.Base64Bits Proofs.JwtFacts Proofs.OfferFacts
  Proofs.TokenFacts Proofs.EvalFacts Proofs.EvalFacts2 Proofs.EvalFacts3 Proofs.SessionFacts
  Proofs.OkTac Examples Properties.Offers Properties.Jwt Properties.Evaluation Properties.Responses.

(* ------------------------------------------------------------------ *)
(** * C77: a wallet that follows the protocol gets its credential. Primes mark
    what the other party reads. *)
Theorem C77_honest_run : forall d m creds ep g o url k,
  lower_case_facts d -> upper_case_facts d -> dt_round_trips d ->
  create_offer m creds ep None (Some g) = Ok (o, url) ->
  rust_string (im_credential_issuer m) -> Forall (credential_or_id_ok k) creds -> preauth_flow_ok g ->
  (k <= 122)%nat ->
  exists payload text o' g',
    url = offer_url_prefix ep ++ payload /\ percent_decoded payload text
    /\ offer_from_json text = Some o' /\ og_pre (co_grants o') = Some g'
    /\ forall pin opts, on_some u64 pin -> pin_length_ok pin -> grant_satisfied g (pf_code g) pin opts ->
    exists tr, token_request_from_json
                 (token_request_to_json {| tr_grant_type := GPreAuthorized (pf_code g') pin |}) = Some tr
    /\ evaluate_access_token_request tr (Some o) opts = Ok tt
    /\ forall t0 access ty ei sc nonce life ap iv,
      rust_string access -> on_some u32 ei -> on_some rust_string sc -> rust_string nonce -> u32 life ->
      on_some u32 iv -> representable (t0 + 1000000000 * Z.of_N life)%Z ->
    exists ts ts' n', create_access_token_success_response t0 access ty ei sc (Some nonce) (Some life) ap iv = Ok (ts, t0)
    /\ token_success_from_json (token_success_to_json ts) = Some ts' /\ ts_c_nonce ts' = Some n'
    /\ forall alg kid iss iat sig token u doc key bytes client c ptype i,
      rust_string kid -> on_some rust_string iss -> rust_string sig -> dotless sig ->
      in_instant_range iat = true ->
      compact_text d (wallet_proof alg kid (co_credential_issuer o') n' iss iat sig) sig token ->
      did_url_try_from d kid = inr u -> document_key d doc kid key -> public_key key bytes ->
      (forall x, client = Some x -> iss = Some x) ->
      ascii_ci ptype (lit "jwt") -> rust_string ptype -> cfp_ok i c -> (i <= 122)%nat ->
    exists r, credential_request_from_json (credential_request_to_json
        {| cr_format := c; cr_proof := Some {| rp_proof_type := ptype; rp_jwt := token |} |}) = Some r
    /\ pre_evaluate_credential_request d r = Ok (Some (du_did u))
    /\ forall t1, (t1 <= t0 + 1000000000 * Z.of_N life)%Z ->
    exists resp pop, evaluate_credential_request d t1 m r (Some o) None (Some doc)
        (Some {| eo_c_nonce := Some {| cno_expires_in := life; cno_expected := nonce; cno_created_at := t0 |};
                 eo_client_id := client |}) = Ok resp
    /\ er_subject_id resp = Some (du_did u) /\ er_credential resp = c /\ er_pop resp = Some pop
    /\ pop_algorithm pop = alg /\ pop_public_key pop = bytes
    /\ forall t2 issued_credential n2 q, cfp_ok q issued_credential -> (q <= 122)%nat ->
      on_some (fun n => rust_string (cn_c_nonce n) /\ on_some u32 (cn_expires_in n)) n2 ->
    exists cs cs' e, create_credential_success_response d t2 r (Some (CTCredential issued_credential)) n2 = Ok (cs, t2)
    /\ credential_success_from_json (credential_success_to_json cs) = Some cs'
    /\ cs_credential cs' = Some e /\ delivered e issued_credential.
Proof. exact honest_run. Qed.
Print Assumptions C77_honest_run.

(** The run of the examples: its premises hold. *)
Definition se_proof : proof_jwt :=
  wallet_proof EdDSA (lit "did:key:z6Mk#z6Mk") (lit "https://issuer.example") (lit "n1") (Some (lit "client"))
    1683000000000000000%Z (lit "c2ln").
Definition se_token : str := ev_token se_proof.
Definition se_url : str :=
  match create_offer ev_metadata [CredentialId (lit "Degree")] None None (Some ex_pre) with
  | Ok (_, u) => u
  | _ => []
  end.
Example C77_case :
  create_offer ev_metadata [CredentialId (lit "Degree")] None None (Some ex_pre) = Ok (ev_offer, se_url)
  /\ rust_string (im_credential_issuer ev_metadata) /\ Forall (credential_or_id_ok 0) [CredentialId (lit "Degree")]
  /\ preauth_flow_ok ex_pre /\ pin_length_ok None /\ grant_satisfied ex_pre (pf_code ex_pre) None None
  /\ representable (1683000000000000000 + 1000000000 * Z.of_N 300)%Z
  /\ compact_text example_deps se_proof (lit "c2ln") se_token
  /\ did_url_try_from example_deps (lit "did:key:z6Mk#z6Mk")
     = inr {| du_did := lit "did:key:z6Mk"; du_path := []; du_query := None; du_fragment := Some (lit "z6Mk") |}
  /\ document_key example_deps ev_document (lit "did:key:z6Mk#z6Mk") ev_key /\ public_key ev_key (lit "key bytes").
Proof.
  split; [vm_compute; reflexivity|].
  do 3 (split; [ok|]).
  split; [intros n k [=]|].
  split; [split; [reflexivity|split; [split; [intros []; reflexivity|discriminate]|discriminate]]|].
  split; [split; discriminate|].
  split.
  { eexists. eexists. split; [apply base64_text_url; reflexivity|]. split; [apply base64_text_url; reflexivity|].
    reflexivity. }
  split; [reflexivity|]. split; [|constructor; reflexivity].
  eexists. exists ev_key. split; [reflexivity|]. split; reflexivity.
Qed.

(** * C78 *)
Theorem C78_accepted_proofs_are_current : forall d h s before now token after,
  lower_case_facts d -> history d h s -> h = before ++ Accepted now token :: after ->
  exists t n l j, last_issue before t n l /\ proof_token d token j /\ b_nonce (j_body j) = n
    /\ (now <= t + 1000000000 * Z.of_N l)%Z.
Proof. exact accepted_current. Qed.
Print Assumptions C78_accepted_proofs_are_current.

(** A history: a nonce, a rejected request, the same proof twice, a second nonce,
    the old proof again, now rejected. *)
Definition se_time : instant := 1683000000000000000%Z.
Definition se_state (n : string) : option c_nonce_options :=
  Some {| cno_expires_in := 300; cno_expected := lit n; cno_created_at := se_time |}.
Definition se_events : list event :=
  [Redeemed (lit "1 2&3"); Issued se_time (lit "n1") 300; Other; Accepted ev_now (ev_token (ev_good EdDSA));
   Accepted ev_now (ev_token (ev_good EdDSA)); Issued se_time (lit "n2") 300; Redeemed (lit "1 2&3"); Other].

Lemma se_accept :
  session_step example_deps (se_state "n1") (Accepted ev_now (ev_token (ev_good EdDSA))) (se_state "n1").
Proof.
  exact (step_accept example_deps (se_state "n1") ev_now ev_metadata (ev_request ex_degree "jwt" (ev_good EdDSA))
    (Some ev_offer) None (Some ev_document) None
    (ev_answer EdDSA ex_degree (raw_text example_deps (ev_good EdDSA)) (ev_rest ++ lit ".c2ln"))
    {| rp_proof_type := lit "jwt"; rp_jwt := ev_token (ev_good EdDSA) |}
    (ev_accepted EdDSA ex_degree "jwt") eq_refl).
Qed.

Lemma se_history : history example_deps se_events (se_state "n2").
Proof.
  unfold se_events.
  change (history example_deps ((((((((([] ++ [Redeemed (lit "1 2&3")]) ++ [Issued se_time (lit "n1") 300]) ++ [Other])
    ++ [Accepted ev_now (ev_token (ev_good EdDSA))]) ++ [Accepted ev_now (ev_token (ev_good EdDSA))])
    ++ [Issued se_time (lit "n2") 300]) ++ [Redeemed (lit "1 2&3")]) ++ [Other])) (se_state "n2")).
  apply history_step with (se_state "n2").
  2: { apply step_reject with ev_now ev_metadata (ev_request ex_degree "jwt" (ev_good EdDSA)) (Some ev_offer) None
        (Some ev_document) None (IJwtError (JNonceMismatch (Some (lit "n2")) (lit "n1"))).
       rewrite (evaluate_at example_deps ev_now ev_metadata (ev_request ex_degree "jwt" (ev_good EdDSA)) ev_offer
         (Some ev_document) (Some {| eo_c_nonce := se_state "n2"; eo_client_id := None |})
         {| rp_proof_type := lit "jwt"; rp_jwt := ev_token (ev_good EdDSA) |} (ev_good EdDSA) eq_refl eq_refl eq_refl
         (ev_parses_signed EdDSA)).
       vm_compute. reflexivity. }
  apply history_step with (se_state "n2");
    [|apply step_redeem with None (Some ev_offer) None; vm_compute; reflexivity].
  apply history_step with (se_state "n1");
    [|eapply (step_credential example_deps _ se_time {| cr_format := ex_degree; cr_proof := None |} None
        (lit "n2") 300); vm_compute; reflexivity].
  do 2 (apply history_step with (se_state "n1");
    [|exact se_accept]).
  apply history_step with (se_state "n1");
    [|apply step_reject with ev_now ev_metadata {| cr_format := ex_degree; cr_proof := None |} (Some ev_offer) None
        (Some ev_document) None INoProofInCredentialRequest; vm_compute; reflexivity].
  apply history_step with None;
    [|eapply (step_token example_deps None se_time (lit "at") Bearer None None (lit "n1") 300 None None);
      vm_compute; reflexivity].
  apply history_step with None;
    [constructor|apply step_redeem with None (Some ev_offer) None; vm_compute; reflexivity].
Qed.

(** * C79 *)
Theorem C79_no_replay_after_a_new_nonce : forall d h s a t1 token b t2 c,
  lower_case_facts d -> history d h s ->
  h = a ++ Accepted t1 token :: b ++ Accepted t2 token :: c ->
  NoDup (nonces h) -> Forall (fun e => ~ is_issue e) b.
Proof. exact no_replay. Qed.
Print Assumptions C79_no_replay_after_a_new_nonce.

Example C79_case : nonces se_events = [lit "n1"; lit "n2"] /\ NoDup (nonces se_events)
  /\ se_events = [Redeemed (lit "1 2&3"); Issued se_time (lit "n1") 300; Other]
       ++ Accepted ev_now (ev_token (ev_good EdDSA)) :: [] ++ Accepted ev_now (ev_token (ev_good EdDSA))
       :: [Issued se_time (lit "n2") 300; Redeemed (lit "1 2&3"); Other].
Proof.
  split; [reflexivity|]. split; [|reflexivity].
  constructor; [intros [E|[]]; discriminate E|constructor; [intros []|constructor]].
Qed.

(** * C80 *)
Definition C80_claim : Prop := forall d h s a t1 token b t2 c,
  history d h s -> h <> a ++ Accepted t1 token :: b ++ Accepted t2 token :: c.
Theorem C80_proof_used_once_refuted : ~ C80_claim.
Proof. intros H. exact (H _ _ _ _ _ _ _ _ _ se_history (proj2 (proj2 C79_case))). Qed.
Print Assumptions C80_proof_used_once_refuted.

Definition C80_code_claim : Prop := forall d h s a code b c,
  history d h s -> h <> a ++ Redeemed code :: b ++ Redeemed code :: c.
Theorem C80_code_used_once_refuted : ~ C80_code_claim.
Proof.
  intros H. exact (H _ _ _ [] (lit "1 2&3")
    [Issued se_time (lit "n1") 300; Other; Accepted ev_now (ev_token (ev_good EdDSA));
     Accepted ev_now (ev_token (ev_good EdDSA)); Issued se_time (lit "n2") 300] [Other] se_history eq_refl).
Qed.
Print Assumptions C80_code_used_once_refuted.

(** What does hold: until the next issue, rejected and accepted requests in
    between change nothing. *)
Theorem C80_accepted_again_until_expiry : forall d h s b s' now now' m r offer asm doc client resp t n l,
  lower_case_facts d -> history d h s -> history d (h ++ b) s' -> Forall (fun e => ~ is_issue e) b ->
  evaluate_credential_request d now m r offer asm doc (Some {| eo_c_nonce := s; eo_client_id := client |}) = Ok resp ->
  last_issue h t n l -> (now' <= t + 1000000000 * Z.of_N l)%Z ->
  evaluate_credential_request d now' m r offer asm doc (Some {| eo_c_nonce := s'; eo_client_id := client |}) = Ok resp.
Proof. exact accepted_again. Qed.
Print Assumptions C80_accepted_again_until_expiry.

Example C80_case :
  history example_deps [Issued se_time (lit "n1") 300] (se_state "n1")
  /\ last_issue [Issued se_time (lit "n1") 300] se_time (lit "n1") 300
  /\ history example_deps ([Issued se_time (lit "n1") 300] ++ [Accepted ev_now (ev_token (ev_good EdDSA))]) (se_state "n1").
Proof.
  assert (history example_deps [Issued se_time (lit "n1") 300] (se_state "n1")) as H.
  { change (history example_deps ([] ++ [Issued se_time (lit "n1") 300]) (se_state "n1")).
    apply history_step with None; [constructor|].
    eapply (step_token example_deps None se_time (lit "at") Bearer None None (lit "n1") 300 None None);
      vm_compute; reflexivity. }
  split; [exact H|]. split; [exists [], []; split; [reflexivity|constructor]|].
  apply history_step with (se_state "n1"); [exact H|exact se_accept].
Qed.
