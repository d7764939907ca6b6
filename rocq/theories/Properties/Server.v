(** Many sessions at once, and crashes. Theorems only; proofs are in
    Proofs/ServerFacts.v, vocabulary in SpecSession.v and SpecServer.v. *)
From Coq Require Import Permutation.
From Verif Require Import Model.Prelude Model.Json Model.Types Model.Deps Model.Jwt Model.AccessToken
  Model.CredentialIssuer Model.Wire Model.SerdeOptions
  Spec SpecOffer SpecJwt SpecEvaluation SpecDocuments SpecSession SpecServer
  Proofs.OkTac Proofs.OfferFacts Proofs.EvalFacts Proofs.EvalFacts2 Proofs.ServerFacts Proofs.JsonFacts Proofs.TimeFacts Examples Properties.Offers Properties.Evaluation Properties.Sessions.

(** * C100 *)

(** A trace of many sessions is possible exactly if what each session sees of it is. *)
Theorem C100_sessions_independent : forall d tr st,
  server d tr st <-> forall k, history d (seen_by k tr) (st k).
Proof. exact server_iff. Qed.
Print Assumptions C100_sessions_independent.

Theorem C100_accepted_in_one_session : forall d tr st k k' t t' token a b a' b',
  lower_case_facts d -> server d tr st -> NoDup (nonces (map snd tr)) ->
  tr = a ++ (k, Accepted t token) :: b -> tr = a' ++ (k', Accepted t' token) :: b' -> k = k'.
Proof. exact one_session. Qed.
Print Assumptions C100_accepted_in_one_session.

(** Two sessions get a nonce, the first one's proof is accepted, rejected for the
    other, and accepted again. *)
Definition sv_token : str := ev_token (ev_good EdDSA).
Definition sv_trace : trace :=
  [(1, Issued se_time (lit "n1") 300); (2, Issued se_time (lit "n2") 300); (1, Accepted ev_now sv_token);
   (2, Other); (1, Accepted ev_now sv_token)].
Definition sv_state (k : N) : option c_nonce_options :=
  if k =? 1 then se_state "n1" else if k =? 2 then se_state "n2" else None.

Lemma sv_issue s n : session_step example_deps s (Issued se_time (lit n) 300) (se_state n).
Proof.
  eapply (step_token example_deps s se_time (lit "at") Bearer None None (lit n) 300 None None). reflexivity.
Qed.
Lemma sv_reject : session_step example_deps (se_state "n2") Other (se_state "n2").
Proof.
  apply step_reject with ev_now ev_metadata (ev_request ex_degree "jwt" (ev_good EdDSA)) (Some ev_offer) None
    (Some ev_document) None (IJwtError (JNonceMismatch (Some (lit "n2")) (lit "n1"))).
  rewrite (Proofs.EvalFacts2.evaluate_at example_deps ev_now ev_metadata (ev_request ex_degree "jwt" (ev_good EdDSA)) ev_offer
    (Some ev_document) (Some {| eo_c_nonce := se_state "n2"; eo_client_id := None |})
    {| rp_proof_type := lit "jwt"; rp_jwt := ev_token (ev_good EdDSA) |} (ev_good EdDSA) eq_refl eq_refl eq_refl
    (ev_parses_signed EdDSA)).
  vm_compute. reflexivity.
Qed.
Example C100_case : server example_deps sv_trace sv_state /\ NoDup (nonces (map snd sv_trace)).
Proof.
  split.
  - apply C100_sessions_independent. intros k. unfold sv_trace, sv_state. cbn [seen_by].
    rewrite (N.eqb_sym k 1), (N.eqb_sym k 2).
    destruct (N.eqb_spec 1 k) as [<-|D1]; [|destruct (N.eqb_spec 2 k) as [<-|D2]; [|constructor]].
    + cbn [N.eqb Pos.eqb].
      apply (history_step _ [Issued se_time (lit "n1") 300; Accepted ev_now sv_token] _ (se_state "n1")); [|exact se_accept].
      apply (history_step _ [Issued se_time (lit "n1") 300] _ (se_state "n1")); [|exact se_accept].
      apply (history_step _ [] _ None); [constructor|apply sv_issue].
    + apply (history_step _ [Issued se_time (lit "n2") 300] _ (se_state "n2")); [|exact sv_reject].
      apply (history_step _ [] _ None); [constructor|apply sv_issue].
  - cbn [nonces map snd sv_trace]. constructor; [intros [E|[]]; discriminate E|constructor; [intros []|constructor]].
Qed.

(** * C101 *)

(** What is stored can always be read, and is what was stored. *)
Theorem C101_restart_always_possible : forall d h s k client,
  dt_round_trips d -> crashing_history d h s k -> Forall event_ok h -> on_some rust_string client ->
  eval_options_from_json d (eval_options_to_json d {| eo_c_nonce := s; eo_client_id := client |})
  = Some {| eo_c_nonce := s; eo_client_id := client |}.
Proof. exact restart_possible. Qed.
Print Assumptions C101_restart_always_possible.

(** Restarts between calls are invisible, so C78 to C80 hold with them too. *)
Theorem C101_restarts_invisible : forall d h s, dt_round_trips d -> Forall event_ok h ->
  (restarted_history d h s <-> history d h s).
Proof. exact restarts_invisible. Qed.
Print Assumptions C101_restarts_invisible.

(** A crash at any point, even one that loses a nonce that was sent: what is
    accepted is for a nonce that was issued, and in its lifetime. *)
Theorem C101_accepted_nonce_was_issued : forall d h s k before now token after,
  lower_case_facts d -> dt_round_trips d -> Forall event_ok h ->
  crashing_history d h s k -> h = before ++ Accepted now token :: after ->
  exists t n l j, In (Issued t n l) before /\ proof_token d token j /\ b_nonce (j_body j) = n
    /\ (now <= t + 1000000000 * Z.of_N l)%Z.
Proof. exact crashing_current. Qed.
Print Assumptions C101_accepted_nonce_was_issued.

(** A second nonce is lost in a crash: the proof for the first is accepted after
    it, which no history without a crash allows. *)
Definition sv_lost : list event :=
  [Issued se_time (lit "n1") 300; Issued se_time (lit "n2") 300; Accepted ev_now sv_token].
Example C101_case : crashing_history example_deps sv_lost (se_state "n1") 1 /\ Forall event_ok sv_lost
  /\ ~ exists s, history example_deps sv_lost s.
Proof.
  assert (event_ok (Issued se_time (lit "n1") 300) /\ event_ok (Issued se_time (lit "n2") 300)) as [O1 O2].
  { split; (split; [now apply rust_string_ascii|split; reflexivity]). }
  split; [|split].
  - apply (crashing_step _ [Issued se_time (lit "n1") 300; Issued se_time (lit "n2") 300] _ (se_state "n1")); [|exact se_accept].
    apply (crashing_lost _ [Issued se_time (lit "n1") 300] _ (se_state "n1") (se_state "n2") (se_state "n1")).
    + apply (crashing_step _ [] _ None); [constructor|apply sv_issue].
    + apply sv_issue.
    + apply restart_id; [exact example_dt_round_trips| |reflexivity].
      intros n E. injection E as <-. split; [reflexivity|]. split; [now apply rust_string_ascii|reflexivity].
  - constructor; [exact O1|]. constructor; [exact O2|]. constructor; [exact I|constructor].
  - intros (s & H).
    destruct (C78_accepted_proofs_are_current example_deps _ _ [Issued se_time (lit "n1") 300; Issued se_time (lit "n2") 300]
      ev_now sv_token [] example_lower_case_facts H eq_refl) as (t & n & l & j & L & P & E & _).
    pose proof (Proofs.EvalFacts.proof_token_det _ _ _ _ P (ev_token_good EdDSA)) as ->.
    destruct L as (b & a & Eb & F). destruct b as [|x [|y [|z b]]]; try discriminate Eb.
    + injection Eb as _ _ _ <-. inversion F as [|q u K _]; subst. apply K. repeat eexists.
    + injection Eb as _ _ En _. subst n. discriminate E.
Qed.

(** * C102: what C80 refutes holds for callers that issue a new nonce between two
    acceptances, and for callers that drop an offer when it is redeemed *)
Theorem C102_proofs_accepted_once : forall d h s,
  lower_case_facts d -> history d h s -> NoDup (nonces h) -> rotates h -> NoDup (accepted_tokens h).
Proof. exact proofs_once. Qed.
Print Assumptions C102_proofs_accepted_once.

Theorem C102_codes_redeemed_once : forall created redeemed kept, till created redeemed kept ->
  Permutation created (redeemed ++ codes_of kept) /\ (NoDup created -> NoDup redeemed).
Proof. exact codes_once. Qed.
Print Assumptions C102_codes_redeemed_once.

(** With crashes: every response whose nonce, and every accepted request whose
    offer, was lost in one costs at most one more use. *)
Theorem C102_proofs_once_per_loss : forall d h s k token,
  lower_case_facts d -> dt_round_trips d -> Forall event_ok h ->
  crashing_history d h s k -> NoDup (nonces h) -> rotates h ->
  (count_occ (list_eq_dec ascii_dec) (accepted_tokens h) token <= 1 + k)%nat.
Proof. exact proofs_per_loss. Qed.
Print Assumptions C102_proofs_once_per_loss.

Theorem C102_codes_once_per_loss : forall created redeemed kept k,
  crashing_till created redeemed kept k -> NoDup created ->
  forall code, (count_occ (list_eq_dec ascii_dec) redeemed code <= 1 + k)%nat.
Proof. exact codes_per_loss. Qed.
Print Assumptions C102_codes_once_per_loss.

(** A proof for a second nonce, and the history in which both are accepted. *)
Definition sv_second : proof_jwt :=
  wallet_proof EdDSA (lit "did:key:z6Mk#z6Mk") (lit "https://issuer.example") (lit "n2") None se_time (lit "c2ln").
Definition sv_rotating : list event :=
  [Issued se_time (lit "n1") 300; Accepted ev_now sv_token; Other; Issued se_time (lit "n2") 300;
   Accepted ev_now (ev_token sv_second)].
Lemma sv_second_parses : jwt_from_str example_deps (ev_token sv_second) = Ok sv_second.
Proof. ev_parses. Qed.
Lemma sv_plain s : session_step example_deps s Other s.
Proof. eapply (step_token_plain example_deps s se_time (lit "at") Bearer None None None None). reflexivity. Qed.
Example C102_case : history example_deps sv_rotating (se_state "n2") /\ NoDup (nonces sv_rotating)
  /\ rotates sv_rotating /\ accepted_tokens sv_rotating = [sv_token; ev_token sv_second].
Proof.
  split; [|split; [|split; [|reflexivity]]].
  - apply (history_step _ [Issued se_time (lit "n1") 300; Accepted ev_now sv_token; Other; Issued se_time (lit "n2") 300]
      _ (se_state "n2")).
    + apply (history_step _ [Issued se_time (lit "n1") 300; Accepted ev_now sv_token; Other] _ (se_state "n1")); [|apply sv_issue].
      apply (history_step _ [Issued se_time (lit "n1") 300; Accepted ev_now sv_token] _ (se_state "n1")); [|apply sv_plain].
      apply (history_step _ [Issued se_time (lit "n1") 300] _ (se_state "n1")); [|exact se_accept].
      apply (history_step _ [] _ None); [constructor|apply sv_issue].
    + eapply (step_accept example_deps (se_state "n2") ev_now ev_metadata (ev_request ex_degree "jwt" sv_second)
        (Some ev_offer) None (Some ev_document) None _ {| rp_proof_type := lit "jwt"; rp_jwt := ev_token sv_second |});
        [|reflexivity].
      rewrite (evaluate_at example_deps ev_now ev_metadata (ev_request ex_degree "jwt" sv_second) ev_offer
        (Some ev_document) (Some {| eo_c_nonce := se_state "n2"; eo_client_id := None |})
        {| rp_proof_type := lit "jwt"; rp_jwt := ev_token sv_second |} sv_second eq_refl eq_refl eq_refl sv_second_parses).
      vm_compute. reflexivity.
  - constructor; [intros [E|[]]; discriminate E|constructor; [intros []|constructor]].
  - intros a t1 k1 b t2 k2 c E. apply Exists_exists. exists (Issued se_time (lit "n2") 300).
    split; [|repeat eexists].
    destruct a as [|x1 [|x2 [|x3 [|x4 [|x5 a]]]]]; try discriminate E.
    + injection E as _ _ _ E. destruct b as [|y1 [|y2 [|y3 b]]]; try discriminate E.
      * injection E as _ <- _ _ _. right. now left.
      * injection E as _ _ _ E. destruct b; discriminate E.
    + injection E as _ _ _ _ _ _ E. destruct b; discriminate E.
    + injection E as _ _ _ _ _ E. destruct a; discriminate E.
Qed.

(** Two offers, one redeemed. *)
Example C102_till : exists o1 o2, till [lit "1 2&3"; lit "c2"] [lit "1 2&3"] [o2]
  /\ codes_of [o2] = [lit "c2"] /\ code_of o1 = [lit "1 2&3"].
Proof.
  set (g2 := {| pf_code := lit "c2"; pf_user_pin_required := None |}).
  destruct (create_offer ev_metadata [CredentialId (lit "Degree")] None None (Some ex_pre)) as [[o1 u1]|e|] eqn:E1;
    [|vm_compute in E1; discriminate E1..].
  destruct (create_offer ev_metadata [CredentialId (lit "Degree")] None None (Some g2)) as [[o2 u2]|e|] eqn:E2;
    [|vm_compute in E2; discriminate E2..].
  pose proof (till_create _ _ _ _ _ _ _ _ _ _ till_start E2) as T.
  pose proof (till_create _ _ _ _ _ _ _ _ _ _ T E1) as T1.
  apply create_offer_content in E1. destruct E1 as (_ & _ & A1 & P1).
  apply create_offer_content in E2. destruct E2 as (_ & _ & A2 & P2).
  exists o1, o2. unfold code_of, codes_of, flat_map in *. rewrite P1 in *. unfold code_of in *. rewrite P2 in *.
  split; [|split; reflexivity].
  apply (till_redeem _ _ [] o1 [o2] (lit "1 2&3") None None T1).
  apply Proofs.TokenFacts.evaluate_ok. apply SpecToken.token_accept with ex_pre; [intros n k [=]|exact P1|].
  split; [reflexivity|]. split; [|intros n [=]]. split; [intros H; now destruct H|discriminate].
Qed.

(** One loss, two uses: of a proof, and of a code. *)
Definition sv_twice : list event :=
  [Issued se_time (lit "n1") 300; Accepted ev_now sv_token; Issued se_time (lit "n2") 300; Accepted ev_now sv_token].
Example C102_lost_case : crashing_history example_deps sv_twice (se_state "n1") 1 /\ Forall event_ok sv_twice
  /\ NoDup (nonces sv_twice) /\ rotates sv_twice /\ accepted_tokens sv_twice = [sv_token; sv_token].
Proof.
  split; [|split; [|split; [|split; [|reflexivity]]]].
  - apply (crashing_step _ [Issued se_time (lit "n1") 300; Accepted ev_now sv_token; Issued se_time (lit "n2") 300]
      _ (se_state "n1")); [|exact se_accept].
    apply (crashing_lost _ [Issued se_time (lit "n1") 300; Accepted ev_now sv_token] _ (se_state "n1") (se_state "n2") (se_state "n1")).
    + apply (crashing_step _ [Issued se_time (lit "n1") 300] _ (se_state "n1")); [|exact se_accept].
      apply (crashing_step _ [] _ None); [constructor|apply sv_issue].
    + apply sv_issue.
    + apply restart_id; [exact example_dt_round_trips| |reflexivity].
      intros n E. injection E as <-. split; [reflexivity|]. split; [now apply rust_string_ascii|reflexivity].
  - constructor; [split; [now apply rust_string_ascii|split; reflexivity]|]. constructor; [exact I|].
    constructor; [split; [now apply rust_string_ascii|split; reflexivity]|]. constructor; [exact I|constructor].
  - constructor; [intros [E|[]]; discriminate E|constructor; [intros []|constructor]].
  - intros a t1 k1 b t2 k2 c E. apply Exists_exists. exists (Issued se_time (lit "n2") 300).
    split; [|repeat eexists].
    destruct a as [|x1 [|x2 [|x3 [|x4 a]]]]; try discriminate E.
    + injection E as _ _ _ E. destruct b as [|y1 [|y2 b]]; try discriminate E.
      * injection E as <- _ _ _. now left.
      * injection E as _ _ E. destruct b; discriminate E.
    + injection E as _ _ _ _ _ E. destruct b; discriminate E.
    + injection E as _ _ _ _ E. destruct a; discriminate E.
Qed.
Example C102_lost_till : exists o, crashing_till [lit "1 2&3"] [lit "1 2&3"; lit "1 2&3"] [] 1 /\ code_of o = [lit "1 2&3"].
Proof.
  destruct (create_offer ev_metadata [CredentialId (lit "Degree")] None None (Some ex_pre)) as [[o u]|e|] eqn:E;
    [|vm_compute in E; discriminate E..].
  pose proof (ctill_create _ _ _ _ _ _ _ _ _ _ _ ctill_start E) as T.
  apply create_offer_content in E. destruct E as (_ & _ & A & P).
  assert (code_of o = [lit "1 2&3"]) as C by (unfold code_of; now rewrite P).
  exists o. split; [|exact C]. rewrite C in T. cbn [app] in T.
  assert (evaluate_access_token_request {| tr_grant_type := GPreAuthorized (lit "1 2&3") None |} (Some o) None = Ok tt) as K.
  { apply Proofs.TokenFacts.evaluate_ok. apply SpecToken.token_accept with ex_pre; [intros n k [=]|exact P|].
    split; [reflexivity|]. split; [|intros n [=]]. split; [intros H; now destruct H|discriminate]. }
  apply (ctill_redeem _ _ [] o [] _ _ _ _ (ctill_redeem_lost _ _ [] o [] _ _ _ _ T K) K).
Qed.

(** * C103 *)

(** In a session, a proof is accepted exactly if it is one for the last nonce, in
    its lifetime; whatever else happened before. *)
Theorem C103_accepted_exactly : forall d h s t n l now m r o doc client,
  lower_case_facts d -> history d h s -> last_issue h t n l ->
  representable (t + 1000000000 * Z.of_N l)%Z -> ids_distinct (im_credentials_supported m) ->
  ((exists resp, evaluate_credential_request d now m r (Some o) None (Some doc)
       (Some {| eo_c_nonce := s; eo_client_id := client |}) = Ok resp)
   <-> (now <= t + 1000000000 * Z.of_N l)%Z
       /\ exists p, cr_proof r = Some p /\ takes d m o doc client n (rp_jwt p)).
Proof. exact session_accepts. Qed.
Print Assumptions C103_accepted_exactly.

Theorem C103_nothing_before_a_nonce : forall d h s now m r offer asm doc client resp,
  lower_case_facts d -> history d h s -> Forall (fun e => ~ is_issue e) h ->
  evaluate_credential_request d now m r offer asm doc (Some {| eo_c_nonce := s; eo_client_id := client |}) <> Ok resp.
Proof. exact nothing_before_a_nonce. Qed.
Print Assumptions C103_nothing_before_a_nonce.

(** So a wallet can go on for as long as it likes. *)
Theorem C103_any_number_of_credentials : forall d m o doc client t n l rest h s,
  lower_case_facts d -> ids_distinct (im_credentials_supported m) ->
  history d h s -> last_issue h t n l -> fetches d m o doc client t n l rest ->
  exists s', history d (h ++ rest) s'.
Proof. exact (fun d m o doc client t n l rest h s HL I H L F => fetch_any_number d m o doc client t n l rest HL I F h s H L). Qed.
Print Assumptions C103_any_number_of_credentials.

Lemma sv_takes_first : takes example_deps ev_metadata ev_offer ev_document None (lit "n1") sv_token.
Proof.
  exists (ev_good EdDSA), (lit "did:key:z6Mk#z6Mk"), ev_key, (lit "key bytes").
  split; [apply ev_token_good|]. split; [apply Proofs.EvalFacts3.same_ascii_ci; reflexivity|].
  do 2 (split; [reflexivity|]). split; [left; split; [discriminate|reflexivity]|]. split; [reflexivity|].
  split; [apply (proj1 C53_case)|]. split; [apply (proj1 (proj2 C53_case))|]. left. discriminate.
Qed.
Lemma sv_takes_second : takes example_deps ev_metadata ev_offer ev_document None (lit "n2") (ev_token sv_second).
Proof.
  exists sv_second, (lit "did:key:z6Mk#z6Mk"), ev_key, (lit "key bytes").
  split; [apply Proofs.EvalFacts.proof_token_iff, sv_second_parses|].
  split; [apply Proofs.EvalFacts3.same_ascii_ci; reflexivity|].
  do 2 (split; [reflexivity|]). split; [left; split; [discriminate|reflexivity]|]. split; [reflexivity|].
  split; [apply (proj1 C53_case)|]. split; [apply (proj1 (proj2 C53_case))|]. left. discriminate.
Qed.
Example C103_case : fetches example_deps ev_metadata ev_offer ev_document None se_time (lit "n1") 300
    [Accepted ev_now sv_token; Issued se_time (lit "n2") 300;
     Accepted ev_now (ev_token sv_second); Issued se_time (lit "n3") 300]
  /\ last_issue [Issued se_time (lit "n1") 300] se_time (lit "n1") 300
  /\ ids_distinct (im_credentials_supported ev_metadata).
Proof.
  split; [|split; [exists [], []; split; [reflexivity|constructor]|now apply metadata_validate_ok]].
  do 2 (constructor; [exact sv_takes_first || exact sv_takes_second|vm_compute; discriminate
    |split; vm_compute; discriminate|]). constructor.
Qed.
