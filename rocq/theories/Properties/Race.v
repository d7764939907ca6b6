(** C141: requests that are handled at the same time. Proofs are in
    Proofs/RaceFacts.v, vocabulary in SpecRace.v. *)
From Verif Require Import Model.Prelude Model.Json Model.Types Model.Deps Model.AccessToken Model.CredentialIssuer
  Spec SpecToken SpecJwt SpecEvaluation SpecRace
  Proofs.RaceFacts Examples Properties.AccessToken Properties.Offers Properties.Evaluation.

(* ------------------------------------------------------------------ *)
(** * C141 *)

(** The claim, for proofs: a caller that forgets a nonce after a request for it was
    accepted accepts each token once, however the requests overlap. *)
Definition C141_claim : Prop := forall d width h store busy,
  lower_case_facts d -> racing nonce_key (nonce_accepts d) ForgetAfter width h store busy ->
  NoDup (map nonce_key (given h)) -> NoDup (served h).

(** And for codes. *)
Definition C141_code_claim : Prop := forall width h store busy,
  racing offer_key offer_accepts ForgetAfter width h store busy ->
  NoDup (map offer_key (given h)) -> NoDup (served h).

Definition race_nonce : c_nonce_options :=
  {| cno_expires_in := 300; cno_expected := lit "n1"; cno_created_at := 1683000000000000000%Z |}.

Lemma race_accepts_by d now m c t token offer asm doc client resp n :
  evaluate_credential_request d now m {| cr_format := c; cr_proof := Some {| rp_proof_type := t; rp_jwt := token |} |}
    offer asm doc (Some {| eo_c_nonce := Some n; eo_client_id := client |}) = Ok resp -> nonce_accepts d n token.
Proof. intros H. do 9 eexists. split; [exact H|]. split; reflexivity. Qed.

Lemma race_accepts : nonce_accepts example_deps race_nonce (ev_token (ev_good EdDSA)).
Proof.
  pose proof (ev_accepted EdDSA ex_degree "jwt") as H. unfold ev_evaluate, ev_request, ev_options in H.
  revert H. generalize (ev_token (ev_good EdDSA)). intros token H. apply race_accepts_by in H. exact H.
Qed.

Lemma race_code_accepts : offer_accepts (ex_offer None) (lit "SplxlOBeZQQYbYS6WxSbIA").
Proof. exists (Some 493536), (ex_options 493536). reflexivity. Qed.

Lemma twice_not_once {T X} (t : T) (x : X) h : h = Given t :: repeat (Served t x) 2 -> ~ NoDup (served h).
Proof. intros -> N. inversion N as [|? ? M _]. apply M. now left. Qed.

Theorem C141_forgotten_afterwards_refuted : ~ C141_claim.
Proof.
  intros H.
  apply (twice_not_once race_nonce (ev_token (ev_good EdDSA)) _ eq_refl),
    (H _ _ _ _ _ example_lower_case_facts (forgotten_reached nonce_key _ 2 race_nonce _ race_accepts)).
  apply NoDup_cons; [intros []|apply NoDup_nil].
Qed.
Print Assumptions C141_forgotten_afterwards_refuted.

Theorem C141_codes_forgotten_afterwards_refuted : ~ C141_code_claim.
Proof.
  intros H.
  apply (twice_not_once (ex_offer None) (lit "SplxlOBeZQQYbYS6WxSbIA") _ eq_refl),
    (H _ _ _ _ (forgotten_reached offer_key _ 2 (ex_offer None) _ race_code_accepts)).
  apply NoDup_cons; [intros []|apply NoDup_nil].
Qed.
Print Assumptions C141_codes_forgotten_afterwards_refuted.

(** As often as requests are handled at the same time, and not more often: so once
    if they are handled one after another. *)
Theorem C141_as_often_as_at_the_same_time : forall d width h store busy token,
  lower_case_facts d -> racing nonce_key (nonce_accepts d) ForgetAfter width h store busy ->
  NoDup (map nonce_key (given h)) -> (count_occ (list_eq_dec ascii_dec) (served h) token <= width)%nat.
Proof. exact (fun d width h store busy token L R D =>
  served_width nonce_key (nonce_accepts d) (list_eq_dec ascii_dec) (nonce_fixed d L) width h store busy token R D). Qed.
Print Assumptions C141_as_often_as_at_the_same_time.

Theorem C141_codes_as_often_as_at_the_same_time : forall width h store busy code,
  racing offer_key offer_accepts ForgetAfter width h store busy ->
  NoDup (map offer_key (given h)) -> (count_occ (list_eq_dec ascii_dec) (served h) code <= width)%nat.
Proof. exact (fun width h store busy code R D =>
  served_width offer_key offer_accepts (list_eq_dec ascii_dec) offer_fixed width h store busy code R D). Qed.
Print Assumptions C141_codes_as_often_as_at_the_same_time.

Theorem C141_that_often_it_happens : forall d width n token, nonce_accepts d n token ->
  exists store, racing nonce_key (nonce_accepts d) ForgetAfter width (Given n :: repeat (Served n token) width) store [].
Proof. exact (fun d width n token V => ex_intro _ _ (forgotten_reached nonce_key (nonce_accepts d) width n token V)). Qed.
Print Assumptions C141_that_often_it_happens.

Theorem C141_codes_that_often_it_happens : forall width o code, offer_accepts o code ->
  exists store, racing offer_key offer_accepts ForgetAfter width (Given o :: repeat (Served o code) width) store [].
Proof. exact (fun width o code V => ex_intro _ _ (forgotten_reached offer_key offer_accepts width o code V)). Qed.
Print Assumptions C141_codes_that_often_it_happens.

(** If the nonce is taken first, or claimed last, each token is accepted once. *)
Theorem C141_once : forall d p width h store busy, p <> ForgetAfter ->
  lower_case_facts d -> racing nonce_key (nonce_accepts d) p width h store busy ->
  NoDup (map nonce_key (given h)) -> NoDup (served h).
Proof. exact (fun d p width h store busy P L R D =>
  served_once nonce_key (nonce_accepts d) (list_eq_dec ascii_dec) (nonce_fixed d L) p width h store busy P R D). Qed.
Print Assumptions C141_once.

Theorem C141_codes_once : forall p width h store busy, p <> ForgetAfter ->
  racing offer_key offer_accepts p width h store busy ->
  NoDup (map offer_key (given h)) -> NoDup (served h).
Proof. exact (fun p width h store busy P R D =>
  served_once offer_key offer_accepts (list_eq_dec ascii_dec) offer_fixed p width h store busy P R D). Qed.
Print Assumptions C141_codes_once.

(** Claimed last, what is seen is what is seen of a caller that handles one request
    after another. *)
Theorem C141_as_if_one_at_a_time : forall d width h store, (0 < width)%nat ->
  (exists busy, racing nonce_key (nonce_accepts d) ClaimLast width h store busy)
  <-> one_at_a_time nonce_key (nonce_accepts d) h store.
Proof. exact (fun d width h store W => conj
  (fun R => match R with ex_intro _ busy R => sequential nonce_key _ width h store busy R end)
  (fun O => ex_intro _ [] (sequential_racing nonce_key _ width h store W O))). Qed.
Print Assumptions C141_as_if_one_at_a_time.

Theorem C141_codes_as_if_one_at_a_time : forall width h store, (0 < width)%nat ->
  (exists busy, racing offer_key offer_accepts ClaimLast width h store busy)
  <-> one_at_a_time offer_key offer_accepts h store.
Proof. exact (fun width h store W => conj
  (fun R => match R with ex_intro _ busy R => sequential offer_key _ width h store busy R end)
  (fun O => ex_intro _ [] (sequential_racing offer_key _ width h store W O))). Qed.
Print Assumptions C141_codes_as_if_one_at_a_time.

(** And refused requests cost nothing: an unused nonce is still there, and whoever
    has an acceptable request can be served next. *)
Theorem C141_refusals_cost_nothing : forall d width h store busy n token,
  racing nonce_key (nonce_accepts d) ClaimLast width h store busy -> NoDup (map nonce_key (given h)) ->
  (List.length busy < width)%nat -> In (Given n) h -> (forall x, ~ In (Served n x) h) -> nonce_accepts d n token ->
  In n store
  /\ racing nonce_key (nonce_accepts d) ClaimLast width (h ++ [Served n token]) (without nonce_key (nonce_key n) store) busy.
Proof.
  intros d width h store busy n token R D W G N V. split.
  - exact (stays nonce_key _ ClaimLast width h store busy n ltac:(discriminate) R D G N).
  - exact (can_be_served nonce_key _ width h store busy n token R D W G N V).
Qed.
Print Assumptions C141_refusals_cost_nothing.

Theorem C141_codes_refusals_cost_nothing : forall width h store busy o code,
  racing offer_key offer_accepts ClaimLast width h store busy -> NoDup (map offer_key (given h)) ->
  (List.length busy < width)%nat -> In (Given o) h -> (forall x, ~ In (Served o x) h) -> offer_accepts o code ->
  In o store
  /\ racing offer_key offer_accepts ClaimLast width (h ++ [Served o code]) (without offer_key (offer_key o) store) busy.
Proof.
  intros width h store busy o code R D W G N V. split.
  - exact (stays offer_key _ ClaimLast width h store busy o ltac:(discriminate) R D G N).
  - exact (can_be_served offer_key _ width h store busy o code R D W G N V).
Qed.
Print Assumptions C141_codes_refusals_cost_nothing.

(** Not so if the nonce is taken first: one refused request, and it is gone. *)
Definition C141_kept_claim : Prop := forall d width h store busy n,
  racing nonce_key (nonce_accepts d) TakeFirst width h store busy -> NoDup (map nonce_key (given h)) ->
  In (Given n) h -> (forall x, ~ In (Served n x) h) -> In n store \/ In n busy.

Lemma taken_and_refused d : racing nonce_key (nonce_accepts d) TakeFirst 1 [Given race_nonce] [] [].
Proof.
  apply (race_end nonce_key _ TakeFirst 1 [Given race_nonce] [] [] race_nonce []).
  apply (race_read nonce_key _ TakeFirst 1 [Given race_nonce] [race_nonce] [] race_nonce); [|now left|auto].
  apply (race_give nonce_key _ TakeFirst 1 [] [] [] race_nonce). constructor.
Qed.

Theorem C141_taken_first_refuted : ~ C141_kept_claim.
Proof.
  intros H. destruct (H example_deps 1%nat _ _ _ race_nonce (taken_and_refused example_deps)) as [[]|[]].
  - apply NoDup_cons; [intros []|apply NoDup_nil].
  - now left.
  - intros x [E|[]]. discriminate.
Qed.
Print Assumptions C141_taken_first_refuted.

(** Hypotheses met: two requests with the same token overlap, both would be
    accepted, one is served. *)
Example C141_overlapping : lower_case_facts example_deps
  /\ racing nonce_key (nonce_accepts example_deps) ClaimLast 2
       [Given race_nonce; Served race_nonce (ev_token (ev_good EdDSA))] [] [race_nonce]
  /\ racing nonce_key (nonce_accepts example_deps) ClaimLast 2
       [Given race_nonce; Served race_nonce (ev_token (ev_good EdDSA))] [] [].
Proof.
  split; [exact example_lower_case_facts|].
  assert (R : racing nonce_key (nonce_accepts example_deps) ClaimLast 2
       [Given race_nonce; Served race_nonce (ev_token (ev_good EdDSA))] [] [race_nonce]).
  { apply (race_serve nonce_key _ ClaimLast 2 [Given race_nonce] [race_nonce] [] race_nonce [race_nonce]);
      [|exact race_accepts|now left].
    apply (race_read nonce_key _ ClaimLast 2 [Given race_nonce] [race_nonce] [race_nonce] race_nonce); [|now left|auto].
    apply (race_read nonce_key _ ClaimLast 2 [Given race_nonce] [race_nonce] [] race_nonce); [|now left|auto].
    apply (race_give nonce_key _ ClaimLast 2 [] [] [] race_nonce). constructor. }
  split; [exact R|]. exact (race_end nonce_key _ ClaimLast 2 _ [] [] race_nonce [] R).
Qed.
