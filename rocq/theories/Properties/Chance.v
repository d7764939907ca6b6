(** How likely it is to guess within a number of requests. Theorems only; proofs
    are in Proofs/ChanceFacts.v, vocabulary in SpecGuess.v and SpecChance.v. *)
From Coq Require Import Lia.
From Verif Require Import Model.Prelude Model.Json Model.Types Model.Deps Model.Errors Model.AccessToken
  Model.CredentialIssuer
  Spec SpecToken SpecOffer SpecJwt SpecEvaluation SpecSession SpecEvidence SpecGuess SpecProbe SpecChance
  Proofs.TokenFacts Proofs.ChanceFacts Examples Properties.AccessToken Properties.Evaluation.

(* ------------------------------------------------------------------ *)
(** * C136: a limit on the number of requests limits the chance to guess. The
    attacker, [a coin], may flip coins; [coins * N] cases are equally likely if
    there are [N] secrets. *)

(** Of any number of codes at most [k] are found with [k] requests, whatever the
    PIN and whether or not the attacker knows it. *)
Theorem C136_codes_found : forall o opts (a : nat -> attacker) coins k,
  at_most (coins * k) (lucky coins (fun coin c =>
    finds (fun _ r => evaluate_access_token_request r (Some (with_code c o)) opts) (a coin) k)).
Proof. exact codes_found. Qed.
Print Assumptions C136_codes_found.

(** Of any number of PINs at most [k], even by someone who knows the code. *)
Theorem C136_pins_found : forall o g (a : nat -> attacker) coins k,
  og_pre (co_grants o) = Some g -> pin_required g ->
  at_most (coins * k) (lucky coins (fun coin n =>
    finds (fun _ r => evaluate_access_token_request r (Some o) (expecting n)) (a coin) k)).
Proof. exact pins_found. Qed.
Print Assumptions C136_pins_found.

(** Of any number of pairs of a code and a PIN at most 1 + 2 + ... + [k] ... *)
Theorem C136_pairs_found : forall o g (a : nat -> attacker) coins k,
  og_pre (co_grants o) = Some g -> pin_required g ->
  at_most (coins * (k * (k + 1) / 2)) (lucky coins (fun coin s => finds (token_endpoint o s) (a coin) k)).
Proof. exact both_found. Qed.
Print Assumptions C136_pairs_found.

(** ... and one attacker finds that many, in every offer. *)
Theorem C136_pairs_found_exactly : forall pins codes k,
  Forall (fun p => pin_length_ok (Some p)) pins ->
  NoDup pins -> NoDup codes -> (k <= List.length pins)%nat -> (k <= List.length codes)%nat ->
  exists a : attacker, forall o g, og_pre (co_grants o) = Some g -> pin_required g ->
    exists secrets, NoDup secrets /\ List.length secrets = (k * (k + 1) / 2)%nat
      /\ forall s, In s secrets -> In (fst s) codes /\ In (snd s) pins /\ finds (token_endpoint o s) a k.
Proof. exact both_found_enough. Qed.
Print Assumptions C136_pairs_found_exactly.

(** If only the numbers of the errors are passed on and the offer has both grants,
    at most [k] of the pairs. *)
Theorem C136_pairs_found_by_numbers : forall o af g (a : nat -> list (res N unit) -> token_request) coins k,
  og_auth (co_grants o) = Some af -> og_pre (co_grants o) = Some g -> pin_required g ->
  at_most (coins * k) (lucky coins (fun coin s =>
    finds (fun i r => token_number_only (token_endpoint o s i r)) (a coin) k)).
Proof. exact numbers_found. Qed.
Print Assumptions C136_pairs_found_by_numbers.

(** At the credential endpoint, if only numbers are passed on, at most [k] of the
    nonces and at most [k] of the client ids. *)
Theorem C136_nonces_found_by_numbers :
  forall d clock m o doc options (w : nat -> list (res N unit) -> credential_request) coins k,
  lower_case_facts d ->
  at_most (coins * k) (lucky coins (fun coin e =>
    finds (issuer_shows number_only d clock m o doc (with_expected_nonce e options)) (w coin) k)).
Proof. exact nonces_found. Qed.
Print Assumptions C136_nonces_found_by_numbers.

Theorem C136_clients_found_by_numbers :
  forall d clock m o doc opts (w : nat -> list (res N unit) -> credential_request) coins k,
  lower_case_facts d ->
  at_most (coins * k) (lucky coins (fun coin c =>
    finds (issuer_shows number_only d clock m o doc (with_client_id c (Some opts))) (w coin) k)).
Proof. exact clients_found. Qed.
Print Assumptions C136_clients_found_by_numbers.

(** Three requests, a fair coin: at most 12 cases, and one attacker without a coin
    finds 6 of the 9 pairs of three codes and three PINs. *)
Example C136_three_requests :
  (forall a, at_most 12 (lucky 2 (fun coin s => finds (token_endpoint (ex_offer None) s) (a coin) 3)))
  /\ exists (a : attacker) secrets, NoDup secrets /\ List.length secrets = 6%nat
    /\ forall s, In s secrets -> In (fst s) [lit "a"; lit "b"; lit "c"] /\ In (snd s) [1234; 5678; 0]
                                /\ finds (token_endpoint (ex_offer None) s) a 3.
Proof.
  split.
  - intros a. exact (C136_pairs_found (ex_offer None) ex_grant a 2 3 eq_refl eq_refl).
  - destruct (C136_pairs_found_exactly [1234; 5678; 0] [lit "a"; lit "b"; lit "c"] 3) as [a H].
    + repeat (apply Forall_cons; [apply (pin_length_ok_validate []); vm_compute; reflexivity|]). apply Forall_nil.
    + repeat (apply NoDup_cons; [intros H; vm_compute in H; intuition discriminate|]). apply NoDup_nil.
    + repeat (apply NoDup_cons; [intros H; vm_compute in H; intuition discriminate|]). apply NoDup_nil.
    + cbn; lia.
    + cbn; lia.
    + exists a. exact (H (ex_offer None) ex_grant eq_refl eq_refl).
Qed.
