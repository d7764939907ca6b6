(** How many requests someone needs who knows neither the code nor the PIN.
    Theorems only; proofs are in Proofs/GuessFacts.v, vocabulary in SpecGuess.v. *)
From Coq Require Import Lia.
From Verif Require Import Model.Prelude Model.Json Model.Types Model.Errors Model.AccessToken
  Spec SpecToken SpecEvidence SpecGuess Proofs.StrFacts Proofs.TokenFacts Proofs.EvidenceFacts Proofs.GuessFacts
  Properties.AccessToken.

(* ------------------------------------------------------------------ *)
(** * C133: code and PIN have to be guessed together. False: the PIN is judged
    whatever the code. *)
Definition C133_claim : Prop := forall code pin o g n1 n2,
  og_pre (co_grants o) = Some g -> code <> pf_code g ->
  evaluate_access_token_request {| tr_grant_type := GPreAuthorized code pin |} (Some o) (expecting n1)
  = evaluate_access_token_request {| tr_grant_type := GPreAuthorized code pin |} (Some o) (expecting n2).

Theorem C133_wrong_code_hides_pin_refuted : ~ C133_claim.
Proof.
  intros H. specialize (H (lit "guess") (Some 1) (ex_offer None) ex_grant 1 2 eq_refl).
  assert (lit "guess" <> pf_code ex_grant) as N by (intros E; vm_compute in E; discriminate).
  specialize (H N). vm_compute in H. discriminate.
Qed.
Print Assumptions C133_wrong_code_hides_pin_refuted.

(** With any code the answer says exactly whether the PIN is right. *)
Theorem C133_pin_judged_with_any_code : forall code pin o g n,
  og_pre (co_grants o) = Some g -> pin_length_ok (Some pin) ->
  (says_wrong_pin (evaluate_access_token_request {| tr_grant_type := GPreAuthorized code (Some pin) |}
                     (Some o) (expecting n)) <-> pin <> n).
Proof. exact pin_judged. Qed.
Print Assumptions C133_pin_judged_with_any_code.

(** So the numbers of candidates add up instead of multiplying: one attacker,
    who knows only the candidates, succeeds against all of these offers. *)
Theorem C133_requests_enough : forall pins codes,
  Forall (fun p => pin_length_ok (Some p)) pins ->
  exists a, forall o g n,
    og_pre (co_grants o) = Some g -> pin_required g -> In n pins -> In (pf_code g) codes ->
    exists seen, dialogue a (Some o) (expecting n) (seen ++ [Ok tt])
      /\ (List.length (seen ++ [Ok (E := token_error) tt]) < List.length pins + List.length codes)%nat.
Proof. exact requests_enough. Qed.
Print Assumptions C133_requests_enough.

(** Apart from that nothing helps: until one of two codes (PINs) is sent, the
    answers to every attacker are the same for both. *)
Theorem C133_code_only_by_sending_it : forall a o c1 c2 opts seen,
  silent sends_code a c1 seen -> silent sends_code a c2 seen ->
  dialogue a (Some (with_code c1 o)) opts seen -> dialogue a (Some (with_code c2 o)) opts seen.
Proof. exact code_dialogue. Qed.
Print Assumptions C133_code_only_by_sending_it.

Theorem C133_pin_only_by_sending_it : forall a offer n1 n2 seen,
  silent sends_pin a n1 seen -> silent sends_pin a n2 seen ->
  dialogue a offer (expecting n1) seen -> dialogue a offer (expecting n2) seen.
Proof. exact pin_dialogue. Qed.
Print Assumptions C133_pin_only_by_sending_it.

(** Every attacker needs as many requests as there are codes, even knowing the
    PIN, and as many as there are PINs, even knowing the code. *)
Theorem C133_codes_needed : forall a o opts codes k, NoDup codes -> (k < List.length codes)%nat ->
  exists c, In c codes /\ forall seen, dialogue a (Some (with_code c o)) opts seen ->
    (List.length seen <= k)%nat -> ~ In (Ok tt) seen.
Proof. exact codes_unopened. Qed.
Print Assumptions C133_codes_needed.

Theorem C133_pins_needed : forall a o g pins k, og_pre (co_grants o) = Some g -> pin_required g ->
  NoDup pins -> (k < List.length pins)%nat ->
  exists n, In n pins /\ forall seen, dialogue a (Some o) (expecting n) seen ->
    (List.length seen <= k)%nat -> ~ In (Ok tt) seen.
Proof. exact pins_unopened. Qed.
Print Assumptions C133_pins_needed.

(** If only the numbers of the errors are passed on: with one grant the PIN is
    judged all the same, with both grants code and PIN have to be guessed together. *)
Theorem C133_number_judges_pin : forall code pin o g n,
  og_auth (co_grants o) = None -> og_pre (co_grants o) = Some g -> pin_length_ok (Some pin) ->
  (token_number_only (evaluate_access_token_request {| tr_grant_type := GPreAuthorized code (Some pin) |}
                        (Some o) (expecting n)) = Err 407 <-> pin <> n).
Proof. exact pin_number. Qed.
Print Assumptions C133_number_judges_pin.

Theorem C133_together_with_both_grants_partial : forall a o af g secrets k,
  og_auth (co_grants o) = Some af -> og_pre (co_grants o) = Some g -> pin_required g ->
  NoDup secrets -> (k < List.length secrets)%nat ->
  exists s, In s secrets /\ forall seen,
    talk (fun _ r => token_number_only
                       (evaluate_access_token_request r (Some (with_code (fst s) o)) (expecting (snd s)))) a seen ->
    (List.length seen <= k)%nat -> ~ In (Ok tt) seen.
Proof. exact both_unopened. Qed.
Print Assumptions C133_together_with_both_grants_partial.

(** Four pairs of two codes and two PINs: three requests are not enough. *)
Example C133_pairs : forall a, exists s, In s (list_prod [lit "a"; lit "b"] [1; 2]) /\ forall seen,
  talk (fun _ r => token_number_only (evaluate_access_token_request r
                     (Some (with_code (fst s) (ex_offer (Some {| af_issuer_state := None |})))) (expecting (snd s)))) a seen ->
  (List.length seen <= 3)%nat -> ~ In (Ok tt) seen.
Proof.
  intros a. apply (both_unopened a _ {| af_issuer_state := None |} ex_grant); try reflexivity; [|cbn; lia].
  cbn [list_prod map app].
  repeat (apply NoDup_cons; [intros H; vm_compute in H; intuition discriminate|]). apply NoDup_nil.
Qed.

(** Two wrong PINs, the right one with a wrong code, then the right code. *)
Definition gu_attacker : attacker :=
  one_by_one [1; 2; 493536; 4] [lit "guess"; lit "SplxlOBeZQQYbYS6WxSbIA"; lit "other"].
Example C133_found : exists seen,
  dialogue gu_attacker (Some (ex_offer None)) (expecting 493536) (seen ++ [Ok tt])
  /\ seen = [Err TUserPinMismatch; Err TUserPinMismatch; Err (TInvalidPreAuthorizedCodeFlowValues true false)].
Proof.
  eexists. split; [|reflexivity].
  pose proof (talk_start (fun _ r => evaluate_access_token_request r (Some (ex_offer None)) (expecting 493536))
    gu_attacker) as D.
  do 4 (apply talk_next in D; vm_compute in D; vm_compute in D).
  vm_compute. exact D.
Qed.
(** After those three requests neither the right code nor "other" has been sent. *)
Example C133_silent :
  silent sends_code gu_attacker (lit "other")
    [Err TUserPinMismatch; Err TUserPinMismatch; Err (TInvalidPreAuthorizedCodeFlowValues true false)]
  /\ sends_code (gu_attacker [Err TUserPinMismatch; Err TUserPinMismatch;
                              Err (TInvalidPreAuthorizedCodeFlowValues true false)]) (lit "SplxlOBeZQQYbYS6WxSbIA").
Proof.
  split.
  - intros b x t E [pin S]. assert (N : lit "guess" <> lit "other") by (intros H; vm_compute in H; discriminate).
    destruct b as [|x1 [|x2 [|x3 b]]]; [| | |exfalso]; try (injection E; intros; subst); try discriminate;
      try (apply N; cbn in S; congruence).
    destruct b; discriminate.
  - eexists. reflexivity.
Qed.
