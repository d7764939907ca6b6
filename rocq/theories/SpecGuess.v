(** Someone who sends token requests without knowing the code or the PIN. *)
From Verif Require Import Model.Prelude Model.Json Model.Types Model.Errors Model.AccessToken Spec SpecToken SpecEvidence.

(** Someone who chooses each request from the answers seen so far, and the answers
    they have seen after some number of requests, oldest first; [ask i] answers
    request number [i]. *)
Inductive talk {Q A : Type} (ask : nat -> Q -> A) (choose : list A -> Q) : list A -> Prop :=
| talk_start : talk ask choose []
| talk_next seen :
    talk ask choose seen -> talk ask choose (seen ++ [ask (List.length seen) (choose seen)]).

(** At none of the requests that led to these answers the secret was sent. *)
Definition silent {Q A S : Type} (sends : Q -> S -> Prop) (choose : list A -> Q) (s : S)
    (seen : list A) : Prop :=
  forall before x after, seen = before ++ x :: after -> ~ sends (choose before) s.

(** At the token endpoint. *)
Definition answer := res token_error unit.
Definition attacker := list answer -> token_request.
Definition dialogue (a : attacker) (offer : option credential_offer) (opts : option token_options)
  : list answer -> Prop :=
  talk (fun _ r => evaluate_access_token_request r offer opts) a.

Definition sends_code (r : token_request) (c : str) : Prop :=
  exists pin, tr_grant_type r = GPreAuthorized c pin.
Definition sends_pin (r : token_request) (n : N) : Prop :=
  exists c, tr_grant_type r = GPreAuthorized c (Some n).

(** The issuer expects this PIN. *)
Definition expecting (n : N) : option token_options := Some {| to_expected_user_pin := Some n |}.

(** The answer says that the PIN is wrong, alone or beside the other grant's error. *)
Definition says_wrong_pin (x : answer) : Prop :=
  exists e, x = Err e /\ pre_authorized_reason e = TUserPinMismatch.

(** Only whether the request was accepted, and the number of the error. *)
Definition token_number_only (x : answer) : res N unit :=
  match x with
  | Ok _ => Ok tt
  | Err e => Err (token_error_code_num e)
  | Panic => Panic
  end.

Definition sends_both (r : token_request) (s : str * N) : Prop :=
  tr_grant_type r = GPreAuthorized (fst s) (Some (snd s)).
