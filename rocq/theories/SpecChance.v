(** How many of the possible secrets someone finds within a number of requests. *)
From Verif Require Import Model.Prelude Model.Types Model.Errors Model.AccessToken
  Spec SpecToken SpecEvidence SpecGuess.

(** One of the first [k] requests is accepted. *)
Definition finds {Q E : Type} (ask : nat -> Q -> res E unit) (choose : list (res E unit) -> Q) (k : nat) : Prop :=
  exists seen, talk ask choose seen /\ (List.length seen <= k)%nat /\ In (Ok tt) seen.

(** No more than [n] values have the property. *)
Definition at_most {S : Type} (n : nat) (P : S -> Prop) : Prop :=
  forall values, NoDup values -> (forall s, In s values -> P s) -> (List.length values <= n)%nat.

(** The cases, among those of [coins] equally likely coins and the possible
    secrets, in which someone who flips coins finds the secret. *)
Definition lucky {S : Type} (coins : nat) (won : nat -> S -> Prop) (case : nat * S) : Prop :=
  (fst case < coins)%nat /\ won (fst case) (snd case).

(** Token requests to an offer with this code and PIN. *)
Definition token_endpoint (o : credential_offer) (s : str * N) (_ : nat) (r : token_request) : answer :=
  evaluate_access_token_request r (Some (with_code (fst s) o)) (expecting (snd s)).
