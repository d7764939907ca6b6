(** Callers that handle several requests at the same time: what is stored is read,
    the request is evaluated, and what is stored is changed, with the steps of
    other requests in between. *)
From Verif Require Import Model.Prelude Model.Json Model.Types Model.Deps Model.AccessToken Model.CredentialIssuer Spec.

(** When the caller takes something that may be used once out of its store. *)
Inductive policy : Type :=
| ForgetAfter  (* after the request was accepted, in a step of its own *)
| TakeFirst    (* when it is read, before the request is evaluated *)
| ClaimLast.   (* after evaluation, and the request is served only if it was still there *)

(** What is seen: something was given out; it was used with [x]. *)
Inductive use (T X : Type) : Type :=
| Given (t : T)
| Served (t : T) (x : X).
Arguments Given {T X} t.
Arguments Served {T X} t x.

Fixpoint given {T X} (h : list (use T X)) : list T :=
  match h with [] => [] | Given t :: h' => t :: given h' | Served _ _ :: h' => given h' end.
Fixpoint served {T X} (h : list (use T X)) : list X :=
  match h with [] => [] | Given _ :: h' => served h' | Served _ x :: h' => x :: served h' end.

(** The store without what has the name [k]. *)
Definition without {T} (key : T -> str) (k : str) (store : list T) : list T :=
  filter (fun t => if list_eq_dec ascii_dec (key t) k then false else true) store.

(** Any number of requests, at most [width] of them in progress at a time. A state
    is the store and, for each request in progress, what was read for it. The
    library's verdict is [accepts]. *)
Inductive racing {T X} (key : T -> str) (accepts : T -> X -> Prop) (p : policy) (width : nat)
  : list (use T X) -> list T -> list T -> Prop :=
| race_start : racing key accepts p width [] [] []
| race_give h store busy t :
    racing key accepts p width h store busy -> racing key accepts p width (h ++ [Given t]) (t :: store) busy
| race_read h store busy t :
    racing key accepts p width h store busy -> In t store -> (List.length busy < width)%nat ->
    racing key accepts p width h
      match p with TakeFirst => without key (key t) store | _ => store end (t :: busy)
| race_serve h store before t after x :
    racing key accepts p width h store (before ++ t :: after) -> accepts t x -> (p = ClaimLast -> In t store) ->
    racing key accepts p width (h ++ [Served t x]) (without key (key t) store) (before ++ after)
| race_end h store before t after : (* refused, or stopped *)
    racing key accepts p width h store (before ++ t :: after) -> racing key accepts p width h store (before ++ after).

(** The same caller handling one request after another. *)
Inductive one_at_a_time {T X} (key : T -> str) (accepts : T -> X -> Prop) : list (use T X) -> list T -> Prop :=
| one_start : one_at_a_time key accepts [] []
| one_give h store t : one_at_a_time key accepts h store -> one_at_a_time key accepts (h ++ [Given t]) (t :: store)
| one_serve h store t x :
    one_at_a_time key accepts h store -> In t store -> accepts t x ->
    one_at_a_time key accepts (h ++ [Served t x]) (without key (key t) store).

(** Proofs: what is stored are nonces, what is presented are tokens. Metadata,
    offer, document, client and clock may be different each time. *)
Definition nonce_key (n : c_nonce_options) : str := cno_expected n.
Definition nonce_accepts (d : deps) (n : c_nonce_options) (token : str) : Prop :=
  exists now m r offer asm doc client resp p,
    evaluate_credential_request d now m r offer asm doc (Some {| eo_c_nonce := Some n; eo_client_id := client |}) = Ok resp
    /\ cr_proof r = Some p /\ rp_jwt p = token.

(** Codes: what is stored are offers. *)
Definition offer_key (o : credential_offer) : str :=
  match og_pre (co_grants o) with Some g => pf_code g | None => [] end.
Definition offer_accepts (o : credential_offer) (code : str) : Prop :=
  exists pin opts,
    evaluate_access_token_request {| tr_grant_type := GPreAuthorized code pin |} (Some o) opts = Ok tt.
