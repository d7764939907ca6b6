(** An issuer that serves many sessions at once, and one that is stopped and
    started again at any point. *)
From Verif Require Import Model.Prelude Model.Json Model.Types Model.Deps Model.AccessToken Model.CredentialIssuer Model.Wire Model.SerdeOptions
  Spec SpecOffer SpecJwt SpecEvaluation SpecSession.

(* ------------------------------------------------------------------ *)
(** * Many sessions, in any order *)

(** A trace: which session, and what is seen of it. *)
Definition trace : Type := list (N * event).

(** Each call is for one session: it uses what is stored for that session, and
    what is stored for the others stays. *)
Inductive server (d : deps) : trace -> (N -> option c_nonce_options) -> Prop :=
| server_start st : (forall k, st k = None) -> server d [] st
| server_step tr st k e st' :
    server d tr st -> session_step d (st k) e (st' k) -> (forall x, x <> k -> st' x = st x) ->
    server d (tr ++ [(k, e)]) st'.

(** What one session sees of a trace. *)
Fixpoint seen_by (k : N) (tr : trace) : list event :=
  match tr with
  | [] => []
  | (x, e) :: tr' => if x =? k then e :: seen_by k tr' else seen_by k tr'
  end.

(* ------------------------------------------------------------------ *)
(** * One session, with crashes *)

(** The caller stores the options of the next evaluation as JSON. After a restart
    it goes on with what it reads. *)
Inductive restart (d : deps) (s : option c_nonce_options) : option c_nonce_options -> Prop :=
| restart_read client o :
    on_some rust_string client ->
    eval_options_from_json d (eval_options_to_json d {| eo_c_nonce := s; eo_client_id := client |}) = Some o ->
    restart d s (eo_c_nonce o).

(** Restarts between any two calls. *)
Inductive restarted_history (d : deps) : list event -> option c_nonce_options -> Prop :=
| restarted_start : restarted_history d [] None
| restarted_step h e s s' : restarted_history d h s -> session_step d s e s' -> restarted_history d (h ++ [e]) s'
| restarted_restart h s s' : restarted_history d h s -> restart d s s' -> restarted_history d h s'.

(** Crashes at any point: also after a response was sent and before its nonce was
    stored. The session goes on with what had been stored before. The number is
    how often that happened. *)
Inductive crashing_history (d : deps) : list event -> option c_nonce_options -> nat -> Prop :=
| crashing_start : crashing_history d [] None 0
| crashing_step h e s s' k :
    crashing_history d h s k -> session_step d s e s' -> crashing_history d (h ++ [e]) s' k
| crashing_restart h s s' k : crashing_history d h s k -> restart d s s' -> crashing_history d h s' k
| crashing_lost h e s s' s'' k :
    crashing_history d h s k -> session_step d s e s' -> restart d s s'' ->
    crashing_history d (h ++ [e]) s'' (S k).

(** What the types of Rust guarantee: a nonce is a string, a lifetime an unsigned
    32-bit number, and chrono has the time. *)
Definition event_ok (e : event) : Prop :=
  match e with
  | Issued t n l => rust_string n /\ u32 l /\ in_instant_range t = true
  | _ => True
  end.

(* ------------------------------------------------------------------ *)
(** * Callers that make proofs and codes single-use *)

(** Between two acceptances a new nonce is issued. *)
Definition rotates (h : list event) : Prop :=
  forall a t1 token1 b t2 token2 c,
    h = a ++ Accepted t1 token1 :: b ++ Accepted t2 token2 :: c -> Exists is_issue b.

(** The tokens accepted in a history, in order. *)
Fixpoint accepted_tokens (h : list event) : list str :=
  match h with
  | [] => []
  | Accepted _ token :: h' => token :: accepted_tokens h'
  | _ :: h' => accepted_tokens h'
  end.

(** The pre-authorized codes of offers. *)
Definition code_of (o : credential_offer) : list str :=
  match og_pre (co_grants o) with Some g => [pf_code g] | None => [] end.
Definition codes_of (l : list credential_offer) : list str := flat_map code_of l.

(** A caller that keeps the offers it created, evaluates each token request
    against one of them, or against none if it finds none, and drops an offer when
    a request for it is accepted: created codes, accepted codes, offers kept. *)
Inductive till : list str -> list str -> list credential_offer -> Prop :=
| till_start : till [] [] []
| till_create created redeemed kept m creds ep a p o url :
    till created redeemed kept -> create_offer m creds ep a p = Ok (o, url) ->
    till (code_of o ++ created) redeemed (o :: kept)
| till_redeem created redeemed l o l' code pin opts :
    till created redeemed (l ++ o :: l') ->
    evaluate_access_token_request {| tr_grant_type := GPreAuthorized code pin |} (Some o) opts = Ok tt ->
    till created (code :: redeemed) (l ++ l')
| till_redeem_unknown created redeemed kept code pin opts :
    till created redeemed kept ->
    evaluate_access_token_request {| tr_grant_type := GPreAuthorized code pin |} None opts = Ok tt ->
    till created (code :: redeemed) kept
| till_reject created redeemed kept r offer opts e :
    till created redeemed kept -> evaluate_access_token_request r offer opts = Err e ->
    till created redeemed kept.

(** The same caller, with crashes: after creating an offer and before keeping it,
    and, as often as the number says, after accepting a request and before
    dropping the offer. *)
Inductive crashing_till : list str -> list str -> list credential_offer -> nat -> Prop :=
| ctill_start : crashing_till [] [] [] 0
| ctill_create created redeemed kept k m creds ep a p o url :
    crashing_till created redeemed kept k -> create_offer m creds ep a p = Ok (o, url) ->
    crashing_till (code_of o ++ created) redeemed (o :: kept) k
| ctill_create_lost created redeemed kept k m creds ep a p o url :
    crashing_till created redeemed kept k -> create_offer m creds ep a p = Ok (o, url) ->
    crashing_till (code_of o ++ created) redeemed kept k
| ctill_redeem created redeemed l o l' k code pin opts :
    crashing_till created redeemed (l ++ o :: l') k ->
    evaluate_access_token_request {| tr_grant_type := GPreAuthorized code pin |} (Some o) opts = Ok tt ->
    crashing_till created (code :: redeemed) (l ++ l') k
| ctill_redeem_lost created redeemed l o l' k code pin opts :
    crashing_till created redeemed (l ++ o :: l') k ->
    evaluate_access_token_request {| tr_grant_type := GPreAuthorized code pin |} (Some o) opts = Ok tt ->
    crashing_till created (code :: redeemed) (l ++ o :: l') (S k)
| ctill_reject created redeemed kept k r offer opts e :
    crashing_till created redeemed kept k -> evaluate_access_token_request r offer opts = Err e ->
    crashing_till created redeemed kept k.

(* ------------------------------------------------------------------ *)
(** * Proofs that an issuer takes *)

(** The token is a proof for the nonce: right type, nonce, audience and iss, a kid
    for which the document has a usable key, and signed. A dot in one of its
    documents does for a signature (C52). *)
Definition takes (d : deps) (m : issuer_metadata) (o : credential_offer) (doc : Document d)
    (client : option str) (nonce token : str) : Prop :=
  exists j kid k bytes,
    proof_token d token j
    /\ ascii_ci (h_typ (j_header j)) (lit "openid4vci-proof+jwt")
    /\ b_nonce (j_body j) = nonce
    /\ b_aud (j_body j) = im_credential_issuer m
    /\ match client with
       | Some c => b_iss (j_body j) = Some c
       | None => only_pre_authorized o \/ b_iss (j_body j) = None
       end
    /\ h_additional (j_header j) = Some (KeyId kid)
    /\ document_key d doc kid k /\ public_key k bytes
    /\ (j_signature j <> None
        \/ ~ (dotless (header_to_json (j_header j)) /\ dotless (claims_to_json d (j_body j)))).

(** What follows an issue: any number of times, a proof for the nonce in its
    lifetime, and a response with the next nonce. *)
Inductive fetches (d : deps) m o (doc : Document d) client : instant -> str -> N -> list event -> Prop :=
| fetches_none t n l : fetches d m o doc client t n l []
| fetches_more t n l now token t' n' l' rest :
    takes d m o doc client n token ->
    (now <= t + 1000000000 * Z.of_N l)%Z -> representable (t + 1000000000 * Z.of_N l)%Z ->
    fetches d m o doc client t' n' l' rest ->
    fetches d m o doc client t n l (Accepted now token :: Issued t' n' l' :: rest).
