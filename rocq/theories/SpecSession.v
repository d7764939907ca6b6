(** Sequences of calls: an issuer that passes to each evaluation the nonce of the
    last response it sent, and the messages of a complete run. *)
From Verif Require Import Model.Prelude Model.Json Model.Types Model.Deps Model.Jwt Model.AccessToken
  Model.CredentialIssuer Model.Wire Spec SpecToken SpecOffer SpecJwt SpecEvaluation SpecResponse.

(* ------------------------------------------------------------------ *)
(** * Histories of one session *)

(** What an observer sees: a response that carries a nonce, a proof token that is
    accepted, a pre-authorized code that is accepted, and everything else. *)
Inductive event : Type :=
| Issued (at_time : instant) (nonce : str) (lifetime : N)
| Accepted (at_time : instant) (token : str)
| Redeemed (code : str)
| Other.

(** The caller keeps the nonce, its lifetime and the timestamp returned with the
    response, as [EvaluateCredentialRequestOptions] asks for, and passes them to
    every evaluation. Metadata, offer, client, document and clock may differ from
    call to call. *)
Inductive session_step (d : deps) : option c_nonce_options -> event -> option c_nonce_options -> Prop :=
| step_token s now access ty ei sc n life ap iv resp t :
    create_access_token_success_response now access ty ei sc (Some n) (Some life) ap iv = Ok (resp, t) ->
    session_step d s (Issued now n life)
      (Some {| cno_expires_in := life; cno_expected := n; cno_created_at := t |})
| step_token_plain s now access ty ei sc ap iv resp t :
    create_access_token_success_response now access ty ei sc None None ap iv = Ok (resp, t) ->
    session_step d s Other s
| step_credential s now r ct n life resp t :
    create_credential_success_response d now r ct (Some {| cn_c_nonce := n; cn_expires_in := Some life |})
      = Ok (resp, t) ->
    session_step d s (Issued now n life)
      (Some {| cno_expires_in := life; cno_expected := n; cno_created_at := t |})
| step_credential_plain s now r ct resp t :
    create_credential_success_response d now r ct None = Ok (resp, t) ->
    session_step d s Other s
| step_accept s now m r offer asm doc client resp p :
    evaluate_credential_request d now m r offer asm doc
      (Some {| eo_c_nonce := s; eo_client_id := client |}) = Ok resp ->
    cr_proof r = Some p ->
    session_step d s (Accepted now (rp_jwt p)) s
| step_reject s now m r offer asm doc client e :
    evaluate_credential_request d now m r offer asm doc
      (Some {| eo_c_nonce := s; eo_client_id := client |}) = Err e ->
    session_step d s Other s
| step_redeem s code pin offer opts :
    evaluate_access_token_request {| tr_grant_type := GPreAuthorized code pin |} offer opts = Ok tt ->
    session_step d s (Redeemed code) s
| step_redeem_reject s r offer opts e :
    evaluate_access_token_request r offer opts = Err e -> session_step d s Other s.

(** Histories start without a nonce. *)
Inductive history (d : deps) : list event -> option c_nonce_options -> Prop :=
| history_start : history d [] None
| history_step h e s s' : history d h s -> session_step d s e s' -> history d (h ++ [e]) s'.

Definition is_issue (e : event) : Prop := exists t n l, e = Issued t n l.

(** The nonces issued in a history, in order. *)
Fixpoint nonces (h : list event) : list str :=
  match h with
  | [] => []
  | Issued _ n _ :: h' => n :: nonces h'
  | _ :: h' => nonces h'
  end.

(** [Issued t n l] is the last issue of [h]. *)
Definition last_issue (h : list event) (t : instant) (n : str) (l : N) : Prop :=
  exists before after, h = before ++ Issued t n l :: after /\ Forall (fun e => ~ is_issue e) after.

(* ------------------------------------------------------------------ *)
(** * Messages of a complete run *)

(** The compact text of a signed token with the given documents. *)
Definition compact_text (d : deps) (j : proof_jwt) (sig token : str) : Prop :=
  exists hs bs, base64_text url_alphabet false (header_to_json (j_header j)) hs
    /\ base64_text url_alphabet false (claims_to_json d (j_body j)) bs
    /\ token = hs ++ lit "." ++ bs ++ lit "." ++ sig.

(** The proof a wallet makes for an issuer and a nonce. *)
Definition wallet_proof (alg : proof_alg) (kid issuer nonce : str) (iss : option str) (iat : instant)
    (sig : str) : proof_jwt :=
  {| j_header := {| h_typ := proof_typ; h_alg := alg; h_additional := Some (KeyId kid) |};
     j_body := {| b_iss := iss; b_aud := issuer; b_sub := None; b_iat := iat; b_nonce := nonce;
                  b_nbf := None; b_exp := None |};
     j_signature := Some sig |}.

(** The credential a wallet takes out of a response. *)
Inductive delivered : cfp_or_encoded -> cfp -> Prop :=
| delivered_plain c : delivered (CFP c) c
| delivered_encoded text bytes c :
    base64_text url_alphabet false bytes text -> cfp_from_json bytes = Some c ->
    delivered (Encoded text) c.
