(** Other spellings of a token, and callers that remember what they accepted. *)
From Verif Require Import Model.Prelude Model.Json Model.Types Model.Deps Model.CredentialIssuer
  Spec SpecJson SpecJwt SpecEvaluation.

(** The same token, with white space added at the end of the claims. Whoever sees a
    token can do that; header, signature and whatever follows are kept. *)
Definition respelled (token t : str) : Prop :=
  exists hs bs tail text w bs',
    token_parts token hs bs tail /\ base64_text url_alphabet false text bs
    /\ white w /\ w <> []
    /\ base64_text url_alphabet false (text ++ w) bs' /\ token_parts t hs bs' tail.

(** The signing input of RFC 7515: what comes before the second dot. *)
Definition signing_input (token input : str) : Prop :=
  exists hs bs tail, token_parts token hs bs tail /\ input = hs ++ lit "." ++ bs.

(** The request with another token in its proof. *)
Definition with_token (t : str) (r : credential_request) : credential_request :=
  {| cr_format := cr_format r;
     cr_proof := option_map (fun p => {| rp_proof_type := rp_proof_type p; rp_jwt := t |}) (cr_proof r) |}.

(** A caller that keeps the nonce and remembers what it accepted, as [what] says; it
    accepts nothing it remembers. Accepted tokens and results, the last one first.
    Metadata, offer, document, client and clock may be different each time. *)
Inductive remembering {K : Type} (what : str -> eval_response -> K) (d : deps) (n : c_nonce_options)
  : list (str * eval_response) -> Prop :=
| remembering_start : remembering what d n []
| remembering_accept h now m r offer asm doc client resp p :
    remembering what d n h -> cr_proof r = Some p ->
    evaluate_credential_request d now m r offer asm doc (Some {| eo_c_nonce := Some n; eo_client_id := client |}) = Ok resp ->
    ~ In (what (rp_jwt p) resp) (map (fun x => what (fst x) (snd x)) h) ->
    remembering what d n ((rp_jwt p, resp) :: h).

(** Remembering the text of the token, or the message that is to be verified. *)
Definition its_text (token : str) (resp : eval_response) : str := token.
Definition its_message (token : str) (resp : eval_response) : option str := option_map pop_message (er_pop resp).
