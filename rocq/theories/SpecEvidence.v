(** What a caller of credential evaluation can rely on about the evidence it is
    given, and what an attacker learns from rejections. *)
From Verif Require Import Model.Prelude Model.Json Model.Types Model.Deps Model.Errors Model.Wire
  Model.CredentialIssuer
  Spec SpecToken SpecJwt SpecEvaluation.

(** Some call of the evaluation accepts a request whose token text [s] denotes
    [j], and returns the evidence [pop]. *)
Definition evidence_for (d : deps) (s : str) (j : proof_jwt) (pop : proof_of_possession) : Prop :=
  exists now m r offer asm doc options resp p,
    evaluate_credential_request d now m r offer asm doc options = Ok resp
    /\ cr_proof r = Some p /\ rp_jwt p = s /\ proof_token d s j /\ er_pop resp = Some pop.
Definition evidence (d : deps) (j : proof_jwt) (pop : proof_of_possession) : Prop :=
  exists s, evidence_for d s j pop.

(** The JSON documents of the header and of the claims, joined by a dot. *)
Definition both_documents (d : deps) (j : proof_jwt) : str :=
  header_to_json (j_header j) ++ lit "." ++ claims_to_json d (j_body j).

(** The message contains all of both documents. *)
Definition message_covers (d : deps) (j : proof_jwt) (pop : proof_of_possession) : Prop :=
  exists rest, pop_message pop = both_documents d j ++ rest.

Definition one_dot (t : str) : Prop := exists a b, dotless a /\ dotless b /\ t = a ++ lit "." ++ b.

(* ------------------------------------------------------------------ *)
(** * The same call with another secret *)

(** The offer with another pre-authorized code. *)
Definition with_code (code : str) (o : credential_offer) : credential_offer :=
  {| co_credential_issuer := co_credential_issuer o; co_credentials := co_credentials o;
     co_grants := {| og_auth := og_auth (co_grants o);
                     og_pre := option_map (fun p => {| pf_code := code;
                                                       pf_user_pin_required := pf_user_pin_required p |})
                                          (og_pre (co_grants o)) |} |}.

(** The options with another expected nonce, or another client id. *)
Definition with_expected_nonce (e : str) (options : option eval_options) : option eval_options :=
  option_map (fun o => {|
    eo_c_nonce := option_map (fun n => {| cno_expires_in := cno_expires_in n; cno_expected := e;
                                          cno_created_at := cno_created_at n |}) (eo_c_nonce o);
    eo_client_id := eo_client_id o |}) options.
Definition with_client_id (c : str) (options : option eval_options) : option eval_options :=
  option_map (fun o => {| eo_c_nonce := eo_c_nonce o; eo_client_id := Some c |}) options.

(** The text [t] occurs in the error's additional information under [key]. *)
Definition discloses (i : error_information) (key : string) (t : str) : Prop :=
  exists m, ei_additional i = Some (JObj m) /\ In (lit key, JStr t) m.

(* ------------------------------------------------------------------ *)
(** * Signatures *)

(** [verifies key message signature] is what a verifier of some algorithm accepts;
    all signatures of the algorithm have [n] bytes (64 for EdDSA and ES256). *)
Definition signatures_of_length (n : nat) (verifies : str -> str -> str -> Prop) : Prop :=
  forall key message signature, verifies key message signature -> List.length signature = n.

(** A token as RFC 7515 makes it: the third part encodes a signature over the text
    of the first two. *)
Definition jws_signed (verifies : str -> str -> str -> Prop) (key token input signature : str) : Prop :=
  exists hs bs sig, dotless hs /\ dotless bs /\ input = hs ++ lit "." ++ bs
    /\ token = input ++ lit "." ++ sig /\ base64_text url_alphabet false signature sig
    /\ verifies key input signature.
