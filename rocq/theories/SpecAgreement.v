(** Wallets that sign proofs, issuers that check the signatures, and anyone else
    in between. *)
From Verif Require Import Model.Prelude Model.Json Model.Types Model.Deps Model.Jwt Model.AccessToken
  Model.CredentialIssuer Model.Wire Spec SpecToken SpecOffer SpecJwt SpecEvaluation SpecDocuments SpecEvidence.

(** The text that a wallet signs for a proof: the signing input of RFC 7515,
    however it writes the two documents; the two documents themselves; or what
    the library says is to be signed. *)
Definition standard_text (d : deps) (j : proof_jwt) (text : str) : Prop :=
  exists h b hs bs, header_from_json h = Some (j_header j) /\ claims_from_json d b = Some (j_body j)
    /\ base64_text url_alphabet false h hs /\ base64_text url_alphabet false b bs /\ text = hs ++ lit "." ++ bs.
Definition signing_text (d : deps) (j : proof_jwt) (text : str) : Prop :=
  standard_text d j text \/ text = both_documents d j \/ jwt_to_signable_message d j = Ok text.

(** A wallet signs, with the key it keeps secret, a text for a proof; a session
    gets a nonce; the issuer gives out the credential in a session, having checked
    that the evidence was signed with the key. *)
Inductive happening : Type :=
| Signs (key : str) (proof : proof_jwt) (text : str)
| Gives (session : N) (nonce : str)
| Trusts (session : N) (key issuer nonce : str) (client subject : option str).

Fixpoint nonces_given (h : list happening) : list str :=
  match h with
  | [] => []
  | Gives _ n :: h' => n :: nonces_given h'
  | _ :: h' => nonces_given h'
  end.

(** What the caller stores for each session. *)
Definition stored := N -> option c_nonce_options.
Definition store (st : stored) (k : N) (x : option c_nonce_options) : stored :=
  fun k' => if k' =? k then x else st k'.

(** What can happen, if [safe] are the keys that only their owners have. Requests,
    documents, offers, metadata and clocks are anyone's choice, and so is what is
    signed with other keys. A nonce is not given twice and is forgotten once it
    was used. Signatures cannot be forged: if the decoded signature of the
    evidence is good for a safe key, then its owner has signed the message. *)
Inductive network (d : deps) (safe : str -> Prop) : list happening -> stored -> Prop :=
| net_start : network d safe [] (fun _ => None)
| net_signs h st key j text : network d safe h st -> proof_jwt_ok j -> signing_text d j text ->
    network d safe (h ++ [Signs key j text]) st
| net_gives h st k n : network d safe h st -> ~ In (cno_expected n) (nonces_given h) ->
    network d safe (h ++ [Gives k (cno_expected n)]) (store st k (Some n))
| net_trusts h st k n now m r offer asm doc client resp pop signature : network d safe h st ->
    st k = Some n ->
    evaluate_credential_request d now m r offer asm doc (Some {| eo_c_nonce := st k; eo_client_id := client |})
      = Ok resp ->
    er_pop resp = Some pop -> base64_text url_alphabet false signature (pop_signature pop) ->
    (safe (pop_public_key pop) -> exists j, In (Signs (pop_public_key pop) j (pop_message pop)) h) ->
    network d safe
      (h ++ [Trusts k (pop_public_key pop) (im_credential_issuer m) (cno_expected n) client (er_subject_id resp)])
      (store st k None).

(** How often a key signed, and how often the issuer relied on it. *)
Definition signs_with (key : str) (e : happening) : bool :=
  match e with Signs key' _ _ => str_eqb key' key | _ => false end.
Definition trusts_in (key : str) (e : happening) : bool :=
  match e with Trusts _ key' _ _ _ _ => str_eqb key' key | _ => false end.
