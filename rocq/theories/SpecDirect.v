(** Issuers that check the signature of the token themselves. *)
From Verif Require Import Model.Prelude Model.Json Model.Types Model.Deps Model.Jwt Model.AccessToken Model.CredentialIssuer Model.Wire
  Spec SpecToken SpecOffer SpecJwt SpecEvaluation SpecDocuments SpecEvidence SpecAgreement SpecCareful.

(** As [network] (SpecAgreement.v), but the issuer does not look at the message and the
    signature of the evidence: it takes the token that was sent, and checks as RFC 7515
    says that the part after the second dot is the signature of the part before it, with
    the public key of the evidence. If that key is safe, then its owner has signed it. *)
Inductive checking (d : deps) (safe : str -> Prop) : list happening -> stored -> Prop :=
| chk_start : checking d safe [] (fun _ => None)
| chk_signs h st key j text : checking d safe h st -> proof_jwt_ok j -> signing_text d j text ->
    checking d safe (h ++ [Signs key j text]) st
| chk_gives h st k n : checking d safe h st -> ~ In (cno_expected n) (nonces_given h) ->
    checking d safe (h ++ [Gives k (cno_expected n)]) (store st k (Some n))
| chk_trusts h st k n now m r offer asm doc client resp pop p input signature : checking d safe h st ->
    st k = Some n -> evaluate_credential_request d now m r offer asm doc (with_nonce n client) = Ok resp ->
    er_pop resp = Some pop -> cr_proof r = Some p ->
    jws_signed (fun key text _ => safe key -> exists j, In (Signs key j text) h)
      (pop_public_key pop) (rp_jwt p) input signature ->
    checking d safe
      (h ++ [Trusts k (pop_public_key pop) (im_credential_issuer m) (cno_expected n) client (er_subject_id resp)])
      (store st k None).
