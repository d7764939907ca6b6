(** Issuers that ask the registry and check the signature of the token themselves. *)
From Verif Require Import Model.Prelude Model.Json Model.Types Model.Deps Model.Jwt Model.AccessToken
  Model.CredentialIssuer Model.Wire Spec SpecToken SpecOffer SpecJwt SpecEvaluation SpecDocuments SpecEvidence SpecAgreement
  SpecCareful SpecIdentity.

(** As [world] (SpecIdentity.v), with the document that the DID named by pre-evaluation
    has now, and with the signature checked as in [checking] (SpecDirect.v). *)
Inductive sound_world (d : deps) (safe : str -> Prop) : list (entry d) -> stored -> Prop :=
| sound_start : sound_world d safe [] (fun _ => None)
| sound_registers h st did doc : sound_world d safe h st -> sound_world d safe (h ++ [Registers did doc]) st
| sound_signs h st key j text : sound_world d safe h st -> proof_jwt_ok j -> signing_text d j text ->
    sound_world d safe (h ++ [Happens (Signs key j text)]) st
| sound_gives h st k n : sound_world d safe h st -> ~ In (cno_expected n) (nonces_given (happened h)) ->
    sound_world d safe (h ++ [Happens (Gives k (cno_expected n))]) (store st k (Some n))
| sound_trusts h st k n now m r offer asm did doc client resp pop p input signature : sound_world d safe h st ->
    st k = Some n -> pre_evaluate_credential_request d r = Ok (Some did) -> current h did doc ->
    evaluate_credential_request d now m r offer asm (Some doc) (with_nonce n client) = Ok resp ->
    er_pop resp = Some pop -> cr_proof r = Some p ->
    jws_signed (fun key text _ => safe key -> exists j, In (Happens (Signs key j text)) h)
      (pop_public_key pop) (rp_jwt p) input signature ->
    sound_world d safe
      (h ++ [Happens (Trusts k (pop_public_key pop) (im_credential_issuer m) (cno_expected n) client (er_subject_id resp))])
      (store st k None).

(** The DID has this key now, and can be named with it. *)
Definition owns {d : deps} (h : list (entry d)) (did key : str) : Prop :=
  exists doc kid u k, current h did doc /\ rust_string kid /\ did_url_try_from d kid = inr u /\ du_did u = did
    /\ document_key d doc kid k /\ public_key k key.
