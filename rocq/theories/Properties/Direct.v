(** C149: issuers that check the signature of the token themselves. Proofs are in
    Proofs/DirectFacts.v, vocabulary in SpecDirect.v. *)
From Verif Require Import Model.Prelude Model.Base64 Model.Json Model.Types Model.Deps Model.Jwt Model.AccessToken
  Model.CredentialIssuer Model.Wire
  Spec SpecToken SpecOffer SpecJwt SpecEvaluation SpecDocuments SpecEvidence SpecAgreement SpecCareful SpecDots SpecDirect
  Proofs.StrFacts Proofs.JsonFacts Proofs.OfferFacts Proofs.EvalFacts2 Proofs.DirectFacts
  Examples Properties.Offers Properties.Evaluation Properties.Evidence Properties.Careful Properties.Agreement Properties.Dots.

(* ------------------------------------------------------------------ *)
(** * C149 *)

(** The owner of a safe key for which a credential is given out has signed before, as
    RFC 7515 says, a proof for this issuer, nonce and client, with a key id of the
    subject. *)
Theorem C149_agreement : forall d safe h st a k key url n c s b,
  lower_case_facts d -> checking d safe h st -> h = a ++ Trusts k key url n c s :: b -> safe key ->
  exists j text kid u, In (Signs key j text) a /\ standard_text d j text
    /\ b_aud (j_body j) = url /\ b_nonce (j_body j) = n /\ (forall x, c = Some x -> b_iss (j_body j) = Some x)
    /\ h_additional (j_header j) = Some (KeyId kid) /\ did_url_try_from d kid = inr u /\ s = Some (du_did u).
Proof. exact chk_agreement. Qed.
Print Assumptions C149_agreement.

(** The nonce was given to that session, and nothing else is given out for it. *)
Theorem C149_nonce_of_the_session : forall d safe h st a k key url n c s b,
  checking d safe h st -> h = a ++ Trusts k key url n c s :: b ->
  In (Gives k n) a /\ forall k' key' url' c' s', ~ In (Trusts k' key' url' n c' s') (a ++ b).
Proof. exact chk_once. Qed.
Print Assumptions C149_nonce_of_the_session.

(** Nobody gets more credentials for a key than its owner signed proofs. *)
Theorem C149_no_more_than_signed : forall d safe h st key, lower_case_facts d -> checking d safe h st -> safe key ->
  (List.length (filter (trusts_in key) h) <= List.length (filter (signs_with key) h))%nat.
Proof. exact chk_at_most. Qed.
Print Assumptions C149_no_more_than_signed.

(** And whoever has a usable key gets a credential, whatever has happened before, in each
    session that can go on: it signs a proof as RFC 7515 says and sends text and
    signature as a token. Dots do not matter. *)
Theorem C149_everyone_is_served : forall d safe h st k n now m (o : credential_offer) doc client kid key (sign : str -> str),
  lower_case_facts d -> dt_round_trips d -> checking d safe h st -> st k = Some n -> can_go_on now m n client ->
  usable_key d doc kid key ->
  exists j text r p resp subject st', standard_text d j text /\ j_signature j = Some (base64url_encode (sign text))
    /\ evaluate_credential_request d now m r (Some o) None (Some doc) (with_nonce n client) = Ok resp
    /\ cr_proof r = Some p /\ rp_jwt p = text ++ lit "." ++ base64url_encode (sign text)
    /\ er_subject_id resp = subject
    /\ checking d safe ((h ++ [Signs key j text])
         ++ [Trusts k key (im_credential_issuer m) (cno_expected n) client subject]) st'.
Proof. exact chk_served. Qed.
Print Assumptions C149_everyone_is_served.

(** Hypotheses met: an issuer with a dot in its identifier, all keys being safe, gives
    out a credential. *)
Example C149_case : (exists j text subject st', checking example_deps (fun _ => True)
    [Gives 7 (cno_expected ca_nonce); Signs (lit "key bytes") j text;
     Trusts 7 (lit "key bytes") (lit "https://issuer.example") (cno_expected ca_nonce) None subject] st')
  /\ lower_case_facts example_deps /\ dt_round_trips example_deps.
Proof.
  split; [|split; [exact example_lower_case_facts|exact example_dt_round_trips]].
  assert (H : checking example_deps (fun _ => True) [Gives 7 (cno_expected ca_nonce)] (store (fun _ => None) 7 (Some ca_nonce)))
    by (apply (chk_gives example_deps (fun _ => True) [] (fun _ => None) 7 ca_nonce); [constructor|intros []]).
  destruct (C149_everyone_is_served example_deps (fun _ => True) _ _ 7 ca_nonce ev_now ev_metadata ev_offer ev_document None _ _
    (fun x => x) example_lower_case_facts example_dt_round_trips H eq_refl
    (do_goes_on ev_metadata ltac:(apply rust_string_ascii; reflexivity) (proj1 do_ids)) do_key)
    as (j & text & r & p & resp & s & st' & _ & _ & _ & _ & _ & _ & X).
  exists j, text, s, st'. exact X.
Qed.
