(** C116: texts that were cut off. *)
From Verif Require Import Model.Prelude Model.Base64 Model.Json Model.Types Model.Deps Model.Serde Model.SerdeOptions
  Model.Wire Model.Jwt Model.CredentialIssuer Spec SpecToken SpecJson SpecJwt SpecOffer SpecWire SpecCut Examples
  Proofs.StrFacts Proofs.JsonFacts Proofs.JwtFacts Proofs.CutFacts Proofs.GrammarFacts
  Properties.Jwt Properties.Evaluation Properties.Offers.

(** No document that was cut off, or to which something was added, is read as
    another one. *)
Theorem C116_documents : forall d,
  whole_only offer_from_json /\ whole_only metadata_from_json
  /\ whole_only credential_request_from_json /\ whole_only credential_success_from_json
  /\ whole_only token_request_from_json /\ whole_only token_success_from_json
  /\ whole_only header_from_json /\ whole_only (claims_from_json d)
  /\ whole_only cfp_from_json /\ whole_only token_options_from_json /\ whole_only c_nonce_from_json
  /\ whole_only (eval_options_from_json d) /\ whole_only (proof_jwt_from_json d)
  /\ whole_only token_code_from_json /\ whole_only issuer_code_from_json
  /\ whole_only auth_server_metadata_from_json.
Proof. exact documents_whole. Qed.
Print Assumptions C116_documents.

(** No offer is found in a URL that was cut off within the offer. The premises are those
    of C16, with its example; the whole URL has [rest = []]. *)
Theorem C116_offer_urls : forall m creds ep a p o url n part rest text o',
  create_offer m creds ep a p = Ok (o, url) ->
  rust_string (im_credential_issuer m) -> Forall (credential_or_id_ok n) creds ->
  on_some preauth_flow_ok p -> (n <= 122)%nat ->
  url = offer_url_prefix ep ++ part ++ rest -> percent_decoded part text -> offer_from_json text = Some o' ->
  rest = [].
Proof. exact offer_url_cut. Qed.
Print Assumptions C116_offer_urls.

(** Encoded bytes that were cut off are refused or decoded to the first of the bytes. *)
Theorem C116_encoded_bytes : forall p rest bytes bytes',
  (base64_decode (p ++ rest) = Some bytes -> base64_decode p = Some bytes' -> exists more, bytes = bytes' ++ more)
  /\ (base64url_decode (p ++ rest) = Some bytes -> base64url_decode p = Some bytes' ->
      exists more, bytes = bytes' ++ more).
Proof. intros p rest x x'. split; [exact (base64_cut p rest x x')|exact (base64url_cut p rest x x')]. Qed.
Print Assumptions C116_encoded_bytes.

(** Tokens: false, a token without its signature, or with part of it, is read. *)
Definition C116_claim : Prop := forall d p rest j, rest <> [] ->
  jwt_from_str d (p ++ rest) = Ok j -> forall j', jwt_from_str d p <> Ok j'.
Lemma cut_token : ev_token (ev_good EdDSA) = ev_token (ev_jwt EdDSA "https://issuer.example" None) ++ lit ".c2ln".
Proof.
  unfold ev_token, ev_good, ev_jwt, ev_sig. cbn [j_signature j_header j_body]. rewrite app_nil_r, <- !app_assoc.
  reflexivity.
Qed.
Theorem C116_cut_token_read_refuted : ~ C116_claim.
Proof.
  intros H. refine (H example_deps (ev_token (ev_jwt EdDSA "https://issuer.example" None)) (lit ".c2ln") (ev_good EdDSA)
    _ _ _ ev_parses_unsigned); [discriminate|]. rewrite <- cut_token. exact (ev_parses_signed EdDSA).
Qed.
Print Assumptions C116_cut_token_read_refuted.

(** But nothing else can be missing. *)
Theorem C116_tokens_lose_only_signatures : forall d p rest j j',
  jwt_from_str d (p ++ rest) = Ok j -> jwt_from_str d p = Ok j' ->
  j_header j' = j_header j /\ j_body j' = j_body j /\ signature_cut (j_signature j) (j_signature j').
Proof. exact token_cut. Qed.
Print Assumptions C116_tokens_lose_only_signatures.

(** And a proof that is rejected is not accepted without its end: the same subject and
    key would have been accepted with it. *)
Theorem C116_no_gain : forall d now m r r' offer asm doc options p p' rest j resp',
  cr_proof r = Some p -> cr_proof r' = Some p' -> rp_jwt p = rp_jwt p' ++ rest ->
  jwt_from_str d (rp_jwt p) = Ok j ->
  evaluate_credential_request d now m r' offer asm doc options = Ok resp' ->
  exists resp pop pop', evaluate_credential_request d now m r offer asm doc options = Ok resp
    /\ er_subject_id resp = er_subject_id resp' /\ er_pop resp = Some pop /\ er_pop resp' = Some pop'
    /\ pop_algorithm pop = pop_algorithm pop' /\ pop_public_key pop = pop_public_key pop'.
Proof. exact evaluation_cut. Qed.
Print Assumptions C116_no_gain.

(** The proof of the examples without its signature is accepted, and so it is with it. *)
Example C116_no_gain_case :
  jwt_from_str example_deps (ev_token (ev_good EdDSA)) = Ok (ev_good EdDSA)
  /\ ev_token (ev_good EdDSA) = ev_token (ev_jwt EdDSA "https://issuer.example" None) ++ lit ".c2ln"
  /\ exists resp, ev_evaluate ev_now (ev_request ex_degree "jwt" (ev_jwt EdDSA "https://issuer.example" None)) None = Ok resp.
Proof. split; [exact (ev_parses_signed EdDSA)|]. split; [exact cut_token|]. eexists. exact ev_unsigned_accepted. Qed.

(** White space is lost without harm; anything else is not. *)
Definition cut_nonce (s : string) : str := lit "{""c_nonce"":""n""" ++ lit s.
Example C116_documents_case :
  c_nonce_from_json (cut_nonce "} ") = Some {| cn_c_nonce := lit "n"; cn_expires_in := None |}
  /\ c_nonce_from_json (cut_nonce "}") = Some {| cn_c_nonce := lit "n"; cn_expires_in := None |}
  /\ c_nonce_from_json (cut_nonce "") = None /\ c_nonce_from_json (cut_nonce "}}") = None.
Proof. repeat split; vm_compute; reflexivity. Qed.

Example C116_encoded_case : base64url_decode (lit "aGk") = Some (lit "hi") /\ base64url_decode (lit "aGkh") = Some (lit "hi!")
  /\ base64url_decode (lit "aG") = None.
Proof. repeat split; vm_compute; reflexivity. Qed.
