(** Error codes as documents and authorization server metadata. Theorems only;
    proofs are in Proofs/CodeFacts.v, vocabulary in SpecCodes.v. *)
From Verif Require Import Model.Prelude Model.Json Model.Types Model.Deps Model.Serde Model.SerdeOptions
  Spec SpecToken SpecErrors SpecJson SpecCodes
  Proofs.StrFacts Proofs.JsonFacts Proofs.GrammarFacts Proofs.CodeFacts Proofs.OkTac Examples.

(* ------------------------------------------------------------------ *)
(** * C89: an error code sent by a conforming server is read. False for every
    code of both standards. *)
Definition C89_claim : Prop :=
  (forall c name s, oauth_code c name -> json_text s (JStr (lit name)) -> token_code_from_json s = Some c)
  /\ (forall c name s, vci_code c name -> json_text s (JStr (lit name)) -> issuer_code_from_json s = Some c).

Theorem C89_standard_codes_unread :
  (forall c name s, oauth_code c name -> names_variant s name -> token_code_from_json s = None)
  /\ (forall c name s, vci_code c name -> names_variant s name -> issuer_code_from_json s = None).
Proof. exact (conj token_code_unread issuer_code_unread). Qed.
Print Assumptions C89_standard_codes_unread.

Lemma invalid_request_text : json_text (lit """invalid_request""") (JStr (lit "invalid_request")).
Proof. apply parse_json_iff. vm_compute. reflexivity. Qed.

Theorem C89_standard_codes_read_refuted :
  ~ C89_claim
  /\ ~ (forall c name s, vci_code c name -> json_text s (JStr (lit name)) -> issuer_code_from_json s = Some c).
Proof.
  assert (~ (forall c name s, vci_code c name -> json_text s (JStr (lit name)) -> issuer_code_from_json s = Some c)) as N.
  { intros H. pose proof (H _ _ _ vc_request invalid_request_text) as E.
    rewrite (proj2 C89_standard_codes_unread _ _ _ vc_request (or_introl invalid_request_text)) in E. discriminate. }
  split; [|exact N]. now intros [_ H].
Qed.
Print Assumptions C89_standard_codes_read_refuted.

(** Exactly the Rust names are read, as a string or as an object with a null. *)
Theorem C89_token_code_texts : forall s c,
  token_code_from_json s = Some c <-> exists name, token_rust_name c name /\ names_variant s name.
Proof. exact token_code_texts. Qed.
Print Assumptions C89_token_code_texts.

Theorem C89_credential_code_texts : forall s c,
  issuer_code_from_json s = Some c <-> exists name, issuer_rust_name c name /\ names_variant s name.
Proof. exact issuer_code_texts. Qed.
Print Assumptions C89_credential_code_texts.

Theorem C89_codes_round_trip :
  (forall c, token_code_from_json (token_code_to_json c) = Some c)
  /\ (forall c, issuer_code_from_json (issuer_code_to_json c) = Some c).
Proof. exact (conj token_code_round_trip issuer_code_round_trip). Qed.
Print Assumptions C89_codes_round_trip.

Example C89_cases :
  token_code_to_json TInvalidGrant = lit """InvalidGrant"""
  /\ token_code_from_json (lit " ""InvalidGrant"" ") = Some TInvalidGrant
  /\ token_code_from_json (lit "{""InvalidGrant"": null}") = Some TInvalidGrant
  /\ token_code_from_json (lit "{""InvalidGrant"": {}}") = None
  /\ token_code_from_json (lit """invalid_grant""") = None
  /\ issuer_code_from_json (lit """InvalidToken""") = Some IInvalidToken
  /\ token_code_from_json (lit """InvalidToken""") = None.
Proof. repeat split; vm_compute; reflexivity. Qed.

(* ------------------------------------------------------------------ *)
(** * C91: authorization server metadata keeps what it was read from. False: the
    type has no fields. *)
Definition C91_claim : Prop := forall s a v,
  json_text s v -> auth_server_metadata_from_json s = Some a ->
  json_text (auth_server_metadata_to_json a) v.

(** RFC 8414's example, shortened. *)
Definition asm_text : str :=
  lit "{""issuer"":""https://server.example.com"",""token_endpoint"":""https://server.example.com/token""}".
Theorem C91_metadata_kept_refuted : ~ C91_claim.
Proof.
  intros H. destruct (parse_json asm_text) as [v|] eqn:E; [|vm_compute in E; discriminate E].
  assert (json_text asm_text v) as T by now apply parse_json_iff.
  specialize (H asm_text tt v T eq_refl). apply parse_json_iff in H. vm_compute in E, H.
  rewrite <- E in H. discriminate H.
Qed.
Print Assumptions C91_metadata_kept_refuted.

(** Exactly which texts are read. *)
Theorem C91_texts : forall s, (exists a, auth_server_metadata_from_json s = Some a) <-> any_object_text s.
Proof. exact asm_texts. Qed.
Print Assumptions C91_texts.

(** All of them as the same value, which is written as the empty object. *)
Theorem C91_all_metadata_equal : forall s s' a a',
  auth_server_metadata_from_json s = Some a -> auth_server_metadata_from_json s' = Some a' ->
  a = a' /\ auth_server_metadata_to_json a = lit "{}".
Proof. exact asm_forgets. Qed.
Print Assumptions C91_all_metadata_equal.

Example C91_cases : (exists a, auth_server_metadata_from_json asm_text = Some a)
  /\ (exists a, auth_server_metadata_from_json (lit "[]") = Some a)
  /\ auth_server_metadata_from_json (lit "[1]") = None
  /\ auth_server_metadata_from_json (lit "null") = None
  /\ auth_server_metadata_from_json (lit "{""issuer"":}") = None.
Proof. repeat split; try (exists tt); vm_compute; reflexivity. Qed.
