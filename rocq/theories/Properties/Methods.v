(** The methods of a parsed proof, each on its own: a caller that does not use
    the evaluation of credential requests calls them in any order and on any
    proof. Theorems only; proofs are in Proofs/MethodFacts.v, vocabulary in
    SpecEvaluation.v and SpecResponse.v. *)
From Verif Require Import Model.Prelude Model.Json Model.Types Model.Deps Model.Serde Model.Errors Model.Jwt
  Model.Wire Spec SpecJwt SpecEvaluation SpecResponse Proofs.EvalFacts Proofs.MethodFacts
  Examples Properties.Offers Properties.Evaluation.

(** * C97 *)

(** The expected nonce must be given and equal the proof's. *)
Theorem C97_nonce : forall j n,
  (jwt_check_nonce j n = Ok tt <-> n = Some (b_nonce (j_body j)))
  /\ (forall e, jwt_check_nonce j n = Err e <->
        n <> Some (b_nonce (j_body j)) /\ e = JNonceMismatch n (b_nonce (j_body j)))
  /\ jwt_check_nonce j n <> Panic.
Proof. exact nonce_check. Qed.
Print Assumptions C97_nonce.

(** The issuers must both be absent or equal. *)
Theorem C97_iss : forall j i,
  (jwt_check_iss j i = Ok tt <-> b_iss (j_body j) = i)
  /\ (forall e, jwt_check_iss j i = Err e <->
        b_iss (j_body j) <> i /\ e = JIssuerMismatch i (b_iss (j_body j)))
  /\ jwt_check_iss j i <> Panic.
Proof. exact iss_check. Qed.
Print Assumptions C97_iss.

Theorem C97_aud : forall j u,
  (jwt_check_aud j u = Ok tt <-> b_aud (j_body j) = u)
  /\ (forall e, jwt_check_aud j u = Err e <->
        b_aud (j_body j) <> u /\ e = JAudienceMismatch u (b_aud (j_body j)))
  /\ jwt_check_aud j u <> Panic.
Proof. exact aud_check. Qed.
Print Assumptions C97_aud.

Example C97_checks_case :
  jwt_check_nonce (ev_good EdDSA) (Some (lit "n1")) = Ok tt
  /\ jwt_check_nonce (ev_good EdDSA) None = Err (JNonceMismatch None (lit "n1"))
  /\ jwt_check_iss (ev_good EdDSA) None = Err (JIssuerMismatch None (Some (lit "client")))
  /\ jwt_check_aud (ev_good EdDSA) (lit "https://issuer.example/")
     = Err (JAudienceMismatch (lit "https://issuer.example/") (lit "https://issuer.example")).
Proof.
  split; [now apply C97_nonce|]. split; [now apply C97_nonce|].
  split; [now apply C97_iss|now apply C97_aud].
Qed.

Theorem C97_did : forall d j,
  (forall did, jwt_extract_did d j = Ok did <-> proof_did d (h_additional (j_header j)) did)
  /\ (forall e, jwt_extract_did d j = Err e <-> did_error d (h_additional (j_header j)) e)
  /\ jwt_extract_did d j <> Panic.
Proof. exact did_method. Qed.
Print Assumptions C97_did.

(** The algorithm is the one the header names, whatever the key is. *)
Theorem C97_key : forall d h doc,
  (forall bytes alg, header_extract_key_and_alg d h doc = Ok (bytes, alg) <->
     proof_key d doc (h_additional h) bytes /\ alg = h_alg h)
  /\ (forall e, header_extract_key_and_alg d h doc = Err e <-> key_error d doc (h_additional h) e)
  /\ (header_extract_key_and_alg d h doc = Panic <-> key_panics d doc (h_additional h)).
Proof. exact key_method. Qed.
Print Assumptions C97_key.

Example C97_key_case :
  jwt_extract_did example_deps (ev_good EdDSA) = Ok (Some (lit "did:key:z6Mk"))
  /\ jwt_extract_did example_deps ev_with_jwk
     = Err (JUnsupportedKeyTypeInJwtHeader (lit "jwk") (lit "{""kty"":""OKP""}"))
  /\ header_extract_key_and_alg example_deps (j_header (ev_good ES256)) (Some ev_document)
     = Ok (lit "key bytes", ES256)
  /\ header_extract_key_and_alg example_deps (j_header (ev_good ES256)) None
     = Err JNoDidDocumentProvidedForKidAsDid.
Proof. repeat split. Qed.

(** Message and signature are cut out of the two JSON documents, not out of the
    token that was signed (C37, C38). *)
Theorem C97_message : forall d j,
  (forall m, jwt_to_signable_message d j = Ok m <-> message_of (raw_text d j) m)
  /\ exists m, jwt_to_signable_message d j = Ok m.
Proof. exact message_method. Qed.
Print Assumptions C97_message.

Theorem C97_signature : forall d j,
  (forall sig, jwt_extract_signature d j = Ok sig <-> after_second_dot (raw_text d j) sig)
  /\ (forall e, jwt_extract_signature d j = Err e <->
        ~ (exists sig, after_second_dot (raw_text d j) sig) /\ e = JSignatureNotInJwt (raw_text d j))
  /\ jwt_extract_signature d j <> Panic.
Proof. exact signature_method. Qed.
Print Assumptions C97_signature.

(** A proof without a signature whose documents have one dot between them and
    none inside has no signature to extract; a dot inside a claim makes one up. *)
Definition ev_plain (aud : string) : proof_jwt := {|
  j_header := {| h_typ := proof_typ; h_alg := EdDSA; h_additional := None |};
  j_body := {| b_iss := None; b_aud := lit aud; b_sub := None; b_iat := 1683000000000000000%Z;
               b_nonce := lit "n1"; b_nbf := None; b_exp := None |};
  j_signature := None |}.
Example C97_signature_case :
  jwt_extract_signature example_deps (ev_plain "issuer")
  = Err (JSignatureNotInJwt (raw_text example_deps (ev_plain "issuer")))
  /\ jwt_to_signable_message example_deps (ev_plain "issuer") = Ok (raw_text example_deps (ev_plain "issuer"))
  /\ exists sig, jwt_extract_signature example_deps (ev_plain "issuer.example") = Ok sig.
Proof. split; [vm_compute; reflexivity|]. split; [vm_compute; reflexivity|]. eexists. vm_compute. reflexivity. Qed.

(** The name of a credential's format. *)
Theorem C97_format : forall c f, format_name c = lit f <-> format_of c f.
Proof. exact format_method. Qed.
Print Assumptions C97_format.

Example C97_format_case : format_name ex_degree = lit "jwt_vc_json" /\ format_of ex_degree "jwt_vc_json".
Proof. split; [reflexivity|constructor]. Qed.
