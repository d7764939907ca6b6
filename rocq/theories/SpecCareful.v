(** A caller that adds, with other calls of the library, the checks that
    evaluation leaves out. *)
From Verif Require Import Model.Prelude Model.Base64 Model.Json Model.Types Model.Deps Model.Equality Model.Jwt
  Model.AccessToken Model.CredentialIssuer Model.Wire
  Spec SpecToken SpecOffer SpecJwt SpecEvaluation SpecRelay SpecEquality.

Definition with_nonce (n : c_nonce_options) (client : option str) : option eval_options :=
  Some {| eo_c_nonce := Some n; eo_client_id := client |}.

(** The caller evaluates and pre-evaluates the request, reads the token and
    verifies it at the time of the evaluation, refuses evidence with a forbidden
    algorithm or a signature that is not base64url, and looks for the credential
    among those supported and among those the offer resolves to. *)
Definition careful (d : deps) (now : instant) (m : issuer_metadata) (r : credential_request) (o : credential_offer)
    (doc : Document d) (n : c_nonce_options) (client : option str) (resp : eval_response) : Prop :=
  evaluate_credential_request d now m r (Some o) None (Some doc) (with_nonce n client) = Ok resp
  /\ (exists did, pre_evaluate_credential_request d r = Ok did)
  /\ (exists p j, cr_proof r = Some p /\ jwt_from_str d (rp_jwt p) = Ok j /\ jwt_verify now j = Ok tt)
  /\ (exists pop signature, er_pop resp = Some pop /\ base64url_decode (pop_signature pop) = Some signature
      /\ ~ forbidden_alg (pop_algorithm pop))
  /\ existsb (fun s => cfp_eqb (er_credential resp) (sup_format s)) (im_credentials_supported m) = true
  /\ exists offered, resolve_all m (co_credentials o) = Ok offered
      /\ existsb (cfp_eqb (er_credential resp)) offered = true.

(** What the request must be like, apart from what evaluation looks at. *)
Definition beyond_evaluation (d : deps) (now : instant) (m : issuer_metadata) (r : credential_request)
    (o : credential_offer) : Prop :=
  (exists p j, cr_proof r = Some p /\ proof_token d (rp_jwt p) j
     /\ ascii_ci (rp_proof_type p) (lit "jwt") /\ in_window (j_body j) now /\ ~ forbidden_alg (h_alg (j_header j))
     /\ (exists signature text, j_signature j = Some text /\ base64_text url_alphabet false signature text)
     /\ dotless (header_to_json (j_header j)) /\ dotless (claims_to_json d (j_body j)))
  /\ (exists s, In s (im_credentials_supported m) /\ same_credential (cr_format r) (sup_format s))
  /\ Forall (resolvable m) (co_credentials o)
  /\ exists entry c, In entry (co_credentials o) /\ resolves m entry c /\ same_credential (cr_format r) c.

(** All values in requests, offers and metadata can be held by serde_json. *)
Definition credentials_held (m : issuer_metadata) (r : credential_request) (o : credential_offer) : Prop :=
  cfp_with held (cr_format r)
  /\ (forall s, In s (im_credentials_supported m) -> cfp_with held (sup_format s))
  /\ forall c, In (Credential c) (co_credentials o) -> cfp_with held c.
