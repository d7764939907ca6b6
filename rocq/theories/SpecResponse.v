(** Credential success responses, and values that are equal up to the iteration
    order of their maps; without the functions of Model/CredentialIssuer.v. *)
From Verif Require Import Model.Prelude Model.Json Model.Types Model.Deps Model.Wire
  Spec SpecToken SpecOffer SpecJwt SpecEvaluation.

(* ------------------------------------------------------------------ *)
(** * Success responses *)

(** Format names of OpenID4VCI, Appendix E. *)
Inductive format_of : cfp -> string -> Prop :=
| fo_jwt ty su od : format_of (JwtVcJson ty su od) "jwt_vc_json"
| fo_jwtld ty su od : format_of (JwtVcJsonLd ty su od) "jwt_vc_json-ld"
| fo_ldp cx ty su od : format_of (LdpVc cx ty su od) "ldp_vc"
| fo_mdoc dt cl od : format_of (MsoMdoc dt cl od) "mso_mdoc".

(** How a credential is put in a response: ldp_vc as it is, the others as
    base64url of their JSON. *)
Inductive issued (c : cfp) : cfp_or_encoded -> Prop :=
| is_plain : format_of c "ldp_vc" -> issued c (CFP c)
| is_encoded f text :
    format_of c f -> f <> "ldp_vc"%string ->
    base64_text url_alphabet false (cfp_to_json c) text -> issued c (Encoded text).

Definition payload_is (ct : option credential_or_token) (resp : credential_success) : Prop :=
  match ct with
  | None => cs_credential resp = None /\ cs_acceptance_token resp = None
  | Some (CTAcceptanceToken t) => cs_credential resp = None /\ cs_acceptance_token resp = Some t
  | Some (CTCredential c) =>
      (exists e, cs_credential resp = Some e /\ issued c e) /\ cs_acceptance_token resp = None
  end.

Definition nonce_is (n : option c_nonce) (resp : credential_success) : Prop :=
  match n with
  | None => cs_c_nonce resp = None /\ cs_c_nonce_expires_in resp = None
  | Some n => cs_c_nonce resp = Some (cn_c_nonce n) /\ cs_c_nonce_expires_in resp = cn_expires_in n
  end.

(* ------------------------------------------------------------------ *)
(** * Up to iteration order *)

(** Two calls end in the same way, with related results. *)
Definition same_outcome {E A : Type} (R : A -> A -> Prop) (x y : res E A) : Prop :=
  match x, y with
  | Ok a, Ok b => R a b
  | Err e, Err f => e = f
  | Panic, Panic => True
  | _, _ => False
  end.

Definition request_eq (a b : credential_request) : Prop :=
  cfp_eq (cr_format a) (cr_format b) /\ cr_proof a = cr_proof b.

Definition eval_response_eq (a b : eval_response) : Prop :=
  er_pop a = er_pop b /\ er_subject_id a = er_subject_id b /\ cfp_eq (er_credential a) (er_credential b).

Definition payload_eq (a b : option credential_or_token) : Prop :=
  match a, b with
  | Some (CTCredential c1), Some (CTCredential c2) => cfp_eq c1 c2
  | Some (CTAcceptanceToken t1), Some (CTAcceptanceToken t2) => t1 = t2
  | None, None => True
  | _, _ => False
  end.

(** Encoded credentials are compared by what they decode to. *)
Inductive issued_eq : cfp_or_encoded -> cfp_or_encoded -> Prop :=
| ie_plain c1 c2 : cfp_eq c1 c2 -> issued_eq (CFP c1) (CFP c2)
| ie_encoded t1 t2 b1 b2 c1 c2 :
    base64_text url_alphabet false b1 t1 -> base64_text url_alphabet false b2 t2 ->
    cfp_from_json b1 = Some c1 -> cfp_from_json b2 = Some c2 -> cfp_eq c1 c2 ->
    issued_eq (Encoded t1) (Encoded t2).

Definition success_eq (a b : credential_success * instant) : Prop :=
  cs_format (fst a) = cs_format (fst b)
  /\ opt_rel issued_eq (cs_credential (fst a)) (cs_credential (fst b))
  /\ cs_acceptance_token (fst a) = cs_acceptance_token (fst b)
  /\ cs_c_nonce (fst a) = cs_c_nonce (fst b)
  /\ cs_c_nonce_expires_in (fst a) = cs_c_nonce_expires_in (fst b)
  /\ snd a = snd b.
