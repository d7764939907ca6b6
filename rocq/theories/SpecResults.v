(** The JSON form of evaluation results, and which parts of its arguments an
    evaluation looks at. *)
From Verif Require Import Model.Prelude Model.Json Model.Types Model.Deps
  Spec SpecToken SpecJwt SpecDocuments SpecWire.

(* ------------------------------------------------------------------ *)
(** * Results in JSON *)

(** Bytes are an array of numbers. *)
Definition bytes_value (v : json) (s : str) : Prop :=
  list_value (fun j b => j = JInt (Z.of_N (N_of_ascii b))) v s.

(** The registered name of an algorithm. *)
Definition algorithm_value (v : json) (a : proof_alg) : Prop := exists n, alg_is a n /\ v = JStr (lit n).

Definition evidence_names : list string := ["algorithm"; "public_key"; "message"; "signature"]%string.
Definition evidence_of (m : list (str * json)) (p : proof_of_possession) : Prop :=
  required_member m "algorithm" algorithm_value (pop_algorithm p)
  /\ required_member m "public_key" bytes_value (pop_public_key p)
  /\ required_member m "message" bytes_value (pop_message p)
  /\ required_member m "signature" bytes_value (pop_signature p).
Definition evidence_value : json -> proof_of_possession -> Prop :=
  struct_value Writing evidence_names (all_of evidence_names) evidence_of.

Definition result_names : list string := ["proof_of_possession"; "subject_id"; "credential"]%string.
Definition result_of (m : list (str * json)) (r : eval_response) : Prop :=
  optional_member m "proof_of_possession" evidence_value (er_pop r)
  /\ optional_member m "subject_id" text_value (er_subject_id r)
  /\ required_member m "credential" (credential_value Writing Alone) (er_credential r).
Definition result_value : json -> eval_response -> Prop :=
  struct_value Writing result_names (all_of result_names) result_of.

(** Results that exist at run time: texts are Rust strings; the bytes of the
    evidence are arbitrary. *)
Definition result_ok (n : nat) (r : eval_response) : Prop :=
  on_some rust_string (er_subject_id r) /\ cfp_ok n (er_credential r).

(* ------------------------------------------------------------------ *)
(** * What an evaluation looks at *)

(** The same issuer, with credentials under the same ids. *)
Definition same_issuer (m m' : issuer_metadata) : Prop :=
  im_credential_issuer m = im_credential_issuer m'
  /\ map sup_id (im_credentials_supported m) = map sup_id (im_credentials_supported m').

(** The same kinds of grants. *)
Definition same_flows (o o' : credential_offer) : Prop :=
  (og_auth (co_grants o) = None <-> og_auth (co_grants o') = None)
  /\ (og_pre (co_grants o) = None <-> og_pre (co_grants o') = None).

(** The same token in the proof, or no proof in both. *)
Definition same_token (r r' : credential_request) : Prop :=
  option_map rp_jwt (cr_proof r) = option_map rp_jwt (cr_proof r').

(** The same outcome, but for the credential that is returned. *)
Definition same_outcome {E : Type} (c : cfp) (out out' : res E eval_response) : Prop :=
  match out, out' with
  | Ok x, Ok x' => x' = {| er_pop := er_pop x; er_subject_id := er_subject_id x; er_credential := c |}
  | Err e, Err e' => e = e'
  | Panic, Panic => True
  | _, _ => False
  end.

(** The same pre-authorized flow: the same code, and the PIN is required in both
    or in neither. *)
Definition same_grants (o o' : credential_offer) : Prop :=
  (og_auth (co_grants o) = None <-> og_auth (co_grants o') = None)
  /\ match og_pre (co_grants o), og_pre (co_grants o') with
     | Some p, Some p' => pf_code p = pf_code p'
                          /\ (pf_user_pin_required p = Some true <-> pf_user_pin_required p' = Some true)
     | None, None => True
     | _, _ => False
     end.
