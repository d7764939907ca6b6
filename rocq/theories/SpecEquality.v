(** What it means for two values to be the same (C106). Independent of the
    comparison functions in Model.Equality. *)
From Coq Require Import QArith.
From Verif Require Import Model.Prelude Model.Json Model.Types Model.Float Spec SpecNumber SpecRelay.
Open Scope N_scope.

(** [s] is the text of the [f64] number [q]. *)
Definition number_of (s : str) (q : Q) : Prop :=
  exists x, (written_as [] x s /\ q = f64_value x) \/ (written_as ["-"%char] x s /\ q = - f64_value x)%Q.

(** Two [f64]s are the same number; [0.0] and [-0.0] are. *)
Definition same_number (s t : str) : Prop := exists p q, number_of s p /\ number_of t q /\ p == q.

(** Free-form values: their members are in key order. *)
Inductive same_value : json -> json -> Prop :=
| sv_null : same_value JNull JNull
| sv_bool b : same_value (JBool b) (JBool b)
| sv_int z : same_value (JInt z) (JInt z)
| sv_float s t : same_number s t -> same_value (JFloat s) (JFloat t)
| sv_str s : same_value (JStr s) (JStr s)
| sv_arr l l' : Forall2 same_value l l' -> same_value (JArr l) (JArr l')
| sv_obj m m' : Forall2 (fun kv kv' => fst kv = fst kv' /\ same_value (snd kv) (snd kv')) m m' ->
    same_value (JObj m) (JObj m').

(** Maps with the same values under the same keys, in whatever iteration order. *)
Definition same_map {V : Type} (R : V -> V -> Prop) (a b : hmap V) : Prop :=
  (forall k x, In (k, x) a -> exists y, In (k, y) b /\ R x y)
  /\ (forall k y, In (k, y) b -> exists x, In (k, x) a /\ R x y).

Inductive same_context : ld_context -> ld_context -> Prop :=
| sc_string s : same_context (LDString s) (LDString s)
| sc_map m m' : same_map same_value m m' -> same_context (LDMap m) (LDMap m').

Inductive same_credential : cfp -> cfp -> Prop :=
| se_jwt ty su su' od : opt_rel (same_map eq) su su' ->
    same_credential (JwtVcJson ty su od) (JwtVcJson ty su' od)
| se_jwt_ld ty su su' od : opt_rel (same_map eq) su su' ->
    same_credential (JwtVcJsonLd ty su od) (JwtVcJsonLd ty su' od)
| se_ldp cx cx' ty su su' od : Forall2 same_context cx cx' -> opt_rel (same_map eq) su su' ->
    same_credential (LdpVc cx ty su od) (LdpVc cx' ty su' od)
| se_mdoc dt cl cl' od : opt_rel (same_map eq) cl cl' ->
    same_credential (MsoMdoc dt cl od) (MsoMdoc dt cl' od).

Inductive same_offered : credential_or_id -> credential_or_id -> Prop :=
| so_id s : same_offered (CredentialId s) (CredentialId s)
| so_credential c c' : same_credential c c' -> same_offered (Credential c) (Credential c').

Inductive same_issued : cfp_or_encoded -> cfp_or_encoded -> Prop :=
| si_credential c c' : same_credential c c' -> same_issued (CFP c) (CFP c')
| si_encoded s : same_issued (Encoded s) (Encoded s).

Definition same_supported (a b : credential_supported) : Prop :=
  same_credential (sup_format a) (sup_format b) /\ sup_id a = sup_id b
  /\ sup_binding_methods a = sup_binding_methods b /\ sup_suites a = sup_suites b
  /\ sup_display a = sup_display b.
Definition same_offer (a b : credential_offer) : Prop :=
  co_credential_issuer a = co_credential_issuer b
  /\ Forall2 same_offered (co_credentials a) (co_credentials b) /\ co_grants a = co_grants b.
Definition same_response (a b : credential_success) : Prop :=
  cs_format a = cs_format b /\ opt_rel same_issued (cs_credential a) (cs_credential b)
  /\ cs_acceptance_token a = cs_acceptance_token b /\ cs_c_nonce a = cs_c_nonce b
  /\ cs_c_nonce_expires_in a = cs_c_nonce_expires_in b.
Definition same_result (a b : eval_response) : Prop :=
  er_pop a = er_pop b /\ er_subject_id a = er_subject_id b
  /\ same_credential (er_credential a) (er_credential b).
Definition same_error_response {T : Type} (a b : error_response T) : Prop :=
  resp_error a = resp_error b /\ resp_description a = resp_description b /\ resp_uri a = resp_uri b
  /\ opt_rel same_value (resp_details a) (resp_details b).

(** Errors: only one of them holds credentials. *)
Inductive same_error : issuer_error -> issuer_error -> Prop :=
| ser_credential c c' l l' : same_credential c c' -> Forall2 same_credential l l' ->
    same_error (IInvalidRequestedCredential c l) (IInvalidRequestedCredential c' l')
| ser_other e : (forall c l, e <> IInvalidRequestedCredential c l) -> same_error e e.

(** Values the program can hold: numbers are [f64]s, free-form objects are in key
    order, the keys of a map are distinct. *)
Definition held (v : json) : Prop := json_any v /\ value v.
Definition error_held (e : issuer_error) : Prop :=
  forall c l, e = IInvalidRequestedCredential c l -> cfp_with held c /\ Forall (cfp_with held) l.
Definition result_held (r : eval_response) : Prop := cfp_with held (er_credential r).
