(** Vocabulary for C130. *)
From Verif Require Import Model.Prelude Model.Types Model.Deps Spec SpecJwt SpecEvaluation.

(** Two requests without proofs, or with proofs of the same type and tokens with the
    same header. The claims, the signatures and the credentials may differ. *)
Inductive same_header (d : deps) (r r' : credential_request) : Prop :=
| sh_none : cr_proof r = None -> cr_proof r' = None -> same_header d r r'
| sh_proof p p' j j' : cr_proof r = Some p -> cr_proof r' = Some p' ->
    rp_proof_type p = rp_proof_type p' ->
    proof_token d (rp_jwt p) j -> proof_token d (rp_jwt p') j' ->
    j_header j = j_header j' -> same_header d r r'.

(** The same answer, given at two instants. *)
Definition same_answer {E A : Type} (now now' : instant) (out out' : res E (A * instant)) : Prop :=
  match out, out' with
  | Ok (x, t), Ok (x', t') => x = x' /\ t = now /\ t' = now'
  | Err e, Err e' => e = e'
  | Panic, Panic => True
  | _, _ => False
  end.

(** * C131 *)
(** A token with another time of issue and subject. *)
Definition with_issue (iat : instant) (sub : option str) (j : proof_jwt) : proof_jwt :=
  {| j_header := j_header j;
     j_body := {| b_iss := b_iss (j_body j); b_aud := b_aud (j_body j); b_sub := sub;
                  b_iat := iat; b_nonce := b_nonce (j_body j);
                  b_nbf := b_nbf (j_body j); b_exp := b_exp (j_body j) |};
     j_signature := j_signature j |}.
