(** Algorithms and the keys they are for. *)
From Verif Require Import Model.Prelude Model.Types Model.Deps Spec SpecJwt.

(** If the key states an algorithm, it is this one. *)
Definition stated_is (k : jwk) (a : proof_alg) : Prop :=
  forall s, jwk_algorithm k = Some s -> exists n, alg_is a n /\ jwk_alg_name s = lit n.

(** RFC 8037, 3.1: octet keys sign with EdDSA. RFC 7518, 3.4 and RFC 8812, 3.2:
    elliptic curve keys sign with ES256, ES384, ES512, ES256K. RSA and symmetric keys
    are left out, they are refused anyway (C53). *)
Inductive suits (k : jwk) : proof_alg -> Prop :=
| suits_octets bytes : jwk_parameters k = POKP bytes -> stated_is k EdDSA -> suits k EdDSA
| suits_curve x a : jwk_parameters k = PEC x -> In a [ES256; ES384; ES512; ES256K] -> stated_is k a -> suits k a.

(** A key that states no algorithm that is not for its type. *)
Definition well_stated (k : jwk) : Prop :=
  (forall bytes, jwk_parameters k = POKP bytes -> stated_is k EdDSA)
  /\ (forall x, jwk_parameters k = PEC x -> jwk_algorithm k <> Some JAEdDSA).

(** The same proof with another algorithm in its header. *)
Definition with_alg (a : proof_alg) (j : proof_jwt) : proof_jwt :=
  {| j_header := {| h_typ := h_typ (j_header j); h_alg := a; h_additional := h_additional (j_header j) |};
     j_body := j_body j; j_signature := j_signature j |}.
