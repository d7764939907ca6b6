(** Specifications that leave no outcome open. *)
From Verif Require Import Model.Prelude.

(** An outcome that the specification allows: an answer for which [ok] holds, an
    error for which [err] holds, a panic if [panics]. *)
Inductive allowed {E A : Type} (ok : A -> Prop) (err : E -> Prop) (panics : Prop) : res E A -> Prop :=
| allowed_ok a : ok a -> allowed ok err panics (Ok a)
| allowed_err e : err e -> allowed ok err panics (Err e)
| allowed_panic : panics -> allowed ok err panics Panic.

(** A specification that allows one outcome only, and that one is [f]. *)
Definition determines {E A : Type} (spec : res E A -> Prop) (f : res E A) : Prop :=
  (exists! x, spec x) /\ forall g, spec g -> g = f.
