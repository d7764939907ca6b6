(** Vocabulary for C116: texts that were cut off. *)
From Verif Require Import Model.Prelude Model.Json Spec SpecJson.

(** What is left of a text whose end was lost, or what a text was before something
    was added to its end: [s] is [p] and [rest]. If both are read, they are read as the
    same value, and nothing but white space was lost or added. *)
Definition whole_only {A : Type} (read : str -> option A) : Prop :=
  forall p rest x x', read (p ++ rest) = Some x -> read p = Some x' -> x' = x /\ white rest.

(** A signature of which the end, or all, is missing. *)
Inductive signature_cut : option str -> option str -> Prop :=
| sg_missing sig : signature_cut sig None
| sg_shorter sig more : signature_cut (Some (sig ++ more)) (Some sig).
