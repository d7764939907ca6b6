(** Vocabulary for C108 and C112: sizes. *)
From Verif Require Import Model.Prelude Model.Json Model.Types Model.Deps Spec SpecHops.

(** [n] elements of the list have the property. *)
Inductive counts {A : Type} (P : A -> Prop) : list A -> nat -> Prop :=
| counts_end : counts P [] 0
| counts_one x l n : P x -> counts P l n -> counts P (x :: l) (S n)
| counts_other x l n : ~ P x -> counts P l n -> counts P (x :: l) n.

(** The values in a document: itself, elements, members, theirs, and so on. *)
Fixpoint values (j : json) : nat :=
  match j with
  | JArr l => S (list_sum (map values l))
  | JObj m => S (list_sum (map (fun kv : str * json => values (snd kv)) m))
  | _ => 1
  end%nat.

(** The bytes of its strings and of the names of its members. *)
Fixpoint letters (j : json) : nat :=
  match j with
  | JStr s => List.length s
  | JArr l => list_sum (map letters l)
  | JObj m => list_sum (map (fun kv : str * json => List.length (fst kv) + letters (snd kv)) m)
  | _ => 0
  end%nat.

(** Dates are written in few characters. *)
Definition dates_brief (d : deps) : Prop :=
  forall t, in_instant_range t = true -> (List.length (dt_print d t) <= 33)%nat.

(** However often a document is passed on, its text has at most 240 times the length
    of the text it came from. *)
Definition not_amplified {A : Type} (read : str -> option A) (write : A -> str) : Prop :=
  forall k s t, passed_on read write k s = Some t -> (List.length t <= 240 * List.length s)%nat.
