(** Vocabulary for C104: a document passed on many times. *)
From Verif Require Import Model.Prelude.

(** [n] parties in a row read the document and pass on what they write for it. *)
Fixpoint passed_on {A : Type} (read : str -> option A) (write : A -> str) (n : nat) (s : str) : option str :=
  match n with
  | O => Some s
  | S n => match read s with Some x => passed_on read write n (write x) | None => None end
  end.

(** [r] applied [n] times. *)
Fixpoint times (n : nat) (r : str -> str) (s : str) : str :=
  match n with O => s | S n => times n r (r s) end.
