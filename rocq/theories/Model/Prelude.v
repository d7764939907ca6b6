(** Common vocabulary of the model: byte strings, Rust [Result] with an explicit
    panic value, the [str] methods used by the code, [HashMap] as association
    list. No proofs in this file. *)
From Coq Require Export List Ascii String NArith ZArith Bool.
Export ListNotations.
Open Scope list_scope.
Open Scope N_scope.

(** A Rust [String]/[&str]/[Vec<u8>] is its byte sequence (UTF-8 for strings). *)
Definition str : Type := list ascii.

(** ASCII string literal of the Rust source. *)
Definition lit (s : string) : str := list_ascii_of_string s.
Arguments lit : simpl never.

(** [u8] value of a byte and back. *)
Definition code (a : ascii) : N := N_of_ascii a.
Definition chr (n : N) : ascii := ascii_of_N n.
Arguments code : simpl never.
Arguments chr : simpl never.

(** Rust [Result<A, E>], extended by the outcome "the call panicked". *)
Inductive res (E A : Type) : Type :=
| Ok (a : A)
| Err (e : E)
| Panic.
Arguments Ok {E A} a.
Arguments Err {E A} e.
Arguments Panic {E A}.

(** The [?] operator (same error type). *)
Definition bind {E A B : Type} (r : res E A) (k : A -> res E B) : res E B :=
  match r with
  | Ok a => k a
  | Err e => Err e
  | Panic => Panic
  end.
Notation "'let?' x := e 'in' k" := (bind e (fun x => k))
  (at level 200, x name, e at level 100, k at level 200).

(** [Result::map_err]; also the [From] conversion that [?] performs. *)
Definition map_err {E F A : Type} (f : E -> F) (r : res E A) : res F A :=
  match r with
  | Ok a => Ok a
  | Err e => Err (f e)
  | Panic => Panic
  end.

(** [Option::ok_or]. *)
Definition ok_or {E A : Type} (o : option A) (e : E) : res E A :=
  match o with Some a => Ok a | None => Err e end.

Definition is_some {A : Type} (o : option A) : bool :=
  match o with Some _ => true | None => false end.
Definition is_none {A : Type} (o : option A) : bool := negb (is_some o).

Definition opt_bind {A B : Type} (o : option A) (f : A -> option B) : option B :=
  match o with Some a => f a | None => None end.
Notation "'let*' x := e 'in' k" := (opt_bind e (fun x => k))
  (at level 200, x name, e at level 100, k at level 200).

(** [==] on strings and on [Option<String>]. *)
Fixpoint str_eqb (a b : str) : bool :=
  match a, b with
  | [], [] => true
  | x :: a', y :: b' => Ascii.eqb x y && str_eqb a' b'
  | _, _ => false
  end.

Definition opt_str_eqb (a b : option str) : bool :=
  match a, b with
  | Some x, Some y => str_eqb x y
  | None, None => true
  | _, _ => false
  end.

Fixpoint mem_str (s : str) (l : list str) : bool :=
  match l with [] => false | x :: l' => str_eqb s x || mem_str s l' end.

(** [str::split(char)] for an ASCII separator: always at least one part. *)
Fixpoint split_on (c : ascii) (s : str) : list str :=
  match s with
  | [] => [[]]
  | x :: r =>
      if Ascii.eqb x c then [] :: split_on c r
      else match split_on c r with
           | h :: t => (x :: h) :: t
           | [] => [[x]]
           end
  end.

(** Text before and after the first occurrence of a separator. *)
Fixpoint cut (c : ascii) (s : str) : option (str * str) :=
  match s with
  | [] => None
  | x :: r =>
      if Ascii.eqb x c then Some ([], r)
      else match cut c r with
           | Some (a, b) => Some (x :: a, b)
           | None => None
           end
  end.

(** [str::splitn(n, char)]: at most [n] parts, the last one unsplit. *)
Fixpoint splitn_on (n : nat) (c : ascii) (s : str) : list str :=
  match n with
  | O => []
  | S O => [s]
  | S m => match cut c s with
           | Some (a, b) => a :: splitn_on m c b
           | None => [s]
           end
  end.

(** [str::matches(char).count()]. *)
Fixpoint count (c : ascii) (s : str) : nat :=
  match s with
  | [] => O
  | x :: r => if Ascii.eqb x c then S (count c r) else count c r
  end.

(** [[String]::join]. *)
Fixpoint join (sep : str) (l : list str) : str :=
  match l with
  | [] => []
  | [x] => x
  | x :: l' => x ++ sep ++ join sep l'
  end.

(** [HashMap<String, V>]: association list whose order is the (arbitrary)
    iteration order. Keys are distinct, see [hmap_wf] in Spec.v. *)
Definition hmap (V : Type) : Type := list (str * V).

(** [HashMap::insert]: replaces the value of a present key. *)
Fixpoint hmap_insert {V : Type} (k : str) (v : V) (m : hmap V) : hmap V :=
  match m with
  | [] => [(k, v)]
  | (k', v') :: m' =>
      if str_eqb k k' then (k', v) :: m' else (k', v') :: hmap_insert k v m'
  end.

(** First value stored under a key. *)
Fixpoint assoc {V : Type} (k : str) (m : list (str * V)) : option V :=
  match m with
  | [] => None
  | (k', v) :: m' => if str_eqb k k' then Some v else assoc k m'
  end.

(** Sequencing of options over a list, used for [Vec<T>] decoding. *)
Fixpoint map_opt {A B : Type} (f : A -> option B) (l : list A) : option (list B) :=
  match l with
  | [] => Some []
  | x :: l' =>
      match f x with
      | Some y => match map_opt f l' with Some ys => Some (y :: ys) | None => None end
      | None => None
      end
  end.

(** Decimal rendering of an unsigned integer ([itoa]); the fuel is the bit size,
    which bounds the number of decimal digits. *)
Fixpoint dec_digits (fuel : nat) (n : N) (acc : str) : str :=
  match fuel with
  | O => acc
  | S f =>
      let acc' := chr (48 + n mod 10) :: acc in
      if n <? 10 then acc' else dec_digits f (n / 10) acc'
  end.
Definition dec (n : N) : str := dec_digits (S (N.to_nat (N.size n))) n [].

(** Decimal rendering of a signed integer. *)
Definition decZ (z : Z) : str :=
  match z with
  | Z0 => dec 0
  | Zpos p => dec (Npos p)
  | Zneg p => chr 45 :: dec (Npos p)
  end.

(** The number that decimal digits denote. *)
Definition digits_val (s : str) : N := fold_left (fun acc b => acc * 10 + (code b - 48)) s 0.
