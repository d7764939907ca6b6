(** Numbers that are not 64-bit integers: which [f64] a text is read to, and which
    text is written for it. Independent of the functions in Model.Float; only the
    type [f64], a pair of mantissa and exponent, is shared. *)
From Coq Require Import QArith Qabs.
From Verif Require Import Model.Prelude Model.Float.
Open Scope N_scope.

(* ------------------------------------------------------------------ *)
(** * Tokens *)

(** A decimal digit. *)
Definition digit (c : ascii) : Prop := 48 <= code c <= 57.
Definition digits (d : str) : Prop := d <> [] /\ Forall digit d.

(** Value of a digit string. *)
Fixpoint digits_value (acc : N) (d : str) : N :=
  match d with [] => acc | c :: r => digits_value (acc * 10 + (code c - 48)) r end.

(** The parts of a number token (RFC 8259, 6): sign, integer, fraction with its
    point, exponent with its [e]. *)
Definition number_parts (s neg int frac exp : str) : Prop :=
  s = neg ++ int ++ frac ++ exp
  /\ (neg = [] \/ neg = ["-"%char])
  /\ digits int /\ (hd_error int = Some "0"%char -> int = ["0"%char])
  /\ (frac = [] \/ exists d, frac = "."%char :: d /\ digits d)
  /\ (exp = [] \/ exists e sign d,
        exp = e :: sign ++ d /\ (e = "e"%char \/ e = "E"%char)
        /\ (sign = [] \/ sign = ["+"%char] \/ sign = ["-"%char]) /\ digits d).

(** It is not an integer in [-2^63, 2^64-1]. *)
Definition not_integer (neg int frac exp : str) : Prop :=
  frac ++ exp <> []
  \/ (neg = [] /\ 2 ^ 64 <= digits_value 0 int)
  \/ (neg <> [] /\ (2 ^ 63 < digits_value 0 int \/ digits_value 0 int = 0)).

Definition float_lexeme (s : str) : Prop :=
  exists neg int frac exp, number_parts s neg int frac exp /\ not_integer neg int frac exp.

(** The number after [e]. *)
Definition exponent_value (exp : str) (e : Z) : Prop :=
  (exp = [] /\ e = 0%Z)
  \/ exists c sign d, exp = c :: sign ++ d /\ digits d
     /\ ((sign = ["-"%char] /\ e = (- Z.of_N (digits_value 0 d))%Z)
         \/ ((sign = [] \/ sign = ["+"%char]) /\ e = Z.of_N (digits_value 0 d))).

(* ------------------------------------------------------------------ *)
(** * [f64] (IEEE 754 binary64, finite and not negative) *)

Definition Q_of_N (n : N) : Q := inject_Z (Z.of_N n).

(** The number it stands for. *)
Definition f64_value (x : f64) : Q := Q_of_N (mantissa x) * 2 ^ exponent x.

(** Every value has one representation: normal numbers have 53 bits, subnormal ones
    and zero the least exponent. *)
Definition finite_f64 (x : f64) : Prop :=
  (2 ^ 52 <= mantissa x < 2 ^ 53 /\ (-1074 <= exponent x <= 971)%Z)
  \/ (mantissa x < 2 ^ 52 /\ exponent x = (-1074)%Z).

(** Half way to the neighbours; the gap below a power of two is half as wide. *)
Definition half_below (x : f64) (q : Q) : Prop :=
  (mantissa x = 2 ^ 52 /\ exponent x <> (-1074)%Z /\ q == (Q_of_N (mantissa x) - (1 # 4)) * 2 ^ exponent x)
  \/ ((mantissa x <> 2 ^ 52 \/ exponent x = (-1074)%Z)
      /\ q == (Q_of_N (mantissa x) - (1 # 2)) * 2 ^ exponent x).
Definition half_above (x : f64) (q : Q) : Prop := q == (Q_of_N (mantissa x) + (1 # 2)) * 2 ^ exponent x.

(** [q] is rounded to [x]: to the nearest, ties to even. *)
Definition rounds_to (q : Q) (x : f64) : Prop :=
  finite_f64 x
  /\ exists l h, half_below x l /\ half_above x h
     /\ ((l < q)%Q \/ (l == q /\ N.even (mantissa x) = true))
     /\ ((q < h)%Q \/ (q == h /\ N.even (mantissa x) = true)).

(* ------------------------------------------------------------------ *)
(** * Reading *)

(** The digits that fit in 64 bits are used, the others are dropped. *)
Definition digits_used (n : N) (ds : str) (n' : N) (dropped : str) : Prop :=
  exists used, ds = used ++ dropped /\ n' = digits_value n used /\ n' < 2 ^ 64
    /\ (forall c r, dropped = c :: r -> 2 ^ 64 <= n' * 10 + (code c - 48)).

(** [x * 10 ^ e] is computed with one multiplication by or division by the [f64] of
    a power of ten, or several divisions if [e] is less than -308. *)
Inductive scaled : f64 -> Z -> f64 -> Prop :=
| scaled_up x e p y : (0 <= e <= 308)%Z ->
    rounds_to (10 ^ e) p -> rounds_to (f64_value x * f64_value p) y -> scaled x e y
| scaled_down x e p y : (-308 <= e < 0)%Z ->
    rounds_to (10 ^ (- e)) p -> rounds_to (f64_value x / f64_value p) y -> scaled x e y
| scaled_zero x e : (e < -308 \/ 308 < e)%Z -> mantissa x = 0 -> scaled x e x
| scaled_far x e p y z : (e < -308)%Z -> mantissa x <> 0 ->
    rounds_to (10 ^ 308) p -> rounds_to (f64_value x / f64_value p) y ->
    scaled y (e + 308) z -> scaled x e z.

(** The [f64] that a number token is read to, without its sign. *)
Definition read_as (int frac exp : str) (x : f64) : Prop :=
  exists n1 r1 n2 r2 e x0,
    digits_used 0 int n1 r1 /\ digits_used n1 (tl frac) n2 r2 /\ exponent_value exp e
    /\ rounds_to (Q_of_N n2) x0
    /\ scaled x0 (Z.of_nat (List.length r1) - Z.of_nat (List.length (tl frac) - List.length r2) + e) x.

(* ------------------------------------------------------------------ *)
(** * Writing *)

Definition decimal_value (d : N) (k : Z) : Q := Q_of_N d * 10 ^ k.

(** [d * 10 ^ k] has the fewest digits of all decimal numbers that are rounded to
    [x], and no other of them is nearer to [x]. *)
Definition shortest_decimal (x : f64) (d : N) (k : Z) : Prop :=
  rounds_to (decimal_value d k) x
  /\ (forall d' k', rounds_to (decimal_value d' k') x -> (k' <= k)%Z)
  /\ (forall d', rounds_to (decimal_value d' k) x ->
        (Qabs (decimal_value d k - f64_value x) < Qabs (decimal_value d' k - f64_value x))%Q
        \/ (Qabs (decimal_value d k - f64_value x) == Qabs (decimal_value d' k - f64_value x)
            /\ (d = d' \/ N.even d = true))).

(** Decimal text of a natural number: digits, no superfluous leading zero. *)
Definition decimal_text (n : N) (s : str) : Prop :=
  digits s /\ digits_value 0 s = n /\ (hd_error s = Some "0"%char -> s = ["0"%char]).
Definition integer_text (z : Z) (s : str) : Prop :=
  ((0 <= z)%Z /\ decimal_text (Z.to_N z) s)
  \/ ((z < 0)%Z /\ exists t, s = "-"%char :: t /\ decimal_text (Z.to_N (- z)) t).

(** The layout of [d * 10 ^ k], [n] digits [ds]: with a point if the number is less
    than 10^16 and not less than 10^-5, in scientific notation otherwise. *)
Inductive decimal_layout (d : N) (k : Z) : str -> Prop :=
| dl_integer ds zeros : decimal_text d ds -> (0 <= k)%Z -> (Z.of_nat (List.length ds) + k <= 16)%Z ->
    Forall (eq "0"%char) zeros -> Z.of_nat (List.length zeros) = k ->
    decimal_layout d k (ds ++ zeros ++ lit ".0")
| dl_point a b : decimal_text d (a ++ b) -> a <> [] -> b <> [] -> (List.length a <= 16)%nat ->
    k = (- Z.of_nat (List.length b))%Z ->
    decimal_layout d k (a ++ lit "." ++ b)
| dl_fraction ds zeros : decimal_text d ds -> (List.length zeros < 5)%nat -> Forall (eq "0"%char) zeros ->
    (Z.of_nat (List.length ds) + k = - Z.of_nat (List.length zeros))%Z ->
    decimal_layout d k (lit "0." ++ zeros ++ ds)
| dl_scientific_1 c ex : decimal_text d [c] -> (k < -5 \/ 15 < k)%Z -> integer_text k ex ->
    decimal_layout d k ([c] ++ lit "e" ++ ex)
| dl_scientific c ds ex : decimal_text d (c :: ds) -> ds <> [] ->
    (Z.of_nat (List.length ds) + k < -5 \/ 15 < Z.of_nat (List.length ds) + k)%Z ->
    integer_text (Z.of_nat (List.length ds) + k) ex ->
    decimal_layout d k ([c] ++ lit "." ++ ds ++ lit "e" ++ ex).

(** The text written for [x]. *)
Definition written_as (neg : str) (x : f64) (t : str) : Prop :=
  (mantissa x = 0 /\ t = neg ++ lit "0.0")
  \/ (mantissa x <> 0 /\ exists d k u, shortest_decimal x d k /\ decimal_layout d k u /\ t = neg ++ u).

(** The token [s] is read to a number that is written [t]. *)
Definition float_becomes (s t : str) : Prop :=
  exists neg int frac exp x,
    number_parts s neg int frac exp /\ not_integer neg int frac exp
    /\ read_as int frac exp x /\ written_as neg x t.

(** Texts of numbers that are read to the number they are written for. *)
Definition float_kept (s : str) : Prop := float_becomes s s.

(* ------------------------------------------------------------------ *)
(** * Values *)

(** The number that a token denotes. *)
Definition number_value (s : str) (q : Q) : Prop :=
  exists neg int frac exp e,
    number_parts s neg int frac exp /\ exponent_value exp e
    /\ q == (match neg with [] => 1 | _ => -1 end)
            * decimal_value (digits_value 0 (int ++ tl frac)) (e - Z.of_nat (List.length (tl frac))).

(** A number with a fraction or an exponent whose digits are those of [n], and
    [n * 10 ^ e] apart from the sign. *)
Definition decimal_token (s : str) (n : N) (e : Z) : Prop :=
  exists neg int frac exp x,
    number_parts s neg int frac exp /\ not_integer neg int frac exp /\ exponent_value exp x
    /\ n = digits_value 0 (int ++ tl frac) /\ e = (x - Z.of_nat (List.length (tl frac)))%Z.
