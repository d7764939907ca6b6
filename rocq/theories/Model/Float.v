(** Numbers that are not 64-bit integers: what [serde_json] 1.0 built without
    [arbitrary_precision] and [float_roundtrip] reads them to
    ([Deserializer::parse_integer], [parse_decimal], [parse_exponent],
    [f64_from_parts]), and the text that [ryu] writes for them. The crate has no
    floating point field; such numbers occur in free-form members
    (types/credential_issuer_metadata.rs:38-40, types/credential.rs:17-18,
    error_response.rs:20-22, error.rs:28-30). *)
From Verif Require Import Model.Prelude.

(* ------------------------------------------------------------------ *)
(** * [f64] without its sign *)

(** [mantissa * 2 ^ exponent]. *)
Record f64 : Type := { mantissa : N; exponent : Z }.

Definition min_exponent : Z := -1074.
Definition max_exponent : Z := 971.

(** [2 ^ z] for [z >= 0], and 1 below. *)
Definition pow2 (z : Z) : N := 2 ^ Z.to_N z.
Definition pow10 (z : Z) : N := 10 ^ Z.to_N z.

(** Quotient rounded to the nearest integer, ties to even. *)
Definition div_even (n d : N) : N :=
  let q := n / d in
  match 2 * (n mod d) ?= d with
  | Lt => q
  | Gt => q + 1
  | Eq => if N.even q then q else q + 1
  end.

(** [n / d] rounded to an [f64] (IEEE 754, round to nearest, ties to even);
    [None] is infinity. *)
Definition nearest (n d : N) : option f64 :=
  if n =? 0 then Some {| mantissa := 0; exponent := min_exponent |}
  else
    let e0 := (Z.of_N (N.log2 n) - Z.of_N (N.log2 d) - 53)%Z in
    let e1 := if n * pow2 (- e0) <? pow2 53 * d * pow2 e0 then e0 else (e0 + 1)%Z in
    let e := Z.max e1 min_exponent in
    let m := div_even (n * pow2 (- e)) (d * pow2 e) in
    let f := if m =? pow2 53 then {| mantissa := pow2 52; exponent := (e + 1)%Z |}
             else {| mantissa := m; exponent := e |} in
    if (exponent f <=? max_exponent)%Z then Some f else None.

(** [*] and [/]; division by zero does not occur. *)
Definition f64_mul (x y : f64) : option f64 :=
  let e := (exponent x + exponent y)%Z in
  nearest (mantissa x * mantissa y * pow2 e) (pow2 (- e)).
Definition f64_div (x y : f64) : option f64 :=
  let e := (exponent x - exponent y)%Z in
  nearest (mantissa x * pow2 e) (mantissa y * pow2 (- e)).

(** [as f64] of an integer, and the constants [1e0] to [1e308]. *)
Definition f64_of (n : N) : option f64 := nearest n 1.

(* ------------------------------------------------------------------ *)
(** * Reading *)

(** [f64_from_parts]: the significand times a power of ten. Three rounds suffice
    (Proofs/FloatFacts.v: a 64-bit significand is zero after the second). *)
Fixpoint scale (rounds : nat) (x : f64) (e : Z) : option f64 :=
  if (Z.abs e <=? 308)%Z then
    let* p := f64_of (pow10 (Z.abs e)) in
    if (0 <=? e)%Z then f64_mul x p else f64_div x p
  else if mantissa x =? 0 then Some x
  else if (0 <=? e)%Z then None
  else
    match rounds with
    | O => Some x
    | S r =>
        let* p := f64_of (pow10 308) in
        let* y := f64_div x p in
        scale r y (e + 308)
    end.

(** Digits are taken into the 64-bit significand until the next one does not fit;
    returns the rest. *)
Fixpoint grow (n : N) (ds : str) : N * str :=
  match ds with
  | [] => (n, [])
  | c :: r =>
      let n' := n * 10 + (code c - 48) in
      if n' <=? 18446744073709551615 then grow n' r else (n, ds)
  end.

(** The number after [e], counted exactly; the program counts in an [i32]
    (FloatCount.v). *)
Definition exp_value (ex : str) : Z :=
  match ex with
  | _ :: c :: d =>
      if Ascii.eqb c "-"%char then (- Z.of_N (digits_val d))%Z
      else if Ascii.eqb c "+"%char then Z.of_N (digits_val d)
      else Z.of_N (digits_val (c :: d))
  | _ => 0%Z
  end.

(** Integer digits, fraction with its point, exponent with its [e]. The fraction is
    still tried when integer digits were dropped. *)
Definition read_f64 (int fr ex : str) : option f64 :=
  let (n1, r1) := grow 0 int in
  let ds := tl fr in
  let (n2, r2) := grow n1 ds in
  let e := (Z.of_nat (List.length r1) - Z.of_nat (List.length ds - List.length r2) + exp_value ex)%Z in
  let* x := f64_of n2 in
  scale 3 x e.

(* ------------------------------------------------------------------ *)
(** * Writing ([ryu::Buffer::format_finite]) *)

(** The ends of the interval of numbers that round to [x], and [x], in quarters of
    its last place; the gap below a power of two is half as wide. *)
Definition quarter_low (x : f64) : N :=
  if (mantissa x =? pow2 52) && (min_exponent <? exponent x)%Z then 4 * mantissa x - 1
  else 4 * mantissa x - 2.
Definition quarter_high (x : f64) : N := 4 * mantissa x + 2.

(** [x] in units of [10 ^ k], as a fraction, from its quarters. *)
Definition unit_num (x : f64) (k : Z) (quarters : N) : N :=
  quarters * pow2 (exponent x - 2) * pow10 (- k).
Definition unit_den (x : f64) (k : Z) : N := pow2 (2 - exponent x) * pow10 k.

(** The first and the last multiple of [10 ^ k] in the interval; the ends belong to
    it if the mantissa is even. *)
Definition first_in (x : f64) (k : Z) : N :=
  let n := unit_num x k (quarter_low x) in let d := unit_den x k in
  if N.even (mantissa x) && (n mod d =? 0) then n / d else n / d + 1.
Definition last_in (x : f64) (k : Z) : N :=
  let n := unit_num x k (quarter_high x) in let d := unit_den x k in
  if negb (N.even (mantissa x)) && (n mod d =? 0) then n / d - 1 else n / d.

(** The greatest [k] for which there is one, from [k] downwards. *)
Fixpoint coarsest (fuel : nat) (x : f64) (k : Z) : Z :=
  match fuel with
  | O => k
  | S f => if first_in x k <=? last_in x k then k else coarsest f x (k - 1)
  end.

(** A power of ten above [x]. *)
Definition above (x : f64) : Z :=
  let b := (Z.of_N (N.log2 (mantissa x)) + exponent x + 2)%Z in
  if (0 <=? b)%Z then (b / 3 + 1)%Z else (- (- b / 4))%Z.

(** The shortest digits, as near to [x] as possible: [d * 10 ^ k]. *)
Definition shortest (x : f64) : N * Z :=
  let k := coarsest (Z.to_nat (above x - Z.min (exponent x) 0)) x (above x) in
  let near := div_even (unit_num x k (4 * mantissa x)) (unit_den x k) in
  (N.max (first_in x k) (N.min (last_in x k) near), k).

(** The layout of [ryu::pretty::format64]. *)
Definition layout (d : N) (k : Z) : str :=
  let ds := dec d in
  let n := Z.of_nat (List.length ds) in
  let kk := (n + k)%Z in
  let zeros (z : Z) := repeat "0"%char (Z.to_nat z) in
  if (0 <=? k)%Z && (kk <=? 16)%Z then ds ++ zeros k ++ lit ".0"
  else if (0 <? kk)%Z && (kk <=? 16)%Z then
    firstn (Z.to_nat kk) ds ++ lit "." ++ skipn (Z.to_nat kk) ds
  else if (-5 <? kk)%Z && (kk <=? 0)%Z then lit "0." ++ zeros (- kk)%Z ++ ds
  else firstn 1 ds ++ (if (n =? 1)%Z then [] else lit "." ++ skipn 1 ds) ++ lit "e" ++ decZ (kk - 1).

Definition write_f64 (neg : bool) (x : f64) : str :=
  (if neg then lit "-" else [])
  ++ (if mantissa x =? 0 then lit "0.0" else let (d, k) := shortest x in layout d k).

(** The number token with these parts, as it is written after having been read;
    [None] is the error "number out of range". *)
Definition float_text (neg : bool) (int fr ex : str) : option str :=
  option_map (write_f64 neg) (read_f64 int fr ex).
Arguments float_text : simpl never.
