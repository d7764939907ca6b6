(** The exponent of a number as [serde_json] 1.0 counts it, in an [i32]
    ([Deserializer::parse_exponent], [parse_exponent_overflow]); [Float.read_f64]
    counts exactly. Such numbers occur in the free-form members listed in Float.v
    (types/credential_issuer_metadata.rs:38-40, types/credential.rs:17-18). *)
From Verif Require Import Model.Prelude Model.Float.

(** The macro [overflow!(a * 10 + b, i32::MAX)]. *)
Definition overflows (a b : Z) : bool :=
  ((214748364 <=? a) && ((214748364 <? a) || (7 <? b)))%Z.

(** The digits of the exponent; [None] if they do not fit. *)
Fixpoint count (acc : Z) (ds : str) : option Z :=
  match ds with
  | [] => Some acc
  | c :: r =>
      let v := Z.of_N (code c - 48) in
      if overflows acc v then None else count (acc * 10 + v)%Z r
  end.

(** [saturating_add] and [saturating_sub]. *)
Definition saturate (z : Z) : Z := Z.max (-2147483648) (Z.min z 2147483647).

(** The sign after [e] and the digits. *)
Definition exp_sign (s : str) : bool * str :=
  match s with
  | c :: d => if Ascii.eqb c "-"%char then (true, d) else if Ascii.eqb c "+"%char then (false, d) else (false, s)
  | [] => (false, [])
  end.

(** [read_f64] with the program's counting. *)
Definition read_f64_i32 (int fr ex : str) : option f64 :=
  let (n1, r1) := grow 0 int in
  let ds := tl fr in
  let (n2, r2) := grow n1 ds in
  let start := (Z.of_nat (List.length r1) - Z.of_nat (List.length ds - List.length r2))%Z in
  match ex with
  | [] => let* x := f64_of n2 in scale 3 x start
  | _ :: s =>
      let (negative, d) := exp_sign s in
      match count 0 d with
      | None => if (n2 =? 0) || negative then Some {| mantissa := 0; exponent := min_exponent |} else None
      | Some v =>
          let* x := f64_of n2 in
          scale 3 x (saturate (if negative then start - v else start + v)%Z)
      end
  end.
