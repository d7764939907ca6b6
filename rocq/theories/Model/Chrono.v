(** Timestamps as text. [DateTime<Utc>] is a field type of the crate
    (jwt/mod.rs:514,528,537; credential_issuer/mod.rs:403; jwt/error.rs:20-33;
    credential_issuer/error.rs:58-89); its serde form and [Display] are those of
    chrono 0.4.24 (Cargo.lock:258), whose source is not in /repo. The theorems
    about the crate leave them abstract ([Deps.v]); this file gives the concrete
    functions, an instance of the abstract ones. *)
From Verif Require Import Model.Prelude Model.Json Model.Types Model.Deps.
Local Open Scope Z_scope.

(* ------------------------------------------------------------------ *)
(** * The calendar (proleptic Gregorian, as [chrono::NaiveDate]). chrono works
      with tables of 400-year cycles, here the same dates are computed directly. *)

Definition is_leap (y : Z) : bool :=
  (y mod 4 =? 0) && (negb (y mod 100 =? 0) || (y mod 400 =? 0)).

Definition month_lengths (y : Z) : list Z :=
  [31; (if is_leap y then 29 else 28); 31; 30; 31; 30; 31; 31; 30; 31; 30; 31].

(** Days from 0001-01-01 to the first day of year [y]. *)
Definition days_before_year (y : Z) : Z :=
  365 * (y - 1) + (y - 1) / 4 - (y - 1) / 100 + (y - 1) / 400.

(** Days from 0001-01-01 to 1970-01-01. *)
Definition epoch_days : Z := 719162.

(** The year of a day counted from 0001-01-01: the average year is 146097/400
    days long, and the estimate is off by at most one. *)
Definition year_of_day (n : Z) : Z :=
  let y := (400 * n) / 146097 + 1 in
  if n <? days_before_year y then y - 1
  else if days_before_year (y + 1) <=? n then y + 1
  else y.

(** Month and day of a day of the year (counted from 0). *)
Fixpoint month_and_day (m o : Z) (lengths : list Z) : Z * Z :=
  match lengths with
  | [] => (m, o + 1)
  | l :: r => if o <? l then (m, o + 1) else month_and_day (m + 1) (o - l) r
  end.

(** Year, month and day of a day counted from 1970-01-01. *)
Definition date_of_day (n : Z) : Z * Z * Z :=
  let n := n + epoch_days in
  let y := year_of_day n in
  let (m, d) := month_and_day 1 (n - days_before_year y) (month_lengths y) in
  (y, m, d).

Definition sum (l : list Z) : Z := fold_right Z.add 0 l.

(** [NaiveDate::from_ymd_opt]; the year range of chrono is checked. *)
Definition day_of_date (y m d : Z) : option Z :=
  if (-262144 <=? y) && (y <=? 262143) && (1 <=? m) && (m <=? 12) && (1 <=? d)
     && (d <=? nth (Z.to_nat (m - 1)) (month_lengths y) 0)
  then Some (days_before_year y + sum (firstn (Z.to_nat (m - 1)) (month_lengths y)) + d - 1 - epoch_days)
  else None.

(* ------------------------------------------------------------------ *)
(** * Writing: the [Debug] form of [DateTime<Utc>], used by its [Serialize] *)

(** The last [k] decimal digits. *)
Fixpoint digits_fixed (k : nat) (n : N) : str :=
  match k with
  | O => []
  | S k' => (digits_fixed k' (n / 10) ++ [chr (48 + n mod 10)])%N
  end.

(** Years outside 0..9999 get a sign ([{:+05}]). *)
Definition year_text (y : Z) : str :=
  let n := Z.to_N (Z.abs y) in
  let digits := if (n <? 10000)%N then digits_fixed 4 n else dec n in
  if y <? 0 then "-"%char :: digits
  else if y <=? 9999 then digits
  else "+"%char :: digits.

Definition two (n : Z) : str := digits_fixed 2 (Z.to_N n).

(** No fraction, or milli-, micro- or nanoseconds, whichever is exact. *)
Definition fraction_text (nano : Z) : str :=
  if nano =? 0 then []
  else if nano mod 1000000 =? 0 then "."%char :: digits_fixed 3 (Z.to_N (nano / 1000000))
  else if nano mod 1000 =? 0 then "."%char :: digits_fixed 6 (Z.to_N (nano / 1000))
  else "."%char :: digits_fixed 9 (Z.to_N nano).

Definition chrono_date (t : instant) : str :=
  let '(y, m, d) := date_of_day (t / 1000000000 / 86400) in
  year_text y ++ lit "-" ++ two m ++ lit "-" ++ two d.

Definition chrono_time (t : instant) : str :=
  let s := (t / 1000000000) mod 86400 in
  two (s / 3600) ++ lit ":" ++ two (s / 60 mod 60) ++ lit ":" ++ two (s mod 60)
  ++ fraction_text (t mod 1000000000).

(** The serde form. *)
Definition chrono_print (t : instant) : str := chrono_date t ++ lit "T" ++ chrono_time t ++ lit "Z".

(** [Display]. *)
Definition chrono_display (t : instant) : str :=
  chrono_date t ++ lit " " ++ chrono_time t ++ lit " UTC".

(* ------------------------------------------------------------------ *)
(** * Reading: [DateTime<FixedOffset>::from_str], converted to UTC. Simplified:
      only the RFC 3339 form with the years of the writer is read; chrono also
      tolerates blanks, a blank for the [T], a lower-case [z], single digits and
      second 60, and its error values are not modelled. *)

Definition read_fixed (k : nat) (s : str) : option (Z * str) :=
  let d := firstn k s in
  if Nat.eqb (List.length d) k && forallb is_digit d
  then Some (Z.of_N (digits_val d), skipn k s)
  else None.

(** Any number of digits, at least one. *)
Definition read_digits (s : str) : option (str * str) :=
  match take_digits s with ([], _) => None | r => Some r end.

Definition read_year (s : str) : option (Z * str) :=
  match s with
  | b :: r =>
      if Ascii.eqb b "+"%char then
        let* x := read_digits r in Some (Z.of_N (digits_val (fst x)), snd x)
      else if Ascii.eqb b "-"%char then
        let* x := read_digits r in Some (- Z.of_N (digits_val (fst x)), snd x)
      else read_fixed 4 s
  | [] => None
  end.

(** Digits after the ninth are dropped. *)
Definition read_fraction (s : str) : option (Z * str) :=
  match s with
  | b :: r =>
      if Ascii.eqb b "."%char then
        let* x := read_digits r in
        Some (Z.of_N (digits_val (fst x) * 10 ^ 9 / 10 ^ N.of_nat (List.length (fst x))), snd x)
      else Some (0, s)
  | [] => Some (0, s)
  end.

(** Offset from UTC in minutes. *)
Definition read_offset (s : str) : option (Z * str) :=
  match s with
  | b :: r =>
      if Ascii.eqb b "Z"%char then Some (0, r)
      else if Ascii.eqb b "+"%char || Ascii.eqb b "-"%char then
        let* h := read_fixed 2 r in
        let* r := expect (lit ":") (snd h) in
        let* m := read_fixed 2 r in
        if (fst h <? 24) && (fst m <? 60) then
          let off := 60 * fst h + fst m in
          Some (if Ascii.eqb b "-"%char then - off else off, snd m)
        else None
      else None
  | [] => None
  end.

Definition chrono_parse (s : str) : option instant :=
  let* y := read_year s in
  let* r := expect (lit "-") (snd y) in
  let* mo := read_fixed 2 r in
  let* r := expect (lit "-") (snd mo) in
  let* d := read_fixed 2 r in
  let* r := expect (lit "T") (snd d) in
  let* h := read_fixed 2 r in
  let* r := expect (lit ":") (snd h) in
  let* mi := read_fixed 2 r in
  let* r := expect (lit ":") (snd mi) in
  let* se := read_fixed 2 r in
  let* nano := read_fraction (snd se) in
  let* off := read_offset (snd nano) in
  match snd off with
  | _ :: _ => None
  | [] =>
      let* day := day_of_date (fst y) (fst mo) (fst d) in
      if (fst h <? 24) && (fst mi <? 60) && (fst se <? 60) then
        let t := (day * 86400 + fst h * 3600 + fst mi * 60 + fst se - fst off * 60) * 1000000000
                 + fst nano in
        if in_instant_range t then Some t else None
      else None
  end.

(** The abstract functions, with timestamps read and written as above. *)
Definition with_chrono (d : deps) : deps := {|
  Document := Document d;
  VerificationMethod := VerificationMethod d;
  did_url_try_from := did_url_try_from d;
  select_object := select_object d;
  get_jwk := get_jwk d;
  jwk_from_str := jwk_from_str d;
  dt_parse := chrono_parse;
  dt_print := chrono_print;
  dt_display := chrono_display;
  base64_error := base64_error d;
  serde_error := serde_error d;
  lower_table := lower_table d;
  upper_table := upper_table d;
  flatten_unit_ok := flatten_unit_ok d |}.
