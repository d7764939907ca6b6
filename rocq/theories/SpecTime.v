(** Timestamps, described by counting days and by the grammar of RFC 3339. *)
From Verif Require Import Model.Prelude Model.Json Model.Types Spec SpecToken SpecJwt.
Local Open Scope Z_scope.

Record date : Type := Date { year : Z; month : Z; day : Z }.

(** A year is a leap year iff it is divisible by 4 but not by 100, or by 400. *)
Definition leap (y : Z) : Prop := ((4 | y) /\ ~ (100 | y)) \/ (400 | y).

(** [month_length y m n]: month [m] of year [y] has [n] days. *)
Inductive month_length (y : Z) : Z -> Z -> Prop :=
| ml_long m : In m [1; 3; 5; 7; 8; 10; 12] -> month_length y m 31
| ml_short m : In m [4; 6; 9; 11] -> month_length y m 30
| ml_leap : leap y -> month_length y 2 29
| ml_common : ~ leap y -> month_length y 2 28.

Definition valid_date (x : date) : Prop :=
  1 <= month x <= 12 /\ exists n, month_length (year x) (month x) n /\ 1 <= day x <= n.

(** The day after: the next day of the month, the first of the next month, or
    New Year. *)
Inductive next_day : date -> date -> Prop :=
| nd_day y m d n : month_length y m n -> d < n -> next_day (Date y m d) (Date y m (d + 1))
| nd_month y m n : month_length y m n -> m < 12 -> next_day (Date y m n) (Date y (m + 1) 1)
| nd_year y : next_day (Date y 12 31) (Date (y + 1) 1 1).

(** Days since 1970-01-01, by counting. *)
Inductive day_number : date -> Z -> Prop :=
| dn_epoch : day_number (Date 1970 1 1) 0
| dn_after x y n : day_number x n -> next_day x y -> day_number y (n + 1)
| dn_before x y n : day_number y n -> next_day x y -> valid_date x -> day_number x (n - 1).

(** [k] decimal digits that stand for [n]. *)
Definition digit_text (k : nat) (n : Z) (s : str) : Prop :=
  List.length s = k /\ Forall digit s /\ Z.of_N (digits_value 0 s) = n.

Record clock : Type := Clock { hour : Z; minute : Z; second : Z; nanosecond : Z }.

Definition valid_clock (c : clock) : Prop :=
  0 <= hour c < 24 /\ 0 <= minute c < 60 /\ 0 <= second c < 60 /\ 0 <= nanosecond c < 1000000000.

(** The instant of a local date and time [offset] minutes ahead of UTC. *)
Definition instant_of (days : Z) (c : clock) (offset : Z) : instant :=
  (days * 86400 + hour c * 3600 + minute c * 60 + second c - offset * 60) * 1000000000 + nanosecond c.

(** Four digits, or a sign and digits. *)
Inductive year_form : Z -> str -> Prop :=
| yf_plain y s : digit_text 4 y s -> year_form y s
| yf_plus k y s : (0 < k)%nat -> digit_text k y s -> year_form y (lit "+" ++ s)
| yf_minus k y s : (0 < k)%nat -> digit_text k y s -> year_form (- y) (lit "-" ++ s).

(** The fraction of a second, cut off after nine digits. *)
Inductive fraction_form : Z -> str -> Prop :=
| ff_none : fraction_form 0 []
| ff_some k n s : (0 < k)%nat -> digit_text k n s ->
    fraction_form (n * 10 ^ 9 / 10 ^ Z.of_nat k) (lit "." ++ s).

Inductive offset_form : Z -> str -> Prop :=
| of_utc : offset_form 0 (lit "Z")
| of_ahead h m hs ms : digit_text 2 h hs -> digit_text 2 m ms -> h < 24 -> m < 60 ->
    offset_form (60 * h + m) (lit "+" ++ hs ++ lit ":" ++ ms)
| of_behind h m hs ms : digit_text 2 h hs -> digit_text 2 m ms -> h < 24 -> m < 60 ->
    offset_form (- (60 * h + m)) (lit "-" ++ hs ++ lit ":" ++ ms).

(** A date and time as RFC 3339 writes them ([date-time], section 5.6, with
    years of any size; no second 60). *)
Definition rfc3339 (s : str) (x : date) (c : clock) (offset : Z) : Prop :=
  exists ys ms ds hs mis ss fs os,
    s = ys ++ lit "-" ++ ms ++ lit "-" ++ ds ++ lit "T" ++ hs ++ lit ":" ++ mis ++ lit ":" ++ ss ++ fs ++ os
    /\ year_form (year x) ys /\ digit_text 2 (month x) ms /\ digit_text 2 (day x) ds
    /\ digit_text 2 (hour c) hs /\ digit_text 2 (minute c) mis /\ digit_text 2 (second c) ss
    /\ fraction_form (nanosecond c) fs /\ offset_form offset os.

(** Such a text denotes an instant if date and time exist, and chrono can
    represent the local date and the instant. *)
Definition timestamp (s : str) (t : instant) : Prop :=
  exists x c offset days,
    rfc3339 s x c offset /\ valid_date x /\ valid_clock c /\ day_number x days
    /\ -262144 <= year x <= 262143
    /\ t = instant_of days c offset /\ in_instant_range t = true.

(** The form in which an instant is written: UTC, year with four digits, signed
    when outside 0..9999, fraction with 0, 3, 6 or 9 digits, as few as exact. *)
Definition written_form (s : str) (t : instant) : Prop :=
  exists x c days ys ms ds hs mis ss fs,
    s = ys ++ lit "-" ++ ms ++ lit "-" ++ ds ++ lit "T" ++ hs ++ lit ":" ++ mis ++ lit ":" ++ ss ++ fs ++ lit "Z"
    /\ valid_date x /\ day_number x days /\ valid_clock c /\ t = instant_of days c 0
    /\ (0 <= year x <= 9999 /\ digit_text 4 (year x) ys
        \/ 9999 < year x /\ (exists k r, digit_text k (year x) r /\ (4 < k)%nat
                              /\ 10 ^ (Z.of_nat k - 1) <= year x /\ ys = lit "+" ++ r)
        \/ year x < 0 /\ (exists k r, digit_text k (- year x) r /\ (4 <= k)%nat
                              /\ (k = 4%nat \/ 10 ^ (Z.of_nat k - 1) <= - year x) /\ ys = lit "-" ++ r))
    /\ digit_text 2 (month x) ms /\ digit_text 2 (day x) ds
    /\ digit_text 2 (hour c) hs /\ digit_text 2 (minute c) mis /\ digit_text 2 (second c) ss
    /\ (nanosecond c = 0 /\ fs = []
        \/ exists k n r, fs = lit "." ++ r /\ digit_text k n r
             /\ (k = 3%nat \/ k = 6%nat \/ k = 9%nat)
             /\ nanosecond c = n * 10 ^ (9 - Z.of_nat k) /\ n <> 0
             /\ (k = 3%nat \/ ~ (1000 | n))).

(** The claims of a proof, where [T] says which text stands for an instant. *)
Definition claims_with (T : str -> instant -> Prop) (m : list (str * json)) (b : jwt_body) : Prop :=
  let time v t := exists s, v = JStr s /\ T s t in
  optional_member m "iss" text_value (b_iss b)
  /\ only_member m "aud" (JStr (b_aud b))
  /\ optional_member m "sub" text_value (b_sub b)
  /\ (exists v, only_member m "iat" v /\ time v (b_iat b))
  /\ only_member m "nonce" (JStr (b_nonce b))
  /\ optional_member m "nbf" time (b_nbf b)
  /\ optional_member m "exp" time (b_exp b).
