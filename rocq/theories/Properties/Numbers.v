(** Numbers in JSON documents (free-form members of metadata and credentials).
    Theorems only; proofs are in Proofs/NumberFacts.v and Proofs/NumberValues.v,
    vocabulary in SpecNumber.v. *)
From Coq Require Import QArith Qabs.
From Verif Require Import Model.Prelude Model.Float Model.FloatCount Model.Json Model.Types Model.CredentialIssuer Model.Wire
  Spec SpecNumber Proofs.FloatFacts Proofs.NumberValues Proofs.NumberAgain Proofs.FloatCountFacts.
Open Scope N_scope.

(** * C94 *)
Definition C94_claim : Prop := forall s q, number_value s q ->
  exists j, parse_json s = Some j /\ number_value (print j) q.

Theorem C94_one_value : forall s q q', number_value s q -> number_value s q' -> q == q'.
Proof. exact number_value_unique. Qed.
Print Assumptions C94_one_value.

Theorem C94_integers : forall z s, (- 2 ^ 63 <= z < 2 ^ 64)%Z -> integer_text z s ->
  parse_json s = Some (JInt z) /\ print (JInt z) = s.
Proof. exact parse_json_integer. Qed.
Print Assumptions C94_integers.

Theorem C94_short : forall s n e q,
  decimal_token s n e -> n < 10 ^ 15 -> (-22 <= e <= 22)%Z -> number_value s q ->
  exists j, parse_json s = Some j /\ number_value (print j) q.
Proof. exact number_short. Qed.
Print Assumptions C94_short.

Theorem C94_stable : forall s n e q j,
  decimal_token s n e -> n < 10 ^ 15 -> (-22 <= e <= 22)%Z -> number_value s q -> (Qabs q < 10 ^ 15)%Q ->
  parse_json s = Some j -> parse_json (print j) = Some j.
Proof. exact number_stable. Qed.
Print Assumptions C94_stable.

Theorem C94_close : forall s q j,
  number_value s q -> (10 ^ (-307) <= Qabs q)%Q -> parse_json s = Some j ->
  exists q', number_value (print j) q' /\ (Qabs (q' - q) <= (1 # 1000000000000000) * Qabs q)%Q.
Proof. exact number_close. Qed.
Print Assumptions C94_close.

Theorem C94_accepted : forall s q, number_value s q -> (Qabs q <= 10 ^ 308)%Q -> exists j, parse_json s = Some j.
Proof. exact number_accepted. Qed.
Print Assumptions C94_accepted.

Theorem C94_too_large : forall s q, number_value s q -> (2 * 10 ^ 308 <= Qabs q)%Q -> parse_json s = None.
Proof. exact number_rejected. Qed.
Print Assumptions C94_too_large.

Theorem C94_readable_again : forall s t, float_becomes s t -> exists u, parse_json t = Some (JFloat u).
Proof. exact reads_again. Qed.
Print Assumptions C94_readable_again.

Theorem C94_nearest : forall s neg int frac exp e j,
  number_parts s neg int frac exp -> not_integer neg int frac exp -> exponent_value exp e ->
  let n := digits_value 0 (int ++ tl frac) in
  let k := (e - Z.of_nat (List.length (tl frac)))%Z in
  n < 2 ^ 53 -> (-22 <= k <= 22)%Z -> parse_json s = Some j ->
  exists x, rounds_to (decimal_value n k) x /\ written_as neg x (print j).
Proof. exact number_nearest. Qed.
Print Assumptions C94_nearest.

(** What is written for a number that was read as [x] is nearest to [x]: a reader
    that rounds correctly gets the number the library holds. *)
Theorem C94_recovered : forall s neg int frac exp x j q,
  number_parts s neg int frac exp -> not_integer neg int frac exp -> read_as int frac exp x ->
  parse_json s = Some j -> number_value (print j) q -> rounds_to (Qabs q) x.
Proof. exact number_recovered. Qed.
Print Assumptions C94_recovered.

(** Counting the exponent in 32 bits, as the program does, changes nothing for
    texts of up to 2 GB. *)
Theorem C94_exponent_in_32_bits : forall s neg int frac exp x,
  number_parts s neg int frac exp -> (Z.of_nat (List.length s) <= 2147482000)%Z ->
  (read_f64_i32 int frac exp = Some x <-> read_as int frac exp x).
Proof. exact counted_reading. Qed.
Print Assumptions C94_exponent_in_32_bits.

Ltac token :=
  split; [reflexivity|]; split; [auto|];
  split; [split; [discriminate|repeat constructor; discriminate]|];
  split; [try discriminate; reflexivity|].

(** "4000000000000010.0" is written as 4000000000000009.5. *)
Lemma nu_long : number_parts (lit "4000000000000010.0") [] (lit "4000000000000010") (lit ".0") [].
Proof.
  token. split; [right; exists (lit "0"); split; [reflexivity|]; split; [discriminate|repeat constructor; discriminate]|now left].
Qed.
Lemma nu_long_written : number_parts (lit "4000000000000009.5") [] (lit "4000000000000009") (lit ".5") [].
Proof.
  token. split; [right; exists (lit "5"); split; [reflexivity|]; split; [discriminate|repeat constructor; discriminate]|now left].
Qed.

Theorem C94_refuted : ~ C94_claim.
Proof.
  intros H.
  assert (V : number_value (lit "4000000000000010.0") 4000000000000010).
  { exists [], (lit "4000000000000010"), (lit ".0"), [], 0%Z. split; [exact nu_long|]. split; [now left|]. reflexivity. }
  destruct (H _ _ V) as (j & J & V').
  assert (E : parse_json (lit "4000000000000010.0") = Some (JFloat (lit "4000000000000009.5"))) by (vm_compute; reflexivity).
  rewrite E in J. injection J as <-. cbn [print] in V'.
  pose proof (number_value_of _ _ _ _ _ 0%Z _ nu_long_written (or_introl (conj eq_refl eq_refl)) V') as Q.
  now vm_compute in Q.
Qed.
Print Assumptions C94_refuted.

(** It is held as 4000000000000009.5. *)
Example C94_recovered_case :
  let x := {| mantissa := 8000000000000019; exponent := (-1)%Z |} in
  not_integer [] (lit "4000000000000010") (lit ".0") [] /\ read_as (lit "4000000000000010") (lit ".0") [] x
  /\ parse_json (lit "4000000000000010.0") = Some (JFloat (lit "4000000000000009.5"))
  /\ f64_value x == 8000000000000019 # 2.
Proof.
  split; [left; discriminate|]. split; [|split; vm_compute; reflexivity].
  apply read_f64_iff; [now left|]. vm_compute. reflexivity.
Qed.

(** The same in a member of the metadata that the library does not know. *)
Definition nu_metadata (n : string) : str :=
  lit "{""credential_issuer"":""https://i"",""authorization_server"":null,""credential_endpoint"":""https://i/c"",""batch_credential_endpoint"":null,""credentials_supported"":[],""limit"":" ++ lit n ++ lit "}".
Example C94_metadata :
  option_map metadata_to_json (metadata_from_json (nu_metadata "4000000000000010.0")) = Some (nu_metadata "4000000000000009.5").
Proof. vm_compute. reflexivity. Qed.

Example C94_integer_case : integer_text (-9223372036854775808) (lit "-9223372036854775808").
Proof.
  right. split; [reflexivity|]. exists (lit "9223372036854775808"). split; [reflexivity|].
  split; [split; [discriminate|repeat constructor; discriminate]|]. split; [reflexivity|discriminate].
Qed.

Lemma nu_short : number_parts (lit "-0.1250e2") ["-"%char] (lit "0") (lit ".1250") (lit "e2").
Proof.
  token. split; [right; exists (lit "1250"); split; [reflexivity|]; split; [discriminate|repeat constructor; discriminate]|].
  right. exists "e"%char, [], (lit "2"). split; [reflexivity|]. split; [now left|]. split; [now left|].
  split; [discriminate|repeat constructor; discriminate].
Qed.
Lemma nu_short_exponent : exponent_value (lit "e2") 2.
Proof.
  right. exists "e"%char, [], (lit "2"). split; [reflexivity|]. split; [split; [discriminate|repeat constructor; discriminate]|].
  right. split; [now left|reflexivity].
Qed.
Example C94_short_case : decimal_token (lit "-0.1250e2") 1250 (-2)
  /\ number_value (lit "-0.1250e2") (- (25 # 2)) /\ parse_json (lit "-0.1250e2") = Some (JFloat (lit "-12.5")).
Proof.
  split; [|split; [|vm_compute; reflexivity]].
  - exists ["-"%char], (lit "0"), (lit ".1250"), (lit "e2"), 2%Z. split; [exact nu_short|]. split; [left; discriminate|].
    split; [exact nu_short_exponent|]. split; reflexivity.
  - exists ["-"%char], (lit "0"), (lit ".1250"), (lit "e2"), 2%Z. split; [exact nu_short|].
    split; [exact nu_short_exponent|]. reflexivity.
Qed.

(** What else happens to numbers. *)
Example C94_texts :
  map (fun s => option_map print (parse_json (lit s)))
    ["1.10"; "-0"; "1e400"; "1e-400"; "100000000000000000000"; "31.245270191439438"; "1E+5"; "0.00001"; "123456789012345680"; "18446744073709551616"]%string
  = [Some (lit "1.1"); Some (lit "-0.0"); None; Some (lit "0.0"); Some (lit "1e20"); Some (lit "31.24527019143944");
     Some (lit "100000.0"); Some (lit "0.00001"); Some (lit "123456789012345680"); Some (lit "1.8446744073709552e19")].
Proof. vm_compute. reflexivity. Qed.

(** Exponents that do not fit in 32 bits, and one that only just does. *)
Example C94_exponent_case :
  number_parts (lit "0.5e-99999999999") [] (lit "0") (lit ".5") (lit "e-99999999999")
  /\ read_f64_i32 (lit "0") (lit ".5") (lit "e-99999999999") = Some {| mantissa := 0; exponent := -1074 |}
  /\ read_f64_i32 (lit "0") (lit ".0") (lit "e+99999999999") = Some {| mantissa := 0; exponent := -1074 |}
  /\ read_f64_i32 (lit "1") [] (lit "e2147483648") = None
  /\ read_f64_i32 (lit "0") (lit ".5") (lit "e-2147483647") = Some {| mantissa := 0; exponent := -1074 |}.
Proof.
  split.
  - token. split.
    + right. exists (lit "5"). split; [reflexivity|]. split; [discriminate|repeat constructor; discriminate].
    + right. exists "e"%char, ["-"%char], (lit "99999999999"). split; [reflexivity|]. split; [now left|].
      split; [auto|]. split; [discriminate|repeat constructor; discriminate].
  - split; [|split; [|split]]; vm_compute; reflexivity.
Qed.

(** The largest number, and one beyond it. *)
Example C94_readable_again_case :
  parse_json (lit "1.7976931348623157e308") = Some (JFloat (lit "1.7976931348623157e308"))
  /\ parse_json (lit "1.7976931348623159e308") = None.
Proof. vm_compute. auto. Qed.
