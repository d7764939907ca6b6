(** Vocabulary for C114: a token request in which the digits of the PIN are written
    as the user was given them. *)
From Verif Require Import Model.Prelude Model.Json SpecNumber SpecJson.

(** [quoted]: the code as a JSON string. *)
Definition pin_request (quoted pin : str) : str :=
  lit "{""grant_type"":{""grant_type"":""urn:ietf:params:oauth:grant-type:pre-authorized_code"",""pre_authorized_code"":"
  ++ quoted ++ lit ",""user_pin"":" ++ pin ++ lit "}}".

(** A PIN that starts with zero, other than zero itself. *)
Definition zero_led (pin : str) : Prop := exists c r, pin = "0"%char :: c :: r.
