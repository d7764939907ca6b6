(** [urlencoding::encode] (urlencoding 2.1.2), used at
    credential_issuer/mod.rs:244, and a decoder for the receiving side. *)
From Verif Require Import Model.Prelude.

(** RFC 3986 unreserved characters are copied. *)
Definition is_unreserved (b : ascii) : bool :=
  let n := code b in
  ((48 <=? n) && (n <=? 57)) || ((65 <=? n) && (n <=? 90)) || ((97 <=? n) && (n <=? 122))
  || (n =? 45) || (n =? 46) || (n =? 95) || (n =? 126).

(** Upper-case hexadecimal digit. *)
Definition hex_upper (n : N) : ascii := if n <? 10 then chr (48 + n) else chr (55 + n).

Definition url_encode_byte (b : ascii) : str :=
  if is_unreserved b then [b]
  else ["%"%char; hex_upper (code b / 16); hex_upper (code b mod 16)].

Definition url_encode (s : str) : str := flat_map url_encode_byte s.

(** Value of a hexadecimal digit of either case. *)
Definition hex_val (b : ascii) : option N :=
  let n := code b in
  if (48 <=? n) && (n <=? 57) then Some (n - 48)
  else if (65 <=? n) && (n <=? 70) then Some (n - 55)
  else if (97 <=? n) && (n <=? 102) then Some (n - 87)
  else None.

(** Receiving side ([urlencoding::decode_binary]): well-formed %XX escapes are
    replaced, everything else is kept. Not called by the crate. *)
Fixpoint url_decode (s : str) : str :=
  match s with
  | [] => []
  | p :: r0 =>
      match r0 with
      | h :: l :: r =>
          if Ascii.eqb p "%"%char then
            match hex_val h, hex_val l with
            | Some a, Some b => chr (a * 16 + b) :: url_decode r
            | _, _ => p :: url_decode r0
            end
          else p :: url_decode r0
      | _ => p :: url_decode r0
      end
  end.
