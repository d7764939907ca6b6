(** base.rs: thin wrappers around two engines of the base64 crate (0.21.0). *)
From Verif Require Import Model.Prelude.

(** The 64-character alphabets (RFC 4648): [general_purpose::STANDARD] and
    [general_purpose::URL_SAFE_NO_PAD]. *)
Definition alpha_common : string := "ABCDEFGHIJKLMNOPQRSTUVWXYZabcdefghijklmnopqrstuvwxyz0123456789".
Definition alpha_std : str := lit (alpha_common ++ "+/").
Definition alpha_url : str := lit (alpha_common ++ "-_").

(** Character of a sextet and sextet of a character. *)
Definition b64_char (al : str) (n : N) : ascii := nth (N.to_nat n) al "A"%char.

Fixpoint index_of (c : ascii) (l : str) (i : N) : option N :=
  match l with
  | [] => None
  | x :: l' => if Ascii.eqb c x then Some i else index_of c l' (i + 1)
  end.
Definition b64_val (al : str) (c : ascii) : option N := index_of c al 0.

Definition pad_char : ascii := "="%char.

(** [Engine::encode]: three bytes to four characters; the tail is padded with
    ['='] iff [pad]. *)
Fixpoint b64_encode (al : str) (pad : bool) (s : str) : str :=
  match s with
  | [] => []
  | [a] =>
      [b64_char al (code a / 4); b64_char al ((code a mod 4) * 16)]
      ++ (if pad then [pad_char; pad_char] else [])
  | [a; b] =>
      [b64_char al (code a / 4);
       b64_char al ((code a mod 4) * 16 + code b / 16);
       b64_char al ((code b mod 16) * 4)]
      ++ (if pad then [pad_char] else [])
  | a :: b :: c :: r =>
      b64_char al (code a / 4)
      :: b64_char al ((code a mod 4) * 16 + code b / 16)
      :: b64_char al ((code b mod 16) * 4 + code c / 64)
      :: b64_char al (code c mod 64)
      :: b64_encode al pad r
  end.

(** Decoding of an incomplete last group; trailing bits must be zero
    ([decode_allow_trailing_bits] is off in both engines). *)
Definition b64_tail2 (al : str) (w x : ascii) : option str :=
  let* a := b64_val al w in
  let* b := b64_val al x in
  if b mod 16 =? 0 then Some [chr (a * 4 + b / 16)] else None.

Definition b64_tail3 (al : str) (w x y : ascii) : option str :=
  let* a := b64_val al w in
  let* b := b64_val al x in
  let* c := b64_val al y in
  if c mod 4 =? 0
  then Some [chr (a * 4 + b / 16); chr ((b mod 16) * 16 + c / 4)] else None.

Definition b64_quad (al : str) (w x y z : ascii) : option str :=
  let* a := b64_val al w in
  let* b := b64_val al x in
  let* c := b64_val al y in
  let* d := b64_val al z in
  Some [chr (a * 4 + b / 16); chr ((b mod 16) * 16 + c / 4); chr ((c mod 4) * 64 + d)].

(** [Engine::decode] without padding ([DecodePaddingMode::RequireNone]). *)
Fixpoint b64_decode_nopad (al : str) (s : str) : option str :=
  match s with
  | [] => Some []
  | [_] => None
  | [w; x] => b64_tail2 al w x
  | [w; x; y] => b64_tail3 al w x y
  | w :: x :: y :: z :: r =>
      let* q := b64_quad al w x y z in
      let* t := b64_decode_nopad al r in
      Some (q ++ t)
  end.

(** [Engine::decode] with canonical padding
    ([DecodePaddingMode::RequireCanonical]): groups of four, only the last one
    may end in ['='] or ['==']. *)
Fixpoint b64_decode_pad (al : str) (s : str) : option str :=
  match s with
  | [] => Some []
  | w :: x :: y :: z :: r =>
      match r with
      | [] =>
          if Ascii.eqb z pad_char then
            if Ascii.eqb y pad_char then b64_tail2 al w x else b64_tail3 al w x y
          else b64_quad al w x y z
      | _ :: _ =>
          let* q := b64_quad al w x y z in
          let* t := b64_decode_pad al r in
          Some (q ++ t)
      end
  | _ => None
  end.

(** base.rs:16-21 [base64::encode] and base.rs:7-12 [base64::decode]. *)
Definition base64_encode (s : str) : str := b64_encode alpha_std true s.
Definition base64_decode (s : str) : option str := b64_decode_pad alpha_std s.

(** base.rs:38-43 [base64url::encode] and base.rs:29-34 [base64url::decode]. *)
Definition base64url_encode (s : str) : str := b64_encode alpha_url false s.
Definition base64url_decode (s : str) : option str := b64_decode_nopad alpha_url s.
