(** UTF-8 and the Unicode case conversions of [str] (Rust standard library).
    Used by [str::to_lowercase] (jwt/mod.rs:552), [str::to_uppercase]
    (types/credential_request.rs:68) and by the string reader of serde_json. *)
From Verif Require Import Model.Prelude.

(** Continuation byte 0x80..0xBF. *)
Definition is_cont (b : ascii) : bool := (128 <=? code b) && (code b <=? 191).

Definition in_range (lo hi : N) (b : ascii) : bool := (lo <=? code b) && (code b <=? hi).

(** Strict UTF-8 decoding ([std::str::from_utf8]): no overlong forms, no
    surrogates, nothing above U+10FFFF. *)
Fixpoint utf8_decode (s : str) : option (list N) :=
  match s with
  | [] => Some []
  | b0 :: r0 =>
      if code b0 <? 128 then
        let* t := utf8_decode r0 in Some (code b0 :: t)
      else match r0 with
      | [] => None
      | b1 :: r1 =>
          if in_range 194 223 b0 then
            if is_cont b1 then
              let* t := utf8_decode r1 in
              Some ((code b0 - 192) * 64 + (code b1 - 128) :: t)
            else None
          else match r1 with
          | [] => None
          | b2 :: r2 =>
              if in_range 224 239 b0 then
                if is_cont b1 && is_cont b2
                   && negb ((code b0 =? 224) && (code b1 <? 160))
                   && negb ((code b0 =? 237) && (159 <? code b1))
                then
                  let* t := utf8_decode r2 in
                  Some ((code b0 - 224) * 4096 + (code b1 - 128) * 64 + (code b2 - 128) :: t)
                else None
              else match r2 with
              | [] => None
              | b3 :: r3 =>
                  if in_range 240 244 b0 then
                    if is_cont b1 && is_cont b2 && is_cont b3
                       && negb ((code b0 =? 240) && (code b1 <? 144))
                       && negb ((code b0 =? 244) && (143 <? code b1))
                    then
                      let* t := utf8_decode r3 in
                      Some ((code b0 - 240) * 262144 + (code b1 - 128) * 4096
                            + (code b2 - 128) * 64 + (code b3 - 128) :: t)
                    else None
                  else None
              end
          end
      end
  end.

Definition utf8_valid (s : str) : bool := is_some (utf8_decode s).

(** UTF-8 encoding of one scalar value ([char::encode_utf8]). *)
Definition utf8_enc1 (c : N) : str :=
  if c <? 128 then [chr c]
  else if c <? 2048 then [chr (192 + c / 64); chr (128 + c mod 64)]
  else if c <? 65536 then
    [chr (224 + c / 4096); chr (128 + (c / 64) mod 64); chr (128 + c mod 64)]
  else
    [chr (240 + c / 262144); chr (128 + (c / 4096) mod 64);
     chr (128 + (c / 64) mod 64); chr (128 + c mod 64)].

Definition utf8_encode (l : list N) : str := flat_map utf8_enc1 l.

(** ASCII part of [char::to_lowercase] / [char::to_uppercase]. *)
Definition lower_ascii (c : N) : N := if (65 <=? c) && (c <=? 90) then c + 32 else c.
Definition upper_ascii (c : N) : N := if (97 <=? c) && (c <=? 122) then c - 32 else c.

(** [str::to_lowercase]/[str::to_uppercase]: character by character; the tables
    for non-ASCII characters are parameters. The lower-case form of a character
    may depend on the text before and after it (final sigma). A Rust [str] is
    always valid UTF-8, so the [None] branch stands for no run of the program. *)
Fixpoint map_chars (ascii_case : N -> N) (tbl : list N -> N -> list N -> list N) (before cps : list N) : list N :=
  match cps with
  | [] => []
  | c :: after =>
      (if c <? 128 then [ascii_case c] else tbl before c after)
      ++ map_chars ascii_case tbl (before ++ [c]) after
  end.
Definition map_case (ascii_case : N -> N) (tbl : list N -> N -> list N -> list N) (s : str) : str :=
  match utf8_decode s with
  | Some cps => utf8_encode (map_chars ascii_case tbl [] cps)
  | None => s
  end.

Definition to_lowercase (tbl : list N -> N -> list N -> list N) (s : str) : str := map_case lower_ascii tbl s.
Definition to_uppercase (tbl : N -> list N) (s : str) : str := map_case upper_ascii (fun _ c _ => tbl c) s.
