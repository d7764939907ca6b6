(** JSON documents, the compact writer and the reader of serde_json 1.0
    ([serde_json::to_string], [from_slice], [from_str]) as the crate uses them
    (jwt/mod.rs:98-99,115,122; credential_issuer/mod.rs:243;
    types/credential.rs:185; error.rs:35). *)
From Verif Require Import Model.Prelude Model.Utf8 Model.Float.

(** A document as written. Objects keep member order and duplicates; what
    happens to them is decided by the typed decoders and by [to_value].
    [JInt] is an integer literal in [-2^63, 2^64-1]; any other number is an [f64],
    for which [JFloat] carries the text that is written for it. *)
Inductive json : Type :=
| JNull
| JBool (b : bool)
| JInt (z : Z)
| JFloat (lexeme : str)
| JStr (s : str)
| JArr (l : list json)
| JObj (m : list (str * json)).

(* ------------------------------------------------------------------ *)
(** * Writer ([serde_json::ser::CompactFormatter]) *)

Definition quote : ascii := """"%char.
Definition backslash : ascii := "\"%char.

(** Lower-case hexadecimal digit used in [\u00xx]. *)
Definition hex_lower (n : N) : ascii := if n <? 10 then chr (48 + n) else chr (87 + n).

(** serde_json's ESCAPE table: control characters, quote and backslash. *)
Definition escape_byte (b : ascii) : str :=
  let n := code b in
  if n =? 34 then [backslash; quote]
  else if n =? 92 then [backslash; backslash]
  else if n =? 8 then [backslash; "b"%char]
  else if n =? 9 then [backslash; "t"%char]
  else if n =? 10 then [backslash; "n"%char]
  else if n =? 12 then [backslash; "f"%char]
  else if n =? 13 then [backslash; "r"%char]
  else if n <? 32 then
    [backslash; "u"%char; "0"%char; "0"%char; hex_lower (n / 16); hex_lower (n mod 16)]
  else [b].

Definition print_str (s : str) : str := quote :: flat_map escape_byte s ++ [quote].

Fixpoint print (j : json) : str :=
  match j with
  | JNull => lit "null"
  | JBool true => lit "true"
  | JBool false => lit "false"
  | JInt z => decZ z
  | JFloat lexeme => lexeme
  | JStr s => print_str s
  | JArr l => lit "[" ++ join (lit ",") (map print l) ++ lit "]"
  | JObj m =>
      lit "{" ++ join (lit ",") (map (fun kv => print_str (fst kv) ++ lit ":" ++ print (snd kv)) m)
      ++ lit "}"
  end.

(* ------------------------------------------------------------------ *)
(** * Reader ([serde_json::Deserializer::from_slice] followed by [end]) *)

(** Parse result; [PFuel] (recursion budget of the model exhausted) is proved
    unreachable in Proofs/JsonFacts.v. *)
Inductive pres (A : Type) : Type :=
| POk (a : A) (rest : str)
| PErr
| PFuel.
Arguments POk {A} a rest.
Arguments PErr {A}.
Arguments PFuel {A}.

(** Space, line feed, tab, carriage return. *)
Definition is_ws (b : ascii) : bool :=
  let n := code b in (n =? 32) || (n =? 10) || (n =? 9) || (n =? 13).

Fixpoint skip_ws (s : str) : str :=
  match s with
  | [] => []
  | b :: r => if is_ws b then skip_ws r else s
  end.

Definition is_digit (b : ascii) : bool := (48 <=? code b) && (code b <=? 57).

(** Longest prefix of digits. *)
Fixpoint take_digits (s : str) : str * str :=
  match s with
  | [] => ([], [])
  | b :: r =>
      if is_digit b then let (d, t) := take_digits r in (b :: d, t) else ([], s)
  end.

(** Optional fraction; [None] = syntax error. Returns its text and the rest. *)
Definition parse_frac (s : str) : option (str * str) :=
  match s with
  | b :: r =>
      if Ascii.eqb b "."%char then
        match take_digits r with
        | ([], _) => None
        | (d, t) => Some (b :: d, t)
        end
      else Some ([], s)
  | [] => Some ([], [])
  end.

(** Optional exponent. *)
Definition parse_exp (s : str) : option (str * str) :=
  match s with
  | b :: r =>
      if Ascii.eqb b "e"%char || Ascii.eqb b "E"%char then
        let (sg, r') :=
          match r with
          | c :: r2 => if Ascii.eqb c "+"%char || Ascii.eqb c "-"%char then ([c], r2) else ([], r)
          | [] => ([], [])
          end in
        match take_digits r' with
        | ([], _) => None
        | (d, t) => Some (b :: sg ++ d, t)
        end
      else Some ([], s)
  | [] => Some ([], [])
  end.

(** A number that is not a 64-bit integer ([f64_from_parts]); a number that is
    skipped is not converted ([ignore_number]). *)
Definition read_float (strict neg : bool) (int fr ex t : str) : pres json :=
  if strict then
    match float_text neg int fr ex with Some x => POk (JFloat x) t | None => PErr end
  else POk (JFloat ((if neg then ["-"%char] else []) ++ int ++ fr ++ ex)) t.

(** Number: [-]? (0 | [1-9][0-9]* ) frac? exp?. Integers that do not fit, and
    [-0], become floats. *)
Definition parse_number (strict : bool) (s : str) : pres json :=
  let (neg, s1) :=
    match s with
    | b :: r => if Ascii.eqb b "-"%char then (true, r) else (false, s)
    | [] => (false, [])
    end in
  match take_digits s1 with
  | ([], _) => PErr
  | (d0 :: ds, t) =>
      if Ascii.eqb d0 "0"%char && negb (match ds with [] => true | _ => false end) then PErr
      else
        match parse_frac t with
        | None => PErr
        | Some (fr, t1) =>
            match parse_exp t1 with
            | None => PErr
            | Some (ex, t2) =>
                let n := digits_val (d0 :: ds) in
                match fr, ex with
                | [], [] =>
                    if neg then
                      if (n =? 0) || (9223372036854775808 <? n) then read_float strict neg (d0 :: ds) fr ex t2
                      else POk (JInt (- Z.of_N n)) t2
                    else if 18446744073709551615 <? n then read_float strict neg (d0 :: ds) fr ex t2
                    else POk (JInt (Z.of_N n)) t2
                | _, _ => read_float strict neg (d0 :: ds) fr ex t2
                end
            end
        end
  end.

(** Value of a hexadecimal digit. *)
Definition hexv (b : ascii) : option N :=
  let n := code b in
  if (48 <=? n) && (n <=? 57) then Some (n - 48)
  else if (65 <=? n) && (n <=? 70) then Some (n - 55)
  else if (97 <=? n) && (n <=? 102) then Some (n - 87)
  else None.

Definition hex4 (a b c d : ascii) : option N :=
  let* x := hexv a in let* y := hexv b in let* z := hexv c in let* w := hexv d in
  Some (x * 4096 + y * 256 + z * 16 + w).

(** Body of a string after the opening quote: escapes are replaced, the closing
    quote ends it, raw control characters are errors. [strict] is the reader of
    wanted strings ([parse_str]), which rejects lone surrogates; the reader of
    ignored strings ([ignore_str]) only checks the four hexadecimal digits. *)
Fixpoint parse_str_body (strict : bool) (s : str) : option (str * str) :=
  match s with
  | [] => None
  | b :: r =>
      if Ascii.eqb b quote then Some ([], r)
      else if Ascii.eqb b backslash then
        match r with
        | [] => None
        | e :: r1 =>
            let put (c : ascii) :=
              let* p := parse_str_body strict r1 in Some (c :: fst p, snd p) in
            if Ascii.eqb e quote then put quote
            else if Ascii.eqb e backslash then put backslash
            else if Ascii.eqb e "/"%char then put "/"%char
            else if Ascii.eqb e "b"%char then put (chr 8)
            else if Ascii.eqb e "f"%char then put (chr 12)
            else if Ascii.eqb e "n"%char then put (chr 10)
            else if Ascii.eqb e "r"%char then put (chr 13)
            else if Ascii.eqb e "t"%char then put (chr 9)
            else if Ascii.eqb e "u"%char then
              match r1 with
              | h1 :: h2 :: h3 :: h4 :: r2 =>
                  match hex4 h1 h2 h3 h4 with
                  | None => None
                  | Some u =>
                      if negb strict then
                        let* p := parse_str_body strict r2 in Some (utf8_enc1 u ++ fst p, snd p)
                      else if (56320 <=? u) && (u <=? 57343) then None
                      else if (55296 <=? u) && (u <=? 56319) then
                        match r2 with
                        | bs :: uu :: g1 :: g2 :: g3 :: g4 :: r3 =>
                            if Ascii.eqb bs backslash && Ascii.eqb uu "u"%char then
                              match hex4 g1 g2 g3 g4 with
                              | None => None
                              | Some v =>
                                  if (56320 <=? v) && (v <=? 57343) then
                                    let* p := parse_str_body strict r3 in
                                    Some (utf8_enc1 (65536 + (u - 55296) * 1024 + (v - 56320))
                                          ++ fst p, snd p)
                                  else None
                              end
                            else None
                        | _ => None
                        end
                      else
                        let* p := parse_str_body strict r2 in Some (utf8_enc1 u ++ fst p, snd p)
                  end
              | _ => None
              end
            else None
        end
      else if code b <? 32 then None
      else let* p := parse_str_body strict r in Some (b :: fst p, snd p)
  end.

(** A complete string after its opening quote; the bytes of a wanted string must
    be UTF-8, those of an ignored string are not looked at. *)
Definition parse_string (strict : bool) (s : str) : pres str :=
  match parse_str_body strict s with
  | Some (v, t) => if negb strict || utf8_valid v then POk v t else PErr
  | None => PErr
  end.

(** The rest of a keyword. *)
Fixpoint expect (w s : str) : option str :=
  match w, s with
  | [], _ => Some s
  | a :: w', b :: s' => if Ascii.eqb a b then expect w' s' else None
  | _ :: _, [] => None
  end.

Definition parse_ident (w : str) (v : json) (s : str) : pres json :=
  match expect w s with Some t => POk v t | None => PErr end.

(** Entering an array or object decrements [depth] (serde_json's
    [remaining_depth]) and fails when it reaches zero; ignored values are
    skipped without that limit ([ignore_value]). *)
Definition enter (strict : bool) (depth : nat) : option nat :=
  if strict then match depth with O | S O => None | S d => Some d end else Some depth.

(** What the derived visitors of the type read here do with the values they
    contain. [Whole]: the type is no struct or list of structs, or serde buffers
    the value, and everything in it is read. [ListOf]: a [Vec] of the given
    shape. [StructOf]: a struct with the given fields, in order; the values of
    other members are skipped as [IgnoredAny]. [Flattened]: a struct with these
    fields and a flattened one, which buffers the other members. *)
Inductive shape :=
| Whole
| ListOf (s : shape)
| StructOf (fields : list (str * shape))
| Flattened (fields : list (str * shape)).

(** A struct none of whose fields is or contains such a struct. *)
Definition plain (fields : list str) : shape := StructOf (map (fun k => (k, Whole)) fields).

(** The shape of a named field. *)
Fixpoint field_shape (fields : list (str * shape)) (k : str) : option shape :=
  match fields with
  | [] => None
  | (k', s) :: fs => if str_eqb k k' then Some s else field_shape fs k
  end.

(** Whether the visitor reads the value of a member. *)
Definition wanted (sh : shape) (k : str) : bool :=
  match sh with
  | StructOf fields => match field_shape fields k with Some _ => true | None => false end
  | Whole | ListOf _ | Flattened _ => true
  end.

(** The shape of the value of a member. *)
Definition member_shape (sh : shape) (k : str) : shape :=
  match sh with
  | StructOf fields | Flattened fields =>
      match field_shape fields k with Some s => s | None => Whole end
  | Whole | ListOf _ => Whole
  end.

(** The shape of an element of an array; a struct can also be written as the
    array of its fields ([visit_seq]). *)
Definition elem_shape (sh : shape) (i : nat) : shape :=
  match sh with
  | ListOf s => s
  | StructOf fields => match nth_error fields i with Some (_, s) => s | None => Whole end
  | Whole | Flattened _ => Whole
  end.

(** [parse_value strict sh fuel depth s] reads one value of shape [sh];
    [parse_elems] starts at element [i] of an array of that shape. *)
Fixpoint parse_value (strict : bool) (sh : shape) (fuel depth : nat) (s : str)
    {struct fuel} : pres json :=
  match fuel with
  | O => PFuel
  | S f =>
      match skip_ws s with
      | [] => PErr
      | b :: r =>
          if Ascii.eqb b quote then
            match parse_string strict r with
            | POk v t => POk (JStr v) t | PErr => PErr | PFuel => PFuel
            end
          else if Ascii.eqb b "["%char then
            match enter strict depth with
            | None => PErr
            | Some d =>
                match skip_ws r with
                | c :: t =>
                    if Ascii.eqb c "]"%char then POk (JArr []) t
                    else match parse_elems strict sh 0 f d r with
                         | POk l t' => POk (JArr l) t' | PErr => PErr | PFuel => PFuel
                         end
                | [] => PErr
                end
            end
          else if Ascii.eqb b "{"%char then
            match enter strict depth with
            | None => PErr
            | Some d =>
                match skip_ws r with
                | c :: t =>
                    if Ascii.eqb c "}"%char then POk (JObj []) t
                    else match parse_members strict sh f d r with
                         | POk l t' => POk (JObj l) t' | PErr => PErr | PFuel => PFuel
                         end
                | [] => PErr
                end
            end
          else if Ascii.eqb b "t"%char then parse_ident (lit "rue") (JBool true) r
          else if Ascii.eqb b "f"%char then parse_ident (lit "alse") (JBool false) r
          else if Ascii.eqb b "n"%char then parse_ident (lit "ull") JNull r
          else parse_number strict (b :: r)
      end
  end
with parse_elems (strict : bool) (sh : shape) (i : nat) (fuel depth : nat) (s : str)
    {struct fuel} : pres (list json) :=
  match fuel with
  | O => PFuel
  | S f =>
      match parse_value strict (elem_shape sh i) f depth s with
      | POk v t =>
          match skip_ws t with
          | c :: t' =>
              if Ascii.eqb c ","%char then
                match parse_elems strict sh (S i) f depth t' with
                | POk l t'' => POk (v :: l) t'' | PErr => PErr | PFuel => PFuel
                end
              else if Ascii.eqb c "]"%char then POk [v] t'
              else PErr
          | [] => PErr
          end
      | PErr => PErr
      | PFuel => PFuel
      end
  end
with parse_members (strict : bool) (sh : shape) (fuel depth : nat) (s : str)
    {struct fuel} : pres (list (str * json)) :=
  match fuel with
  | O => PFuel
  | S f =>
      match skip_ws s with
      | q :: r =>
          if Ascii.eqb q quote then
            match parse_string strict r with
            | POk k t =>
                match skip_ws t with
                | c :: t1 =>
                    if Ascii.eqb c ":"%char then
                      match parse_value (strict && wanted sh k) (member_shape sh k) f depth t1 with
                      | POk v t2 =>
                          match skip_ws t2 with
                          | e :: t3 =>
                              if Ascii.eqb e ","%char then
                                match parse_members strict sh f depth t3 with
                                | POk l t4 => POk ((k, v) :: l) t4
                                | PErr => PErr
                                | PFuel => PFuel
                                end
                              else if Ascii.eqb e "}"%char then POk [(k, v)] t3
                              else PErr
                          | [] => PErr
                          end
                      | PErr => PErr
                      | PFuel => PFuel
                      end
                    else PErr
                | [] => PErr
                end
            | PErr => PErr
            | PFuel => PFuel
            end
          else PErr
      | [] => PErr
      end
  end.

(** The documented nesting limit of serde_json. *)
Definition recursion_limit : nat := 128.

(** Reading one document with nothing but white space after it. *)
Definition parse_doc (sh : shape) (s : str) : option json :=
  match parse_value true sh (2 * List.length s + 2) recursion_limit s with
  | POk j t => match skip_ws t with [] => Some j | _ :: _ => None end
  | PErr | PFuel => None
  end.

(** A document in which every member is wanted or buffered. *)
Definition parse_json (s : str) : option json := parse_doc Whole s.

(** A document read into such a struct: members other than [fields] are skipped. *)
Definition parse_struct (fields : list str) (s : str) : option json := parse_doc (plain fields) s.

(* ------------------------------------------------------------------ *)
(** * [serde_json::Value] *)

(** Byte-wise order of keys ([String: Ord]). *)
Fixpoint str_ltb (a b : str) : bool :=
  match a, b with
  | _, [] => false
  | [], _ :: _ => true
  | x :: a', y :: b' =>
      if code x <? code y then true
      else if code y <? code x then false
      else str_ltb a' b'
  end.

(** [BTreeMap::insert]; [Value]'s map is a [BTreeMap] because serde_json is built
    without [preserve_order] (Cargo.lock has no indexmap for it). *)
Fixpoint bt_insert (k : str) (v : json) (m : list (str * json)) : list (str * json) :=
  match m with
  | [] => [(k, v)]
  | (k', v') :: m' =>
      if str_eqb k k' then (k', v) :: m'
      else if str_ltb k k' then (k, v) :: (k', v') :: m'
      else (k', v') :: bt_insert k v m'
  end.

(** Reading or serializing into a [Value]: members sorted by key, the last
    duplicate wins. *)
Fixpoint to_value (j : json) : json :=
  match j with
  | JArr l => JArr (map to_value l)
  | JObj m =>
      JObj (fold_left (fun acc kv => bt_insert (fst kv) (snd kv) acc)
              (map (fun kv => (fst kv, to_value (snd kv))) m) [])
  | _ => j
  end.
