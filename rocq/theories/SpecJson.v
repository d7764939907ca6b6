(** The JSON grammar of RFC 8259 as a relation between texts and documents,
    independent of the reader. *)
From Verif Require Import Model.Prelude Model.Json Spec.

(** RFC 8259, 2: insignificant white space. *)
Definition white (s : str) : Prop :=
  Forall (fun c => code c = 32 \/ code c = 9 \/ code c = 10 \/ code c = 13) s.

(** RFC 8259, 6: an integer without leading zero. *)
Definition integer_part (d : str) : Prop :=
  digits d /\ (hd_error d = Some "0"%char -> d = ["0"%char]).

(** A number token. Integers of [-2^63, 2^64-1] are exact; [-0] and every other
    token becomes an [f64] if it is wanted ([w]) and keeps its text if it is not. *)
Inductive number_text (w : bool) : str -> json -> Prop :=
| nt_positive d : integer_part d -> digits_value 0 d < 2 ^ 64 ->
    number_text w d (JInt (Z.of_N (digits_value 0 d)))
| nt_negative d : integer_part d -> 0 < digits_value 0 d <= 2 ^ 63 ->
    number_text w ("-"%char :: d) (JInt (- Z.of_N (digits_value 0 d)))
| nt_float s t : w = true -> float_becomes s t -> number_text w s (JFloat t)
| nt_skipped s : w = false -> float_lexeme s -> number_text w s (JFloat s).

(** RFC 8259, 7: escapes. *)
Inductive short_escape : ascii -> N -> Prop :=
| se_quote : short_escape """"%char 34
| se_backslash : short_escape "\"%char 92
| se_slash : short_escape "/"%char 47
| se_b : short_escape "b"%char 8
| se_f : short_escape "f"%char 12
| se_n : short_escape "n"%char 10
| se_r : short_escape "r"%char 13
| se_t : short_escape "t"%char 9.

Definition hex_digit (c : ascii) (n : N) : Prop :=
  (48 <= code c <= 57 /\ code c = 48 + n)
  \/ (65 <= code c <= 70 /\ code c = 55 + n)
  \/ (97 <= code c <= 102 /\ code c = 87 + n).

Inductive hex_unit : str -> N -> Prop :=
| hex_four a b c d w x y z :
    hex_digit a w -> hex_digit b x -> hex_digit c y -> hex_digit d z ->
    hex_unit [a; b; c; d] (w * 4096 + x * 256 + y * 16 + z).

(** [string_chars w t v]: the text [t] between the quotes spells the bytes [v].
    [w] says that the string is wanted; in a skipped string a [\u] escape may be
    half of a surrogate pair, and nobody looks at [v]. *)
Inductive string_chars (w : bool) : str -> str -> Prop :=
| sc_end : string_chars w [] []
| sc_plain c t v : 32 <= code c -> code c <> 34 -> code c <> 92 ->
    string_chars w t v -> string_chars w (c :: t) (c :: v)
| sc_short e c t v : short_escape e (code c) ->
    string_chars w t v -> string_chars w ("\"%char :: e :: t) (c :: v)
| sc_unicode h u bytes t v : hex_unit h u -> (w = true -> scalar_value u) -> utf8_char u bytes ->
    string_chars w t v -> string_chars w ("\"%char :: "u"%char :: h ++ t) (bytes ++ v)
| sc_pair h hi l lo bytes t v : w = true ->
    hex_unit h hi -> 55296 <= hi <= 56319 -> hex_unit l lo -> 56320 <= lo <= 57343 ->
    utf8_char (65536 + (hi - 55296) * 1024 + (lo - 56320)) bytes ->
    string_chars w t v ->
    string_chars w ("\"%char :: "u"%char :: h ++ "\"%char :: "u"%char :: l ++ t) (bytes ++ v).

(** A string token with its quotes. *)
Inductive string_text (w : bool) : str -> str -> Prop :=
| st_quoted t v : string_chars w t v -> (w = true -> rust_string v) ->
    string_text w (""""%char :: t ++ [""""%char]) v.

(** Arrays and objects take one of the [n] allowed levels; skipped values are
    not counted. *)
Definition deeper (w : bool) (n m : nat) : Prop := if w then n = S m else n = m.

(** What a type's reader takes from a value, [shape] (Model.Json): [Whole] takes
    everything, [ListOf] a list, [StructOf] the listed members (or, in an array,
    the elements at their positions) and nothing else, [Flattened] the listed
    members and everything else besides; [plain] is a struct of such fields that
    everything in them is taken.

    [taken sh k]: the shape as which the member [k] is taken, if it is. *)
Fixpoint listed (fields : list (str * shape)) (k : str) : option shape :=
  match fields with
  | [] => None
  | (name, s) :: rest => if list_eq_dec ascii_dec k name then Some s else listed rest k
  end.
Definition taken (sh : shape) (k : str) : option shape :=
  match sh with
  | StructOf fields => listed fields k
  | Flattened fields => match listed fields k with Some s => Some s | None => Some Whole end
  | Whole | ListOf _ => Some Whole
  end.

(** A member that is not taken is skipped, and so is all that a skipped value
    contains. *)
Definition member_mode (w : bool) (sh : shape) (k : str) : bool * shape :=
  match taken sh k with Some s => (w, s) | None => (false, Whole) end.

(** The shape as which the element at position [i] is taken. *)
Definition element_mode (sh : shape) (i : nat) : shape :=
  match sh with
  | ListOf s => s
  | StructOf fields => nth i (map snd fields) Whole
  | Whole | Flattened _ => Whole
  end.

(** [value_text w sh n s j]: [s] spells the document [j], nested at most [n]
    levels deep, for a reader of shape [sh]; [w] is false if it is skipped. *)
Inductive value_text : bool -> shape -> nat -> str -> json -> Prop :=
| vt_null w sh n : value_text w sh n (lit "null") JNull
| vt_true w sh n : value_text w sh n (lit "true") (JBool true)
| vt_false w sh n : value_text w sh n (lit "false") (JBool false)
| vt_number w sh n s j : number_text w s j -> value_text w sh n s j
| vt_string w sh n s v : string_text w s v -> value_text w sh n s (JStr v)
| vt_empty_array w sh n m a : deeper w n m -> white a ->
    value_text w sh n ("["%char :: a ++ ["]"%char]) (JArr [])
| vt_array w sh n m t l : deeper w n m -> elements_text w sh 0 m t l ->
    value_text w sh n ("["%char :: t ++ ["]"%char]) (JArr l)
| vt_empty_object w sh n m a : deeper w n m -> white a ->
    value_text w sh n ("{"%char :: a ++ ["}"%char]) (JObj [])
| vt_object w sh n m t l : deeper w n m -> members_text w sh m t l ->
    value_text w sh n ("{"%char :: t ++ ["}"%char]) (JObj l)
with elements_text : bool -> shape -> nat -> nat -> str -> list json -> Prop :=
| et_last w sh i n a s b j : white a -> white b -> value_text w (element_mode sh i) n s j ->
    elements_text w sh i n (a ++ s ++ b) [j]
| et_next w sh i n a s b t j l : white a -> white b -> value_text w (element_mode sh i) n s j ->
    elements_text w sh (S i) n t l -> elements_text w sh i n (a ++ s ++ b ++ ","%char :: t) (j :: l)
with members_text : bool -> shape -> nat -> str -> list (str * json) -> Prop :=
| mt_last w sh w' sh' n a k key b c s d j :
    white a -> white b -> white c -> white d -> string_text w k key ->
    member_mode w sh key = (w', sh') -> value_text w' sh' n s j ->
    members_text w sh n (a ++ k ++ b ++ ":"%char :: c ++ s ++ d) [(key, j)]
| mt_next w sh w' sh' n a k key b c s d t j l :
    white a -> white b -> white c -> white d -> string_text w k key ->
    member_mode w sh key = (w', sh') -> value_text w' sh' n s j ->
    members_text w sh n t l ->
    members_text w sh n (a ++ k ++ b ++ ":"%char :: c ++ s ++ d ++ ","%char :: t) ((key, j) :: l).

(** A whole text for a reader of shape [sh]: one value of at most 127 levels with
    white space around it. *)
Definition shaped_text (sh : shape) (s : str) (j : json) : Prop :=
  exists a t b, s = a ++ t ++ b /\ white a /\ white b /\ value_text true sh 127 t j.

(** RFC 8259 text of at most 127 levels. *)
Definition json_text (s : str) (j : json) : Prop := shaped_text Whole s j.

(** RFC 8259 text of at most [n] levels, and of any number of levels. *)
Definition levels_text (n : nat) (s : str) (j : json) : Prop :=
  exists a t b, s = a ++ t ++ b /\ white a /\ white b /\ value_text true Whole n t j.
Definition rfc8259_text (s : str) (j : json) : Prop := exists n, levels_text n s j.

(** The same where the members of the outermost object that are not listed are
    skipped. *)
Definition struct_text (names : list str) (s : str) (j : json) : Prop :=
  shaped_text (plain names) s j.

(** The values of the members with a given name, in order. *)
Fixpoint named (k : str) (m : list (str * json)) : list json :=
  match m with
  | [] => []
  | (k', v) :: m' => if list_eq_dec ascii_dec k k' then v :: named k m' else named k m'
  end.

(** Two objects agree on the listed members; their order and all other members
    may differ. *)
Definition same_members (names : list string) (m m' : list (str * json)) : Prop :=
  forall n, In n names -> named (lit n) m = named (lit n) m'.

(** The members that are not listed, in order. *)
Definition unlisted (fields : list (str * shape)) (m : list (str * json)) : list (str * json) :=
  filter (fun kv => match listed fields (fst kv) with Some _ => false | None => true end) m.

(** Two documents agree on what a reader of shape [sh] takes from them: inside
    structs, at any depth, the order of members and the members that are not
    listed may differ. *)
Inductive alike : shape -> json -> json -> Prop :=
| al_same sh j : alike sh j j
| al_list s l l' : Forall2 (alike s) l l' -> alike (ListOf s) (JArr l) (JArr l')
| al_positional fields l l' : List.length l = List.length l' ->
    (forall i x x', nth_error l i = Some x -> nth_error l' i = Some x' -> alike (element_mode (StructOf fields) i) x x') ->
    alike (StructOf fields) (JArr l) (JArr l')
| al_struct fields m m' :
    (forall k s, listed fields k = Some s -> Forall2 (alike s) (named k m) (named k m')) ->
    alike (StructOf fields) (JObj m) (JObj m')
| al_flattened fields m m' :
    (forall k s, listed fields k = Some s -> Forall2 (alike s) (named k m) (named k m')) ->
    unlisted fields m = unlisted fields m' ->
    alike (Flattened fields) (JObj m) (JObj m').

(* ------------------------------------------------------------------ *)
(** * The form in which [serde_json] writes *)

Definition lower_hex (c : ascii) (n : N) : Prop :=
  (48 <= code c <= 57 /\ code c = 48 + n) \/ (97 <= code c <= 102 /\ code c = 87 + n).

(** Characters are escaped only where they must be, with a letter if there is one
    (the slash needs no escape) and in lower case otherwise. *)
Inductive compact_char : ascii -> str -> Prop :=
| cc_plain c : 32 <= code c -> code c <> 34 -> code c <> 92 -> compact_char c [c]
| cc_short c e : short_escape e (code c) -> code c <> 47 -> compact_char c ["\"%char; e]
| cc_control c a b : code c < 32 -> (forall e, ~ short_escape e (code c)) ->
    lower_hex a (code c / 16) -> lower_hex b (code c mod 16) -> compact_char c (lit "\u00" ++ [a; b]).

Inductive compact_chars : str -> str -> Prop :=
| cs_end : compact_chars [] []
| cs_next c v t t' : compact_char c t -> compact_chars v t' -> compact_chars (c :: v) (t ++ t').

Inductive compact_string (v : str) : str -> Prop :=
| cs_quoted t : compact_chars v t -> compact_string v (""""%char :: t ++ [""""%char]).

(** No white space; members and elements in the order of the document. *)
Inductive compact : json -> str -> Prop :=
| co_null : compact JNull (lit "null")
| co_true : compact (JBool true) (lit "true")
| co_false : compact (JBool false) (lit "false")
| co_integer z s : integer_text z s -> compact (JInt z) s
| co_float t : compact (JFloat t) t
| co_string v s : compact_string v s -> compact (JStr v) s
| co_empty_array : compact (JArr []) (lit "[]")
| co_array l t : compact_elements l t -> compact (JArr l) ("["%char :: t ++ ["]"%char])
| co_empty_object : compact (JObj []) (lit "{}")
| co_object m t : compact_members m t -> compact (JObj m) ("{"%char :: t ++ ["}"%char])
with compact_elements : list json -> str -> Prop :=
| ce_last j s : compact j s -> compact_elements [j] s
| ce_next j s l t : compact j s -> compact_elements l t -> compact_elements (j :: l) (s ++ ","%char :: t)
with compact_members : list (str * json) -> str -> Prop :=
| cm_last k key j s : compact_string key k -> compact j s -> compact_members [(key, j)] (k ++ ":"%char :: s)
| cm_next k key j s m t : compact_string key k -> compact j s -> compact_members m t ->
    compact_members ((key, j) :: m) (k ++ ":"%char :: s ++ ","%char :: t).
