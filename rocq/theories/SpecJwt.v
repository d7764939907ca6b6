(** Proof tokens: base64, compact serialization, header and claims documents,
    case-insensitive type names; without the model's functions. *)
From Verif Require Import Model.Prelude Model.Json Model.Types Model.Deps Spec SpecToken.

(* ------------------------------------------------------------------ *)
(** * base64 (RFC 4648), on the level of bits *)

Definition std_alphabet : str :=
  lit "ABCDEFGHIJKLMNOPQRSTUVWXYZabcdefghijklmnopqrstuvwxyz0123456789+/".
Definition url_alphabet : str :=
  lit "ABCDEFGHIJKLMNOPQRSTUVWXYZabcdefghijklmnopqrstuvwxyz0123456789-_".

(** Most significant bit first. *)
Definition byte_bits (b : ascii) : list bool :=
  map (N.testbit (code b)) [7; 6; 5; 4; 3; 2; 1; 0].
Definition sextet_bits (n : N) : list bool := map (N.testbit n) [5; 4; 3; 2; 1; 0].

(** [text] is the encoding of [bytes]: its characters stand for sextets whose
    bits are those of [bytes] followed by fewer than six zero bits; with padding
    it is filled up with [=] to a multiple of four. *)
Definition base64_text (alphabet : str) (padded : bool) (bytes text : str) : Prop :=
  exists sextets chars zeros fill,
    text = chars ++ repeat "="%char fill
    /\ Forall2 (fun n c => nth_error alphabet (N.to_nat n) = Some c) sextets chars
    /\ flat_map byte_bits bytes ++ repeat false zeros = flat_map sextet_bits sextets
    /\ (zeros < 6)%nat
    /\ (if padded then (fill < 4 /\ (List.length chars + fill) mod 4 = 0)%nat else fill = O).

(* ------------------------------------------------------------------ *)
(** * Members of a JSON object *)

Definition no_member (m : list (str * json)) (k : string) : Prop := ~ In (lit k) (map fst m).

(** An optional member: absent or null for [None]; only once. *)
Definition optional_member {A : Type} (m : list (str * json)) (k : string)
    (P : json -> A -> Prop) (o : option A) : Prop :=
  match o with
  | None => no_member m k \/ only_member m k JNull
  | Some a => exists v, only_member m k v /\ P v a
  end.

(* ------------------------------------------------------------------ *)
(** * Header and claims *)

(** Registered names of the algorithms (RFC 7518, RFC 8037, RFC 8812). *)
Inductive alg_is : proof_alg -> string -> Prop :=
| alg_hs256 : alg_is HS256 "HS256" | alg_hs384 : alg_is HS384 "HS384" | alg_hs512 : alg_is HS512 "HS512"
| alg_rs256 : alg_is RS256 "RS256" | alg_rs384 : alg_is RS384 "RS384" | alg_rs512 : alg_is RS512 "RS512"
| alg_es256 : alg_is ES256 "ES256" | alg_es384 : alg_is ES384 "ES384" | alg_es512 : alg_is ES512 "ES512"
| alg_ps256 : alg_is PS256 "PS256" | alg_ps384 : alg_is PS384 "PS384" | alg_ps512 : alg_is PS512 "PS512"
| alg_eddsa : alg_is EdDSA "EdDSA" | alg_es256k : alg_is ES256K "ES256K"
| alg_ecdh : alg_is ECDHES "ECDH-ES" | alg_none : alg_is AlgNone "none".

(** Symmetric algorithms and none. *)
Definition forbidden_alg (a : proof_alg) : Prop :=
  a = HS256 \/ a = HS384 \/ a = HS512 \/ a = AlgNone.

(** serde also reads [{"EdDSA": null}] for a unit variant. *)
Inductive alg_value : json -> proof_alg -> Prop :=
| av_name a n : alg_is a n -> alg_value (JStr (lit n)) a
| av_map a n : alg_is a n -> alg_value (JObj [(lit n, JNull)]) a.

Definition key_names : list string := ["kid"; "jwk"; "x5c"]%string.
Definition names_key (k : str) : Prop := exists n, In n key_names /\ k = lit n.

Inductive key_is : string -> str -> additional_header -> Prop :=
| key_kid s : key_is "kid" s (KeyId s)
| key_jwk s : key_is "jwk" s (Jwk s)
| key_x5c s : key_is "x5c" s (X5c s).

(** The key is taken from the first of the members kid, jwk, x5c, in the order
    of the document; later ones are not looked at. *)
Inductive first_key (m : list (str * json)) : option additional_header -> Prop :=
| fk_none : (forall k v, In (k, v) m -> ~ names_key k) -> first_key m None
| fk_some before after n s key :
    m = before ++ (lit n, JStr s) :: after ->
    (forall k v, In (k, v) before -> ~ names_key k) ->
    key_is n s key -> first_key m (Some key)
| fk_not_text before after k v :
    m = before ++ (k, v) :: after -> (forall k v, In (k, v) before -> ~ names_key k) ->
    names_key k -> (forall s, v <> JStr s) -> first_key m None.

Definition header_of (m : list (str * json)) (h : jwt_header) : Prop :=
  only_member m "typ" (JStr (h_typ h))
  /\ (exists v, only_member m "alg" v /\ alg_value v (h_alg h))
  /\ first_key m (h_additional h).

Definition text_value (v : json) (s : str) : Prop := v = JStr s.
Definition instant_value (d : deps) (v : json) (t : instant) : Prop :=
  exists s, v = JStr s /\ dt_parse d s = Some t.

Definition claims_of (d : deps) (m : list (str * json)) (b : jwt_body) : Prop :=
  optional_member m "iss" text_value (b_iss b)
  /\ only_member m "aud" (JStr (b_aud b))
  /\ optional_member m "sub" text_value (b_sub b)
  /\ (exists v, only_member m "iat" v /\ instant_value d v (b_iat b))
  /\ only_member m "nonce" (JStr (b_nonce b))
  /\ optional_member m "nbf" (instant_value d) (b_nbf b)
  /\ optional_member m "exp" (instant_value d) (b_exp b).

(** serde reads a struct from an object or from an array that lists the values
    of all fields in the order of the declaration. *)
Inductive members_of (names : list string) : json -> list (str * json) -> Prop :=
| mo_object m : members_of names (JObj m) m
| mo_array l : List.length l = List.length names ->
    members_of names (JArr l) (combine (map lit names) l).

Definition claim_names : list string := ["iss"; "aud"; "sub"; "iat"; "nonce"; "nbf"; "exp"]%string.

(* ------------------------------------------------------------------ *)
(** * Compact serialization *)

Definition dotless (s : str) : Prop := ~ In "."%char s.

(** A token text split at its dots. [tail] is the text after the second dot. *)
Inductive token_parts : str -> str -> str -> option str -> Prop :=
| tp_two h b : dotless h -> dotless b -> token_parts (h ++ lit "." ++ b) h b None
| tp_more h b tail :
    dotless h -> dotless b -> token_parts (h ++ lit "." ++ b ++ lit "." ++ tail) h b (Some tail).

(** The segment before the first dot. *)
Definition first_segment (s seg : str) : Prop :=
  (dotless s /\ seg = s) \/ (exists rest, s = seg ++ lit "." ++ rest /\ dotless seg).

(* ------------------------------------------------------------------ *)
(** * Facts about other crates used as premises *)

(** chrono reads back the text it writes, which is text. *)
Definition dt_round_trips (d : deps) : Prop :=
  forall t, in_instant_range t = true -> dt_parse d (dt_print d t) = Some t /\ rust_string (dt_print d t).

Definition body_instants_ok (b : jwt_body) : Prop :=
  in_instant_range (b_iat b) = true /\ on_some (fun t => in_instant_range t = true) (b_nbf b)
  /\ on_some (fun t => in_instant_range t = true) (b_exp b).

(** Unicode: the lower-case form of a non-ASCII character contains, in every
    context, a non-ASCII character or is [k] (U+212A); its upper-case form contains a non-ASCII
    character or one of I (U+0131), S (U+017F, U+00DF) and F (ligatures). *)
Definition lower_case_facts (d : deps) : Prop :=
  forall before c after, 128 <= c -> scalar_value c ->
    exists x, In x (lower_table d before c after) /\ ((128 <= x /\ scalar_value x) \/ x = 107).
Definition upper_case_facts (d : deps) : Prop :=
  forall c, 128 <= c -> scalar_value c ->
    exists x, In x (upper_table d c)
              /\ ((128 <= x /\ scalar_value x) \/ x = 73 \/ x = 83 \/ x = 70).

(** What a proof token denotes: both documents, and the third segment if any. *)
Definition signature_is (tail sig : option str) : Prop :=
  match tail, sig with
  | None, None => True
  | Some t, Some s => first_segment t s
  | _, _ => False
  end.

(** The validity window of [nbf] and [exp], both ends included. *)
Definition in_window (b : jwt_body) (now : instant) : Prop :=
  (forall nbf, b_nbf b = Some nbf -> (nbf <= now)%Z) /\ (forall exp, b_exp b = Some exp -> (now <= exp)%Z).

Inductive window_error (b : jwt_body) (now : instant) : jwt_error -> Prop :=
| we_early nbf : b_nbf b = Some nbf -> (now < nbf)%Z -> window_error b now (JNotYetValid nbf now)
| we_late exp :
    (forall nbf, b_nbf b = Some nbf -> (nbf <= now)%Z) -> b_exp b = Some exp -> (exp < now)%Z ->
    window_error b now (JNotValidAnymore exp now).
