(** Proof tokens. Theorems only; proofs are in Proofs/JwtFacts.v, vocabulary in
    SpecJwt.v. *)
From Coq Require Import Lia.
From Verif Require Import Model.Prelude Model.Base64 Model.Json Model.Types Model.Deps Model.Errors
  Model.Jwt Model.Wire Spec SpecToken SpecJwt SpecJson Proofs.GrammarFacts Proofs.JwtFacts Proofs.ShapeFacts Proofs.OkTac Examples.

(** A token used in the examples. *)
Definition ex_jwt : proof_jwt := {|
  j_header := {| h_typ := lit "openid4vci-proof+jwt"; h_alg := EdDSA;
                 h_additional := Some (KeyId (lit "did:key:z6Mk#z6Mk")) |};
  j_body := {| b_iss := Some (lit "client"); b_aud := lit "https://issuer.example"; b_sub := None;
               b_iat := 1683000000000000000%Z; b_nonce := lit "n1"; b_nbf := None;
               b_exp := Some 1684000000000000000%Z |};
  j_signature := Some (lit "c2ln") |}.
Definition ex_head : str := base64url_encode (header_to_json (j_header ex_jwt)).
Definition ex_claims : str := base64url_encode (claims_to_json example_deps (j_body ex_jwt)).
Definition ex_token : str := ex_head ++ lit "." ++ ex_claims ++ lit "." ++ lit "c2ln".

Example ex_jwt_ok :
  header_ok (j_header ex_jwt) /\ body_ok (j_body ex_jwt) /\ body_instants_ok (j_body ex_jwt)
  /\ (forall sig, j_signature ex_jwt = Some sig -> dotless sig).
Proof.
  split; [|split; [ok|split]].
  - split; [ok|]. intros s [E|[E|E]]; try discriminate. injection E as <-. ok.
  - split; [reflexivity|split; [intros x E; discriminate|intros x E; injection E as <-; reflexivity]].
  - intros sig E. injection E as <-. apply not_in_bool. reflexivity.
Qed.

(** * C24 *)
Theorem C24_compact_token_round_trip : forall d j hs bs,
  dt_round_trips d -> header_ok (j_header j) -> body_ok (j_body j) -> body_instants_ok (j_body j) ->
  base64_text url_alphabet false (header_to_json (j_header j)) hs ->
  base64_text url_alphabet false (claims_to_json d (j_body j)) bs ->
  (forall sig, j_signature j = Some sig -> dotless sig) ->
  jwt_from_str d (hs ++ lit "." ++ bs ++ match j_signature j with Some sig => lit "." ++ sig | None => [] end)
  = Ok j.
Proof. exact compact_round_trip. Qed.
Print Assumptions C24_compact_token_round_trip.

Example C24_example : jwt_from_str example_deps ex_token = Ok ex_jwt.
Proof.
  destruct ex_jwt_ok as (H1 & H2 & H3 & H4).
  exact (C24_compact_token_round_trip example_deps ex_jwt _ _ example_dt_round_trips H1 H2 H3
    (proj2 (proj1 codec_exact _)) (proj2 (proj1 codec_exact _)) H4).
Qed.

(** The documents in it are those of the header and the claims. *)
Theorem C24_header_document : forall text h,
  header_from_json text = Some h <-> exists m, json_text text (JObj m) /\ header_of m h.
Proof. by_reader header_from_json_iff. Qed.
Print Assumptions C24_header_document.

Theorem C24_claims_document : forall d text m b,
  json_text text (JObj m) -> (claims_from_json d text = Some b <-> claims_of d m b).
Proof. by_reader claims_from_json_iff. Qed.
Print Assumptions C24_claims_document.

(** Every text the claims are read from: an object whose unknown members are
    skipped, or an array of the seven values. *)
Theorem C24_claims_read_iff : forall d text b,
  claims_from_json d text = Some b <->
  exists j m, struct_text (map lit claim_names) text j /\ members_of claim_names j m /\ claims_of d m b.
Proof. exact claims_read_iff. Qed.
Print Assumptions C24_claims_read_iff.

Example C24_claims_example : exists m b,
  json_text (lit " {""aud"":""a"",""x"":[1,{}],""nonce"":""né"",""sub"":null,""iat"":""1970-01-01T00:00:17Z""} ") (JObj m)
  /\ claims_of example_deps m b /\ b_iat b = 17000000000%Z.
Proof.
  exists [(lit "aud", JStr (lit "a")); (lit "x", JArr [JInt 1; JObj []]);
          (lit "nonce", JStr (lit "n" ++ [chr 195; chr 169])); (lit "sub", JNull);
          (lit "iat", JStr (lit "1970-01-01T00:00:17Z"))],
    {| b_iss := None; b_aud := lit "a"; b_sub := None; b_iat := 17000000000%Z;
       b_nonce := lit "n" ++ [chr 195; chr 169]; b_nbf := None; b_exp := None |}.
  assert (E : json_text (lit " {""aud"":""a"",""x"":[1,{}],""nonce"":""né"",""sub"":null,""iat"":""1970-01-01T00:00:17Z""} ")
    (JObj [(lit "aud", JStr (lit "a")); (lit "x", JArr [JInt 1; JObj []]);
          (lit "nonce", JStr (lit "n" ++ [chr 195; chr 169])); (lit "sub", JNull);
          (lit "iat", JStr (lit "1970-01-01T00:00:17Z"))])) by (apply parse_json_iff; vm_compute; reflexivity).
  split; [exact E|]. split; [|reflexivity].
  apply (C24_claims_document _ _ _ _ E). vm_compute. reflexivity.
Qed.

(** * C25 *)
Theorem C25_accepted_tokens : forall d s j,
  jwt_from_str d s = Ok j <->
  exists hs bs tail ht bt hm bv bm,
    token_parts s hs bs tail
    /\ base64_text url_alphabet false ht hs /\ base64_text url_alphabet false bt bs
    /\ json_text ht (JObj hm) /\ header_of hm (j_header j)
    /\ struct_text (map lit claim_names) bt bv /\ members_of claim_names bv bm /\ claims_of d bm (j_body j)
    /\ signature_is tail (j_signature j).
Proof. exact accepted_tokens. Qed.
Print Assumptions C25_accepted_tokens.

Theorem C25_no_dot : forall d s, dotless s ->
  jwt_from_str d s = Err (VAny (lit "No body found in the `JWT`")).
Proof. exact from_str_no_dot. Qed.
Print Assumptions C25_no_dot.

Theorem C25_never_panics : forall d s, jwt_from_str d s <> Panic.
Proof. exact from_str_no_panic. Qed.
Print Assumptions C25_never_panics.

Example C25_no_dot_example : dotless (lit "eyJhbGciOiJFZERTQSJ9").
Proof. apply not_in_bool. reflexivity. Qed.

(** * C26: false; everything after a third dot is ignored *)
Definition C26_claim : Prop :=
  forall d s j, dt_round_trips d -> jwt_from_str d s = Ok j ->
  ~ exists a b c rest, s = a ++ lit "." ++ b ++ lit "." ++ c ++ lit "." ++ rest.
Theorem C26_surplus_segments_ignored : forall d h b sig rest,
  dotless h -> dotless b -> dotless sig ->
  jwt_from_str d (h ++ lit "." ++ b ++ lit "." ++ sig ++ lit "." ++ rest)
  = jwt_from_str d (h ++ lit "." ++ b ++ lit "." ++ sig).
Proof. exact surplus_segments. Qed.
Print Assumptions C26_surplus_segments_ignored.

Theorem C26_at_most_three_segments_refuted : ~ C26_claim.
Proof.
  intros H. apply (H example_deps (ex_head ++ lit "." ++ ex_claims ++ lit "." ++ lit "c2ln" ++ lit "." ++ lit "x.y")
                     ex_jwt example_dt_round_trips).
  - rewrite C26_surplus_segments_ignored; [exact C24_example|apply not_in_bool; reflexivity..].
  - exists ex_head, ex_claims, (lit "c2ln"), (lit "x.y"). reflexivity.
Qed.
Print Assumptions C26_at_most_three_segments_refuted.

(** * C27: false for every token; the produced text is raw JSON and always rejected *)
Definition C27_claim : Prop :=
  forall d j s, dt_round_trips d -> header_ok (j_header j) -> body_ok (j_body j) ->
  body_instants_ok (j_body j) -> jwt_try_into_string d j = Ok s -> jwt_from_str d s = Ok j.
Theorem C27_string_never_parses : forall d j s,
  jwt_try_into_string d j = Ok s -> exists e, jwt_from_str d s = Err e.
Proof. exact try_into_string_rejected. Qed.
Print Assumptions C27_string_never_parses.

Theorem C27_string_parses_back_refuted : ~ C27_claim.
Proof.
  intros H. destruct ex_jwt_ok as (H1 & H2 & H3 & _).
  specialize (H example_deps ex_jwt _ example_dt_round_trips H1 H2 H3 eq_refl).
  destruct (C27_string_never_parses example_deps ex_jwt _ eq_refl) as [e E]. rewrite E in H. discriminate.
Qed.
Print Assumptions C27_string_parses_back_refuted.

Theorem C27_string_text : forall d j,
  jwt_try_into_string d j =
  Ok (header_to_json (j_header j) ++ lit "." ++ claims_to_json d (j_body j)
      ++ match j_signature j with Some sig => lit "." ++ sig | None => [] end).
Proof. exact try_into_string_text. Qed.
Print Assumptions C27_string_text.

(** * C28 *)
Theorem C28_codecs_exact :
  (forall bytes, base64_text std_alphabet true bytes (base64_encode bytes)
                 /\ base64_text url_alphabet false bytes (base64url_encode bytes))
  /\ (forall text bytes, base64_decode text = Some bytes <-> base64_text std_alphabet true bytes text)
  /\ (forall text bytes, base64url_decode text = Some bytes <-> base64_text url_alphabet false bytes text)
  /\ (forall bytes, base64_decode (base64_encode bytes) = Some bytes
                    /\ base64url_decode (base64url_encode bytes) = Some bytes)
  /\ (forall t1 t2 bytes, base64_decode t1 = Some bytes -> base64_decode t2 = Some bytes -> t1 = t2)
  /\ (forall t1 t2 bytes, base64url_decode t1 = Some bytes -> base64url_decode t2 = Some bytes -> t1 = t2).
Proof. exact codec_exact. Qed.
Print Assumptions C28_codecs_exact.

(** Padding, foreign characters and non-zero trailing bits. *)
Example C28_examples :
  base64url_encode (lit "Hi?>") = lit "SGk_Pg" /\ base64_encode (lit "Hi?>") = lit "SGk/Pg=="
  /\ base64url_decode (lit "SGk_Pg==") = None /\ base64url_decode (lit "SGk_Ph") = None
  /\ base64url_decode (lit "SGk/Pg") = None /\ base64_decode (lit "SGk/Pg") = None.
Proof. repeat split; reflexivity. Qed.

(** * C29: false; the first of the three members in document order is used *)
Definition C29_claim : Prop :=
  forall text m a b, json_text text (JObj m) ->
  In a key_names -> In b key_names -> a <> b ->
  In (lit a) (map fst m) -> In (lit b) (map fst m) -> header_from_json text = None.
Theorem C29_key_members_exclusive_refuted : ~ C29_claim.
Proof.
  intros H.
  specialize (H (lit "{""typ"":""t"",""alg"":""EdDSA"",""kid"":""did:a:b#c"",""jwk"":""k""}")
                [(lit "typ", JStr (lit "t")); (lit "alg", JStr (lit "EdDSA"));
                 (lit "kid", JStr (lit "did:a:b#c")); (lit "jwk", JStr (lit "k"))]
                "kid"%string "jwk"%string ltac:(apply parse_json_iff; reflexivity)).
  assert (Some {| h_typ := lit "t"; h_alg := EdDSA; h_additional := Some (KeyId (lit "did:a:b#c")) |} = None)
    as E; [|discriminate].
  apply H; cbn; try tauto; discriminate.
Qed.
Print Assumptions C29_key_members_exclusive_refuted.

Theorem C29_later_keys_ignored : forall m h key extra,
  header_of m h -> h_additional h = Some key ->
  ~ In (lit "typ") (map fst extra) -> ~ In (lit "alg") (map fst extra) ->
  header_of (m ++ extra) h.
Proof. exact later_keys_ignored. Qed.
Print Assumptions C29_later_keys_ignored.

Theorem C29_first_key_used : forall text h,
  header_from_json text = Some h ->
  exists m, json_text text (JObj m) /\ first_key m (h_additional h).
Proof. intros text h H. apply C24_header_document in H. destruct H as (m & H & _ & _ & K). eauto. Qed.
Print Assumptions C29_first_key_used.

(** * C30 *)
Theorem C30_typ_exact : forall d j, lower_case_facts d -> rust_string (h_typ (j_header j)) ->
  (jwt_validate d j = Ok tt <-> ascii_ci (h_typ (j_header j)) (lit "openid4vci-proof+jwt"))
  /\ (~ ascii_ci (h_typ (j_header j)) (lit "openid4vci-proof+jwt") ->
      jwt_validate d j = Err (VAny (lit "jwt header `typ` MUST of of value `openid4vci-proof+jwt`"))).
Proof. exact typ_exact. Qed.
Print Assumptions C30_typ_exact.

Example C30_deps : lower_case_facts example_deps.
Proof. exact example_lower_case_facts. Qed.
Example C30_mixed_case : ascii_ci (lit "OpenID4VCI-Proof+JWT") (lit "openid4vci-proof+jwt").
Proof.
  repeat (constructor; [first [now left|right; left; unfold upper_letter; vm_compute; intuition discriminate]|]).
  constructor.
Qed.

(** * C31 *)
Theorem C31_window_exact : forall now j,
  (jwt_verify now j = Ok tt <-> in_window (j_body j) now)
  /\ (forall e, jwt_verify now j = Err e <-> window_error (j_body j) now e)
  /\ jwt_verify now j <> Panic.
Proof. exact verify_exact. Qed.
Print Assumptions C31_window_exact.

Example C31_inside : in_window (j_body ex_jwt) 1683500000000000000%Z.
Proof. split; intros x [= <-]; lia. Qed.
Example C31_outside :
  window_error (j_body ex_jwt) 1684000000000000001%Z
    (JNotValidAnymore 1684000000000000000%Z 1684000000000000001%Z).
Proof. apply we_late; [discriminate|reflexivity|lia]. Qed.

(** * C32: false; the end of the window is included *)
Definition C32_claim : Prop :=
  forall now j, b_exp (j_body j) = Some now -> jwt_verify now j <> Ok tt.
Theorem C32_exp_excluded_refuted : ~ C32_claim.
Proof. intros H. exact (H 1684000000000000000%Z ex_jwt eq_refl eq_refl). Qed.
Print Assumptions C32_exp_excluded_refuted.

Theorem C32_accepted_at_exp : forall now j, b_exp (j_body j) = Some now ->
  (forall nbf, b_nbf (j_body j) = Some nbf -> (nbf <= now)%Z) -> jwt_verify now j = Ok tt.
Proof.
  intros now j He Hn. apply verify_exact. split; [exact Hn|]. intros x Hx. rewrite He in Hx.
  injection Hx as <-. lia.
Qed.
Print Assumptions C32_accepted_at_exp.

(** * C33: false for every token; only texts are read as instants *)
Definition C33_claim : Prop :=
  forall d h bt hs bs m aud nonce n,
    dt_round_trips d -> header_ok h ->
    base64_text url_alphabet false (header_to_json h) hs -> base64_text url_alphabet false bt bs ->
    json_text bt (JObj m) ->
    only_member m "aud" (JStr aud) -> only_member m "nonce" (JStr nonce) -> only_member m "iat" (JInt n) ->
    (forall k v, In (k, v) m -> k = lit "aud" \/ k = lit "nonce" \/ k = lit "iat") ->
    exists j, jwt_from_str d (hs ++ lit "." ++ bs) = Ok j.
Definition ex_numeric : str := lit "{""aud"":""a"",""iat"":1683000000,""nonce"":""n""}".
Theorem C33_numeric_dates_rejected : forall d s hs bs tail bt m v,
  token_parts s hs bs tail -> base64_text url_alphabet false bt bs ->
  json_text bt (JObj m) -> In (lit "iat", v) m -> (forall t, v <> JStr t) ->
  exists e, jwt_from_str d s = Err e.
Proof. by_reader numeric_iat_token_rejected. Qed.
Print Assumptions C33_numeric_dates_rejected.

Theorem C33_numeric_dates_accepted_refuted : ~ C33_claim.
Proof.
  intros H. destruct ex_jwt_ok as (H1 & _).
  destruct (H example_deps (j_header ex_jwt) ex_numeric
    ex_head (base64url_encode ex_numeric)
    [(lit "aud", JStr (lit "a")); (lit "iat", JInt 1683000000); (lit "nonce", JStr (lit "n"))]
    (lit "a") (lit "n") 1683000000%Z example_dt_round_trips H1
    (proj2 (proj1 C28_codecs_exact _)) (proj2 (proj1 C28_codecs_exact _))
    ltac:(apply parse_json_iff; reflexivity)) as [j E].
  1-3: split; [cbn; tauto|reflexivity].
  { intros k v Hin. cbn in Hin. destruct Hin as [[= <- _]|[[= <- _]|[[= <- _]|[]]]]; tauto. }
  destruct (C33_numeric_dates_rejected example_deps (ex_head ++ lit "." ++ base64url_encode ex_numeric)
    ex_head (base64url_encode ex_numeric) None ex_numeric
    [(lit "aud", JStr (lit "a")); (lit "iat", JInt 1683000000); (lit "nonce", JStr (lit "n"))] (JInt 1683000000))
    as [e E2].
  - constructor; apply not_in_bool; reflexivity.
  - exact (proj2 (proj1 C28_codecs_exact _)).
  - apply parse_json_iff. reflexivity.
  - cbn. tauto.
  - discriminate.
  - rewrite E in E2. discriminate.
Qed.
Print Assumptions C33_numeric_dates_accepted_refuted.

Example C33_example : exists m, json_text ex_numeric (JObj m) /\ In (lit "iat", JInt 1683000000) m.
Proof. eexists. split; [apply parse_json_iff; reflexivity|]. cbn. tauto. Qed.

(** * C76: false; an array of the seven claims is read as well *)
Definition C76_claim : Prop := forall d s j hs bs tail bt bv,
  dt_round_trips d -> jwt_from_str d s = Ok j -> token_parts s hs bs tail ->
  base64_text url_alphabet false bt bs -> json_text bt bv -> exists m, bv = JObj m.

Definition ex_array : str := lit "[""client"",""a"",null,""1970-01-01T00:00:17Z"",""n"",null,null]".
Theorem C76_claims_are_an_object_refuted : ~ C76_claim.
Proof.
  intros H.
  destruct (H example_deps (ex_head ++ lit "." ++ base64url_encode ex_array)
    {| j_header := j_header ex_jwt;
       j_body := {| b_iss := Some (lit "client"); b_aud := lit "a"; b_sub := None; b_iat := 17000000000%Z;
                    b_nonce := lit "n"; b_nbf := None; b_exp := None |};
       j_signature := None |}
    ex_head (base64url_encode ex_array) None ex_array
    (JArr [JStr (lit "client"); JStr (lit "a"); JNull; JStr (lit "1970-01-01T00:00:17Z"); JStr (lit "n"); JNull; JNull])
    example_dt_round_trips) as [m E]; [reflexivity| | |apply parse_json_iff; reflexivity|discriminate].
  - constructor; apply not_in_bool; reflexivity.
  - exact (proj2 (proj1 C28_codecs_exact _)).
Qed.
Print Assumptions C76_claims_are_an_object_refuted.

(** What is true: an object, or all seven values in order; nothing else. *)
Theorem C76_object_or_seven_values : forall d s j hs bs tail bt bv,
  jwt_from_str d s = Ok j -> token_parts s hs bs tail ->
  base64_text url_alphabet false bt bs -> json_text bt bv ->
  (exists m, bv = JObj m /\ claims_of d m (j_body j))
  \/ (exists l, bv = JArr l /\ List.length l = 7%nat /\ claims_of d (combine (map lit claim_names) l) (j_body j)).
Proof. exact object_or_seven. Qed.
Print Assumptions C76_object_or_seven_values.

(** The header is always an object. *)
Theorem C76_header_is_an_object : forall d s j hs bs tail ht hv,
  jwt_from_str d s = Ok j -> token_parts s hs bs tail ->
  base64_text url_alphabet false ht hs -> json_text ht hv ->
  exists m, hv = JObj m /\ header_of m (j_header j).
Proof. exact header_object. Qed.
Print Assumptions C76_header_is_an_object.
