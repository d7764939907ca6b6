(** The writer's text is the compact form (C66, C82). *)
From Coq Require Import Lia ZifyBool ZifyN.
From Verif Require Import Model.Prelude Model.Json Spec SpecJson Proofs.StrFacts Proofs.FloatText Proofs.JsonFacts.

Lemma lower_hex_iff a n : n < 16 -> (lower_hex a n <-> a = hex_lower n).
Proof.
  intros L. unfold lower_hex, hex_lower. split.
  - intros H. apply code_inj. destruct (n <? 10) eqn:E; rewrite code_chr by lia; lia.
  - intros ->. destruct (n <? 10) eqn:E; rewrite code_chr by lia; lia.
Qed.

Lemma hex_parts c : code c < 32 -> code c / 16 < 16 /\ code c mod 16 < 16.
Proof. intros H. split; [apply N.div_lt_upper_bound; lia|apply N.mod_lt; lia]. Qed.

Lemma short_cases e n : short_escape e n ->
  (n = 34 /\ e = """"%char) \/ (n = 92 /\ e = "\"%char) \/ (n = 47 /\ e = "/"%char) \/ (n = 8 /\ e = "b"%char)
  \/ (n = 12 /\ e = "f"%char) \/ (n = 10 /\ e = "n"%char) \/ (n = 13 /\ e = "r"%char) \/ (n = 9 /\ e = "t"%char).
Proof. intros []; auto 10. Qed.

Lemma compact_char_escape c t : compact_char c t -> t = escape_byte c.
Proof.
  intros [c' A B C|c' e S D|c' a b L S A B]; unfold escape_byte.
  - repeat match goal with |- context [if ?x then _ else _] => destruct x eqn:?; [lia|] end. reflexivity.
  - apply short_cases in S. destruct S as [[E ->]|[[E ->]|[[E ->]|[[E ->]|[[E ->]|[[E ->]|[[E ->]|[E ->]]]]]]]];
      rewrite E; try reflexivity. now elim D.
  - destruct (hex_parts c' L) as [L1 L2].
    apply lower_hex_iff in A; [|exact L1]. apply lower_hex_iff in B; [|exact L2]. subst a b.
    destruct (code c' =? 34) eqn:E1; [lia|]. destruct (code c' =? 92) eqn:E2; [lia|].
    assert (forall n e, short_escape e n -> (code c' =? n) = false) as K.
    { intros n e H. apply N.eqb_neq. intros E. apply (S e). now rewrite E. }
    rewrite (K _ _ se_b), (K _ _ se_t), (K _ _ se_n), (K _ _ se_f), (K _ _ se_r).
    destruct (code c' <? 32) eqn:E3; [reflexivity|lia].
Qed.

Lemma escape_compact_char c : compact_char c (escape_byte c).
Proof.
  unfold escape_byte.
  destruct (code c =? 34) eqn:E1; [apply cc_short; [replace (code c) with 34 by lia; constructor|lia]|].
  destruct (code c =? 92) eqn:E2; [apply cc_short; [replace (code c) with 92 by lia; constructor|lia]|].
  destruct (code c =? 8) eqn:E3; [apply cc_short; [replace (code c) with 8 by lia; constructor|lia]|].
  destruct (code c =? 9) eqn:E4; [apply cc_short; [replace (code c) with 9 by lia; constructor|lia]|].
  destruct (code c =? 10) eqn:E5; [apply cc_short; [replace (code c) with 10 by lia; constructor|lia]|].
  destruct (code c =? 12) eqn:E6; [apply cc_short; [replace (code c) with 12 by lia; constructor|lia]|].
  destruct (code c =? 13) eqn:E7; [apply cc_short; [replace (code c) with 13 by lia; constructor|lia]|].
  destruct (code c <? 32) eqn:E8; [|apply cc_plain; lia].
  assert (code c < 32) as L by lia. destruct (hex_parts c L) as [L1 L2].
  apply (cc_control c (hex_lower (code c / 16)) (hex_lower (code c mod 16)) L).
  - intros e S. apply short_cases in S. lia.
  - now apply lower_hex_iff.
  - now apply lower_hex_iff.
Qed.

Lemma compact_chars_iff v t : compact_chars v t <-> t = flat_map escape_byte v.
Proof.
  split.
  - induction 1 as [|c v t t' H _ IH]; [reflexivity|]. cbn [flat_map]. now rewrite (compact_char_escape _ _ H), IH.
  - intros ->. induction v as [|c v IH]; [constructor|]. cbn [flat_map]. constructor; [apply escape_compact_char|exact IH].
Qed.

Lemma compact_string_iff v s : compact_string v s <-> s = print_str v.
Proof.
  split.
  - intros [t H]. apply compact_chars_iff in H. now subst t.
  - intros ->. apply (cs_quoted v (flat_map escape_byte v)). now apply compact_chars_iff.
Qed.

Scheme compact_mut := Induction for compact Sort Prop
with compact_elements_mut := Induction for compact_elements Sort Prop
with compact_members_mut := Induction for compact_members Sort Prop.

Lemma compact_print j s : compact j s -> s = print j.
Proof.
  intros H. induction H using compact_mut with
    (P0 := fun l t _ => l <> [] /\ t = join (lit ",") (map print l))
    (P1 := fun m t _ => m <> [] /\
       t = join (lit ",") (map (fun kv => print_str (fst kv) ++ lit ":" ++ print (snd kv)) m)).
  - reflexivity.
  - reflexivity.
  - reflexivity.
  - now apply integer_text_iff.
  - reflexivity.
  - now apply compact_string_iff.
  - reflexivity.
  - cbn [print]. destruct IHcompact as [_ ->]. reflexivity.
  - reflexivity.
  - cbn [print]. destruct IHcompact as [_ ->]. reflexivity.
  - split; [discriminate|]. exact IHcompact.
  - split; [discriminate|]. destruct IHcompact0 as [N ->]. subst s. destruct l; [now elim N|reflexivity].
  - split; [discriminate|]. apply compact_string_iff in c. subst. reflexivity.
  - split; [discriminate|]. destruct IHcompact0 as [N ->]. apply compact_string_iff in c. subst.
    destruct m; [now elim N|]. cbn [map join fst snd]. rewrite <- !app_assoc. reflexivity.
Qed.

Lemma print_compact j : compact j (print j).
Proof.
  induction j as [|[]|z|s|s|l IH|m IH] using json_ind'; try (constructor; fail).
  - constructor. now apply integer_text_iff.
  - constructor. now apply compact_string_iff.
  - destruct l as [|x l]; [constructor|]. cbn [print].
    apply co_array. revert x IH. induction l as [|y l IHl]; intros x IH.
    + inversion IH; subst. now constructor.
    + inversion IH as [|? ? Hx Hl]; subst. change (join (lit ",") (map print (x :: y :: l)))
        with (print x ++ ","%char :: join (lit ",") (map print (y :: l))).
      constructor; [exact Hx|]. now apply IHl.
  - destruct m as [|(k & x) m]; [constructor|]. cbn [print].
    apply co_object. revert k x IH. induction m as [|(q & y) m IHm]; intros k x IH.
    + inversion IH; subst. apply (cm_last (print_str k)); [now apply compact_string_iff|assumption].
    + inversion IH as [|? ? Hx Hl]; subst. specialize (IHm q y Hl).
      match type of IHm with compact_members _ ?t => set (rest := t) in IHm end.
      match goal with |- compact_members _ ?t =>
        replace t with (print_str k ++ ":"%char :: print x ++ ","%char :: rest) end.
      2: { transitivity ((print_str k ++ lit ":" ++ print x) ++ lit "," ++ rest); [|reflexivity].
           rewrite <- !app_assoc. reflexivity. }
      apply (cm_next (print_str k) k x (print x) ((q, y) :: m)); [now apply compact_string_iff|exact Hx|].
      exact IHm.
Qed.

Lemma compact_iff j s : compact j s <-> s = print j.
Proof. split; [apply compact_print|intros ->; apply print_compact]. Qed.
