(** The reader accepts exactly the texts of the RFC 8259 grammar (SpecJson.v). *)
From Coq Require Import Lia ZifyBool ZifyN ZifyNat.
From Verif Require Import Model.Prelude Model.Utf8 Model.Float Model.Json Spec SpecJson
  Proofs.StrFacts Proofs.Utf8Facts Proofs.JsonFacts.

(* ---------------- white space ---------------- *)

Lemma is_ws_iff c : is_ws c = true <-> code c = 32 \/ code c = 9 \/ code c = 10 \/ code c = 13.
Proof. unfold is_ws. lia. Qed.

Lemma skip_white a s : white a -> skip_ws (a ++ s) = skip_ws s.
Proof.
  intros H. induction H as [|c a Hc _ IH]; [reflexivity|].
  cbn [app skip_ws]. apply is_ws_iff in Hc. rewrite Hc. exact IH.
Qed.

Lemma skip_ws_split s : exists a, white a /\ s = a ++ skip_ws s.
Proof.
  induction s as [|b s (a & Ha & E)].
  - exists []. split; [constructor|reflexivity].
  - cbn [skip_ws]. destruct (is_ws b) eqn:Eb.
    + exists (b :: a). split; [constructor; [now apply is_ws_iff|exact Ha]|]. cbn [app]. now rewrite <- E.
    + exists []. split; [constructor|reflexivity].
Qed.

Lemma skip_ws_head s c r : skip_ws s = c :: r -> is_ws c = false.
Proof.
  induction s as [|b s IH]; cbn [skip_ws]; [discriminate|].
  destruct (is_ws b) eqn:E; [exact IH|]. intros [= <- _]. exact E.
Qed.

Lemma white_nil_skip a : white a -> skip_ws a = [].
Proof. intros H. rewrite <- (app_nil_r a), skip_white by exact H. reflexivity. Qed.

Lemma skip_nil_white s : skip_ws s = [] -> white s.
Proof. intros H. destruct (skip_ws_split s) as (a & Ha & ->). rewrite H, app_nil_r. exact Ha. Qed.

(* ---------------- strings ---------------- *)

Lemma hexv_iff c n : hexv c = Some n <-> hex_digit c n.
Proof.
  unfold hexv, hex_digit.
  destruct ((48 <=? code c) && (code c <=? 57)) eqn:E1.
  { split; [intros [= <-]; lia|intros H; f_equal; lia]. }
  destruct ((65 <=? code c) && (code c <=? 70)) eqn:E2.
  { split; [intros [= <-]; lia|intros H; f_equal; lia]. }
  destruct ((97 <=? code c) && (code c <=? 102)) eqn:E3.
  { split; [intros [= <-]; lia|intros H; f_equal; lia]. }
  split; [discriminate|lia].
Qed.

Lemma hex4_iff a b c d u : hex4 a b c d = Some u <-> hex_unit [a; b; c; d] u.
Proof.
  unfold hex4. split.
  - destruct (hexv a) as [w|] eqn:Ea; [|discriminate]. destruct (hexv b) as [x|] eqn:Eb; [|discriminate].
    destruct (hexv c) as [y|] eqn:Ec; [|discriminate]. destruct (hexv d) as [z|] eqn:Ed; [|discriminate].
    cbn [opt_bind]. intros [= <-]. constructor; now apply hexv_iff.
  - intros H. inversion H as [a' b' c' d' w x y z Ha Hb Hc Hd]; subst.
    apply hexv_iff in Ha, Hb, Hc, Hd. rewrite Ha, Hb, Hc, Hd. reflexivity.
Qed.

Lemma hex_digit_bound c n : hex_digit c n -> n < 16.
Proof. unfold hex_digit. lia. Qed.

Lemma hex_unit_bound h u : hex_unit h u -> u < 65536.
Proof.
  intros [a b c d w x y z Ha Hb Hc Hd].
  apply hex_digit_bound in Ha, Hb, Hc, Hd. lia.
Qed.

Lemma hex_unit_four h u : hex_unit h u -> exists a b c d, h = [a; b; c; d].
Proof. intros []. eauto. Qed.

Lemma utf8_char_of_unit u : u < 1114112 -> utf8_char u (utf8_enc1 u).
Proof.
  intros H. unfold utf8_enc1.
  destruct (u <? 128) eqn:E1.
  { pose proof (code_chr u) as K. rewrite <- K at 1 by lia. apply utf8_1. rewrite K; lia. }
  assert (forall k n, n < 64 -> k + n < 256 -> code (chr (k + n)) = k + n) as Hc by (intros; apply code_chr; lia).
  assert (Hm : forall n, n mod 64 < 64) by (intros; apply N.mod_lt; discriminate).
  destruct (u <? 2048) eqn:E2.
  { apply utf8_2; [lia| |].
    - apply code_chr. assert (u / 64 < 32) by (apply div_bound; lia). lia.
    - apply code_chr. specialize (Hm u). lia. }
  destruct (u <? 65536) eqn:E3.
  { apply utf8_3; [lia| | |].
    - apply code_chr. assert (u / 4096 < 16) by (apply div_bound; lia). lia.
    - apply code_chr. specialize (Hm (u / 64)). lia.
    - apply code_chr. specialize (Hm u). lia. }
  apply utf8_4; [lia| | | |].
  - apply code_chr. assert (u / 262144 < 5) by (apply div_bound; lia). lia.
  - apply code_chr. specialize (Hm (u / 4096)). lia.
  - apply code_chr. specialize (Hm (u / 64)). lia.
  - apply code_chr. specialize (Hm u). lia.
Qed.

Lemma chr_code' c n : code c = n -> c = chr n.
Proof. intros <-. symmetry. now apply chr_eq. Qed.

(** One step of the string reader at a [\u] escape. *)
Lemma body_unicode w h1 h2 h3 h4 r2 :
  parse_str_body w ("\"%char :: "u"%char :: h1 :: h2 :: h3 :: h4 :: r2) =
  match hex4 h1 h2 h3 h4 with
  | None => None
  | Some u =>
      if negb w then
        let* p := parse_str_body w r2 in Some (utf8_enc1 u ++ fst p, snd p)
      else if (56320 <=? u) && (u <=? 57343) then None
      else if (55296 <=? u) && (u <=? 56319) then
        match r2 with
        | bs :: uu :: g1 :: g2 :: g3 :: g4 :: r3 =>
            if Ascii.eqb bs backslash && Ascii.eqb uu "u"%char then
              match hex4 g1 g2 g3 g4 with
              | None => None
              | Some v =>
                  if (56320 <=? v) && (v <=? 57343) then
                    let* p := parse_str_body w r3 in
                    Some (utf8_enc1 (65536 + (u - 55296) * 1024 + (v - 56320))
                          ++ fst p, snd p)
                  else None
              end
            else None
        | _ => None
        end
      else
        let* p := parse_str_body w r2 in Some (utf8_enc1 u ++ fst p, snd p)
  end.
Proof. reflexivity. Qed.

Lemma chars_read w t v r : string_chars w t v -> parse_str_body w (t ++ quote :: r) = Some (v, r).
Proof.
  intros H. induction H as [| c t v H1 H2 H3 _ IH | e c t v He _ IH | h u bytes t v Hh Hs Hu _ IH
    | h hi l lo bytes t v -> Hh Hi Hl Hlo Hu _ IH].
  - cbn [app parse_str_body]. now rewrite ascii_eqb_refl.
  - cbn [app parse_str_body]. rewrite (ascii_eqb_neq c quote), (ascii_eqb_neq c backslash).
    + replace (code c <? 32) with false by lia. rewrite IH. reflexivity.
    + intros ->. now apply H3.
    + intros ->. now apply H2.
  - cbn [app parse_str_body]. change (Ascii.eqb "\"%char quote) with false.
    change (Ascii.eqb "\"%char backslash) with true. cbv iota zeta. rewrite IH. cbn [opt_bind fst snd].
    assert (forall n, code c = n -> c = chr n) as K by (apply chr_code').
    inversion He as [E E'|E E'|E E'|E E'|E E'|E E'|E E'|E E']; subst e; symmetry in E'; apply K in E'; subst c;
      reflexivity.
  - destruct (hex_unit_four _ _ Hh) as (a & b & c & d & ->). cbn [app]. rewrite body_unicode.
    apply hex4_iff in Hh. apply utf8_char_enc1 in Hu. subst bytes. rewrite Hh, IH. cbn [opt_bind fst snd].
    destruct w; [|reflexivity]. cbn [negb]. specialize (Hs eq_refl). unfold scalar_value in Hs.
    replace ((56320 <=? u) && (u <=? 57343)) with false by lia.
    replace ((55296 <=? u) && (u <=? 56319)) with false by lia. reflexivity.
  - destruct (hex_unit_four _ _ Hh) as (a & b & c & d & ->).
    destruct (hex_unit_four _ _ Hl) as (a' & b' & c' & d' & ->). cbn [app]. rewrite body_unicode.
    apply hex4_iff in Hh. apply hex4_iff in Hl. apply utf8_char_enc1 in Hu. subst bytes.
    rewrite Hh. cbn [negb].
    replace ((56320 <=? hi) && (hi <=? 57343)) with false by lia.
    replace ((55296 <=? hi) && (hi <=? 56319)) with true by lia.
    change (Ascii.eqb "\"%char backslash && Ascii.eqb "u"%char "u"%char) with true. cbv iota.
    rewrite Hl. replace ((56320 <=? lo) && (lo <=? 57343)) with true by lia.
    rewrite IH. reflexivity.
Qed.

Lemma some_pair_inj {A B : Type} (a a' : A) (b b' : B) : Some (a, b) = Some (a', b') -> a = a' /\ b = b'.
Proof. intros H. injection H as -> ->. auto. Qed.

Lemma chars_of_read w n : forall s v r, (List.length s <= n)%nat -> parse_str_body w s = Some (v, r) ->
  exists t, s = t ++ quote :: r /\ string_chars w t v.
Proof.
  induction n as [|n IH]; intros s v r Hn H.
  { destruct s; [discriminate|simpl in Hn; lia]. }
  destruct s as [|b s]; [discriminate|]. cbn [parse_str_body] in H. cbn [List.length] in Hn.
  destruct (Ascii.eqb b quote) eqn:Eq.
  { apply Ascii.eqb_eq in Eq. subst b. injection H as <- <-. exists []. split; [reflexivity|constructor]. }
  apply Ascii.eqb_neq in Eq.
  destruct (Ascii.eqb b backslash) eqn:Ebs.
  - apply Ascii.eqb_eq in Ebs. subst b. destruct s as [|e s1]; [discriminate|]. cbv zeta in H.
    cbn [List.length] in Hn.
    assert (K : forall c, opt_bind (parse_str_body w s1) (fun p => Some (c :: fst p, snd p)) = Some (v, r) ->
                short_escape e (code c) ->
                exists t, backslash :: e :: s1 = t ++ quote :: r /\ string_chars w t v).
    { intros c Hc He. destruct (parse_str_body w s1) as [[v1 r1]|] eqn:E1; [|discriminate].
      cbn [opt_bind fst snd] in Hc. injection Hc as <- <-. apply IH in E1; [|lia].
      destruct E1 as (t & -> & Ht). exists (backslash :: e :: t). split; [reflexivity|]. now apply sc_short. }
    destruct (Ascii.eqb e quote) eqn:X1; [apply Ascii.eqb_eq in X1; subst e; apply (K _ H); constructor|].
    destruct (Ascii.eqb e backslash) eqn:X2; [apply Ascii.eqb_eq in X2; subst e; apply (K _ H); constructor|].
    destruct (Ascii.eqb e "/"%char) eqn:X3; [apply Ascii.eqb_eq in X3; subst e; apply (K _ H); constructor|].
    destruct (Ascii.eqb e "b"%char) eqn:X4; [apply Ascii.eqb_eq in X4; subst e; apply (K _ H); constructor|].
    destruct (Ascii.eqb e "f"%char) eqn:X5; [apply Ascii.eqb_eq in X5; subst e; apply (K _ H); constructor|].
    destruct (Ascii.eqb e "n"%char) eqn:X6; [apply Ascii.eqb_eq in X6; subst e; apply (K _ H); constructor|].
    destruct (Ascii.eqb e "r"%char) eqn:X7; [apply Ascii.eqb_eq in X7; subst e; apply (K _ H); constructor|].
    destruct (Ascii.eqb e "t"%char) eqn:X8; [apply Ascii.eqb_eq in X8; subst e; apply (K _ H); constructor|].
    clear K. destruct (Ascii.eqb e "u"%char) eqn:X9; [|discriminate]. apply Ascii.eqb_eq in X9. subst e.
    destruct s1 as [|h1 [|h2 [|h3 [|h4 r2]]]]; try discriminate H. cbn [List.length] in Hn.
    destruct (hex4 h1 h2 h3 h4) as [u|] eqn:Eh; [|discriminate H]. apply hex4_iff in Eh.
    pose proof (hex_unit_bound _ _ Eh) as Hub.
    assert (K : opt_bind (parse_str_body w r2) (fun p => Some (utf8_enc1 u ++ fst p, snd p)) = Some (v, r) ->
                (w = true -> scalar_value u) ->
                exists t, backslash :: "u"%char :: h1 :: h2 :: h3 :: h4 :: r2 = t ++ quote :: r
                          /\ string_chars w t v).
    { intros Hc He. destruct (parse_str_body w r2) as [[v1 r1]|] eqn:E1; [|discriminate].
      cbn [opt_bind fst snd] in Hc. apply some_pair_inj in Hc. destruct Hc as [<- <-]. apply IH in E1; [|lia].
      destruct E1 as (t & -> & Ht).
      exists (backslash :: "u"%char :: [h1; h2; h3; h4] ++ t). split; [reflexivity|].
      apply sc_unicode with u; [exact Eh|exact He|apply utf8_char_of_unit; lia|exact Ht]. }
    destruct w; cbn [negb] in H; [|apply K; [exact H|discriminate]].
    destruct ((56320 <=? u) && (u <=? 57343)) eqn:El; [discriminate H|].
    destruct ((55296 <=? u) && (u <=? 56319)) eqn:Eu.
    + clear K. destruct r2 as [|bs [|uu [|g1 [|g2 [|g3 [|g4 r3]]]]]]; try discriminate H.
      cbn [List.length] in Hn.
      destruct (Ascii.eqb bs backslash && Ascii.eqb uu "u"%char) eqn:Eb; [|discriminate H].
      apply andb_true_iff in Eb. rewrite !Ascii.eqb_eq in Eb. destruct Eb as [-> ->].
      destruct (hex4 g1 g2 g3 g4) as [lo|] eqn:Eg; [|discriminate H]. apply hex4_iff in Eg.
      destruct ((56320 <=? lo) && (lo <=? 57343)) eqn:Elo; [|discriminate H].
      destruct (parse_str_body true r3) as [[v1 r1]|] eqn:E1; [|discriminate H].
      remember (65536 + (u - 55296) * 1024 + (lo - 56320)) as p eqn:Ep.
      cbn [opt_bind fst snd] in H. apply some_pair_inj in H. destruct H as [<- <-]. apply IH in E1; [|lia].
      destruct E1 as (t & -> & Ht).
      exists (backslash :: "u"%char :: [h1; h2; h3; h4] ++ "\"%char :: "u"%char :: [g1; g2; g3; g4] ++ t).
      split; [reflexivity|].
      apply sc_pair with u lo; [reflexivity|exact Eh|lia|exact Eg|lia|subst p; apply utf8_char_of_unit; lia|exact Ht].
    + apply K; [exact H|]. intros _. unfold scalar_value. lia.
  - apply Ascii.eqb_neq in Ebs. destruct (code b <? 32) eqn:E32; [discriminate|].
    destruct (parse_str_body w s) as [[v1 r1]|] eqn:E1; [|discriminate].
    cbn [opt_bind fst snd] in H. injection H as <- <-. apply IH in E1; [|lia].
    destruct E1 as (t & -> & Ht). exists (b :: t). split; [reflexivity|].
    apply sc_plain; [lia| | |exact Ht].
    + intros E. apply Eq. apply chr_code' in E. exact E.
    + intros E. apply Ebs. apply chr_code' in E. exact E.
Qed.

Lemma string_read w s v r : string_text w s v ->
  exists t, s ++ r = quote :: t /\ parse_string w t = POk v r /\ (List.length r < List.length t)%nat.
Proof.
  intros [t v' Ht Hv]. exists (t ++ quote :: r). split; [|split].
  - cbn [app]. now rewrite <- app_assoc.
  - unfold parse_string. rewrite (chars_read _ _ _ r Ht).
    destruct w; [|reflexivity]. apply rust_string_iff in Hv; [|reflexivity]. cbn [negb orb]. now rewrite Hv.
  - rewrite app_length. cbn [List.length]. lia.
Qed.

Lemma string_of_read w s v r : parse_string w s = POk v r ->
  exists t, quote :: s = t ++ r /\ string_text w t v.
Proof.
  unfold parse_string. destruct (parse_str_body w s) as [[v' r']|] eqn:E; [|discriminate].
  destruct (negb w || utf8_valid v') eqn:Eu; [|discriminate]. intros [= <- <-].
  apply chars_of_read with (n := List.length s) in E; [|lia]. destruct E as (t & -> & Ht).
  exists (quote :: t ++ [quote]). split; [cbn [app]; now rewrite <- app_assoc|].
  constructor; [exact Ht|]. intros ->. apply rust_string_iff. exact Eu.
Qed.

(* ---------------- numbers ---------------- *)

Lemma number_read w s j t : number_text w s j -> ends_number t -> parse_number w (s ++ t) = POk j t.
Proof.
  intros [d [[Hne Hd] Hz] Hv|d [[Hne Hd] Hz] Hv|s' u -> Hf|s' -> Hf] Ht.
  3: now apply parse_number_float.
  3: now apply parse_number_skipped.
  all: destruct d as [|d0 ds]; [easy|]; apply forallb_digits in Hd;
    assert (Hz' : d0 = "0"%char -> ds = []) by (intros ->; specialize (Hz eq_refl); now injection Hz);
    rewrite digits_value_acc, <- digits_val_acc in *.
  - pose proof (parse_number_lex w [] d0 ds [] [] t (or_introl eq_refl) Hd Hz' (or_introl eq_refl)
      (or_introl eq_refl) Ht) as P. cbv zeta in P. cbn [app] in P. rewrite app_nil_r in P.
    cbn [app]. rewrite P. change (2 ^ 64) with 18446744073709551616 in Hv.
    replace (18446744073709551615 <? digits_val (d0 :: ds)) with false by lia. reflexivity.
  - pose proof (parse_number_lex w ["-"%char] d0 ds [] [] t (or_intror eq_refl) Hd Hz' (or_introl eq_refl)
      (or_introl eq_refl) Ht) as P. cbv zeta in P. cbn [app] in P. rewrite app_nil_r in P.
    cbn [app]. rewrite P. change (2 ^ 63) with 9223372036854775808 in Hv.
    replace ((digits_val (d0 :: ds) =? 0) || (9223372036854775808 <? digits_val (d0 :: ds))) with false by lia.
    reflexivity.
Qed.

Lemma number_of_read w s j t : parse_number w s = POk j t -> exists n, s = n ++ t /\ number_text w n j.
Proof.
  intros H. apply parse_number_inv in H. destruct H as (neg & int & fr & ex & P & E & K).
  exists (neg ++ int ++ fr ++ ex). split; [exact E|].
  destruct K as [(N & F & ->)|[N K]].
  - destruct P as (_ & Hneg & Hint & Hz & _). apply app_eq_nil in F. destruct F as [-> ->].
    unfold not_integer in N. rewrite !app_nil_r. destruct Hneg as [-> | ->]; cbn [app].
    + apply nt_positive; [split; assumption|]. apply N.nle_gt. intros L. apply N. auto.
    + assert (D : ~ (2 ^ 63 < digits_value 0 int) /\ digits_value 0 int <> 0).
      { split; intros L; apply N; right; right; (split; [discriminate|auto]). }
      apply nt_negative; [split; assumption|]. lia.
  - unfold read_float in K. destruct w.
    + destruct (float_text _ int fr ex) as [u|] eqn:T; [|discriminate]. injection K as <-.
      apply nt_float; [reflexivity|]. pose proof P as (_ & Hneg & _ & _ & _ & Hex).
      apply float_text_iff in T; [|exact Hex]. destruct T as (x & R & W).
      rewrite sign_bool in W by exact Hneg. exists neg, int, fr, ex, x. auto.
    + injection K as <-. destruct P as (P0 & Hneg & P'). rewrite sign_bool by exact Hneg.
      apply nt_skipped; [reflexivity|]. exists neg, int, fr, ex. split; [|exact N].
      split; [reflexivity|]. split; [exact Hneg|exact P'].
Qed.

(* ---------------- values: every text of the grammar is read ---------------- *)

Scheme value_text_min := Minimality for value_text Sort Prop
  with elements_text_min := Minimality for elements_text Sort Prop
  with members_text_min := Minimality for members_text Sort Prop.
Combined Scheme texts_ind from value_text_min, elements_text_min, members_text_min.

Lemma number_head w s j : number_text w s j -> exists b r, s = b :: r /\ (is_dig b || Ascii.eqb b "-"%char) = true.
Proof.
  intros [d [[Hne Hd] _] _|d _ _|s' u _ Hf|s' _ Hf].
  - destruct d as [|b d]; [easy|]. exists b, d. split; [reflexivity|]. inversion Hd as [|? ? Hb _]; subst.
    apply is_dig_digit in Hb. now rewrite Hb.
  - exists "-"%char, d. split; reflexivity.
  - now apply float_start, (becomes_lexeme s' u).
  - now apply float_start.
Qed.

(** How a value may begin. *)
Lemma value_head w u n s j : value_text w u n s j ->
  exists b r, s = b :: r /\ is_ws b = false /\ Ascii.eqb b "]"%char = false /\ Ascii.eqb b "}"%char = false.
Proof.
  intros H. destruct H as [| | |? ? ? ? ? H|? ? ? ? ? H| | | |];
    try (rewrite ?lit_cons; do 2 eexists; repeat split; reflexivity).
  - destruct (number_head _ _ _ H) as (b & r & -> & Hb). exists b, r.
    destruct (number_start b Hb) as (W & _ & _ & _ & _ & _ & _ & Q1 & Q2). auto.
  - destruct H. do 2 eexists. repeat split; reflexivity.
Qed.

Lemma ends_white b c r : white b ->
  (c = ","%char \/ c = "]"%char \/ c = "}"%char) -> ends_number (b ++ c :: r).
Proof.
  intros [|x b' Hx _] Hc; cbn [app ends_number].
  - destruct Hc as [->|[->| ->]]; repeat split; (reflexivity || discriminate).
  - repeat split; [unfold is_digit; lia| | |]; intros ->; destruct Hx as [H|[H|[H|H]]]; discriminate H.
Qed.

Lemma ends_white_only b : white b -> ends_number b.
Proof.
  intros [|x b' Hx _]; cbn [ends_number]; [exact I|].
  repeat split; [unfold is_digit; lia| | |]; intros ->; destruct Hx as [H|[H|[H|H]]]; discriminate H.
Qed.

Lemma enter_deeper w n m : deeper w n m -> enter w (S n) = Some (S m).
Proof. unfold deeper, enter. destruct w; intros ->; reflexivity. Qed.

(** The lookups of the grammar are those of the reader. *)
Lemma listed_shape fields k : listed fields k = field_shape fields k.
Proof.
  induction fields as [|[k' s] fields IH]; [reflexivity|]. cbn [listed field_shape].
  destruct (list_eq_dec ascii_dec k k') as [->|N]; [now rewrite str_eqb_refl|].
  now rewrite (proj2 (str_eqb_neq k k')).
Qed.

Lemma mode_member w sh k : member_mode w sh k = (w && wanted sh k, member_shape sh k).
Proof.
  unfold member_mode, taken, wanted, member_shape.
  destruct sh; rewrite ?listed_shape; try destruct (field_shape fields k); now rewrite ?andb_true_r, ?andb_false_r.
Qed.

Lemma mode_element sh i : element_mode sh i = elem_shape sh i.
Proof.
  unfold element_mode, elem_shape. destruct sh; try reflexivity.
  revert i; induction fields as [|[k s] fields IH]; intros [|i]; cbn [map nth nth_error snd]; auto.
Qed.

Lemma texts_read :
  (forall w sh n s j, value_text w sh n s j -> forall a t f, white a -> ends_number t ->
     (List.length s <= f)%nat -> parse_value w sh f (S n) (a ++ s ++ t) = POk j t)
  /\ (forall w sh i n s l, elements_text w sh i n s l -> forall t f, (List.length s + 1 <= f)%nat ->
     parse_elems w sh i f (S n) (s ++ "]"%char :: t) = POk l t)
  /\ (forall w sh n s l, members_text w sh n s l -> forall t f, (List.length s + 1 <= f)%nat ->
     parse_members w sh f (S n) (s ++ "}"%char :: t) = POk l t).
Proof.
  apply texts_ind.
  - intros w sh n a t f Ha Ht Hf. rewrite !lit_cons in *. cbn [List.length] in Hf. destruct f as [|f]; [lia|].
    cbn [parse_value]. rewrite skip_white by exact Ha. rewrite lit_nil. reflexivity.
  - intros w sh n a t f Ha Ht Hf. rewrite !lit_cons in *. cbn [List.length] in Hf. destruct f as [|f]; [lia|].
    cbn [parse_value]. rewrite skip_white by exact Ha. rewrite lit_nil. reflexivity.
  - intros w sh n a t f Ha Ht Hf. rewrite !lit_cons in *. cbn [List.length] in Hf. destruct f as [|f]; [lia|].
    cbn [parse_value]. rewrite skip_white by exact Ha. rewrite lit_nil. reflexivity.
  - intros w sh n s j H a t f Ha Ht Hf.
    pose proof (number_read w s j t H Ht) as P. destruct (number_head _ _ _ H) as (b & r & -> & Hb).
    destruct f as [|f]; [cbn [List.length] in Hf; lia|].
    destruct (number_start b Hb) as (W & Q1 & Q2 & Q3 & Q4 & Q5 & Q6 & _ & _).
    cbn [parse_value]. rewrite skip_white by exact Ha. cbn [app skip_ws]. rewrite W, Q1, Q2, Q3, Q4, Q5, Q6. exact P.
  - intros w sh n s v H a t f Ha Ht Hf. destruct (string_read w s v t H) as (r & E & P & _).
    destruct f as [|f]; [destruct H; cbn [List.length] in Hf; lia|].
    cbn [parse_value]. rewrite skip_white by exact Ha. rewrite E. cbn [skip_ws].
    change (is_ws quote) with false. cbv iota. rewrite ascii_eqb_refl, P. reflexivity.
  - intros w sh n m a' Hm Ha' a t f Ha Ht Hf. destruct f as [|f]; [cbn [List.length] in Hf; lia|].
    cbn [parse_value]. rewrite skip_white by exact Ha. cbn [app skip_ws].
    change (is_ws "["%char) with false. cbn [Ascii.eqb Bool.eqb quote].
    rewrite (enter_deeper w n m Hm). rewrite <- app_assoc, skip_white by exact Ha'. reflexivity.
  - intros w sh n m s l Hm He IH a t f Ha Ht Hf.
    cbn [List.length] in Hf. rewrite app_length in Hf. cbn [List.length] in Hf. destruct f as [|f]; [lia|].
    cbn [parse_value]. rewrite skip_white by exact Ha. cbn [app skip_ws].
    change (is_ws "["%char) with false. cbn [Ascii.eqb Bool.eqb quote].
    rewrite (enter_deeper w n m Hm). rewrite <- app_assoc. cbn [app].
    assert (exists b r, skip_ws (s ++ "]"%char :: t) = b :: r /\ Ascii.eqb b "]"%char = false) as (b & r & E & Eb).
    { inversion He as [w' sh' i' n' a1 s1 b1 j1 Ha1 Hb1 Hv|w' sh' i' n' a1 s1 b1 t1 j1 l1 Ha1 Hb1 Hv _]; subst;
        destruct (value_head _ _ _ _ _ Hv) as (b & r & -> & W & Q & _);
        rewrite <- app_assoc, skip_white by exact Ha1; cbn [app skip_ws]; rewrite W; eauto. }
    rewrite E, Eb, IH by lia. reflexivity.
  - intros w sh n m a' Hm Ha' a t f Ha Ht Hf. destruct f as [|f]; [cbn [List.length] in Hf; lia|].
    cbn [parse_value]. rewrite skip_white by exact Ha. cbn [app skip_ws].
    change (is_ws "{"%char) with false. cbn [Ascii.eqb Bool.eqb quote].
    rewrite (enter_deeper w n m Hm). rewrite <- app_assoc, skip_white by exact Ha'. reflexivity.
  - intros w sh n m s l Hm He IH a t f Ha Ht Hf.
    cbn [List.length] in Hf. rewrite app_length in Hf. cbn [List.length] in Hf. destruct f as [|f]; [lia|].
    cbn [parse_value]. rewrite skip_white by exact Ha. cbn [app skip_ws].
    change (is_ws "{"%char) with false. cbn [Ascii.eqb Bool.eqb quote].
    rewrite (enter_deeper w n m Hm). rewrite <- app_assoc. cbn [app].
    assert (exists b r, skip_ws (s ++ "}"%char :: t) = b :: r /\ Ascii.eqb b "}"%char = false) as (b & r & E & Eb).
    { inversion He as [w1 sh1 w2 sh2 n' a1 k1 key1 b1 c1 s1 d1 j1 Ha1 Hb1 Hc1 Hd1 Hk Hw Hv
        |w1 sh1 w2 sh2 n' a1 k1 key1 b1 c1 s1 d1 t1 j1 l1 Ha1 Hb1 Hc1 Hd1 Hk Hw Hv _]; subst;
        destruct Hk; rewrite <- app_assoc, skip_white by exact Ha1; do 2 eexists; split; reflexivity. }
    rewrite E, Eb, IH by lia. reflexivity.
  - intros w sh i n a s b j Ha Hb Hv IH t f Hf. rewrite !app_length in Hf. destruct f as [|f]; [lia|].
    cbn [parse_elems]. rewrite mode_element in *. rewrite <- !app_assoc.
    rewrite IH by (exact Ha || (apply ends_white; auto) || lia).
    rewrite skip_white by exact Hb. reflexivity.
  - intros w sh i n a s b r j l Ha Hb Hv IHv He IHe t f Hf. rewrite !app_length in Hf. cbn [List.length] in Hf.
    destruct f as [|f]; [lia|]. cbn [parse_elems]. rewrite mode_element in *. rewrite <- !app_assoc. cbn [app].
    rewrite IHv by (exact Ha || (apply ends_white; auto) || lia).
    rewrite skip_white by exact Hb. cbn [skip_ws]. change (is_ws ","%char) with false. cbv iota.
    rewrite ascii_eqb_refl, IHe by lia. reflexivity.
  - intros w sh w' sh' n a k key b c s d j Ha Hb Hc Hd Hk Hw Hv IH t f Hf.
    rewrite !app_length in Hf. cbn [List.length] in Hf. rewrite !app_length in Hf.
    destruct f as [|f]; [lia|]. cbn [parse_members]. rewrite <- app_assoc, skip_white by exact Ha.
    rewrite <- app_assoc.
    destruct (string_read w k key ((b ++ ":"%char :: c ++ s ++ d) ++ "}"%char :: t) Hk) as (r & E & P & _).
    rewrite E. cbn [skip_ws]. change (is_ws quote) with false. cbv iota. rewrite ascii_eqb_refl, P.
    rewrite <- app_assoc, skip_white by exact Hb. cbn [app skip_ws].
    change (is_ws ":"%char) with false. cbv iota. rewrite ascii_eqb_refl.
    rewrite mode_member in Hw. injection Hw as <- <-. rewrite <- !app_assoc.
    rewrite IH by (exact Hc || (apply ends_white; auto) || lia).
    rewrite skip_white by exact Hd. reflexivity.
  - intros w sh w' sh' n a k key b c s d m j l Ha Hb Hc Hd Hk Hw Hv IHv He IHe t f Hf.
    rewrite !app_length in Hf. cbn [List.length] in Hf. rewrite !app_length in Hf. cbn [List.length] in Hf.
    destruct f as [|f]; [lia|]. cbn [parse_members]. rewrite <- app_assoc, skip_white by exact Ha.
    rewrite <- app_assoc.
    destruct (string_read w k key ((b ++ ":"%char :: c ++ s ++ d ++ ","%char :: m) ++ "}"%char :: t) Hk)
      as (r & E & P & _).
    rewrite E. cbn [skip_ws]. change (is_ws quote) with false. cbv iota. rewrite ascii_eqb_refl, P.
    rewrite <- app_assoc, skip_white by exact Hb. cbn [app skip_ws].
    change (is_ws ":"%char) with false. cbv iota. rewrite ascii_eqb_refl.
    rewrite mode_member in Hw. injection Hw as <- <-. rewrite <- !app_assoc. cbn [app].
    rewrite IHv by (exact Hc || (apply ends_white; auto) || lia).
    rewrite skip_white by exact Hd. cbn [skip_ws]. change (is_ws ","%char) with false. cbv iota.
    rewrite ascii_eqb_refl, IHe by lia. reflexivity.
Qed.

(* ---------------- values: only texts of the grammar are read ---------------- *)

Lemma expect_inv k s t : expect k s = Some t -> s = k ++ t.
Proof.
  revert s; induction k as [|a k IH]; intros s; cbn [expect].
  - intros [= ->]. reflexivity.
  - destruct s as [|b s]; [discriminate|]. destruct (Ascii.eqb a b) eqn:E; [|discriminate].
    apply Ascii.eqb_eq in E. subst b. intros H. apply IH in H. now subst.
Qed.

Lemma enter_inv w n d : enter w (S n) = Some d -> exists m, d = S m /\ deeper w n m.
Proof.
  unfold enter, deeper. destruct w.
  - destruct n as [|m]; [discriminate|]. intros [= <-]. eauto.
  - intros [= <-]. eauto.
Qed.

Lemma read_texts : forall f,
  (forall w sh n s j t, parse_value w sh f (S n) s = POk j t ->
     exists a r, s = a ++ r ++ t /\ white a /\ value_text w sh n r j)
  /\ (forall w sh i n s l t, parse_elems w sh i f (S n) s = POk l t ->
     exists r, s = r ++ "]"%char :: t /\ elements_text w sh i n r l)
  /\ (forall w sh n s l t, parse_members w sh f (S n) s = POk l t ->
     exists r, s = r ++ "}"%char :: t /\ members_text w sh n r l).
Proof.
  induction f as [|f (IV & IE & IM)]; [repeat split; intros; discriminate|].
  split; [|split].
  - intros w sh n s j t. cbn [parse_value].
    destruct (skip_ws_split s) as (a & Ha & Es). destruct (skip_ws s) as [|b r] eqn:E; [discriminate|].
    subst s. intros H. exists a.
    cut (exists r0, b :: r = r0 ++ t /\ value_text w sh n r0 j).
    { intros (r0 & -> & Hv). exists r0. auto. }
    destruct (Ascii.eqb b quote) eqn:B1.
    { apply Ascii.eqb_eq in B1. subst b. destruct (parse_string w r) as [v t'| |] eqn:Ep; try discriminate H.
      injection H as <- <-. apply string_of_read in Ep. destruct Ep as (r0 & -> & Hs). exists r0.
      split; [reflexivity|]. now apply vt_string. }
    destruct (Ascii.eqb b "["%char) eqn:B2.
    { apply Ascii.eqb_eq in B2. subst b. destruct (enter w (S n)) as [d|] eqn:Ee; [|discriminate H].
      apply enter_inv in Ee. destruct Ee as (m & -> & Hm).
      destruct (skip_ws_split r) as (a1 & Ha1 & Er). destruct (skip_ws r) as [|c t1] eqn:E1; [discriminate H|].
      destruct (Ascii.eqb c "]"%char) eqn:Ec.
      - apply Ascii.eqb_eq in Ec. subst c. injection H as <- <-. subst r.
        exists ("["%char :: a1 ++ ["]"%char]). split; [cbn [app]; now rewrite <- app_assoc|].
        now apply vt_empty_array with m.
      - destruct (parse_elems w sh 0 f (S m) r) as [l t'| |] eqn:Ep; try discriminate H. injection H as <- <-.
        apply IE in Ep. destruct Ep as (r0 & -> & He).
        exists ("["%char :: r0 ++ ["]"%char]). split; [cbn [app]; now rewrite <- app_assoc|].
        now apply vt_array with m. }
    destruct (Ascii.eqb b "{"%char) eqn:B3.
    { apply Ascii.eqb_eq in B3. subst b. destruct (enter w (S n)) as [d|] eqn:Ee; [|discriminate H].
      apply enter_inv in Ee. destruct Ee as (m & -> & Hm).
      destruct (skip_ws_split r) as (a1 & Ha1 & Er). destruct (skip_ws r) as [|c t1] eqn:E1; [discriminate H|].
      destruct (Ascii.eqb c "}"%char) eqn:Ec.
      - apply Ascii.eqb_eq in Ec. subst c. injection H as <- <-. subst r.
        exists ("{"%char :: a1 ++ ["}"%char]). split; [cbn [app]; now rewrite <- app_assoc|].
        now apply vt_empty_object with m.
      - destruct (parse_members w sh f (S m) r) as [l t'| |] eqn:Ep; try discriminate H. injection H as <- <-.
        apply IM in Ep. destruct Ep as (r0 & -> & He).
        exists ("{"%char :: r0 ++ ["}"%char]). split; [cbn [app]; now rewrite <- app_assoc|].
        now apply vt_object with m. }
    destruct (Ascii.eqb b "t"%char) eqn:B4.
    { apply Ascii.eqb_eq in B4. subst b. unfold parse_ident in H.
      destruct (expect (lit "rue") r) as [t'|] eqn:Ep; [|discriminate H]. injection H as <- <-.
      apply expect_inv in Ep. subst r. exists (lit "true"). split; [rewrite (lit_cons "t"%char); reflexivity|constructor]. }
    destruct (Ascii.eqb b "f"%char) eqn:B5.
    { apply Ascii.eqb_eq in B5. subst b. unfold parse_ident in H.
      destruct (expect (lit "alse") r) as [t'|] eqn:Ep; [|discriminate H]. injection H as <- <-.
      apply expect_inv in Ep. subst r. exists (lit "false"). split; [rewrite (lit_cons "f"%char); reflexivity|constructor]. }
    destruct (Ascii.eqb b "n"%char) eqn:B6.
    { apply Ascii.eqb_eq in B6. subst b. unfold parse_ident in H.
      destruct (expect (lit "ull") r) as [t'|] eqn:Ep; [|discriminate H]. injection H as <- <-.
      apply expect_inv in Ep. subst r. exists (lit "null"). split; [rewrite (lit_cons "n"%char); reflexivity|constructor]. }
    apply number_of_read in H. destruct H as (r0 & -> & Hn). exists r0. split; [reflexivity|]. now apply vt_number.
  - intros w sh i n s l t. cbn [parse_elems].
    destruct (parse_value w (elem_shape sh i) f (S n) s) as [v t1| |] eqn:Ev; try discriminate.
    apply IV in Ev. destruct Ev as (a & r & -> & Ha & Hv).
    destruct (skip_ws_split t1) as (b & Hb & Et). destruct (skip_ws t1) as [|c t2]; [discriminate|]. subst t1.
    destruct (Ascii.eqb c ","%char) eqn:C1.
    + apply Ascii.eqb_eq in C1. subst c. destruct (parse_elems w sh (S i) f (S n) t2) as [l' t3| |] eqn:Ee; try discriminate.
      intros H. injection H as <- <-. apply IE in Ee. destruct Ee as (r1 & -> & He).
      exists (a ++ r ++ b ++ ","%char :: r1). split; [|constructor; rewrite ?mode_element; assumption].
      rewrite <- !app_assoc. reflexivity.
    + destruct (Ascii.eqb c "]"%char) eqn:C2; [|discriminate]. apply Ascii.eqb_eq in C2. subst c.
      intros H. injection H as <- <-. exists (a ++ r ++ b). split; [now rewrite <- !app_assoc|constructor; rewrite ?mode_element; assumption].
  - intros w sh n s l t. cbn [parse_members].
    destruct (skip_ws_split s) as (a & Ha & Es). destruct (skip_ws s) as [|q r]; [discriminate|]. subst s.
    destruct (Ascii.eqb q quote) eqn:Q; [|discriminate]. apply Ascii.eqb_eq in Q. subst q.
    destruct (parse_string w r) as [k t1| |] eqn:Ek; try discriminate.
    apply string_of_read in Ek. destruct Ek as (kt & -> & Hk).
    destruct (skip_ws_split t1) as (b & Hb & Et). destruct (skip_ws t1) as [|c t2]; [discriminate|]. subst t1.
    destruct (Ascii.eqb c ":"%char) eqn:C; [|discriminate]. apply Ascii.eqb_eq in C. subst c.
    destruct (parse_value (w && wanted sh k) (member_shape sh k) f (S n) t2) as [v t3| |] eqn:Ev; try discriminate.
    apply IV in Ev. destruct Ev as (c & r1 & -> & Hc & Hv).
    destruct (skip_ws_split t3) as (d & Hd & Et). destruct (skip_ws t3) as [|e t4]; [discriminate|]. subst t3.
    destruct (Ascii.eqb e ","%char) eqn:E1.
    + apply Ascii.eqb_eq in E1. subst e.
      destruct (parse_members w sh f (S n) t4) as [l' t5| |] eqn:Ee; try discriminate.
      intros H. injection H as <- <-. apply IM in Ee. destruct Ee as (r2 & -> & He).
      exists (a ++ kt ++ b ++ ":"%char :: c ++ r1 ++ d ++ ","%char :: r2). split.
      * repeat first [rewrite <- app_assoc | rewrite <- app_comm_cons]. reflexivity.
      * apply mt_next with (w && wanted sh k) (member_shape sh k); auto. apply mode_member.
    + destruct (Ascii.eqb e "}"%char) eqn:E2; [|discriminate]. apply Ascii.eqb_eq in E2. subst e.
      intros H. injection H as <- <-. exists (a ++ kt ++ b ++ ":"%char :: c ++ r1 ++ d). split.
      * repeat first [rewrite <- app_assoc | rewrite <- app_comm_cons]. reflexivity.
      * apply mt_last with (w && wanted sh k) (member_shape sh k); auto. apply mode_member.
Qed.

(* ---------------- documents ---------------- *)

Lemma parse_doc_iff sh s j : parse_doc sh s = Some j <-> shaped_text sh s j.
Proof.
  unfold parse_doc, recursion_limit. split.
  - destruct (parse_value true sh (2 * List.length s + 2) 128 s) as [j' t| |] eqn:E; try discriminate.
    apply (proj1 (read_texts _) true sh 127%nat) in E. destruct E as (a & r & -> & Ha & Hv).
    destruct (skip_ws t) eqn:Et; [|discriminate]. intros [= <-]. exists a, r, t.
    repeat split; try assumption. now apply skip_nil_white.
  - intros (a & t & b & -> & Ha & Hb & Hv).
    rewrite (proj1 texts_read true sh 127%nat t j Hv a b);
      [|exact Ha|now apply ends_white_only|rewrite !app_length; lia].
    now rewrite white_nil_skip.
Qed.

Lemma parse_json_iff s j : parse_json s = Some j <-> json_text s j.
Proof. apply parse_doc_iff. Qed.

Lemma parse_struct_iff fields s j : parse_struct fields s = Some j <-> struct_text fields s j.
Proof. apply parse_doc_iff. Qed.

(** Theorems stated with the grammar follow from lemmas about the reader. *)
Ltac by_reader L := repeat setoid_rewrite <- parse_json_iff; exact L.
