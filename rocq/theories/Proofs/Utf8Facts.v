(** UTF-8 decoding and encoding are inverse; case conversion to ASCII targets. *)
From Coq Require Import Lia ZifyBool ZifyN ZifyNat.
From Verif Require Import Model.Prelude Model.Utf8 Proofs.StrFacts.

Ltac Zify.zify_post_hook ::= Z.to_euclidean_division_equations.

(** Unicode scalar values. *)
Definition scalar (c : N) : Prop := c < 55296 \/ (57343 < c /\ c < 1114112).

Lemma chr_eq n a : n = code a -> chr n = a.
Proof. intros ->. apply chr_code. Qed.

Lemma div_bound a b c : b <> 0 -> a < b * c -> a / b < c.
Proof. intros. apply N.div_lt_upper_bound; assumption. Qed.

Lemma utf8_enc1_cons c :
  exists b t, utf8_enc1 c = b :: t.
Proof.
  unfold utf8_enc1. destruct (c <? 128); [eauto|]. destruct (c <? 2048); [eauto|].
  destruct (c <? 65536); eauto.
Qed.

Lemma decode_enc1 c rest :
  scalar c -> utf8_decode (utf8_enc1 c ++ rest) = let* t := utf8_decode rest in Some (c :: t).
Proof.
  intros Hs. unfold utf8_enc1.
  destruct (c <? 128) eqn:E1; [|destruct (c <? 2048) eqn:E2; [|destruct (c <? 65536) eqn:E3]].
  - cbn [app utf8_decode]. rewrite code_chr by lia. rewrite E1. reflexivity.
  - cbn [app utf8_decode].
    assert (c / 64 < 32) by (apply div_bound; lia).
    assert (c mod 64 < 64) by (apply N.mod_lt; lia).
    unfold in_range, is_cont. rewrite !code_chr by lia.
    replace (192 + c / 64 <? 128) with false by lia.
    replace ((194 <=? 192 + c / 64) && (192 + c / 64 <=? 223)) with true by lia.
    replace ((128 <=? 128 + c mod 64) && (128 + c mod 64 <=? 191)) with true by lia.
    replace ((192 + c / 64 - 192) * 64 + (128 + c mod 64 - 128)) with c by lia.
    reflexivity.
  - cbn [app utf8_decode].
    assert (c / 4096 < 16) by (apply div_bound; lia).
    assert (c mod 64 < 64) by (apply N.mod_lt; lia).
    assert ((c / 64) mod 64 < 64) by (apply N.mod_lt; lia).
    assert (c = 4096 * (c / 4096) + 64 * ((c / 64) mod 64) + c mod 64) as Hc.
    { replace (c / 4096) with (c / 64 / 64) by (rewrite N.div_div by lia; reflexivity).
      pose proof (N.div_mod c 64). pose proof (N.div_mod (c / 64) 64). lia. }
    set (x := c / 4096) in *. set (y := (c / 64) mod 64) in *. set (z := c mod 64) in *.
    unfold in_range, is_cont. rewrite !code_chr by lia.
    replace (224 + x <? 128) with false by lia.
    replace ((194 <=? 224 + x) && (224 + x <=? 223)) with false by lia.
    replace ((224 <=? 224 + x) && (224 + x <=? 239)) with true by lia.
    replace ((128 <=? 128 + y) && (128 + y <=? 191)) with true by lia.
    replace ((128 <=? 128 + z) && (128 + z <=? 191)) with true by lia.
    unfold scalar in Hs.
    replace ((224 + x =? 224) && (128 + y <? 160)) with false by lia.
    replace ((224 + x =? 237) && (159 <? 128 + y)) with false by lia.
    cbn [andb negb].
    replace ((224 + x - 224) * 4096 + (128 + y - 128) * 64 + (128 + z - 128)) with c by lia.
    reflexivity.
  - cbn [app utf8_decode]. unfold scalar in Hs.
    assert (c / 262144 < 5) by (apply div_bound; lia).
    assert (c mod 64 < 64) by (apply N.mod_lt; lia).
    assert ((c / 64) mod 64 < 64) by (apply N.mod_lt; lia).
    assert ((c / 4096) mod 64 < 64) by (apply N.mod_lt; lia).
    assert (c = 262144 * (c / 262144) + 4096 * ((c / 4096) mod 64) + 64 * ((c / 64) mod 64) + c mod 64) as Hc.
    { replace (c / 262144) with (c / 4096 / 64) by (rewrite N.div_div by lia; reflexivity).
      replace (c / 4096) with (c / 64 / 64) by (rewrite N.div_div by lia; reflexivity).
      pose proof (N.div_mod c 64). pose proof (N.div_mod (c / 64) 64).
      pose proof (N.div_mod (c / 64 / 64) 64). lia. }
    set (w := c / 262144) in *. set (x := (c / 4096) mod 64) in *.
    set (y := (c / 64) mod 64) in *. set (z := c mod 64) in *.
    unfold in_range, is_cont. rewrite !code_chr by lia.
    replace (240 + w <? 128) with false by lia.
    replace ((194 <=? 240 + w) && (240 + w <=? 223)) with false by lia.
    replace ((224 <=? 240 + w) && (240 + w <=? 239)) with false by lia.
    replace ((240 <=? 240 + w) && (240 + w <=? 244)) with true by lia.
    replace ((128 <=? 128 + x) && (128 + x <=? 191)) with true by lia.
    replace ((128 <=? 128 + y) && (128 + y <=? 191)) with true by lia.
    replace ((128 <=? 128 + z) && (128 + z <=? 191)) with true by lia.
    replace ((240 + w =? 240) && (128 + x <? 144)) with false by lia.
    replace ((240 + w =? 244) && (143 <? 128 + x)) with false by lia.
    cbn [andb negb].
    replace ((240 + w - 240) * 262144 + (128 + x - 128) * 4096 + (128 + y - 128) * 64
             + (128 + z - 128)) with c by lia.
    reflexivity.
Qed.

Lemma utf8_decode_encode l : Forall scalar l -> utf8_decode (utf8_encode l) = Some l.
Proof.
  induction 1 as [|c l Hc Hl IH]; [reflexivity|].
  change (utf8_encode (c :: l)) with (utf8_enc1 c ++ utf8_encode l).
  rewrite decode_enc1 by assumption. rewrite IH. reflexivity.
Qed.

Lemma enc_cons c l : utf8_encode (c :: l) = utf8_enc1 c ++ utf8_encode l.
Proof. reflexivity. Qed.

Lemma utf8_decode_sound s l : utf8_decode s = Some l -> Forall scalar l /\ utf8_encode l = s.
Proof.
  revert l. induction s as [s IH] using (induction_ltof1 _ (@List.length ascii)).
  unfold ltof in IH. intros l H.
  destruct s as [|b0 r0]; [injection H as <-; split; [constructor|reflexivity]|].
  cbn [utf8_decode] in H. pose proof (code_bound b0) as B0.
  destruct (code b0 <? 128) eqn:E0.
  { destruct (utf8_decode r0) as [t|] eqn:Et; [|discriminate]. injection H as <-.
    destruct (IH r0) with (l := t) as [F Q]; [simpl; lia|exact Et|].
    split; [constructor; [left; lia|exact F]|].
    rewrite enc_cons. unfold utf8_enc1. rewrite E0, Q, chr_code. reflexivity. }
  destruct r0 as [|b1 r1]; [discriminate|]. pose proof (code_bound b1) as B1.
  destruct (in_range 194 223 b0) eqn:E1.
  { unfold in_range in E1. destruct (is_cont b1) eqn:C1; [|discriminate]. unfold is_cont in C1.
    destruct (utf8_decode r1) as [t|] eqn:Et; [|discriminate]. cbn [opt_bind] in H. injection H as <-.
    destruct (IH r1) with (l := t) as [F Q]; [simpl; lia|exact Et|].
    set (c := (code b0 - 192) * 64 + (code b1 - 128)) in *.
    split; [constructor; [left; lia|exact F]|].
    rewrite enc_cons. unfold utf8_enc1.
    replace (c <? 128) with false by lia. replace (c <? 2048) with true by lia.
    rewrite Q. cbn [app]. f_equal; [|f_equal]; apply chr_eq; lia. }
  destruct r1 as [|b2 r2]; [discriminate|]. pose proof (code_bound b2) as B2.
  destruct (in_range 224 239 b0) eqn:E2.
  { unfold in_range in E2, E1.
    destruct (is_cont b1) eqn:C1; [|discriminate]. destruct (is_cont b2) eqn:C2; [|discriminate].
    unfold is_cont in C1, C2. cbn [andb] in H.
    destruct (negb ((code b0 =? 224) && (code b1 <? 160))) eqn:N1; [|discriminate].
    destruct (negb ((code b0 =? 237) && (159 <? code b1))) eqn:N2; [|discriminate].
    cbn [andb] in H.
    destruct (utf8_decode r2) as [t|] eqn:Et; [|discriminate]. cbn [opt_bind] in H. injection H as <-.
    destruct (IH r2) with (l := t) as [F Q]; [simpl; lia|exact Et|].
    set (c := (code b0 - 224) * 4096 + (code b1 - 128) * 64 + (code b2 - 128)) in *.
    split; [constructor; [unfold scalar; lia|exact F]|].
    rewrite enc_cons. unfold utf8_enc1.
    replace (c <? 128) with false by lia. replace (c <? 2048) with false by lia.
    replace (c <? 65536) with true by lia.
    rewrite Q. cbn [app]. f_equal; [|f_equal; [|f_equal]]; apply chr_eq; lia. }
  destruct r2 as [|b3 r3]; [discriminate|]. pose proof (code_bound b3) as B3.
  destruct (in_range 240 244 b0) eqn:E3; [|discriminate].
  unfold in_range in E3, E2, E1.
  destruct (is_cont b1) eqn:C1; [|discriminate]. destruct (is_cont b2) eqn:C2; [|discriminate].
  destruct (is_cont b3) eqn:C3; [|discriminate].
  unfold is_cont in C1, C2, C3. cbn [andb] in H.
  destruct (negb ((code b0 =? 240) && (code b1 <? 144))) eqn:N1; [|discriminate].
  destruct (negb ((code b0 =? 244) && (143 <? code b1))) eqn:N2; [|discriminate].
  cbn [andb] in H.
  destruct (utf8_decode r3) as [t|] eqn:Et; [|discriminate]. cbn [opt_bind] in H. injection H as <-.
  destruct (IH r3) with (l := t) as [F Q]; [simpl; lia|exact Et|].
  set (c := (code b0 - 240) * 262144 + (code b1 - 128) * 4096 + (code b2 - 128) * 64
            + (code b3 - 128)) in *.
  split; [constructor; [unfold scalar; lia|exact F]|].
  rewrite enc_cons. unfold utf8_enc1.
  replace (c <? 128) with false by lia. replace (c <? 2048) with false by lia.
  replace (c <? 65536) with false by lia.
  rewrite Q. cbn [app]. f_equal; [|f_equal; [|f_equal; [|f_equal]]]; apply chr_eq; lia.
Qed.

Lemma utf8_valid_iff s : utf8_valid s = true <-> exists l, Forall scalar l /\ s = utf8_encode l.
Proof.
  unfold utf8_valid. split.
  - destruct (utf8_decode s) as [l|] eqn:E; [|discriminate]. intros _.
    destruct (utf8_decode_sound _ _ E) as [F Q]. exists l. auto.
  - intros (l & F & ->). rewrite utf8_decode_encode by assumption. reflexivity.
Qed.

Lemma utf8_encode_app a b : utf8_encode (a ++ b) = utf8_encode a ++ utf8_encode b.
Proof. unfold utf8_encode. apply flat_map_app. Qed.

Lemma utf8_valid_app a b : utf8_valid a = true -> utf8_valid b = true -> utf8_valid (a ++ b) = true.
Proof.
  rewrite !utf8_valid_iff. intros (la & Fa & ->) (lb & Fb & ->).
  exists (la ++ lb). split; [now apply Forall_app|]. now rewrite utf8_encode_app.
Qed.

(** ASCII text is UTF-8. *)
Definition ascii_only (s : str) : bool := forallb (fun b => code b <? 128) s.

Lemma utf8_decode_ascii s : ascii_only s = true -> utf8_decode s = Some (map code s).
Proof.
  induction s as [|b s IH]; [reflexivity|]. unfold ascii_only in *. cbn [forallb].
  rewrite andb_true_iff. intros [H1 H2]. cbn [utf8_decode map]. rewrite H1, IH by assumption.
  reflexivity.
Qed.

Lemma utf8_valid_ascii s : ascii_only s = true -> utf8_valid s = true.
Proof. intros H. unfold utf8_valid. now rewrite utf8_decode_ascii. Qed.

Lemma utf8_enc1_ascii c : c < 128 -> utf8_enc1 c = [chr c].
Proof. intros H. unfold utf8_enc1. now replace (c <? 128) with true by lia. Qed.

Lemma utf8_enc1_high c : 128 <= c -> c < 1114112 -> exists b t, utf8_enc1 c = b :: t /\ 128 <= code b.
Proof.
  intros H1 H2. unfold utf8_enc1. replace (c <? 128) with false by lia.
  destruct (c <? 2048) eqn:E2; [|destruct (c <? 65536) eqn:E3]; eexists; eexists;
    (split; [reflexivity|]); rewrite code_chr; lia.
Qed.

Lemma in_utf8_encode x l b : In x l -> In b (utf8_enc1 x) -> In b (utf8_encode l).
Proof. intros. unfold utf8_encode. apply in_flat_map. eauto. Qed.

Lemma map_chars_in f tbl c : 128 <= c -> forall cps before, In c cps ->
  exists b a, forall x, In x (tbl b c a) -> In x (map_chars f tbl before cps).
Proof.
  intros Hc. induction cps as [|k cps IH]; intros before; [easy|]. intros [->|Hin].
  - exists before, cps. intros x Hx. cbn [map_chars]. replace (c <? 128) with false by lia.
    apply in_or_app. now left.
  - destruct (IH (before ++ [k]) Hin) as (b & a & H). exists b, a. intros x Hx. cbn [map_chars].
    apply in_or_app. right. now apply H.
Qed.

Lemma map_chars_ascii f tbl cps : (forall c, In c cps -> c < 128) ->
  forall before, map_chars f tbl before cps = map f cps.
Proof.
  induction cps as [|c cps IH]; intros H before; [reflexivity|]. cbn [map_chars map].
  replace (c <? 128) with true by (specialize (H c (or_introl eq_refl)); lia). cbn [app]. f_equal.
  apply IH. intros x Hx. apply H. now right.
Qed.

(** If every non-ASCII character is mapped to a text containing a byte that does
    not occur in the target, a string is mapped to the target only if it is
    ASCII and mapped to it bytewise. *)
Lemma map_case_target f tbl target s :
  ascii_only target = true ->
  (forall c, c < 128 -> f c < 128) ->
  (forall before c after, 128 <= c -> scalar c ->
     exists x, In x (tbl before c after) /\ exists b, In b (utf8_enc1 x) /\ ~ In b target) ->
  utf8_valid s = true ->
  map_case f tbl s = target <->
  ascii_only s = true /\ map (fun b => f (code b)) s = map code target.
Proof.
  intros Ht Hf Htbl Hv. unfold map_case.
  unfold utf8_valid in Hv. destruct (utf8_decode s) as [cps|] eqn:E; [|discriminate]. clear Hv.
  destruct (utf8_decode_sound _ _ E) as [F Q].
  split.
  - intros H.
    assert (forall c, In c cps -> c < 128) as Hall.
    { intros c Hc. destruct (N.lt_ge_cases c 128) as [?|Hge]; [assumption|exfalso].
      rewrite Forall_forall in F. destruct (map_chars_in f tbl c Hge cps [] Hc) as (bf & af & K).
      destruct (Htbl bf c af Hge (F _ Hc)) as (x & Hx & b & Hb & Hn).
      apply Hn. rewrite <- H. apply in_utf8_encode with x; [|exact Hb]. now apply K. }
    rewrite (map_chars_ascii _ _ _ Hall) in H.
    assert (s = map chr cps) as Hs.
    { rewrite <- Q. clear -Hall. induction cps as [|c cps IH]; [reflexivity|].
      rewrite enc_cons, utf8_enc1_ascii by (apply Hall; now left). cbn [app map]. f_equal.
      apply IH. intros. apply Hall. now right. }
    split.
    + rewrite Hs. unfold ascii_only. rewrite forallb_forall. intros b Hb.
      apply in_map_iff in Hb. destruct Hb as (c & <- & Hc). specialize (Hall c Hc).
      rewrite code_chr by lia. lia.
    + rewrite <- H, Hs. clear -Hall Hf. induction cps as [|c cps IH]; [reflexivity|].
      cbn [map]. pose proof (Hall c (or_introl eq_refl)) as Hc. rewrite enc_cons.
      rewrite utf8_enc1_ascii by auto. cbn [app map]. rewrite !code_chr by (try lia; specialize (Hf c Hc); lia).
      f_equal. apply IH. intros. apply Hall. now right.
  - intros [Ha Hm]. rewrite (utf8_decode_ascii s Ha) in E. injection E as <-.
    rewrite map_chars_ascii.
    2: { intros c Hc. apply in_map_iff in Hc as (b & <- & Hb). unfold ascii_only in Ha. rewrite forallb_forall in Ha.
         specialize (Ha b Hb). cbv beta in Ha. lia. }
    rewrite map_map, Hm. unfold ascii_only in Ht. clear -Ht. induction target as [|b target IH]; [reflexivity|].
    cbn [forallb] in Ht. apply andb_true_iff in Ht as [H1 H2]. cbn [map]. rewrite enc_cons, utf8_enc1_ascii by lia.
    cbn [app]. now rewrite chr_code, IH.
Qed.
