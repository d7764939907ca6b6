(** The JSON reader inverts the JSON writer, never runs out of fuel, and only
    produces well-formed documents. *)
From Coq Require Import Lia ZifyBool ZifyN ZifyNat.
From Verif Require Import Model.Prelude Model.Utf8 Model.Float Model.Json Spec Proofs.StrFacts Proofs.Utf8Facts.
From Verif Require Export Proofs.FloatText.

(* ---------------- rust_string and utf8_valid ---------------- *)

Lemma utf8_char_enc1 c bs : utf8_char c bs -> bs = utf8_enc1 c.
Proof.
  intros H. unfold utf8_enc1. destruct H.
  - replace (code a <? 128) with true by lia. now rewrite chr_code.
  - replace (c <? 128) with false by lia. replace (c <? 2048) with true by lia.
    rewrite <- H0, <- H1, !chr_code. reflexivity.
  - replace (c <? 128) with false by lia. replace (c <? 2048) with false by lia.
    replace (c <? 65536) with true by lia.
    rewrite <- H0, <- H1, <- H2, !chr_code. reflexivity.
  - replace (c <? 128) with false by lia. replace (c <? 2048) with false by lia.
    replace (c <? 65536) with false by lia.
    rewrite <- H0, <- H1, <- H2, <- H3, !chr_code. reflexivity.
Qed.

Lemma enc1_utf8_char c : scalar c -> utf8_char c (utf8_enc1 c).
Proof.
  intros Hs. unfold scalar in Hs. unfold utf8_enc1.
  destruct (c <? 128) eqn:E1; [|destruct (c <? 2048) eqn:E2; [|destruct (c <? 65536) eqn:E3]].
  - rewrite <- (code_chr c) at 1 by lia. apply utf8_1. rewrite code_chr; lia.
  - apply utf8_2; [lia|rewrite code_chr; lia|rewrite code_chr; lia].
  - apply utf8_3; [lia|rewrite code_chr; lia|rewrite code_chr; lia|rewrite code_chr; lia].
  - apply utf8_4; [lia|rewrite code_chr; lia|rewrite code_chr; lia|rewrite code_chr; lia|rewrite code_chr; lia].
Qed.

Lemma rust_string_iff s : rust_string s <-> utf8_valid s = true.
Proof.
  rewrite utf8_valid_iff. split.
  - induction 1 as [|c bs s Hc Hb _ (l & F & ->)].
    + exists []. split; [constructor|reflexivity].
    + exists (c :: l). split; [constructor; assumption|].
      rewrite (utf8_char_enc1 _ _ Hb). reflexivity.
  - intros (l & F & ->). induction F as [|c l Hc Hl IH]; [constructor|].
    rewrite enc_cons. apply rs_cons with c; [exact Hc|now apply enc1_utf8_char|exact IH].
Qed.

Lemma rust_string_app a b : rust_string a -> rust_string b -> rust_string (a ++ b).
Proof. rewrite !rust_string_iff. apply utf8_valid_app. Qed.

Lemma rust_string_ascii s : ascii_only s = true -> rust_string s.
Proof. rewrite rust_string_iff. apply utf8_valid_ascii. Qed.

(* ---------------- strings ---------------- *)

Lemma parse_escape_byte strict b r :
  parse_str_body strict (escape_byte b ++ r) =
  let* p := parse_str_body strict r in Some (b :: fst p, snd p).
Proof.
  destruct b as [[] [] [] [] [] [] [] []]; destruct strict; reflexivity.
Qed.

Lemma parse_str_body_print strict s t :
  parse_str_body strict (flat_map escape_byte s ++ quote :: t) = Some (s, t).
Proof.
  induction s as [|b s IH].
  - reflexivity.
  - cbn [flat_map]. rewrite <- app_assoc, parse_escape_byte, IH. reflexivity.
Qed.

Lemma parse_string_print strict s t :
  rust_string s -> parse_string strict (flat_map escape_byte s ++ quote :: t) = POk s t.
Proof.
  intros H. unfold parse_string. rewrite parse_str_body_print.
  apply rust_string_iff in H. rewrite H. now destruct strict.
Qed.

(* ---------------- numbers ---------------- *)

(** What may follow a number so that it ends there. *)
Definition ends_number (t : str) : Prop :=
  match t with
  | [] => True
  | b :: _ => is_digit b = false /\ b <> "."%char /\ b <> "e"%char /\ b <> "E"%char
  end.

Lemma take_digits_app ds t :
  forallb is_dig ds = true -> (match t with [] => True | b :: _ => is_digit b = false end) ->
  take_digits (ds ++ t) = (ds, t).
Proof.
  intros H Ht. induction ds as [|d ds IH]; cbn [app].
  - destruct t as [|b t]; [reflexivity|]. cbn [take_digits]. now rewrite Ht.
  - cbn [forallb] in H. apply andb_true_iff in H. destruct H as [Hd H].
    cbn [take_digits]. change (is_digit d) with (is_dig d). rewrite Hd, IH by assumption. reflexivity.
Qed.

Lemma take_digits_inv s d t :
  take_digits s = (d, t) ->
  s = d ++ t /\ forallb is_dig d = true /\ (match t with [] => True | b :: _ => is_digit b = false end).
Proof.
  revert d t; induction s as [|b s IH]; intros d t; cbn [take_digits].
  - intros [= <- <-]. auto.
  - destruct (is_digit b) eqn:E.
    + destruct (take_digits s) as [d' t'] eqn:Et. intros [= <- <-].
      destruct (IH _ _ eq_refl) as (-> & H1 & H2). split; [reflexivity|]. split; [|exact H2].
      cbn [forallb]. change (is_dig b) with (is_digit b). now rewrite E, H1.
    + intros [= <- <-]. auto.
Qed.

Lemma parse_frac_none t : ends_number t -> parse_frac t = Some ([], t).
Proof.
  destruct t as [|b t]; [reflexivity|]. cbn [ends_number parse_frac]. intros (_ & H & _).
  now rewrite ascii_eqb_neq.
Qed.

Lemma parse_exp_none t : ends_number t -> parse_exp t = Some ([], t).
Proof.
  destruct t as [|b t]; [reflexivity|]. cbn [ends_number parse_exp]. intros (_ & _ & H1 & H2).
  now rewrite !ascii_eqb_neq.
Qed.

Lemma digit_not_minus b : is_dig b = true -> Ascii.eqb b "-"%char = false.
Proof. intros H. apply Ascii.eqb_neq. intros ->. discriminate. Qed.

(** The lexical shape of a number token. *)
Lemma parse_number_lex strict neg d0 ds fr ex t :
  (neg = [] \/ neg = ["-"%char]) ->
  forallb is_dig (d0 :: ds) = true -> (d0 = "0"%char -> ds = []) ->
  (fr = [] \/ exists d, fr = "."%char :: d /\ digits d) ->
  (ex = [] \/ exists e sign d,
     ex = e :: sign ++ d /\ (e = "e"%char \/ e = "E"%char)
     /\ (sign = [] \/ sign = ["+"%char] \/ sign = ["-"%char]) /\ digits d) ->
  ends_number t ->
  let lexeme := neg ++ (d0 :: ds) ++ fr ++ ex in
  let n := digits_val (d0 :: ds) in
  parse_number strict (lexeme ++ t) =
  match fr, ex with
  | [], [] =>
      match neg with
      | _ :: _ =>
          if (n =? 0) || (9223372036854775808 <? n) then read_float strict (match neg with [] => false | _ => true end) (d0 :: ds) fr ex t
          else POk (JInt (- Z.of_N n)) t
      | [] => if 18446744073709551615 <? n then read_float strict (match neg with [] => false | _ => true end) (d0 :: ds) fr ex t else POk (JInt (Z.of_N n)) t
      end
  | _, _ => read_float strict (match neg with [] => false | _ => true end) (d0 :: ds) fr ex t
  end.
Proof.
  intros Hneg Hd Hz Hfr Hex Ht. cbv zeta.
  assert (Hexp : forall u, ends_number u -> parse_exp (ex ++ u) = Some (ex, u)).
  { intros u Hu. destruct Hex as [->|(e & sg & d & -> & He & Hsg & Hdd & Hdg)].
    - now apply parse_exp_none.
    - cbn [app parse_exp]. replace (Ascii.eqb e "e"%char || Ascii.eqb e "E"%char) with true
        by (destruct He; subst; reflexivity).
      rewrite <- app_assoc.
      assert (take_digits (d ++ u) = (d, u)) as Htd.
      { apply take_digits_app; [now apply forallb_digits|]. destruct u; [exact I|apply Hu]. }
      destruct d as [|x d]; [easy|].
      assert (digit x) as Hx by (inversion Hdg; assumption).
      destruct Hsg as [->|[->| ->]]; cbn [app].
      + rewrite (ascii_eqb_neq x "+"%char), (ascii_eqb_neq x "-"%char);
          [|intros ->; apply is_dig_digit in Hx; discriminate|intros ->; apply is_dig_digit in Hx; discriminate].
        cbn [orb]. change (x :: d ++ u) with ((x :: d) ++ u). rewrite Htd. reflexivity.
      + change (x :: d ++ u) with ((x :: d) ++ u). cbn [Ascii.eqb Bool.eqb orb andb]. rewrite Htd. reflexivity.
      + change (x :: d ++ u) with ((x :: d) ++ u). cbn [Ascii.eqb Bool.eqb orb andb]. rewrite Htd. reflexivity. }
  assert (Hexd : match ex ++ t with [] => True | b :: _ => is_digit b = false /\ b <> "."%char end).
  { destruct Hex as [->|(e & sg & d & -> & He & _)].
    - cbn [app]. destruct t; [exact I|]. destruct Ht as (? & ? & _). auto.
    - cbn [app]. destruct He; subst; split; (reflexivity || discriminate). }
  assert (Hfrac : parse_frac (fr ++ ex ++ t) = Some (fr, ex ++ t)).
  { destruct Hfr as [->|(d & -> & Hdd & Hdg)].
    - cbn [app]. destruct (ex ++ t) as [|b u] eqn:E; [reflexivity|].
      cbn [parse_frac]. now rewrite ascii_eqb_neq.
    - cbn [app parse_frac]. rewrite ascii_eqb_refl.
      rewrite take_digits_app; [|now apply forallb_digits|destruct (ex ++ t); tauto].
      destruct d; [easy|reflexivity]. }
  assert (Htd : take_digits ((d0 :: ds) ++ fr ++ ex ++ t) = (d0 :: ds, fr ++ ex ++ t)).
  { apply take_digits_app; [exact Hd|].
    destruct Hfr as [->|(d & -> & _)]; [destruct (ex ++ t); tauto|reflexivity]. }
  assert (Hd0 : is_dig d0 = true) by (cbn [forallb] in Hd; now apply andb_true_iff in Hd).
  assert (Hzero : Ascii.eqb d0 "0"%char && negb (match ds with [] => true | _ => false end) = false).
  { destruct (Ascii.eqb d0 "0"%char) eqn:E; [|reflexivity]. apply Ascii.eqb_eq in E.
    rewrite (Hz E). reflexivity. }
  assert (Hshape : forall b, (if b : bool then neg = ["-"%char] else neg = []) ->
    (match take_digits ((d0 :: ds) ++ fr ++ ex ++ t) with
     | ([], _) => PErr
     | (d0 :: ds, t) =>
      if Ascii.eqb d0 "0"%char && negb (match ds with [] => true | _ => false end) then PErr
      else
        match parse_frac t with
        | None => PErr
        | Some (fr, t1) =>
            match parse_exp t1 with
            | None => PErr
            | Some (ex, t2) =>
                let n := digits_val (d0 :: ds) in
                match fr, ex with
                | [], [] =>
                    if b : bool then
                      if (n =? 0) || (9223372036854775808 <? n) then read_float strict b (d0 :: ds) fr ex t2
                      else POk (JInt (- Z.of_N n)) t2
                    else if 18446744073709551615 <? n then read_float strict b (d0 :: ds) fr ex t2
                    else POk (JInt (Z.of_N n)) t2
                | _, _ => read_float strict b (d0 :: ds) fr ex t2
                end
            end
        end
     end) =
  match fr, ex with
  | [], [] =>
      match neg with
      | _ :: _ =>
          if (digits_val (d0 :: ds) =? 0) || (9223372036854775808 <? digits_val (d0 :: ds)) then read_float strict (match neg with [] => false | _ => true end) (d0 :: ds) fr ex t
          else POk (JInt (- Z.of_N (digits_val (d0 :: ds)))) t
      | [] => if 18446744073709551615 <? digits_val (d0 :: ds) then read_float strict (match neg with [] => false | _ => true end) (d0 :: ds) fr ex t else POk (JInt (Z.of_N (digits_val (d0 :: ds)))) t
      end
  | _, _ => read_float strict (match neg with [] => false | _ => true end) (d0 :: ds) fr ex t
  end).
  { intros b Hb. rewrite Htd, Hzero, Hfrac, Hexp by assumption.
    destruct b; subst neg; reflexivity. }
  destruct Hneg as [-> | ->].
  - rewrite <- (Hshape false eq_refl). unfold parse_number. rewrite <- !app_assoc.
    cbn [app]. rewrite (digit_not_minus d0 Hd0). reflexivity.
  - rewrite <- (Hshape true eq_refl). unfold parse_number. rewrite <- !app_assoc. reflexivity.
Qed.

Lemma parse_number_int strict z t :
  (- 2 ^ 63 <= z < 2 ^ 64)%Z -> ends_number t -> parse_number strict (decZ z ++ t) = POk (JInt z) t.
Proof.
  intros Hz Ht.
  assert (forall n neg, (neg = [] \/ neg = ["-"%char]) ->
    exists d0 ds, neg ++ dec n = neg ++ (d0 :: ds) ++ [] ++ [] /\ forallb is_dig (d0 :: ds) = true
      /\ (d0 = "0"%char -> ds = []) /\ digits_val (d0 :: ds) = n) as Hdec.
  { intros n neg _. destruct (dec_spec n) as (H1 & H2 & (d & r & H3 & H4) & _).
    exists d, r. rewrite H3 in *. rewrite !app_nil_r. split; [reflexivity|]. split; [exact H1|].
    split; [|exact H2]. intros ->. destruct (H4 eq_refl) as [H5 _]. now injection H5. }
  destruct z as [|p|p].
  - destruct (Hdec 0 [] (or_introl eq_refl)) as (d0 & ds & E & H1 & H2 & H3).
    cbn [app] in E. cbn [decZ]. rewrite E.
    pose proof (parse_number_lex strict [] d0 ds [] [] t (or_introl eq_refl) H1 H2 (or_introl eq_refl)
             (or_introl eq_refl) Ht) as P. cbv zeta in P. cbn [app] in P |- *. rewrite P, H3. reflexivity.
  - destruct (Hdec (Npos p) [] (or_introl eq_refl)) as (d0 & ds & E & H1 & H2 & H3).
    cbn [app] in E. cbn [decZ]. rewrite E.
    pose proof (parse_number_lex strict [] d0 ds [] [] t (or_introl eq_refl) H1 H2 (or_introl eq_refl)
             (or_introl eq_refl) Ht) as P. cbv zeta in P. cbn [app] in P |- *. rewrite P, H3.
    replace (18446744073709551615 <? N.pos p) with false by lia. reflexivity.
  - destruct (Hdec (Npos p) ["-"%char] (or_intror eq_refl)) as (d0 & ds & E & H1 & H2 & H3).
    cbn [decZ]. change (chr 45) with "-"%char. change ("-"%char :: dec (N.pos p)) with (["-"%char] ++ dec (N.pos p)).
    rewrite E.
    pose proof (parse_number_lex strict ["-"%char] d0 ds [] [] t (or_intror eq_refl) H1 H2 (or_introl eq_refl)
             (or_introl eq_refl) Ht) as P. cbv zeta in P. rewrite P, H3.
    replace ((N.pos p =? 0) || (9223372036854775808 <? N.pos p)) with false by lia. reflexivity.
Qed.

Lemma parse_number_parts strict s neg int fr ex t :
  number_parts s neg int fr ex -> not_integer neg int fr ex -> ends_number t ->
  parse_number strict (s ++ t) = read_float strict (match neg with [] => false | _ => true end) int fr ex t.
Proof.
  intros (-> & Hneg & [Hne Hdig] & Hz & Hfr & Hex) Hr Ht. unfold not_integer in Hr.
  destruct int as [|d0 ds]; [easy|].
  apply forallb_digits in Hdig.
  assert (d0 = "0"%char -> ds = []) as Hz'.
  { intros ->. specialize (Hz eq_refl). now injection Hz. }
  pose proof (parse_number_lex strict neg d0 ds fr ex t Hneg Hdig Hz' Hfr Hex Ht) as P. cbv zeta in P.
  rewrite P. rewrite digits_value_acc, <- digits_val_acc in Hr. set (n := digits_val (d0 :: ds)) in *.
  destruct fr as [|f fr]; [|reflexivity]. destruct ex as [|e ex]; [|reflexivity].
  destruct Hr as [Hr|[[-> Hr]|[Hn Hr]]]; [easy| |].
  - change (2 ^ 64) with 18446744073709551616 in Hr.
    replace (18446744073709551615 <? n) with true by lia. reflexivity.
  - destruct neg as [|c neg]; [easy|]. change (2 ^ 63) with 9223372036854775808 in Hr.
    replace ((n =? 0) || (9223372036854775808 <? n)) with true by lia. reflexivity.
Qed.

Lemma sign_bool neg : neg = [] \/ neg = ["-"%char] ->
  (if match neg with [] => false | _ => true end then ["-"%char] else []) = neg.
Proof. intros [-> | ->]; reflexivity. Qed.

(** A wanted number is converted, a skipped one keeps its text. *)
Lemma parse_number_float s u t :
  float_becomes s u -> ends_number t -> parse_number true (s ++ t) = POk (JFloat u) t.
Proof.
  intros (neg & int & fr & ex & x & P & N & R & W) Ht.
  rewrite (parse_number_parts true s neg int fr ex t P N Ht). unfold read_float.
  destruct P as (_ & Hneg & _ & _ & _ & Hex).
  assert (E : float_text (match neg with [] => false | _ => true end) int fr ex = Some u).
  { apply float_text_iff; [exact Hex|]. exists x. rewrite sign_bool by exact Hneg. auto. }
  now rewrite E.
Qed.

Lemma parse_number_skipped s t :
  float_lexeme s -> ends_number t -> parse_number false (s ++ t) = POk (JFloat s) t.
Proof.
  intros (neg & int & fr & ex & P & N) Ht.
  rewrite (parse_number_parts false s neg int fr ex t P N Ht). unfold read_float.
  destruct P as (-> & Hneg & _). now rewrite sign_bool by exact Hneg.
Qed.

Lemma becomes_lexeme s t : float_becomes s t -> float_lexeme s.
Proof. intros (neg & int & fr & ex & x & P & N & _). exists neg, int, fr, ex. auto. Qed.

Lemma parse_number_kept strict s t :
  float_kept s -> ends_number t -> parse_number strict (s ++ t) = POk (JFloat s) t.
Proof.
  intros H Ht. destruct strict; [now apply parse_number_float|].
  apply parse_number_skipped; [now apply becomes_lexeme in H|exact Ht].
Qed.

(* ---------------- writer output starts values ---------------- *)

Definition json_ind' (P : json -> Prop)
  (Hnull : P JNull) (Hbool : forall b, P (JBool b)) (Hint : forall z, P (JInt z))
  (Hfloat : forall s, P (JFloat s)) (Hstr : forall s, P (JStr s))
  (Harr : forall l, Forall P l -> P (JArr l))
  (Hobj : forall m, Forall (fun kv => P (snd kv)) m -> P (JObj m)) : forall j, P j :=
  fix F (j : json) : P j :=
    match j with
    | JNull => Hnull
    | JBool b => Hbool b
    | JInt z => Hint z
    | JFloat s => Hfloat s
    | JStr s => Hstr s
    | JArr l =>
        Harr l ((fix G (l : list json) : Forall P l :=
                   match l with
                   | [] => Forall_nil _
                   | x :: l' => Forall_cons _ (F x) (G l')
                   end) l)
    | JObj m =>
        Hobj m ((fix G (m : list (str * json)) : Forall (fun kv => P (snd kv)) m :=
                   match m with
                   | [] => Forall_nil _
                   | x :: m' => Forall_cons _ (F (snd x)) (G m')
                   end) m)
    end.

Lemma number_start b :
  (is_dig b || Ascii.eqb b "-"%char) = true ->
  is_ws b = false /\ Ascii.eqb b quote = false /\ Ascii.eqb b "["%char = false
  /\ Ascii.eqb b "{"%char = false /\ Ascii.eqb b "t"%char = false /\ Ascii.eqb b "f"%char = false
  /\ Ascii.eqb b "n"%char = false /\ Ascii.eqb b "]"%char = false /\ Ascii.eqb b "}"%char = false.
Proof.
  intros H.
  assert (implb (is_dig b || Ascii.eqb b "-"%char)
    (negb (is_ws b) && negb (Ascii.eqb b quote) && negb (Ascii.eqb b "["%char)
     && negb (Ascii.eqb b "{"%char) && negb (Ascii.eqb b "t"%char) && negb (Ascii.eqb b "f"%char)
     && negb (Ascii.eqb b "n"%char) && negb (Ascii.eqb b "]"%char) && negb (Ascii.eqb b "}"%char)) = true) as Hs.
  { revert b H. intros b _. revert b. apply forall_bytes. reflexivity. }
  rewrite H in Hs. cbn [implb] in Hs. rewrite !andb_true_iff, !negb_true_iff in Hs. tauto.
Qed.

Lemma parse_value_number strict sh f d s j t b r :
  s = b :: r -> (is_dig b || Ascii.eqb b "-"%char) = true ->
  parse_number strict s = POk j t -> parse_value strict sh (S f) d s = POk j t.
Proof.
  intros -> Hb Hp. destruct (number_start b Hb) as (W & Q1 & Q2 & Q3 & Q4 & Q5 & Q6 & _ & _).
  cbn [parse_value skip_ws]. rewrite W. rewrite Q1, Q2, Q3, Q4, Q5, Q6. exact Hp.
Qed.

Lemma decZ_start z : exists b r, decZ z = b :: r /\ (is_dig b || Ascii.eqb b "-"%char) = true.
Proof.
  assert (forall n, exists b r, dec n = b :: r /\ (is_dig b || Ascii.eqb b "-"%char) = true) as H.
  { intros n. destruct (dec_spec n) as (H1 & _ & (d & r & H3 & _) & _). exists d, r.
    split; [exact H3|]. rewrite H3 in H1. cbn [forallb] in H1. apply andb_true_iff in H1.
    destruct H1 as [-> _]. reflexivity. }
  destruct z; cbn [decZ]; [apply H|apply H|]. exists (chr 45), (dec (N.pos p)). split; reflexivity.
Qed.

Lemma float_start s : float_lexeme s -> exists b r, s = b :: r /\ (is_dig b || Ascii.eqb b "-"%char) = true.
Proof.
  intros (neg & int & fr & ex & (-> & Hneg & [Hne Hdig] & _) & _).
  destruct Hneg as [-> | ->].
  - destruct int as [|d0 ds]; [easy|]. exists d0, (ds ++ fr ++ ex). split; [reflexivity|].
    inversion Hdig; subst. apply is_dig_digit in H1. now rewrite H1.
  - exists "-"%char, (int ++ fr ++ ex). split; reflexivity.
Qed.

Lemma print_nonempty j : json_ok j -> exists b r, print j = b :: r /\ is_ws b = false
  /\ Ascii.eqb b "]"%char = false /\ Ascii.eqb b "}"%char = false.
Proof.
  intros H. destruct H; cbn [print].
  - eexists; eexists; split; [reflexivity|]; auto.
  - destruct b; eexists; eexists; (split; [reflexivity|]); auto.
  - destruct (decZ_start z) as (b & r & -> & Hb). apply number_start in Hb. exists b, r. tauto.
  - destruct (float_start s (becomes_lexeme _ _ H)) as (b & r & -> & Hb). apply number_start in Hb. exists b, r. tauto.
  - unfold print_str. eexists; eexists; split; [reflexivity|]; auto.
  - eexists; eexists; split; [reflexivity|]; auto.
  - eexists; eexists; split; [reflexivity|]; auto.
Qed.

Lemma print_length_pos j : json_ok j -> (1 <= List.length (print j))%nat.
Proof. intros H. destruct (print_nonempty j H) as (b & r & -> & _). simpl. lia. Qed.

Lemma skip_ws_nows s : match s with [] => True | b :: _ => is_ws b = false end -> skip_ws s = s.
Proof. destruct s as [|b s]; [reflexivity|]. cbn [skip_ws]. now intros ->. Qed.

Lemma enter_ok strict d n : (strict = false \/ S n < d)%nat ->
  exists d', enter strict d = Some d' /\ (strict = false \/ n < d')%nat.
Proof.
  intros H. unfold enter. destruct strict.
  - destruct H as [H|H]; [discriminate|]. destruct d as [|[|d]]; [lia|lia|]. exists (S d). split; [reflexivity|].
    right. lia.
  - exists d. auto.
Qed.

Lemma list_max_le_In x l : In x l -> (x <= list_max l)%nat.
Proof.
  intros H. pose proof (proj1 (list_max_le l (list_max l)) (le_n _)) as F.
  rewrite Forall_forall in F. auto.
Qed.

(* ---------------- round trip ---------------- *)

Definition rt (j : json) : Prop :=
  json_ok j -> forall strict sh fuel d t,
    ends_number t ->
    (strict = false \/ depth j < d)%nat ->
    (2 * List.length (print j) + 1 <= fuel)%nat ->
    parse_value strict sh fuel d (print j ++ t) = POk j t.

Definition member (kv : str * json) : str := print_str (fst kv) ++ lit ":" ++ print (snd kv).

Lemma parse_elems_print l strict sh i d t fuel :
  l <> [] -> Forall rt l -> (forall x, In x l -> json_ok x) ->
  (strict = false \/ list_max (map depth l) < d)%nat ->
  (2 * List.length (join (lit ",") (map print l)) + 2 <= fuel)%nat ->
  parse_elems strict sh i fuel d (join (lit ",") (map print l) ++ "]"%char :: t) = POk l t.
Proof.
  intros Hne Hrt. revert Hne fuel i. induction Hrt as [|x l Hx Hl IH]; intros Hne fuel i Hok Hd Hf; [easy|].
  destruct fuel as [|f]; [lia|]. cbn [parse_elems].
  assert (json_ok x) as Hox by (apply Hok; now left).
  destruct l as [|y l].
  - cbn [map join]. cbn [map join] in Hf.
    rewrite Hx; [|exact Hox|repeat split; discriminate| |lia].
    + reflexivity.
    + cbn [map list_max fold_right] in Hd. destruct Hd as [Hd|Hd]; [now left|right]. lia.
  - cbn [map]. rewrite join_cons by discriminate.
    change (join (lit ",") (print y :: map print l)) with (join (lit ",") (map print (y :: l))).
    cbn [map] in Hf. rewrite join_cons in Hf by discriminate.
    change (join (lit ",") (print y :: map print l)) with (join (lit ",") (map print (y :: l))) in Hf.
    rewrite !app_length in Hf. cbn [List.length lit list_ascii_of_string] in Hf.
    change (List.length (lit ",")) with 1%nat in Hf.
    rewrite <- !app_assoc. rewrite Hx; [|exact Hox|repeat split; discriminate| |lia].
    + change (lit ",") with [","%char] at 1. cbn [app skip_ws].
      change (is_ws ","%char) with false. cbv iota.
      rewrite ascii_eqb_refl.
      rewrite IH; [reflexivity|discriminate|intros z Hz; apply Hok; now right| |lia].
      destruct Hd as [Hd|Hd]; [now left|right]. cbn [map list_max fold_right] in Hd |- *. lia.
    + destruct Hd as [Hd|Hd]; [now left|right]. cbn [map list_max fold_right] in Hd. lia.
Qed.

Lemma parse_members_print m strict sh d t fuel :
  m <> [] -> Forall (fun kv => rt (snd kv)) m ->
  (forall k v, In (k, v) m -> rust_string k) -> (forall k v, In (k, v) m -> json_ok v) ->
  (strict = false \/ list_max (map (fun kv => depth (snd kv)) m) < d)%nat ->
  (2 * List.length (join (lit ",") (map member m)) + 2 <= fuel)%nat ->
  parse_members strict sh fuel d (join (lit ",") (map member m) ++ "}"%char :: t) = POk m t.
Proof.
  intros Hne Hrt. revert Hne fuel. induction Hrt as [|[k v] m Hx Hl IH]; intros Hne fuel Hk Hok Hd Hf; [easy|].
  destruct fuel as [|f]; [lia|]. cbn [snd] in Hx.
  assert (json_ok v) as Hov by (apply Hok with k; now left).
  assert (rust_string k) as Hok' by (apply Hk with v; now left).
  assert (Hv : forall st sh u g, (2 * List.length (print v) + 1 <= g)%nat -> ends_number u ->
            parse_value (strict && st) sh g d (print v ++ u) = POk v u).
  { intros st sh0 u g Hg Hu. apply Hx; [exact Hov|exact Hu| |exact Hg].
    destruct strict; [|now left]. destruct Hd as [Hd|Hd]; [discriminate|right].
    cbn [map list_max fold_right snd] in Hd. lia. }
  assert (Hlen : (List.length (member (k, v)) >= List.length (print v) + 3)%nat).
  { unfold member, print_str. cbn [fst snd]. rewrite !app_length. cbn [List.length]. rewrite app_length.
    cbn [List.length]. change (List.length (lit ":")) with 1%nat. lia. }
  destruct m as [|kv2 m].
  - cbn [map join] in *. cbn [parse_members]. unfold member at 1. cbn [fst snd]. unfold print_str.
    rewrite <- !app_assoc. cbn [app skip_ws]. change (is_ws quote) with false. cbv iota.
    rewrite ascii_eqb_refl. rewrite <- !app_assoc. cbn [app].
    rewrite parse_string_print by assumption.
    change (lit ":") with [":"%char]. cbn [app skip_ws]. change (is_ws ":"%char) with false. cbv iota.
    rewrite ascii_eqb_refl.
    rewrite Hv; [|lia|repeat split; discriminate].
    reflexivity.
  - cbn [map]. rewrite join_cons by discriminate.
    change (join (lit ",") (member kv2 :: map member m)) with (join (lit ",") (map member (kv2 :: m))).
    cbn [map] in Hf. rewrite join_cons in Hf by discriminate.
    change (join (lit ",") (member kv2 :: map member m)) with (join (lit ",") (map member (kv2 :: m))) in Hf.
    rewrite !app_length in Hf. change (List.length (lit ",")) with 1%nat in Hf.
    cbn [parse_members]. unfold member at 1. cbn [fst snd]. unfold print_str.
    rewrite <- !app_assoc. cbn [app skip_ws]. change (is_ws quote) with false. cbv iota.
    rewrite ascii_eqb_refl. rewrite <- !app_assoc. cbn [app].
    rewrite parse_string_print by assumption.
    change (lit ":") with [":"%char]. cbn [app skip_ws]. change (is_ws ":"%char) with false. cbv iota.
    rewrite ascii_eqb_refl.
    rewrite Hv; [|lia|repeat split; discriminate].
    change (lit ",") with [","%char] at 1. cbn [app skip_ws].
    change (is_ws ","%char) with false. cbv iota. rewrite ascii_eqb_refl.
    rewrite IH; [reflexivity|discriminate| | | |lia].
    + intros k' v' H. apply Hk with v'. now right.
    + intros k' v' H. apply Hok with k'. now right.
    + destruct Hd as [Hd|Hd]; [now left|right]. cbn [map list_max fold_right] in Hd |- *. lia.
Qed.

Lemma join_head_nonws l t c :
  l <> [] -> (forall x, In x l -> exists b r, x = b :: r /\ is_ws b = false /\ Ascii.eqb b c = false) ->
  exists b r, join (lit ",") l ++ t = b :: r /\ is_ws b = false /\ Ascii.eqb b c = false.
Proof.
  intros Hne H. destruct l as [|x l]; [easy|].
  destruct (H x (or_introl eq_refl)) as (b & r & -> & Hb).
  destruct l as [|y l].
  - exists b, (r ++ t). auto.
  - rewrite join_cons by discriminate. exists b, ((r ++ lit "," ++ join (lit ",") (y :: l)) ++ t). auto.
Qed.

Lemma parse_print_value : forall j, rt j.
Proof.
  induction j using json_ind'; unfold rt; intros Hok strict sh fuel d t Ht Hd Hf;
    destruct fuel as [|f]; try lia.
  - reflexivity.
  - destruct b; reflexivity.
  - inversion Hok; subst. cbn [print]. destruct (decZ_start z) as (b & r & E & Hb).
    apply parse_value_number with b (r ++ t); [now rewrite E|exact Hb|now apply parse_number_int].
  - inversion Hok; subst. cbn [print]. destruct (float_start s (becomes_lexeme _ _ H0)) as (b & r & E & Hb).
    apply parse_value_number with b (r ++ t); [now rewrite E|exact Hb|now apply parse_number_kept].
  - inversion Hok; subst. cbn [print]. unfold print_str. cbn [app parse_value skip_ws].
    change (is_ws quote) with false. cbv iota. rewrite ascii_eqb_refl, <- app_assoc. cbn [app].
    rewrite parse_string_print by assumption. reflexivity.
  - inversion Hok; subst. cbn [print]. change (lit "[") with ["["%char]. change (lit "]") with ["]"%char].
    cbn [app parse_value skip_ws]. change (is_ws "["%char) with false. cbv iota.
    change (Ascii.eqb "["%char quote) with false. change (Ascii.eqb "["%char "["%char) with true. cbv iota.
    cbn [depth] in Hd. destruct (enter_ok strict d _ Hd) as (d' & -> & Hd').
    cbn [print] in Hf. rewrite !app_length in Hf.
    change (List.length (lit "[")) with 1%nat in Hf. change (List.length (lit "]")) with 1%nat in Hf.
    destruct l as [|x l]; [reflexivity|].
    rewrite <- app_assoc. cbn [app].
    destruct (join_head_nonws (map print (x :: l)) ("]"%char :: t) "]"%char) as (b & r & E & W & B).
    { discriminate. }
    { intros y Hy. apply in_map_iff in Hy. destruct Hy as (z & <- & Hz).
      destruct (print_nonempty z (H1 z Hz)) as (b & r & E & W & B & _). exists b, r. auto. }
    rewrite E at 1. cbn [skip_ws]. rewrite W, B.
    rewrite parse_elems_print; [reflexivity|discriminate|exact H|exact H1|exact Hd'|lia].
  - inversion Hok; subst. cbn [print]. change (lit "{") with ["{"%char]. change (lit "}") with ["}"%char].
    change (fun kv : str * json => print_str (fst kv) ++ lit ":" ++ print (snd kv)) with member.
    cbn [app parse_value skip_ws]. change (is_ws "{"%char) with false. cbv iota.
    change (Ascii.eqb "{"%char quote) with false. change (Ascii.eqb "{"%char "["%char) with false.
    change (Ascii.eqb "{"%char "{"%char) with true. cbv iota.
    cbn [depth] in Hd. destruct (enter_ok strict d _ Hd) as (d' & -> & Hd').
    cbn [print] in Hf. rewrite !app_length in Hf.
    change (fun kv : str * json => print_str (fst kv) ++ lit ":" ++ print (snd kv)) with member in Hf.
    change (List.length (lit "{")) with 1%nat in Hf. change (List.length (lit "}")) with 1%nat in Hf.
    destruct m as [|x m]; [reflexivity|].
    rewrite <- app_assoc. cbn [app].
    destruct (join_head_nonws (map member (x :: m)) ("}"%char :: t) "}"%char) as (b & r & E & W & B).
    { discriminate. }
    { intros y Hy. apply in_map_iff in Hy. destruct Hy as (z & <- & Hz).
      eexists. eexists. split; [reflexivity|]. auto. }
    rewrite E at 1. cbn [skip_ws]. rewrite W, B.
    change (list ascii) with str in Hf.
    rewrite parse_members_print; [reflexivity|discriminate|exact H|exact H1|exact H2|exact Hd'|lia].
Qed.

Theorem parse_doc_print sh j : json_ok j -> (depth j <= 127)%nat -> parse_doc sh (print j) = Some j.
Proof.
  intros Hok Hd. unfold parse_doc.
  pose proof (parse_print_value j Hok true sh (2 * List.length (print j) + 2)%nat recursion_limit []) as P.
  rewrite app_nil_r in P. rewrite P; [reflexivity|exact I| |lia].
  right. unfold recursion_limit. lia.
Qed.

Lemma print_inj j1 j2 :
  json_ok j1 -> json_ok j2 -> print j1 = print j2 -> j1 = j2.
Proof.
  intros H1 H2 E.
  pose proof (parse_print_value j1 H1 false Whole (2 * List.length (print j1) + 1)%nat 0%nat [] I
                (or_introl eq_refl) (le_n _)) as P1.
  pose proof (parse_print_value j2 H2 false Whole (2 * List.length (print j2) + 1)%nat 0%nat [] I
                (or_introl eq_refl) (le_n _)) as P2.
  rewrite E in P1. rewrite P1 in P2. now injection P2.
Qed.

(* ---------------- fuel ---------------- *)

Lemma skip_ws_length s : (List.length (skip_ws s) <= List.length s)%nat.
Proof. induction s as [|b s IH]; cbn [skip_ws]; [lia|]. destruct (is_ws b); simpl; lia. Qed.

Lemma parse_str_body_length strict n : forall s v t,
  (List.length s <= n)%nat -> parse_str_body strict s = Some (v, t) ->
  (List.length t < List.length s)%nat.
Proof.
  induction n as [|n IH]; intros s v t Hn H.
  - destruct s; [discriminate|simpl in Hn; lia].
  - destruct s as [|b r]; [discriminate|]. cbn [parse_str_body] in H. cbv zeta in H.
    assert (K : forall r1 (g : str * str -> str * str), (List.length r1 <= List.length r)%nat ->
              (forall p, snd (g p) = snd p) ->
              opt_bind (parse_str_body strict r1) (fun p => Some (g p)) = Some (v, t) ->
              (List.length t < List.length (b :: r))%nat).
    { intros r1 g Hl Hg Hb. destruct (parse_str_body strict r1) as [[v1 t1]|] eqn:E1; [|discriminate].
      cbn [opt_bind] in Hb. injection Hb as Hg1. specialize (Hg (v1, t1)). rewrite Hg1 in Hg.
      cbn [snd] in Hg. subst t1. clear H. apply IH in E1; cbn [List.length] in *; lia. }
    destruct (Ascii.eqb b quote); [injection H as <- <-; simpl; lia|].
    destruct (Ascii.eqb b backslash).
    + destruct r as [|e r1]; [discriminate|].
      repeat match type of H with
      | (if Ascii.eqb e ?x then opt_bind (parse_str_body strict r1) _ else _) = _ =>
          destruct (Ascii.eqb e x);
          [revert H; apply (K r1 (fun p => (_, snd p))); [simpl; lia|reflexivity]|]
      end.
      destruct (Ascii.eqb e "u"%char); [|discriminate].
      destruct r1 as [|h1 [|h2 [|h3 [|h4 r2]]]]; try discriminate.
      destruct (hex4 h1 h2 h3 h4) as [u|]; [|discriminate].
      destruct (negb strict).
      { revert H; apply (K r2 (fun p => (_, snd p))); [simpl; lia|reflexivity]. }
      destruct ((56320 <=? u) && (u <=? 57343)); [discriminate|].
      destruct ((55296 <=? u) && (u <=? 56319)).
      * destruct r2 as [|bs [|uu [|g1 [|g2 [|g3 [|g4 r3]]]]]]; try discriminate.
        destruct (Ascii.eqb bs backslash && Ascii.eqb uu "u"%char); [|discriminate].
        destruct (hex4 g1 g2 g3 g4) as [w|]; [|discriminate].
        destruct ((56320 <=? w) && (w <=? 57343)); [|discriminate].
        revert H; apply (K r3 (fun p => (_, snd p))); [simpl; lia|reflexivity].
      * revert H; apply (K r2 (fun p => (_, snd p))); [simpl; lia|reflexivity].
    + destruct (code b <? 32); [discriminate|].
      revert H; apply (K r (fun p => (_, snd p))); [lia|reflexivity].
Qed.

Lemma parse_string_length strict s v t :
  parse_string strict s = POk v t -> (List.length t < List.length s)%nat.
Proof.
  unfold parse_string. destruct (parse_str_body strict s) as [[v' t']|] eqn:E; [|discriminate].
  destruct (negb strict || utf8_valid v'); [|discriminate]. intros [= <- <-].
  apply parse_str_body_length with strict (List.length s) v'; [lia|exact E].
Qed.

Lemma parse_string_nofuel strict s : parse_string strict s <> PFuel.
Proof.
  unfold parse_string. destruct (parse_str_body strict s) as [[v' t']|]; [|discriminate].
  destruct (negb strict || utf8_valid v'); discriminate.
Qed.

Lemma expect_length w s t : expect w s = Some t -> (List.length t <= List.length s)%nat.
Proof.
  revert s; induction w as [|a w IH]; intros s; cbn [expect].
  - intros [= ->]. lia.
  - destruct s as [|b s]; [discriminate|]. destruct (Ascii.eqb a b); [|discriminate].
    intros H. apply IH in H. simpl. lia.
Qed.

Lemma parse_frac_inv s fr t : parse_frac s = Some (fr, t) ->
  s = fr ++ t /\ (fr = [] \/ exists d, fr = "."%char :: d /\ digits d).
Proof.
  unfold parse_frac. destruct s as [|b r]; [intros [= <- <-]; auto|].
  destruct (Ascii.eqb b "."%char) eqn:E; [|intros [= <- <-]; auto].
  apply Ascii.eqb_eq in E. subst b.
  destruct (take_digits r) as [d u] eqn:Et. apply take_digits_inv in Et. destruct Et as (-> & Hd & _).
  destruct d as [|x d]; [discriminate|]. intros [= <- <-]. split; [reflexivity|].
  right. exists (x :: d). split; [reflexivity|]. split; [discriminate|now apply forallb_digits].
Qed.

Lemma parse_exp_inv s ex t : parse_exp s = Some (ex, t) ->
  s = ex ++ t /\ (ex = [] \/ exists e sign d,
          ex = e :: sign ++ d /\ (e = "e"%char \/ e = "E"%char)
          /\ (sign = [] \/ sign = ["+"%char] \/ sign = ["-"%char]) /\ digits d).
Proof.
  unfold parse_exp. destruct s as [|b r]; [intros [= <- <-]; auto|].
  destruct (Ascii.eqb b "e"%char || Ascii.eqb b "E"%char) eqn:E; [|intros [= <- <-]; auto].
  assert (b = "e"%char \/ b = "E"%char) as Hb.
  { apply orb_true_iff in E. rewrite !Ascii.eqb_eq in E. exact E. }
  set (sp := match r with
          | c :: r2 => if Ascii.eqb c "+"%char || Ascii.eqb c "-"%char then ([c], r2) else ([], r)
          | [] => ([], [])
          end).
  assert (r = fst sp ++ snd sp /\ (fst sp = [] \/ fst sp = ["+"%char] \/ fst sp = ["-"%char])) as [Hr Hs].
  { unfold sp. destruct r as [|c r2]; [auto|].
    destruct (Ascii.eqb c "+"%char || Ascii.eqb c "-"%char) eqn:Ec; [|auto].
    apply orb_true_iff in Ec. rewrite !Ascii.eqb_eq in Ec. cbn [fst snd].
    split; [reflexivity|]. destruct Ec; subst; auto. }
  destruct sp as [sg r']. cbn [fst snd] in *. subst r.
  destruct (take_digits r') as [d u] eqn:Et. apply take_digits_inv in Et. destruct Et as (-> & Hd & _).
  destruct d as [|x d]; [discriminate|]. intros [= <- <-].
  split; [cbn [app]; now rewrite <- app_assoc|].
  right. exists b, sg, (x :: d). repeat split; try assumption; [discriminate|now apply forallb_digits].
Qed.

(** What is known of a document that has been read: its integers fit and its strings
    are texts. *)
Inductive json_read : json -> Prop :=
| rd_null : json_read JNull
| rd_bool b : json_read (JBool b)
| rd_int z : (- 2 ^ 63 <= z < 2 ^ 64)%Z -> json_read (JInt z)
| rd_float s : json_read (JFloat s)
| rd_str s : rust_string s -> json_read (JStr s)
| rd_arr l : (forall x, In x l -> json_read x) -> json_read (JArr l)
| rd_obj m :
    (forall k v, In (k, v) m -> rust_string k) ->
    (forall k v, In (k, v) m -> json_read v) -> json_read (JObj m).

(** The tokens that are read. *)
Lemma parse_number_inv strict s j t : parse_number strict s = POk j t ->
  exists neg int fr ex,
    number_parts (neg ++ int ++ fr ++ ex) neg int fr ex /\ s = (neg ++ int ++ fr ++ ex) ++ t
    /\ ((~ not_integer neg int fr ex /\ fr ++ ex = []
         /\ j = JInt (match neg with [] => Z.of_N (digits_value 0 int) | _ => - Z.of_N (digits_value 0 int) end))
        \/ (not_integer neg int fr ex
            /\ read_float strict (match neg with [] => false | _ => true end) int fr ex t = POk j t)).
Proof.
  unfold parse_number.
  set (sp := match s with
    | b :: r => if Ascii.eqb b "-"%char then (true, r) else (false, s)
    | [] => (false, [])
    end).
  assert (s = (if fst sp then ["-"%char] else []) ++ snd sp) as Hs.
  { unfold sp. destruct s as [|b r]; [reflexivity|].
    destruct (Ascii.eqb b "-"%char) eqn:E; [|reflexivity]. apply Ascii.eqb_eq in E. now subst. }
  destruct sp as [neg s1]. cbn [fst snd] in Hs.
  destruct (take_digits s1) as [d u] eqn:Et. apply take_digits_inv in Et. destruct Et as (-> & Hd & _).
  destruct d as [|d0 ds]; [discriminate|].
  destruct (Ascii.eqb d0 "0"%char && negb (match ds with [] => true | _ => false end)) eqn:Ez; [discriminate|].
  destruct (parse_frac u) as [[fr t1]|] eqn:Ef; [|discriminate]. apply parse_frac_inv in Ef.
  destruct Ef as [-> Hfr].
  destruct (parse_exp t1) as [[ex t2]|] eqn:Ee; [|discriminate]. apply parse_exp_inv in Ee.
  destruct Ee as [-> Hex]. cbv zeta. intros H.
  exists (if neg then ["-"%char] else []), (d0 :: ds), fr, ex.
  assert (t2 = t) as ->.
  { assert (F : forall b, read_float strict b (d0 :: ds) fr ex t2 = POk j t -> t2 = t).
    { intros b. unfold read_float. destruct strict; [|intros [= _ <-]; reflexivity].
      destruct (float_text _ _ _ _); [|discriminate]. now intros [= _ <-]. }
    destruct fr as [|f0 fr]; [|now apply F in H]. destruct ex as [|e0 ex]; [|now apply F in H].
    destruct neg; destruct (_ : bool) in H; try (now apply F in H); now injection H. }
  split; [|split].
  - split; [reflexivity|]. split; [destruct neg; auto|].
    split; [split; [discriminate|now apply forallb_digits]|].
    split; [|split; assumption].
    intros H0. injection H0 as ->. cbn [Ascii.eqb Bool.eqb andb] in Ez. destruct ds; [reflexivity|discriminate].
  - rewrite Hs. destruct neg; cbn [app]; rewrite <- !app_assoc; reflexivity.
  - unfold not_integer. rewrite digits_value_acc, <- digits_val_acc in *.
    set (n := digits_val (d0 :: ds)) in *. change (2 ^ 64) with 18446744073709551616.
    change (2 ^ 63) with 9223372036854775808.
    assert (Hfin : (fr = [] /\ ex = []) \/ fr ++ ex <> []).
    { destruct fr; [destruct ex; [auto|right; discriminate]|right; discriminate]. }
    destruct Hfin as [[-> ->]|Hfe].
    + destruct neg.
      * destruct ((n =? 0) || (9223372036854775808 <? n)) eqn:En.
        -- right. split; [|exact H]. right. right. split; [discriminate|lia].
        -- left. split; [|split; [reflexivity|now injection H]].
           intros [X|[[X _]|[_ X]]]; [easy|discriminate|lia].
      * destruct (18446744073709551615 <? n) eqn:En.
        -- right. split; [|exact H]. right. left. split; [reflexivity|lia].
        -- left. split; [|split; [reflexivity|now injection H]].
           intros [X|[[_ X]|[X _]]]; [easy|lia|easy].
    + right. split; [now left|]. destruct fr; [destruct ex; [easy|]|]; destruct neg; exact H.
Qed.

Lemma parse_number_read strict s j t : parse_number strict s = POk j t ->
  exists lexeme, s = lexeme ++ t /\ lexeme <> [] /\ json_read j.
Proof.
  intros H. apply parse_number_inv in H. destruct H as (neg & int & fr & ex & P & E & K).
  exists (neg ++ int ++ fr ++ ex). split; [exact E|]. destruct P as (_ & Hneg & [Hne _] & _). split.
  - destruct int; [easy|]. destruct neg; discriminate.
  - destruct K as [(N & F & ->)|[_ K]].
    + apply rd_int. unfold not_integer in N. set (n := digits_value 0 int) in *.
      change (2 ^ 64) with 18446744073709551616 in N. change (2 ^ 63) with 9223372036854775808 in N.
      destruct Hneg as [-> | ->].
      * destruct (N.le_gt_cases 18446744073709551616 n) as [L|L]; [|lia]. exfalso. apply N. auto.
      * destruct (N.le_gt_cases n 9223372036854775808) as [L|L]; [lia|]. exfalso. apply N. right. right.
        split; [discriminate|auto].
    + unfold read_float in K. destruct strict; [destruct (float_text _ _ _ _); [|discriminate]|];
        injection K as <-; constructor.
Qed.

Lemma parse_number_nofuel strict s : parse_number strict s <> PFuel.
Proof.
  unfold parse_number.
  destruct (match s with
    | b :: r => if Ascii.eqb b "-"%char then (true, r) else (false, s)
    | [] => (false, []) end) as [neg s1].
  destruct (take_digits s1) as [[|d0 ds] u]; [discriminate|].
  destruct (Ascii.eqb d0 "0"%char && negb (match ds with [] => true | _ => false end)); [discriminate|].
  destruct (parse_frac u) as [[fr t1]|]; [|discriminate].
  destruct (parse_exp t1) as [[ex t2]|]; [|discriminate]. cbv zeta. unfold read_float.
  repeat match goal with
  | |- context [match ?x with _ => _ end] => destruct x
  end; discriminate.
Qed.

(** Every reader consumes input, and the budget of [2 * length + 1] (value) or
    [2 * length + 2] (elements, members) suffices. *)
Lemma reader_progress : forall fuel,
  (forall strict sh d s,
     (forall v t, parse_value strict sh fuel d s = POk v t -> (List.length t < List.length s)%nat)
     /\ ((2 * List.length s + 1 <= fuel)%nat -> parse_value strict sh fuel d s <> PFuel))
  /\ (forall strict sh i d s,
     (forall v t, parse_elems strict sh i fuel d s = POk v t -> (List.length t < List.length s)%nat)
     /\ ((2 * List.length s + 2 <= fuel)%nat -> parse_elems strict sh i fuel d s <> PFuel))
  /\ (forall strict sh d s,
     (forall v t, parse_members strict sh fuel d s = POk v t -> (List.length t < List.length s)%nat)
     /\ ((2 * List.length s + 2 <= fuel)%nat -> parse_members strict sh fuel d s <> PFuel)).
Proof.
  induction fuel as [|f (IV & IE & IM)].
  { repeat split; intros; try discriminate; lia. }
  split; [|split].
  - intros strict sh d s. cbn [parse_value].
    pose proof (skip_ws_length s) as Lw. destruct (skip_ws s) as [|b r] eqn:Es; [split; intros; discriminate|].
    cbn [List.length] in Lw.
    destruct (Ascii.eqb b quote).
    { pose proof (parse_string_nofuel strict r) as Nf.
      destruct (parse_string strict r) as [v t| |] eqn:Ep; [| |easy].
      - apply parse_string_length in Ep. split; [intros ? ? [= <- <-]; lia|discriminate].
      - split; discriminate. }
    destruct (Ascii.eqb b "["%char).
    { destruct (enter strict d) as [d'|]; [|split; discriminate].
      pose proof (skip_ws_length r) as Lr. destruct (skip_ws r) as [|c t] eqn:Er; [split; discriminate|].
      cbn [List.length] in Lr.
      destruct (Ascii.eqb c "]"%char); [split; [intros ? ? [= <- <-]; lia|discriminate]|].
      destruct (IE strict sh 0%nat d' r) as [I1 I2].
      destruct (parse_elems strict sh 0 f d' r) as [l t'| |] eqn:Ee.
      - specialize (I1 _ _ eq_refl). split; [intros ? ? [= <- <-]; lia|discriminate].
      - split; discriminate.
      - split; [discriminate|]. intros Hf. exfalso. apply I2; [lia|reflexivity]. }
    destruct (Ascii.eqb b "{"%char).
    { destruct (enter strict d) as [d'|]; [|split; discriminate].
      pose proof (skip_ws_length r) as Lr. destruct (skip_ws r) as [|c t] eqn:Er; [split; discriminate|].
      cbn [List.length] in Lr.
      destruct (Ascii.eqb c "}"%char); [split; [intros ? ? [= <- <-]; lia|discriminate]|].
      destruct (IM strict sh d' r) as [I1 I2].
      destruct (parse_members strict sh f d' r) as [l t'| |] eqn:Ee.
      - specialize (I1 _ _ eq_refl). split; [intros ? ? [= <- <-]; lia|discriminate].
      - split; discriminate.
      - split; [discriminate|]. intros Hf. exfalso. apply I2; [lia|reflexivity]. }
    assert (Hid : forall w v0,
      (forall v t, parse_ident w v0 r = POk v t -> (List.length t < List.length s)%nat)
      /\ parse_ident w v0 r <> PFuel).
    { intros w v0. unfold parse_ident. destruct (expect w r) as [t|] eqn:Ex.
      - apply expect_length in Ex. split; [intros ? ? [= <- <-]; lia|discriminate].
      - split; discriminate. }
    destruct (Ascii.eqb b "t"%char); [split; [apply Hid|intros _; apply Hid]|].
    destruct (Ascii.eqb b "f"%char); [split; [apply Hid|intros _; apply Hid]|].
    destruct (Ascii.eqb b "n"%char); [split; [apply Hid|intros _; apply Hid]|].
    split; [|intros _; apply parse_number_nofuel].
    intros v t Hp. apply parse_number_read in Hp. destruct Hp as (lx & El & Hne & _).
    assert (List.length (b :: r) = List.length (lx ++ t)) as Hl by now rewrite El.
    rewrite app_length in Hl. cbn [List.length] in Hl. destruct lx; [easy|]. simpl in Hl. lia.
  - intros strict sh i d s. cbn [parse_elems].
    destruct (IV strict (elem_shape sh i) d s) as [V1 V2].
    destruct (parse_value strict (elem_shape sh i) f d s) as [v t| |] eqn:Ev.
    + specialize (V1 _ _ eq_refl). pose proof (skip_ws_length t) as Lt.
      destruct (skip_ws t) as [|c t'] eqn:Et; [split; discriminate|]. cbn [List.length] in Lt.
      destruct (Ascii.eqb c ","%char).
      * destruct (IE strict sh (S i) d t') as [I1 I2].
        destruct (parse_elems strict sh (S i) f d t') as [l t''| |] eqn:Ee.
        -- specialize (I1 _ _ eq_refl). split; [intros ? ? [= <- <-]; lia|discriminate].
        -- split; discriminate.
        -- split; [discriminate|]. intros Hf. exfalso. apply I2; [lia|reflexivity].
      * destruct (Ascii.eqb c "]"%char); [split; [intros ? ? [= <- <-]; lia|discriminate]|split; discriminate].
    + split; discriminate.
    + split; [discriminate|]. intros Hf. exfalso. apply V2; [lia|reflexivity].
  - intros strict sh d s. cbn [parse_members].
    pose proof (skip_ws_length s) as Lw. destruct (skip_ws s) as [|q r] eqn:Es; [split; discriminate|].
    cbn [List.length] in Lw.
    destruct (Ascii.eqb q quote); [|split; discriminate].
    pose proof (parse_string_nofuel strict r) as Nf.
    destruct (parse_string strict r) as [k t| |] eqn:Ep; [|split; discriminate|easy].
    apply parse_string_length in Ep.
    pose proof (skip_ws_length t) as Lt. destruct (skip_ws t) as [|c t1] eqn:Et; [split; discriminate|].
    cbn [List.length] in Lt.
    destruct (Ascii.eqb c ":"%char); [|split; discriminate].
    destruct (IV (strict && wanted sh k) (member_shape sh k) d t1) as [V1 V2].
    destruct (parse_value (strict && wanted sh k) (member_shape sh k) f d t1) as [v t2| |] eqn:Ev.
    + specialize (V1 _ _ eq_refl). pose proof (skip_ws_length t2) as Lt2.
      destruct (skip_ws t2) as [|e t3] eqn:Et2; [split; discriminate|]. cbn [List.length] in Lt2.
      destruct (Ascii.eqb e ","%char).
      * destruct (IM strict sh d t3) as [I1 I2].
        destruct (parse_members strict sh f d t3) as [l t4| |] eqn:Ee.
        -- specialize (I1 _ _ eq_refl). split; [intros ? ? [= <- <-]; lia|discriminate].
        -- split; discriminate.
        -- split; [discriminate|]. intros Hf. exfalso. apply I2; [lia|reflexivity].
      * destruct (Ascii.eqb e "}"%char); [split; [intros ? ? [= <- <-]; lia|discriminate]|split; discriminate].
    + split; discriminate.
    + split; [discriminate|]. intros Hf. exfalso. apply V2; [lia|reflexivity].
Qed.

(** The budget of [parse_doc] is never exhausted. *)
Theorem parse_doc_fuel strict sh s d :
  parse_value strict sh (2 * List.length s + 2)%nat d s <> PFuel.
Proof. destruct (reader_progress (2 * List.length s + 2)%nat) as (V & _). apply V. lia. Qed.

(* ---------------- documents read are well-formed ---------------- *)

(** What reading with a shape says about the values that are read whole. *)
Definition shape_ok (sh : shape) (j : json) : Prop :=
  match j with
  | JObj m => forall k v, In (k, v) m ->
      rust_string k /\ (wanted sh k = true -> member_shape sh k = Whole -> json_read v)
  | JArr l => forall n x, nth_error l n = Some x -> elem_shape sh n = Whole -> json_read x
  | _ => json_read j
  end.

Lemma whole_ok j : shape_ok Whole j -> json_read j.
Proof.
  destruct j; try exact (fun H => H); cbn [shape_ok]; intros H.
  - apply rd_arr. intros x Hx. apply In_nth_error in Hx. destruct Hx as [n Hn]. exact (H n x Hn eq_refl).
  - apply rd_obj; intros k v Hin; destruct (H k v Hin) as [H1 H2]; [exact H1|now apply H2].
Qed.

Lemma reader_ok : forall fuel,
  (forall sh d s j t, parse_value true sh fuel d s = POk j t ->
shape_ok sh j)
  /\ (forall sh i d s l t, parse_elems true sh i fuel d s = POk l t ->
        forall n x, nth_error l n = Some x -> elem_shape sh (i + n) = Whole -> json_read x)
  /\ (forall sh d s m t, parse_members true sh fuel d s = POk m t ->
        forall k v, In (k, v) m -> rust_string k /\ (wanted sh k = true -> member_shape sh k = Whole -> json_read v)).
Proof.
  assert (Hstr : forall s v t, parse_string true s = POk v t -> rust_string v).
  { intros s v t. unfold parse_string. destruct (parse_str_body true s) as [[v' t']|]; [|discriminate].
    cbn [negb orb]. destruct (utf8_valid v') eqn:E; [|discriminate]. intros [= <- <-].
    now apply rust_string_iff. }
  induction fuel as [|f (IV & IE & IM)].
  { repeat split; intros; discriminate. }
  assert (IV' : forall d s j t, parse_value true Whole f d s = POk j t -> json_read j).
  { intros d s j t H. apply IV in H. now apply whole_ok. }
  split; [|split].
  - intros sh d s j t. cbn [parse_value].
    destruct (skip_ws s) as [|b r]; [discriminate|].
    destruct (Ascii.eqb b quote).
    { destruct (parse_string true r) as [v u| |] eqn:Ep; try discriminate. intros [= <- <-].
      apply rd_str. eauto. }
    destruct (Ascii.eqb b "["%char).
    { destruct (enter true d) as [d'|]; [|discriminate].
      destruct (skip_ws r) as [|c u]; [discriminate|].
      destruct (Ascii.eqb c "]"%char); [intros [= <- <-] [|n] x; discriminate|].
      destruct (parse_elems true sh 0 f d' r) as [l u'| |] eqn:Ee; try discriminate.
      intros [= <- <-]. exact (IE _ _ _ _ _ _ Ee). }
    destruct (Ascii.eqb b "{"%char).
    { destruct (enter true d) as [d'|]; [|discriminate].
      destruct (skip_ws r) as [|c u]; [discriminate|].
      destruct (Ascii.eqb c "}"%char); [intros [= <- <-]; easy|].
      destruct (parse_members true sh f d' r) as [l u'| |] eqn:Ee; try discriminate.
      intros [= <- <-]. exact (IM _ _ _ _ _ Ee). }
    assert (Hid : forall w v0, json_read v0 -> (match v0 with JObj _ | JArr _ => False | _ => True end) ->
      parse_ident w v0 r = POk j t -> shape_ok sh j).
    { intros w v0 Hv Hno. unfold parse_ident. destruct (expect w r); [|discriminate].
      intros [= <- <-]. destruct v0; easy. }
    destruct (Ascii.eqb b "t"%char); [apply Hid; [constructor|exact I]|].
    destruct (Ascii.eqb b "f"%char); [apply Hid; [constructor|exact I]|].
    destruct (Ascii.eqb b "n"%char); [apply Hid; [constructor|exact I]|].
    intros H. apply parse_number_read in H. destruct H as (_ & _ & _ & H).
    destruct j; try exact H; inversion H; subst; cbn [shape_ok]; eauto using nth_error_In.
  - intros sh i d s l t. cbn [parse_elems].
    destruct (parse_value true (elem_shape sh i) f d s) as [v u| |] eqn:Ev; try discriminate.
    assert (elem_shape sh (i + 0) = Whole -> json_read v) as Hv.
    { rewrite Nat.add_0_r. intros E. rewrite E in Ev. eauto. }
    destruct (skip_ws u) as [|c u']; [discriminate|].
    destruct (Ascii.eqb c ","%char).
    + destruct (parse_elems true sh (S i) f d u') as [l' u''| |] eqn:Ee; try discriminate.
      intros [= <- <-] [|n] x; cbn [nth_error]; [intros [= <-]; exact Hv|].
      intros Hn. rewrite Nat.add_succ_r. exact (IE _ _ _ _ _ _ Ee n x Hn).
    + destruct (Ascii.eqb c "]"%char); [|discriminate].
      intros [= <- <-] [|[|n]] x; cbn [nth_error]; [intros [= <-]; exact Hv|discriminate..].
  - intros sh d s m t. cbn [parse_members].
    destruct (skip_ws s) as [|q r]; [discriminate|].
    destruct (Ascii.eqb q quote); [|discriminate].
    destruct (parse_string true r) as [k u| |] eqn:Ep; try discriminate. apply Hstr in Ep.
    destruct (skip_ws u) as [|c t1]; [discriminate|].
    destruct (Ascii.eqb c ":"%char); [|discriminate]. cbn [andb].
    destruct (parse_value (wanted sh k) (member_shape sh k) f d t1) as [v t2| |] eqn:Ev; try discriminate.
    assert (wanted sh k = true -> member_shape sh k = Whole -> json_read v) as Hv.
    { intros E E1. rewrite E, E1 in Ev. exact (IV' _ _ _ _ Ev). }
    destruct (skip_ws t2) as [|e t3]; [discriminate|].
    destruct (Ascii.eqb e ","%char).
    + destruct (parse_members true sh f d t3) as [l u''| |] eqn:Ee; try discriminate.
      intros [= <- <-] k' v' [[= <- <-]|Hx]; [auto|]. eauto.
    + destruct (Ascii.eqb e "}"%char); [|discriminate].
      intros [= <- <-] k' v' [[= <- <-]|[]]. auto.
Qed.

Theorem parse_doc_ok sh s j : parse_doc sh s = Some j ->
  shape_ok sh j.
Proof.
  unfold parse_doc. destruct (parse_value true sh (2 * List.length s + 2)%nat recursion_limit s) as [v t| |] eqn:E;
    try discriminate.
  destruct (skip_ws t); [|discriminate]. intros [= <-].
  destruct (reader_ok (2 * List.length s + 2)%nat) as (V & _). eapply V, E.
Qed.

Theorem parse_json_ok s j : parse_json s = Some j -> json_read j.
Proof.
  intros H. now apply whole_ok, (parse_doc_ok Whole s).
Qed.
