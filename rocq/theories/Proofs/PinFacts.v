(** Which PINs a token request can carry (C114). *)
From Coq Require Import Lia.
From Verif Require Import Model.Prelude Model.Json Model.Float Model.Types Model.Serde Model.Wire Model.AccessToken
  Spec SpecNumber SpecJson SpecToken SpecDocuments SpecPin
  Proofs.StrFacts Proofs.JsonFacts Proofs.FloatText Proofs.NumberFacts Proofs.SerdeFacts Proofs.DocumentFacts Proofs.GrammarFacts Proofs.TokenFacts.

(** One member whose value has been read. *)
Lemma member_step strict sh f d k t1 : rust_string k ->
  parse_members strict sh (S f) d (print_str k ++ ":"%char :: t1) =
  match parse_value (strict && wanted sh k) (member_shape sh k) f d t1 with
  | POk v t2 =>
      match skip_ws t2 with
      | e :: t3 =>
          if Ascii.eqb e ","%char then
            match parse_members strict sh f d t3 with
            | POk l t4 => POk ((k, v) :: l) t4 | PErr => PErr | PFuel => PFuel
            end
          else if Ascii.eqb e "}"%char then POk [(k, v)] t3 else PErr
      | [] => PErr
      end
  | PErr => PErr
  | PFuel => PFuel
  end.
Proof.
  intros K. unfold print_str. cbn [app]. rewrite <- app_assoc. cbn [parse_members].
  change (skip_ws (quote :: ?r)) with (quote :: r). cbn [app].
  replace (skip_ws (quote :: flat_map escape_byte k ++ quote :: ":"%char :: t1))
    with (quote :: flat_map escape_byte k ++ quote :: ":"%char :: t1) by reflexivity.
  rewrite Ascii.eqb_refl, parse_string_print by exact K. reflexivity.
Qed.
Lemma string_value_step strict sh f d s v t : string_text strict s v ->
  parse_value strict sh (S f) d (s ++ t) = POk (JStr v) t.
Proof.
  intros H. destruct (string_read _ _ _ t H) as (u & -> & P & _). cbn [parse_value].
  replace (skip_ws (quote :: u)) with (quote :: u) by reflexivity. now rewrite Ascii.eqb_refl, P.
Qed.
Lemma printed_value_step strict sh f d v t : rust_string v ->
  parse_value strict sh (S f) d (print_str v ++ t) = POk (JStr v) t.
Proof.
  intros H. unfold print_str. cbn [app]. rewrite <- app_assoc. cbn [app parse_value].
  replace (skip_ws (quote :: flat_map escape_byte v ++ quote :: t))
    with (quote :: flat_map escape_byte v ++ quote :: t) by reflexivity.
  now rewrite Ascii.eqb_refl, parse_string_print by exact H.
Qed.

Lemma object_step sh f d k r : parse_value true sh (S f) (S (S d)) ("{"%char :: print_str k ++ r) =
  match parse_members true sh f (S d) (print_str k ++ r) with
  | POk l t' => POk (JObj l) t' | PErr => PErr | PFuel => PFuel
  end.
Proof. reflexivity. Qed.
Lemma skip_comma r : skip_ws (","%char :: r) = ","%char :: r.
Proof. reflexivity. Qed.
Lemma digits_value_step sh f d pin t : digits pin ->
  parse_value true sh (S f) d (pin ++ t) = parse_number true (pin ++ t).
Proof.
  intros [Ne D]. destruct pin as [|b r]; [easy|]. inversion D as [|? ? B _]; subst.
  assert (is_dig b || Ascii.eqb b "-"%char = true) as H.
  { apply forallb_digits in D. cbn [forallb] in D. apply andb_true_iff in D. now rewrite (proj1 D). }
  destruct (number_start b H) as (W & Q1 & Q2 & Q3 & Q4 & Q5 & Q6 & _ & _).
  cbn [app parse_value skip_ws]. now rewrite W, Q1, Q2, Q3, Q4, Q5, Q6.
Qed.

Definition pin_document (code : str) (v : json) : json :=
  JObj [(lit "grant_type", JObj [(lit "grant_type", JStr grant_pre_authorized);
                                 (lit "pre_authorized_code", JStr code); (lit "user_pin", v)])].

Lemma pin_request_eq quoted pin : pin_request quoted pin =
  "{"%char :: print_str (lit "grant_type") ++ ":"%char ::
  "{"%char :: print_str (lit "grant_type") ++ ":"%char :: print_str grant_pre_authorized ++ ","%char ::
  print_str (lit "pre_authorized_code") ++ ":"%char :: quoted ++ ","%char ::
  print_str (lit "user_pin") ++ ":"%char :: pin ++ ["}"; "}"]%char.
Proof. reflexivity. Qed.

Definition braces : str := ["}"; "}"]%char.
Lemma braces_end : ends_number braces.
Proof. repeat split; discriminate. Qed.
Lemma pin_number pin : digits pin ->
  (zero_led pin -> parse_number true (pin ++ braces) = PErr)
  /\ (~ zero_led pin -> digits_value 0 pin < 2 ^ 64 ->
      parse_number true (pin ++ braces) = POk (JInt (Z.of_N (digits_value 0 pin))) braces)
  /\ (~ zero_led pin -> 2 ^ 64 <= digits_value 0 pin ->
      parse_number true (pin ++ braces) = PErr
      \/ exists x, parse_number true (pin ++ braces) = POk (JFloat x) braces).
Proof.
  intros D. split; [|split].
  - intros (c & r & ->). destruct D as [_ D]. apply forallb_digits in D.
    unfold parse_number. replace (Ascii.eqb "0" "-") with false by reflexivity. cbn [app].
    change ("0"%char :: c :: r ++ braces) with (("0"%char :: c :: r) ++ braces).
    change (Ascii.eqb "0" "-") with false. cbv iota.
    rewrite take_digits_app by (exact D || reflexivity). reflexivity.
  - intros Z L. apply number_read; [|exact braces_end]. apply nt_positive; [|exact L]. split; [exact D|].
    destruct pin as [|a [|b r]]; [intros [=]| |]; intros [= ->]; [reflexivity|]. destruct Z. now exists b, r.
  - intros Z L. pose proof D as [Ne D']. destruct pin as [|d0 ds]; [easy|]. apply forallb_digits in D'.
    assert (d0 = "0"%char -> ds = []) as Hz.
    { intros ->. destruct ds as [|b r]; [reflexivity|]. destruct Z. now exists b, r. }
    pose proof (parse_number_lex true [] d0 ds [] [] braces (or_introl eq_refl) D' Hz (or_introl eq_refl)
      (or_introl eq_refl) braces_end) as P. cbv zeta in P. cbn [app] in P. rewrite app_nil_r in P. cbn [app].
    rewrite P. rewrite digits_value_acc, <- digits_val_acc in L. change (2 ^ 64) with 18446744073709551616 in L.
    replace (18446744073709551615 <? digits_val (d0 :: ds)) with true by lia.
    unfold read_float. destruct (float_text _ _ _ _) as [x|]; [right; now exists x|now left].
Qed.

Lemma zero_led_dec pin : zero_led pin \/ ~ zero_led pin.
Proof.
  destruct pin as [|a [|b r]]; [right|right|]; try (now intros (? & ? & [=])).
  destruct (Ascii.eqb_spec a "0"%char) as [->|Na]; [left; now exists b, r|right].
  intros (? & ? & [=]). now apply Na.
Qed.

Lemma pin_parsed quoted code pin : string_text true quoted code -> digits pin ->
  parse_struct [lit "grant_type"] (pin_request quoted pin) =
  match parse_number true (pin ++ braces) with
  | POk v t => match t with _ :: _ :: t' => Some (pin_document code v) | _ => None end
  | _ => None
  end.
Proof.
  intros Q D. unfold parse_struct, parse_doc, recursion_limit.
  assert (exists f, (2 * List.length (pin_request quoted pin) + 2 = 12 + f)%nat) as (f & ->).
  { exists (2 * List.length (pin_request quoted pin) - 10)%nat. rewrite pin_request_eq. cbn [List.length].
    rewrite app_length. cbn [List.length]. change (List.length (print_str (lit "grant_type"))) with 12%nat. lia. }
  rewrite pin_request_eq. cbn [Nat.add]. fold braces.
  rewrite object_step, member_step by (now apply rust_string_ascii).
  set (sh := plain [lit "grant_type"]).
  change (true && wanted sh (lit "grant_type")) with true.
  change (member_shape sh (lit "grant_type")) with Whole.
  rewrite object_step, member_step by (now apply rust_string_ascii). cbn [andb wanted member_shape].
  rewrite printed_value_step by (now apply rust_string_ascii).
  rewrite skip_comma, Ascii.eqb_refl.
  rewrite member_step by (now apply rust_string_ascii). cbn [andb wanted member_shape].
  rewrite (string_value_step true _ _ _ quoted code) by exact Q.
  rewrite skip_comma, Ascii.eqb_refl.
  rewrite member_step by (now apply rust_string_ascii). cbn [andb wanted member_shape].
  rewrite digits_value_step by exact D.
  destruct (pin_number pin D) as (N1 & N2 & N3).
  destruct (zero_led_dec pin) as [Z|Z].
  - now rewrite N1.
  - destruct (N.lt_ge_cases (digits_value 0 pin) (2 ^ 64)) as [L|L].
    + rewrite N2 by assumption. reflexivity.
    + destruct (N3 Z L) as [-> | (x & ->)]; reflexivity.
Qed.

(** Exactly the PINs without leading zero that fit in 64 bits are read. *)
Lemma pin_read quoted code pin r : string_text true quoted code -> digits pin ->
  (token_request_from_json (pin_request quoted pin) = Some r <->
   ~ zero_led pin /\ digits_value 0 pin < 2 ^ 64
   /\ r = {| tr_grant_type := GPreAuthorized code (Some (digits_value 0 pin)) |}).
Proof.
  intros Q D. unfold token_request_from_json. rewrite (pin_parsed _ _ _ Q D).
  destruct (pin_number pin D) as (N1 & N2 & N3).
  destruct (zero_led_dec pin) as [Z|Z].
  - rewrite N1 by exact Z. split; [discriminate|]. intros (H & _). now destruct H.
  - destruct (N.lt_ge_cases (digits_value 0 pin) (2 ^ 64)) as [L|L].
    + rewrite N2 by assumption. cbn [opt_bind braces].
      assert (de_token_request (pin_document code (JInt (Z.of_N (digits_value 0 pin))))
              = Some {| tr_grant_type := GPreAuthorized code (Some (digits_value 0 pin)) |}) as ->.
      { change (JInt (Z.of_N (digits_value 0 pin))) with (ser_N (digits_value 0 pin)).
        assert (de_u64 (ser_N (digits_value 0 pin)) = Some (digits_value 0 pin)) as E by (now apply de_u64_rt).
        cbv -[de_u64 ser_N digits_value] in E |- *. now rewrite E. }
      split; [intros [= <-]; auto|]. now intros (_ & _ & ->).
    + split; [|intros (_ & H & _); exfalso; lia]. intros H. exfalso.
      destruct (N3 Z L) as [E|(x & E)]; rewrite E in H; [discriminate H|]. cbn [opt_bind braces] in H.
      cbv -[de_u64] in H. discriminate H.
Qed.

Lemma digits_count pin : digits pin -> ~ zero_led pin ->
  decimal_digits (digits_value 0 pin) (N.of_nat (List.length pin)).
Proof.
  intros [Ne D] Z. destruct pin as [|c r]; [easy|]. inversion D as [|? ? [B1 B2] D']; subst.
  change (digits_value 0 (c :: r)) with (digits_value (0 * 10 + (code c - 48)) r).
  replace (0 * 10 + (code c - 48)) with (code c - 48) by lia.
  destruct (digits_value_bounds r (code c - 48)) as [L U]; [exact D'|].
  destruct (N.eq_dec (code c) 48) as [E|E].
  - destruct r as [|c' r'].
    + left. cbn [digits_value List.length]. rewrite E. split; reflexivity.
    + destruct Z. exists c', r'. f_equal. rewrite <- (chr_code c), E. reflexivity.
  - right. cbn [List.length]. rewrite Nat2N.inj_succ.
    set (k := N.of_nat (List.length r)) in *. replace (N.succ k - 1) with k by lia.
    assert (0 < 10 ^ k) as P by (apply N.neq_0_lt_0, N.pow_nonzero; discriminate).
    rewrite N.pow_succ_r by lia. nia.
Qed.

(** With a PIN expected, exactly the digits of that PIN, at most nine, are redeemed. *)
Lemma pin_redeemed quoted code pin offer g opts n : string_text true quoted code -> digits pin ->
  og_pre (co_grants offer) = Some g -> pf_code g = code -> pin_required g -> expected_pin opts n ->
  ((exists r, token_request_from_json (pin_request quoted pin) = Some r
     /\ evaluate_access_token_request r (Some offer) opts = Ok tt) <->
   decimal_text n pin /\ (List.length pin <= 9)%nat).
Proof.
  intros Q D G C R X.
  assert (~ zero_led pin <-> (hd_error pin = Some "0"%char -> pin = ["0"%char])) as ZL.
  { split.
    - intros Z. destruct pin as [|a [|b r]]; [intros [=]| |]; intros [= ->]; [reflexivity|].
      destruct Z. now exists b, r.
    - intros H (c & r & ->). discriminate (H eq_refl). }
  split.
  - intros (r & P & E). apply (pin_read _ _ _ _ Q D) in P. destruct P as (Z & L & ->).
    apply evaluate_ok in E. inversion E as [c p o g' opts' Lp G' S]; subst.
    rewrite G in G'. injection G' as <-. destruct S as (_ & _ & S).
    destruct (S _ eq_refl) as (o & -> & O). destruct X as (o' & [= <-] & X). rewrite O in X. injection X as X.
    split; [split; [exact D|split; [exact X|now apply ZL]]|].
    pose proof (Lp _ _ eq_refl (digits_count pin D Z)). lia.
  - intros ((_ & V & H) & Ln). apply ZL in H. pose proof (digits_count pin D H) as K.
    exists {| tr_grant_type := GPreAuthorized code (Some (digits_value 0 pin)) |}. split.
    + apply (pin_read _ _ _ _ Q D). split; [exact H|]. split; [|reflexivity].
      assert (digits_value 0 pin < 10 ^ 9).
      { apply (decimal_digits_lt _ _ 9 K); lia. }
      change (10 ^ 9) with 1000000000 in *. change (2 ^ 64) with 18446744073709551616. lia.
    + apply evaluate_ok. econstructor; [|exact G|].
      * intros m k [= <-] K'. rewrite (decimal_digits_unique _ _ _ K' K). lia.
      * split; [now symmetry|]. split; [now split|]. intros m [= <-]. now rewrite V.
Qed.

Lemma pins_apart quoted quoted' code code' pin pin' offer g opts n r r' :
  string_text true quoted code -> string_text true quoted' code' -> digits pin -> digits pin' ->
  og_pre (co_grants offer) = Some g -> pin_required g -> expected_pin opts n ->
  token_request_from_json (pin_request quoted pin) = Some r ->
  token_request_from_json (pin_request quoted' pin') = Some r' ->
  evaluate_access_token_request r (Some offer) opts = Ok tt ->
  evaluate_access_token_request r' (Some offer) opts = Ok tt -> pin = pin'.
Proof.
  assert (forall quoted code pin r, string_text true quoted code -> digits pin ->
    og_pre (co_grants offer) = Some g -> pin_required g -> expected_pin opts n ->
    token_request_from_json (pin_request quoted pin) = Some r ->
    evaluate_access_token_request r (Some offer) opts = Ok tt -> decimal_text n pin) as K.
  { clear. intros quoted code pin r Q D G R X P E.
    assert (pf_code g = code) as C.
    { apply (pin_read _ _ _ _ Q D) in P. destruct P as (_ & _ & ->).
      apply evaluate_ok in E. inversion E as [c p o g' opts' Lp G' S]; subst.
      rewrite G in G'. injection G' as <-. now destruct S as (-> & _). }
    apply (pin_redeemed quoted code pin offer g opts n Q D G C R X). exists r. split; assumption. }
  intros Q Q' D D' G R X P P' E E'.
  apply (decimal_text_unique n); [apply (K quoted code pin r)|apply (K quoted' code' pin' r')]; assumption.
Qed.

Lemma zero_led_refused quoted code pin : string_text true quoted code -> digits pin -> zero_led pin ->
  token_request_from_json (pin_request quoted pin) = None.
Proof.
  intros Q D Z. destruct (token_request_from_json _) as [r|] eqn:E; [|reflexivity].
  apply (pin_read _ _ _ _ Q D) in E. now destruct E.
Qed.
