(** Texts of any nesting. *)
From Coq Require Import Lia.
From Verif Require Import Model.Prelude Model.Json Spec SpecJson
  Proofs.StrFacts Proofs.JsonFacts Proofs.ReaderFacts Proofs.GrammarFacts.

(** More levels never hurt. *)
Lemma texts_mono :
  (forall w sh n s j, value_text w sh n s j -> forall k, value_text w sh (n + k) s j)
  /\ (forall w sh i n s l, elements_text w sh i n s l -> forall k, elements_text w sh i (n + k) s l)
  /\ (forall w sh n s l, members_text w sh n s l -> forall k, members_text w sh (n + k) s l).
Proof.
  assert (D : forall w n m k, deeper w n m -> deeper w (n + k) (m + k)).
  { intros [] n m k H; cbn [deeper] in *; subst; reflexivity. }
  apply texts_ind; intros; try (econstructor; eauto; fail).
Qed.

(** Everything in a value that is read as a whole is counted. *)
Lemma whole_depth :
  (forall w sh n s j, value_text w sh n s j -> w = true -> sh = Whole -> (depth j <= n)%nat)
  /\ (forall w sh i n s l, elements_text w sh i n s l -> w = true -> sh = Whole ->
        (list_max (map depth l) <= n)%nat)
  /\ (forall w sh n s l, members_text w sh n s l -> w = true -> sh = Whole ->
        (list_max (map (fun kv => depth (snd kv)) l) <= n)%nat).
Proof.
  apply texts_ind.
  1-3: intros; cbn [depth]; lia.
  - intros w sh n s j H Hw Hs. destruct H; cbn [depth]; lia.
  - intros; cbn [depth]; lia.
  - intros w sh n m a D Ha Hw Hs. subst w. cbn [deeper] in D. subst n. cbn [depth map]. change (list_max []) with 0%nat. lia.
  - intros w sh n m t l D He IH Hw Hs. subst w. cbn [deeper] in D. subst n. specialize (IH eq_refl Hs). cbn [depth]. lia.
  - intros w sh n m a D Ha Hw Hs. subst w. cbn [deeper] in D. subst n. cbn [depth map]. change (list_max []) with 0%nat. lia.
  - intros w sh n m t l D He IH Hw Hs. subst w. cbn [deeper] in D. subst n. specialize (IH eq_refl Hs). cbn [depth]. lia.
  - intros w sh i n a s b j Ha Hb Hv IH Hw Hs. subst. specialize (IH eq_refl eq_refl).
    cbn [map list_max fold_right]. lia.
  - intros w sh i n a s b t j l Ha Hb Hv IHv He IHe Hw Hs. subst. specialize (IHv eq_refl eq_refl).
    specialize (IHe eq_refl eq_refl). cbn [map list_max fold_right] in *. fold (list_max (map depth l)). lia.
  - intros w sh w' sh' n a k key b c s d j Ha Hb Hc Hd Hk Hm Hv IH Hw Hs. subst. injection Hm as <- <-.
    specialize (IH eq_refl eq_refl). cbn [map list_max fold_right snd]. lia.
  - intros w sh w' sh' n a k key b c s d t j l Ha Hb Hc Hd Hk Hm Hv IHv He IHe Hw Hs. subst. injection Hm as <- <-.
    specialize (IHv eq_refl eq_refl). specialize (IHe eq_refl eq_refl).
    cbn [map list_max fold_right snd] in *. fold (list_max (map (fun kv : str * json => depth (snd kv)) l)). lia.
Qed.

(** The reader without its limit. *)
Lemma levels_read n s j : levels_text n s j ->
  exists t, parse_value true Whole (2 * List.length s + 2) (S n) s = POk j t /\ white t.
Proof.
  intros (a & t & b & -> & Ha & Hb & Hv). exists b. split; [|exact Hb].
  apply (proj1 texts_read true Whole n t j Hv a b); [exact Ha|now apply ends_white_only|].
  rewrite !app_length. lia.
Qed.

Lemma rfc8259_det s j j' : rfc8259_text s j -> rfc8259_text s j' -> j = j'.
Proof.
  intros (n & H) (n' & H').
  assert (levels_text (n + n') s j) as K.
  { destruct H as (a & t & b & E & Ha & Hb & Hv). exists a, t, b. repeat split; try assumption. now apply texts_mono. }
  assert (levels_text (n + n') s j') as K'.
  { destruct H' as (a & t & b & E & Ha & Hb & Hv). exists a, t, b. repeat split; try assumption.
    rewrite Nat.add_comm. now apply texts_mono. }
  apply levels_read in K as (t & K & _). apply levels_read in K' as (t' & K' & _). congruence.
Qed.

Lemma print_levels j n : json_ok j -> (levels_text n (print j) j <-> (depth j <= n)%nat).
Proof.
  intros Hj. split.
  - intros (a & t & b & _ & _ & _ & Hv). now apply whole_depth in Hv.
  - intros Hd.
    pose proof (parse_print_value j Hj true Whole (2 * List.length (print j) + 2)%nat (S n) []) as Q.
    rewrite app_nil_r in Q.
    assert (parse_value true Whole (2 * List.length (print j) + 2) (S n) (print j) = POk j []) as R
      by (apply Q; [exact I|right; lia|lia]). clear Q.
    apply (proj1 (read_texts _)) in R as (a & r & E & Ha & Hv).
    exists a, r, []. repeat split; try assumption. constructor.
Qed.

Lemma print_rfc8259 j : json_ok j -> rfc8259_text (print j) j.
Proof. intros H. exists (depth j). now apply print_levels. Qed.

Lemma json_text_rfc8259 s j : json_text s j -> rfc8259_text s j.
Proof. intros H. now exists 127%nat. Qed.

Lemma printed_is_json j : json_ok j ->
  (forall n, levels_text n (print j) j <-> (depth j <= n)%nat)
  /\ forall j', rfc8259_text (print j) j' -> j' = j.
Proof.
  intros H. split; [intros n; now apply print_levels|].
  intros j' H'. apply (rfc8259_det _ _ _ H'). now apply print_rfc8259.
Qed.
