(** Sizes (C108). *)
From Coq Require Import Lia ZifyBool ZifyN ZifyNat.
From Verif Require Import Model.Prelude Model.Base64 Model.Percent Model.Json Model.Types Model.CredentialIssuer Model.Wire
  Spec SpecNumber SpecOffer SpecJson SpecJwt SpecRelay SpecHops SpecSizes
  Proofs.StrFacts Proofs.JsonFacts Proofs.GrammarFacts Proofs.FloatText Proofs.OfferFacts Proofs.ShapeFacts Proofs.Base64Bits
  Proofs.NumberSize Proofs.NumberValues Proofs.NumberAgain Proofs.HopsFacts Proofs.CompactFacts Proofs.RelayFacts.

(* ---------------- percent-encoding ---------------- *)

Lemma counts_exists {A} (P : A -> Prop) (dec : forall x, P x \/ ~ P x) l : exists n, counts P l n.
Proof.
  induction l as [|x l (n & IH)]; [exists O; constructor|].
  destruct (dec x); [exists (S n)|exists n]; now constructor.
Qed.
Lemma counts_unique {A} (P : A -> Prop) l n : counts P l n -> forall m, counts P l m -> n = m.
Proof. intros H. induction H; intros m M; inversion M; subst; try contradiction; auto. Qed.
Lemma counts_le {A} (P : A -> Prop) l n : counts P l n -> (n <= List.length l)%nat.
Proof. intros H. induction H; cbn [List.length]; lia. Qed.

Lemma unreserved_dec c : url_unreserved c \/ ~ url_unreserved c.
Proof. rewrite <- unreserved_iff. destruct (is_unreserved c); [now left|right; discriminate]. Qed.

Lemma percent_size s n : counts (fun c => ~ url_unreserved c) s n ->
  (List.length (url_encode s) = List.length s + 2 * n)%nat.
Proof.
  intros H. induction H as [|c s n N H IH|c s n N H IH]; [reflexivity| |];
    change (url_encode (c :: s)) with (url_encode_byte c ++ url_encode s); rewrite app_length, IH; unfold url_encode_byte.
  - rewrite <- unreserved_iff in N. apply not_true_is_false in N. rewrite N. cbn [List.length]. lia.
  - destruct (is_unreserved c) eqn:E; [cbn [List.length]; lia|]. exfalso. apply N. intros U.
    apply unreserved_iff in U. congruence.
Qed.

Lemma offer_url_size m creds ep a p o url : create_offer m creds ep a p = Ok (o, url) ->
  exists n, counts (fun c => ~ url_unreserved c) (offer_to_json o) n
    /\ (List.length url = List.length (offer_url_prefix ep) + List.length (offer_to_json o) + 2 * n)%nat.
Proof.
  intros H. apply create_offer_ok in H as (_ & _ & _ & _ & ->).
  destruct (counts_exists (fun c => ~ url_unreserved c)) with (l := offer_to_json o) as (n & N).
  { intros c. destruct (unreserved_dec c); [right|left]; tauto. }
  exists n. split; [exact N|]. rewrite app_length, (percent_size _ n N). lia.
Qed.

(* ---------------- base64 ---------------- *)

Lemma encode_size al pad : forall n s, (List.length s <= n)%nat ->
  List.length (b64_encode al pad s)
  = (if pad then 4 * ((List.length s + 2) / 3) else (4 * List.length s + 2) / 3)%nat.
Proof.
  induction n as [n IH] using lt_wf_ind. intros s L.
  destruct s as [|a [|b [|c r]]]; cbn [b64_encode]; try (destruct pad; reflexivity).
  cbn [List.length] in *. rewrite (IH (n - 3)%nat) with (s := r) by lia. destruct pad.
  - replace (S (S (S (List.length r))) + 2)%nat with (List.length r + 2 + 1 * 3)%nat by lia.
    rewrite Nat.div_add by discriminate. lia.
  - replace (4 * S (S (S (List.length r))) + 2)%nat with (4 * List.length r + 2 + 4 * 3)%nat by lia.
    rewrite Nat.div_add by discriminate. lia.
Qed.

Lemma base64_size_url bytes text : base64_text url_alphabet false bytes text ->
  (List.length text = (4 * List.length bytes + 2) / 3)%nat.
Proof. rewrite base64_text_url. intros ->. exact (encode_size alpha_url false _ bytes (le_n _)). Qed.
Lemma base64_size_std bytes text : base64_text std_alphabet true bytes text ->
  (List.length text = 4 * ((List.length bytes + 2) / 3))%nat.
Proof. rewrite base64_text_std. intros ->. exact (encode_size alpha_std true _ bytes (le_n _)). Qed.

Lemma encoded_size c t : cfp_encode c = Ok (Encoded t) ->
  (List.length t = (4 * List.length (cfp_to_json c) + 2) / 3)%nat.
Proof.
  unfold cfp_encode, cfp_to_json. destruct c; intros E; try discriminate E; injection E as <-;
    exact (encode_size alpha_url false _ _ (le_n _)).
Qed.

(* ---------------- what is written ---------------- *)

Lemma escape_size c : (1 <= List.length (escape_byte c) <= 6)%nat.
Proof.
  unfold escape_byte. repeat (match goal with |- context [if ?b then _ else _] => destruct b end; cbn [List.length]; try lia).
Qed.
Lemma string_size s : (List.length s + 2 <= List.length (print_str s) <= 6 * List.length s + 2)%nat.
Proof.
  unfold print_str. cbn [List.length]. rewrite app_length. cbn [List.length].
  enough (List.length s <= List.length (flat_map escape_byte s) <= 6 * List.length s)%nat by lia.
  induction s as [|c s IH]; cbn [flat_map List.length]; [lia|]. rewrite app_length. pose proof (escape_size c). lia.
Qed.

Lemma join_size (l : list str) : (List.length (join (lit ",") l) <= list_sum (map (fun s => S (List.length s)) l))%nat.
Proof.
  induction l as [|s [|s' l] IH]; [cbn; lia|cbn; lia|].
  change (join (lit ",") (s :: s' :: l)) with (s ++ lit "," ++ join (lit ",") (s' :: l)).
  rewrite !app_length. change (List.length (lit ",")) with 1%nat.
  change (list_sum (map (fun s => S (List.length s)) (s :: s' :: l)))
    with (S (List.length s) + list_sum (map (fun s => S (List.length s)) (s' :: l)))%nat. lia.
Qed.
Lemma sum_cons x l : list_sum (x :: l) = (x + list_sum l)%nat.
Proof. reflexivity. Qed.
Lemma sum_le {A} (f g : A -> nat) l : (forall x, In x l -> f x <= g x)%nat -> (list_sum (map f l) <= list_sum (map g l))%nat.
Proof.
  intros H. induction l as [|x l IH]; [reflexivity|]. cbn [map]. rewrite !sum_cons.
  pose proof (H x (or_introl eq_refl)). specialize (IH (fun y I => H y (or_intror I))). lia.
Qed.
Lemma sum_add {A} (f g : A -> nat) l : (list_sum (map (fun x => f x + g x) l) = list_sum (map f l) + list_sum (map g l))%nat.
Proof. induction l as [|x l IH]; [reflexivity|]. cbn [map]. rewrite !sum_cons. lia. Qed.
Lemma sum_mul {A} (f : A -> nat) k l : (list_sum (map (fun x => k * f x) l) = k * list_sum (map f l))%nat.
Proof. induction l as [|x l IH]; [cbn; lia|]. cbn [map]. rewrite !sum_cons. lia. Qed.

Lemma int_size z : json_any (JInt z) -> (List.length (print (JInt z)) <= 20)%nat.
Proof.
  intros J. inversion J as [| |z' R| | | |]; subst.
  pose proof (print_compact (JInt z)) as C. inversion C as [| | |z' s [(P & D)|(P & t & E & D)]| | | | | |]; subst.
  + assert (List.length (print (JInt z)) <= 20)%nat; [|lia]. eapply decimal_length; [exact D| |lia].
    change (10 ^ N.of_nat 20) with 100000000000000000000. change (2 ^ 64)%Z with 18446744073709551616%Z in R. lia.
  + cbn [print] in *. rewrite E. cbn [List.length]. assert (List.length t <= 19)%nat; [|lia].
    eapply decimal_length; [exact D| |lia].
    change (10 ^ N.of_nat 19) with 10000000000000000000. change (- 2 ^ 63)%Z with (-9223372036854775808)%Z in R. lia.
Qed.
Lemma written_size j : json_any j -> (List.length (print j) + 4 <= 6 * letters j + 28 * values j)%nat.
Proof.
  induction j as [|b|z|t|s|l IH|m IH] using json_ind'; intros J.
  - apply Nat.leb_le. reflexivity.
  - destruct b; apply Nat.leb_le; reflexivity.
  - cbn [letters values]. pose proof (int_size z J). lia.
  - cbn [print letters values]. inversion J as [| | |t' F| | |]; subst. pose proof (f64_length t F). lia.
  - cbn [print letters values]. pose proof (string_size s). lia.
  - cbn [print letters values]. inversion J as [| | | | |l' F|]; subst. rewrite !app_length.
    change (List.length (lit "[")) with 1%nat. change (List.length (lit "]")) with 1%nat.
    pose proof (join_size (map print l)) as Q. rewrite map_map in Q. rewrite Forall_forall in IH.
    assert (list_sum (map (fun x => S (List.length (print x))) l) <= list_sum (map (fun x => 6 * letters x + 28 * values x) l))%nat as B.
    { apply sum_le. intros x I. specialize (IH x I (F x I)). lia. }
    rewrite sum_add, !sum_mul in B. lia.
  - cbn [print letters values]. inversion J as [| | | | | |m' K F]; subst. rewrite !app_length.
    change (List.length (lit "{")) with 1%nat. change (List.length (lit "}")) with 1%nat.
    pose proof (join_size (map (fun kv => print_str (fst kv) ++ lit ":" ++ print (snd kv)) m)) as Q. rewrite map_map in Q.
    rewrite Forall_forall in IH.
    assert (list_sum (map (fun kv => S (List.length (print_str (fst kv) ++ lit ":" ++ print (snd kv)))) m)
      <= list_sum (map (fun kv : str * json => 6 * (List.length (fst kv) + letters (snd kv)) + 28 * values (snd kv)) m))%nat as B.
    { apply sum_le. intros [k x] I. cbn [fst snd]. specialize (IH (k, x) I (F k x I)). cbn [snd] in IH.
      rewrite !app_length. change (List.length (lit ":")) with 1%nat. pose proof (string_size k). lia. }
    rewrite sum_add, !sum_mul in B. lia.
Qed.

(* ---------------- what is read ---------------- *)

Lemma unit_length h u : hex_unit h u -> List.length h = 4%nat /\ u < 65536.
Proof.
  intros [a b c d w x y z A B C D]. split; [reflexivity|].
  unfold hex_digit in *. assert (w < 16) by lia. assert (x < 16) by lia. assert (y < 16) by lia. assert (z < 16) by lia. lia.
Qed.
Lemma utf8_length u bytes : utf8_char u bytes -> (List.length bytes <= 4)%nat.
Proof. intros [a H|c a b H A B|c a b d H A B D|c a b d e H A B D E]; cbn [List.length]; lia. Qed.
Lemma chars_size w t v : string_chars w t v -> (List.length v <= List.length t)%nat.
Proof.
  intros H. induction H as [|c t v _ _ _ H IH|e c t v _ H IH|h u bytes t v U _ B H IH|h hi l lo bytes t v _ Hi _ Lo _ B H IH];
    cbn [List.length]; rewrite ?app_length; cbn [List.length]; rewrite ?app_length; try lia.
  - apply unit_length in U as (U & _). apply utf8_length in B. lia.
  - apply unit_length in Hi as (Hi & _). apply unit_length in Lo as (Lo & _). apply utf8_length in B. lia.
Qed.
Lemma text_size w s v : string_text w s v -> (List.length v + 2 <= List.length s)%nat.
Proof.
  intros [t v' H _]. apply chars_size in H. cbn [List.length]. rewrite app_length. cbn [List.length]. lia.
Qed.
Lemma parts_length s neg int frac exp : number_parts s neg int frac exp -> (1 <= List.length s)%nat.
Proof. intros (-> & _ & (N & _) & _). rewrite !app_length. destruct int; [congruence|]. cbn [List.length]. lia. Qed.
Lemma number_size w s j : number_text w s j -> (1 <= List.length s)%nat /\ letters j = O /\ values j = 1%nat.
Proof.
  intros [d ((N & _) & _) _|d ((N & _) & _) _|s' t _ B|s' _ B]; repeat split.
  - destruct d; [congruence|cbn [List.length]; lia].
  - cbn [List.length]. lia.
  - destruct B as (neg & int & frac & exp & x & P & _). exact (parts_length _ _ _ _ _ P).
  - destruct B as (neg & int & frac & exp & P & _). exact (parts_length _ _ _ _ _ P).
Qed.

Lemma texts_size :
  (forall w sh n s j, value_text w sh n s j -> values j + letters j <= List.length s)%nat
  /\ (forall w sh i n s l, elements_text w sh i n s l ->
        list_sum (map values l) + list_sum (map letters l) <= List.length s)%nat
  /\ (forall w sh n s m, members_text w sh n s m ->
        list_sum (map (fun kv : str * json => values (snd kv)) m)
        + list_sum (map (fun kv : str * json => List.length (fst kv) + letters (snd kv)) m) <= List.length s)%nat.
Proof.
  assert (list_sum [] = 0)%nat as Nil by reflexivity.
  apply texts_ind; intros; cbn [values letters map fst snd] in *; rewrite ?sum_cons, ?Nil in *;
    repeat (rewrite ?app_length in *; cbn [List.length] in *);
    repeat match goal with
           | H : string_text _ _ _ |- _ => apply text_size in H
           | H : number_text _ _ _ |- _ => apply number_size in H
           end; try lia; apply Nat.leb_le; reflexivity.
Qed.

Lemma read_size sh s j : parse_doc sh s = Some j -> (values j + letters j <= List.length s)%nat.
Proof.
  rewrite parse_doc_iff. intros (a & t & b & -> & _ & _ & V). apply (proj1 texts_size) in V. rewrite !app_length. lia.
Qed.

Lemma spelled_size s j : rfc8259_text s j -> (values j + letters j <= List.length s)%nat.
Proof.
  intros (n & a & t & b & -> & _ & _ & V). apply (proj1 texts_size) in V. rewrite !app_length. lia.
Qed.
Lemma spelt_any j : forall n, spelt Whole n j -> json_any j.
Proof.
  induction j as [|b|z|t|s|l IH|m IH] using json_ind'; intros n S.
  - constructor.
  - constructor.
  - constructor. exact (spelt_int _ _ _ S).
  - constructor. exact (spelt_float _ _ _ S).
  - constructor. exact (spelt_str _ _ _ S).
  - constructor. intros x Hx. rewrite Forall_forall in IH. destruct (In_nth_error l x Hx) as (i & Hi).
    destruct (spelt_arr _ _ _ _ _ S Hi) as (n' & _ & S'). exact (IH x Hx n' S').
  - rewrite Forall_forall in IH. constructor; intros k v Hk; destruct (spelt_obj _ _ _ _ _ S Hk) as (n' & _ & K & V);
      [exact K|]. exact (IH (k, v) Hk n' (V Whole eq_refl)).
Qed.
Lemma rewritten_size s j : rfc8259_text s j -> (List.length (print j) <= 28 * List.length s)%nat.
Proof.
  intros H. pose proof (spelled_size s j H) as L. destruct H as (n & a & t & b & _ & _ & _ & V).
  pose proof (written_size j (spelt_any j n (ex_intro _ t V))). lia.
Qed.

Lemma offer_url_length m creds ep a p o url n : create_offer m creds ep a p = Ok (o, url) ->
  counts (fun c => ~ url_unreserved c) (offer_to_json o) n ->
  (List.length url = List.length (offer_url_prefix ep) + List.length (offer_to_json o) + 2 * n)%nat.
Proof.
  intros H C. apply offer_url_size in H as (n' & C' & ->). now rewrite (counts_unique _ _ _ C _ C').
Qed.
Lemma offer_url_bound m creds ep a p o url : create_offer m creds ep a p = Ok (o, url) ->
  (List.length url <= List.length (offer_url_prefix ep) + 3 * List.length (offer_to_json o))%nat.
Proof. intros H. apply offer_url_size in H as (n & C & ->). apply counts_le in C. lia. Qed.
Lemma base64_lengths bytes :
  List.length (base64_encode bytes) = (4 * ((List.length bytes + 2) / 3))%nat
  /\ List.length (base64url_encode bytes) = ((4 * List.length bytes + 2) / 3)%nat.
Proof. split; [exact (encode_size alpha_std true _ bytes (le_n _))|exact (encode_size alpha_url false _ bytes (le_n _))]. Qed.
Lemma issued_length d now r c n resp t text :
  create_credential_success_response d now r (Some (CTCredential c)) n = Ok (resp, t) ->
  cs_credential resp = Some (Encoded text) ->
  List.length text = ((4 * List.length (cfp_to_json c) + 2) / 3)%nat.
Proof.
  unfold create_credential_success_response. destruct (request_validate d r); try discriminate. cbn [map_err bind].
  destruct (cfp_encode c) as [e|e|] eqn:E; try discriminate. cbn [map_err bind]. intros H.
  injection H as <- _. cbn [cs_credential fst]. intros X. injection X as ->. exact (encoded_size c text E).
Qed.
