(** Both base64 engines are exact codecs. *)
From Coq Require Import Lia ZifyBool ZifyN ZifyNat.
From Verif Require Import Model.Prelude Model.Base64 Proofs.StrFacts.

Ltac Zify.zify_post_hook ::= Z.to_euclidean_division_equations.

Lemma chr_eq n a : n = code a -> chr n = a.
Proof. intros ->. apply chr_code. Qed.

(** What is used of an alphabet. *)
Record alphabet_ok (al : str) : Prop := {
  al_val_char : forall n, n < 64 -> b64_val al (b64_char al n) = Some n;
  al_val_inv : forall c n, b64_val al c = Some n -> n < 64 /\ c = b64_char al n;
  al_pad : b64_val al pad_char = None
}.

Lemma index_of_some c l i n :
  index_of c l i = Some n -> exists k, n = i + N.of_nat k /\ nth_error l k = Some c.
Proof.
  revert i; induction l as [|x l IH]; intros i; simpl; [easy|].
  destruct (Ascii.eqb c x) eqn:E.
  - apply Ascii.eqb_eq in E. intros [= <-]. exists O. subst. split; [lia|reflexivity].
  - intros H. destruct (IH _ H) as (k & -> & Hk). exists (S k). split; [lia|exact Hk].
Qed.

Lemma upto64 (P : N -> bool) :
  forallb P (map N.of_nat (seq 0 64)) = true -> forall n, n < 64 -> P n = true.
Proof.
  intros H n Hn. rewrite forallb_forall in H. apply H.
  apply in_map_iff. exists (N.to_nat n). split; [lia|]. apply in_seq. lia.
Qed.

Lemma alphabet_check al :
  List.length al = 64%nat ->
  forallb (fun n => match b64_val al (b64_char al n) with Some m => m =? n | None => false end)
    (map N.of_nat (seq 0 64)) = true ->
  b64_val al pad_char = None ->
  alphabet_ok al.
Proof.
  intros Hl Hc Hp. constructor; [| |exact Hp].
  - intros n Hn. pose proof (upto64 _ Hc n Hn) as H. cbv beta in H.
    destruct (b64_val al (b64_char al n)); [|discriminate]. apply N.eqb_eq in H. now subst.
  - intros c n H. unfold b64_val in H. apply index_of_some in H. destruct H as (k & -> & Hk).
    assert (k < 64)%nat by (rewrite <- Hl; apply nth_error_Some; congruence).
    split; [lia|]. unfold b64_char. rewrite N.add_0_l, Nat2N.id.
    symmetry. apply nth_error_nth with (d := "A"%char) in Hk. exact Hk.
Qed.

Lemma alpha_std_ok : alphabet_ok alpha_std.
Proof. apply alphabet_check; reflexivity. Qed.

Lemma alpha_url_ok : alphabet_ok alpha_url.
Proof. apply alphabet_check; reflexivity. Qed.

Section Codec.
  Variable al : str.
  Hypothesis Hal : alphabet_ok al.

  Lemma char_not_pad n : n < 64 -> Ascii.eqb (b64_char al n) pad_char = false.
  Proof.
    intros Hn. apply Ascii.eqb_neq. intros E. pose proof (al_val_char al Hal n Hn) as H.
    rewrite E, (al_pad al Hal) in H. discriminate.
  Qed.

  Lemma val_char n : n < 64 -> b64_val al (b64_char al n) = Some n.
  Proof. apply (al_val_char al Hal). Qed.

  Ltac bytes3 a b c :=
    pose proof (code_bound a); pose proof (code_bound b); pose proof (code_bound c).

  Lemma tail2_enc a :
    b64_tail2 al (b64_char al (code a / 4)) (b64_char al ((code a mod 4) * 16)) = Some [a].
  Proof.
    pose proof (code_bound a). unfold b64_tail2. rewrite !val_char by lia. cbn [opt_bind].
    replace (((code a mod 4) * 16) mod 16 =? 0) with true by lia.
    do 2 f_equal. apply chr_eq. lia.
  Qed.

  Lemma tail3_enc a b :
    b64_tail3 al (b64_char al (code a / 4)) (b64_char al ((code a mod 4) * 16 + code b / 16))
      (b64_char al ((code b mod 16) * 4)) = Some [a; b].
  Proof.
    pose proof (code_bound a). pose proof (code_bound b).
    unfold b64_tail3. rewrite !val_char by lia. cbn [opt_bind].
    replace (((code b mod 16) * 4) mod 4 =? 0) with true by lia.
    do 2 f_equal; [|f_equal]; apply chr_eq; lia.
  Qed.

  Lemma quad_enc a b c :
    b64_quad al (b64_char al (code a / 4)) (b64_char al ((code a mod 4) * 16 + code b / 16))
      (b64_char al ((code b mod 16) * 4 + code c / 64)) (b64_char al (code c mod 64))
    = Some [a; b; c].
  Proof.
    bytes3 a b c. unfold b64_quad. rewrite !val_char by lia. cbn [opt_bind].
    do 2 f_equal; [|f_equal; [|f_equal]]; apply chr_eq; lia.
  Qed.

  Lemma list3_ind (P : str -> Prop) :
    P [] -> (forall a, P [a]) -> (forall a b, P [a; b]) ->
    (forall a b c r, P r -> P (a :: b :: c :: r)) -> forall s, P s.
  Proof.
    intros H0 H1 H2 H3.
    assert (forall s, P s /\ (forall a, P (a :: s)) /\ (forall a b, P (a :: b :: s))) as H.
    { induction s as [|x s (I1 & I2 & I3)]; [auto|].
      split; [auto|]. split; [auto|]. intros a b. now apply H3. }
    intros s. apply (H s).
  Qed.

  Lemma list4_ind (P : str -> Prop) :
    P [] -> (forall a, P [a]) -> (forall a b, P [a; b]) -> (forall a b c, P [a; b; c]) ->
    (forall a b c d r, P r -> P (a :: b :: c :: d :: r)) -> forall s, P s.
  Proof.
    intros H0 H1 H2 H3 H4.
    assert (forall s, P s /\ (forall a, P (a :: s)) /\ (forall a b, P (a :: b :: s))
                      /\ (forall a b c, P (a :: b :: c :: s))) as H.
    { induction s as [|x s (I1 & I2 & I3 & I4)]; [auto|].
      split; [auto|]. split; [auto|]. split; [auto|]. intros a b c. now apply H4. }
    intros s. apply (H s).
  Qed.

  Lemma decode_encode_nopad s : b64_decode_nopad al (b64_encode al false s) = Some s.
  Proof.
    induction s using list3_ind; cbn [b64_encode app b64_decode_nopad].
    - reflexivity.
    - apply tail2_enc.
    - apply tail3_enc.
    - rewrite quad_enc, IHs. reflexivity.
  Qed.

  Lemma decode_encode_pad s : b64_decode_pad al (b64_encode al true s) = Some s.
  Proof.
    induction s using list3_ind; cbn [b64_encode app].
    - reflexivity.
    - cbn [b64_decode_pad]. apply tail2_enc.
    - cbn [b64_decode_pad]. pose proof (code_bound b).
      rewrite char_not_pad by lia. apply tail3_enc.
    - cbn [b64_decode_pad]. destruct (b64_encode al true s) as [|e r] eqn:E.
      + pose proof (code_bound c). rewrite char_not_pad by lia. rewrite quad_enc.
        cbn [b64_decode_pad] in IHs. injection IHs as <-. reflexivity.
      + rewrite quad_enc, IHs. reflexivity.
  Qed.

  Lemma val_inv c n : b64_val al c = Some n -> n < 64 /\ c = b64_char al n.
  Proof. apply (al_val_inv al Hal). Qed.

  Ltac inv_val H :=
    match type of H with
    | opt_bind (b64_val al ?c) _ = _ =>
        let n := fresh "n" in let E := fresh "E" in
        destruct (b64_val al c) as [n|] eqn:E; [|discriminate];
        apply val_inv in E; destruct E as [? ->]; cbn [opt_bind] in H
    end.

  Lemma tail2_inv w x s :
    b64_tail2 al w x = Some s ->
    exists a, s = [a] /\ [w; x] = [b64_char al (code a / 4); b64_char al ((code a mod 4) * 16)].
  Proof.
    unfold b64_tail2. intros H. do 2 inv_val H.
    destruct (n0 mod 16 =? 0) eqn:E; [|discriminate]. injection H as <-.
    eexists. split; [reflexivity|]. rewrite !code_chr by lia.
    f_equal; [f_equal; lia|]. f_equal. f_equal. lia.
  Qed.

  Lemma tail3_inv w x y s :
    b64_tail3 al w x y = Some s ->
    exists a b, s = [a; b] /\
      [w; x; y] = [b64_char al (code a / 4); b64_char al ((code a mod 4) * 16 + code b / 16);
                   b64_char al ((code b mod 16) * 4)].
  Proof.
    unfold b64_tail3. intros H. do 3 inv_val H.
    destruct (n1 mod 4 =? 0) eqn:E; [|discriminate]. injection H as <-.
    do 2 eexists. split; [reflexivity|]. rewrite !code_chr by lia.
    f_equal; [f_equal; lia|]. f_equal; [f_equal; lia|]. f_equal. f_equal. lia.
  Qed.

  Lemma quad_inv w x y z s :
    b64_quad al w x y z = Some s ->
    exists a b c, s = [a; b; c] /\
      [w; x; y; z] = [b64_char al (code a / 4); b64_char al ((code a mod 4) * 16 + code b / 16);
                   b64_char al ((code b mod 16) * 4 + code c / 64); b64_char al (code c mod 64)].
  Proof.
    unfold b64_quad. intros H. do 4 inv_val H. injection H as <-.
    do 3 eexists. split; [reflexivity|]. rewrite !code_chr by lia.
    f_equal; [f_equal; lia|]. f_equal; [f_equal; lia|]. f_equal; [f_equal; lia|].
    f_equal. f_equal. lia.
  Qed.

  Lemma decode_nopad_inv t s : b64_decode_nopad al t = Some s -> t = b64_encode al false s.
  Proof.
    revert s; induction t using list4_ind; intros s; cbn [b64_decode_nopad].
    - intros [= <-]. reflexivity.
    - discriminate.
    - intros H. apply tail2_inv in H. destruct H as (x & -> & ->). reflexivity.
    - intros H. apply tail3_inv in H. destruct H as (x & y & -> & ->). reflexivity.
    - intros H. destruct (b64_quad al a b c d) as [q|] eqn:Eq; [|discriminate].
      apply quad_inv in Eq. destruct Eq as (x & y & z & -> & Hq).
      injection Hq as -> -> -> ->. cbn [opt_bind] in H.
      destruct (b64_decode_nopad al t) as [u|] eqn:Eu; [|discriminate].
      injection H as <-. cbn [app b64_encode]. do 4 f_equal. now apply IHt.
  Qed.

  Lemma decode_pad_inv t s : b64_decode_pad al t = Some s -> t = b64_encode al true s.
  Proof.
    revert s; induction t using list4_ind; intros s; cbn [b64_decode_pad].
    - intros [= <-]. reflexivity.
    - discriminate.
    - discriminate.
    - discriminate.
    - destruct t as [|e r].
      + destruct (Ascii.eqb d pad_char) eqn:Ed; [apply Ascii.eqb_eq in Ed; subst d;
          destruct (Ascii.eqb c pad_char) eqn:Ec; [apply Ascii.eqb_eq in Ec; subst c|]|].
        * intros H. apply tail2_inv in H. destruct H as (x & -> & H). injection H as -> ->. reflexivity.
        * intros H. apply tail3_inv in H. destruct H as (x & y & -> & H).
          injection H as -> -> ->. reflexivity.
        * intros H. apply quad_inv in H. destruct H as (x & y & z & -> & H).
          injection H as -> -> -> ->. reflexivity.
      + intros H. destruct (b64_quad al a b c d) as [q|] eqn:Eq; [|discriminate].
        apply quad_inv in Eq. destruct Eq as (x & y & z & -> & Hq).
        injection Hq as -> -> -> ->. cbn [opt_bind] in H.
        destruct (b64_decode_pad al (e :: r)) as [u|] eqn:Eu; [|discriminate].
        injection H as <-. cbn [app b64_encode]. do 4 f_equal. now apply IHt.
  Qed.

  (** Every character of an encoding is in the alphabet or is padding. *)
  Lemma encode_chars pad s c :
    In c (b64_encode al pad s) -> (exists n, n < 64 /\ c = b64_char al n) \/ (pad = true /\ c = pad_char).
  Proof.
    induction s using list3_ind; cbn [b64_encode app].
    - easy.
    - pose proof (code_bound a). destruct pad; simpl; intros H0;
        repeat (destruct H0 as [<-|H0]); try (now right); try (left; eexists; split; [|reflexivity]; lia);
        easy.
    - pose proof (code_bound a); pose proof (code_bound b). destruct pad; simpl; intros H1;
        repeat (destruct H1 as [<-|H1]); try (now right); try (left; eexists; split; [|reflexivity]; lia);
        easy.
    - bytes3 a b c0. simpl. intros H2.
      repeat (destruct H2 as [<-|H2]); try (left; eexists; split; [|reflexivity]; lia). auto.
  Qed.
End Codec.

Lemma base64url_decode_encode s : base64url_decode (base64url_encode s) = Some s.
Proof. apply decode_encode_nopad, alpha_url_ok. Qed.

Lemma base64_decode_encode s : base64_decode (base64_encode s) = Some s.
Proof. apply decode_encode_pad, alpha_std_ok. Qed.

Lemma base64url_decode_inv t s : base64url_decode t = Some s -> t = base64url_encode s.
Proof. apply decode_nopad_inv, alpha_url_ok. Qed.

Lemma base64_decode_inv t s : base64_decode t = Some s -> t = base64_encode s.
Proof. apply decode_pad_inv, alpha_std_ok. Qed.

Lemma base64url_decode_iff t s : base64url_decode t = Some s <-> t = base64url_encode s.
Proof. split; [apply base64url_decode_inv|intros ->; apply base64url_decode_encode]. Qed.

Lemma base64_decode_iff t s : base64_decode t = Some s <-> t = base64_encode s.
Proof. split; [apply base64_decode_inv|intros ->; apply base64_decode_encode]. Qed.

(** A base64url text contains only letters, digits, [-] and [_]. *)
Definition is_b64url_char (c : ascii) : bool :=
  let n := code c in
  ((48 <=? n) && (n <=? 57)) || ((65 <=? n) && (n <=? 90)) || ((97 <=? n) && (n <=? 122))
  || (n =? 45) || (n =? 95).

Lemma base64url_chars s : forallb is_b64url_char (base64url_encode s) = true.
Proof.
  rewrite forallb_forall. intros c H. apply encode_chars in H.
  destruct H as [(n & Hn & ->)|[? _]]; [|discriminate].
  apply (upto64 (fun n => is_b64url_char (b64_char alpha_url n))); [reflexivity|exact Hn].
Qed.

Lemma base64url_no_dot s : ~ In "."%char (base64url_encode s).
Proof.
  intros H. pose proof (base64url_chars s) as B. rewrite forallb_forall in B.
  specialize (B _ H). discriminate.
Qed.

Lemma base64url_length s :
  (List.length (base64url_encode s) * 3 <= List.length s * 4 + 2 * 3
   /\ List.length s * 4 <= List.length (base64url_encode s) * 3)%nat.
Proof.
  unfold base64url_encode. induction s using list3_ind; simpl; lia.
Qed.
