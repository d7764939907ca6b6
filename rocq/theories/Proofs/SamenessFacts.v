(** Sameness is an equivalence, and survives JSON. *)
From Coq Require Import Lia QArith.
From Verif Require Import Model.Prelude Model.Json Model.Types Model.Serde Model.Wire Model.Equality
  Spec SpecNumber SpecJson SpecWire SpecRelay SpecEquality SpecResults Model.AccessToken Model.CredentialIssuer
  Proofs.StrFacts Proofs.NumberValues Proofs.NumberAgain Proofs.WireFacts Proofs.RelayFacts Proofs.RenumberFacts
  Proofs.EqualityFacts Proofs.ResultFacts.
Open Scope N_scope.

(* ---------------- an equivalence ---------------- *)

Definition equivalence {A : Type} (R : A -> A -> Prop) (P : A -> Prop) : Prop :=
  (forall a, P a -> R a a) /\ (forall a b, R a b -> R b a)
  /\ (forall a b c, P a -> P b -> P c -> R a b -> R b c -> R a c).

Lemma eq_equivalence {A} (P : A -> Prop) : equivalence eq P.
Proof. repeat split; intros; congruence. Qed.

Lemma number_equivalence : equivalence same_number f64_text.
Proof.
  split; [|split].
  - intros a H. apply float_eqb_same; auto. unfold float_eqb. apply Bool.orb_true_iff. left. now apply str_eqb_eq.
  - intros a b (p & q & H & H' & E). exists q, p. repeat split; auto. now symmetry.
  - intros a b c Pa Pb Pc H H'. apply float_eqb_same in H; [|assumption..]. apply float_eqb_same in H'; [|assumption..].
    apply float_eqb_same; [assumption..|]. unfold float_eqb in *.
    rewrite Bool.orb_true_iff, Bool.andb_true_iff, str_eqb_eq in *.
    destruct H as [<-|[H1 H2]], H' as [<-|[H3 H4]]; auto.
Qed.

Lemma opt_equivalence {A} (R : A -> A -> Prop) P : equivalence R P -> equivalence (opt_rel R) (on_some P).
Proof.
  intros (H1 & H2 & H3). split; [|split].
  - intros [a|] H; constructor. apply H1. now apply H.
  - intros a b []; constructor. auto.
  - intros a b c Pa Pb Pc H H'. destruct H as [|a b H]; [exact H'|]. inversion H' as [|? c' H'']; subst. constructor.
    apply (H3 a b c'); auto.
Qed.
Lemma forall2_equivalence {A} (R : A -> A -> Prop) P : equivalence R P -> equivalence (Forall2 R) (Forall P).
Proof.
  intros (H1 & H2 & H3). split; [|split].
  - intros l. induction 1; constructor; auto.
  - induction 1; constructor; auto.
  - intros a b c Pa Pb Pc H. revert c Pc Pa Pb. induction H as [|x y a b H HH IH]; intros c Pc Pa Pb H'; [exact H'|].
    inversion H' as [|? z ? c' Hz Hc]; subst. inversion_clear Pa. inversion_clear Pb. inversion_clear Pc.
    constructor; [now apply (H3 x y z)|now apply IH].
Qed.
Lemma map_equivalence {V} (R : V -> V -> Prop) P : equivalence R P -> equivalence (same_map R) (hmap_ok P).
Proof.
  intros (H1 & H2 & H3). split; [|split].
  - intros m [_ H]. split; intros k x I; exists x; (split; [exact I|]); apply H1; apply (H k x I).
  - intros a b [A B]. split; intros k x I.
    + destruct (B k x I) as (y & I' & Q). exists y. auto.
    + destruct (A k x I) as (y & I' & Q). exists y. auto.
  - intros a b c [_ Pa] [_ Pb] [_ Pc] [A B] [A' B']. split; intros k x I.
    + destruct (A k x I) as (y & I' & Q). destruct (A' k y I') as (z & I'' & Q'). exists z. split; [exact I''|].
      apply (H3 x y z); [apply (Pa k x I)|apply (Pb k y I')|apply (Pc k z I'')|exact Q|exact Q'].
    + destruct (B' k x I) as (y & I' & Q). destruct (B k y I') as (z & I'' & Q'). exists z. split; [exact I''|].
      apply (H3 z y x); [apply (Pa k z I'')|apply (Pb k y I')|apply (Pc k x I)|exact Q'|exact Q].
Qed.

Lemma value_refl n : forall a, (json_size a < n)%nat -> json_any a -> same_value a a.
Proof.
  induction n as [|n IH]; intros a L H; [lia|]. destruct H as [|b|z|t H|s H|l H|m Hk H]; constructor.
  - exact (proj1 number_equivalence t H).
  - assert (forall x, In x l -> same_value x x) as G.
    { intros x I. apply IH; [|auto]. cbn [json_size] in L. pose proof (sum_in json_size l x I). lia. }
    clear -G. induction l; constructor; auto with datatypes.
  - assert (forall k x, In (k, x) m -> same_value x x) as G.
    { intros k x I. apply IH; [|eauto]. cbn [json_size] in L.
      pose proof (sum_in (fun kv => json_size (snd kv)) m (k, x) I) as S. cbn [snd] in S. lia. }
    clear -G. induction m as [|[k x] m IH]; constructor; [split; [reflexivity|]; apply (G k); now left|].
    apply IH. intros k' x' I. apply (G k'). now right.
Qed.
Lemma value_sym n : forall a b, (json_size a < n)%nat -> same_value a b -> same_value b a.
Proof.
  induction n as [|n IH]; intros a b L H; [lia|]. destruct H as [|x|z|s t H|s|l l' H|m m' H]; try constructor.
  - exact (proj1 (proj2 number_equivalence) s t H).
  - assert (forall x y, In x l -> same_value x y -> same_value y x) as G.
    { intros x y I Q. apply (IH x y); [|exact Q]. cbn [json_size] in L. pose proof (sum_in json_size l x I). lia. }
    clear L. induction H as [|x y l l' Q H IHl]; constructor; [apply G; [now left|exact Q]|].
    apply IHl. intros x0 y0 I. apply G. now right.
  - assert (forall k x y, In (k, x) m -> same_value x y -> same_value y x) as G.
    { intros k x y I Q. apply (IH x y); [|exact Q]. cbn [json_size] in L.
      pose proof (sum_in (fun kv => json_size (snd kv)) m (k, x) I) as S. cbn [snd] in S. lia. }
    clear L. induction H as [|[k x] [k' y] l l' [Q Q'] H IHl]; constructor; cbn [fst snd] in *.
    + split; [now symmetry|]. apply (G k); [now left|exact Q'].
    + apply IHl. intros k0 x0 y0 I. apply (G k0). now right.
Qed.
Lemma value_trans n : forall a b c, (json_size a < n)%nat -> json_any a -> json_any b -> json_any c ->
  same_value a b -> same_value b c -> same_value a c.
Proof.
  induction n as [|n IH]; intros a b c L Pa Pb Pc H H'; [lia|]. destruct H as [|x|z|s t H|s|l l' H|m m' H]; try exact H'.
  - inversion H' as [| | |? u H''| | |]; subst. constructor.
    inversion Pa; inversion Pb; inversion Pc; subst. now apply (proj2 (proj2 number_equivalence) s t u).
  - inversion H' as [| | | | |? l'' H''|]; subst. constructor.
    inversion Pa as [| | | | |? A|]; inversion Pb as [| | | | |? B|]; inversion Pc as [| | | | |? C|]; subst.
    assert (forall x y z, In x l -> json_any y -> json_any z -> same_value x y -> same_value y z -> same_value x z) as G.
    { intros x y z I Py Pz. apply IH; auto. cbn [json_size] in L. pose proof (sum_in json_size l x I). lia. }
    clear L Pa Pb Pc H' A. revert l'' H'' C. induction H as [|x y l l' Q H IHl]; intros l'' H'' C; [exact H''|].
    inversion H'' as [|? z ? l3 Q' H3]; subst. constructor.
    + apply (G x y z); auto with datatypes.
    + apply IHl; auto with datatypes. intros x0 y0 z0 I. apply G. now right.
  - inversion H' as [| | | | | |? m'' H'']; subst. constructor.
    inversion Pa as [| | | | | |? _ A]; inversion Pb as [| | | | | |? _ B]; inversion Pc as [| | | | | |? _ C]; subst.
    assert (forall k x y z, In (k, x) m -> json_any y -> json_any z -> same_value x y -> same_value y z -> same_value x z) as G.
    { intros k x y z I Py Pz. apply IH; eauto. cbn [json_size] in L.
      pose proof (sum_in (fun kv => json_size (snd kv)) m (k, x) I) as S. cbn [snd] in S. lia. }
    clear L Pa Pb Pc H' A. revert m'' H'' C. induction H as [|[k x] [k' y] l l' [Q1 Q2] H IHl]; intros m'' H'' C; [exact H''|].
    inversion H'' as [|? [k3 z] ? l3 [Q3 Q4] H3]; subst. cbn [fst snd] in *. constructor; cbn [fst snd].
    + split; [congruence|]. apply (G k x y z); [now left|apply (B k'); now left|apply (C k3); now left|exact Q2|exact Q4].
    + apply IHl.
      * intros k0 v I. apply (B k0). now right.
      * intros k0 x0 y0 z0 I. apply (G k0). now right.
      * exact H3.
      * intros k0 v I. apply (C k0). now right.
Qed.
Lemma value_equivalence : equivalence same_value held.
Proof.
  split; [|split].
  - intros a [H _]. apply (value_refl (S (json_size a))); [apply le_n|exact H].
  - intros a b. apply (value_sym (S (json_size a))). apply le_n.
  - intros a b c [Pa _] [Pb _] [Pc _]. apply (value_trans (S (json_size a))); [apply le_n|assumption..].
Qed.

Lemma context_equivalence : equivalence same_context (ld_context_with held).
Proof.
  destruct (map_equivalence _ _ value_equivalence) as (H1 & H2 & H3). split; [|split].
  - intros [s|m] H; constructor. now apply H1.
  - intros a b []; constructor. now apply H2.
  - intros a b c Pa Pb Pc H H'. destruct H as [s|m m' H]; [exact H'|]. inversion H'; subst. constructor. eapply H3; eauto.
Qed.
Definition subjects_equivalence :=
  opt_equivalence _ _ (map_equivalence (@eq credential_subject) subject_ok (eq_equivalence subject_ok)).

Lemma credential_equivalence : equivalence same_credential (cfp_with held).
Proof.
  destruct (forall2_equivalence _ _ context_equivalence) as (C1 & C2 & C3).
  destruct subjects_equivalence as (S1 & S2 & S3). split; [|split].
  - intros [ty su od|ty su od|cx ty su od|dt cl od] H; cbn [cfp_with] in H; decompose [and] H; constructor; auto.
  - intros a b []; constructor; auto.
  - intros a b c Pa Pb Pc H H'. destruct H; inversion H'; subst; cbn [cfp_with] in *;
      decompose [and] Pa; decompose [and] Pb; decompose [and] Pc; constructor; eauto.
Qed.
Lemma offered_equivalence : equivalence same_offered (credential_or_id_with held).
Proof.
  destruct credential_equivalence as (H1 & H2 & H3). split; [|split].
  - intros [s|c] H; constructor. now apply H1.
  - intros a b []; constructor. now apply H2.
  - intros a b c Pa Pb Pc H H'. destruct H; [exact H'|]. inversion H'; subst. constructor. eapply H3; eauto.
Qed.
Lemma issued_equivalence : equivalence same_issued (cfp_or_encoded_with held).
Proof.
  destruct credential_equivalence as (H1 & H2 & H3). split; [|split].
  - intros [c|s] H; constructor. now apply H1.
  - intros a b []; constructor. now apply H2.
  - intros a b c Pa Pb Pc H H'. destruct H; [|exact H']. inversion H'; subst. constructor. eapply H3; eauto.
Qed.
Lemma offer_equivalence : equivalence same_offer (offer_with held).
Proof.
  destruct (forall2_equivalence _ _ offered_equivalence) as (H1 & H2 & H3). split; [|split].
  - intros a (_ & H & _). repeat split. now apply H1.
  - intros a b (A & B & C). repeat split; auto.
  - intros a b c (_ & Pa & _) (_ & Pb & _) (_ & Pc & _) (A & B & C) (A' & B' & C'). repeat split; try congruence.
    eapply H3; eauto.
Qed.
Lemma supported_equivalence : equivalence same_supported (supported_with held).
Proof.
  destruct credential_equivalence as (H1 & H2 & H3). split; [|split].
  - intros a (H & _). repeat split. now apply H1.
  - intros a b (A & B & C & D & E). repeat split; auto.
  - intros a b c (Pa & _) (Pb & _) (Pc & _) (A & B & C & D & E) (A' & B' & C' & D' & E'). repeat split; try congruence.
    eapply H3; eauto.
Qed.
Lemma response_equivalence : equivalence same_response (credential_success_with held).
Proof.
  destruct (opt_equivalence _ _ issued_equivalence) as (H1 & H2 & H3). split; [|split].
  - intros a (_ & H & _). repeat split. now apply H1.
  - intros a b (A & B & C & D & E). repeat split; auto.
  - intros a b c (_ & Pa & _) (_ & Pb & _) (_ & Pc & _) (A & B & C & D & E) (A' & B' & C' & D' & E').
    repeat split; try congruence. eapply H3; eauto.
Qed.

(** The same for a comparison that decides such a relation. *)
Lemma eqb_equivalence {A} (e : A -> A -> bool) R P : decides e R P -> equivalence R P ->
  (forall a, P a -> e a a = true)
  /\ (forall a b, P a -> P b -> e a b = e b a)
  /\ (forall a b c, P a -> P b -> P c -> e a b = true -> e b c = true -> e a c = true).
Proof.
  intros D (H1 & H2 & H3). split; [|split].
  - intros a H. apply D; auto.
  - intros a b Ha Hb. apply Bool.eq_iff_eq_true. rewrite (D a b Ha Hb), (D b a Hb Ha). split; apply H2.
  - intros a b c Ha Hb Hc. rewrite (D a b Ha Hb), (D b c Hb Hc), (D a c Ha Hc). now apply H3.
Qed.

(* ---------------- documents ---------------- *)

Lemma held_any n v : value_any n v -> held v.
Proof. intros (H & V & _). now split. Qed.

Lemma hmap_impl {V} (P Q : V -> Prop) h : (forall v, P v -> Q v) -> hmap_ok P h -> hmap_ok Q h.
Proof. intros PQ [W H]. split; [exact W|]. intros k v I. destruct (H k v I). auto. Qed.
Lemma cfp_impl (P Q : json -> Prop) c : (forall v, P v -> Q v) -> cfp_with P c -> cfp_with Q c.
Proof.
  intros PQ. destruct c as [ty su od|ty su od|cx ty su od|dt cl od]; try (intros H; exact H). intros [H1 H2]. split; [|exact H2].
  eapply Forall_impl; [|exact H1]. intros [s|h] H; [exact H|]. now apply (hmap_impl P).
Qed.
Lemma offer_impl (P Q : json -> Prop) x : (forall v, P v -> Q v) -> offer_with P x -> offer_with Q x.
Proof.
  intros PQ (H1 & H2 & H3). split; [exact H1|]. split; [|exact H3]. eapply Forall_impl; [|exact H2].
  intros [s|c] H; [exact H|]. now apply (cfp_impl P).
Qed.
Lemma response_impl (P Q : json -> Prop) x : (forall v, P v -> Q v) -> credential_success_with P x -> credential_success_with Q x.
Proof.
  intros PQ (H1 & H2 & H3). split; [exact H1|]. split; [|exact H3]. intros c E. specialize (H2 c E).
  destruct c; [now apply (cfp_impl P)|exact H2].
Qed.

Section Numbers.
Context (r : str -> str) (Hr : rereads r).

Lemma number_again t : f64_text t -> f64_text (r t).
Proof.
  intros (neg & x & Hn & W). apply written_again in W; [|exact Hn]. destruct W as [w W]. rewrite (Hr _ _ W). now apply becomes_f64 with t.
Qed.
Lemma zero_again : r (lit "0.0") = lit "0.0" /\ r (lit "-0.0") = lit "-0.0".
Proof. split; apply Hr, becomes_computed; vm_compute; reflexivity. Qed.
Lemma same_number_again s t : f64_text s -> f64_text t -> same_number s t -> same_number (r s) (r t).
Proof.
  intros Hs Ht H. apply float_eqb_same in H; [|assumption..]. apply float_eqb_same; [now apply number_again..|].
  unfold float_eqb, zero_text in *. rewrite !Bool.orb_true_iff, Bool.andb_true_iff, !Bool.orb_true_iff, !str_eqb_eq in *.
  destruct zero_again as [Z Z']. destruct H as [-> | [[-> | ->] [-> | ->]]]; rewrite ?Z, ?Z'; auto.
Qed.
Lemma any_again n : forall v, (json_size v < n)%nat -> json_any v -> json_any (json_numbers r v).
Proof.
  induction n as [|n IH]; intros v L H; [lia|]. destruct H as [|b|z|t H|s H|l H|m Hk H]; cbn [json_numbers]; constructor; auto.
  - now apply number_again.
  - intros x I. apply in_map_iff in I. destruct I as (y & <- & I). apply IH; [|auto].
    cbn [json_size] in L. pose proof (sum_in json_size l y I). lia.
  - intros k x I. apply in_map_iff in I. destruct I as ([k' y] & [= <- <-] & I). apply (Hk k' y I).
  - intros k x I. apply in_map_iff in I. destruct I as ([k' y] & [= <- <-] & I). apply IH; [|now apply (H k')].
    cbn [json_size] in L. pose proof (sum_in (fun kv => json_size (snd kv)) m (k', y) I) as S. cbn [snd] in *. lia.
Qed.
Lemma held_again v : held v -> held (json_numbers r v).
Proof. intros [H V]. split; [apply (any_again (S (json_size v))); [apply le_n|exact H]|now apply value_numbers]. Qed.

Lemma same_again n : forall a b, (json_size a < n)%nat -> json_any a -> json_any b -> same_value a b ->
  same_value (json_numbers r a) (json_numbers r b).
Proof.
  induction n as [|n IH]; intros a b L Pa Pb H; [lia|].
  destruct H as [|x|z|s t H|s|l l' H|m m' H]; cbn [json_numbers]; try constructor.
  - inversion Pa; inversion Pb; subst. now apply same_number_again.
  - inversion Pa as [| | | | |? A|]; inversion Pb as [| | | | |? B|]; subst.
    assert (forall x y, In x l -> json_any x -> json_any y -> same_value x y -> same_value (json_numbers r x) (json_numbers r y)) as G.
    { intros x y I. apply IH. cbn [json_size] in L. pose proof (sum_in json_size l x I). lia. }
    clear L Pa Pb. induction H as [|x y l l' Q H IHl]; cbn [map]; constructor; [apply G; auto with datatypes|].
    apply IHl; auto with datatypes.
  - inversion Pa as [| | | | | |? _ A]; inversion Pb as [| | | | | |? _ B]; subst.
    assert (forall k x y, In (k, x) m -> json_any x -> json_any y -> same_value x y -> same_value (json_numbers r x) (json_numbers r y)) as G.
    { intros k x y I. apply IH. cbn [json_size] in L.
      pose proof (sum_in (fun kv => json_size (snd kv)) m (k, x) I) as S. cbn [snd] in S. lia. }
    clear L Pa Pb. induction H as [|[k x] [k' y] l l' [Q Q'] H IHl]; cbn [map]; constructor; cbn [fst snd] in *.
    + split; [exact Q|]. apply (G k); [now left|apply (A k); now left|apply (B k'); now left|exact Q'].
    + apply IHl.
      * intros k0 v I. apply (A k0). now right.
      * intros k0 v I. apply (B k0). now right.
      * intros k0 x0 y0 I. apply (G k0). now right.
Qed.
Lemma same_map_again m m' : hmap_ok held m -> hmap_ok held m' -> same_map same_value m m' ->
  same_map same_value (map_numbers r m) (map_numbers r m').
Proof.
  intros [_ P] [_ P'] [A B]. split; intros k x I; apply in_map_iff in I; destruct I as ([k' y] & [= <- <-] & I).
  - destruct (A _ _ I) as (z & I' & Q). exists (json_numbers r z).
    split; [apply in_map_iff; now exists (k', z)|].
    apply (same_again (S (json_size y))); [apply le_n|apply (P _ _ I)|apply (P' _ _ I')|exact Q].
  - destruct (B _ _ I) as (z & I' & Q). exists (json_numbers r z).
    split; [apply in_map_iff; now exists (k', z)|].
    apply (same_again (S (json_size z))); [apply le_n|apply (P _ _ I')|apply (P' _ _ I)|exact Q].
Qed.
Lemma same_credential_again c c' : cfp_with held c -> cfp_with held c' -> same_credential c c' ->
  same_credential (credential_numbers r c) (credential_numbers r c').
Proof.
  intros Pc Pc' H. destruct H as [| |cx cx' ty su su' od H H'|]; cbn [credential_numbers]; constructor; auto.
  destruct Pc as [P _], Pc' as [P' _]. induction H as [|a b l l' Q H IH]; cbn [map]; constructor.
  - inversion_clear P as [|? ? Pa _]. inversion_clear P' as [|? ? Pb _].
    destruct Q; cbn [context_numbers]; constructor. now apply same_map_again.
  - inversion_clear P. inversion_clear P'. now apply IH.
Qed.
Lemma same_offer_again x y : offer_with held x -> offer_with held y -> same_offer x y ->
  same_offer (offer_numbers r x) (offer_numbers r y).
Proof.
  intros (_ & P & _) (_ & P' & _) (A & B & C). split; [exact A|]. split; [|exact C]. cbn [offer_numbers co_credentials].
  clear A C. induction B as [|a b l l' Q H IH]; cbn [map]; constructor.
  - inversion_clear P as [|? ? Pa _]. inversion_clear P' as [|? ? Pb _].
    destruct Q; cbn [offered_numbers]; constructor. now apply same_credential_again.
  - inversion_clear P. inversion_clear P'. now apply IH.
Qed.
Lemma same_response_again x y : credential_success_with held x -> credential_success_with held y -> same_response x y ->
  same_response (response_numbers r x) (response_numbers r y).
Proof.
  intros (_ & P & _) (_ & P' & _) (A & B & C). split; [exact A|]. split; [|exact C]. cbn [response_numbers cs_credential].
  destruct B as [|a b Q]; cbn [option_map]; constructor. specialize (P a eq_refl). specialize (P' b eq_refl).
  destruct Q; cbn [issued_numbers]; constructor. now apply same_credential_again.
Qed.
End Numbers.

Lemma credential_survives x y : cfp_with (value_any 124) x -> cfp_with (value_any 124) y -> cfp_eqb x y = true ->
  exists x' y', cfp_from_json (cfp_to_json x) = Some x' /\ cfp_from_json (cfp_to_json y) = Some y' /\ cfp_eqb x' y' = true.
Proof.
  intros Hx Hy E. exists (credential_numbers reread x), (credential_numbers reread y).
  split; [now apply cfp_rewritten; [apply reread_rereads|]|]. split; [now apply cfp_rewritten; [apply reread_rereads|]|].
  apply (cfp_impl _ held _ (held_any 124)) in Hx, Hy.
  apply cfp_decides; [apply (credential_with_numbers held); [apply held_again, reread_rereads|assumption]..|].
  apply cfp_decides in E; [|assumption..]. now apply same_credential_again; [apply reread_rereads|..].
Qed.
Lemma offer_survives x y : offer_with (value_any 122) x -> offer_with (value_any 122) y -> offer_eqb x y = true ->
  exists x' y', offer_from_json (offer_to_json x) = Some x' /\ offer_from_json (offer_to_json y) = Some y' /\ offer_eqb x' y' = true.
Proof.
  intros Hx Hy E. exists (offer_numbers reread x), (offer_numbers reread y).
  split; [now apply offer_rewritten; [apply reread_rereads|]|]. split; [now apply offer_rewritten; [apply reread_rereads|]|].
  apply (offer_impl _ held _ (held_any 122)) in Hx, Hy.
  apply offer_decides; [apply (offer_with_numbers held); [apply held_again, reread_rereads|assumption]..|].
  apply offer_decides in E; [|assumption..]. now apply same_offer_again; [apply reread_rereads|..].
Qed.
Lemma response_survives x y : credential_success_with (value_any 122) x -> credential_success_with (value_any 122) y ->
  credential_success_eqb x y = true ->
  exists x' y', credential_success_from_json (credential_success_to_json x) = Some x'
    /\ credential_success_from_json (credential_success_to_json y) = Some y' /\ credential_success_eqb x' y' = true.
Proof.
  intros Hx Hy E. exists (response_numbers reread x), (response_numbers reread y).
  split; [now apply success_rewritten; [apply reread_rereads|]|]. split; [now apply success_rewritten; [apply reread_rereads|]|].
  apply (response_impl _ held _ (held_any 122)) in Hx, Hy.
  apply response_decides; [apply (response_with_numbers held); [apply held_again, reread_rereads|assumption]..|].
  apply response_decides in E; [|assumption..]. now apply same_response_again; [apply reread_rereads|..].
Qed.

(** What was read is such a value. *)
Lemma credential_read_held s x : cfp_from_json s = Some x -> cfp_with held x.
Proof.
  intros H. apply cfp_reading in H. destruct H as (v & T & V). apply spelt_text in T.
  exact (cfp_impl _ held x (held_any _) (credential_sound Alone 127 v x T V)).
Qed.
Lemma offer_read_held s x : offer_from_json s = Some x -> offer_with held x.
Proof.
  intros H. apply offer_reading in H. destruct H as (v & T & V). apply spelt_text in T.
  exact (offer_impl _ held x (held_any _) (offer_sound 127 v x T V)).
Qed.
Lemma response_read_held s x : credential_success_from_json s = Some x -> credential_success_with held x.
Proof.
  intros H. apply credential_success_reading in H. destruct H as (v & T & V). apply spelt_text in T.
  exact (response_impl _ held x (held_any _) (success_sound 127 v x T V)).
Qed.

(* ---------------- evaluations ---------------- *)

Lemma equal_offers_grants o o' : offer_eqb o o' = true -> co_grants o = co_grants o'.
Proof. unfold offer_eqb. rewrite Bool.andb_true_iff. intros [_ H]. now apply grants_decides. Qed.
Lemma equal_offers_token r o o' options : offer_eqb o o' = true ->
  evaluate_access_token_request r (Some o) options = evaluate_access_token_request r (Some o') options.
Proof.
  intros H. apply equal_offers_grants in H. apply token_evaluation_looks_at. unfold same_grants. rewrite H.
  split; [reflexivity|]. destruct (og_pre (co_grants o')); auto. split; reflexivity.
Qed.
Lemma equal_offers_credential d now m r o o' asm doc options : offer_eqb o o' = true ->
  evaluate_credential_request d now m r (Some o) asm doc options
  = evaluate_credential_request d now m r (Some o') asm doc options.
Proof.
  intros H. apply equal_offers_grants in H.
  destruct o as [i c g], o' as [i' c' g']. cbn [co_grants] in H. subst g'. reflexivity.
Qed.
