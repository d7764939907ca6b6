(** Proofs about requests that are handled at the same time. *)
From Coq Require Import Lia.
From Verif Require Import Model.Prelude Model.Json Model.Types Model.Deps Model.AccessToken Model.CredentialIssuer
  Spec SpecToken SpecJwt SpecEvaluation SpecRace
  Proofs.TokenFacts Proofs.EvalFacts Proofs.EvalFacts2.

Section Race.
  Context {T X : Type} (key : T -> str) (accepts : T -> X -> Prop).
  Let dec := list_eq_dec ascii_dec.

  Lemma given_app (a b : list (use T X)) : given (a ++ b) = given a ++ given b.
  Proof. induction a as [|[t|t x] a IH]; cbn; congruence. Qed.
  Lemma served_app (a b : list (use T X)) : served (a ++ b) = served a ++ served b.
  Proof. induction a as [|[t|t x] a IH]; cbn; congruence. Qed.
  Lemma in_given (h : list (use T X)) t : In t (given h) <-> In (Given t) h.
  Proof.
    induction h as [|[u|u x] h IH]; cbn; [tauto| |]; rewrite IH.
    - split; intros [H|H]; try tauto; left; congruence.
    - split; [tauto|]. intros [H|H]; [discriminate|exact H].
  Qed.

  Lemma in_without k s t : In t (without key k s) <-> In t s /\ key t <> k.
  Proof.
    unfold without. rewrite filter_In. destruct (list_eq_dec ascii_dec (key t) k); split; intros [A B]; split; auto; try discriminate; congruence.
  Qed.

  Lemma sequential width h store busy :
    racing key accepts ClaimLast width h store busy -> one_at_a_time key accepts h store.
  Proof.
    induction 1; [constructor|now constructor|assumption| |assumption].
    constructor; auto.
  Qed.

  Lemma sequential_racing width h store : (0 < width)%nat ->
    one_at_a_time key accepts h store -> racing key accepts ClaimLast width h store [].
  Proof.
    intros W. induction 1; [constructor|now constructor|].
    apply (race_serve key accepts ClaimLast width h store [] t []); auto.
    apply (race_read key accepts ClaimLast width h store [] t); auto.
  Qed.

  (** What is stored was given out. *)
  Lemma stored_given p width h store busy : racing key accepts p width h store busy ->
    (forall t, In t store -> In t (given h)) /\ (forall t, In t busy -> In t (given h)).
  Proof.
    induction 1 as [|h store busy t R [A B]|h store busy t R [A B] I W|h store b t a x R [A B] V C|h store b t a R [A B]].
    - now split.
    - rewrite given_app. cbn. split; intros u U; apply in_or_app; [destruct U as [<-|U]; [right; now left|left; auto]|left; auto].
    - split.
      + intros u U. destruct p; auto. apply in_without in U. now apply A.
      + intros u [<-|U]; auto.
    - rewrite given_app, app_nil_r. split.
      + intros u U. apply in_without in U. now apply A.
      + intros u U. apply B. rewrite in_app_iff in *. cbn. tauto.
    - split; [exact A|]. intros u U. apply B. rewrite in_app_iff in *. cbn. tauto.
  Qed.

  Definition uses (k : str) (h : list (use T X)) : nat :=
    List.length (filter (fun e => match e with Served t _ => if dec (key t) k then true else false | _ => false end) h).
  Definition held (k : str) (l : list T) : nat :=
    List.length (filter (fun t => if dec (key t) k then true else false) l).

  Lemma uses_app k a b : uses k (a ++ b) = (uses k a + uses k b)%nat.
  Proof. unfold uses. now rewrite filter_app, app_length. Qed.
  Lemma held_app k a b : held k (a ++ b) = (held k a + held k b)%nat.
  Proof. unfold held. now rewrite filter_app, app_length. Qed.
  Lemma held_le k l : (held k l <= List.length l)%nat.
  Proof. unfold held. induction l as [|t l IH]; cbn; [lia|]. destruct (dec _ _); cbn; lia. Qed.
  Lemma held_without k s : held k (without key k s) = 0%nat.
  Proof.
    unfold held, without. induction s as [|t s IH]; cbn; [reflexivity|].
    destruct (list_eq_dec ascii_dec (key t) k) as [E|E]; [exact IH|]. cbn. destruct (dec (key t) k); [contradiction|exact IH].
  Qed.
  Lemma held_without_le k k' s : (held k (without key k' s) <= held k s)%nat.
  Proof.
    unfold held, without. induction s as [|t s IH]; cbn; [lia|].
    destruct (list_eq_dec ascii_dec (key t) k'); cbn; destruct (dec (key t) k); cbn; lia.
  Qed.
  Lemma held_without_other k k' s : k <> k' -> held k (without key k' s) = held k s.
  Proof.
    intros N. unfold held, without. induction s as [|t s IH]; cbn; [reflexivity|].
    destruct (list_eq_dec ascii_dec (key t) k') as [E|E]; cbn; destruct (dec (key t) k) as [E'|E']; cbn; try congruence.
  Qed.
  Lemma held_in k s t : In t s -> key t = k -> (1 <= held k s)%nat.
  Proof.
    intros I E. apply in_split in I as (a & b & ->). rewrite held_app. unfold held at 2. cbn.
    destruct (dec (key t) k); [cbn; lia|contradiction].
  Qed.
  Lemma held_key k t l : held k (t :: l) = ((if dec (key t) k then 1 else 0) + held k l)%nat.
  Proof. unfold held. cbn. now destruct (dec (key t) k). Qed.
  Lemma uses_one k t x : uses k [Served t x] = (if dec (key t) k then 1 else 0)%nat.
  Proof. unfold uses. cbn. now destruct (dec (key t) k). Qed.

  (** Given out once, a thing is stored at most once. *)
  Definition names (h : list (use T X)) : list str := map key (given h).

  Lemma names_in h k : (held k (given h) = 0)%nat <-> ~ In k (names h).
  Proof.
    unfold names. induction (given h) as [|t l IH]; [cbn; tauto|]. rewrite held_key. cbn.
    destruct (dec (key t) k) as [E|E]; [split; [lia|tauto]|]. cbn. rewrite IH. tauto.
  Qed.
  Lemma once_held h k : NoDup (names h) -> (held k (given h) <= 1)%nat.
  Proof.
    unfold names. induction (given h) as [|t l IH]; [cbn; lia|]. cbn [map]. intros N. inversion N as [|? ? N1 N2]; subst.
    rewrite held_key. destruct (dec (key t) k) as [<-|E]; [|cbn; auto].
    assert (held (key t) l = 0)%nat as ->; [|lia].
    clear - N1. induction l as [|u l IH]; [reflexivity|]. rewrite held_key. cbn in N1.
    destruct (dec (key u) (key t)); [tauto|]. cbn. apply IH. tauto.
  Qed.

  (** One atomic claim per thing. *)
  Lemma claimed_once h store k : one_at_a_time key accepts h store ->
    (uses k h + held k store <= held k (given h))%nat.
  Proof.
    induction 1 as [|h store t R IH|h store t x R IH I V].
    - cbn. lia.
    - rewrite uses_app, given_app, held_app, held_key. cbn [given]. rewrite held_key. unfold uses at 2. cbn. lia.
    - rewrite uses_app, uses_one, given_app, app_nil_r. destruct (dec (key t) k) as [<-|E].
      + rewrite held_without. pose proof (held_in _ _ _ I eq_refl). lia.
      + rewrite held_without_other by congruence. lia.
  Qed.

  Lemma taken_once width h store busy k : racing key accepts TakeFirst width h store busy ->
    (uses k h + held k store + held k busy <= held k (given h))%nat.
  Proof.
    induction 1 as [|h store busy t R IH|h store busy t R IH I W|h store b t a x R IH V C|h store b t a R IH].
    - cbn. lia.
    - rewrite uses_app, given_app, held_app, held_key. cbn [given]. rewrite held_key. unfold uses at 2. cbn. lia.
    - rewrite held_key. destruct (dec (key t) k) as [<-|E].
      + rewrite held_without. pose proof (held_in _ _ _ I eq_refl). lia.
      + rewrite held_without_other by congruence. lia.
    - rewrite uses_app, uses_one, given_app, app_nil_r. rewrite held_app, held_key in IH. rewrite held_app.
      pose proof (held_without_le k (key t) store). destruct (dec (key t) k); lia.
    - rewrite held_app, held_key in IH. rewrite held_app. destruct (dec (key t) k); lia.
  Qed.

  (** Without a claim: as often as there are requests in progress. *)
  Lemma busy_width p width h store busy : racing key accepts p width h store busy -> (List.length busy <= width)%nat.
  Proof.
    induction 1; cbn; try lia; rewrite app_length in *; cbn in *; lia.
  Qed.

  Lemma forgotten_late width h store busy k : racing key accepts ForgetAfter width h store busy ->
    NoDup (names h) ->
    (uses k h + held k busy <= width)%nat /\ (uses k h <> 0 -> held k store = 0)%nat
    /\ (held k (given h) = 0 -> uses k h = 0)%nat.
  Proof.
    intros R. pose proof (busy_width _ _ _ _ _ R) as W0. revert W0.
    induction R as [|h store busy t R IH|h store busy t R IH I W|h store b t a x R IH V C|h store b t a R IH]; intros W0 D.
    - cbn. lia.
    - unfold names in D. rewrite given_app, map_app in D.
      assert (D' : NoDup (names h)) by (unfold names; apply NoDup_remove_1 in D; now rewrite app_nil_r in D).
      specialize (IH (busy_width _ _ _ _ _ R) D') as (I1 & I2 & I3).
      rewrite uses_app, given_app, held_app, held_key. cbn [given]. rewrite held_key. unfold uses at 2 4 6. cbn.
      destruct (dec (key t) k) as [<-|E]; [|cbn in *; repeat split; lia].
      assert (held (key t) (given h) = 0)%nat as Z.
      { apply names_in. cbn in D. apply NoDup_remove_2 in D. now rewrite app_nil_r in D. }
      repeat split; lia.
    - specialize (IH (busy_width _ _ _ _ _ R) D) as (I1 & I2 & I3). rewrite held_key.
      destruct (dec (key t) k) as [<-|E]; [|cbn; repeat split; auto].
      pose proof (held_in _ _ _ I eq_refl). pose proof (held_le (key t) busy).
      repeat split; auto. destruct (uses (key t) h); [|specialize (I2 ltac:(lia)); lia]. lia.
    - unfold names in D. rewrite given_app, app_nil_r in D.
      specialize (IH (busy_width _ _ _ _ _ R) D) as (I1 & I2 & I3).
      pose proof (proj2 (stored_given _ _ _ _ _ R) t ltac:(apply in_elt)) as G.
      rewrite uses_app, uses_one, given_app, app_nil_r. rewrite held_app, held_key in I1. rewrite held_app.
      destruct (dec (key t) k) as [<-|E].
      + rewrite held_without. pose proof (held_in _ _ _ G eq_refl). repeat split; lia.
      + rewrite held_without_other by congruence. repeat split; lia.
    - specialize (IH (busy_width _ _ _ _ _ R) D) as (I1 & I2 & I3). rewrite held_app, held_key in I1. rewrite held_app.
      repeat split; auto. destruct (dec (key t) k); lia.
  Qed.

  (** And that often it does happen. *)
  Lemma forgotten_reached width t x : accepts t x ->
    racing key accepts ForgetAfter width (Given t :: repeat (Served t x) width) 
      match width with O => [t] | _ => [] end [].
  Proof.
    intros V.
    assert (R : forall n, (n <= width)%nat -> racing key accepts ForgetAfter width [Given t] [t] (repeat t n)).
    { induction n as [|n IH]; intros L.
      - apply (race_give key accepts ForgetAfter width [] [] [] t). constructor.
      - cbn [repeat]. apply (race_read key accepts ForgetAfter width [Given t] [t] (repeat t n) t).
        + apply IH. lia.
        + now left.
        + rewrite repeat_length. lia. }
    assert (S : forall n, (n <= width)%nat ->
      racing key accepts ForgetAfter width (Given t :: repeat (Served t x) n)
        match n with O => [t] | _ => [] end (repeat t (width - n))).
    { induction n as [|n IH]; intros L.
      - rewrite Nat.sub_0_r. apply (R width). lia.
      - replace (Given t :: repeat (Served t x) (S n)) with ((Given t :: repeat (Served t x) n) ++ [Served t x])
          by (cbn; now rewrite <- repeat_cons).
        replace (@nil T) with (without key (key t) match n with O => [t] | _ => [] end).
        2: { destruct n; [|reflexivity]. unfold without. cbn. now destruct (list_eq_dec ascii_dec (key t) (key t)). }
        apply (race_serve key accepts ForgetAfter width _ _ [] t (repeat t (width - S n))); [|exact V|discriminate].
        replace ([] ++ t :: repeat t (width - S n)) with (repeat t (width - n)); [apply IH; lia|].
        replace (width - n)%nat with (S (width - S n)) by lia. reflexivity. }
    specialize (S width (le_n _)). now rewrite Nat.sub_diag in S.
  Qed.

  (** Unused things stay in the store, unless they are taken first. *)
  Lemma stays p width h store busy t : p <> TakeFirst ->
    racing key accepts p width h store busy -> NoDup (names h) ->
    In (Given t) h -> (forall x, ~ In (Served t x) h) -> In t store.
  Proof.
    intros P. induction 1 as [|h store busy u R IH|h store busy u R IH I W|h store b u a x R IH V C|h store b u a R IH];
      intros D G N.
    - destruct G.
    - unfold names in D. rewrite given_app, map_app in D.
      assert (D' : NoDup (names h)) by (unfold names; apply NoDup_remove_1 in D; now rewrite app_nil_r in D).
      rewrite in_app_iff in G. cbn in G. destruct G as [G|[G|[]]]; [right|left; congruence].
      apply IH; auto. intros x Hx. apply (N x). now apply in_or_app; left.
    - destruct p; auto. contradiction.
    - unfold names in D. rewrite given_app, app_nil_r in D.
      rewrite in_app_iff in G. cbn in G. destruct G as [G|[G|[]]]; [|discriminate].
      apply in_without. split.
      + apply IH; auto. intros y Hy. apply (N y). now apply in_or_app; left.
      + intros E. apply (N x).
        assert (t = u) as ->; [|apply in_elt].
        pose proof (proj2 (stored_given _ _ _ _ _ R) u ltac:(apply in_elt)) as Gu. apply in_given in G.
        clear - D E G Gu. unfold names in D. induction (given h) as [|w l IH]; [destruct G|].
        cbn in D. inversion D as [|? ? D1 D2]; subst. cbn in G, Gu.
        destruct G as [->|G], Gu as [->|Gu]; auto.
        * exfalso. apply D1. rewrite E. now apply in_map.
        * exfalso. apply D1. rewrite <- E. now apply in_map.
    - auto.
  Qed.

  (** So whoever has an acceptable request can be served next. *)
  Lemma can_be_served width h store busy t x : 
    racing key accepts ClaimLast width h store busy -> NoDup (names h) -> (List.length busy < width)%nat ->
    In (Given t) h -> (forall x, ~ In (Served t x) h) -> accepts t x ->
    racing key accepts ClaimLast width (h ++ [Served t x]) (without key (key t) store) busy.
  Proof.
    intros R D W G N V. pose proof (stays ClaimLast _ _ _ _ t ltac:(discriminate) R D G N) as I.
    apply (race_serve key accepts ClaimLast width h store [] t busy); auto.
    apply (race_read key accepts ClaimLast width h store busy t); auto.
  Qed.

  (** From uses of a name to what was presented. *)
  Context (xdec : forall x y : X, {x = y} + {x <> y}).
  Lemma served_accepted p width h store busy t x :
    racing key accepts p width h store busy -> In (Served t x) h -> accepts t x.
  Proof.
    induction 1; rewrite ?in_app_iff; cbn; intuition; try discriminate. congruence.
  Qed.

  Lemma count_served (h : list (use T X)) k x :
    (forall t, In (Served t x) h -> key t = k) -> (count_occ xdec (served h) x <= uses k h)%nat.
  Proof.
    induction h as [|[t|t y] h IH]; intros H; [cbn; lia| |].
    - cbn. apply IH. intros u U. apply H. now right.
    - specialize (IH (fun u U => H u (or_intror U))). cbn [served count_occ]. unfold uses in *. cbn [filter].
      destruct (xdec y x) as [->|E].
      + destruct (dec (key t) k) as [E|E]; [cbn; lia|]. destruct E. apply H. now left.
      + destruct (dec (key t) k); cbn; lia.
  Qed.

  (** Names are determined by what is presented. *)
  Context (fixed : forall t u x, accepts t x -> accepts u x -> key t = key u).

  Lemma count_bound p width h store busy x n :
    racing key accepts p width h store busy -> (forall k, (uses k h <= n)%nat) -> (count_occ xdec (served h) x <= n)%nat.
  Proof.
    intros R U. destruct (in_dec xdec x (served h)) as [I|I].
    - assert (exists t, In (Served t x) h) as (t & Ht).
      { clear - I. induction h as [|[t|t y] h IH]; cbn in I; [destruct I| |].
        - destruct (IH I) as (u & Hu). exists u. now right.
        - destruct I as [->|I]; [exists t; now left|]. destruct (IH I) as (u & Hu). exists u. now right. }
      rewrite (count_served h (key t) x); [apply U|].
      intros u Hu. apply (fixed u t x); eapply served_accepted; eauto.
    - rewrite (proj1 (count_occ_not_In xdec _ _) I). lia.
  Qed.

  Lemma served_once p width h store busy : p <> ForgetAfter ->
    racing key accepts p width h store busy -> NoDup (names h) -> NoDup (served h).
  Proof.
    intros P R D. apply (NoDup_count_occ xdec). intros x. apply (count_bound p width h store busy x 1 R).
    intros k. pose proof (once_held h k D). destruct p; [contradiction| |].
    - pose proof (taken_once _ _ _ _ k R). lia.
    - pose proof (claimed_once _ _ k (sequential _ _ _ _ R)). lia.
  Qed.

  Lemma served_width width h store busy x : 
    racing key accepts ForgetAfter width h store busy -> NoDup (names h) -> (count_occ xdec (served h) x <= width)%nat.
  Proof.
    intros R D. apply (count_bound ForgetAfter width h store busy x width R).
    intros k. destruct (forgotten_late _ _ _ _ k R D). lia.
  Qed.
End Race.

(* ---------------- proofs and codes ---------------- *)

Lemma nonce_fixed d : lower_case_facts d ->
  forall t u x, nonce_accepts d t x -> nonce_accepts d u x -> nonce_key t = nonce_key u.
Proof.
  intros L t u x (now & m & r & o & asm & doc & c & resp & p & E & P & <-)
    (now' & m' & r' & o' & asm' & doc' & c' & resp' & p' & E' & P' & X).
  apply (accepted_inv _ _ _ _ _ _ _ _ _ L) in E as (_ & _ & o1 & p1 & j1 & n1 & d1 & k1 & u1 & y1 & z1 & w1 & _ & O1 & N1 & _ & _ & P1 & T1 & _ & B1 & _).
  apply (accepted_inv _ _ _ _ _ _ _ _ _ L) in E' as (_ & _ & o2 & p2 & j2 & n2 & d2 & k2 & u2 & y2 & z2 & w2 & _ & O2 & N2 & _ & _ & P2 & T2 & _ & B2 & _).
  injection O1 as <-. injection O2 as <-. cbn in N1, N2. injection N1 as <-. injection N2 as <-.
  rewrite P in P1. injection P1 as <-. rewrite P' in P2. injection P2 as <-. rewrite X in T2.
  rewrite (proof_token_det _ _ _ _ T2 T1) in B2. unfold nonce_key. congruence.
Qed.

Lemma offer_fixed t u x : offer_accepts t x -> offer_accepts u x -> offer_key t = offer_key u.
Proof.
  assert (H : forall o c, offer_accepts o c -> offer_key o = c).
  { intros o c (pin & opts & E). apply evaluate_ok in E. inversion E as [c' pin' o' g opts' L P S]; subst.
    unfold offer_key. rewrite P. symmetry. exact (proj1 S). }
  intros A B. rewrite (H _ _ A), (H _ _ B). reflexivity.
Qed.
