(** Proofs about metadata that change. *)
From Coq Require Import Permutation.
From Verif Require Import Model.Prelude Model.Json Model.Types Model.Deps Model.CredentialIssuer
  Spec SpecOffer SpecJwt SpecEvaluation SpecRelay SpecEquality SpecCareful SpecVersions Proofs.OfferFacts Proofs.CarefulFacts.

(** What an id stands for. *)
Definition stands (m : issuer_metadata) (id : str) (f : cfp) : Prop :=
  exists c, In c (im_credentials_supported m) /\ sup_id c = Some id /\ sup_format c = f.

Lemma stands_known m id f : stands m id f -> known_id m id.
Proof. intros (c & I & E & _). exists c. now split. Qed.

Lemma stands_iff m id f : ids_distinct (im_credentials_supported m) ->
  resolve m (CredentialId id) = Ok f <-> stands m id f.
Proof.
  intros D. rewrite resolve_ok. split.
  - intros H. inversion H as [|i c (b & a & E & I & _)]; subst. exists c.
    split; [rewrite E; apply in_elt|now split].
  - intros (c & I & E & <-). constructor. now apply first_with_id_distinct.
Qed.

Lemma ids_app a b : ids (a ++ b) = ids a ++ ids b.
Proof. unfold ids. apply flat_map_app. Qed.

Lemma distinct_insert a c b : ids_distinct (a ++ b) -> (forall id, sup_id c = Some id -> ~ In id (ids (a ++ b))) ->
  ids_distinct (a ++ c :: b).
Proof.
  intros D N. apply (ids_distinct_perm (c :: a ++ b)); [apply Permutation_middle|].
  apply ids_distinct_nodup. apply ids_distinct_nodup in D.
  change (ids (c :: a ++ b)) with ((match sup_id c with Some i => [i] | None => [] end) ++ ids (a ++ b)).
  destruct (sup_id c) as [i|]; [|exact D]. constructor; [now apply N|exact D].
Qed.

Lemma distinct_remove a c b : ids_distinct (a ++ c :: b) -> ids_distinct (a ++ b).
Proof.
  intros D. apply (ids_distinct_perm _ (c :: a ++ b)) in D; [|symmetry; apply Permutation_middle].
  apply ids_distinct_nodup in D. apply ids_distinct_nodup.
  change (ids (c :: a ++ b)) with ((match sup_id c with Some i => [i] | None => [] end) ++ ids (a ++ b)) in D.
  destruct (sup_id c); [now inversion D|exact D].
Qed.

Lemma pairs_ids l : map sup_id l = map fst (map (fun c => (sup_id c, sup_format c)) l).
Proof. now rewrite map_map. Qed.

Lemma distinct_edit l1 l2 :
  Permutation (map (fun c => (sup_id c, sup_format c)) l1) (map (fun c => (sup_id c, sup_format c)) l2) ->
  ids_distinct l1 -> ids_distinct l2.
Proof.
  intros P. rewrite !ids_distinct_nodup, !ids_of_map. apply Permutation_NoDup, flat_map_perm.
  rewrite !pairs_ids. now apply Permutation_map.
Qed.

Lemma stands_edit m m' id f :
  Permutation (map (fun c => (sup_id c, sup_format c)) (im_credentials_supported m))
    (map (fun c => (sup_id c, sup_format c)) (im_credentials_supported m')) ->
  stands m' id f -> stands m id f.
Proof.
  intros P (c & I & E & F). symmetry in P.
  apply (in_map (fun c => (sup_id c, sup_format c))) in I. apply (Permutation_in _ P) in I.
  apply in_map_iff in I as (x & X & I). injection X as X Y. exists x. split; [exact I|]. split; congruence.
Qed.

Lemma versions_distinct p h : maintained p h -> forall v, In v h -> ids_distinct (im_credentials_supported v).
Proof.
  intros M. induction M as [m D|m h m' c b a M IH E E' N|m h m' c b a M IH E E'|m h m' M IH P]; intros v [<-|I];
    try (now apply IH); try exact D; try destruct I;
    pose proof (IH m (or_introl eq_refl)) as D.
  - rewrite E'. rewrite E in D. apply distinct_insert; [exact D|]. intros id X Y. rewrite <- E in Y.
    apply in_ids in Y. apply (N id m X); [destruct p; now left|exact Y].
  - rewrite E'. rewrite E in D. now apply distinct_remove in D.
  - exact (distinct_edit _ _ P D).
Qed.

Lemma one_meaning h : maintained NeverAgain h ->
  forall v v' id f f', In v h -> In v' h -> stands v id f -> stands v' id f' -> f = f'.
Proof.
  intros M0. pose proof (versions_distinct _ _ M0) as D.
  assert (S : forall m id f f', ids_distinct (im_credentials_supported m) -> stands m id f -> stands m id f' -> f = f').
  { intros m id f f' X A B. apply (stands_iff _ _ _ X) in A, B. congruence. }
  revert D. induction M0 as [m _|m h m' c b a M IH E E' N|m h m' c b a M IH E E'|m h m' M IH P]; intros D.
  - intros v v' id f f' [<-|[]] [<-|[]]. apply S, D. now left.
  - specialize (IH (fun v I => D v (or_intror I))).
    assert (C : forall id f, stands m' id f -> stands m id f \/ (forall v, In v (m :: h) -> ~ known_id v id)).
    { intros id f (x & I & X & F). rewrite E' in I. apply in_app_or in I as [I|[<-|I]].
      - left. exists x. split; [rewrite E; apply in_or_app; now left|now split].
      - right. intros v V. exact (N id v X V).
      - left. exists x. split; [rewrite E; apply in_or_app; now right|now split]. }
    intros v v' id f f' [<-|I] [<-|I'] A B.
    + exact (S _ _ _ _ (D _ (or_introl eq_refl)) A B).
    + destruct (C id f A) as [A'|K]; [exact (IH m v' id f f' (or_introl eq_refl) I' A' B)|].
      destruct (K v' I' (stands_known _ _ _ B)).
    + destruct (C id f' B) as [B'|K]; [exact (IH v m id f f' I (or_introl eq_refl) A B')|].
      destruct (K v I (stands_known _ _ _ A)).
    + exact (IH v v' id f f' I I' A B).
  - specialize (IH (fun v I => D v (or_intror I))).
    assert (C : forall id f, stands m' id f -> stands m id f).
    { intros id f (x & I & X & F). rewrite E' in I. exists x. split; [|now split]. rewrite E.
      apply in_app_or in I as [I|I]; apply in_or_app; [now left|right; now right]. }
    intros v v' id f f' [<-|I] [<-|I'] A B.
    + exact (S _ _ _ _ (D _ (or_introl eq_refl)) A B).
    + exact (IH m v' id f f' (or_introl eq_refl) I' (C _ _ A) B).
    + exact (IH v m id f f' I (or_introl eq_refl) A (C _ _ B)).
    + exact (IH v v' id f f' I I' A B).
  - specialize (IH (fun v I => D v (or_intror I))).
    intros v v' id f f' [<-|I] [<-|I'] A B.
    + exact (S _ _ _ _ (D _ (or_introl eq_refl)) A B).
    + exact (IH m v' id f f' (or_introl eq_refl) I' (stands_edit _ _ _ _ P A) B).
    + exact (IH v m id f f' I (or_introl eq_refl) A (stands_edit _ _ _ _ P B)).
    + exact (IH v v' id f f' I I' A B).
Qed.

(** When the resolution of a list is kept, for any two versions. *)
Lemma kept_iff m m' l ps : resolve_all m l = Ok ps ->
  (resolve_all m' l = Ok ps
   <-> forall id, In (CredentialId id) l -> resolve m' (CredentialId id) = resolve m (CredentialId id)).
Proof.
  rewrite !resolve_all_ok. intros F. induction F as [|x p l ps R F IH].
  - split; [intros _ id []|constructor].
  - split.
    + intros G id [->|I].
      * apply resolve_ok in R. inversion G as [|? ? ? ? R' _]; subst. apply resolve_ok in R'. congruence.
      * apply IH; [now inversion G|exact I].
    + intros H. constructor.
      * destruct x as [id|c]; [|inversion R; constructor].
        apply resolve_ok. apply resolve_ok in R. rewrite H; [exact R|now left].
      * apply IH. intros id I. apply H. now right.
Qed.

Lemma resolve_all_cases m l :
  (exists ps, resolve_all m l = Ok ps)
  \/ exists id, first_unknown m l id /\ resolve_all m l = Err (ICredentialIdNotInIssuerMetadata id).
Proof.
  destruct (resolve_all m l) as [ps|e|] eqn:E; [left; eauto| |now apply resolve_all_no_panic in E].
  right. apply resolve_all_err in E as (id & F & ->). exists id. now split.
Qed.

Lemma never_again h m m' l ps : maintained NeverAgain h -> In m h -> In m' h -> resolve_all m l = Ok ps ->
  (resolve_all m' l = Ok ps /\ forall id, In (CredentialId id) l -> known_id m' id)
  \/ exists id, In (CredentialId id) l /\ known_id m id /\ ~ known_id m' id
       /\ resolve_all m' l = Err (ICredentialIdNotInIssuerMetadata id).
Proof.
  intros M I I' R.
  assert (K : forall id, In (CredentialId id) l -> known_id m id).
  { intros id X. assert (G : Forall (resolvable m) l) by (apply resolve_all_iff; eauto).
    rewrite Forall_forall in G. exact (G _ X id eq_refl). }
  destruct (resolve_all_cases m' l) as [(ps' & R')|(id & F & R')].
  - left.
    assert (K' : forall id, In (CredentialId id) l -> known_id m' id).
    { intros id X. assert (G : Forall (resolvable m') l) by (apply resolve_all_iff; eauto).
      rewrite Forall_forall in G. exact (G _ X id eq_refl). }
    split; [|exact K']. apply (kept_iff m m' l ps R). intros id X.
    destruct (K id X) as (c & C & E), (K' id X) as (c' & C' & E').
    pose proof (versions_distinct _ _ M) as D.
    assert (A : stands m id (sup_format c)) by (exists c; now split).
    assert (B : stands m' id (sup_format c')) by (exists c'; now split).
    pose proof (one_meaning _ M _ _ _ _ _ I I' A B) as Q.
    apply (stands_iff _ _ _ (D _ I)) in A. apply (stands_iff _ _ _ (D _ I')) in B. congruence.
  - right. exists id. destruct F as (b & a & E & _ & N).
    assert (X : In (CredentialId id) l) by (rewrite E; apply in_elt).
    split; [exact X|]. split; [now apply K|]. now split.
Qed.

Lemma offers_later h m m' creds ep a p o url : maintained NeverAgain h -> In m h -> In m' h ->
  create_offer m creds ep a p = Ok (o, url) ->
  exists ps, resolve_all m (co_credentials o) = Ok ps
  /\ ((resolve_all m' (co_credentials o) = Ok ps /\ forall id, In (CredentialId id) (co_credentials o) -> known_id m' id)
      \/ exists id, In (CredentialId id) (co_credentials o) /\ known_id m id /\ ~ known_id m' id
           /\ resolve_all m' (co_credentials o) = Err (ICredentialIdNotInIssuerMetadata id)).
Proof.
  intros M I I' C. pose proof (create_offer_content _ _ _ _ _ _ _ C) as (_ & E & _). rewrite E.
  apply create_offer_ok in C as (_ & _ & F & _). apply resolve_all_iff in F as (ps & R).
  exists ps. split; [exact R|]. exact (never_again _ _ _ _ _ M I I' R).
Qed.

(** Withdrawing one credential. *)
Lemma withdrawn m m' c id before after l ps : ids_distinct (im_credentials_supported m) ->
  im_credentials_supported m = before ++ c :: after -> im_credentials_supported m' = before ++ after ->
  sup_id c = Some id -> resolve_all m l = Ok ps ->
  (In (CredentialId id) l -> resolve_all m' l = Err (ICredentialIdNotInIssuerMetadata id))
  /\ (~ In (CredentialId id) l -> resolve_all m' l = Ok ps).
Proof.
  intros D E E' C R.
  assert (M : maintained NeverAgain [m'; m]).
  { apply (maintained_withdraw _ _ _ _ c before after); [now constructor|exact E|exact E']. }
  assert (N : ~ known_id m' id).
  { intros (x & X & Y). rewrite E' in X.
    assert (P : ids_distinct (c :: before ++ after))
      by (apply (ids_distinct_perm (before ++ c :: after)); [symmetry; apply Permutation_middle|now rewrite <- E]).
    apply In_nth_error in X as (k & K).
    exact (P 0%nat (S k) c x id eq_refl K ltac:(discriminate) C Y). }
  assert (O : forall i, known_id m i -> ~ known_id m' i -> i = id).
  { intros i (x & X & Y) Z. rewrite E in X. apply in_app_or in X as [X|[<-|X]].
    - destruct Z. exists x. split; [rewrite E'; apply in_or_app; now left|exact Y].
    - congruence.
    - destruct Z. exists x. split; [rewrite E'; apply in_or_app; now right|exact Y]. }
  destruct (never_again _ m m' l ps M (or_intror (or_introl eq_refl)) (or_introl eq_refl) R) as [(A & B)|(i & I & K & U & A)].
  - split; [intros I; destruct (N (B id I))|intros _; exact A].
  - rewrite (O i K U) in *. split; [intros _; exact A|]. intros X. now destruct X.
Qed.

(** Inline credentials do not depend on the metadata. *)
Lemma inline_kept l : forall m, resolve_all m (map Credential l) = Ok l.
Proof.
  intros m. apply resolve_all_ok. induction l as [|c l IH]; constructor; [constructor|exact IH].
Qed.

(** With the checks of C140 under a later version, what is served was offered. *)
Lemma careful_later h m m' creds ep a p o url d now r doc n client resp :
  maintained NeverAgain h -> In m h -> In m' h -> create_offer m creds ep a p = Ok (o, url) ->
  lower_case_facts d -> upper_case_facts d -> on_some (fun p => rust_string (rp_proof_type p)) (cr_proof r) ->
  credentials_held m' r o -> careful d now m' r o doc n client resp ->
  exists entry c, In entry (co_credentials o) /\ resolves m entry c /\ resolves m' entry c /\ same_credential (cr_format r) c.
Proof.
  intros M I I' C L U S H Q.
  apply (careful_exact d now m' r o doc n client resp L U S H) in Q as (_ & _ & _ & R' & entry & c & X & Y & Z).
  destruct (offers_later _ _ _ _ _ _ _ _ _ M I I' C) as (ps & R & [(K & _)|(id & J & _ & N & _)]).
  - exists entry, c. split; [exact X|]. split; [|now split]. destruct entry as [id|f]; [|inversion Y; constructor].
    pose proof (proj1 (kept_iff m m' _ ps R) K id X) as G. apply resolve_ok. apply resolve_ok in Y. congruence.
  - destruct N. rewrite Forall_forall in R'. exact (R' _ J id eq_refl).
Qed.
