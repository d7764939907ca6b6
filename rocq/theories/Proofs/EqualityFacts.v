(** Derived equality is sameness. *)
From Coq Require Import Lia QArith Lqa Permutation Sorting.Sorted.
From Verif Require Import Model.Prelude Model.Json Model.Types Model.Float Model.Equality
  Spec SpecNumber SpecRelay SpecEquality
  Proofs.StrFacts Proofs.FloatFacts Proofs.FloatText Proofs.NumberFacts.
Open Scope N_scope.

(* ---------------- numbers ---------------- *)

Lemma f64_value_pos x : mantissa x <> 0 -> (0 < f64_value x)%Q.
Proof.
  intros H. unfold f64_value. apply Qmult_lt_0_compat; [apply Q_of_N_pos; lia|]. apply Qpow2_pos.
Qed.
Lemma f64_value_zero x : mantissa x = 0 -> f64_value x == 0.
Proof. intros H. unfold f64_value. rewrite H. unfold Q_of_N. cbn. ring. Qed.

Lemma written_finite neg x t : mantissa x <> 0 -> written_as neg x t -> finite_f64 x.
Proof. intros H [[E _]|[_ (d & k & u & ((F & _) & _) & _)]]; [easy|exact F]. Qed.

Lemma finite_same x y : finite_f64 x -> finite_f64 y -> f64_value x == f64_value y -> x = y.
Proof.
  intros Fx Fy E. pose proof (rounds_self x Fx) as Rx. pose proof (rounds_self y Fy) as Ry.
  rewrite <- E in Ry. destruct (rounds_unique _ _ _ Rx Ry) as [H|H]; [exact H|exfalso].
  destruct (N.eq_dec (mantissa x) 0) as [Z|Z]; [apply f64_value_zero in Z|apply f64_value_pos in Z]; lra.
Qed.

Lemma written_det neg x s t : (neg = [] \/ neg = ["-"%char]) -> written_as neg x s -> written_as neg x t -> s = t.
Proof.
  intros Hn Hs Ht. destruct (N.eq_dec (mantissa x) 0) as [Z|Z].
  - destruct Hs as [[_ ->]|[H _]]; [|easy]. destruct Ht as [[_ ->]|[H _]]; [reflexivity|easy].
  - pose proof (written_finite _ _ _ Z Hs) as F. destruct Hn as [-> | ->].
    + apply (write_f64_iff false x) in Hs, Ht; [|exact F..]. congruence.
    + apply (write_f64_iff true x) in Hs, Ht; [|exact F..]. congruence.
Qed.

Lemma f64_number s : f64_text s -> exists q, number_of s q.
Proof.
  intros (neg & x & [-> | ->] & W).
  - exists (f64_value x), x. now left.
  - exists (- f64_value x)%Q, x. now right.
Qed.

Lemma zero_number s : zero_text s = true -> exists q, number_of s q /\ q == 0.
Proof.
  pose (z := {| mantissa := 0; exponent := (-1074)%Z |}). assert (f64_value z == 0) as Z by now apply f64_value_zero.
  unfold zero_text. rewrite Bool.orb_true_iff. intros [H|H]; apply str_eqb_eq in H; subst s.
  - exists (f64_value z). split; [|exact Z]. exists z. left. split; [now left|reflexivity].
  - exists (- f64_value z)%Q. split; [|rewrite Z; reflexivity]. exists z. right. split; [now left|reflexivity].
Qed.

Lemma number_zero s q : number_of s q -> q == 0 -> zero_text s = true.
Proof.
  intros (x & [[W ->]|[W ->]]) E; unfold zero_text; rewrite Bool.orb_true_iff, !str_eqb_eq.
  - destruct W as [[_ ->]|[M _]]; [now left|]. apply f64_value_pos in M. lra.
  - destruct W as [[_ ->]|[M _]]; [now right|]. apply f64_value_pos in M. lra.
Qed.

Lemma float_eqb_same s t : f64_text s -> f64_text t -> (float_eqb s t = true <-> same_number s t).
Proof.
  intros Hs Ht. unfold float_eqb. rewrite Bool.orb_true_iff, Bool.andb_true_iff, str_eqb_eq. split.
  - intros [<-|[Z Z']].
    + destruct (f64_number s Hs) as [q H]. exists q, q. split; [exact H|split; [exact H|reflexivity]].
    + destruct (zero_number _ Z) as (p & P & E). destruct (zero_number _ Z') as (q & Q & E').
      exists p, q. split; [exact P|split; [exact Q|now rewrite E, E']].
  - intros (p & q & P & Q & E). destruct (Qeq_dec p 0) as [Z|Z].
    + right. split; [now apply number_zero with p|]. apply number_zero with q; [exact Q|]. now rewrite <- E.
    + left.
      destruct P as (x & P), Q as (y & Q).
      assert (mantissa x <> 0) as Mx by (intros M; apply f64_value_zero in M; destruct P as [[_ ->]|[_ ->]]; apply Z; rewrite M; reflexivity).
      assert (mantissa y <> 0) as My by (intros M; apply f64_value_zero in M; destruct Q as [[_ ->]|[_ ->]]; apply Z; rewrite E, M; reflexivity).
      pose proof (f64_value_pos x Mx) as Gx. pose proof (f64_value_pos y My) as Gy.
      destruct P as [[Wx ->]|[Wx ->]], Q as [[Wy ->]|[Wy ->]].
      * assert (x = y) as -> by (apply finite_same; [now apply (written_finite [] x s)|now apply (written_finite [] y t)|exact E]).
        exact (written_det [] y s t (or_introl eq_refl) Wx Wy).
      * lra.
      * lra.
      * assert (x = y) as -> by (apply finite_same; [exact (written_finite _ x s Mx Wx)|exact (written_finite _ y t My Wy)|lra]).
        exact (written_det _ y s t (or_intror eq_refl) Wx Wy).
Qed.

(* ---------------- comparing parts ---------------- *)

(** [e] decides [R] on the values in [P]. *)
Definition decides {A : Type} (e : A -> A -> bool) (R : A -> A -> Prop) (P : A -> Prop) : Prop :=
  forall a b, P a -> P b -> (e a b = true <-> R a b).
Definition any {A : Type} (a : A) : Prop := True.
Definition decides_eq {A : Type} (e : A -> A -> bool) : Prop := forall a b, e a b = true <-> a = b.

Lemma str_decides : decides_eq str_eqb. Proof. intros a b. apply str_eqb_eq. Qed.
Lemma bool_decides : decides_eq Bool.eqb. Proof. intros a b. apply Bool.eqb_true_iff. Qed.
Lemma N_decides : decides_eq N.eqb. Proof. intros a b. apply N.eqb_eq. Qed.
Lemma Z_decides : decides_eq Z.eqb. Proof. intros a b. apply Z.eqb_eq. Qed.

Lemma opt_decides {A} (e : A -> A -> bool) R P : decides e R P -> decides (opt_eqb e) (opt_rel R) (on_some P).
Proof.
  intros H [a|] [b|] Pa Pb; cbn [opt_eqb]; try (split; [discriminate|intros Q; inversion Q]); [|split; [constructor|reflexivity]].
  rewrite (H a b (Pa a eq_refl) (Pb b eq_refl)). split; [now constructor|]. now inversion 1.
Qed.
Lemma opt_decides_eq {A} (e : A -> A -> bool) : decides_eq e -> decides_eq (opt_eqb e).
Proof.
  intros H [a|] [b|]; cbn [opt_eqb]; try (split; [discriminate|intros Q; inversion Q]); [|split; reflexivity].
  rewrite (H a b). split; [now intros ->|]. now intros [= ->].
Qed.
Lemma list_decides {A} (e : A -> A -> bool) R P : decides e R P -> decides (list_eqb e) (Forall2 R) (Forall P).
Proof.
  intros H. intros a. induction a as [|x a IH]; intros [|y b] Pa Pb; cbn [list_eqb];
    try (split; [discriminate|intros Q; inversion Q]); [split; [constructor|reflexivity]|].
  inversion_clear Pa as [|? ? Px Pa']. inversion_clear Pb as [|? ? Py Pb'].
  rewrite Bool.andb_true_iff, (H x y Px Py). fold (list_eqb e). rewrite (IH b Pa' Pb'). split.
  - intros []. now constructor.
  - inversion 1; auto.
Qed.
Lemma list_decides_eq {A} (e : A -> A -> bool) : decides_eq e -> decides_eq (list_eqb e).
Proof.
  intros H a. induction a as [|x a IH]; intros [|y b]; cbn [list_eqb];
    try (split; [discriminate|intros Q; inversion Q]); [split; reflexivity|].
  fold (list_eqb e). rewrite Bool.andb_true_iff, (H x y), (IH b). split; [now intros [-> ->]|now intros [= -> ->]].
Qed.

Lemma assoc_in {V} k (m : hmap V) v : assoc k m = Some v -> In (k, v) m.
Proof.
  induction m as [|[k' v'] m IH]; cbn [assoc]; [discriminate|].
  destruct (str_eqb k k') eqn:E; [apply str_eqb_eq in E; intros [= ->]; subst; now left|]. right. auto.
Qed.
Lemma assoc_hit {V} k (m : hmap V) v : NoDup (map fst m) -> In (k, v) m -> assoc k m = Some v.
Proof.
  induction m as [|[k' v'] m IH]; intros D I; [destruct I|]. cbn [map fst] in D. inversion_clear D as [|? ? N D'].
  cbn [assoc]. destruct I as [[= -> ->]|I].
  - assert (str_eqb k k = true) as -> by now apply str_eqb_eq. reflexivity.
  - destruct (str_eqb k k') eqn:E; [|now apply IH]. apply str_eqb_eq in E. subst. exfalso. apply N.
    change k' with (fst (k', v)). now apply in_map.
Qed.
Lemma in_key {V} k (m : hmap V) : In k (map fst m) -> exists v, In (k, v) m.
Proof. intros H. apply in_map_iff in H. destruct H as ([k' v] & <- & I). now exists v. Qed.
Lemma key_in {V} k v (m : hmap V) : In (k, v) m -> In k (map fst m).
Proof. intros H. change k with (fst (k, v)). now apply in_map. Qed.
Lemma one_value {V} k (m : hmap V) v v' : NoDup (map fst m) -> In (k, v) m -> In (k, v') m -> v = v'.
Proof. intros D H H'. apply (assoc_hit _ _ _ D) in H, H'. congruence. Qed.

Lemma map_decides_in {V} (e : V -> V -> bool) R (a b : hmap V) :
  NoDup (map fst a) -> NoDup (map fst b) ->
  (forall k x y, In (k, x) a -> In (k, y) b -> (e x y = true <-> R x y)) ->
  (hmap_eqb e a b = true <-> same_map R a b).
Proof.
  intros Da Db H. unfold hmap_eqb. rewrite Bool.andb_true_iff, Nat.eqb_eq, forallb_forall. split.
  - intros [L F].
    assert (A : forall k x, In (k, x) a -> exists y, In (k, y) b /\ R x y).
    { intros k x I. specialize (F _ I). cbn [fst snd] in F. destruct (assoc k b) as [y|] eqn:E; [|discriminate].
      apply assoc_in in E. exists y. split; [exact E|]. now apply (H k). }
    split; [exact A|]. intros k y I.
    assert (incl (map fst b) (map fst a)) as J.
    { apply NoDup_length_incl; [exact Da|rewrite !map_length; unfold hmap in L; rewrite L; apply le_n|].
      intros k0 I0. apply in_key in I0. destruct I0 as (x & I0). destruct (A _ _ I0) as (y0 & I1 & _). now apply key_in in I1. }
    destruct (in_key k a) as (x & I'); [now apply J, key_in with y|]. exists x. split; [exact I'|].
    destruct (A _ _ I') as (y' & I'' & Q). now rewrite (one_value _ _ _ _ Db I I'').
  - intros [A B]. split.
    + rewrite <- (map_length fst a), <- (map_length fst b). apply Nat.le_antisymm; apply NoDup_incl_length; auto.
      * intros k I. apply in_key in I. destruct I as (x & I). destruct (A _ _ I) as (y & I' & _). now apply key_in in I'.
      * intros k I. apply in_key in I. destruct I as (x & I). destruct (B _ _ I) as (y & I' & _). now apply key_in in I'.
    + intros [k x] I. cbn [fst snd]. destruct (A _ _ I) as (y & I' & Q). rewrite (assoc_hit _ _ _ Db I'). now apply (H k).
Qed.

Lemma map_decides {V} (e : V -> V -> bool) R P : decides e R P -> decides (hmap_eqb e) (same_map R) (hmap_ok P).
Proof.
  intros H a b [Da Pa] [Db Pb]. apply map_decides_in; [exact Da|exact Db|].
  intros k x y Ia Ib. apply H; [apply (Pa k x Ia)|apply (Pb k y Ib)].
Qed.
Lemma map_decides_eq {V} (e : V -> V -> bool) P : decides_eq e -> decides (hmap_eqb e) (same_map eq) (hmap_ok P).
Proof. intros H a b [Da _] [Db _]. apply map_decides_in; [exact Da|exact Db|]. intros k x y _ _. apply H. Qed.

(* ---------------- free-form values ---------------- *)

Lemma json_list_eqb (e : json -> json -> bool) R l l' :
  (forall x y, In x l -> In y l' -> (e x y = true <-> R x y)) -> (list_eqb e l l' = true <-> Forall2 R l l').
Proof.
  revert l'. induction l as [|x l IH]; intros [|y l'] H; cbn [list_eqb];
    try (split; [discriminate|intros Q; inversion Q]); [split; [constructor|reflexivity]|].
  fold (list_eqb e). rewrite Bool.andb_true_iff, (H x y), IH by (auto with datatypes). split.
  - intros []. now constructor.
  - inversion 1; auto.
Qed.
Lemma json_members_eqb (e : json -> json -> bool) R (m m' : list (str * json)) :
  (forall k x k' y, In (k, x) m -> In (k', y) m' -> (e x y = true <-> R x y)) ->
  (list_eqb (fun kv kv' => str_eqb (fst kv) (fst kv') && e (snd kv) (snd kv')) m m' = true
   <-> Forall2 (fun kv kv' => fst kv = fst kv' /\ R (snd kv) (snd kv')) m m').
Proof.
  revert m'. induction m as [|[k x] m IH]; intros [|[k' y] m'] H; cbn [list_eqb];
    try (split; [discriminate|intros Q; inversion Q]); [split; [constructor|reflexivity]|].
  cbn [fst snd].
  rewrite !Bool.andb_true_iff, str_eqb_eq, (H k x k' y) by (now left).
  specialize (IH m'). unfold list_eqb in IH. cbn [fst snd] in IH. rewrite IH.
  - split; [intros []; now constructor|]. inversion 1; subst. cbn [fst snd] in *. tauto.
  - intros k0 x0 k1 y1 I I'. apply (H k0 x0 k1 y1); now right.
Qed.

Fixpoint json_size (j : json) : nat :=
  match j with
  | JArr l => S (list_sum (map json_size l))
  | JObj m => S (list_sum (map (fun kv => json_size (snd kv)) m))
  | _ => O
  end.
Lemma sum_in {A} (f : A -> nat) l x : In x l -> (f x <= list_sum (map f l))%nat.
Proof. induction l as [|y l IH]; intros []; cbn [map list_sum fold_right]; [subst; lia|]. specialize (IH H). unfold list_sum in IH. lia. Qed.

Lemma json_decides_size n : forall a b, (json_size a < n)%nat -> json_any a -> json_any b ->
  (json_eqb a b = true <-> same_value a b).
Proof.
  induction n as [|n IH]; intros a b L Ha Hb; [lia|].
  destruct a as [|x|x|x|x|l|m]; destruct b as [|y|y|y|y|l'|m'];
    try (cbn [json_eqb]; split; [discriminate|intros Q; inversion Q]; fail).
  - split; [constructor|reflexivity].
  - cbn [json_eqb]. rewrite Bool.eqb_true_iff. split; [intros ->; constructor|now inversion 1].
  - cbn [json_eqb]. rewrite Z.eqb_eq. split; [intros ->; constructor|now inversion 1].
  - cbn [json_eqb]. inversion Ha; subst. inversion Hb; subst. rewrite float_eqb_same by assumption.
    split; [now constructor|now inversion 1].
  - cbn [json_eqb]. rewrite str_eqb_eq. split; [intros ->; constructor|now inversion 1].
  - inversion Ha as [| | | | |? Hl|]; subst. inversion Hb as [| | | | |? Hl'|]; subst. cbn [json_eqb].
    rewrite (json_list_eqb json_eqb same_value).
    + split; [now constructor|now inversion 1].
    + intros x y I I'. apply IH; auto. cbn [json_size] in L. pose proof (sum_in json_size l x I). lia.
  - inversion Ha as [| | | | | |? _ Hm]; subst. inversion Hb as [| | | | | |? _ Hm']; subst. cbn [json_eqb].
    rewrite (json_members_eqb json_eqb same_value).
    + split; [now constructor|now inversion 1].
    + intros k x k' y I I'. apply IH; eauto. cbn [json_size] in L.
      pose proof (sum_in (fun kv => json_size (snd kv)) m (k, x) I) as S. cbn [snd] in S. lia.
Qed.
Lemma json_decides : decides json_eqb same_value held.
Proof. intros a b [Ha _] [Hb _]. apply (json_decides_size (S (json_size a))); [apply le_n|exact Ha|exact Hb]. Qed.

(* ---------------- types ---------------- *)

(** Equality of all parts: splits conjunctions of comparisons. *)
Ltac parts := rewrite ?Bool.andb_true_iff.
Ltac plain := repeat first
  [ rewrite (str_decides _ _) | rewrite (bool_decides _ _) | rewrite (N_decides _ _) | rewrite (Z_decides _ _)
  | rewrite (opt_decides_eq _ str_decides _ _) | rewrite (opt_decides_eq _ bool_decides _ _)
  | rewrite (opt_decides_eq _ N_decides _ _) | rewrite (opt_decides_eq _ Z_decides _ _)
  | rewrite (list_decides_eq _ str_decides _ _)
  | rewrite (opt_decides_eq _ (list_decides_eq _ str_decides) _ _) ].
Ltac record_eq := split; [intros H; decompose [and] H; clear H; subst; reflexivity|intros H; inversion H; subst; tauto].

Lemma subject_display_decides : decides_eq subject_display_eqb.
Proof. intros [a b] [a' b']. unfold subject_display_eqb. cbn [sd_name sd_locale]. parts. plain. record_eq. Qed.
Lemma subject_decides : decides_eq subject_eqb.
Proof.
  intros [a b c] [a' b' c']. unfold subject_eqb. cbn [cs_mandatory cs_value_type cs_display]. parts. plain.
  rewrite (opt_decides_eq _ (list_decides_eq _ subject_display_decides) c c'). record_eq.
Qed.
Lemma logo_decides : decides_eq logo_eqb.
Proof. intros [a b] [a' b']. unfold logo_eqb. cbn [dl_url dl_alt_text]. parts. plain. record_eq. Qed.
Lemma display_decides : decides_eq display_eqb.
Proof.
  intros [a b c d e f] [a' b' c' d' e' f']. unfold display_eqb.
  cbn [dp_name dp_locale dp_logo dp_description dp_background_color dp_text_color]. parts. plain.
  rewrite (opt_decides_eq _ logo_decides c c'). record_eq.
Qed.
Lemma token_type_decides : decides_eq token_type_eqb.
Proof. intros [] []. split; reflexivity. Qed.
Lemma alg_decides : decides_eq alg_eqb.
Proof. intros [] []; split; (reflexivity || discriminate). Qed.
Lemma additional_header_decides : decides_eq additional_header_eqb.
Proof.
  intros [s|s|s] [t|t|t]; cbn [additional_header_eqb]; try (split; discriminate); plain; split; congruence.
Qed.
Lemma grant_type_decides : decides_eq grant_type_eqb.
Proof.
  intros [|c p] [|c' p']; cbn [grant_type_eqb]; try (split; discriminate); [split; reflexivity|]. parts. plain. record_eq.
Qed.
Lemma token_request_decides : decides_eq token_request_eqb.
Proof.
  intros [a] [b]. unfold token_request_eqb. cbn [tr_grant_type]. rewrite (grant_type_decides a b). split; congruence.
Qed.
Lemma token_options_decides : decides_eq token_options_eqb.
Proof. intros [a] [b]. unfold token_options_eqb. cbn [to_expected_user_pin]. plain. split; congruence. Qed.
Lemma token_success_decides : decides_eq token_success_eqb.
Proof.
  intros [a b c d e f g h] [a' b' c' d' e' f' g' h']. unfold token_success_eqb.
  cbn [ts_access_token ts_token_type ts_expires_in ts_scope ts_c_nonce ts_c_nonce_expires_in ts_authorization_pending ts_interval].
  parts. plain. rewrite (token_type_decides b b'). record_eq.
Qed.
Lemma token_error_code_decides : decides_eq token_error_code_eqb.
Proof. intros [] []; split; (reflexivity || discriminate). Qed.
Lemma issuer_error_code_decides : decides_eq issuer_error_code_eqb.
Proof. intros [] []; split; (reflexivity || discriminate). Qed.
Lemma auth_flow_decides : decides_eq auth_flow_eqb.
Proof. intros [a] [b]. unfold auth_flow_eqb. cbn [af_issuer_state]. plain. split; congruence. Qed.
Lemma preauth_flow_decides : decides_eq preauth_flow_eqb.
Proof. intros [a b] [a' b']. unfold preauth_flow_eqb. cbn [pf_code pf_user_pin_required]. parts. plain. record_eq. Qed.
Lemma grants_decides : decides_eq grants_eqb.
Proof.
  intros [a b] [a' b']. unfold grants_eqb. cbn [og_auth og_pre]. parts.
  rewrite (opt_decides_eq _ auth_flow_decides a a'), (opt_decides_eq _ preauth_flow_decides b b'). record_eq.
Qed.
Lemma c_nonce_decides : decides_eq c_nonce_eqb.
Proof. intros [a b] [a' b']. unfold c_nonce_eqb. cbn [cn_c_nonce cn_expires_in]. parts. plain. record_eq. Qed.
Lemma c_nonce_options_decides : decides_eq c_nonce_options_eqb.
Proof.
  intros [a b c] [a' b' c']. unfold c_nonce_options_eqb. cbn [cno_expires_in cno_expected cno_created_at]. parts. plain. record_eq.
Qed.
Lemma eval_options_decides : decides_eq eval_options_eqb.
Proof.
  intros [a b] [a' b']. unfold eval_options_eqb. cbn [eo_c_nonce eo_client_id]. parts. plain.
  rewrite (opt_decides_eq _ c_nonce_options_decides a a'). record_eq.
Qed.
Lemma pop_decides : decides_eq pop_eqb.
Proof.
  intros [a b c d] [a' b' c' d']. unfold pop_eqb. cbn [pop_algorithm pop_public_key pop_message pop_signature].
  parts. plain. rewrite (alg_decides a a'). record_eq.
Qed.
Lemma validation_error_decides : decides_eq validation_error_eqb.
Proof. intros [a] [b]. cbn [validation_error_eqb]. plain. split; congruence. Qed.
Lemma jwt_error_decides : decides_eq jwt_error_eqb.
Proof.
  intros [] []; cbn [jwt_error_eqb]; try (split; discriminate); try (split; reflexivity);
    parts; plain; rewrite ?(validation_error_decides _ _); first [split; congruence|record_eq].
Qed.
Lemma token_error_decides : decides_eq token_error_eqb.
Proof.
  intros a. induction a; intros []; cbn [token_error_eqb]; try (split; discriminate); try (split; reflexivity);
    parts; plain; rewrite ?(validation_error_decides _ _), ?IHa1, ?IHa2; first [split; congruence|record_eq].
Qed.

(* ---------------- types with maps ---------------- *)

Lemma ld_context_decides : decides ld_context_eqb same_context (ld_context_with held).
Proof.
  intros [s|m] [t|m'] Ha Hb; cbn [ld_context_eqb]; try (split; [discriminate|intros Q; inversion Q]).
  - plain. split; [intros ->; constructor|now inversion 1].
  - rewrite (map_decides _ _ _ json_decides m m' Ha Hb). split; [now constructor|now inversion 1].
Qed.
Definition subjects_decides := opt_decides _ _ _ (map_decides_eq subject_eqb subject_ok subject_decides).

Lemma cfp_decides : decides cfp_eqb same_credential (cfp_with held).
Proof.
  intros [ty su od|ty su od|cx ty su od|dt cl od] [ty' su' od'|ty' su' od'|cx' ty' su' od'|dt' cl' od'] Ha Hb;
    cbn [cfp_eqb]; try (split; [discriminate|intros Q; inversion Q]); cbn [cfp_with] in Ha, Hb;
    decompose [and] Ha; decompose [and] Hb; parts; plain.
  1, 2: rewrite (subjects_decides su su') by assumption;
    split; [intros [[-> Hsu] ->]; now constructor|inversion 1; subst; tauto].
  - rewrite (list_decides _ _ _ ld_context_decides cx cx'), (subjects_decides su su') by assumption.
    split; [intros [[[Hcx ->] Hsu] ->]; now constructor|inversion 1; subst; tauto].
  - rewrite (subjects_decides cl cl') by assumption. split; [intros [[-> Hsu] ->]; now constructor|inversion 1; subst; tauto].
Qed.
Lemma cfp_or_encoded_decides : decides cfp_or_encoded_eqb same_issued (cfp_or_encoded_with held).
Proof.
  intros [c|s] [c'|t] Ha Hb; cbn [cfp_or_encoded_eqb]; try (split; [discriminate|intros Q; inversion Q]).
  - rewrite (cfp_decides c c' Ha Hb). split; [now constructor|now inversion 1].
  - plain. split; [intros ->; constructor|now inversion 1].
Qed.
Lemma credential_or_id_decides : decides credential_or_id_eqb same_offered (credential_or_id_with held).
Proof.
  intros [s|c] [t|c'] Ha Hb; cbn [credential_or_id_eqb]; try (split; [discriminate|intros Q; inversion Q]).
  - plain. split; [intros ->; constructor|now inversion 1].
  - rewrite (cfp_decides c c' Ha Hb). split; [now constructor|now inversion 1].
Qed.
Lemma supported_decides : decides supported_eqb same_supported (supported_with held).
Proof.
  intros a b Ha Hb. unfold supported_eqb, same_supported. parts. plain.
  rewrite (opt_decides_eq _ (list_decides_eq _ display_decides) _ _), (cfp_decides _ _ (proj1 Ha) (proj1 Hb)). tauto.
Qed.
Lemma offer_decides : decides offer_eqb same_offer (offer_with held).
Proof.
  intros a b (_ & Ha & _) (_ & Hb & _). unfold offer_eqb, same_offer. parts. plain.
  rewrite (list_decides _ _ _ credential_or_id_decides _ _ Ha Hb), (grants_decides _ _). tauto.
Qed.
Lemma response_decides : decides credential_success_eqb same_response (credential_success_with held).
Proof.
  intros a b (_ & Ha & _) (_ & Hb & _). unfold credential_success_eqb, same_response. parts. plain.
  rewrite (opt_decides _ _ _ cfp_or_encoded_decides _ _ Ha Hb). tauto.
Qed.
Lemma result_decides : decides eval_response_eqb same_result result_held.
Proof.
  intros a b Ha Hb. unfold eval_response_eqb, same_result. parts. plain.
  rewrite (opt_decides_eq _ pop_decides _ _), (cfp_decides _ _ Ha Hb). tauto.
Qed.
Lemma error_response_decides {T} (e : T -> T -> bool) : decides_eq e ->
  decides (error_response_eqb e) same_error_response (fun r => on_some held (resp_details r)).
Proof.
  intros He a b Ha Hb. unfold error_response_eqb, same_error_response. parts. plain.
  rewrite (opt_decides _ _ _ json_decides _ _ Ha Hb), (He _ _). tauto.
Qed.
Lemma issuer_error_decides : decides issuer_error_eqb same_error error_held.
Proof.
  intros a b Ha Hb. split.
  - destruct a; destruct b; cbn [issuer_error_eqb]; try discriminate; parts; plain;
      rewrite ?(validation_error_decides _ _), ?(jwt_error_decides _ _); intros H; try (subst; constructor; discriminate);
      try (decompose [and] H; clear H; subst; constructor; discriminate).
    destruct (Ha _ _ eq_refl) as [A1 A2], (Hb _ _ eq_refl) as [B1 B2]. destruct H as [H1 H2].
    apply (cfp_decides _ _ A1 B1) in H1. apply (list_decides _ _ _ cfp_decides _ _ A2 B2) in H2. now constructor.
  - intros H. destruct H as [c c' l l' H1 H2|e H].
    + destruct (Ha _ _ eq_refl) as [A1 A2], (Hb _ _ eq_refl) as [B1 B2]. cbn [issuer_error_eqb]. parts.
      rewrite (cfp_decides _ _ A1 B1), (list_decides _ _ _ cfp_decides _ _ A2 B2). auto.
    + destruct e; cbn [issuer_error_eqb]; parts; plain; rewrite ?(validation_error_decides _ _), ?(jwt_error_decides _ _); auto.
      exfalso. now apply (H requested_credential supported_formats).
Qed.

Lemma return_decides {T E W} (t : T -> T -> bool) (e : E -> E -> bool) (w : W -> W -> bool) RT RE RW PT PE PW :
  decides t RT PT -> decides e RE PE -> decides w RW PW -> forall a b : return_object T E W,
  on_some PT (ro_info a) -> on_some PT (ro_info b) -> on_some PE (ro_error a) -> on_some PE (ro_error b) ->
  on_some (Forall PW) (ro_warnings a) -> on_some (Forall PW) (ro_warnings b) ->
  (return_object_eqb t e w a b = true
   <-> opt_rel RT (ro_info a) (ro_info b) /\ opt_rel RE (ro_error a) (ro_error b)
       /\ opt_rel (Forall2 RW) (ro_warnings a) (ro_warnings b)).
Proof.
  intros Ht He Hw a b A1 B1 A2 B2 A3 B3. unfold return_object_eqb. rewrite !Bool.andb_true_iff.
  rewrite (opt_decides _ _ _ Ht _ _ A1 B1), (opt_decides _ _ _ He _ _ A2 B2),
    (opt_decides _ _ _ (list_decides _ _ _ Hw) _ _ A3 B3). tauto.
Qed.
