(** What is read can be written and read again. *)
From Coq Require Import Lia Sorting.Sorted.
From Verif Require Import Model.Prelude Model.Json Model.Types Model.Deps Model.Chrono Model.Serde Model.SerdeOptions Model.Wire
  Spec SpecToken SpecJwt SpecJson SpecDocuments SpecWire SpecRelay
  Proofs.StrFacts Proofs.JsonFacts Proofs.SerdeFacts Proofs.JwtFacts Proofs.TokenFacts Proofs.OfferFacts
  Proofs.ResponseFacts Proofs.DocumentFacts Proofs.GrammarFacts Proofs.TimeFacts Proofs.DepthFacts Proofs.EvalFacts Proofs.WireFacts.

(* ---------------- what a text spells ---------------- *)

Definition spelt (sh : shape) (n : nat) (j : json) : Prop := exists t, value_text true sh n t j.

Lemma spelt_str sh n s : spelt sh n (JStr s) -> rust_string s.
Proof.
  intros (t & H). inversion H as [| | |? ? ? ? ? N|? ? ? ? ? S| | | |]; subst; [inversion N|].
  inversion S. auto.
Qed.

Lemma digits_value_le d : 0 <= digits_value 0 d. Proof. lia. Qed.

Lemma spelt_int sh n z : spelt sh n (JInt z) -> (- 2 ^ 63 <= z < 2 ^ 64)%Z.
Proof.
  intros (t & H). inversion H as [| | |? ? ? ? ? N| | | | |]; subst. inversion N; subst; lia.
Qed.

Lemma elements_nth w sh i n t l : elements_text w sh i n t l -> w = true ->
  forall j x, nth_error l j = Some x -> spelt (element_mode sh (i + j)) n x.
Proof.
  induction 1 as [w sh i n a s b j A B V|w sh i n a s b t j l A B V E IH]; intros -> [|k] x Hx; cbn [nth_error] in Hx.
  - injection Hx as <-. rewrite Nat.add_0_r. now exists s.
  - destruct k; discriminate.
  - injection Hx as <-. rewrite Nat.add_0_r. now exists s.
  - rewrite Nat.add_succ_r. now apply (IH eq_refl k).
Qed.

Lemma spelt_arr sh n l i x : spelt sh n (JArr l) -> nth_error l i = Some x ->
  exists n', n = S n' /\ spelt (element_mode sh i) n' x.
Proof.
  intros (t & H) Hx. inversion H as [| | |? ? ? ? ? N| |? ? ? m ? D W|? ? ? m ? ? D E| |]; subst; [inversion N| |].
  - destruct i; discriminate.
  - exists m. split; [exact D|]. now apply (elements_nth _ _ _ _ _ _ E eq_refl i).
Qed.

Lemma members_in w sh n t m : members_text w sh n t m -> w = true ->
  forall k x, In (k, x) m -> rust_string k /\ (forall s, taken sh k = Some s -> spelt s n x).
Proof.
  assert (G : forall w sh k t' key w' sh' n s j, string_text w t' key -> member_mode w sh key = (w', sh') ->
    value_text w' sh' n s j -> w = true -> (key, j) = k ->
    rust_string (fst k) /\ (forall s, taken sh (fst k) = Some s -> spelt s n (snd k))).
  { intros w' sh' k t' key w2 sh2 n' s j S M V -> <-. cbn [fst snd]. split; [inversion S; auto|].
    intros s' T. unfold member_mode in M. rewrite T in M. injection M as <- <-. now exists s. }
  induction 1 as [w sh w' sh' n a k key b c s d j ? ? ? ? S M V|w sh w' sh' n a k key b c s d t j l ? ? ? ? S M V E IH];
    intros W k0 x [I|I].
  - exact (G _ _ _ _ _ _ _ _ _ _ S M V W I).
  - destruct I.
  - exact (G _ _ _ _ _ _ _ _ _ _ S M V W I).
  - now apply IH.
Qed.

Lemma spelt_obj sh n m k x : spelt sh n (JObj m) -> In (k, x) m ->
  exists n', n = S n' /\ rust_string k /\ (forall s, taken sh k = Some s -> spelt s n' x).
Proof.
  intros (t & H) Hx. inversion H as [| | |? ? ? ? ? N| | | |? ? ? m0 ? D W|? ? ? m0 ? ? D E]; subst; [inversion N| |].
  - destruct Hx.
  - exists m0. split; [exact D|]. now apply (members_in _ _ _ _ _ E eq_refl).
Qed.

(** A value spelt as a whole, to any depth. *)
Lemma depth_list l n : (forall x, In x l -> (depth x <= n)%nat) -> (list_max (map depth l) <= n)%nat.
Proof.
  intros H. apply list_max_le, Forall_map, Forall_forall. exact H.
Qed.
Lemma depth_members (m : list (str * json)) n : (forall k x, In (k, x) m -> (depth x <= n)%nat) ->
  (list_max (map (fun kv => depth (snd kv)) m) <= n)%nat.
Proof.
  intros H. apply list_max_le, Forall_map, Forall_forall. intros [k x] I. now apply (H k).
Qed.

Lemma forall2_in {A B} (P : A -> B -> Prop) l l' y : Forall2 P l l' -> In y l' -> exists i x,
  nth_error l i = Some x /\ P x y.
Proof.
  induction 1 as [|a b l l' H F IH]; intros I; [destruct I|]. destruct I as [->|I].
  - exists O, a. auto.
  - destruct (IH I) as (i & x & E & Q). exists (S i), x. auto.
Qed.

Lemma becomes_f64 s t : float_becomes s t -> f64_text t.
Proof. intros (neg & int & frac & exp & x & P & _ & _ & W). exists neg, x. split; [apply P|exact W]. Qed.

Lemma spelt_float sh n t : spelt sh n (JFloat t) -> f64_text t.
Proof.
  intros (s & H). inversion H as [| | |? ? ? ? ? N| | | | |]; subst. inversion N; subst; [now apply becomes_f64 with s|discriminate].
Qed.

Lemma spelt_free n : forall j v, spelt Whole n j -> free_value j v -> value_any n v.
Proof.
  induction n as [|n IH]; intros j v S F.
  all: destruct F as [|b|z|s|s|l l' F|m m' SS KK F].
  4, 11: apply spelt_float in S; split; [now constructor|split; [constructor|cbn [depth]; lia]].
  1-4, 7-10: split; [constructor|split; [constructor|cbn [depth]; lia]].
  1-4: first [now apply spelt_int in S|now apply spelt_str in S].
  - split; [|split].
    + constructor. intros x I. destruct (forall2_in _ _ _ _ F I) as (i & y & E & _).
      destruct (spelt_arr _ _ _ _ _ S E) as (n' & [=] & _).
    + constructor. intros x I. destruct (forall2_in _ _ _ _ F I) as (i & y & E & _).
      destruct (spelt_arr _ _ _ _ _ S E) as (n' & [=] & _).
    + exfalso. destruct S as (t & S). inversion S as [| | |? ? ? ? ? N| |? ? ? ? ? D|? ? ? ? ? ? D| |]; subst; [inversion N|discriminate D|discriminate D].
  - exfalso. destruct S as (t & S). inversion S as [| | |? ? ? ? ? N| | | |? ? ? ? ? D|? ? ? ? ? ? D]; subst; [inversion N|discriminate D|discriminate D].
  - assert (G : forall x, In x l' -> value_any n x).
    { intros x I. destruct (forall2_in _ _ _ _ F I) as (i & y & E & Q).
      destruct (spelt_arr _ _ _ _ _ S E) as (n' & [= <-] & S'). apply (IH y); [exact S'|exact Q]. }
    split; [|split].
    + constructor. intros x I. apply (G x I).
    + constructor. intros x I. apply (G x I).
    + cbn [depth]. apply le_n_S, depth_list. intros x I. apply (G x I).
  - assert (G : forall k x, In (k, x) m' -> rust_string k /\ value_any n x).
    { intros k x I. destruct (F _ _ I) as (j & (b & a & E & _) & Q).
      destruct (spelt_obj _ _ _ k j S) as (n' & [= <-] & R & S').
      { rewrite E. apply in_or_app. right. now left. }
      split; [exact R|]. apply (IH j); [now apply S'|exact Q]. }
    split; [|split].
    + constructor; intros k x I; apply (G k x I).
    + constructor; [exact SS|]. intros k x I. apply (G k x I).
    + cbn [depth]. apply le_n_S, depth_members. intros k x I. apply (G k x I).
Qed.

(* ---------------- combinators ---------------- *)

(** Whatever is made of a value that a text spells satisfies [Q]. *)
Definition sound {A : Type} (sh : shape) (n : nat) (P : json -> A -> Prop) (Q : A -> Prop) : Prop :=
  forall v a, spelt sh n v -> P v a -> Q a.

Lemma sound_text sh n : sound sh n text_value rust_string.
Proof. intros v s S ->. now apply spelt_str in S. Qed.
Lemma sound_u32 sh n : sound sh n u32_value u32.
Proof. intros v s S [_ H]. exact H. Qed.
Lemma sound_u64 sh n : sound sh n u64_value u64.
Proof. intros v s S [_ H]. exact H. Qed.
Lemma sound_true {A} sh n (P : json -> A -> Prop) : sound sh n P (fun _ => True).
Proof. intros v a _ _. exact I. Qed.

Lemma sound_list {A} sh s n (P : json -> A -> Prop) Q : (forall i, element_mode sh i = s) ->
  sound s (pred n) P Q -> sound sh n (list_value P) (Forall Q).
Proof.
  intros He H v l S (js & -> & F). apply Forall_forall. intros a I.
  destruct (forall2_in _ _ _ _ F I) as (i & x & E & Px).
  destruct (spelt_arr _ _ _ _ _ S E) as (n' & -> & S'). rewrite He in S'. now apply (H x).
Qed.

Lemma first_occurrences_distinct l l' : first_occurrences l l' -> NoDup l' /\ incl l' l.
Proof.
  induction 1 as [|k l l' F [N C]]; [split; [constructor|intros x []]|]. split.
  - constructor; [|exact N]. intros I. apply C, filter_In in I. destruct I as [_ I].
    destruct (list_eq_dec ascii_dec k k); [discriminate|contradiction].
  - intros x [->|I]; [now left|]. right. apply C, filter_In in I. apply I.
Qed.

Lemma sound_map {A} n (P : json -> A -> Prop) Q :
  sound Whole (pred n) P Q -> sound Whole n (map_value P) (hmap_ok Q).
Proof.
  intros H v h S (m & -> & F & _ & G). split.
  - now apply first_occurrences_distinct in F.
  - intros k a I. destruct (G _ _ I) as (j & (b & c & E & _) & Pj).
    destruct (spelt_obj _ _ _ k j S) as (n' & -> & R & S').
    { rewrite E. apply in_or_app. right. now left. }
    split; [exact R|]. apply (H j); [now apply S'|exact Pj].
Qed.

(** The members of a struct. *)
Definition member_spelt (m : list (str * json)) (k : string) (s : shape) (n : nat) : Prop :=
  forall v, only_member m k v -> spelt s n v.

Lemma combine_nth_in {A B} (l : list A) (l' : list B) a b : In (a, b) (combine l l') ->
  exists i, nth_error l i = Some a /\ nth_error l' i = Some b.
Proof.
  revert l'. induction l as [|x l IH]; intros [|y l'] I; try destruct I as [].
  - injection H as -> ->. exists O. auto.
  - destruct (IH _ H) as (i & E & E'). exists (S i). auto.
Qed.

Lemma struct_member sh names n v m k s :
  spelt sh n v -> members_of names v m -> taken sh (lit k) = Some s ->
  (forall i, nth_error (map lit names) i = Some (lit k) -> element_mode sh i = s) ->
  member_spelt m k s (pred n).
Proof.
  intros S M T E w [I _]. destruct M as [m|l _].
  - destruct (spelt_obj _ _ _ _ _ S I) as (n' & -> & _ & G). now apply G.
  - apply combine_nth_in in I. destruct I as (i & Ek & Ew).
    destruct (spelt_arr _ _ _ _ _ S Ew) as (n' & -> & G). now rewrite (E _ Ek) in G.
Qed.

Lemma flat_member sh n m k s :
  spelt sh n (JObj m) -> taken sh (lit k) = Some s -> member_spelt m k s (pred n).
Proof.
  intros S T w [I _]. destruct (spelt_obj _ _ _ _ _ S I) as (n' & -> & _ & G). now apply G.
Qed.

Lemma required_sound {A} m k s n (P : json -> A -> Prop) Q a :
  member_spelt m k s n -> required_member m k P a -> sound s n P Q -> Q a.
Proof. intros M (v & O & Pv) H. apply (H v); [now apply M|exact Pv]. Qed.
Lemma optional_sound {A} m k s n (P : json -> A -> Prop) Q o :
  member_spelt m k s n -> optional_member m k P o -> sound s n P Q -> on_some Q o.
Proof.
  intros M O H a ->. destruct O as (v & O & Pv). apply (H v); [now apply M|exact Pv].
Qed.
Lemma text_sound m k s n t : member_spelt m k s n -> only_member m k (JStr t) -> rust_string t.
Proof. intros M O. apply M, spelt_str in O. exact O. Qed.

(** Positions of the fields of a struct. *)
Ltac position :=
  intros [|[|[|[|[|[|[|[|[|i]]]]]]]]]; try reflexivity; cbn [nth_error map]; intros E;
  first [discriminate E|exfalso; vm_compute in E; discriminate E|exfalso; destruct i; discriminate E].
Ltac field S M := eapply struct_member; [exact S|exact M|reflexivity|position].
Ltac flat S := eapply flat_member; [exact S|reflexivity].

(* ---------------- credentials ---------------- *)

Lemma subject_display_sound n : sound Whole n (subject_display_value Reading) subject_display_ok.
Proof.
  intros v x S (m & M & H1 & H2). split; (eapply optional_sound; [field S M|eassumption|apply sound_text]).
Qed.

Lemma subject_sound n : sound Whole n (subject_value Reading) subject_ok.
Proof.
  intros v x S (m & M & _ & H2 & H3). split.
  - eapply optional_sound; [field S M|exact H2|apply sound_text].
  - eapply optional_sound; [field S M|exact H3|]. apply sound_list with Whole; [reflexivity|apply subject_display_sound].
Qed.

Lemma texts_sound n : sound Whole n texts_value (Forall rust_string).
Proof. apply sound_list with Whole; [reflexivity|apply sound_text]. Qed.

Definition format_members : list string :=
  ["format"; "@context"; "types"; "credentialSubject"; "order"; "doctype"; "claims"]%string.

Lemma context_sound n : sound Whole n ld_context_value (ld_context_with (value_any (pred n))).
Proof.
  intros v x S C. destruct C as [s|v' h H]; [now apply spelt_str in S|].
  exact (sound_map n free_value (value_any (pred n)) (spelt_free (pred n)) v' h S H).
Qed.

Lemma credential_members p m c n : (forall k, In k format_members -> member_spelt m k Whole n) ->
  credential_of Reading p m c -> cfp_with (value_any (pred (pred n))) c.
Proof.
  intros G C.
  assert (forall k o, In k format_members -> optional_member m k (map_value (subject_value Reading)) o ->
    on_some (hmap_ok subject_ok) o) as HS.
  { intros k o I H. eapply optional_sound; [now apply (G k)|exact H|]. apply sound_map, subject_sound. }
  assert (forall k o, In k format_members -> optional_member m k texts_value o ->
    on_some (Forall rust_string) o) as HO.
  { intros k o I H. eapply optional_sound; [now apply (G k)|exact H|]. apply texts_sound. }
  assert (forall k o, In k format_members -> required_member m k texts_value o -> Forall rust_string o) as HT.
  { intros k o I H. eapply required_sound; [now apply (G k)|exact H|]. apply texts_sound. }
  destruct C as [ty su od F H1 H2 H3|ty su od F H1 H2 H3|cx ty su od F H0 H1 H2 H3|dt cl od F H1 H2 H3]; cbn [cfp_with].
  1, 2: split; [eapply HT; [|exact H1]; vm_compute; tauto|split; [eapply HS; [|exact H2]|eapply HO; [|exact H3]]; vm_compute; tauto].
  - split.
    + eapply required_sound; [apply (G "@context"%string); vm_compute; tauto|exact H0|].
      apply sound_list with Whole; [reflexivity|apply context_sound].
    + split; [eapply HT; [|exact H1]; vm_compute; tauto|split; [eapply HS; [|exact H2]|eapply HO; [|exact H3]]; vm_compute; tauto].
  - split; [|split; [eapply HS; [|exact H2]|eapply HO; [|exact H3]]; vm_compute; tauto].
    eapply required_sound; [apply (G "doctype"%string); vm_compute; tauto|exact H1|apply sound_text].
Qed.

Lemma credential_sound p n : sound Whole n (credential_value Reading p)
  (cfp_with (value_any (pred (pred (pred n))))).
Proof.
  intros v c S (m & M & H). apply (credential_members p m); [|exact H].
  intros k _. eapply struct_member; [exact S|exact M|reflexivity|reflexivity].
Qed.

(* ---------------- offers ---------------- *)

Lemma offered_sound n : sound Whole n (offered_value Reading)
  (credential_or_id_with (value_any (pred (pred (pred n))))).
Proof.
  intros v x S C. destruct C as [s|v' c H]; cbn [credential_or_id_with].
  - now apply spelt_str in S.
  - now apply (credential_sound Inside n v').
Qed.

Lemma offer_sound n : sound offer_layout n (offer_value Reading)
  (offer_with (value_any (pred (pred (pred (pred (pred n))))))).
Proof.
  intros v x S (m & M & H1 & H2 & H3). split; [|split].
  - eapply required_sound; [|exact H1|]; [field S M|apply sound_text].
  - eapply required_sound; [|exact H2|]; [field S M|]. apply sound_list with Whole; [reflexivity|apply offered_sound].
  - assert (member_spelt m "grants" (StructOf
        [(lit "authorization_code", plain [lit "issuer_state"]);
         (lit "urn:ietf:params:oauth:grant-type:pre-authorized_code",
            plain [lit "pre-authorized_code"; lit "user_pin_required"])]) (pred n)) as G by (field S M).
    destruct H3 as (g & O & m' & M' & A & P). apply G in O. split.
    + eapply optional_sound; [|exact A|]; [field O M'|]. intros w a S' (m2 & M2 & A2). unfold auth_flow_of in A2.
      unfold auth_flow_ok. eapply optional_sound; [|exact A2|]; [field S' M2|apply sound_text].
    + eapply optional_sound; [|exact P|]; [field O M'|]. intros w a S' (m2 & M2 & A2 & _).
      unfold preauth_flow_ok. eapply required_sound; [|exact A2|]; [field S' M2|apply sound_text].
Qed.

(* ---------------- metadata, requests, responses ---------------- *)

Lemma logo_sound n : sound (plain [lit "url"; lit "alt_text"]) n
  (struct_value Reading ["url"; "alt_text"]%string (all_of ["url"; "alt_text"]%string) logo_of) logo_ok.
Proof.
  intros v x S (m & M & H1 & H2). split.
  - eapply optional_sound; [|exact H1|]; [field S M|apply sound_text].
  - eapply optional_sound; [|exact H2|]; [field S M|apply sound_text].
Qed.

Lemma display_sound n : sound display_layout n
  (struct_value Reading display_names (all_of display_names) (display_of Reading)) display_ok.
Proof.
  intros v x S (m & M & H1 & H2 & H3 & H4 & H5 & H6). split; [|split; [|split; [|split; [|split]]]].
  - eapply required_sound; [|exact H1|]; [field S M|apply sound_text].
  - eapply optional_sound; [|exact H2|]; [field S M|apply sound_text].
  - eapply optional_sound; [|exact H3|]; [field S M|apply logo_sound].
  - eapply optional_sound; [|exact H4|]; [field S M|apply sound_text].
  - eapply optional_sound; [|exact H5|]; [field S M|apply sound_text].
  - eapply optional_sound; [|exact H6|]; [field S M|apply sound_text].
Qed.

Ltac every_member S :=
  let k := fresh "k" in let I := fresh "I" in
  intros k I; eapply flat_member; [exact S|];
  repeat (destruct I as [<-|I]; [reflexivity|]); destruct I.

Lemma supported_sound n : sound supported_layout n (supported_value Reading)
  (supported_with (value_any (pred (pred (pred n))))).
Proof.
  intros v x S (m & -> & H1 & H2 & H3 & H4 & H5). split; [|split; [|split; [|split]]].
  - apply (credential_members Inside m); [|exact H1]. every_member S.
  - eapply optional_sound; [|exact H2|]; [flat S|apply sound_text].
  - eapply optional_sound; [|exact H3|]; [flat S|apply texts_sound].
  - eapply optional_sound; [|exact H4|]; [flat S|apply texts_sound].
  - eapply optional_sound; [|exact H5|]; [flat S|].
    apply sound_list with display_layout; [reflexivity|apply display_sound].
Qed.

Lemma proof_sound n : sound (plain [lit "proof_type"; lit "jwt"]) n (request_proof_value Reading) proof_ok.
Proof.
  intros v x S P. destruct P as [m jwt H1 H2|m t jwt H1 H2|t jwt]; split; cbn [rp_proof_type rp_jwt].
  - now apply rust_string_ascii.
  - eapply text_sound; [|exact H2]. flat S.
  - eapply text_sound; [|exact H1]. flat S.
  - eapply text_sound; [|exact H2]. flat S.
  - destruct (spelt_arr _ _ _ O _ S eq_refl) as (n' & _ & G). now apply spelt_str in G.
  - destruct (spelt_arr _ _ _ 1%nat _ S eq_refl) as (n' & _ & G). now apply spelt_str in G.
Qed.

Lemma request_sound n : sound request_layout n (request_value Reading)
  (request_with (value_any (pred (pred (pred n))))).
Proof.
  intros v x S (m & -> & H1 & H2). split.
  - apply (credential_members Inside m); [|exact H1]. every_member S.
  - eapply optional_sound; [|exact H2|]; [flat S|apply proof_sound].
Qed.

Lemma issued_sound n : sound Whole n (issued_value Reading)
  (cfp_or_encoded_with (value_any (pred (pred (pred (pred n)))))).
Proof.
  intros v x S P. destruct P as [v c H|s]; cbn [cfp_or_encoded_with].
  - destruct (spelt_obj _ _ _ _ _ S (or_introl eq_refl)) as (n' & -> & _ & G).
    apply (credential_sound Alone n' v); [now apply G|exact H].
  - destruct (spelt_obj _ _ _ _ _ S (or_introl eq_refl)) as (n' & -> & _ & G).
    specialize (G Whole eq_refl). now apply spelt_str in G.
Qed.

Lemma success_sound n : sound (plain (map lit credential_success_names)) n (credential_success_value Reading)
  (credential_success_with (value_any (pred (pred (pred (pred (pred n))))))).
Proof.
  intros v x S (m & M & H1 & H2 & H3 & H4 & H5). split; [|split; [|split; [|split]]].
  - eapply required_sound; [|exact H1|]; [field S M|apply sound_text].
  - eapply optional_sound; [|exact H2|]; [field S M|apply issued_sound].
  - eapply optional_sound; [|exact H3|]; [field S M|apply sound_text].
  - eapply optional_sound; [|exact H4|]; [field S M|apply sound_text].
  - eapply optional_sound; [|exact H5|]; [field S M|apply sound_u32].
Qed.

Lemma token_request_sound n : sound (plain [lit "grant_type"]) n (token_request_value Reading) token_request_ok.
Proof.
  intros v x S (m & M & H). unfold token_request_of in H. unfold token_request_ok.
  assert (forall k, sound Whole k (grant_type_value Reading)
    (fun g => match g with GAuthorizedCode => True | GPreAuthorized c p => rust_string c /\ on_some u64 p end)) as G.
  { intros k w g S' (m' & M' & H'). destruct H' as [|code pin _ H1 H2]; [exact I|]. split.
    - eapply text_sound; [|exact H1]. field S' M'.
    - eapply optional_sound; [|exact H2|]; [field S' M'|apply sound_u64]. }
  pose proof (fun Hm => required_sound _ _ Whole (pred n) _ _ _ Hm H (G (pred n))) as R.
  destruct (tr_grant_type x); (apply R; field S M).
Qed.

Lemma token_success_sound n : sound (plain (map lit token_success_names)) n (token_success_value Reading) token_success_ok.
Proof.
  intros v x S (m & M & H1 & _ & H3 & H4 & H5 & H6 & _ & H8). split; [|split; [|split; [|split; [|split]]]].
  - eapply required_sound; [|exact H1|]; [field S M|apply sound_text].
  - eapply optional_sound; [|exact H3|]; [field S M|apply sound_u32].
  - eapply optional_sound; [|exact H4|]; [field S M|apply sound_text].
  - eapply optional_sound; [|exact H5|]; [field S M|apply sound_text].
  - eapply optional_sound; [|exact H6|]; [field S M|apply sound_u32].
  - eapply optional_sound; [|exact H8|]; [field S M|apply sound_u32].
Qed.

Lemma token_options_sound n : sound (plain [lit "expected_user_pin"]) n (token_options_value Reading) token_options_ok.
Proof.
  intros v x S (m & M & H). unfold token_options_of in H. unfold token_options_ok.
  eapply optional_sound; [|exact H|]; [field S M|apply sound_u64].
Qed.

Lemma c_nonce_sound n : sound (plain (map lit c_nonce_names)) n (c_nonce_value Reading) c_nonce_ok.
Proof.
  intros v x S (m & M & H1 & H2). split.
  - eapply required_sound; [|exact H1|]; [field S M|apply sound_text].
  - eapply optional_sound; [|exact H2|]; [field S M|apply sound_u32].
Qed.

(* ---------------- dates ---------------- *)

Section Dates.
Context (d : deps) (Hd : dates_in_range d).

Lemma instant_sound sh n : sound sh n (instant_value d) (fun t => in_instant_range t = true).
Proof. intros v t _ (s & _ & H). now apply Hd in H. Qed.

Lemma nonce_options_sound n : sound (plain (map lit nonce_option_names)) n
  (struct_value Reading nonce_option_names (all_of nonce_option_names) (nonce_options_of d)) c_nonce_options_ok.
Proof.
  intros v x S (m & M & H1 & H2 & H3). split; [|split].
  - eapply required_sound; [|exact H1|]; [field S M|apply sound_u32].
  - eapply required_sound; [|exact H2|]; [field S M|apply sound_text].
  - pose proof (fun Hm => required_sound _ _ Whole (pred n) _ _ _ Hm H3 (instant_sound Whole (pred n))) as R.
    apply R. field S M.
Qed.

Lemma eval_options_sound n : sound eval_options_layout n (eval_options_value Reading d) eval_options_ok.
Proof.
  intros v x S (m & M & H1 & H2). split.
  - eapply optional_sound; [|exact H1|]; [field S M|apply nonce_options_sound].
  - eapply optional_sound; [|exact H2|]; [field S M|apply sound_text].
Qed.

Lemma claims_sound n : sound (plain (map lit claim_names)) n
  (struct_value Reading claim_names claims_written (claims_of d)) (fun b => body_ok b /\ body_instants_ok b).
Proof.
  intros v x S (m & M & H1 & H2 & H3 & H4 & H5 & H6 & H7). split.
  - split; [|split; [|split]].
    + eapply optional_sound; [|exact H1|]; [field S M|apply sound_text].
    + eapply text_sound; [|exact H2]. field S M.
    + eapply optional_sound; [|exact H3|]; [field S M|apply sound_text].
    + eapply text_sound; [|exact H5]. field S M.
  - split; [|split].
    + destruct H4 as (w & _ & s & _ & H4). now apply Hd in H4.
    + eapply optional_sound; [|exact H6|]; [field S M|apply instant_sound].
    + eapply optional_sound; [|exact H7|]; [field S M|apply instant_sound].
Qed.

Lemma header_sound n : sound Whole n (header_value Reading) header_ok.
Proof.
  intros v h S (m & -> & H1 & _ & K). split.
  - eapply text_sound; [|exact H1]. flat S.
  - intros s Hs. destruct K as [_|before after k s' key E _ KI|before after k w _ _ _ _].
    + destruct Hs as [E|[E|E]]; discriminate.
    + assert (In (lit k, JStr s') m) as I by (rewrite E; apply in_or_app; right; now left).
      destruct (spelt_obj _ _ _ _ _ S I) as (n' & _ & _ & G). specialize (G Whole eq_refl). apply spelt_str in G.
      destruct KI; destruct Hs as [E'|[E'|E']]; try discriminate; now injection E' as <-.
    + destruct Hs as [E|[E|E]]; discriminate.
Qed.

Lemma proof_jwt_sound n : sound proof_jwt_layout n (proof_jwt_value Reading d) proof_jwt_ok.
Proof.
  intros v x S (m & M & H1 & H2 & H3).
  assert (body_ok (j_body x) /\ body_instants_ok (j_body x)) as [B1 B2].
  { pose proof (fun Hm => required_sound _ _ (plain (map lit claim_names)) (pred n) _ _ _ Hm H2 (claims_sound (pred n))) as R.
    apply R. field S M. }
  split; [|split; [exact B1|split; [exact B2|]]].
  - eapply required_sound; [|exact H1|]; [field S M|apply header_sound].
  - eapply optional_sound; [|exact H3|]; [field S M|apply sound_text].
Qed.

End Dates.

(* ---------------- metadata ---------------- *)

Lemma metadata_sound n m x : spelt metadata_layout n (JObj m) -> metadata_of Reading m x ->
  metadata_with (value_any (pred (pred (pred (pred (pred n)))))) (value_any (pred n)) x
  /\ exists a, im_additional_fields x = Some a /\ forall k, In k (map fst a) -> ~ names_metadata k.
Proof.
  intros S (H1 & H2 & H3 & H4 & H5 & H6).
  assert (A : exists a, im_additional_fields x = Some a /\ hmap_ok (value_any (pred n)) a
     /\ forall k, In k (map fst a) -> ~ names_metadata k); [|destruct A as (a & E & A1 & A2); split; [|now exists a];
       split; [|split; [|split; [|split; [|split]]]]].
  - unfold additional_fields_of in H6. destruct (im_additional_fields x) as [a|] eqn:E; [|discriminate H6].
    exists a. split; [reflexivity|]. destruct H6 as (m' & [= <-] & F & _ & G).
    destruct (first_occurrences_distinct _ _ F) as [N C].
    assert (forall k, In k (map fst a) -> ~ names_metadata k) as NN.
    { intros k I (nm & I1 & ->). apply C, in_map_iff in I. destruct I as ([k' v] & E' & I). cbn [fst] in E'. subst k'.
      unfold members_except in I. apply filter_In in I. destruct I as [_ I]. cbn [fst] in I.
      destruct (in_dec (list_eq_dec ascii_dec) (lit nm) (map lit metadata_names)) as [_|X]; [discriminate|].
      now apply X, in_map. }
    split; [|exact NN]. split; [exact N|]. intros k v I.
    destruct (G _ _ I) as (j & (b & c & E' & _) & Pj).
    assert (In (k, j) m) as Im.
    { assert (In (k, j) (members_except metadata_names m)) as Ie by (rewrite E'; apply in_or_app; right; now left).
      unfold members_except in Ie. now apply filter_In in Ie. }
    destruct (spelt_obj _ _ _ _ _ S Im) as (n' & -> & R & S'). split; [exact R|].
    apply (spelt_free n' j); [|exact Pj].
    apply S'. assert (~ names_metadata k) as NK by (apply NN; now apply (in_map fst) in I).
    assert (forall nm, In nm metadata_names -> k <> lit nm) as NE by (intros nm I1 ->; apply NK; now exists nm).
    unfold metadata_layout, whole. cbn [taken listed map app].
    repeat match goal with |- context [list_eq_dec ascii_dec k (lit ?nm)] =>
      destruct (list_eq_dec ascii_dec k (lit nm)) as [EE|_]; [exfalso; apply (NE nm); [cbn; tauto|exact EE]|] end.
    reflexivity.
  - eapply required_sound; [|exact H1|]; [flat S|apply sound_text].
  - eapply optional_sound; [|exact H2|]; [flat S|apply sound_text].
  - eapply required_sound; [|exact H3|]; [flat S|apply sound_text].
  - eapply optional_sound; [|exact H4|]; [flat S|apply sound_text].
  - eapply required_sound; [|exact H5|]; [flat S|]. apply sound_list with supported_layout; [reflexivity|apply supported_sound].
  - intros a' E'. rewrite E in E'. now injection E' as <-.
Qed.

(* ---------------- kept numbers ---------------- *)

Lemma loose_kept n v : value_any n v -> numbers_kept v -> value_ok n v.
Proof.
  intros (L & V & D) K. split; [|split; assumption]. clear V D. revert K.
  induction L as [|b|z Z|t F|s R|l _ IH|m R _ IH]; intros K; try (constructor; assumption); constructor.
  - apply K. constructor.
  - intros x I. apply (IH x I). intros s N. apply K. now apply ni_element with x.
  - exact R.
  - intros k x I. apply (IH k x I). intros s N. apply K. now apply ni_member with k x.
Qed.

Lemma map_kept n h : hmap_ok (value_any n) h -> (forall k v, In (k, v) h -> numbers_kept v) -> hmap_ok (value_ok n) h.
Proof.
  intros [W H] K. split; [exact W|]. intros k v I. destruct (H k v I) as [R L]. split; [exact R|].
  apply loose_kept; [exact L|now apply (K k)].
Qed.

Lemma credential_with_kept n c : cfp_with (value_any n) c -> credential_kept c -> cfp_ok n c.
Proof.
  intros L K. destruct c as [ty su od|ty su od|cx ty su od|dt cl od]; [exact L|exact L| |exact L].
  destruct L as [L R]. split; [|exact R]. rewrite Forall_forall in L |- *. intros x I. specialize (L x I).
  destruct x as [s|h]; [exact L|]. apply map_kept; [exact L|]. intros k v Iv. apply K. now apply fi_context with k h.
Qed.

Lemma offer_with_kept n x : offer_with (value_any n) x -> offer_kept x -> offer_ok n x.
Proof.
  intros (H1 & H2 & H3) K. split; [exact H1|]. split; [|exact H3]. rewrite Forall_forall in H2 |- *.
  intros c I. specialize (H2 c I). destruct c as [s|c]; [exact H2|]. apply credential_with_kept; [exact H2|now apply K].
Qed.
Lemma request_with_kept n x : request_with (value_any n) x -> credential_kept (cr_format x) -> request_ok n x.
Proof. intros [H1 H2] K. split; [now apply credential_with_kept|exact H2]. Qed.
Lemma response_with_kept n x : credential_success_with (value_any n) x -> response_kept x -> credential_success_ok n x.
Proof.
  intros (H1 & H2 & H3) K. split; [exact H1|]. split; [|exact H3]. intros c E. specialize (H2 c E).
  destruct c as [c|s]; [|exact H2]. apply credential_with_kept; [exact H2|now apply K].
Qed.
Lemma supported_with_kept n x : supported_with (value_any n) x -> credential_kept (sup_format x) -> supported_ok n x.
Proof. intros [H1 H2] K. split; [now apply credential_with_kept|exact H2]. Qed.

(* ---------------- the documents ---------------- *)

Lemma spelt_text sh s v : shaped_text sh s v -> spelt sh 127 v.
Proof. intros (a & t & b & _ & _ & _ & V). now exists t. Qed.

Lemma token_request_relay s x : token_request_from_json s = Some x ->
  token_request_from_json (token_request_to_json x) = Some x.
Proof.
  intros H. apply token_request_reading in H. destruct H as (v & T & V).
  apply token_request_json_rt, (token_request_sound 127 v); [now apply spelt_text in T|exact V].
Qed.
Lemma token_success_relay s x : token_success_from_json s = Some x ->
  token_success_from_json (token_success_to_json x) = Some x.
Proof.
  intros H. apply token_success_reading in H. destruct H as (v & T & V).
  apply token_success_json_rt, (token_success_sound 127 v); [now apply spelt_text in T|exact V].
Qed.
Lemma token_options_relay s x : token_options_from_json s = Some x ->
  token_options_from_json (token_options_to_json x) = Some x.
Proof.
  intros H. apply token_options_reading in H. destruct H as (v & T & V).
  apply token_options_json_rt, (token_options_sound 127 v); [now apply spelt_text in T|exact V].
Qed.
Lemma c_nonce_relay s x : c_nonce_from_json s = Some x -> c_nonce_from_json (c_nonce_to_json x) = Some x.
Proof.
  intros H. apply c_nonce_reading in H. destruct H as (v & T & V).
  apply c_nonce_json_rt, (c_nonce_sound 127 v); [now apply spelt_text in T|exact V].
Qed.
Lemma header_relay s x : header_from_json s = Some x -> header_from_json (header_to_json x) = Some x.
Proof.
  intros H. apply header_reading in H. destruct H as (v & T & V).
  apply header_json_rt, (header_sound 127 v); [now apply spelt_text in T|exact V].
Qed.
Lemma claims_relay d s x : dt_round_trips d -> dates_in_range d -> claims_from_json d s = Some x ->
  claims_from_json d (claims_to_json d x) = Some x.
Proof.
  intros R Hd H. apply claims_reading in H. destruct H as (v & T & V).
  apply spelt_text in T. destruct (claims_sound d Hd 127 v x T V) as [B1 B2]. now apply claims_json_rt.
Qed.
Lemma eval_options_relay d s x : dt_round_trips d -> dates_in_range d -> eval_options_from_json d s = Some x ->
  eval_options_from_json d (eval_options_to_json d x) = Some x.
Proof.
  intros R Hd H. apply eval_options_reading in H. destruct H as (v & T & V).
  apply spelt_text in T. apply eval_options_json_rt; [exact R|]. exact (eval_options_sound d Hd 127 v x T V).
Qed.
Lemma proof_jwt_relay d s x : dt_round_trips d -> dates_in_range d -> proof_jwt_from_json d s = Some x ->
  proof_jwt_from_json d (proof_jwt_to_json d x) = Some x.
Proof.
  intros R Hd H. apply proof_jwt_reading in H. destruct H as (v & T & V).
  apply spelt_text in T. apply proof_jwt_json_rt; [exact R|]. exact (proof_jwt_sound d Hd 127 v x T V).
Qed.
Lemma cfp_relay s x : cfp_from_json s = Some x -> credential_kept x -> cfp_from_json (cfp_to_json x) = Some x.
Proof.
  intros H K. apply cfp_reading in H. destruct H as (v & T & V). apply spelt_text in T.
  apply (cfp_json_rt 124); [|reflexivity]. apply credential_with_kept; [exact (credential_sound Alone 127 v x T V)|exact K].
Qed.
Lemma offer_relay s x : offer_from_json s = Some x -> offer_kept x -> offer_from_json (offer_to_json x) = Some x.
Proof.
  intros H K. apply offer_reading in H. destruct H as (v & T & V). apply spelt_text in T.
  apply (offer_json_rt 122); [|reflexivity]. apply offer_with_kept; [exact (offer_sound 127 v x T V)|exact K].
Qed.
Lemma request_relay s x : credential_request_from_json s = Some x -> credential_kept (cr_format x) ->
  credential_request_from_json (credential_request_to_json x) = Some x.
Proof.
  intros H K. apply credential_request_reading in H. destruct H as (v & T & V). apply spelt_text in T.
  apply (request_json_rt 124); [|reflexivity]. apply request_with_kept; [exact (request_sound 127 v x T V)|exact K].
Qed.
Lemma success_relay s x : credential_success_from_json s = Some x -> response_kept x ->
  credential_success_from_json (credential_success_to_json x) = Some x.
Proof.
  intros H K. apply credential_success_reading in H. destruct H as (v & T & V). apply spelt_text in T.
  apply (credential_success_json_rt 122); [|reflexivity]. apply response_with_kept; [exact (success_sound 127 v x T V)|exact K].
Qed.
Lemma metadata_relay s x : metadata_from_json s = Some x -> metadata_kept x ->
  metadata_from_json (metadata_to_json x) = Some x.
Proof.
  intros H K. apply metadata_reading in H. destruct H as (v & T & m & -> & V). apply spelt_text in T.
  destruct (metadata_sound 127 m x T V) as ((H1 & H2 & H3 & H4 & H5 & H6) & a & E & N). cbn [pred] in *.
  destruct K as [K1 K2].
  assert (Forall (supported_ok 122) (im_credentials_supported x)) as H5'.
  { rewrite Forall_forall in H5 |- *. intros s0 I. apply supported_with_kept; [now apply H5|now apply K1]. }
  assert (hmap_ok (value_ok 126) a) as H6'.
  { apply map_kept; [now apply H6|]. intros k v I. now apply (K2 a k). }
  assert (metadata_ok 126 x) as O.
  { repeat (split; [assumption|]). split.
    - eapply Forall_impl; [|exact H5']. intros s0. apply supported_ok_mono. lia.
    - intros a' E'. rewrite E in E'. now injection E' as <-. }
  destruct (metadata_exactly 126 x O) as [M _].
  { intros a' k E'. rewrite E in E'. injection E' as <-. apply N. }
  rewrite M.
  - rewrite E. destruct x; cbn in *. subst. reflexivity.
  - split; [exact H5'|]. intros a' E'. rewrite E in E'. now injection E' as <-.
Qed.

(* ---------------- numbers ---------------- *)

(** How to see that a number is kept. *)
Definition no_white (s : str) : bool := forallb (fun c => 32 <? code c) s.

Lemma white_none a : white a -> no_white a = true -> a = [].
Proof.
  destruct a as [|c a]; [reflexivity|]. intros W H. cbn [no_white forallb] in H.
  apply andb_prop in H. destruct H as [H _]. apply N.ltb_lt in H. inversion W as [|? ? C _]. lia.
Qed.

Lemma becomes_computed s t : no_white s = true -> parse_json s = Some (JFloat t) -> float_becomes s t.
Proof.
  intros NW H. apply parse_json_iff in H. destruct H as (a & u & b & -> & Wa & Wb & V).
  unfold no_white in NW. rewrite !forallb_app in NW. apply andb_prop in NW. destruct NW as [Na NW].
  apply andb_prop in NW. destruct NW as [_ Nb].
  rewrite (white_none a Wa Na), (white_none b Wb Nb), app_nil_r. cbn [app].
  inversion V as [| | |? ? ? ? ? N| | | | |]; subst. inversion N; subst; [assumption|discriminate].
Qed.

(** A text that is relayed as another one and back. *)
Lemma alternating_refutes {A : Type} (from : str -> option A) (to : A -> str) a b :
  a <> b -> option_map to (from a) = Some b -> option_map to (from b) = Some a ->
  ~ (forall s x, from s = Some x -> from (to x) = Some x).
Proof.
  intros N U D H. destruct (from a) as [x|] eqn:E; [|discriminate U]. injection U as U.
  apply H in E. rewrite U in E. rewrite E in D. injection D as D. congruence.
Qed.

(* ---------------- dates ---------------- *)

Lemma chrono_dates d : dates_in_range (with_chrono d).
Proof. intros s t H. apply chrono_parse_iff in H. destruct H as (x & c & o & dn & H). apply H. Qed.
