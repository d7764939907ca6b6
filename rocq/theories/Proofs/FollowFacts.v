(** Written documents against the draft (C124). *)
From Coq Require Import Lia.
From Verif Require Import Model.Prelude Model.Json Model.Types Model.Deps Model.Serde Model.SerdeOptions Model.Wire
  Spec SpecToken SpecJson SpecJwt SpecDocuments SpecWire SpecDraft
  Proofs.StrFacts Proofs.JsonFacts Proofs.SerdeFacts Proofs.DocumentFacts Proofs.ReaderFacts Proofs.GrammarFacts Proofs.WireFacts
  Proofs.AnyDepth Proofs.WrittenFacts Proofs.TwiceFacts Proofs.ResponseFacts Proofs.DraftFacts.

(* ---------------- members ---------------- *)

Lemma object_iff Q m : NoDup (map fst m) -> (an_object Q (JObj m) <-> Q m).
Proof. intros N. split; [intros (m' & [= <-] & _ & H); exact H|intros H; now exists m]. Qed.

Lemma may_app m1 m2 k Q : may (m1 ++ m2) k Q <-> may m1 k Q /\ may m2 k Q.
Proof.
  unfold may. split.
  - intros H. split; intros v I; apply H; apply in_or_app; tauto.
  - intros [H1 H2] v I. apply in_app_or in I. destruct I; auto.
Qed.
Lemma may_nil k Q : may [] k Q <-> True.
Proof. split; [trivial|intros _ v []]. Qed.
Lemma may_field k v Q : may (field k v) k Q <-> Q v.
Proof.
  split; [intros H; apply H; now left|]. intros H w [E|[]]. now injection E as <-.
Qed.
Lemma may_field_other k k' v Q : k' <> k -> (may (field k' v) k Q <-> True).
Proof.
  intros N. split; [trivial|]. intros _ w [E|[]]. apply pair_equal_spec in E. destruct E as [E _]. now apply lit_inj in E.
Qed.
Lemma may_option {A} k (f : A -> json) o Q : may (field_opt k f o) k Q <-> forall a, o = Some a -> Q (f a).
Proof.
  destruct o as [a|].
  - rewrite (may_field k (f a) Q). split; [intros H a' [= <-]; exact H|]. intros H. now apply H.
  - split; [discriminate|]. intros _ v [].
Qed.
Lemma may_option_other {A} k k' (f : A -> json) o Q : k' <> k -> (may (field_opt k' f o) k Q <-> True).
Proof. intros N. destruct o as [a|]; [exact (may_field_other k k' (f a) Q N)|apply may_nil]. Qed.

Lemma must_app m1 m2 k Q : must (m1 ++ m2) k Q <-> must m1 k Q \/ must m2 k Q.
Proof.
  unfold must. split.
  - intros (v & I & H). apply in_app_or in I. destruct I; [left|right]; now exists v.
  - intros [(v & I & H)|(v & I & H)]; exists v; (split; [|exact H]); apply in_or_app; tauto.
Qed.
Lemma must_nil k Q : must [] k Q <-> False.
Proof. split; [intros (v & [] & _)|contradiction]. Qed.
Lemma must_field k v (Q : json -> Prop) : must (field k v) k Q <-> Q v.
Proof. split; [|intros H; exists v; split; [now left|exact H]]. intros (w & [E|[]] & H). now injection E as <-. Qed.
Lemma must_field_other k k' v Q : k' <> k -> (must (field k' v) k Q <-> False).
Proof.
  intros N. split; [|contradiction]. intros (w & [E|[]] & _). apply pair_equal_spec in E. destruct E as [E _].
  now apply lit_inj in E.
Qed.
Lemma must_option_other {A} k k' (f : A -> json) o Q : k' <> k -> (must (field_opt k' f o) k Q <-> False).
Proof. intros N. destruct o as [a|]; [exact (must_field_other k k' (f a) Q N)|apply must_nil]. Qed.

Lemma format_must m f : format_is m f <-> must m "format" (fun v => v = JStr (lit f)).
Proof. split; [intros H; now exists (JStr (lit f))|]. intros (v & I & ->). exact I. Qed.
Lemma present_must m k : present m k <-> must m k (fun _ => True).
Proof.
  split; [|intros (v & I & _); exact (in_map fst m _ I)]. intros I. apply in_map_iff in I.
  destruct I as ([k' v] & E & I). cbn [fst] in E. subst k'. now exists v.
Qed.

Lemma or_false_l P : False \/ P <-> P. Proof. tauto. Qed.
Lemma or_false_r P : P \/ False <-> P. Proof. tauto. Qed.
Lemma and_both (P P' Q Q' : Prop) : (P <-> P') -> (Q <-> Q') -> (P /\ Q <-> P' /\ Q'). Proof. tauto. Qed.
Lemma and_true_l P : True /\ P <-> P. Proof. tauto. Qed.
Lemma and_true_r P : P /\ True <-> P. Proof. tauto. Qed.

#[local] Hint Rewrite may_app may_nil may_field @may_option must_app must_nil must_field
  or_false_l or_false_r and_true_l and_true_r : members.
#[local] Hint Rewrite may_field_other @may_option_other must_field_other @must_option_other using discriminate : members.
Ltac members := autorewrite with members.

(** Names that differ. *)
Ltac differ := match goal with
  | |- ~ In _ _ => let Q := fresh in intros Q; cbn [In app map] in Q; repeat destruct Q as [Q|Q]; try contradiction;
      apply lit_inj in Q; discriminate Q
  | |- NoDup _ => constructor; differ
  | |- _ => idtac
  end.

(* ---------------- values ---------------- *)

Lemma text_iff s : a_text (JStr s) <-> True.
Proof. split; [trivial|intros _; now exists s]. Qed.
Lemma truth_iff b : a_truth (JBool b) <-> True.
Proof. split; [trivial|intros _; now exists b]. Qed.
Lemma array_iff {A} (Q : json -> Prop) (S : A -> json) l : an_array Q (ser_list S l) <-> Forall (fun a => Q (S a)) l.
Proof.
  split.
  - intros (js & [= <-] & H). rewrite Forall_map in H. exact H.
  - intros H. exists (map S l). split; [reflexivity|]. now rewrite Forall_map.
Qed.
Lemma texts_iff l : texts (ser_list JStr l) <-> True.
Proof. split; [trivial|]. intros _. apply array_iff, Forall_forall. intros s _. now exists s. Qed.

Lemma given_iff {A} (Q : json -> Prop) (S : A -> json) o : ~ Q JNull -> (forall a, Q (S a)) -> (Q (ser_opt S o) <-> given o).
Proof.
  intros N H. unfold given. destruct o as [a|]; cbn [ser_opt].
  - split; [discriminate|intros _; apply H].
  - split; [contradiction|]. intros D. now contradiction D.
Qed.
Lemma some_iff {A} (Q : json -> Prop) (S : A -> json) o : ~ Q JNull -> (Q (ser_opt S o) <-> exists a, o = Some a /\ Q (S a)).
Proof.
  intros N. destruct o as [a|]; cbn [ser_opt].
  - split; [now exists a|intros (? & [= <-] & H); exact H].
  - split; [contradiction|]. intros (? & [=] & _).
Qed.

Lemma text_null : ~ a_text JNull. Proof. intros [s [=]]. Qed.
Lemma truth_null : ~ a_truth JNull. Proof. intros [s [=]]. Qed.
Lemma count_null : ~ a_count JNull. Proof. intros [s [=]]. Qed.
Lemma array_null Q : ~ an_array Q JNull. Proof. intros (l & [=] & _). Qed.
Lemma object_null Q : ~ an_object Q JNull. Proof. intros (l & [=] & _). Qed.

Lemma text_given o : a_text (ser_opt JStr o) <-> given o.
Proof. apply given_iff; [exact text_null|]. intros s. now exists s. Qed.
Lemma truth_given o : a_truth (ser_opt JBool o) <-> given o.
Proof. apply given_iff; [exact truth_null|]. intros s. now exists s. Qed.
Lemma count_given o : a_count (ser_opt ser_N o) <-> given o.
Proof. apply given_iff; [exact count_null|]. intros s. now exists s. Qed.
Lemma texts_given o : texts (ser_opt (ser_list JStr) o) <-> given o.
Proof. apply given_iff; [apply array_null|]. intros s. now apply texts_iff. Qed.
#[local] Hint Rewrite text_iff truth_iff texts_iff text_given truth_given count_given texts_given : members.

(* ---------------- claims ---------------- *)

Lemma subject_display_follows x : claim_display (ser_subject_display x).
Proof.
  apply object_iff; [destruct x as [[] []]; cbn; differ|]. members. split; intros s _; now exists s.
Qed.

Lemma subject_follows x : claim_object (ser_subject x).
Proof.
  constructor; [destruct x as [[] [] []]; cbn; differ|]. intros k j I.
  apply in_app_or in I. destruct I as [I|I]; [|apply in_app_or in I; destruct I as [I|I]].
  - destruct (cs_mandatory x) as [b|]; [destruct I as [[= <- <-]|[]]|destruct I]. apply cm_mandatory. now exists b.
  - destruct (cs_value_type x) as [b|]; [destruct I as [[= <- <-]|[]]|destruct I]. apply cm_other. differ.
  - destruct (cs_display x) as [b|]; [destruct I as [[= <- <-]|[]]|destruct I]. apply cm_display.
    apply array_iff, Forall_forall. intros d _. apply subject_display_follows.
Qed.

Lemma map_names {A} (S : A -> json) h : map fst (map (fun kv : str * A => (fst kv, S (snd kv))) h) = map fst h.
Proof. rewrite map_map. apply map_ext. now intros []. Qed.

Lemma every_iff {A} Q (S : A -> json) h : NoDup (map fst h) ->
  (every_member Q (ser_hmap S h) <-> forall k a, In (k, a) h -> Q (S a)).
Proof.
  intros N. unfold every_member, ser_hmap. rewrite object_iff; [|now rewrite map_names]. split.
  - intros H k a I. apply (H k). apply in_map_iff. now exists (k, a).
  - intros H k j I. apply in_map_iff in I. destruct I as ([k' a] & E & I). cbn [fst snd] in E. injection E as _ <-.
    now apply (H k').
Qed.

Lemma subjects_follow h : hmap_ok subject_ok h -> subject_claims (ser_hmap ser_subject h).
Proof. intros [N _]. apply every_iff; [exact N|]. intros k a _. apply subject_follows. Qed.

Lemma namespace_iff x : every_member claim_object (ser_subject x) <->
  cs_mandatory x = None /\ cs_value_type x = None /\ cs_display x = None.
Proof.
  unfold every_member, ser_subject. rewrite object_iff; [|destruct x as [[] [] []]; cbn; differ]. split.
  - intros H. destruct x as [[b|] [t|] [d|]]; cbn [cs_mandatory cs_value_type cs_display field_opt app] in *;
      [..|now repeat split];
      match type of H with forall k j, In _ ((?a, ?v) :: _) -> _ => specialize (H a v (or_introl eq_refl)); inversion H end.
  - intros (-> & -> & ->) k j [].
Qed.

Lemma namespaces_iff o : on_some (hmap_ok subject_ok) o ->
  ((forall h, o = Some h -> mdoc_claims (ser_hmap ser_subject h)) <-> says_nothing o).
Proof.
  intros K. unfold says_nothing. split.
  - intros H h n s E I. specialize (H h E).
    apply namespace_iff. exact (proj1 (every_iff (every_member claim_object) ser_subject h (proj1 (K h E))) H n s I).
  - intros H h E. apply (every_iff (every_member claim_object) ser_subject h (proj1 (K h E))). intros k s I. apply namespace_iff. exact (H h k s E I).
Qed.

(* ---------------- credentials ---------------- *)

(** Members with other names do not matter. *)
Definition same_members (names : list string) (m m' : list (str * json)) : Prop :=
  forall k v, In k names -> (In (lit k, v) m <-> In (lit k, v) m').
Lemma same_sym names m m' : same_members names m m' -> same_members names m' m.
Proof. intros H k v I. symmetry. now apply H. Qed.
Lemma same_may names m m' k Q : same_members names m m' -> In k names -> may m k Q -> may m' k Q.
Proof. intros S I H v J. apply H. now apply (S k v I). Qed.
Lemma same_must names m m' k Q : same_members names m m' -> In k names -> must m k Q -> must m' k Q.
Proof. intros S I (v & J & H). exists v. split; [now apply (S k v I)|exact H]. Qed.
Lemma same_not names m m' l : same_members names m m' -> (forall k, In k l -> In k names) -> not_defined m l -> not_defined m' l.
Proof.
  intros S L H k I J. apply (H k I). apply in_map_iff in J. destruct J as ([k' v] & E & J). cbn [fst] in E. subst k'.
  apply (S k v (L k I)) in J. exact (in_map fst m _ J).
Qed.
Definition credential_members : list string :=
  ["format"; "types"; "credentialSubject"; "order"; "credential_definition"; "@context"; "doctype"; "claims"]%string.
Ltac named := cbn [credential_members In]; tauto.
Lemma same_format m m' f : same_members credential_members m m' -> format_is m f -> format_is m' f.
Proof. intros S H. apply (S "format"%string); [named|exact H]. Qed.
Lemma same_asked m m' : same_members credential_members m m' -> asked_members m -> asked_members m'.
Proof.
  intros S H. pose proof (fun k Q I => same_may _ _ _ k Q S I) as Y. pose proof (fun k Q I => same_must _ _ _ k Q S I) as U.
  pose proof (fun f => same_format _ _ f S) as F. destruct H as [H1 H2 H3 H4|H1 H2 H3|H1 H2 H3 H4|(f & H & O)].
  - apply am_jwt; [now apply F|apply U; [named|exact H2]|apply Y; [named|exact H3]|apply Y; [named|exact H4]].
  - apply am_ld; [destruct H1; [left|right]; now apply F|apply U; [named|exact H2]|].
    apply (same_not _ _ _ _ S); [|exact H3]. intros k I. destruct I as [<-|[<-|[]]]; named.
  - apply am_mdoc; [now apply F|apply U; [named|exact H2]|apply Y; [named|exact H3]|apply Y; [named|exact H4]].
  - apply am_other. exists f. split; [|exact O]. apply (S "format"%string); [named|exact H].
Qed.
Lemma same_described m m' : same_members credential_members m m' -> described_members m -> described_members m'.
Proof.
  intros S H. pose proof (fun k Q I => same_may _ _ _ k Q S I) as Y. pose proof (fun k Q I => same_must _ _ _ k Q S I) as U.
  pose proof (fun f => same_format _ _ f S) as F. destruct H as [H1 H2 H3 H4|H1 H2 H3 H4 H5|H1 H2 H3 H4|(f & H & O)].
  - apply dm_jwt; [now apply F|apply U; [named|exact H2]|apply Y; [named|exact H3]|apply Y; [named|exact H4]].
  - apply dm_ld; [destruct H1; [left|right]; now apply F|apply U; [named|exact H2]|apply U; [named|exact H3]
      |apply Y; [named|exact H4]|apply Y; [named|exact H5]].
  - apply dm_mdoc; [now apply F|apply U; [named|exact H2]|apply Y; [named|exact H3]|apply Y; [named|exact H4]].
  - apply dm_other. exists f. split; [|exact O]. apply (S "format"%string); [named|exact H].
Qed.
Lemma same_app m rest : not_defined rest credential_members -> same_members credential_members (m ++ rest) m.
Proof.
  intros N k v I. rewrite in_app_iff. split; [|tauto]. intros [H|H]; [exact H|]. destruct (N k I). exact (in_map fst rest _ H).
Qed.
Lemma asked_app m rest : not_defined rest credential_members -> (asked_members (m ++ rest) <-> asked_members m).
Proof. intros N. split; apply same_asked; [|apply same_sym]; now apply same_app. Qed.
Lemma described_app m rest : not_defined rest credential_members -> (described_members (m ++ rest) <-> described_members m).
Proof. intros N. split; apply same_described; [|apply same_sym]; now apply same_app. Qed.

Lemma name_iff a b : JStr (lit a) = JStr (lit b) <-> a = b.
Proof. split; [intros [= E]; now apply lit_inj|now intros ->]. Qed.
Lemma not_other c : ~ other_format (cfp_members c).
Proof.
  intros (f & I & H).
  assert (E : must (cfp_members c) "format" (fun v => v = JStr f)) by (exists (JStr f); now split).
  destruct c as [ty su od|ty su od|cx ty su od|dt cl od]; unfold cfp_members in E; autorewrite with members in E;
    cbn [cfp_tag] in E; injection E as <-; (eapply H; [|reflexivity]); cbn [In]; tauto.
Qed.
Lemma format_iff c f : format_is (cfp_members c) f <-> cfp_tag c = lit f.
Proof.
  rewrite format_must. destruct c as [ty su od|ty su od|cx ty su od|dt cl od]; unfold cfp_members; members;
    (split; [now intros [= E]|now intros ->]).
Qed.

Ltac tags H := repeat match type of H with _ \/ _ => destruct H as [H|H] end;
  apply format_iff in H; cbn [cfp_tag] in H; apply lit_inj in H; try discriminate H.

Lemma asked_follow n c : cfp_ok n c -> (asked_members (cfp_members c) <-> askable c).
Proof.
  intros K. split.
  - intros [H1 H2 H3 H4|H1 H2 H3|H1 H2 H3 H4|H].
    + destruct c as [ty su od|ty su od|cx ty su od|dt cl od]; tags H1. exact I.
    + exfalso. destruct c as [ty su od|ty su od|cx ty su od|dt cl od]; unfold cfp_members in H2;
        autorewrite with members in H2; exact H2.
    + destruct c as [ty su od|ty su od|cx ty su od|dt cl od]; tags H1. cbn [askable].
      apply namespaces_iff; [apply K|]. unfold cfp_members in H3. autorewrite with members in H3. exact H3.
    + now apply not_other in H.
  - intros A. destruct c as [ty su od|ty su od|cx ty su od|dt cl od]; try contradiction A.
    + apply am_jwt; [now apply format_iff|unfold cfp_members; members..].
      * exact I.
      * intros h E. apply subjects_follow. apply K. exact E.
      * intros l _. now apply texts_iff.
    + apply am_mdoc; [now apply format_iff|unfold cfp_members; members..].
      * exact I.
      * apply namespaces_iff; [apply K|exact A].
      * intros l _. now apply texts_iff.
Qed.

Lemma context_follows x : context_entry (ser_ld_context x).
Proof. destruct x as [s|h]; [left; now exists s|right]. eexists. reflexivity. Qed.

Lemma described_follow n c : cfp_ok n c -> (described_members (cfp_members c) <-> describable c).
Proof.
  intros K. split.
  - intros [H1 H2 H3 H4|H1 H2 H3 H4 H5|H1 H2 H3 H4|H].
    + destruct c as [ty su od|ty su od|cx ty su od|dt cl od]; tags H1. exact I.
    + destruct c as [ty su od|ty su od|cx ty su od|dt cl od]; tags H1; [|exact I].
      unfold cfp_members in H2. autorewrite with members in H2. exact H2.
    + destruct c as [ty su od|ty su od|cx ty su od|dt cl od]; tags H1. cbn [describable].
      apply namespaces_iff; [apply K|]. unfold cfp_members in H3. autorewrite with members in H3. exact H3.
    + now apply not_other in H.
  - intros A. destruct c as [ty su od|ty su od|cx ty su od|dt cl od]; try contradiction A.
    + apply dm_jwt; [now apply format_iff|unfold cfp_members; members..].
      * exact I.
      * intros h E. apply subjects_follow. apply K. exact E.
      * intros l _. now apply texts_iff.
    + apply dm_ld; [right; now apply format_iff|unfold cfp_members; members..].
      * apply array_iff, Forall_forall. intros x _. apply context_follows.
      * exact I.
      * intros h E. apply subjects_follow. apply K. exact E.
      * intros l _. now apply texts_iff.
    + apply dm_mdoc; [now apply format_iff|unfold cfp_members; members..].
      * exact I.
      * apply namespaces_iff; [apply K|exact A].
      * intros l _. now apply texts_iff.
Qed.

(* ---------------- documents ---------------- *)

Lemma written_text {A} (S : A -> json) n a v : jgood n (S a) -> rfc8259_text (print (S a)) v -> v = S a.
Proof. intros [H _] T. exact (rfc8259_det _ _ _ T (print_rfc8259 _ H)). Qed.

Lemma nodup_app {A : Type} (l l' : list A) : NoDup l -> NoDup l' -> (forall k, In k l -> ~ In k l') -> NoDup (l ++ l').
Proof.
  intros N N' D. induction N as [|x l I N IH]; [exact N'|]. cbn [app]. constructor.
  - rewrite in_app_iff. intros [H|H]; [contradiction|]. exact (D x (or_introl eq_refl) H).
  - apply IH. intros k H. apply D. now right.
Qed.
Lemma members_nodup c : NoDup (map fst (cfp_members c)).
Proof. destruct c as [? [] []|? [] []|? ? [] []|? [] []]; cbn; differ. Qed.
Lemma members_and c rest names : map fst rest = map lit names -> NoDup (map lit names) ->
  disjointb cfp_keys (map lit names) = true -> NoDup (map fst (cfp_members c ++ rest)).
Proof.
  intros R N D. rewrite map_app, R. apply nodup_app; [apply members_nodup|exact N|].
  intros k I J. exact (members_disjoint c _ D k J I).
Qed.
Lemma not_names rest names : map fst rest = map lit names -> (forall k, In k credential_members -> ~ In k names) ->
  not_defined rest credential_members.
Proof.
  intros R H k I J. rewrite R in J. apply in_map_iff in J. destruct J as (k' & E & J). apply lit_inj in E. subst k'.
  exact (H k I J).
Qed.
Ltac other_names := let k := fresh in let I := fresh in intros k I; cbn [credential_members In] in I;
  repeat destruct I as [<-|I]; try contradiction; cbn [In]; let Q := fresh in intros Q;
  repeat destruct Q as [Q|Q]; try discriminate Q; contradiction.

Lemma forall_iff {A} (P Q R : A -> Prop) l : Forall R l -> (forall a, R a -> (P a <-> Q a)) -> (Forall P l <-> Forall Q l).
Proof.
  intros H E. induction H as [|a l Ha _ IH]; [now split|]. rewrite !Forall_cons_iff, IH, (E a Ha). tauto.
Qed.

(** Token responses. *)
Lemma token_follows x v : token_success_ok x -> rfc8259_text (token_success_to_json x) v ->
  (draft_token_response v <->
   given (ts_expires_in x) /\ given (ts_scope x) /\ given (ts_c_nonce x) /\ given (ts_c_nonce_expires_in x)
   /\ given (ts_authorization_pending x) /\ given (ts_interval x)).
Proof.
  intros K T. apply (written_text ser_token_success 1 x v (good_token_success x K)) in T. subst v.
  unfold draft_token_response, ser_token_success. rewrite object_iff; [|cbn; differ]. unfold draft_token_members.
  assert (B : exists s, ser_token_type (ts_token_type x) = JStr s /\ ascii_ci s (lit "bearer")).
  { destruct (ts_token_type x). exists (lit "Bearer"). split; [reflexivity|].
    constructor; [right; left; vm_compute; repeat split; discriminate|].
    cbv [lit map list_ascii_of_string]. repeat (constructor; [now left|]). constructor. }
  rewrite <- (and_true_l (given _ /\ _)). apply and_both; [members; reflexivity|].
  rewrite <- (and_true_l (given _ /\ _)). apply and_both; [members; tauto|].
  repeat (apply and_both; [members; reflexivity|]). members. reflexivity.
Qed.

(** Credential responses. *)
Lemma issued_not c : ~ issued_credential (ser_cfp_or_encoded c).
Proof.
  intros [[s E]|(m & E & _ & P)]; [destruct c; discriminate E|]. apply present_must in P.
  destruct c; cbn [ser_cfp_or_encoded] in E; injection E as <-; autorewrite with members in P; exact P.
Qed.
Lemma credential_never n x v : credential_success_ok n x -> rfc8259_text (credential_success_to_json x) v ->
  ~ draft_credential_response v.
Proof.
  intros K T. apply (written_text ser_credential_success _ x v (good_credential_success n x K)) in T. subst v.
  unfold draft_credential_response, ser_credential_success. rewrite object_iff; [|cbn; differ]. intros (_ & H & _).
  autorewrite with members in H. destruct (cs_credential x) as [c|]; cbn [ser_opt] in H; [now apply issued_not in H|].
  destruct H as [[s [=]]|(m & [=] & _)].
Qed.

(** Requests. *)
Lemma proof_follows p : draft_proof (ser_proof p) <-> rp_proof_type p = lit "jwt".
Proof.
  unfold draft_proof, ser_proof. rewrite object_iff; [|cbn; differ]. members.
  split; [now intros [= E]|now intros ->].
Qed.
Lemma request_follows n x v : request_ok n x -> rfc8259_text (credential_request_to_json x) v ->
  (draft_request v <-> askable (cr_format x) /\ exists p, cr_proof x = Some p /\ rp_proof_type p = lit "jwt").
Proof.
  intros K T. apply (written_text ser_request _ x v (good_request n x K)) in T. subst v.
  unfold draft_request, ser_request. rewrite object_iff.
  2: { apply (members_and _ _ ["proof"]%string); [reflexivity|cbn; differ|reflexivity]. }
  unfold draft_request_members. rewrite asked_app.
  2: { apply (not_names _ ["proof"]%string); [reflexivity|other_names]. }
  rewrite (asked_follow n _ (proj1 K)). rewrite may_app.
  assert (E : may (cfp_members (cr_format x)) "proof" draft_proof <-> True).
  { destruct (cr_format x) as [ty su od|ty su od|cx ty su od|dt cl od]; unfold cfp_members; now members. }
  rewrite E, may_field, (some_iff draft_proof ser_proof); [|apply object_null].
  rewrite and_true_l. setoid_rewrite proof_follows. reflexivity.
Qed.

(** Offers. *)
Lemma entry_follows n c : credential_or_id_ok n c ->
  (draft_entry (ser_credential_or_id c) <-> forall p, c = Credential p -> askable p).
Proof.
  intros K. destruct c as [s|p]; cbn [ser_credential_or_id].
  - split; [discriminate|]. intros _. left. now exists s.
  - unfold draft_entry, ser_cfp. rewrite object_iff; [|apply members_nodup]. rewrite (asked_follow n p K). split.
    + intros [[s [=]]|A] q [= <-]. exact A.
    + intros H. right. now apply H.
Qed.
Lemma auth_follows x : an_object (fun g => may g "issuer_state" a_text) (ser_auth_flow x) <-> given (af_issuer_state x).
Proof. unfold ser_auth_flow. rewrite object_iff; [|cbn; differ]. now members. Qed.
Lemma preauth_follows x :
  an_object (fun g => must g "pre-authorized_code" a_text /\ may g "user_pin_required" a_truth) (ser_preauth_flow x).
Proof.
  unfold ser_preauth_flow. apply object_iff; [destruct x as [? []]; cbn; differ|]. members.
  intros b _. now exists b.
Qed.
Lemma offer_follows n x v : offer_ok n x -> rfc8259_text (offer_to_json x) v ->
  (draft_offer v <->
   (forall c, In (Credential c) (co_credentials x) -> askable c)
   /\ (forall a, og_auth (co_grants x) = Some a -> given (af_issuer_state a))).
Proof.
  intros K T. apply (written_text ser_offer _ x v (good_offer n x K)) in T. subst v.
  unfold draft_offer, ser_offer. rewrite object_iff; [|cbn; differ]. unfold draft_offer_members. members.
  rewrite array_iff. assert (KE : Forall (credential_or_id_ok n) (co_credentials x)) by apply K.
  rewrite (forall_iff _ _ _ _ KE (entry_follows n)). rewrite Forall_forall.
  assert (G : draft_grants (ser_grants (co_grants x)) <-> forall a, og_auth (co_grants x) = Some a -> given (af_issuer_state a)).
  { unfold draft_grants, ser_grants. rewrite object_iff; [|destruct (co_grants x) as [[] []]; cbn; differ]. members.
    setoid_rewrite auth_follows. split; [tauto|]. intros H. split; [exact H|]. intros p _. apply preauth_follows. }
  rewrite G. split; intros [H1 H2]; (split; [|exact H2]).
  - intros c I. exact (H1 _ I c eq_refl).
  - intros e I p ->. exact (H1 p I).
Qed.

(** Metadata. *)
Lemma logo_follows x : draft_logo (ser_logo x) <-> given (dl_url x) /\ given (dl_alt_text x).
Proof. unfold draft_logo, ser_logo. rewrite object_iff; [|cbn; differ]. now members. Qed.
Lemma display_follows x : draft_display (ser_display x) <-> display_given x.
Proof.
  unfold draft_display, ser_display. rewrite object_iff; [|cbn; differ]. members.
  rewrite (some_iff draft_logo ser_logo); [|apply object_null]. setoid_rewrite logo_follows. unfold display_given. tauto.
Qed.
Lemma supported_follows n x : supported_ok n x ->
  (an_object draft_supported_members (ser_supported x) <-> supported_given x).
Proof.
  intros K. unfold ser_supported. rewrite object_iff.
  2: { apply (members_and _ _ supported_names); [reflexivity|cbn; differ|reflexivity]. }
  unfold draft_supported_members. rewrite described_app.
  2: { apply (not_names _ supported_names); [reflexivity|unfold supported_names; other_names]. }
  rewrite (described_follow n _ (proj1 K)).
  assert (E : forall k Q, In k ["id"; "cryptographic_binding_methods_supported"; "cryptographic_suites_supported"; "display"]%string ->
    (may (cfp_members (sup_format x)) k Q <-> True)).
  { intros k Q I. cbn [In] in I. repeat destruct I as [<-|I]; try contradiction;
      destruct (sup_format x) as [ty su od|ty su od|cx ty su od|dt cl od]; unfold cfp_members; now members. }
  rewrite !(may_app (cfp_members _)). rewrite !E by (cbn [In]; tauto). members.
  rewrite (some_iff _ (ser_list ser_display)); [|apply array_null].
  setoid_rewrite (array_iff draft_display ser_display). unfold supported_given.
  assert (D : forall l, Forall (fun a => draft_display (ser_display a)) l <-> Forall display_given l).
  { intros l. apply (forall_iff _ _ (fun _ => True)); [apply Forall_forall; trivial|]. intros a _. apply display_follows. }
  setoid_rewrite D. reflexivity.
Qed.
Lemma metadata_follows n x v : metadata_ok n x ->
  (forall a k, im_additional_fields x = Some a -> In k (map fst a) -> ~ names_metadata k) ->
  rfc8259_text (metadata_to_json x) v ->
  (draft_metadata v <->
   given (im_authorization_server x) /\ given (im_batch_credential_endpoint x)
   /\ forall s, In s (im_credentials_supported x) -> supported_given s).
Proof.
  intros K F T. apply (written_text ser_metadata _ x v (good_metadata n x K)) in T. subst v.
  unfold draft_metadata, ser_metadata. set (rest := match im_additional_fields x return list (str * json) with Some a => a | None => [] end).
  assert (R : forall k, In k metadata_names -> ~ In (lit k) (map fst rest)).
  { intros k I J. unfold rest in J. destruct (im_additional_fields x) as [a|] eqn:E; [|exact J].
    apply (F a (lit k) eq_refl J). now exists k. }
  rewrite object_iff.
  2: { rewrite !app_assoc, map_app. apply nodup_app; [cbn; differ| |].
    - unfold rest. destruct (im_additional_fields x) as [a|] eqn:E; [|constructor].
      destruct K as (_ & _ & _ & _ & _ & K). exact (proj1 (K a E)).
    - intros k I J. cbn [map app field fst] in I.
      assert (exists n, In n metadata_names /\ k = lit n) as (z & Iz & ->).
      { cbn [In] in I. unfold metadata_names. repeat destruct I as [<-|I]; try contradiction; eexists; (split; [|reflexivity]); cbn [In]; tauto. }
      exact (R z Iz J). }
  unfold draft_metadata_members. rewrite !app_assoc.
  assert (Y : forall m k Q, In k metadata_names -> (may (m ++ rest) k Q <-> may m k Q)).
  { intros m k Q I. rewrite may_app. split; [tauto|]. intros H. split; [exact H|]. intros j J. destruct (R k I). exact (in_map fst rest _ J). }
  assert (U : forall m k Q, In k metadata_names -> (must (m ++ rest) k Q <-> must m k Q)).
  { intros m k Q I. rewrite must_app. split; [|tauto]. intros [H|(j & J & _)]; [exact H|]. destruct (R k I). exact (in_map fst rest _ J). }
  rewrite !Y, !U by (unfold metadata_names; cbn [In]; tauto). rewrite <- !app_assoc.
  rewrite <- (and_true_l (given _ /\ _)). apply and_both; [members; reflexivity|].
  apply and_both; [members; reflexivity|].
  rewrite <- (and_true_l (given _ /\ _)). apply and_both; [members; reflexivity|].
  apply and_both; [members; reflexivity|]. members. rewrite array_iff.
  assert (KE : Forall (supported_ok n) (im_credentials_supported x)) by apply K.
  rewrite (forall_iff _ _ _ _ KE (supported_follows n)), Forall_forall. reflexivity.
Qed.

(** Proof headers. *)
Lemma header_follows x m : header_ok x -> rfc8259_text (header_to_json x) (JObj m) ->
  (draft_key m <-> exists k, h_additional x = Some (KeyId k)).
Proof.
  intros K T. apply (written_text ser_header 1 x _ (good_header x K)) in T. injection T as ->. split.
  - intros [s I _|v I O _|v I O _].
    + assert (E : must (field "typ" (JStr (h_typ x)) ++ field "alg" (JStr (alg_name (h_alg x))) ++ additional_members (h_additional x)) "kid"
        (fun v => v = JStr s)) by (exists (JStr s); now split).
      destruct (h_additional x) as [[k|k|k]|]; cbn [additional_members] in E; autorewrite with members in E;
        try contradiction E. now exists k.
    + exfalso. assert (E : must (field "typ" (JStr (h_typ x)) ++ field "alg" (JStr (alg_name (h_alg x))) ++ additional_members (h_additional x)) "jwk"
        (fun w => w = v)) by (exists v; now split).
      destruct (h_additional x) as [[k|k|k]|]; cbn [additional_members] in E; autorewrite with members in E;
        try contradiction E. subst v. destruct O as (o & [=] & _).
    + exfalso. assert (E : must (field "typ" (JStr (h_typ x)) ++ field "alg" (JStr (alg_name (h_alg x))) ++ additional_members (h_additional x)) "x5c"
        (fun w => w = v)) by (exists v; now split).
      destruct (h_additional x) as [[k|k|k]|]; cbn [additional_members] in E; autorewrite with members in E;
        try contradiction E. subst v. destruct O as (o & [=] & _).
  - intros [k ->]. apply (dk_kid _ k); [right; right; now left|]. intros n [<-|[<-|[]]]; cbn [field additional_members app map fst]; differ.
Qed.
