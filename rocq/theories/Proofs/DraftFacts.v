(** Documents of the draft against the crate's readers (C117 to C122). *)
From Coq Require Import Lia.
From Verif Require Import Model.Prelude Model.Json Model.Types Model.Deps Model.Serde Model.SerdeOptions Model.Wire
  Spec SpecToken SpecJson SpecJwt SpecDocuments SpecWire SpecDraft
  Proofs.StrFacts Proofs.JsonFacts Proofs.SerdeFacts Proofs.DocumentFacts Proofs.ReaderFacts Proofs.GrammarFacts Proofs.WireFacts
  Proofs.KeptFacts Proofs.RenumberFacts Proofs.JwtFacts Proofs.TwiceFacts Proofs.ResponseFacts.

(* ---------------- members ---------------- *)

Lemma only_in m k v : NoDup (map fst m) -> In (lit k, v) m -> only_member m k v.
Proof.
  intros N I. split; [exact I|]. apply (NoDup_count_occ' (list_eq_dec ascii_dec)); [exact N|].
  exact (in_map fst m _ I).
Qed.

Definition makes {A : Type} (Q : json -> Prop) (P : json -> A -> Prop) : Prop := forall v, Q v -> exists a, P v a.

Lemma must_makes {A} m k Q (P : json -> A -> Prop) : NoDup (map fst m) -> must m k Q -> makes Q P ->
  exists a, required_member m k P a.
Proof.
  intros N (v & I & H) R. destruct (R v H) as [a Ha]. exists a, v. split; [now apply only_in|exact Ha].
Qed.

Lemma may_makes {A} m k Q (P : json -> A -> Prop) : NoDup (map fst m) -> may m k Q -> makes Q P ->
  exists o, optional_member m k P o.
Proof.
  intros N H R. destruct (in_dec (list_eq_dec ascii_dec) (lit k) (map fst m)) as [I|I].
  - apply in_map_iff in I. destruct I as ([k' v] & E & I). cbn [fst] in E. subst k'.
    destruct (R v (H v I)) as [a Ha]. exists (Some a), v. split; [now apply only_in|exact Ha].
  - exists None. now left.
Qed.

Lemma gone m k : not_defined m [k] -> no_member m k.
Proof. intros H. apply H. now left. Qed.
Lemma gone_makes {A} m k (P : json -> A -> Prop) : no_member m k -> optional_member m k P None.
Proof. intros H. now left. Qed.

Lemma array_makes {A} Q (P : json -> A -> Prop) : makes Q P -> makes (an_array Q) (list_value P).
Proof.
  intros R v (l & -> & F). assert (exists xs, Forall2 P l xs) as [xs H].
  { induction F as [|x l Hx _ [xs IH]]; [exists []; constructor|]. destruct (R x Hx) as [a Ha].
    exists (a :: xs). now constructor. }
  exists xs, l. now split.
Qed.

Lemma text_makes : makes a_text text_value.
Proof. intros v [s ->]. now exists s. Qed.
Lemma truth_makes : makes a_truth bool_value.
Proof. intros v [b ->]. now exists b. Qed.
Lemma texts_makes : makes texts texts_value.
Proof. apply array_makes, text_makes. Qed.

Lemma struct_makes {A} ns w (Q : list (str * json) -> Prop) (P : list (str * json) -> A -> Prop) :
  (forall m, NoDup (map fst m) -> Q m -> exists a, P m a) -> makes (an_object Q) (struct_value Reading ns w P).
Proof.
  intros R v (m & -> & N & H). destruct (R m N H) as [a Ha]. exists a, m. split; [constructor|exact Ha].
Qed.

Lemma flat_makes {A} w (Q : list (str * json) -> Prop) (P : list (str * json) -> A -> Prop) :
  (forall m, NoDup (map fst m) -> Q m -> exists a, P m a) -> makes (an_object Q) (flat_value Reading w P).
Proof.
  intros R v (m & -> & N & H). destruct (R m N H) as [a Ha]. exists a, m. now split.
Qed.

(** All members can be read. *)
Lemma map_makes {A} (D : json -> option A) Q (P : json -> A -> Prop) : reads D P -> makes Q P ->
  makes (fun v => exists m, v = JObj m /\ forall k j, In (k, j) m -> Q j) (map_value P).
Proof.
  intros HD R v (m & -> & H). assert (exists h, de_hmap D (JObj m) = Some h) as [h Hh].
  { cbn [de_hmap]. assert (exists kvs, map_opt (fun kv => let* v := D (snd kv) in Some (fst kv, v)) m = Some kvs) as [kvs ->];
      [|cbn [opt_bind]; eauto].
    induction m as [|[k j] m IH]; [exists []; reflexivity|]. destruct IH as [kvs E].
    { intros k' j' I. apply (H k'). now right. }
    destruct (R j (H k j (or_introl eq_refl))) as [a Ha]. apply HD in Ha. exists ((k, a) :: kvs).
    cbn [map_opt fst snd]. rewrite Ha. cbn [opt_bind]. now rewrite E. }
  exists h. exact (hmap_read_sound D P _ _ HD Hh).
Qed.

Lemma any_map_makes : makes (fun v => exists m, v = JObj m) (map_value free_value).
Proof.
  intros v [m ->]. apply (map_makes de_value (fun _ => True)); [apply value_reads| |].
  - intros j _. exists (to_value j). apply free_value_to_value.
  - exists m. now split.
Qed.

Lemma context_makes : makes context_entry ld_context_value.
Proof.
  intros v [[s ->]|H]; [exists (LDString s); constructor|]. destruct (any_map_makes v H) as [h Hh].
  exists (LDMap h). now constructor.
Qed.

(* ---------------- texts ---------------- *)

Lemma text_reads {A} sh (D : json -> option A) P s v x : respects sh D -> reads D P -> json_text s v ->
  (opt_bind (parse_doc sh s) D = Some x <-> P v x).
Proof. intros R H T. rewrite (respects_read sh D s v R T). apply H. Qed.

Lemma a_text_reads {A} sh (D : json -> option A) P s v (C : Prop) : respects sh D -> reads D P -> json_text s v ->
  ((exists x, P v x) <-> C) -> (exists x, opt_bind (parse_doc sh s) D = Some x) <-> C.
Proof.
  intros R H T E. rewrite <- E. split; intros [x Hx]; exists x; now apply (text_reads sh D P s v x R H T).
Qed.

Lemma obj_members {A} ns (P : list (str * json) -> A -> Prop) m a :
  (exists m', members_of ns (JObj m) m' /\ P m' a) -> P m a.
Proof. intros (m' & M & H). inversion M; subst. exact H. Qed.

Lemma flat_members {A} (P : list (str * json) -> A -> Prop) m a :
  (exists m', JObj m = JObj m' /\ P m' a) -> P m a.
Proof. intros (m' & [= <-] & H). exact H. Qed.

(* ---------------- formats ---------------- *)

Lemma format_only m f : NoDup (map fst m) -> format_is m f -> only_member m "format" (JStr (lit f)).
Proof. apply only_in. Qed.

Lemma format_here u p m f z : NoDup (map fst m) -> format_is m f -> format_member u p m f z.
Proof. intros N I. left. now apply format_only. Qed.

Lemma format_same u p m f n z : NoDup (map fst m) -> In (lit "format", JStr f) m -> format_member u p m n z -> f = lit n.
Proof.
  intros N I [H|(_ & _ & H)]; pose proof (only_is _ _ _ _ H I) as E; [|discriminate E]. congruence.
Qed.

Lemma other_unread u p m c : NoDup (map fst m) -> other_format m -> ~ credential_of u p m c.
Proof.
  intros N (f & I & H) C.
  destruct C; match goal with F : format_member _ _ _ _ _ |- _ => apply (format_same _ _ _ _ _ _ N I) in F; subst f end;
    (eapply H; [|reflexivity]); cbn [In]; tauto.
Qed.

Lemma ld_unread u p m c : NoDup (map fst m) -> format_is m "jwt_vc_json-ld" \/ format_is m "ldp_vc" ->
  not_defined m ["@context"; "types"]%string -> ~ credential_of u p m c.
Proof.
  intros N F D C.
  assert (~ In (lit "types") (map fst m)) as T by (apply D; cbn [In]; tauto).
  destruct C as [? ? ? _ (v & [I _] & _)|? ? ? _ (v & [I _] & _)|? ? ? ? _ _ (v & [I _] & _)|? ? ? G];
    try (apply T; exact (in_map fst m _ I)).
  destruct F as [F|F]; apply (format_same _ _ _ _ _ _ N F) in G; apply lit_inj in G; discriminate G.
Qed.

(* ---------------- claims ---------------- *)

Ltac absurd_name := match goal with E : lit _ = lit _ |- _ => apply lit_inj in E; discriminate E end.

(** A description, or claims under whatever names. *)
Definition like_claim (d : list (str * json)) : Prop :=
  NoDup (map fst d)
  /\ may d "mandatory" (fun v => a_truth v \/ exists m, v = JObj m)
  /\ may d "display" (fun v => an_array claim_display v \/ exists m, v = JObj m).

Lemma object_claim v : claim_object v -> exists d, v = JObj d /\ like_claim d.
Proof.
  intros H. destruct H as [d N H]. exists d. split; [reflexivity|]. split; [exact N|].
  split; intros v I; specialize (H _ _ I).
  - inversion H as [w T E|w T E|w T E|k w C|k w O]; subst; try absurd_name; [now left| |].
    + right. destruct C as [m]. now exists m.
    + exfalso. apply O. cbn [map In]. auto.
  - inversion H as [w T E|w T E|w T E|k w C|k w O]; subst; try absurd_name; [now left| |].
    + right. destruct C as [m]. now exists m.
    + exfalso. apply O. cbn [map In]. auto.
Qed.

Lemma namespace_claim v : every_member claim_object v -> exists d, v = JObj d /\ like_claim d
  /\ forall k j, In (k, j) d -> exists m, j = JObj m.
Proof.
  intros (d & -> & N & H).
  assert (forall k j, In (k, j) d -> exists m, j = JObj m) as O.
  { intros k j I. destruct (H k j I) as [m]. now exists m. }
  exists d. split; [reflexivity|]. split; [|exact O]. split; [exact N|].
  split; intros v I; right; exact (O _ _ I).
Qed.

Lemma display_makes : makes claim_display (subject_display_value Reading).
Proof.
  apply struct_makes. intros m N [H1 H2].
  destruct (may_makes m "name" _ text_value N H1 text_makes) as [a Ha].
  destruct (may_makes m "locale" _ text_value N H2 text_makes) as [b Hb].
  exists {| sd_name := a; sd_locale := b |}. now split.
Qed.

Lemma claim_reads_iff d : like_claim d -> ((exists x, subject_value Reading (JObj d) x) <-> undisturbed d).
Proof.
  intros (N & M & D). split.
  - intros [x Hx]. destruct (obj_members _ _ _ _ Hx) as (H1 & H2 & H3). split; [|split].
    + intros m I. destruct (opt_is _ _ _ _ _ H1 I) as [E|(b & _ & E)]; discriminate E.
    + intros m I. destruct (opt_is _ _ _ _ _ H3 I) as [E|(l & _ & js & E & _)]; discriminate E.
    + intros v I. destruct (opt_is _ _ _ _ _ H2 I) as [E|(t & _ & E)]; [now left|right; now exists t].
  - intros (U1 & U2 & U3).
    destruct (may_makes d "mandatory" a_truth bool_value N) as [a Ha]; [|apply truth_makes|].
    { intros v I. destruct (M v I) as [H|[m ->]]; [exact H|]. now apply U1 in I. }
    destruct (may_makes d "display" (an_array claim_display) (list_value (subject_display_value Reading)) N) as [b Hb];
      [|apply array_makes, display_makes|].
    { intros v I. destruct (D v I) as [H|[m ->]]; [exact H|]. now apply U2 in I. }
    assert (exists o, optional_member d "valueType" text_value o) as [c Hc].
    { destruct (in_dec (list_eq_dec ascii_dec) (lit "valueType") (map fst d)) as [I|I]; [|exists None; now left].
      apply in_map_iff in I. destruct I as ([k v] & E & I). cbn [fst] in E. subst k.
      destruct (U3 v I) as [->|[t ->]]; [exists None; right; now apply only_in|].
      exists (Some t), (JStr t). split; [now apply only_in|reflexivity]. }
    exists {| cs_mandatory := a; cs_value_type := c; cs_display := b |}, d. split; [constructor|]. now split.
Qed.

Definition like_claims (v : json) : Prop :=
  an_object (fun c => forall n j, In (n, j) c -> exists d, j = JObj d /\ like_claim d) v.

Lemma subject_like v : subject_claims v -> like_claims v.
Proof.
  intros (c & -> & N & H). exists c. split; [reflexivity|]. split; [exact N|]. intros n j I. apply object_claim, (H n j I).
Qed.
Lemma mdoc_like v : mdoc_claims v -> like_claims v.
Proof.
  intros (c & -> & N & H). exists c. split; [reflexivity|]. split; [exact N|]. intros n j I.
  destruct (namespace_claim j (H n j I)) as (d & E & L & _). now exists d.
Qed.

Lemma claims_reads_iff m k : NoDup (map fst m) -> may m k like_claims ->
  ((exists o, optional_member m k (map_value (subject_value Reading)) o) <-> claims_undisturbed m k).
Proof.
  intros N M. split.
  - intros [o Ho] c n d I J.
    destruct (M _ I) as (c' & [= <-] & _ & H). destruct (H n _ J) as (d' & [= <-] & L).
    apply (claim_reads_iff d L). destruct (opt_is _ _ _ _ _ Ho I) as [E|(h & _ & V)]; [discriminate E|].
    exact (map_In _ _ _ _ _ V J).
  - intros U. destruct (in_dec (list_eq_dec ascii_dec) (lit k) (map fst m)) as [I|I]; [|exists None; now left].
    apply in_map_iff in I. destruct I as ([k' v] & E & I). cbn [fst] in E. subst k'.
    destruct (M v I) as (c & -> & _ & H).
    destruct (map_makes de_subject (fun j => exists d, j = JObj d /\ like_claim d /\ undisturbed d)
      (subject_value Reading) subject_reads) with (v := JObj c) as [h Hh].
    { intros j (d & -> & L & Ud). now apply claim_reads_iff. }
    { exists c. split; [reflexivity|]. intros n j J. destruct (H n j J) as (d & -> & L).
      exists d. split; [reflexivity|]. split; [exact L|]. exact (U c n d I J). }
    exists (Some h), (JObj c). split; [now apply only_in|exact Hh].
Qed.

Lemma claims_sub m k Q : may m k Q -> (forall v, Q v -> like_claims v) -> may m k like_claims.
Proof. intros H S v I. apply S, H, I. Qed.

(** Every claim that is read is described as in the document. *)
Lemma claims_read m k h n x : NoDup (map fst m) ->
  optional_member m k (map_value (subject_value Reading)) (Some h) -> In (n, x) h ->
  exists c j, In (lit k, JObj c) m /\ In (n, j) c /\ subject_value Reading j x.
Proof.
  intros N (v & [I _] & c & -> & _ & _ & H) J. destruct (H n x J) as (j & L & V). exists c, j.
  split; [exact I|]. split; [|exact V]. now apply last_in_In.
Qed.

(* ---------------- published descriptions ---------------- *)

Lemma format_one m f g : NoDup (map fst m) -> format_is m f -> format_is m g -> f = g.
Proof.
  intros N F G. pose proof (only_is _ _ _ _ (format_only _ _ N F) G) as E.
  apply (f_equal (fun j => match j with JStr s => s | _ => [] end)) in E. symmetry. now apply lit_inj.
Qed.

Lemma order_makes m : NoDup (map fst m) -> may m "order" texts -> exists o, optional_member m "order" texts_value o.
Proof. intros N H. exact (may_makes m "order" texts texts_value N H texts_makes). Qed.

Lemma described_iff p m : NoDup (map fst m) -> described_members m ->
  ((exists c, credential_of Reading p m c) <-> plain_description m).
Proof.
  intros N D. split.
  - intros [c C]. destruct D as [F T S O|F X T S O|F T S O|F].
    + left. split; [now left|]. apply (claims_reads_iff m _ N (claims_sub _ _ _ S subject_like)).
      destruct C as [? o ? G _ H|? o ? G _ H|? ? o ? G _ _ H|? o ? G _ H]; try (now exists o);
        apply (format_same _ _ _ _ _ _ N F) in G; absurd_name.
    + left. split; [tauto|]. apply (claims_reads_iff m _ N (claims_sub _ _ _ S subject_like)).
      destruct C as [? o ? G _ H|? o ? G _ H|? ? o ? G _ _ H|? o ? G _ H]; try (now exists o);
        destruct F as [F|F]; apply (format_same _ _ _ _ _ _ N F) in G; absurd_name.
    + right. split; [exact F|]. apply (claims_reads_iff m _ N (claims_sub _ _ _ S mdoc_like)).
      destruct C as [? o ? G _ H|? o ? G _ H|? ? o ? G _ _ H|? o ? G _ H]; try (now exists o);
        apply (format_same _ _ _ _ _ _ N F) in G; absurd_name.
    + exfalso. exact (other_unread _ _ _ _ N F C).
  - intros P. destruct D as [F T S O|F X T S O|F T S O|F].
    + destruct P as [[_ U]|[G _]]; [|apply (format_one _ _ _ N F) in G; discriminate G].
      apply (claims_reads_iff m _ N (claims_sub _ _ _ S subject_like)) in U. destruct U as [o Ho].
      destruct (must_makes m "types" _ texts_value N T texts_makes) as [t Ht]. destruct (order_makes m N O) as [r Hr].
      exists (JwtVcJson t o r). constructor; [now apply format_here|assumption..].
    + destruct P as [[_ U]|[G _]]; [|destruct F as [F|F]; apply (format_one _ _ _ N F) in G; discriminate G].
      apply (claims_reads_iff m _ N (claims_sub _ _ _ S subject_like)) in U. destruct U as [o Ho].
      destruct (must_makes m "types" _ texts_value N T texts_makes) as [t Ht]. destruct (order_makes m N O) as [r Hr].
      destruct F as [F|F].
      * exists (JwtVcJsonLd t o r). constructor; [now apply format_here|assumption..].
      * destruct (must_makes m "@context" _ (list_value ld_context_value) N X) as [x Hx]; [apply array_makes, context_makes|].
        exists (LdpVc x t o r). constructor; [now apply format_here|assumption..].
    + destruct P as [[G _]|[_ U]];
        [exfalso; destruct G as [G|[G|G]]; apply (format_one _ _ _ N F) in G; discriminate G|].
      apply (claims_reads_iff m _ N (claims_sub _ _ _ S mdoc_like)) in U. destruct U as [o Ho].
      destruct (must_makes m "doctype" _ text_value N T text_makes) as [t Ht]. destruct (order_makes m N O) as [r Hr].
      exists (MsoMdoc t o r). constructor; [now apply format_here|assumption..].
    + exfalso. destruct F as (f & I & H).
      assert (forall n, format_is m n -> In n ["jwt_vc_json"; "jwt_vc_json-ld"; "ldp_vc"; "mso_mdoc"]%string -> False) as Q.
      { intros n G Hn. pose proof (only_is _ _ _ _ (format_only _ _ N G) I) as E.
        apply (f_equal (fun j => match j with JStr s => s | _ => [] end)) in E. subst f. exact (H n Hn eq_refl). }
      destruct P as [[[G|[G|G]] _]|[G _]]; apply (Q _ G); cbn [In]; tauto.
Qed.

(* ---------------- asked credentials ---------------- *)

Lemma asked_iff p m : NoDup (map fst m) -> asked_members m ->
  ((exists c, credential_of Reading p m c) <-> plain_members m).
Proof.
  intros N D. split.
  - intros [c C]. destruct D as [F T S O|F X O|F T S O|F].
    + left. split; [exact F|]. apply (claims_reads_iff m _ N (claims_sub _ _ _ S subject_like)).
      destruct C as [? o ? G _ H|? o ? G _ H|? ? o ? G _ _ H|? o ? G _ H]; try (now exists o);
        apply (format_same _ _ _ _ _ _ N F) in G; absurd_name.
    + exfalso. exact (ld_unread _ _ _ _ N F O C).
    + right. split; [exact F|]. apply (claims_reads_iff m _ N (claims_sub _ _ _ S mdoc_like)).
      destruct C as [? o ? G _ H|? o ? G _ H|? ? o ? G _ _ H|? o ? G _ H]; try (now exists o);
        apply (format_same _ _ _ _ _ _ N F) in G; absurd_name.
    + exfalso. exact (other_unread _ _ _ _ N F C).
  - intros P. destruct D as [F T S O|F X O|F T S O|F].
    + destruct P as [[_ U]|[G _]]; [|apply (format_one _ _ _ N F) in G; discriminate G].
      apply (claims_reads_iff m _ N (claims_sub _ _ _ S subject_like)) in U. destruct U as [o Ho].
      destruct (must_makes m "types" _ texts_value N T texts_makes) as [t Ht].
      destruct (order_makes m N O) as [r Hr].
      exists (JwtVcJson t o r). constructor; [now apply format_here|assumption..].
    + exfalso. destruct P as [[G _]|[G _]], F as [F|F]; apply (format_one _ _ _ N F) in G; discriminate G.
    + destruct P as [[G _]|[_ U]]; [apply (format_one _ _ _ N F) in G; discriminate G|].
      apply (claims_reads_iff m _ N (claims_sub _ _ _ S mdoc_like)) in U. destruct U as [o Ho].
      destruct (must_makes m "doctype" _ text_value N T text_makes) as [t Ht].
      destruct (order_makes m N O) as [r Hr].
      exists (MsoMdoc t o r). constructor; [now apply format_here|assumption..].
    + exfalso. destruct F as (f & I & H).
      assert (forall n, format_is m n -> In n ["jwt_vc_json"; "jwt_vc_json-ld"; "ldp_vc"; "mso_mdoc"]%string -> False) as Q.
      { intros n G Hn. pose proof (only_is _ _ _ _ (format_only _ _ N G) I) as E.
        apply (f_equal (fun j => match j with JStr s => s | _ => [] end)) in E. subst f. exact (H n Hn eq_refl). }
      destruct P as [[G _]|[G _]]; apply (Q _ G); cbn [In]; tauto.
Qed.

(* ---------------- offers ---------------- *)

Lemma entry_reads v : draft_entry v -> ((exists x, offered_value Reading v x) <-> plain_entry v).
Proof.
  intros [[s ->]|(m & -> & N & O)].
  - split; [left; now exists s|]. intros _. exists (CredentialId s). constructor.
  - split.
    + intros [x Hx]. right. exists m. split; [reflexivity|]. inversion Hx as [|v c H]; subst.
      destruct H as (m' & M & H). inversion M; subst. apply (asked_iff Inside _ N O). now exists c.
    + intros [[s E]|(m' & [= <-] & F)]; [discriminate E|].
      apply (asked_iff Inside m N O) in F. destruct F as [c Hc]. exists (Credential c). constructor.
      exists m. split; [constructor|exact Hc].
Qed.

Lemma entries_reads l : Forall draft_entry l ->
  ((exists xs, Forall2 (offered_value Reading) l xs) <-> Forall plain_entry l).
Proof.
  intros F. split.
  - intros [xs H]. induction H as [|v x l xs Hx _ IH]; [constructor|]. inversion F as [|? ? Fv F']; subst.
    constructor; [|now apply IH]. apply entry_reads; [exact Fv|]. now exists x.
  - intros H. induction H as [|v l Hv _ IH]; [exists []; constructor|]. inversion F as [|? ? Fv F']; subst.
    destruct (IH F') as [xs Hxs]. destruct (proj2 (entry_reads v Fv) Hv) as [x Hx]. exists (x :: xs). now constructor.
Qed.

Lemma grants_makes : makes draft_grants (struct_value Reading grant_names grants_written (grants_of Reading)).
Proof.
  apply struct_makes. intros m N [A P].
  destruct (may_makes m "authorization_code" _
    (struct_value Reading ["issuer_state"]%string (all_of ["issuer_state"]%string) auth_flow_of) N A) as [a Ha].
  { apply struct_makes. intros g Ng H. destruct (may_makes g "issuer_state" _ text_value Ng H text_makes) as [o Ho].
    now exists {| af_issuer_state := o |}. }
  destruct (may_makes m "urn:ietf:params:oauth:grant-type:pre-authorized_code" _
    (struct_value Reading ["pre-authorized_code"; "user_pin_required"]%string
          (fun x => [lit "pre-authorized_code"] ++ if_some "user_pin_required" (pf_user_pin_required x))
          preauth_flow_of) N P) as [p Hp].
  { apply struct_makes. intros g Ng [H1 H2].
    destruct (must_makes g "pre-authorized_code" _ text_value Ng H1 text_makes) as [c Hc].
    destruct (may_makes g "user_pin_required" _ bool_value Ng H2 truth_makes) as [b Hb].
    exists {| pf_code := c; pf_user_pin_required := b |}. now split. }
  exists {| og_auth := a; og_pre := p |}. now split.
Qed.

Lemma draft_offers s m : json_text s (JObj m) -> draft_offer (JObj m) ->
  ((exists x, offer_from_json s = Some x) <->
   present m "grants" /\ forall l, In (lit "credentials", JArr l) m -> Forall plain_entry l).
Proof.
  intros T (m' & [= <-] & N & I & C & G).
  apply (a_text_reads _ _ (offer_value Reading) _ _ _ respects_offer offer_reads T). split.
  - intros [x Hx]. destruct (obj_members _ _ _ _ Hx) as (_ & Hc & (g & [Hg _] & _)). split.
    + exact (in_map fst m _ Hg).
    + intros l Hl. destruct C as (v & Hv & l' & -> & F).
      pose proof (only_is _ _ _ _ (only_in _ _ _ N Hv) Hl) as E. injection E as ->.
      pose proof (req_is _ _ _ _ _ Hc Hv) as (js & [= <-] & H).
      apply (entries_reads l' F). now exists (co_credentials x).
  - intros [P H]. destruct C as (v & Hv & l & -> & F). specialize (H l Hv).
    apply (entries_reads l F) in H. destruct H as [xs Hxs].
    destruct (must_makes m "credential_issuer" _ text_value N I text_makes) as [i Hi].
    assert (exists g, required_member m "grants" (struct_value Reading grant_names grants_written (grants_of Reading)) g) as [g Hg].
    { apply (must_makes m "grants" draft_grants _ N); [|apply grants_makes]. apply in_map_iff in P.
      destruct P as ([k w] & E & Hw). cbn [fst] in E. subst k. exists w. split; [exact Hw|]. now apply G. }
    exists {| co_credential_issuer := i; co_credentials := xs; co_grants := g |}, m. split; [constructor|].
    split; [exact Hi|]. split; [|exact Hg]. exists (JArr l). split; [now apply only_in|]. exists l. now split.
Qed.

(* ---------------- requests ---------------- *)

Lemma proof_makes : makes draft_proof (request_proof_value Reading).
Proof.
  intros v (m & -> & N & (t & It & ->) & (j & Ij & s & ->)).
  exists {| rp_proof_type := lit "jwt"; rp_jwt := s |}. apply pv_object; now apply only_in.
Qed.

Lemma draft_requests s m : json_text s (JObj m) -> draft_request (JObj m) ->
  ((exists x, credential_request_from_json s = Some x) <-> plain_members m).
Proof.
  intros T (m' & [= <-] & N & R & P).
  apply (a_text_reads _ _ (request_value Reading) _ _ _ respects_request request_reads T).
  rewrite <- (asked_iff Inside m N R). split.
  - intros [x Hx]. destruct (flat_members _ _ _ Hx) as (Hc & _). now exists (cr_format x).
  - intros [c Hc]. destruct (may_makes m "proof" _ _ N P proof_makes) as [p Hp].
    exists {| cr_format := c; cr_proof := p |}, m. split; [reflexivity|]. now split.
Qed.

(* ---------------- metadata ---------------- *)

Lemma logo_makes : makes draft_logo (struct_value Reading ["url"; "alt_text"]%string (all_of ["url"; "alt_text"]%string) logo_of).
Proof.
  apply struct_makes. intros m N [H1 H2].
  destruct (may_makes m "url" _ text_value N H1 text_makes) as [a Ha].
  destruct (may_makes m "alt_text" _ text_value N H2 text_makes) as [b Hb].
  exists {| dl_url := a; dl_alt_text := b |}. now split.
Qed.

Lemma properties_makes : makes draft_display (struct_value Reading display_names (all_of display_names) (display_of Reading)).
Proof.
  apply struct_makes. intros m N (H1 & H2 & H3 & H4 & H5 & H6).
  destruct (must_makes m "name" _ text_value N H1 text_makes) as [a Ha].
  destruct (may_makes m "locale" _ text_value N H2 text_makes) as [b Hb].
  destruct (may_makes m "logo" _ _ N H3 logo_makes) as [c Hc].
  destruct (may_makes m "description" _ text_value N H4 text_makes) as [e He].
  destruct (may_makes m "background_color" _ text_value N H5 text_makes) as [f Hf].
  destruct (may_makes m "text_color" _ text_value N H6 text_makes) as [g Hg].
  exists {| dp_name := a; dp_locale := b; dp_logo := c; dp_description := e; dp_background_color := f; dp_text_color := g |}.
  split; [exact Ha|]. split; [exact Hb|]. split; [exact Hc|]. split; [exact He|]. split; [exact Hf|exact Hg].
Qed.

Lemma supported_iff v : an_object draft_supported_members v ->
  ((exists x, supported_value Reading v x) <-> plain_supported v).
Proof.
  intros (m & -> & N & D & I & _ & S & P). split.
  - intros [x Hx]. destruct (flat_members _ _ _ Hx) as (Hc & _ & Hb & _). exists m. split; [reflexivity|]. split.
    + apply (described_iff Inside m N D). now exists (sup_format x).
    + intros v Iv. destruct (opt_is _ _ _ _ _ Hb Iv) as [E|(l & _ & js & -> & F)]; [now left|]. right. exists js.
      split; [reflexivity|]. clear - F. induction F as [|j t js l H _ IH]; [constructor|]. constructor; [now exists t|exact IH].
  - intros (m' & [= <-] & H & B). apply (described_iff Inside m N D) in H. destruct H as [c Hc].
    assert (exists o, optional_member m "cryptographic_binding_mehtods_supported" texts_value o) as [o Ho].
    { destruct (in_dec (list_eq_dec ascii_dec) (lit "cryptographic_binding_mehtods_supported") (map fst m)) as [J|J];
        [|exists None; now left].
      apply in_map_iff in J. destruct J as ([k v] & E & J). cbn [fst] in E. subst k.
      destruct (B v J) as [->|Hv]; [exists None; right; now apply only_in|].
      destruct (texts_makes v Hv) as [l Hl]. exists (Some l), v. split; [now apply only_in|exact Hl]. }
    destruct (may_makes m "id" _ text_value N I text_makes) as [i Hi].
    destruct (may_makes m "cryptographic_suites_supported" _ texts_value N S texts_makes) as [k Hk].
    destruct (may_makes m "display" _ (list_value (struct_value Reading display_names (all_of display_names) (display_of Reading))) N P) as [p Hp];
      [apply array_makes, properties_makes|].
    exists {| sup_format := c; sup_id := i; sup_binding_methods := o; sup_suites := k; sup_display := p |}, m.
    split; [reflexivity|]. split; [exact Hc|]. split; [exact Hi|]. split; [exact Ho|]. now split.
Qed.

Lemma each_iff {A} (Q C : json -> Prop) (P : json -> A -> Prop) l :
  (forall v, Q v -> ((exists x, P v x) <-> C v)) -> Forall Q l ->
  ((exists xs, Forall2 P l xs) <-> Forall C l).
Proof.
  intros E F. split.
  - intros [xs H]. induction H as [|v x l xs Hx _ IH]; [constructor|]. inversion F as [|? ? Fv F']; subst.
    constructor; [|now apply IH]. apply E; [exact Fv|]. now exists x.
  - intros H. induction H as [|v l Hv _ IH]; [exists []; constructor|]. inversion F as [|? ? Fv F']; subst.
    destruct (IH F') as [xs Hxs]. destruct (proj2 (E v Fv) Hv) as [x Hx]. exists (x :: xs). now constructor.
Qed.

Lemma draft_metadatas s m : json_text s (JObj m) -> draft_metadata (JObj m) ->
  ((exists x, metadata_from_json s = Some x) <->
   forall l, In (lit "credentials_supported", JArr l) m -> Forall plain_supported l).
Proof.
  intros T (m' & [= <-] & N & I & A & E & B & C).
  apply (a_text_reads _ _ (metadata_value Reading) _ _ _ respects_metadata metadata_reads T).
  destruct C as (v & Hv & l & -> & F). pose proof (each_iff _ _ _ l supported_iff F) as EL. split.
  - intros [x Hx] l' Hl. pose proof (only_is _ _ _ _ (only_in _ _ _ N Hv) Hl) as Q. injection Q as ->.
    destruct (flat_members _ _ _ Hx) as (_ & _ & _ & _ & Hc & _).
    pose proof (req_is _ _ _ _ _ Hc Hv) as (js & [= <-] & H). apply EL. now exists (im_credentials_supported x).
  - intros H. specialize (H l Hv). apply EL in H. destruct H as [xs Hxs].
    destruct (must_makes m "credential_issuer" _ text_value N I text_makes) as [i Hi].
    destruct (may_makes m "authorization_server" _ text_value N A text_makes) as [a Ha].
    destruct (must_makes m "credential_endpoint" _ text_value N E text_makes) as [e He].
    destruct (may_makes m "batch_credential_endpoint" _ text_value N B text_makes) as [b Hb].
    destruct (any_map_makes (JObj (members_except metadata_names m))) as [h Hh]; [now eexists|].
    exists {| im_credential_issuer := i; im_authorization_server := a; im_credential_endpoint := e;
              im_batch_credential_endpoint := b; im_credentials_supported := xs; im_additional_fields := Some h |}, m.
    split; [reflexivity|]. split; [exact Hi|]. split; [exact Ha|]. split; [exact He|]. split; [exact Hb|].
    split; [|exact Hh]. exists (JArr l). split; [now apply only_in|]. exists l. now split.
Qed.

(* ---------------- token responses ---------------- *)

Lemma count_iff m k : NoDup (map fst m) -> may m k a_count ->
  ((exists o, optional_member m k u32_value o) <-> counts_fit m [k]).
Proof.
  intros N M. split.
  - intros [o Ho] k' n [<-|[]] I. destruct (opt_is _ _ _ _ _ Ho I) as [E|(a & _ & E & L)]; [discriminate E|].
    injection E as E. apply N2Z.inj in E. now subst a.
  - intros C. apply (may_makes m k (fun v => exists n, v = JInt (Z.of_N n) /\ n < 2 ^ 32) u32_value N).
    + intros v I. destruct (M v I) as [n ->]. exists n. split; [reflexivity|]. apply (C k n); [now left|exact I].
    + intros v (n & -> & L). exists n. now split.
Qed.

Lemma counts_each m ns : counts_fit m ns <-> forall k, In k ns -> counts_fit m [k].
Proof.
  split.
  - intros H k I k' n [<-|[]] J. exact (H k n I J).
  - intros H k n I J. exact (H k I k n (or_introl eq_refl) J).
Qed.

Lemma draft_tokens s m : json_text s (JObj m) -> draft_token_response (JObj m) ->
  ((exists x, token_success_from_json s = Some x) <->
   In (lit "token_type", JStr (lit "Bearer")) m
   /\ counts_fit m ["expires_in"; "c_nonce_expires_in"; "interval"]%string).
Proof.
  intros T (m' & [= <-] & N & A & B & C & D & E & F & G & H).
  apply (a_text_reads _ _ (token_success_value Reading) _ _ _ respects_token_success token_success_reads T).
  destruct B as (v & Iv & t & -> & _). split.
  - intros [x Hx]. destruct (obj_members _ _ _ _ Hx) as (_ & Hb & Hc & _ & _ & Hf & _ & Hh). split.
    + pose proof (req_is _ _ _ _ _ Hb Iv) as Q. inversion Q; subst; exact Iv.
    + apply counts_each. intros k [<-|[<-|[<-|[]]]]; apply (count_iff m _ N); try assumption; eexists; eassumption.
  - intros [HB HC]. pose proof (only_is _ _ _ _ (only_in _ _ _ N Iv) HB) as Q. injection Q as <-.
    pose proof (proj1 (counts_each _ _) HC) as HC'.
    destruct (proj2 (count_iff m "expires_in" N C)) as [c Hc]; [apply HC'; cbn [In]; tauto|].
    destruct (proj2 (count_iff m "c_nonce_expires_in" N F)) as [f Hf]; [apply HC'; cbn [In]; tauto|].
    destruct (proj2 (count_iff m "interval" N H)) as [h Hh]; [apply HC'; cbn [In]; tauto|].
    destruct (must_makes m "access_token" _ text_value N A text_makes) as [a Ha].
    destruct (may_makes m "scope" _ text_value N D text_makes) as [d Hd].
    destruct (may_makes m "c_nonce" _ text_value N E text_makes) as [e He].
    destruct (may_makes m "authorization_pending" _ bool_value N G truth_makes) as [g Hg].
    exists {| ts_access_token := a; ts_token_type := Bearer; ts_expires_in := c; ts_scope := d; ts_c_nonce := e;
              ts_c_nonce_expires_in := f; ts_authorization_pending := g; ts_interval := h |}, m.
    split; [constructor|]. split; [exact Ha|].
    split; [exists (JStr (lit "Bearer")); split; [now apply only_in|constructor]|].
    split; [exact Hc|]. split; [exact Hd|]. split; [exact He|]. split; [exact Hf|]. now split.
Qed.

(* ---------------- credential responses ---------------- *)

Lemma issued_unread v x : issued_credential v -> ~ issued_value Reading v x.
Proof.
  intros [[s ->]|(m & -> & _ & P)] H; [inversion H|]. unfold present in P.
  inversion H; subst; cbn [map fst In] in P; destruct P as [E|[]]; apply lit_inj in E; discriminate E.
Qed.

Lemma draft_credentials s m : json_text s (JObj m) -> draft_credential_response (JObj m) ->
  ((exists x, credential_success_from_json s = Some x) <->
   ~ present m "credential" /\ counts_fit m ["c_nonce_expires_in"]%string).
Proof.
  intros T (m' & [= <-] & N & A & B & C & D & E & _).
  apply (a_text_reads _ _ (credential_success_value Reading) _ _ _ respects_credential_success credential_success_reads T).
  split.
  - intros [x Hx]. destruct (obj_members _ _ _ _ Hx) as (_ & Hb & _ & _ & He). split.
    + intros P. apply in_map_iff in P. destruct P as ([k v] & Ek & I). cbn [fst] in Ek. subst k.
      pose proof (B v I) as Bv.
      destruct (opt_is _ _ _ _ _ Hb I) as [->|(a & _ & V)]; [|now apply issued_unread in V].
      destruct Bv as [[? Q]|(? & Q & _)]; discriminate Q.
    + apply (count_iff m _ N E). now exists (cs_c_nonce_expires_in x).
  - intros [P HE]. destruct (proj2 (count_iff m "c_nonce_expires_in" N E) HE) as [e He].
    destruct (must_makes m "format" _ text_value N A text_makes) as [a Ha].
    destruct (may_makes m "acceptance_token" _ text_value N C text_makes) as [c Hc].
    destruct (may_makes m "c_nonce" _ text_value N D text_makes) as [d Hd].
    exists {| cs_format := a; cs_credential := None; cs_acceptance_token := c; cs_c_nonce := d; cs_c_nonce_expires_in := e |}, m.
    split; [constructor|]. split; [exact Ha|]. split; [now left|]. split; [exact Hc|]. now split.
Qed.

(* ---------------- what is learnt about claims ---------------- *)

Lemma text_member_iff m k o : optional_member m k text_value o -> forall t, o = Some t <-> In (lit k, JStr t) m.
Proof.
  intros H t. split.
  - intros ->. destruct H as (v & [I _] & ->). exact I.
  - intros I. destruct (opt_is _ _ _ _ _ H I) as [E|(a & -> & E)]; [discriminate E|]. now injection E as ->.
Qed.
Lemma truth_member_iff m k o : optional_member m k bool_value o -> forall b, o = Some b <-> In (lit k, JBool b) m.
Proof.
  intros H t. split.
  - intros ->. destruct H as (v & [I _] & ->). exact I.
  - intros I. destruct (opt_is _ _ _ _ _ H I) as [E|(a & -> & E)]; [discriminate E|]. now injection E as ->.
Qed.

Lemma shown v y : claim_display v -> subject_display_value Reading v y -> shows v y.
Proof.
  intros (m & -> & _ & _) H. destruct (obj_members _ _ _ _ H) as [H1 H2]. exists m. split; [reflexivity|].
  split; [exact (text_member_iff _ _ _ H1)|exact (text_member_iff _ _ _ H2)].
Qed.

Lemma all_shown js l : Forall claim_display js -> Forall2 (subject_display_value Reading) js l -> Forall2 shows js l.
Proof.
  intros F H. induction H as [|v y js l Hy _ IH]; [constructor|]. inversion F; subst. constructor; [now apply shown|auto].
Qed.

Lemma claim_learnt d x : like_claim d -> subject_value Reading (JObj d) x ->
  (forall b, cs_mandatory x = Some b <-> In (lit "mandatory", JBool b) d)
  /\ (forall t, cs_value_type x = Some t <-> In (lit "valueType", JStr t) d)
  /\ displayed d (cs_display x).
Proof.
  intros (N & M & D) H. destruct (obj_members _ _ _ _ H) as (H1 & H2 & H3).
  split; [exact (truth_member_iff _ _ _ H1)|]. split; [exact (text_member_iff _ _ _ H2)|].
  destruct (cs_display x) as [l|]; cbn [displayed].
  - destruct H3 as (v & [I _] & js & -> & F). exists js. split; [exact I|].
    destruct (D _ I) as [(js' & [= <-] & G)|[m E]]; [|discriminate E]. now apply all_shown.
  - intros P. apply in_map_iff in P. destruct P as ([k v] & E & I). cbn [fst] in E. subst k.
    destruct H3 as [H3|H3]; [apply H3; exact (in_map fst d _ I)|]. pose proof (only_is _ _ _ _ H3 I) as ->.
    destruct (D _ I) as [(js' & E & _)|[m E]]; discriminate E.
Qed.

Lemma format_not_mdoc m f : NoDup (map fst m) -> format_is m f -> f <> "mso_mdoc"%string -> ~ format_is m "mso_mdoc".
Proof. intros N F Q G. now apply Q, (format_one m). Qed.

Lemma credential_claims p m c h n x : NoDup (map fst m) -> described_members m -> credential_of Reading p m c ->
  claims_in c = Some h -> In (n, x) h ->
  exists d, claim_listed m n d /\ like_claim d /\ subject_value Reading (JObj d) x
    /\ (format_is m "mso_mdoc" -> forall k j, In (k, j) d -> exists m, j = JObj m).
Proof.
  intros N D C Hc I. destruct D as [F T S O|F X T S O|F T S O|F].
  - assert (exists o, c = JwtVcJson o (Some h) (match c with JwtVcJson _ _ r => r | _ => None end)
      /\ optional_member m "credentialSubject" (map_value (subject_value Reading)) (Some h)) as (o & _ & H).
    { destruct C as [t ? ? G _ H|? ? ? G _ H|? ? ? ? G _ _ H|? ? ? G _ H]; cbn [claims_in] in Hc; subst;
        [exists t; now split|apply (format_same _ _ _ _ _ _ N F) in G; absurd_name..]. }
    destruct (claims_read m _ h n x N H I) as (cl & j & Ic & Ij & V).
    destruct (S _ Ic) as (cl' & [= <-] & _ & E). destruct (object_claim j (E n j Ij)) as (d & -> & L).
    assert (~ format_is m "mso_mdoc") as NM by (apply (format_not_mdoc m _ N F); discriminate).
    exists d. split; [exact (cl_subject m n d cl NM Ic Ij)|]. split; [exact L|]. split; [exact V|]. contradiction.
  - assert (optional_member m "credentialSubject" (map_value (subject_value Reading)) (Some h)) as H.
    { destruct C as [? ? ? G _ H|? ? ? G _ H|? ? ? ? G _ _ H|? ? ? G _ H]; cbn [claims_in] in Hc; subst; try exact H;
        destruct F as [F|F]; apply (format_same _ _ _ _ _ _ N F) in G; absurd_name. }
    destruct (claims_read m _ h n x N H I) as (cl & j & Ic & Ij & V).
    destruct (S _ Ic) as (cl' & [= <-] & _ & E). destruct (object_claim j (E n j Ij)) as (d & -> & L).
    assert (~ format_is m "mso_mdoc") as NM
      by (destruct F as [F|F]; apply (format_not_mdoc m _ N F); discriminate).
    exists d. split; [exact (cl_subject m n d cl NM Ic Ij)|]. split; [exact L|]. split; [exact V|]. contradiction.
  - assert (optional_member m "claims" (map_value (subject_value Reading)) (Some h)) as H.
    { destruct C as [? ? ? G _ H|? ? ? G _ H|? ? ? ? G _ _ H|? ? ? G _ H]; cbn [claims_in] in Hc; subst; try exact H;
        apply (format_same _ _ _ _ _ _ N F) in G; absurd_name. }
    destruct (claims_read m _ h n x N H I) as (cl & j & Ic & Ij & V).
    destruct (S _ Ic) as (cl' & [= <-] & _ & E). destruct (namespace_claim j (E n j Ij)) as (d & -> & L & A).
    exists d. split; [exact (cl_mdoc m n d cl F Ic Ij)|]. split; [exact L|]. split; [exact V|]. auto.
  - now apply other_unread in C.
Qed.

Lemma read_credential s m c : json_text s (JObj m) -> cfp_from_json s = Some c -> credential_of Reading Alone m c.
Proof.
  intros T H. apply cfp_reading in H. destruct H as (v & T' & V).
  apply parse_doc_iff in T, T'. unfold json_text in *. rewrite T in T'. injection T' as <-.
  destruct V as (m' & M & C). inversion M; subst. exact C.
Qed.

Lemma claims_learnt s m c h n x : json_text s (JObj m) -> NoDup (map fst m) -> described_members m ->
  cfp_from_json s = Some c -> claims_in c = Some h -> In (n, x) h ->
  exists d, claim_listed m n d
    /\ (forall b, cs_mandatory x = Some b <-> In (lit "mandatory", JBool b) d)
    /\ (forall t, cs_value_type x = Some t <-> In (lit "valueType", JStr t) d)
    /\ displayed d (cs_display x).
Proof.
  intros T N D H Hc I. apply (read_credential s m c T) in H.
  destruct (credential_claims Alone m c h n x N D H Hc I) as (d & L & K & V & _). exists d. split; [exact L|].
  now apply claim_learnt.
Qed.

(** And every claim that is described is there. *)
Lemma claims_all_read m k cl h n j : optional_member m k (map_value (subject_value Reading)) h ->
  In (lit k, JObj cl) m -> In (n, j) cl -> exists h' x, h = Some h' /\ In (n, x) h'.
Proof.
  intros H I J. destruct (opt_is _ _ _ _ _ H I) as [E|(a & -> & c & [= <-] & F & _)]; [discriminate E|].
  exists a. assert (In n (map fst a)) as M by exact (first_occurrences_In _ _ n F (in_map fst cl _ J)).
  apply in_map_iff in M as ([n' x] & <- & M). now exists x.
Qed.
Lemma claims_listed_read s m c n d : json_text s (JObj m) -> NoDup (map fst m) -> described_members m ->
  cfp_from_json s = Some c -> claim_listed m n d -> exists h x, claims_in c = Some h /\ In (n, x) h.
Proof.
  intros T N D H L. apply (read_credential s m c T) in H. destruct L as [cl NF Ic Ij|cl F Ic Ij].
  - destruct D as [F _ _ _|F _ _ _ _|F _ _ _|F]; [| |contradiction|now apply other_unread in H].
    + destruct H as [t ? ? G _ H|? ? ? G _ H|? ? ? ? G _ _ H|? ? ? G _ H]; cbn [claims_in];
        try exact (claims_all_read _ _ _ _ _ _ H Ic Ij). apply (format_same _ _ _ _ _ _ N F) in G; absurd_name.
    + destruct H as [t ? ? G _ H|? ? ? G _ H|? ? ? ? G _ _ H|? ? ? G _ H]; cbn [claims_in];
        try exact (claims_all_read _ _ _ _ _ _ H Ic Ij).
      destruct F as [F|F]; apply (format_same _ _ _ _ _ _ N F) in G; absurd_name.
  - destruct H as [t ? ? G _ H|? ? ? G _ H|? ? ? ? G _ _ H|? ? ? G _ H]; cbn [claims_in];
      try exact (claims_all_read _ _ _ _ _ _ H Ic Ij); apply (format_same _ _ _ _ _ _ N F) in G; absurd_name.
Qed.

Lemma namespaces_lost s m c h n x : json_text s (JObj m) -> NoDup (map fst m) -> described_members m ->
  format_is m "mso_mdoc" -> cfp_from_json s = Some c -> claims_in c = Some h -> In (n, x) h ->
  x = {| cs_mandatory := None; cs_value_type := None; cs_display := None |}.
Proof.
  intros T N D F H Hc I. apply (read_credential s m c T) in H.
  destruct (credential_claims Alone m c h n x N D H Hc I) as (d & L & K & V & A). specialize (A F).
  destruct (claim_learnt d x K V) as (H1 & H2 & H3). destruct x as [a b e]; cbn [cs_mandatory cs_value_type cs_display] in *.
  f_equal.
  - destruct a as [y|]; [|reflexivity]. destruct (A _ _ (proj1 (H1 y) eq_refl)) as [? E]. discriminate E.
  - destruct b as [y|]; [|reflexivity]. destruct (A _ _ (proj1 (H2 y) eq_refl)) as [? E]. discriminate E.
  - destruct e as [y|]; [|reflexivity]. destruct H3 as (js & J & _). destruct (A _ _ J) as [? E]. discriminate E.
Qed.

Lemma value_types_lost s m c h n x : json_text s (JObj m) -> NoDup (map fst m) -> described_members m ->
  (forall n d, claim_listed m n d -> ~ present d "valueType") ->
  cfp_from_json s = Some c -> claims_in c = Some h -> In (n, x) h -> cs_value_type x = None.
Proof.
  intros T N D Q H Hc I. destruct (claims_learnt s m c h n x T N D H Hc I) as (d & L & _ & H2 & _).
  destruct (cs_value_type x) as [t|]; [|reflexivity]. exfalso. apply (Q n d L).
  exact (in_map fst d _ (proj1 (H2 t) eq_refl)).
Qed.

(* ---------------- keys ---------------- *)

Lemma first_member (m : list (str * json)) : (exists k v, In (k, v) m /\ names_key k) ->
  exists before k v after, m = before ++ (k, v) :: after /\ names_key k
    /\ forall k v, In (k, v) before -> ~ names_key k.
Proof.
  induction m as [|[k v] m IH]; [intros (? & ? & [] & _)|]. intros H.
  assert (names_key k \/ ~ names_key k) as [K|K].
  { destruct (in_dec (list_eq_dec ascii_dec) k (map lit key_names)) as [I|I].
    - left. apply in_map_iff in I. destruct I as (n & <- & I). now exists n.
    - right. intros (n & J & ->). apply I. now apply in_map. }
  - exists [], k, v, m. split; [reflexivity|]. split; [exact K|]. intros ? ? [].
  - destruct IH as (b & k1 & v1 & a & -> & K1 & B).
    { destruct H as (k1 & v1 & [E|I] & K1); [injection E as -> ->; contradiction|]. eauto. }
    exists ((k, v) :: b), k1, v1, a. split; [reflexivity|]. split; [exact K1|].
    intros k2 v2 [E|I]; [injection E as <- <-; exact K|now apply B in I].
Qed.

Lemma key_alone (m : list (str * json)) n (v : json) k (w : json) : NoDup (map fst m) -> In (lit n, v) m ->
  (forall n', In n' key_names -> n' <> n -> ~ In (lit n') (map fst m)) ->
  In (k, w) m -> names_key k -> k = lit n /\ w = v.
Proof.
  intros N I A J (n' & Hn & ->). destruct (string_dec n' n) as [->|Q].
  - split; [reflexivity|]. exact (only_is _ _ _ _ (only_in _ _ _ N I) J).
  - exfalso. apply (A n' Hn Q). exact (in_map fst m _ J).
Qed.

Lemma draft_headers s m : json_text s (JObj m) -> draft_header (JObj m) ->
  exists h, header_from_json s = Some h
    /\ (forall k, h_additional h = Some (KeyId k) <-> In (lit "kid", JStr k) m)
    /\ (~ present m "kid" -> h_additional h = None).
Proof.
  intros T (m' & [= <-] & N & (t & It & typ & ->) & (a & Ia & Ha) & K).
  assert (exists alg, alg_value a alg) as [alg Halg].
  { destruct Ha as [->| ->]; [exists EdDSA|exists ES256]; apply av_name; constructor. }
  assert (exists (n : string) (v : json), In (lit n, v) m /\ In n key_names
    /\ (forall n', In n' key_names -> n' <> n -> ~ In (lit n') (map fst m))
    /\ (n = "kid"%string /\ (exists s, v = JStr s) \/ n <> "kid"%string /\ (forall s, v <> JStr s)))
    as (n & v & Iv & Hn & A & V).
  { destruct K as [k I D|v I (o & -> & _) D|v I (o & -> & _) D].
    - exists "kid"%string, (JStr k). split; [exact I|]. split; [cbn; auto|]. split; [|left; split; [reflexivity|now exists k]].
      intros n' [<-|[<-|[<-|[]]]] Q; try (now destruct Q); apply D; cbn [In]; auto.
    - exists "jwk"%string, (JObj o). split; [exact I|]. split; [cbn; auto|]. split; [|right; split; discriminate].
      intros n' [<-|[<-|[<-|[]]]] Q; try (now destruct Q); apply D; cbn [In]; auto.
    - exists "x5c"%string, (JArr o). split; [exact I|]. split; [cbn; auto|]. split; [|right; split; discriminate].
      intros n' [<-|[<-|[<-|[]]]] Q; try (now destruct Q); apply D; cbn [In]; auto. }
  destruct (first_member m) as (b & k & w & r & E & Kk & B); [exists (lit n), v; split; [exact Iv|now exists n]|].
  destruct (key_alone m n v k w N Iv A) as [-> ->]; [rewrite E; apply in_or_app; right; now left|exact Kk|].
  assert (forall o, first_key m o -> header_from_json s = Some {| h_typ := typ; h_alg := alg; h_additional := o |}) as R.
  { intros o Ho. apply header_from_json_iff. exists m. split; [apply parse_json_iff; exact T|].
    split; [now apply only_in|]. split; [|exact Ho]. exists a. split; [now apply only_in|exact Halg]. }
  destruct V as [[-> [kid ->]]|[Q V]].
  - exists {| h_typ := typ; h_alg := alg; h_additional := Some (KeyId kid) |}. split.
    + apply R. apply (fk_some m b r "kid" kid); [exact E|exact B|constructor].
    + cbn [h_additional]. split.
      * intros k. split; [intros [= <-]; exact Iv|]. intros I.
        pose proof (only_is _ _ _ _ (only_in _ _ _ N Iv) I) as Q. now injection Q as ->.
      * intros P. exfalso. apply P. exact (in_map fst m _ Iv).
  - exists {| h_typ := typ; h_alg := alg; h_additional := None |}. split.
    + apply R. apply (fk_not_text m b r (lit n) v); [exact E|exact B|exact Kk|exact V].
    + cbn [h_additional]. split; [|reflexivity]. intros k. split; [discriminate|]. intros I. exfalso.
      apply (A "kid"%string); [cbn; auto|congruence|exact (in_map fst m _ I)].
Qed.
