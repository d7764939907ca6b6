(** No member that is read by name occurs twice (C115). *)
From Coq Require Import Lia.
From Verif Require Import Model.Prelude Model.Json Model.Types Model.Deps Model.Serde Model.SerdeOptions Model.Wire
  Spec SpecToken SpecJson SpecJwt SpecDocuments SpecWire SpecTwice
  Proofs.StrFacts Proofs.JsonFacts Proofs.SerdeFacts Proofs.DocumentFacts Proofs.ReaderFacts Proofs.GrammarFacts Proofs.WireFacts
  Proofs.KeptFacts Proofs.RenumberFacts Proofs.JwtFacts.

Definition once (m : member_list) (n : string) : Prop := (times n m <= 1)%nat.

Lemma only_times m k v : only_member m k v -> times k m = 1%nat.
Proof. intros [_ H]. exact H. Qed.
Lemma only_once m k v : only_member m k v -> once m k.
Proof. intros H. unfold once. rewrite (only_times _ _ _ H). constructor. Qed.
Lemma req_once {A} m k (P : json -> A -> Prop) a : required_member m k P a -> once m k.
Proof. intros (v & H & _). exact (only_once _ _ _ H). Qed.
Lemma opt_once {A} m k (P : json -> A -> Prop) o : optional_member m k P o -> once m k.
Proof.
  destruct o as [a|].
  - intros (v & H & _). exact (only_once _ _ _ H).
  - intros [H|H]; [|exact (only_once _ _ _ H)]. unfold once, times.
    rewrite (proj1 (count_occ_not_In _ _ _) H). auto.
Qed.

Lemma once_same (m : member_list) k v w : (count_occ (list_eq_dec ascii_dec) (map fst m) k <= 1)%nat ->
  In (k, v) m -> In (k, w) m -> v = w.
Proof.
  induction m as [|[k' u] m IH]; [intros _ []|]. cbn [map fst]. intros C.
  assert (forall x, In (k, x) m -> (1 <= count_occ (list_eq_dec ascii_dec) (map fst m) k)%nat) as N.
  { intros x I. apply (count_occ_In (list_eq_dec ascii_dec)). exact (in_map fst m _ I). }
  intros [E|I] [F|J].
  - congruence.
  - injection E as -> ->. specialize (N _ J). rewrite count_occ_cons_eq in C by reflexivity. unfold str in *. lia.
  - injection F as -> ->. specialize (N _ I). rewrite count_occ_cons_eq in C by reflexivity. unfold str in *. lia.
  - apply IH; [|exact I|exact J]. destruct (list_eq_dec ascii_dec k' k) as [E|E].
    + rewrite count_occ_cons_eq in C by exact E. unfold str in *. lia.
    + rewrite count_occ_cons_neq in C by exact E. exact C.
Qed.
Lemma only_is m k v w : only_member m k v -> In (lit k, w) m -> w = v.
Proof. intros [I C] J. apply (once_same m (lit k)); [rewrite C; constructor|exact J|exact I]. Qed.
Lemma req_is {A} m k (P : json -> A -> Prop) a w : required_member m k P a -> In (lit k, w) m -> P w a.
Proof. intros (v & H & Q) I. now rewrite (only_is _ _ _ _ H I). Qed.
Lemma opt_is {A} m k (P : json -> A -> Prop) o w : optional_member m k P o -> In (lit k, w) m ->
  w = JNull \/ exists a, o = Some a /\ P w a.
Proof.
  destruct o as [a|].
  - intros (v & H & Q) I. right. exists a. split; [reflexivity|]. now rewrite (only_is _ _ _ _ H I).
  - intros [H|H] I; [destruct H; exact (in_map fst m _ I)|left; exact (only_is _ _ _ _ H I)].
Qed.
Lemma members_same ns v m m' : members_of ns v m -> members_of ns v m' -> m = m'.
Proof. intros H H'. inversion H; subst; inversion H'; subst; reflexivity. Qed.
Lemma members_null ns m : ~ members_of ns JNull m.
Proof. intros H. inversion H. Qed.
Lemma struct_is {A} ns (P : member_list -> A -> Prop) v a m :
  (exists m', members_of ns v m' /\ P m' a) -> members_of ns v m -> P m a.
Proof. intros (m' & M & Q) M'. now rewrite (members_same _ _ _ _ M' M). Qed.
Lemma list_nth {A} (P : json -> A -> Prop) l xs i e a : list_value P (JArr l) xs ->
  nth_error l i = Some e -> nth_error xs i = Some a -> P e a.
Proof.
  intros (js & [= <-] & F). revert i. induction F as [|x y l xs H F IH]; intros [|i]; try discriminate.
  - intros [= <-] [= <-]. exact H.
  - apply IH.
Qed.
Lemma list_In {A} (P : json -> A -> Prop) l xs e : list_value P (JArr l) xs -> In e l -> exists a, P e a.
Proof.
  intros (js & [= <-] & F). induction F as [|x y l xs H F IH]; intros []; [subst; now exists y|auto].
Qed.
Lemma map_In {A} (P : json -> A -> Prop) m h k v : map_value P (JObj m) h -> In (k, v) m -> exists a, P v a.
Proof. intros (m' & [= <-] & _ & H & _). apply H. Qed.

Ltac once_all := repeat apply Forall_cons; try apply Forall_nil;
  first [eapply only_once; eassumption | eapply req_once; eassumption | eapply opt_once; eassumption].

Lemma subject_once v x ns o : subject_value Reading v x -> subject_object v ns o -> Forall (once o) ns.
Proof.
  intros V O. destruct O as [m M|m l e o M I J N].
  - pose proof (struct_is _ _ _ _ _ V M) as (H1 & H2 & H3). once_all.
  - pose proof (struct_is _ _ _ _ _ V M) as (_ & _ & H).
    destruct (opt_is _ _ _ _ _ H I) as [E|(a & _ & L)]; [discriminate E|].
    destruct (list_In _ _ _ _ L J) as (b & D). pose proof (struct_is _ _ _ _ _ D N) as (H1 & H2). once_all.
Qed.

Lemma format_once p m name pos : format_member Reading p m name pos -> once m "format".
Proof. intros [H|(_ & _ & H)]; exact (only_once _ _ _ H). Qed.
Lemma credential_names_once p m c : credential_of Reading p m c -> Forall (once m) (credential_names c).
Proof.
  intros C. destruct C; cbn [credential_names]; repeat apply Forall_cons; try apply Forall_nil;
    first [eapply format_once; eassumption | eapply req_once; eassumption | eapply opt_once; eassumption].
Qed.
Lemma described_once p m c ns o : credential_of Reading p m c -> described c m ns o -> Forall (once o) ns.
Proof.
  intros C [l k v ns' o' I J S].
  assert (exists h, map_value (subject_value Reading) (JObj l) h) as (h & M).
  { destruct C as [? ? ? _ _ H|? ? ? _ _ H|? ? ? ? _ _ _ H|? ? ? _ _ H];
      destruct (opt_is _ _ _ _ _ H I) as [E|(a & _ & M)]; try discriminate E; now exists a. }
  destruct (map_In _ _ _ _ _ M J) as (x & X). exact (subject_once _ _ _ _ X S).
Qed.
Lemma credential_once p v c ns o : credential_value Reading p v c -> credential_object c v ns o -> Forall (once o) ns.
Proof.
  intros V O. destruct O as [m M|m ns o M D]; pose proof (struct_is _ _ _ _ _ V M) as C.
  - exact (credential_names_once _ _ _ C).
  - exact (described_once _ _ _ _ _ C D).
Qed.

Lemma offer_once v x ns o : offer_value Reading v x -> offer_object x v ns o -> Forall (once o) ns.
Proof.
  intros V O. destruct O as [m M|m l i e c ns o M I E X D|m g o M I N|m g gm f o M I N J K|m g gm f o M I N J K];
    pose proof (struct_is _ _ _ _ _ V M) as (H1 & H2 & H3).
  - once_all.
  - pose proof (list_nth _ _ _ _ _ _ (req_is _ _ _ _ _ H2 I) E X) as C. inversion C as [|v' c' W]; subst.
    exact (credential_once _ _ _ _ _ W D).
  - pose proof (struct_is _ _ _ _ _ (req_is _ _ _ _ _ H3 I) N) as (G1 & G2). once_all.
  - pose proof (struct_is _ _ _ _ _ (req_is _ _ _ _ _ H3 I) N) as (G1 & G2).
    destruct (opt_is _ _ _ _ _ G1 J) as [->|(a & _ & F)]; [now apply members_null in K|].
    pose proof (struct_is _ _ _ _ _ F K) as F1. unfold auth_flow_of in F1. once_all.
  - pose proof (struct_is _ _ _ _ _ (req_is _ _ _ _ _ H3 I) N) as (G1 & G2).
    destruct (opt_is _ _ _ _ _ G2 J) as [->|(a & _ & F)]; [now apply members_null in K|].
    pose proof (struct_is _ _ _ _ _ F K) as (F1 & F2). once_all.
Qed.

Lemma supported_once m x ns o : supported_of Reading m x -> supported_object x m ns o -> Forall (once o) ns.
Proof.
  intros (C & H1 & H2 & H3 & H4) O. destruct O as [|ns o D|l e o I J N|l e em g o I J N K G].
  - apply Forall_app. split; [once_all|exact (credential_names_once _ _ _ C)].
  - exact (described_once _ _ _ _ _ C D).
  - destruct (opt_is _ _ _ _ _ H4 I) as [E|(a & _ & L)]; [discriminate E|].
    destruct (list_In _ _ _ _ L J) as (b & D).
    pose proof (struct_is _ _ _ _ _ D N) as (D1 & D2 & D3 & D4 & D5 & D6). once_all.
  - destruct (opt_is _ _ _ _ _ H4 I) as [E|(a & _ & L)]; [discriminate E|].
    destruct (list_In _ _ _ _ L J) as (b & D).
    pose proof (struct_is _ _ _ _ _ D N) as (_ & _ & D3 & _).
    destruct (opt_is _ _ _ _ _ D3 K) as [->|(a' & _ & F)]; [now apply members_null in G|].
    pose proof (struct_is _ _ _ _ _ F G) as (F1 & F2). once_all.
Qed.
Lemma metadata_once v x ns o : metadata_value Reading v x -> metadata_object x v ns o -> Forall (once o) ns.
Proof.
  intros (m0 & -> & H1 & H2 & H3 & H4 & H5 & _) O.
  destruct O as [m M|m l i em c ns o M I E X S]; injection M as <-.
  - once_all.
  - pose proof (list_nth _ _ _ _ _ _ (req_is _ _ _ _ _ H5 I) E X) as (m & [= <-] & C).
    exact (supported_once _ _ _ _ C S).
Qed.
Lemma request_once v x ns o : request_value Reading v x -> request_object x v ns o -> Forall (once o) ns.
Proof.
  intros (m0 & -> & C & H) O. destruct O as [m M|m ns o M D|m o M I]; injection M as <-.
  - apply Forall_cons; [exact (opt_once _ _ _ _ H)|exact (credential_names_once _ _ _ C)].
  - exact (described_once _ _ _ _ _ C D).
  - destruct (opt_is _ _ _ _ _ H I) as [E|(a & _ & P)]; [discriminate E|].
    cbn [request_proof_value] in P. inversion P as [m' jwt N1 N2|m' t jwt N1 N2|]; subst.
    + apply Forall_cons; [exact (opt_once _ _ text_value None (or_introl N1))|]. once_all.
    + once_all.
Qed.
Lemma response_once v x ns o : credential_success_value Reading v x -> response_object x v ns o -> Forall (once o) ns.
Proof.
  intros V O. destruct O as [m M|m e c ns o M I X D];
    pose proof (struct_is _ _ _ _ _ V M) as (H1 & H2 & H3 & H4 & H5); [once_all|].
  destruct (opt_is _ _ _ _ _ H2 I) as [E|(a & A & Y)]; [discriminate E|].
  rewrite X in A. injection A as <-. inversion Y as [v' c' W|]; subst. exact (credential_once _ _ _ _ _ W D).
Qed.
Lemma token_request_once v x ns o : token_request_value Reading v x -> token_request_object x v ns o -> Forall (once o) ns.
Proof.
  intros V O. destruct O as [m M|m g o M I N]; pose proof (struct_is _ _ _ _ _ V M) as H;
    unfold token_request_of in H; [once_all|].
  pose proof (struct_is _ _ _ _ _ (req_is _ _ _ _ _ H I) N) as G. inversion G as [G1 G0|code pin G1 G2 G3 G0].
  - destruct x as [y]. cbn [tr_grant_type] in *. subst y. cbn [grant_type_names]. once_all.
  - destruct x as [y]. cbn [tr_grant_type] in *. subst y. cbn [grant_type_names]. once_all.
Qed.
Lemma options_once d v x ns o : eval_options_value Reading d v x -> options_object v ns o -> Forall (once o) ns.
Proof.
  intros V O. destruct O as [m M|m g o M I N]; pose proof (struct_is _ _ _ _ _ V M) as (H1 & H2); [once_all|].
  destruct (opt_is _ _ _ _ _ H1 I) as [->|(a & _ & F)]; [now apply members_null in N|].
  pose proof (struct_is _ _ _ _ _ F N) as (F1 & F2 & F3). once_all.
Qed.
Lemma header_once m x : header_of m x -> Forall (once m) (header_names false).
Proof. intros (H1 & (a & H2 & _) & _). once_all. Qed.
Lemma claims_once d m x : claims_of d m x -> Forall (once m) claim_names.
Proof. intros (H1 & H2 & H3 & (a & H4 & _) & H5 & H6 & H7). once_all. Qed.
Lemma proof_once d v x ns o : proof_jwt_value Reading d v x -> proof_object false v ns o -> Forall (once o) ns.
Proof.
  intros V O. destruct O as [m M|m o M I|m b o M I N]; pose proof (struct_is _ _ _ _ _ V M) as (H1 & H2 & H3).
  - once_all.
  - destruct (req_is _ _ _ _ _ H1 I) as (m' & [= <-] & H). exact (header_once _ _ H).
  - exact (claims_once d _ _ (struct_is _ _ _ _ _ (req_is _ _ _ _ _ H2 I) N)).
Qed.

(* ---------------- documents ---------------- *)

Lemma respects_token_request : respects (plain [lit "grant_type"]) de_token_request.
Proof. apply (respects_struct [(lit "grant_type", Whole)]); [reflexivity|]. fields_apart. reflexivity. Qed.
Lemma respects_token_options : respects (plain [lit "expected_user_pin"]) de_token_options.
Proof. apply (respects_struct [(lit "expected_user_pin", Whole)]); [reflexivity|]. fields_apart. reflexivity. Qed.
Lemma respects_c_nonce : respects (plain [lit "c_nonce"; lit "c_nonce_expires_in"]) de_c_nonce.
Proof.
  apply (respects_struct [(lit "c_nonce", Whole); (lit "c_nonce_expires_in", Whole)]); [reflexivity|]. fields_apart. reflexivity.
Qed.
Lemma respects_token_success : respects (plain token_success_fields) de_token_success.
Proof.
  apply (respects_struct [(lit "access_token", Whole); (lit "token_type", Whole); (lit "expires_in", Whole);
    (lit "scope", Whole); (lit "c_nonce", Whole); (lit "c_nonce_expires_in", Whole);
    (lit "authorization_pending", Whole); (lit "interval", Whole)]); [reflexivity|]. fields_apart. reflexivity.
Qed.

Lemma read_value {A} sh (D : json -> option A) (V : json -> A -> Prop) s j x :
  respects sh D -> reads D V -> json_text s j -> opt_bind (parse_doc sh s) D = Some x -> V j x.
Proof. intros R W T H. rewrite (respects_read sh D s j R T) in H. now apply W. Qed.

Lemma read_objects_once d s v ns m : json_text s v -> read_object d false s v ns m -> Forall (once m) ns.
Proof.
  intros T R. destruct R as [x ns m H O|x ns m H O|x ns m H O|x ns m H O|x ns m H O|x m H O|x m H O|x m H O|x ns m H O|x m H O|x m H O|x ns m H O].
  - exact (offer_once _ _ _ _ (read_value _ _ _ _ _ _ respects_offer offer_reads T H) O).
  - exact (metadata_once _ _ _ _ (read_value _ _ _ _ _ _ respects_metadata metadata_reads T H) O).
  - exact (request_once _ _ _ _ (read_value _ _ _ _ _ _ respects_request request_reads T H) O).
  - exact (response_once _ _ _ _ (read_value _ _ _ _ _ _ respects_credential_success credential_success_reads T H) O).
  - exact (token_request_once _ _ _ _ (read_value _ _ _ _ _ _ respects_token_request token_request_reads T H) O).
  - pose proof (struct_is _ _ _ _ _ (read_value _ _ _ _ _ _ respects_token_success token_success_reads T H) O)
      as (H1 & H2 & H3 & H4 & H5 & H6 & H7 & H8). once_all.
  - subst v. apply parse_json_iff in T. unfold header_from_json in H. rewrite T in H. cbn [opt_bind] in H.
    apply header_reads in H. destruct H as (m' & [= <-] & H). exact (header_once _ _ H).
  - exact (claims_once d _ _ (struct_is _ _ _ _ _ (read_value _ _ _ _ _ _ (respects_claims d) (claims_reads d) T H) O)).
  - exact (options_once _ _ _ _ _ (read_value _ _ _ _ _ _ (respects_eval_options d) (eval_options_reads d) T H) O).
  - pose proof (struct_is _ _ _ _ _ (read_value _ _ _ _ _ _ respects_token_options token_options_reads T H) O) as H1.
    unfold token_options_of in H1. once_all.
  - pose proof (struct_is _ _ _ _ _ (read_value _ _ _ _ _ _ respects_c_nonce c_nonce_reads T H) O) as (H1 & H2). once_all.
  - exact (proof_once _ _ _ _ _ (read_value _ _ _ _ _ _ (respects_proof_jwt d) (proof_jwt_reads d) T H) O).
Qed.
Lemma members_once d s v ns m n : json_text s v -> read_object d false s v ns m -> In n ns -> (times n m <= 1)%nat.
Proof. intros T R I. pose proof (read_objects_once _ _ _ _ _ T R) as F. rewrite Forall_forall in F. exact (F n I). Qed.

(* ---------------- where a name can occur twice ---------------- *)

Lemma later_keys_unread s s' m extra h key : json_text s (JObj m) -> json_text s' (JObj (m ++ extra)) ->
  header_from_json s = Some h -> h_additional h = Some key ->
  ~ In (lit "typ") (map fst extra) -> ~ In (lit "alg") (map fst extra) -> header_from_json s' = Some h.
Proof.
  intros T T' H K N1 N2. apply parse_json_iff in T, T'. unfold header_from_json in *. rewrite T in H. rewrite T'.
  cbn [opt_bind] in *. apply header_reads in H. apply header_reads. destruct H as (m' & [= <-] & H).
  exists (m ++ extra). split; [reflexivity|]. exact (later_keys_ignored m h key extra H K N1 N2).
Qed.

Lemma first_occurrences_In l l' k : first_occurrences l l' -> In k l -> In k l'.
Proof.
  intros F. induction F as [|x l l' F IH]; [intros []|]. intros [->|I]; [now left|].
  destruct (list_eq_dec ascii_dec x k) as [->|N]; [now left|]. right. apply IH. apply filter_In. split; [exact I|].
  now destruct (list_eq_dec ascii_dec x k).
Qed.
Lemma last_once m k v w : last_member m k v -> last_member m k w -> v = w.
Proof.
  intros (b & a & -> & N) (b' & a' & E & N'). revert b' E. induction b as [|x b IH]; intros [|y b'] E; cbn [app] in E.
  - injection E as E1 _. exact E1.
  - injection E as <- E2. exfalso. apply N. rewrite E2. rewrite map_app. apply in_or_app. right. now left.
  - injection E as -> E2. exfalso. apply N'. rewrite <- E2. rewrite map_app. apply in_or_app. right. now left.
  - injection E as _ E2. exact (IH b' E2).
Qed.
Lemma last_except m k v : ~ In k (map lit metadata_names) -> last_member m k v ->
  last_member (members_except metadata_names m) k v.
Proof.
  intros N (b & a & -> & A). exists (members_except metadata_names b), (members_except metadata_names a). split.
  - unfold members_except. rewrite filter_app. cbn [filter fst].
    destruct (in_dec (list_eq_dec ascii_dec) k (map lit metadata_names)) as [I|_]; [now destruct N|]. reflexivity.
  - intros I. apply A. apply in_map_iff in I. destruct I as (kv & E & I). apply filter_In in I.
    apply in_map_iff. exists kv. tauto.
Qed.
Lemma last_field_read s m x k v : json_text s (JObj m) -> metadata_from_json s = Some x ->
  ~ In k (map lit metadata_names) -> last_member m k v ->
  exists a v', im_additional_fields x = Some a /\ In (k, v') a /\ free_value v v'.
Proof.
  intros T H N L.
  pose proof (read_value _ _ _ _ _ _ respects_metadata metadata_reads T H) as (m' & [= <-] & _ & _ & _ & _ & _ & F).
  unfold additional_fields_of in F. destruct (im_additional_fields x) as [a|]; [|discriminate F].
  destruct F as (m' & [= <-] & Fo & _ & W). exists a.
  pose proof (last_except m k v N L) as L'.
  assert (In k (map fst a)) as I.
  { apply (first_occurrences_In _ _ _ Fo). destruct L' as (b & c & -> & _). rewrite map_app. apply in_or_app. right. now left. }
  apply in_map_iff in I. destruct I as ([k' v'] & E & I). cbn [fst] in E. subst k'.
  exists v'. split; [reflexivity|]. split; [exact I|]. destruct (W _ _ I) as (j & J & Q).
  now rewrite (last_once _ _ _ _ L' J).
Qed.
