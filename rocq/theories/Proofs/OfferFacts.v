(** Lemmas about issuer metadata and offers (Model/CredentialIssuer.v). *)
From Coq Require Import Lia ZifyBool ZifyN ZifyNat Permutation.
From Verif Require Import Model.Prelude Model.Percent Model.Json Model.Types Model.Deps Model.Serde
  Model.Errors Model.AccessToken Model.CredentialIssuer Model.Wire Spec SpecToken SpecOffer
  Proofs.StrFacts Proofs.PercentFacts Proofs.JsonFacts Proofs.SerdeFacts Proofs.TokenFacts.

(* ---------------- ids ---------------- *)

Definition ids (l : list credential_supported) : list str :=
  flat_map (fun c => match sup_id c with Some i => [i] | None => [] end) l.

Lemma in_ids l id : In id (ids l) <-> exists c, In c l /\ sup_id c = Some id.
Proof.
  unfold ids. rewrite in_flat_map. split; intros (c & Hc & H); exists c; split; auto.
  - destruct (sup_id c); cbn in H; [destruct H as [->|[]]; reflexivity|destruct H].
  - rewrite H. now left.
Qed.

Lemma ids_unique_spec l : forall seen,
  ids_unique seen l = true <-> NoDup (ids l) /\ (forall id, In id (ids l) -> ~ In id seen).
Proof.
  induction l as [|c l IH]; intros seen; cbn [ids_unique ids flat_map].
  - split; [intros _; split; [constructor|intros ? []]|reflexivity].
  - destruct (sup_id c) as [id|] eqn:E.
    + cbn [app]. destruct (mem_str id seen) eqn:Em.
      * apply mem_str_In in Em. split; [discriminate|]. intros [_ H]. exfalso. apply (H id); [now left|assumption].
      * apply mem_str_not_In in Em. rewrite IH. split.
        -- intros [Hn Hs]. split.
           ++ constructor; [|assumption]. intros Hin. apply (Hs id Hin). now left.
           ++ intros i [<-|Hi]; [assumption|]. intros Hs'. apply (Hs i Hi). now right.
        -- intros [Hn Hs]. inversion Hn as [|x xs Hx Hn' Ex]; subst. split; [assumption|].
           intros i Hi [<-|Hi']; [contradiction|]. apply (Hs i); [now right|assumption].
    + cbn [app]. apply IH.
Qed.

Lemma ids_distinct_nodup l : ids_distinct l <-> NoDup (ids l).
Proof.
  induction l as [|c l IH].
  - split; [intros _; constructor|]. intros _ i j a b id H. destruct i; discriminate.
  - assert (ids_distinct (c :: l) <->
            (forall id, sup_id c = Some id -> ~ In id (ids l)) /\ ids_distinct l) as ->.
    { split.
      - intros H. split.
        + intros id Hc Hin. apply in_ids in Hin as (b & Hb & Hi).
          apply In_nth_error in Hb as [n Hn]. apply (H 0%nat (S n) c b id); auto.
        + intros i j a b id Ha Hb Hij. apply (H (S i) (S j)); auto.
      - intros [H1 H2] i j a b id Ha Hb Hij Hid Hid'. destruct i as [|i], j as [|j]; cbn in Ha, Hb; [congruence| | |].
        + injection Ha as <-. apply (H1 id Hid). apply in_ids. exists b. split; [|assumption]. eapply nth_error_In, Hb.
        + injection Hb as <-. apply (H1 id Hid'). apply in_ids. exists a. split; [|assumption]. eapply nth_error_In, Ha.
        + apply (H2 i j a b id); auto. }
    rewrite IH. cbn [ids flat_map]. destruct (sup_id c) as [id|]; cbn [app].
    + split.
      * intros [H1 H2]. constructor; [now apply H1|assumption].
      * intros H. inversion H; subst. split; [|assumption]. now intros i [= <-].
    + split; [tauto|]. intros H. split; [discriminate|assumption].
Qed.

Lemma for_each_ok {A E} (f : A -> res E unit) l : (forall x, f x = Ok tt) -> for_each f l = Ok tt.
Proof. intros H. induction l as [|x l IH]; [reflexivity|]. cbn [for_each]. now rewrite H. Qed.

Lemma supported_validate_ok s : supported_validate s = Ok tt.
Proof.
  unfold supported_validate. cbn [cfp_validate bind].
  destruct (sup_display s) as [l|]; [|reflexivity].
  rewrite for_each_ok; [reflexivity|]. intros x. unfold display_validate. destruct (dp_logo x); reflexivity.
Qed.

Lemma metadata_validate_cases m :
  (ids_distinct (im_credentials_supported m) /\ metadata_validate m = Ok tt)
  \/ (~ ids_distinct (im_credentials_supported m) /\
      metadata_validate m
      = Err (VAny (lit "Ids in supported credentials of the issuer metadata are not unique"))).
Proof.
  unfold metadata_validate. rewrite (for_each_ok supported_validate) by apply supported_validate_ok.
  destruct (ids_unique [] (im_credentials_supported m)) eqn:E.
  - left. split; [|reflexivity]. apply ids_distinct_nodup. apply ids_unique_spec in E. tauto.
  - right. split; [|reflexivity]. rewrite ids_distinct_nodup. intros H.
    assert (ids_unique [] (im_credentials_supported m) = true) as E'; [|congruence].
    apply ids_unique_spec. split; [assumption|]. intros ? _ [].
Qed.

Lemma metadata_validate_ok m : metadata_validate m = Ok tt <-> ids_distinct (im_credentials_supported m).
Proof. destruct (metadata_validate_cases m) as [[H ->]|[H ->]]; split; intros; try reflexivity; try assumption; [discriminate|contradiction]. Qed.

Lemma metadata_validate_err m e : metadata_validate m = Err e <->
  ~ ids_distinct (im_credentials_supported m)
  /\ e = VAny (lit "Ids in supported credentials of the issuer metadata are not unique").
Proof.
  destruct (metadata_validate_cases m) as [[H ->]|[H ->]]; split.
  - discriminate.
  - tauto.
  - intros [= <-]. auto.
  - intros [_ ->]. reflexivity.
Qed.

Lemma ids_perm l1 l2 : Permutation l1 l2 -> Permutation (ids l1) (ids l2).
Proof. intros H. unfold ids. rewrite !flat_map_concat_map. induction H; cbn; auto.
  - now apply Permutation_app_head.
  - rewrite !app_assoc. apply Permutation_app_tail, Permutation_app_comm.
  - now transitivity (List.concat (map (fun c => match sup_id c with Some i => [i] | None => [] end) l')).
Qed.

Lemma ids_distinct_perm l1 l2 : Permutation l1 l2 -> ids_distinct l1 -> ids_distinct l2.
Proof.
  rewrite !ids_distinct_nodup. intros P. apply Permutation_NoDup, ids_perm, P.
Qed.

(** Only the ids matter. *)
Lemma ids_distinct_ids l1 l2 : ids l1 = ids l2 -> ids_distinct l1 -> ids_distinct l2.
Proof. rewrite !ids_distinct_nodup. now intros ->. Qed.

(* ---------------- resolve ---------------- *)

Lemma find_first l id :
  match find (fun c => opt_str_eqb (sup_id c) (Some id)) l with
  | Some c => first_with_id l id c
  | None => Forall (fun b => sup_id b <> Some id) l
  end.
Proof.
  induction l as [|c l IH]; cbn [find]; [constructor|].
  destruct (opt_str_eqb (sup_id c) (Some id)) eqn:E.
  - apply opt_str_eqb_eq in E. exists [], l. repeat split; auto.
  - apply opt_str_eqb_neq in E. destruct (find _ l) as [x|].
    + destruct IH as (b & a & -> & H1 & H2). exists (c :: b), a. repeat split; auto.
    + now constructor.
Qed.

Lemma first_with_id_unique l id c1 c2 : first_with_id l id c1 -> first_with_id l id c2 -> c1 = c2.
Proof.
  intros (b1 & a1 & E1 & H1 & F1) (b2 & a2 & E2 & H2 & F2). rewrite E1 in E2. clear E1 l.
  revert b2 E2 F2. induction b1 as [|x b1 IH]; intros [|y b2] E2 F2.
  - now injection E2.
  - injection E2 as <- _. inversion F2; subst. congruence.
  - injection E2 as -> _. inversion F1; subst. congruence.
  - injection E2 as <- E2. apply Forall_inv_tail in F1. apply Forall_inv_tail in F2. now apply (IH F1 b2).
Qed.

Lemma first_with_id_known l id c : first_with_id l id c -> exists x, In x l /\ sup_id x = Some id.
Proof. intros (b & a & -> & H & _). exists c. split; [|assumption]. apply in_or_app. right. now left. Qed.

Lemma resolve_ok m c p : resolve m c = Ok p <-> resolves m c p.
Proof.
  destruct c as [id|c]; cbn [resolve].
  - pose proof (find_first (im_credentials_supported m) id) as F.
    destruct (find _ _) as [x|]; cbn [option_map ok_or].
    + split.
      * intros [= <-]. now constructor.
      * intros H. inversion H as [|id' x' Hx]; subst. now rewrite (first_with_id_unique _ _ _ _ F Hx).
    + split; [discriminate|]. intros H. inversion H as [|id' x' Hx]; subst.
      apply first_with_id_known in Hx as (y & Hy & Hi). rewrite Forall_forall in F. now apply F in Hy.
  - split; [intros [= <-]; constructor|]. intros H. now inversion H.
Qed.

Lemma resolve_err m c e : resolve m c = Err e <->
  exists id, c = CredentialId id /\ ~ known_id m id /\ e = ICredentialIdNotInIssuerMetadata id.
Proof.
  destruct c as [id|c]; cbn [resolve].
  - pose proof (find_first (im_credentials_supported m) id) as F.
    destruct (find _ _) as [x|]; cbn [option_map ok_or].
    + split; [discriminate|]. intros (i & [= <-] & H & _). exfalso. apply H. eapply first_with_id_known, F.
    + rewrite Forall_forall in F. split.
      * intros [= <-]. exists id. repeat split. intros (y & Hy & Hi). now apply F in Hy.
      * intros (i & [= <-] & _ & ->). reflexivity.
  - split; [discriminate|]. intros (i & ? & _). discriminate.
Qed.

Lemma resolve_no_panic m c : resolve m c <> Panic.
Proof. destruct c; cbn; [|discriminate]. destruct (find _ _); discriminate. Qed.

Lemma resolvable_iff m c : resolvable m c <-> exists p, resolves m c p.
Proof.
  split.
  - intros H. destruct (resolve m c) as [p|e|] eqn:E.
    + exists p. now apply resolve_ok.
    + exfalso. apply resolve_err in E as (id & -> & Hn & _). apply Hn, H, eq_refl.
    + now apply resolve_no_panic in E.
  - intros [p H] id ->. inversion H; subst. eapply first_with_id_known. eassumption.
Qed.

Lemma resolve_all_loop_ok m l : forall acc r,
  resolve_all_loop m l acc = Ok r <-> exists ps, r = acc ++ ps /\ Forall2 (resolves m) l ps.
Proof.
  induction l as [|c l IH]; intros acc r; cbn [resolve_all_loop].
  - split.
    + intros [= <-]. exists []. rewrite app_nil_r. auto.
    + intros (ps & -> & H). inversion H; subst. now rewrite app_nil_r.
  - destruct (resolve m c) as [p|e|] eqn:E; cbn [bind].
    + rewrite IH. apply resolve_ok in E. split.
      * intros (ps & -> & H). exists (p :: ps). split; [now rewrite <- app_assoc|]. now constructor.
      * intros (ps & -> & H). inversion H as [|? p' ? ps' Hp Hps]; subst.
        apply resolve_ok in E, Hp. rewrite E in Hp. injection Hp as <-.
        exists ps'. split; [now rewrite <- app_assoc|assumption].
    + split; [discriminate|]. intros (ps & _ & H). inversion H as [|? p' ? ps' Hp Hps]; subst.
      apply resolve_ok in Hp. congruence.
    + now apply resolve_no_panic in E.
Qed.

Lemma resolve_all_ok m l ps : resolve_all m l = Ok ps <-> Forall2 (resolves m) l ps.
Proof.
  unfold resolve_all. rewrite resolve_all_loop_ok. cbn. split; [intros (? & -> & ?); auto|eauto].
Qed.

Lemma resolve_all_loop_err m l : forall acc e,
  resolve_all_loop m l acc = Err e <->
  exists id, first_unknown m l id /\ e = ICredentialIdNotInIssuerMetadata id.
Proof.
  induction l as [|c l IH]; intros acc e; cbn [resolve_all_loop].
  - split; [discriminate|]. intros (id & (b & a & E & _) & _). destruct b; discriminate.
  - destruct (resolve m c) as [p|e'|] eqn:E; cbn [bind].
    + rewrite IH. apply resolve_ok in E.
      assert (resolvable m c) as Hr by (apply resolvable_iff; eauto).
      split; intros (id & (b & a & El & F & Hn) & ->); exists id; (split; [|reflexivity]).
      * exists (c :: b), a. rewrite El. repeat split; auto.
      * destruct b as [|x b]; injection El as -> ->.
        -- exfalso. apply Hn, Hr, eq_refl.
        -- inversion F; subst. exists b, a. auto.
    + apply resolve_err in E as (id & -> & Hn & ->). split.
      * intros [= <-]. exists id. split; [|reflexivity]. exists [], l. auto.
      * intros (i & (b & a & El & F & Hi) & ->). destruct b as [|x b].
        -- injection El as ->. reflexivity.
        -- injection El as <- _. inversion F as [|? ? Hx]; subst. exfalso. apply Hn, Hx, eq_refl.
    + now apply resolve_no_panic in E.
Qed.

Lemma resolve_all_err m l e : resolve_all m l = Err e <->
  exists id, first_unknown m l id /\ e = ICredentialIdNotInIssuerMetadata id.
Proof. apply resolve_all_loop_err. Qed.

Lemma resolve_all_no_panic m l : resolve_all m l <> Panic.
Proof.
  unfold resolve_all. generalize (@nil cfp). induction l as [|c l IH]; intros acc; cbn [resolve_all_loop]; [discriminate|].
  destruct (resolve m c) eqn:E; cbn [bind]; [apply IH|discriminate|now apply resolve_no_panic in E].
Qed.

Lemma resolve_all_iff m l : (exists ps, resolve_all m l = Ok ps) <-> Forall (resolvable m) l.
Proof.
  split.
  - intros [ps H]. apply resolve_all_ok in H. induction H; constructor; auto. apply resolvable_iff. eauto.
  - intros H. enough (exists ps, Forall2 (resolves m) l ps) as [ps Hp] by (exists ps; now apply resolve_all_ok).
    induction H as [|c l Hc H [ps IH]]; [exists []; constructor|].
    apply resolvable_iff in Hc as [p Hp]. exists (p :: ps). now constructor.
Qed.

(** In metadata with distinct ids the order of the entries is irrelevant. *)
Lemma first_with_id_distinct l id c : ids_distinct l -> In c l -> sup_id c = Some id -> first_with_id l id c.
Proof.
  intros D Hin Hid. apply in_split in Hin as (b & a & ->). exists b, a. split; [reflexivity|]. split; [assumption|].
  rewrite Forall_forall. intros x Hx Hxi. apply In_nth_error in Hx as [i Hi].
  assert (i < List.length b)%nat as Hlt by (apply nth_error_Some; congruence).
  apply (D i (List.length b) x c id); auto.
  - rewrite nth_error_app1; auto.
  - rewrite nth_error_app2, Nat.sub_diag by lia. reflexivity.
  - lia.
Qed.

Lemma resolves_perm m1 m2 c p :
  ids_distinct (im_credentials_supported m1) ->
  Permutation (im_credentials_supported m1) (im_credentials_supported m2) ->
  resolves m1 c p -> resolves m2 c p.
Proof.
  intros D P H. destruct H as [c|id x Hx]; constructor.
  pose proof (ids_distinct_perm _ _ P D) as D2.
  destruct Hx as (b & a & E & Hi & _). apply first_with_id_distinct; auto.
  eapply Permutation_in; [exact P|]. rewrite E. apply in_or_app. right. now left.
Qed.

(* ---------------- create_offer ---------------- *)

Lemma prefix_eq ep (s : str) :
  (match ep with None => lit "openid-credential-offer://" | Some u => u ++ lit "?" end)
  ++ lit "credential_offer=" ++ s = offer_url_prefix ep ++ s.
Proof. destruct ep; [|reflexivity]. cbn [offer_url_prefix]. rewrite <- !app_assoc. reflexivity. Qed.

Lemma create_offer_ok m creds ep a p o url :
  create_offer m creds ep a p = Ok (o, url) <->
  ids_distinct (im_credentials_supported m) /\ a = None /\ Forall (resolvable m) creds
  /\ o = {| co_credential_issuer := im_credential_issuer m; co_credentials := creds;
            co_grants := {| og_auth := None; og_pre := p |} |}
  /\ url = offer_url_prefix ep ++ url_encode (offer_to_json o).
Proof.
  unfold create_offer. destruct (metadata_validate_cases m) as [[D ->]|[D ->]]; cbn [map_err bind].
  - destruct a as [a|]; cbn [is_some].
    { split; [discriminate|]. intros (_ & ? & _). discriminate. }
    destruct (resolve_all m creds) as [ps|e|] eqn:E; cbn [bind].
    + assert (Forall (resolvable m) creds) as F by (apply resolve_all_iff; eauto).
      unfold offer_url_encode. cbn [bind]. rewrite prefix_eq. split.
      * intros H. apply ok_inj, pair_equal_spec in H as [<- <-]. auto.
      * intros (_ & _ & _ & -> & ->). reflexivity.
    + split; [discriminate|]. intros (_ & _ & F & _). apply resolve_all_iff in F as [ps F]. congruence.
    + now apply resolve_all_no_panic in E.
  - split; [discriminate|]. intros (? & _). contradiction.
Qed.

Lemma create_offer_err m creds ep a p e :
  create_offer m creds ep a p = Err e <-> offer_error m creds a e.
Proof.
  unfold create_offer. destruct (metadata_validate_cases m) as [[D ->]|[D ->]]; cbn [map_err bind].
  - destruct a as [a|]; cbn [is_some].
    { split; [intros [= <-]; now constructor|]. intros H. inversion H; subst; [contradiction|reflexivity]. }
    destruct (resolve_all m creds) as [ps|e'|] eqn:E; cbn [bind].
    + split; [discriminate|]. intros H. inversion H as [|?|id D' F]; subst; [contradiction|].
      assert (resolve_all m creds = Err (ICredentialIdNotInIssuerMetadata id)) as E'
        by (apply resolve_all_err; eauto). congruence.
    + split.
      * intros [= <-]. apply resolve_all_err in E as (id & F & ->). now constructor.
      * intros H. inversion H as [|?|id D' F]; subst; [contradiction|].
        assert (resolve_all m creds = Err (ICredentialIdNotInIssuerMetadata id)) as E'
          by (apply resolve_all_err; eauto). rewrite E in E'. injection E' as ->. reflexivity.
    + now apply resolve_all_no_panic in E.
  - split.
    + intros [= <-]. now constructor.
    + intros H. inversion H; subst; [reflexivity|contradiction|contradiction].
Qed.

Lemma create_offer_no_panic m creds ep a p : create_offer m creds ep a p <> Panic.
Proof.
  unfold create_offer. destruct (metadata_validate_cases m) as [[D ->]|[D ->]]; cbn [map_err bind]; [|discriminate].
  destruct (is_some a); [discriminate|].
  destruct (resolve_all m creds) eqn:E; cbn [bind]; [discriminate|discriminate|now apply resolve_all_no_panic in E].
Qed.

Lemma create_offer_iff m creds ep a p :
  (exists o url, create_offer m creds ep a p = Ok (o, url)) <->
  ids_distinct (im_credentials_supported m) /\ a = None /\ Forall (resolvable m) creds.
Proof.
  split.
  - intros (o & url & H). apply create_offer_ok in H. tauto.
  - intros (D & A & F). eexists. eexists. apply create_offer_ok. repeat split; auto.
Qed.

Lemma create_offer_content m creds ep a p o url :
  create_offer m creds ep a p = Ok (o, url) ->
  co_credential_issuer o = im_credential_issuer m /\ co_credentials o = creds
  /\ og_auth (co_grants o) = None /\ og_pre (co_grants o) = p.
Proof. intros H. apply create_offer_ok in H as (_ & _ & _ & -> & _). auto. Qed.

(* ---------------- URL ---------------- *)

Lemma unreserved_spec b : is_unreserved b = true -> url_unreserved b.
Proof.
  unfold is_unreserved, url_unreserved, digit. intros H. rewrite !orb_true_iff, !andb_true_iff, !N.leb_le, !N.eqb_eq in H.
  destruct H as [[[[[[H|H]|H]|H]|H]|H]|H]; auto.
  - right. right. right. left. apply code_inj. exact H.
  - right. right. right. right. left. apply code_inj. exact H.
  - right. right. right. right. right. left. apply code_inj. exact H.
  - right. right. right. right. right. right. apply code_inj. exact H.
Qed.

Lemma hex_upper_spec n : n < 16 -> upper_hex (hex_upper n).
Proof.
  intros H. unfold hex_upper, upper_hex, digit. destruct (n <? 10) eqn:E; rewrite code_chr by lia; lia.
Qed.

Lemma url_encode_payload s : url_payload (url_encode s).
Proof.
  induction s as [|b s IH]; [constructor|].
  change (url_encode (b :: s)) with (url_encode_byte b ++ url_encode s).
  unfold url_encode_byte. destruct (is_unreserved b) eqn:E; cbn [app].
  - constructor; [now apply unreserved_spec|assumption].
  - pose proof (code_bound b). constructor; [apply hex_upper_spec; lia|apply hex_upper_spec; lia|assumption].
Qed.

(** Characters that end a parameter, a query or a component. *)
Lemma payload_no_delimiter s c : url_payload s -> In c s ->
  ~ In c [":"; "/"; "?"; "#"; "["; "]"; "@"; "!"; "$"; "&"; "'"; "("; ")"; "*"; "+"; ","; ";"; "="; " "]%char.
Proof.
  assert (forall x, url_unreserved x \/ upper_hex x \/ x = "%"%char ->
    ~ In x [":"; "/"; "?"; "#"; "["; "]"; "@"; "!"; "$"; "&"; "'"; "("; ")"; "*"; "+"; ","; ";"; "="; " "]%char) as A.
  { intros x Hx Hin. cbn [In] in Hin. unfold url_unreserved, upper_hex, digit in Hx.
    repeat destruct Hin as [<-|Hin]; try contradiction; vm_compute in Hx;
    repeat match type of Hx with
    | _ \/ _ => destruct Hx as [Hx|Hx]
    | _ /\ _ => destruct Hx as [? ?]
    end; try congruence; try (match goal with H : Gt = Gt -> False |- _ => now apply H end). }
  intros H. induction H as [|x s Hx Hs IH|h l s Hh Hl Hs IH]; cbn [In].
  - intros [].
  - intros [<-|Hin]; [apply A; auto|now apply IH].
  - intros [<-|[<-|[<-|Hin]]]; [apply A; auto|apply A; auto|apply A; auto|now apply IH].
Qed.

Lemma create_offer_url m creds ep a p o url :
  create_offer m creds ep a p = Ok (o, url) ->
  exists payload, url = offer_url_prefix ep ++ payload /\ url_payload payload.
Proof.
  intros H. apply create_offer_ok in H as (_ & _ & _ & _ & ->). eexists. split; [reflexivity|]. apply url_encode_payload.
Qed.

(** Percent decoding as a relation. *)
Lemma hex_digit_val c n : hex_digit c n -> hex_val c = Some n.
Proof.
  intros [d H|d H|d H]; unfold hex_val.
  - replace ((48 <=? code d) && (code d <=? 57)) with true by lia. reflexivity.
  - replace ((48 <=? code d) && (code d <=? 57)) with false by lia.
    replace ((65 <=? code d) && (code d <=? 70)) with true by lia. reflexivity.
  - replace ((48 <=? code d) && (code d <=? 57)) with false by lia.
    replace ((65 <=? code d) && (code d <=? 70)) with false by lia.
    replace ((97 <=? code d) && (code d <=? 102)) with true by lia. reflexivity.
Qed.

Lemma hex_upper_digit n : n < 16 -> hex_digit (hex_upper n) n.
Proof.
  intros H. unfold hex_upper. destruct (n <? 10) eqn:E.
  - assert (code (chr (48 + n)) = 48 + n) as C by (apply code_chr; lia).
    replace n with (code (chr (48 + n)) - 48) at 2 by lia. constructor. lia.
  - assert (code (chr (55 + n)) = 55 + n) as C by (apply code_chr; lia).
    replace n with (code (chr (55 + n)) - 55) at 2 by lia. constructor. lia.
Qed.

Lemma percent_decoded_decode s t : percent_decoded s t -> url_decode s = t.
Proof.
  intros H. induction H as [|c s t Hc H IH|h l a b c s t Hh Hl Hc H IH].
  - reflexivity.
  - rewrite url_decode_plain by now apply Ascii.eqb_neq. now rewrite IH.
  - cbn [url_decode]. rewrite ascii_eqb_refl, (hex_digit_val _ _ Hh), (hex_digit_val _ _ Hl), IH.
    f_equal. rewrite N.mul_comm, <- Hc. apply chr_code.
Qed.

Lemma percent_decoded_encode s : percent_decoded (url_encode s) s.
Proof.
  induction s as [|b s IH]; [constructor|].
  change (url_encode (b :: s)) with (url_encode_byte b ++ url_encode s).
  unfold url_encode_byte. destruct (is_unreserved b) eqn:E; cbn [app].
  - constructor; [|assumption]. apply Ascii.eqb_neq. now apply unreserved_not_percent.
  - pose proof (code_bound b). eapply pd_escape; [apply hex_upper_digit; lia|apply hex_upper_digit; lia| |assumption]. lia.
Qed.

Lemma percent_encoding s :
  percent_decoded (url_encode s) s
  /\ (forall t, percent_decoded (url_encode s) t -> t = s)
  /\ url_decode (url_encode s) = s
  /\ (forall s', url_encode s' = url_encode s -> s' = s)
  /\ (List.length (url_encode s) <= 3 * List.length s)%nat.
Proof.
  split; [apply percent_decoded_encode|]. split.
  { intros t H. apply percent_decoded_decode in H. rewrite url_decode_encode in H. auto. }
  split; [apply url_decode_encode|]. split; [intros; now apply url_encode_inj|]. apply url_encode_length.
Qed.

(* ---------------- recovering the offer ---------------- *)

Lemma offer_json_rt n o : offer_ok n o -> (n <= 122)%nat -> offer_from_json (offer_to_json o) = Some o.
Proof.
  intros H Hn. unfold offer_from_json, offer_to_json, parse_struct.
  destruct (good_offer n o H) as [J D]. rewrite parse_doc_print by (auto; lia). cbn [opt_bind].
  now apply (offer_rt n).
Qed.

Lemma offer_url_recover m creds ep a p o url n :
  create_offer m creds ep a p = Ok (o, url) -> offer_ok n o -> (n <= 122)%nat ->
  exists payload text,
    url = offer_url_prefix ep ++ payload /\ percent_decoded payload text
    /\ offer_from_json text = Some o.
Proof.
  intros H Ho Hn. apply create_offer_ok in H as (_ & _ & _ & _ & ->).
  exists (url_encode (offer_to_json o)), (offer_to_json o). split; [reflexivity|].
  split; [apply percent_decoded_encode|]. now apply (offer_json_rt n).
Qed.

(** Conditions on the arguments under which the created offer is well formed. *)
Lemma created_offer_ok m creds ep a p o url n :
  create_offer m creds ep a p = Ok (o, url) ->
  rust_string (im_credential_issuer m) -> Forall (credential_or_id_ok n) creds ->
  on_some preauth_flow_ok p -> offer_ok n o.
Proof.
  intros H H1 H2 H3. apply create_offer_ok in H as (_ & _ & _ & -> & _). repeat split; auto. discriminate.
Qed.

Lemma offer_payload_inj n1 n2 o1 o2 s :
  offer_ok n1 o1 -> offer_ok n2 o2 ->
  offer_url_encode o1 = Ok s -> offer_url_encode o2 = Ok s -> o1 = o2.
Proof.
  intros H1 H2 E1 E2. unfold offer_url_encode in E1, E2. apply ok_inj in E1, E2.
  rewrite <- E2 in E1. apply url_encode_inj in E1.
  apply print_inj in E1; [|apply (good_offer n1 o1 H1)|apply (good_offer n2 o2 H2)].
  apply (f_equal de_offer) in E1. rewrite (offer_rt n1), (offer_rt n2) in E1 by assumption. now injection E1.
Qed.

(* ---------------- query form ---------------- *)

Lemma in_lit_q ep : In "?"%char (offer_url_prefix ep) <-> ep <> None.
Proof.
  destruct ep as [u|]; cbn [offer_url_prefix].
  - split; [discriminate|]. intros _. apply in_or_app. right. now left.
  - split; [|congruence]. intros H. vm_compute in H.
    repeat destruct H as [H|H]; try discriminate H; destruct H.
Qed.

Lemma split_first (c : ascii) a b a' b' :
  a ++ c :: b = a' ++ c :: b' -> ~ In c a -> ~ In c a' -> a = a' /\ b = b'.
Proof.
  intros E Ha Ha'. assert (cut c (a ++ c :: b) = Some (a, b)) as C1 by (apply cut_some; auto).
  assert (cut c (a' ++ c :: b') = Some (a', b')) as C2 by (apply cut_some; auto).
  rewrite E, C2 in C1. injection C1 as -> ->. auto.
Qed.

Lemma create_offer_query m creds ep a p o url :
  create_offer m creds ep a p = Ok (o, url) ->
  (exists payload, url_payload payload /\ query_is url (lit "credential_offer=" ++ payload))
  <-> (exists u, ep = Some u /\ ~ In "?"%char u).
Proof.
  intros H. apply create_offer_ok in H as (_ & _ & _ & _ & ->).
  set (pl := url_encode (offer_to_json o)). assert (url_payload pl) as Hp by apply url_encode_payload.
  assert (~ In "?"%char pl) as Hq.
  { intros Hin. apply (payload_no_delimiter pl "?"%char Hp Hin). cbn. tauto. }
  split.
  - intros (payload & Hpp & before & E & Hb).
    destruct ep as [u|].
    + exists u. split; [reflexivity|]. intros Hin. cbn [offer_url_prefix] in E.
      apply in_split in Hin as (u1 & u2 & Hu).
      assert (exists v1 v2, u = v1 ++ "?"%char :: v2 /\ ~ In "?"%char v1) as (v1 & v2 & Ev & Hv).
      { destruct (cut "?"%char u) as [[v1 v2]|] eqn:C; [apply cut_some in C as [-> ?]; eauto|].
        apply cut_none in C. exfalso. apply C. rewrite Hu. apply in_or_app. right. now left. }
      rewrite Ev, <- !app_assoc in E. cbn [app] in E.
      apply (split_first "?"%char) in E as [_ E]; [|assumption|assumption].
      assert (In "?"%char (lit "credential_offer=" ++ payload)) as Hin.
      { rewrite <- E. apply in_or_app. right. apply in_or_app. left. now left. }
      apply in_app_or in Hin as [Hin|Hin].
      * vm_compute in Hin. repeat (destruct Hin as [Hin|Hin]; [discriminate Hin|]). destruct Hin.
      * apply (payload_no_delimiter payload "?"%char Hpp Hin). cbn. tauto.
    + exfalso. assert (In "?"%char (offer_url_prefix None ++ pl)) as Hin.
      { rewrite E. apply in_or_app. right. now left. }
      apply in_app_or in Hin as [Hin|Hin]; [|contradiction]. now apply in_lit_q in Hin.
  - intros (u & -> & Hu). exists pl. split; [assumption|]. exists u. split; [|assumption].
    cbn [offer_url_prefix]. rewrite <- app_assoc. reflexivity.
Qed.

(* ---------------- statements used in Properties/Offers.v ---------------- *)

Lemma ids_of_map l : ids l = flat_map (fun o => match o with Some i => [i] | None => [] end) (map sup_id l).
Proof. unfold ids. induction l as [|c l IH]; [reflexivity|]. cbn. now rewrite IH. Qed.

Lemma flat_map_perm {A B} (f : A -> list B) l1 l2 : Permutation l1 l2 -> Permutation (flat_map f l1) (flat_map f l2).
Proof.
  intros H. induction H; cbn; auto.
  - now apply Permutation_app_head.
  - rewrite !app_assoc. apply Permutation_app_tail, Permutation_app_comm.
  - now transitivity (flat_map f l').
Qed.

Lemma metadata_validate_only_ids m1 m2 :
  Permutation (map sup_id (im_credentials_supported m1)) (map sup_id (im_credentials_supported m2)) ->
  metadata_validate m1 = metadata_validate m2.
Proof.
  intros P. assert (ids_distinct (im_credentials_supported m1) <-> ids_distinct (im_credentials_supported m2)) as E.
  { rewrite !ids_distinct_nodup, !ids_of_map.
    split; apply Permutation_NoDup, flat_map_perm; [|symmetry]; exact P. }
  destruct (metadata_validate_cases m1) as [[D1 ->]|[D1 ->]], (metadata_validate_cases m2) as [[D2 ->]|[D2 ->]];
    tauto || reflexivity.
Qed.

Lemma metadata_validate_total m :
  (metadata_validate m = Ok tt <-> ids_distinct (im_credentials_supported m))
  /\ (metadata_validate m <> Ok tt ->
      map_err IValidationError (metadata_validate m) = Err duplicate_ids_error).
Proof.
  split; [apply metadata_validate_ok|]. destruct (metadata_validate_cases m) as [[D ->]|[D ->]]; [congruence|reflexivity].
Qed.

Lemma resolve_in_validated m id c :
  metadata_validate m = Ok tt -> In c (im_credentials_supported m) -> sup_id c = Some id ->
  resolve m (CredentialId id) = Ok (sup_format c).
Proof.
  intros V H I. apply metadata_validate_ok in V. apply resolve_ok. constructor. now apply first_with_id_distinct.
Qed.

Lemma resolve_order m1 m2 c :
  metadata_validate m1 = Ok tt ->
  Permutation (im_credentials_supported m1) (im_credentials_supported m2) ->
  resolve m2 c = resolve m1 c.
Proof.
  intros V P. apply metadata_validate_ok in V. destruct (resolve m1 c) as [p|e|] eqn:E.
  - apply resolve_ok in E. apply resolve_ok. eapply resolves_perm; eauto.
  - apply resolve_err in E as (id & -> & Hn & ->). apply resolve_err. exists id. repeat split.
    intros (x & Hx & Hi). apply Hn. exists x. split; [|assumption]. eapply Permutation_in; [symmetry; exact P|assumption].
  - now apply resolve_no_panic in E.
Qed.

Lemma resolve_all_total m l :
  (forall ps, resolve_all m l = Ok ps <-> Forall2 (resolves m) l ps)
  /\ (forall e, resolve_all m l = Err e <->
        exists id, first_unknown m l id /\ e = ICredentialIdNotInIssuerMetadata id)
  /\ resolve_all m l <> Panic
  /\ (forall ps, resolve_all m l = Ok ps -> List.length ps = List.length l).
Proof.
  split; [apply resolve_all_ok|]. split; [apply resolve_all_err|]. split; [apply resolve_all_no_panic|].
  intros ps H. apply resolve_all_ok in H. induction H; cbn; congruence.
Qed.

Lemma create_offer_url_shape m creds ep a p o url :
  create_offer m creds ep a p = Ok (o, url) ->
  exists payload, url = offer_url_prefix ep ++ payload /\ url_payload payload
    /\ (forall c, In c payload -> ~ In c url_delimiters).
Proof.
  intros H. apply create_offer_url in H as (pl & -> & Hp). exists pl. split; [reflexivity|]. split; [assumption|].
  intros c Hc. now apply (payload_no_delimiter pl).
Qed.

Lemma offer_url_recover_args m creds ep a p o url n :
  create_offer m creds ep a p = Ok (o, url) ->
  rust_string (im_credential_issuer m) -> Forall (credential_or_id_ok n) creds ->
  on_some preauth_flow_ok p -> (n <= 122)%nat ->
  exists payload text,
    url = offer_url_prefix ep ++ payload /\ percent_decoded payload text
    /\ (forall text', percent_decoded payload text' -> text' = text)
    /\ offer_from_json text = Some o.
Proof.
  intros H H1 H2 H3 Hn. pose proof (created_offer_ok _ _ _ _ _ _ _ n H H1 H2 H3) as Ho.
  apply create_offer_ok in H as (_ & _ & _ & _ & ->).
  exists (url_encode (offer_to_json o)), (offer_to_json o). split; [reflexivity|].
  split; [apply percent_decoded_encode|]. split; [|now apply (offer_json_rt n)].
  intros t Ht. now apply percent_encoding in Ht.
Qed.

(** The endpoint is not stored: only the payload distinguishes offers. *)
Lemma created_payload_inj n1 n2 m1 c1 e1 a1 p1 o1 u1 m2 c2 e2 a2 p2 o2 u2 payload :
  create_offer m1 c1 e1 a1 p1 = Ok (o1, u1) -> create_offer m2 c2 e2 a2 p2 = Ok (o2, u2) ->
  offer_ok n1 o1 -> offer_ok n2 o2 ->
  u1 = offer_url_prefix e1 ++ payload -> u2 = offer_url_prefix e2 ++ payload -> o1 = o2.
Proof.
  intros H1 H2 O1 O2 E1 E2. apply create_offer_ok in H1 as (_ & _ & _ & _ & U1).
  apply create_offer_ok in H2 as (_ & _ & _ & _ & U2).
  rewrite U1 in E1. rewrite U2 in E2. apply app_inv_head in E1, E2.
  apply (offer_payload_inj n1 n2 o1 o2 payload); auto; unfold offer_url_encode; f_equal; assumption.
Qed.

Lemma create_offer_query_refuted :
  ~ (forall m creds ep a p o url, create_offer m creds ep a p = Ok (o, url) ->
       exists payload, url_payload payload /\ query_is url (lit "credential_offer=" ++ payload)).
Proof.
  intros H.
  set (m := {| im_credential_issuer := lit "https://issuer.example.com"; im_authorization_server := None;
               im_credential_endpoint := []; im_batch_credential_endpoint := None;
               im_credentials_supported := []; im_additional_fields := None |}).
  destruct (proj2 (create_offer_iff m [] None None None)) as (o & url & E).
  { split; [|split; [reflexivity|constructor]]. apply ids_distinct_nodup. constructor. }
  pose proof (H _ _ _ _ _ _ _ E) as Hq. apply (create_offer_query _ _ _ _ _ _ _ E) in Hq as (u & ? & _). discriminate.
Qed.

(** Redeeming a created offer after reading it back. *)
Lemma redeem_created m creds ep a p o url n :
  create_offer m creds ep a p = Ok (o, url) ->
  rust_string (im_credential_issuer m) -> Forall (credential_or_id_ok n) creds ->
  on_some preauth_flow_ok p -> (n <= 122)%nat ->
  exists payload text o',
    url = offer_url_prefix ep ++ payload /\ percent_decoded payload text
    /\ offer_from_json text = Some o'
    /\ forall r opts,
         evaluate_access_token_request r (Some o') opts = Ok tt
         <-> exists code pin g, r = {| tr_grant_type := GPreAuthorized code pin |}
               /\ p = Some g /\ pin_length_ok pin /\ grant_satisfied g code pin opts.
Proof.
  intros H H1 H2 H3 Hn. destruct (offer_url_recover_args _ _ _ _ _ _ _ n H H1 H2 H3 Hn) as (pl & t & E & D & _ & J).
  exists pl, t, o. do 3 (split; [assumption|]). intros r opts. rewrite evaluate_ok.
  apply create_offer_content in H as (_ & _ & _ & Hp). split.
  - intros T. inversion T as [code pin o' g opts' L G S]; subst. exists code, pin, g. auto.
  - intros (code & pin & g & -> & -> & L & S). now apply (token_accept _ _ _ g).
Qed.
