(** Every error can be written as JSON text that readers accept. *)
From Coq Require Import Lia.
From Verif Require Import Model.Prelude Model.Json Model.Types Model.Deps Model.Serde Model.Errors
  Model.Wire Spec SpecErrors Proofs.JsonFacts Proofs.SerdeFacts Proofs.ErrorFacts Proofs.MessageFacts
  Proofs.ResultFacts.

Lemma information_json e : ser_error_information e = JObj (information_members e).
Proof. unfold ser_error_information, information_members. destruct (ei_additional e); reflexivity. Qed.

Lemma display_read e : information_ok 126 e ->
  parse_json (error_information_display e) = Some (JObj (information_members e)).
Proof.
  intros H. unfold error_information_display. rewrite <- information_json.
  apply (read_written 127); [|lia]. now apply good_information.
Qed.

Lemma fold_bt_good n l acc :
  Forall (mgood n) acc -> Forall (mgood n) l ->
  Forall (mgood n) (fold_left (fun a kv => bt_insert (fst kv) (snd kv) a) l acc).
Proof.
  revert acc; induction l as [|[k v] l IH]; intros acc H1 H2; cbn [fold_left fst snd]; [exact H1|].
  inversion H2; subst. apply IH; [|assumption]. rewrite Forall_forall in *. intros [k' v'] Hin.
  apply bt_insert_In in Hin. destruct Hin as [[-> ->]|Hin]; [assumption|auto].
Qed.

Lemma jgood_inv_obj n m : jgood n (JObj m) -> exists n', n = S n' /\ Forall (mgood n') m.
Proof.
  intros [J D]. cbn [depth] in D. destruct n as [|n]; [lia|]. exists n. split; [reflexivity|].
  apply le_S_n in D. apply list_max_le in D. rewrite Forall_forall in *. inversion J; subst.
  intros [k v] Hin. split; [eapply H0, Hin|]. split; [eapply H1, Hin|].
  apply D. apply in_map_iff. exists (k, v). auto.
Qed.

Lemma jgood_inv_arr n l : jgood n (JArr l) -> exists n', n = S n' /\ Forall (jgood n') l.
Proof.
  intros [J D]. cbn [depth] in D. destruct n as [|n]; [lia|]. exists n. split; [reflexivity|].
  apply le_S_n in D. apply list_max_le in D. rewrite Forall_forall in *. inversion J; subst.
  intros x Hin. split; [auto|]. apply D. apply in_map_iff. exists x. auto.
Qed.

Lemma good_to_value j : forall n, jgood n j -> jgood n (to_value j).
Proof.
  induction j using json_ind'; intros n G; try exact G; cbn [to_value].
  - apply jgood_inv_arr in G. destruct G as (n' & -> & G). apply jgood_arr. rewrite Forall_map.
    rewrite Forall_forall in *. auto.
  - apply jgood_inv_obj in G. destruct G as (n' & -> & G). apply jgood_obj. apply fold_bt_good; [constructor|].
    rewrite Forall_map. rewrite Forall_forall in *. intros kv Hin. destruct (G _ Hin). split; [assumption|].
    cbn [snd]. now apply H.
Qed.

Lemma to_value_ok n j : jgood n j -> value_ok n (to_value j).
Proof.
  intros G. destruct (good_to_value j n G) as [A B]. repeat split; [exact A|apply to_value_value|exact B].
Qed.

Lemma information_of_ok n c name shown j :
  c < 2 ^ 32 -> rust_string name -> rust_string shown -> jgood n j ->
  information_ok n (information_of c name shown j).
Proof.
  intros H1 H2 H3 H4. split; [exact H1|]. split; [exact H2|]. split; [exact H3|].
  cbn [ei_additional information_of]. intros v [= <-]. now apply to_value_ok.
Qed.

Ltac texts H := repeat (rewrite ?Forall_app in H; match type of H with
  | Forall _ (_ :: _) => let a := fresh in let b := fresh in inversion H as [|? ? a b]; clear H; subst; rename b into H
  | _ /\ _ => let a := fresh in destruct H as [a H]; texts a; texts H
  end).
Ltac shown_text := repeat first [assumption | apply rust_string_app | jlit].
Ltac good_text := repeat first [apply jgood_null | apply jgood_bool | apply jgood_str; assumption
  | apply jgood_obj; jfields | apply jgood_ser_opt; intros ? [= ->] | assumption].

Lemma good_validation_error n e : Forall rust_string (validation_texts e) -> jgood (S n) (ser_validation_error e).
Proof. destruct e; cbn [validation_texts ser_validation_error]. intros H. texts H. good_text. Qed.

Lemma texts_of_ok o : Forall rust_string (texts_of o) -> on_some rust_string o.
Proof. intros H a ->. now inversion H. Qed.

Lemma good_opt_text n o : Forall rust_string (texts_of o) -> jgood n (ser_opt JStr o).
Proof. intros H. apply jgood_ser_opt. intros a ->. apply jgood_str. now inversion H. Qed.

Lemma good_instant n d t : Forall rust_string (instant_texts d t) -> jgood n (ser_instant d t).
Proof. intros H. inversion H; subst. now apply jgood_str. Qed.
Lemma shown_instant d t : Forall rust_string (instant_texts d t) -> rust_string (dt_display d t).
Proof. intros H. inversion H as [|? ? _ A]; subst. now inversion A. Qed.

Lemma good_opt_bytes n o : jgood (S n) (ser_opt ser_bytes o).
Proof. apply jgood_ser_opt. intros a _. eapply jgood_mono; [|apply good_bytes]. lia. Qed.

Lemma good_jwt_error n d e : Forall rust_string (jwt_texts d e) -> jgood (S (S n)) (ser_jwt_error d e).
Proof.
  destruct e; cbn [jwt_texts ser_jwt_error]; intros H;
    [now apply good_validation_error|..];
    rewrite ?Forall_app in H; repeat match goal with H : _ /\ _ |- _ => destruct H end;
    repeat match goal with H : Forall _ [_] |- _ => inversion H; clear H; subst
                         | H : Forall _ [_; _] |- _ => inversion H; clear H; subst end;
    try apply jgood_null; apply jgood_obj; jfields;
    first [now apply good_instant | now apply good_opt_text | apply good_opt_bytes | now apply jgood_str].
Qed.

Lemma validation_shown e : rust_string (validation_error_display e).
Proof. destruct e; cbn [validation_error_display]; jlit. Qed.

Lemma jwt_shown d e : Forall rust_string (jwt_texts d e) -> rust_string (jwt_error_display d e).
Proof.
  destruct e; cbn [jwt_texts jwt_error_display]; intros H;
    rewrite ?Forall_app in H; repeat match goal with H : _ /\ _ |- _ => destruct H end;
    repeat match goal with H : Forall _ [_] |- _ => inversion H; clear H; subst
                         | H : Forall _ [_; _] |- _ => inversion H; clear H; subst end;
    repeat first [apply rust_string_app | assumption | apply shown_instant; assumption | jlit].
Qed.

Lemma good_issuer_error n d e : (forall c l, e <> IInvalidRequestedCredential c l) ->
  Forall rust_string (issuer_texts d e) -> jgood (S (S n)) (ser_issuer_error d e).
Proof.
  intros N. destruct e; cbn [issuer_texts ser_issuer_error]; intros H;
    [now apply good_validation_error | now apply good_jwt_error |..];
    try (exfalso; now eapply N); clear N;
    rewrite ?Forall_app in H; repeat match goal with H : _ /\ _ |- _ => destruct H end;
    repeat match goal with H : Forall _ [_] |- _ => inversion H; clear H; subst end;
    try apply jgood_null; apply jgood_obj; jfields;
    first [now apply good_instant | now apply jgood_str | idtac].
  apply jgood_ser_opt. intros t ->. now apply good_instant.
Qed.

Lemma issuer_shown d e : Forall rust_string (issuer_texts d e) -> rust_string (issuer_error_display d e).
Proof.
  destruct e; cbn [issuer_texts issuer_error_display]; intros H;
    [apply validation_shown | now apply jwt_shown |..];
    rewrite ?Forall_app in H; repeat match goal with H : _ /\ _ |- _ => destruct H end;
    repeat match goal with H : Forall _ [_] |- _ => inversion H; clear H; subst end;
    repeat first [apply rust_string_app | assumption | apply shown_instant; assumption | jlit].
Qed.

Lemma good_requested n d c l : cfp_ok n c -> Forall (cfp_ok n) l -> (2 <= n)%nat ->
  jgood (5 + n) (ser_issuer_error d (IInvalidRequestedCredential c l)).
Proof.
  intros H1 H2 Hn. cbn [ser_issuer_error]. apply (jgood_obj (4 + n)). jfields.
  - eapply jgood_mono; [|apply good_cfp, H1]. lia.
  - apply (jgood_ser_list (3 + n)). eapply Forall_impl; [|exact H2]. intros a Ha.
    eapply jgood_mono; [|apply good_cfp, Ha]. lia.
Qed.

Lemma good_token_error e : Forall rust_string (token_texts e) -> jgood (2 + token_nesting e) (ser_token_error e).
Proof.
  induction e; cbn [token_texts ser_token_error token_nesting]; intros H;
    [now apply good_validation_error|..]; try apply jgood_null.
  - inversion H; subst. apply (jgood_obj 1). jfields; [now apply jgood_str|now apply good_strs].
  - apply (jgood_obj 1). jfields; apply jgood_bool.
  - apply Forall_app in H. destruct H as [H1 H2].
    apply (jgood_obj (2 + max (token_nesting e1) (token_nesting e2))). jfields.
    + eapply jgood_mono; [|apply IHe1, H1]. lia.
    + eapply jgood_mono; [|apply IHe2, H2]. lia.
  - inversion H; subst. apply (jgood_obj 1). jfields. now apply jgood_str.
Qed.

Lemma token_shown e : rust_string (token_error_display e).
Proof. destruct e; cbn [token_error_display]; [apply validation_shown|..]; jlit. Qed.

Lemma error_information_ok d e : error_ok d e -> information_ok 125 (any_information d e).
Proof.
  destruct e as [e|e|e|e]; cbn [error_ok any_information]; intros H.
  - apply information_of_ok; [destruct e; reflexivity|destruct e; jlit|apply validation_shown|].
    now apply good_validation_error.
  - apply information_of_ok; [destruct e; reflexivity|destruct e; jlit|now apply jwt_shown|].
    now apply good_jwt_error.
  - assert (rust_string (issuer_error_display d e) /\ jgood 125 (ser_issuer_error d e)) as [A B].
    { destruct e; try (split; [now apply issuer_shown|now apply good_issuer_error]).
      destruct H as [H1 H2]. split; [cbn [issuer_error_display]; jlit|].
      apply (good_requested 120); [assumption..|lia]. }
    apply information_of_ok; [destruct e; reflexivity|destruct e; jlit|exact A|exact B].
  - destruct H as [H1 H2].
    apply information_of_ok; [destruct e; reflexivity|destruct e; jlit|apply token_shown|].
    eapply jgood_mono; [|apply good_token_error, H1]. lia.
Qed.
