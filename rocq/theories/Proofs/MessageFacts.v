(** The descriptions of errors. *)
From Verif Require Import Model.Prelude Model.Json Model.Types Model.Deps Model.Serde Model.Errors
  Spec SpecErrors Proofs.ErrorFacts.

Definition code_of (e : any_error) : N :=
  match e with
  | AValidation e => validation_error_code e
  | AJwt e => jwt_error_code e
  | AIssuer e => issuer_error_code_num e
  | AToken e => token_error_code_num e
  end.
Definition display_of (d : deps) (e : any_error) : str :=
  match e with
  | AValidation e => validation_error_display e
  | AJwt e => jwt_error_display d e
  | AIssuer e => issuer_error_display d e
  | AToken e => token_error_display e
  end.
Definition wraps (e : any_error) : bool :=
  match e with AIssuer (IValidationError _) | AIssuer (IJwtError _) | AToken (TValidationError _) => true | _ => false end.

Definition enum_eqb (a b : enum) : bool :=
  match a, b with
  | EValidation, EValidation | EJwt, EJwt | EIssuer, EIssuer | EToken, EToken => true
  | _, _ => false
  end.
Fixpoint message_of (l : list (enum * N * string)) (e : enum) (n : N) : list string :=
  match l with
  | [] => []
  | (e', n', t) :: r => (if enum_eqb e e' && (n =? n') then [t] else []) ++ message_of r e n
  end.
Lemma message_of_in l e n t : In (e, n, t) l -> In t (message_of l e n).
Proof.
  induction l as [|[[e' n'] t'] l IH]; [easy|]. intros [E|H]; cbn [message_of]; apply in_or_app.
  - apply pair_equal_spec in E as [E ->]. apply pair_equal_spec in E as [-> ->].
    left. rewrite N.eqb_refl. destruct e; now left.
  - right. auto.
Qed.
Lemma in_message_of l e n t : In t (message_of l e n) -> In (e, n, t) l.
Proof.
  induction l as [|[[e' n'] t'] l IH]; [easy|]. cbn [message_of]. intros H.
  apply in_app_or in H as [H|H]; [|right; auto].
  destruct (enum_eqb e e') eqn:E1, (n =? n') eqn:E2; cbn in H; try easy.
  destruct H as [<-|[]]. apply N.eqb_eq in E2 as ->. left.
  destruct e, e'; easy.
Qed.

Lemma messages_of d e : wraps e = false ->
  exists t, message_of message_table (enum_of e) (code_of e) = [t]
  /\ display_of d e = fill (shown d e) None (lit t).
Proof.
  destruct e as [[m]|e|e|e]; [..|destruct e|destruct e|destruct e]; intros W; try discriminate W;
    eexists; (split; [reflexivity|]);
    cbn [display_of jwt_error_display issuer_error_display];
    try (match goal with |- context [_ ++ dt_display d ?t] => rewrite <- (app_nil_r (dt_display d t)) end;
         vm_compute; reflexivity);
    vm_compute; reflexivity.
Qed.

Lemma description_filled d e t :
  In (enum_of e, code_of e, t) message_table ->
  display_of d e = fill (shown d e) None (lit t).
Proof.
  intros H. apply message_of_in in H. destruct (wraps e) eqn:W.
  - destruct e as [?|?|[]|[]]; try discriminate W; destruct H.
  - destruct (messages_of d e W) as (t' & E & D). rewrite E in H. destruct H as [<-|[]]. exact D.
Qed.

Lemma description_listed e :
  (exists t, In (enum_of e, code_of e, t) message_table)
  <-> ~ ((exists v, e = AIssuer (IValidationError v)) \/ (exists j, e = AIssuer (IJwtError j))
         \/ exists v, e = AToken (TValidationError v)).
Proof.
  split.
  - intros (t & H) [(v & ->)|[(j & ->)|(v & ->)]]; apply message_of_in in H; destruct H.
  - intros N. destruct (wraps e) eqn:W.
    + destruct e as [?|?|[]|[]]; try discriminate W; exfalso; apply N; eauto.
    + destruct e as [m|e|e|e];
        [exists "An error occurred during validation, serialization or deserialization"%string;
         destruct m; now left | destruct e | destruct e | destruct e]; try discriminate W;
        eexists; apply in_message_of; left; reflexivity.
Qed.

Lemma any_code d e : ei_code (any_information d e) = code_of e.
Proof. now destruct e. Qed.
Lemma description_is_message d e t :
  In (enum_of e, ei_code (any_information d e), t) message_table ->
  ei_description (any_information d e) = fill (shown d e) None (lit t).
Proof. rewrite any_code. intros H. rewrite <- (description_filled d e t H). now destruct e. Qed.
Lemma description_exists d e :
  (exists t, In (enum_of e, ei_code (any_information d e), t) message_table)
  <-> ~ ((exists v, e = AIssuer (IValidationError v)) \/ (exists j, e = AIssuer (IJwtError j))
         \/ exists v, e = AToken (TValidationError v)).
Proof. rewrite any_code. apply description_listed. Qed.
