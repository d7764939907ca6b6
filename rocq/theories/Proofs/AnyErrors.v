(** Error responses, error information and return objects whose free-form parts hold any
    numbers and nest to any depth (C11, C61, C63, C64). *)
From Coq Require Import Lia.
From Verif Require Import Model.Prelude Model.Json Model.Types Model.Deps Model.Serde Model.Errors
  Model.AccessToken Model.CredentialIssuer Model.Wire Spec SpecToken SpecErrors SpecJson SpecRelay
  SpecAnyErrors Proofs.StrFacts Proofs.JsonFacts Proofs.SerdeFacts Proofs.GrammarFacts Proofs.CompactFacts
  Proofs.ErrorFacts Proofs.ErrorTexts Proofs.ErrorCompact Proofs.RelayFacts Proofs.RenumberFacts Proofs.AnyNumbers.

(* ---------------- values ---------------- *)

Definition member_any (kv : str * json) : Prop := rust_string (fst kv) /\ json_any (snd kv).

Lemma any_obj m : Forall member_any m -> json_any (JObj m).
Proof. intros H. rewrite Forall_forall in H. constructor; intros k v I; apply (H (k, v) I). Qed.
Lemma any_arr l : Forall json_any l -> json_any (JArr l).
Proof. intros H. rewrite Forall_forall in H. now constructor. Qed.

Lemma ok_any v : json_ok v -> json_any v.
Proof. induction 1; constructor; auto. eapply becomes_f64. eassumption. Qed.
Lemma good_any n v : jgood n v -> json_any v.
Proof. intros [H _]. now apply ok_any. Qed.
Lemma good_member_any n kv : mgood n kv -> member_any kv.
Proof. intros [H G]. split; [exact H|now apply good_any with n]. Qed.

Lemma fold_bt_any l : forall acc, Forall member_any acc -> Forall member_any l ->
  Forall member_any (fold_left (fun a kv => bt_insert (fst kv) (snd kv) a) l acc).
Proof.
  induction l as [|[k v] l IH]; intros acc H1 H2; cbn [fold_left fst snd]; [exact H1|].
  inversion H2; subst. apply IH; [|assumption]. rewrite Forall_forall in *. intros [k' v'] Hin.
  apply bt_insert_In in Hin. destruct Hin as [[-> ->]|Hin]; [assumption|auto].
Qed.

Lemma any_to_value j : json_any j -> json_any (to_value j).
Proof.
  induction 1 as [|b|z Z|t F|s R|l _ IH|m R _ IH]; cbn [to_value]; try (constructor; assumption).
  - apply any_arr. rewrite Forall_map, Forall_forall. exact IH.
  - apply any_obj. apply fold_bt_any; [constructor|]. rewrite Forall_map, Forall_forall. intros [k v] I.
    split; [exact (R k v I)|exact (IH k v I)].
Qed.

(** What is written for such a value. *)
Lemma any_written r j s : rereads r -> json_any j -> compact j s -> rfc8259_text s (json_numbers r j).
Proof.
  intros Hr H C. apply compact_iff in C. subst s. exists (depth j). now apply (proj1 (any_is_json r j Hr H)).
Qed.

(* ---------------- error responses ---------------- *)

Lemma response_any name description uri details m null_ok :
  rust_string name -> on_some rust_string description -> on_some rust_string uri -> on_some json_any details ->
  mergeable null_ok details m -> json_any (JObj (response_members name description uri m)).
Proof.
  intros N D U O M. apply any_obj. unfold response_members.
  assert (forall o, on_some rust_string o -> json_any (opt_text o)) as T.
  { intros [t|] H; constructor. now apply H. }
  repeat apply Forall_cons; try (split; [now apply rust_string_ascii|cbn [snd]; auto]).
  - now constructor.
  - inversion M as [E|m' E|F E]; try constructor. subst m' details. specialize (O _ eq_refl).
    inversion O; subst. rewrite Forall_forall. intros [k v] I. split; eauto.
Qed.

Lemma token_response_any d r c description uri details x m s name :
  rereads r ->
  create_access_token_error_response c description uri details = Ok x ->
  token_rust_name c name ->
  on_some rust_string description -> on_some rust_string uri -> on_some json_any details ->
  mergeable (flatten_unit_ok d) details m ->
  token_error_response_to_json d x = Some s ->
  compact (JObj (response_members (lit name) description uri m)) s
  /\ rfc8259_text s (json_numbers r (JObj (response_members (lit name) description uri m))).
Proof.
  intros Hr C N D U O M W.
  assert (compact (JObj (response_members (lit name) description uri m)) s) as T.
  { injection C as <-. apply (response_text d ser_token_code (lit name)
      {| resp_error := c; resp_description := description; resp_uri := uri; resp_details := details |} m s); [|exact M|exact W].
    apply token_rust_name_iff in N. rewrite N. reflexivity. }
  split; [exact T|]. apply any_written; [exact Hr| |exact T].
  apply (response_any (lit name) description uri details m (flatten_unit_ok d)); auto.
  apply token_rust_name_iff in N. rewrite N. apply token_variant_string.
Qed.

Lemma issuer_response_any d r c description uri details x m s name :
  rereads r ->
  create_credential_error_response c description uri details = Ok x ->
  issuer_rust_name c name ->
  on_some rust_string description -> on_some rust_string uri -> on_some json_any details ->
  mergeable (flatten_unit_ok d) details m ->
  issuer_error_response_to_json d x = Some s ->
  compact (JObj (response_members (lit name) description uri m)) s
  /\ rfc8259_text s (json_numbers r (JObj (response_members (lit name) description uri m))).
Proof.
  intros Hr C N D U O M W.
  assert (compact (JObj (response_members (lit name) description uri m)) s) as T.
  { injection C as <-. apply (response_text d ser_issuer_code (lit name)
      {| resp_error := c; resp_description := description; resp_uri := uri; resp_details := details |} m s); [|exact M|exact W].
    apply issuer_rust_name_iff in N. rewrite N. reflexivity. }
  split; [exact T|]. apply any_written; [exact Hr| |exact T].
  apply (response_any (lit name) description uri details m (flatten_unit_ok d)); auto.
  apply issuer_rust_name_iff in N. rewrite N. apply issuer_variant_string.
Qed.

(* ---------------- error information ---------------- *)

Lemma information_members_any e : information_any e -> json_any (JObj (information_members e)).
Proof.
  intros (H1 & H2 & H3 & H4). apply any_obj. unfold information_members.
  repeat apply Forall_cons; try (split; [now apply rust_string_ascii|cbn [snd]; constructor; auto]).
  - change (2 ^ 32) with 4294967296 in H1. lia.
  - destruct (ei_additional e) as [v|] eqn:E; constructor; [|constructor].
    split; [now apply rust_string_ascii|]. now apply H4.
Qed.

Lemma display_any r e : rereads r -> information_any e ->
  compact (JObj (information_members e)) (error_information_display e)
  /\ rfc8259_text (error_information_display e) (json_numbers r (JObj (information_members e))).
Proof.
  intros Hr H.
  assert (compact (JObj (information_members e)) (error_information_display e)) as T.
  { unfold error_information_display. rewrite information_json. apply print_compact. }
  split; [exact T|]. apply any_written; [exact Hr|now apply information_members_any|exact T].
Qed.

Lemma information_of_any c name shown j :
  c < 2 ^ 32 -> rust_string name -> rust_string shown -> json_any j ->
  information_any (information_of c name shown j).
Proof.
  intros H1 H2 H3 H4. split; [exact H1|]. split; [exact H2|]. split; [exact H3|].
  cbn [ei_additional information_of]. intros v [= <-]. now apply any_to_value.
Qed.

Lemma context_any c : ld_context_with json_any c -> json_any (ser_ld_context c).
Proof.
  destruct c as [s|h]; cbn [ld_context_with ser_ld_context]; intros H; [now constructor|].
  apply any_obj. unfold ser_hmap. rewrite Forall_map, Forall_forall. destruct H as [_ H].
  intros [k v] I. destruct (H k v I). split; assumption.
Qed.

Lemma strs_any l : Forall rust_string l -> json_any (ser_list JStr l).
Proof. intros H. apply good_any with 1%nat. now apply (good_strs 0). Qed.
Lemma subjects_any m : hmap_ok subject_ok m -> json_any (ser_hmap ser_subject m).
Proof. intros H. eapply good_any, good_subjects, H. Qed.

Lemma credential_any c : cfp_with json_any c -> json_any (ser_cfp c).
Proof.
  intros H. unfold ser_cfp. apply any_obj.
  assert (json_any (JStr (cfp_tag c))) as Ht by (constructor; destruct c; jlit).
  pose proof strs_any as Hl. pose proof subjects_any as Hm.
  unfold cfp_members. destruct c; cbn [cfp_with] in H; decompose [and] H; clear H; jfields; try exact Ht; auto.
  - unfold ser_list. apply any_arr. rewrite Forall_map. eapply Forall_impl; [|eassumption]. exact context_any.
  - now constructor.
Qed.

Lemma error_information_any d e : error_any d e -> information_any (any_information d e).
Proof.
  destruct e as [e|e|e|e]; cbn [error_any any_information]; intros H.
  - apply information_of_any; [destruct e; reflexivity|destruct e; jlit|apply validation_shown|].
    eapply good_any. now apply (good_validation_error 0).
  - apply information_of_any; [destruct e; reflexivity|destruct e; jlit|now apply jwt_shown|].
    eapply good_any. now apply (good_jwt_error 0).
  - assert (rust_string (issuer_error_display d e) /\ json_any (ser_issuer_error d e)) as [A B].
    { destruct e; try (split; [now apply issuer_shown|eapply good_any; now apply (good_issuer_error 0)]).
      destruct H as [H1 H2]. split; [cbn [issuer_error_display]; jlit|].
      cbn [ser_issuer_error]. apply any_obj. jfields; [now apply credential_any|].
      unfold ser_list. apply any_arr. rewrite Forall_map. eapply Forall_impl; [|exact H2]. exact credential_any. }
    apply information_of_any; [destruct e; reflexivity|destruct e; jlit|exact A|exact B].
  - apply information_of_any; [destruct e; reflexivity|destruct e; jlit|apply token_shown|].
    eapply good_any. now apply good_token_error.
Qed.

(* ---------------- return objects ---------------- *)

Lemma return_object_any {T} r (f : T -> json) (x : return_object T error_information str) :
  rereads r -> on_some (fun t => json_any (f t)) (ro_info x) -> on_some information_any (ro_error x) ->
  on_some (Forall rust_string) (ro_warnings x) ->
  compact (JObj (return_members f x)) (return_object_to_json f x)
  /\ rfc8259_text (return_object_to_json f x) (json_numbers r (JObj (return_members f x))).
Proof.
  intros Hr H1 H2 H3.
  assert (compact (JObj (return_members f x)) (return_object_to_json f x)) as C.
  { apply compact_iff. unfold return_object_to_json, ser_return_object, return_members.
    destruct x as [i [e|] w]; cbn [ro_info ro_error ro_warnings]; rewrite <- ?information_json;
      destruct i, w; reflexivity. }
  split; [exact C|]. apply any_written; [exact Hr| |exact C]. apply any_obj. unfold return_members.
  rewrite !Forall_app. split; [|split].
  - destruct (ro_info x) as [t|] eqn:E; constructor; [|constructor]. split; [jlit|]. now apply H1.
  - destruct (ro_error x) as [t|] eqn:E; constructor; [|constructor]. split; [jlit|].
    apply information_members_any. now apply H2.
  - destruct (ro_warnings x) as [t|] eqn:E; constructor; [|constructor]. split; [jlit|].
    apply any_arr. rewrite Forall_map. eapply Forall_impl; [|now apply H3]. intros a Ha. now constructor.
Qed.

Lemma any_credential n c : cfp_with (value_any n) c -> cfp_with json_any c.
Proof.
  destruct c; cbn [cfp_with]; auto. intros (H & R). split; [|exact R]. eapply Forall_impl; [|exact H].
  intros [s|h]; cbn [ld_context_with]; auto. intros [W K]. split; [exact W|]. intros k v I.
  destruct (K k v I) as [A B]. split; [exact A|apply B].
Qed.
