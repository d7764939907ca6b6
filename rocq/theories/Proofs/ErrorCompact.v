(** Errors, error responses and return objects are written compactly (C11, C61, C63, C64). *)
From Verif Require Import Model.Prelude Model.Json Model.Types Model.Deps Model.Serde Model.Errors
  Model.AccessToken Model.CredentialIssuer Model.Wire Spec SpecToken SpecErrors SpecJson
  Proofs.StrFacts Proofs.JsonFacts Proofs.SerdeFacts Proofs.GrammarFacts Proofs.CompactFacts Proofs.ErrorFacts Proofs.ErrorTexts.

Lemma display_written e : information_ok 126 e ->
  json_text (error_information_display e) (JObj (information_members e))
  /\ compact (JObj (information_members e)) (error_information_display e).
Proof.
  intros H. split; [apply parse_json_iff; now apply display_read|].
  unfold error_information_display. rewrite information_json. apply print_compact.
Qed.

Lemma response_text d {E} (code_json : E -> json) name (r : error_response E) m s :
  code_json (resp_error r) = JStr name -> mergeable (flatten_unit_ok d) (resp_details r) m ->
  option_map print (ser_error_response d code_json r) = Some s ->
  compact (JObj (response_members name (resp_description r) (resp_uri r) m)) s.
Proof.
  intros N M. assert (ser_error_response d code_json r
    = Some (JObj (response_members name (resp_description r) (resp_uri r) m))) as ->.
  { unfold ser_error_response, response_members. rewrite N, !ser_opt_text.
    inversion M as [|m'|F]; subst; [reflexivity|reflexivity|]. rewrite F. reflexivity. }
  cbn [option_map]. intros W. apply some_inj in W. subst s. apply print_compact.
Qed.

Lemma token_error_response_text d c description uri details r m s name :
  create_access_token_error_response c description uri details = Ok r ->
  token_rust_name c name ->
  on_some rust_string description -> on_some rust_string uri -> details_ok details ->
  mergeable (flatten_unit_ok d) details m ->
  token_error_response_to_json d r = Some s ->
  json_text s (JObj (response_members (lit name) description uri m))
  /\ compact (JObj (response_members (lit name) description uri m)) s
  /\ exists e, token_code_try_from (lit name) = Err e.
Proof.
  intros C N D U O M W.
  destruct (token_error_response_written d c description uri details r m s name C N D U O M W) as [J T].
  split; [now apply parse_json_iff|]. split; [|exact T]. injection C as <-.
  apply (response_text d ser_token_code (lit name)
    {| resp_error := c; resp_description := description; resp_uri := uri; resp_details := details |} m s); [|exact M|exact W].
  apply token_rust_name_iff in N. rewrite N. reflexivity.
Qed.

Lemma issuer_error_response_text d c description uri details r m s name :
  create_credential_error_response c description uri details = Ok r ->
  issuer_rust_name c name ->
  on_some rust_string description -> on_some rust_string uri -> details_ok details ->
  mergeable (flatten_unit_ok d) details m ->
  issuer_error_response_to_json d r = Some s ->
  json_text s (JObj (response_members (lit name) description uri m))
  /\ compact (JObj (response_members (lit name) description uri m)) s
  /\ exists e, issuer_code_try_from (lit name) = Err e.
Proof.
  intros C N D U O M W.
  destruct (issuer_error_response_written d c description uri details r m s name C N D U O M W) as [J T].
  split; [now apply parse_json_iff|]. split; [|exact T]. injection C as <-.
  apply (response_text d ser_issuer_code (lit name)
    {| resp_error := c; resp_description := description; resp_uri := uri; resp_details := details |} m s); [|exact M|exact W].
  apply issuer_rust_name_iff in N. rewrite N. reflexivity.
Qed.

Section ReturnObjects.
Context {T E : Type} (info : E -> error_information) (f : T -> json).

Lemma return_ok_text t : json_ok (f t) ->
  levels_text (1 + depth (f t)) (return_object_to_json f (to_return_object info (inl t))) (JObj [(lit "info", f t)])
  /\ compact (JObj [(lit "info", f t)]) (return_object_to_json f (to_return_object info (inl t))).
Proof. intros J. split; [now apply return_ok_json|]. now apply compact_iff. Qed.

Lemma return_err_text e n : information_ok n (info e) ->
  levels_text (2 + n) (return_object_to_json f (to_return_object (T := T) info (inr e)))
    (JObj [(lit "error", JObj (information_members (info e)))])
  /\ compact (JObj [(lit "error", JObj (information_members (info e)))])
       (return_object_to_json f (to_return_object (T := T) info (inr e))).
Proof.
  intros J. split; [now apply return_err_json|]. apply compact_iff.
  unfold return_object_to_json. rewrite <- information_json. reflexivity.
Qed.

Lemma warnings_ok_text t ws : json_ok (f t) -> ws <> [] -> Forall rust_string ws ->
  levels_text (1 + max 1 (depth (f t)))
    (return_object_to_json f (fold_left add_warning ws (to_return_object info (inl t))))
    (JObj [(lit "info", f t); (lit "warnings", JArr (map JStr ws))])
  /\ compact (JObj [(lit "info", f t); (lit "warnings", JArr (map JStr ws))])
       (return_object_to_json f (fold_left add_warning ws (to_return_object info (inl t)))).
Proof.
  intros J N W. split; [now apply warnings_ok_json|]. apply compact_iff.
  destruct (warnings_accumulate ws (to_return_object info (inl t))) as (E1 & E2 & _ & E3).
  specialize (E3 N). unfold return_object_to_json, ser_return_object. rewrite E1, E2, E3. reflexivity.
Qed.

Lemma warnings_err_text e ws n : information_ok n (info e) -> ws <> [] -> Forall rust_string ws ->
  levels_text (2 + n) (return_object_to_json f (fold_left add_warning ws (to_return_object (T := T) info (inr e))))
    (JObj [(lit "error", JObj (information_members (info e))); (lit "warnings", JArr (map JStr ws))])
  /\ compact (JObj [(lit "error", JObj (information_members (info e))); (lit "warnings", JArr (map JStr ws))])
       (return_object_to_json f (fold_left add_warning ws (to_return_object (T := T) info (inr e)))).
Proof.
  intros J N W. split; [now apply warnings_err_json|]. apply compact_iff.
  destruct (warnings_accumulate ws (to_return_object (T := T) info (inr e))) as (E1 & E2 & _ & E3).
  specialize (E3 N). unfold return_object_to_json, ser_return_object. rewrite E1, E2, E3.
  rewrite <- information_json. reflexivity.
Qed.

End ReturnObjects.
