(** Error codes, error information, return objects and error responses. Theorems
    only; proofs are in Proofs/ErrorFacts.v, vocabulary in SpecErrors.v. *)
From Coq Require Import Lia Permutation Sorted.
From Verif Require Import Model.Prelude Model.Json Model.Types Model.Deps Model.Serde Model.Errors
  Model.AccessToken Model.CredentialIssuer Model.Wire Spec SpecToken SpecErrors SpecJson
  Proofs.JsonFacts Proofs.GrammarFacts Proofs.ErrorFacts Proofs.MessageFacts Proofs.ErrorTexts Proofs.ErrorCompact Proofs.OkTac Examples.

(** * C10 *)
Theorem C10_credential_error_codes_bijective :
  (forall c name, vci_code c name -> issuer_code_to_str c = lit name)
  /\ (forall c, issuer_code_try_from (issuer_code_to_str c) = Ok c)
  /\ (forall a b, issuer_code_to_str a = issuer_code_to_str b -> a = b)
  /\ (forall s, (forall c name, vci_code c name -> s <> lit name) ->
      issuer_code_try_from s = Err (VAny (lit "Invalid error code: " ++ s))).
Proof. exact issuer_codes_bijection. Qed.
Print Assumptions C10_credential_error_codes_bijective.

Example C10_other : forall c name, vci_code c name -> lit "Invalid_token" <> lit name.
Proof. intros c name []; discriminate. Qed.

(** * C11: false for every code; the member is the Rust name, which is not a code *)
Definition C11_claim : Prop :=
  forall d c name description uri details r s,
    oauth_code c name ->
    create_access_token_error_response c description uri details = Ok r ->
    token_error_response_to_json d r = Some s ->
    exists m, json_text s (JObj m) /\ In (lit "error", JStr (lit name)) m.
Theorem C11_oauth_error_string_refuted : ~ C11_claim.
Proof. unfold C11_claim. by_reader (oauth_string_refuted example_deps). Qed.
Print Assumptions C11_oauth_error_string_refuted.

Theorem C11_token_error_member : forall d c description uri details r m s name,
  create_access_token_error_response c description uri details = Ok r ->
  token_rust_name c name ->
  on_some rust_string description -> on_some rust_string uri -> details_ok details ->
  mergeable (flatten_unit_ok d) details m ->
  token_error_response_to_json d r = Some s ->
  json_text s (JObj (response_members (lit name) description uri m))
  /\ compact (JObj (response_members (lit name) description uri m)) s
  /\ exists e, token_code_try_from (lit name) = Err e.
Proof. exact token_error_response_text. Qed.
Print Assumptions C11_token_error_member.

Theorem C11_credential_error_member : forall d c description uri details r m s name,
  create_credential_error_response c description uri details = Ok r ->
  issuer_rust_name c name ->
  on_some rust_string description -> on_some rust_string uri -> details_ok details ->
  mergeable (flatten_unit_ok d) details m ->
  issuer_error_response_to_json d r = Some s ->
  json_text s (JObj (response_members (lit name) description uri m))
  /\ compact (JObj (response_members (lit name) description uri m)) s
  /\ exists e, issuer_code_try_from (lit name) = Err e.
Proof. exact issuer_error_response_text. Qed.
Print Assumptions C11_credential_error_member.

(** Details with a nested member, and the text written for them. *)
Definition ex_details : json := JObj [(lit "a", JArr [JInt 1; JNull]); (lit "trace", JStr (lit "x"))].
Example C11_details : details_ok (Some ex_details).
Proof. ok. Qed.
Example C11_text : forall d, exists r,
  create_access_token_error_response TInvalidGrant (Some (lit "no")) None (Some ex_details) = Ok r
  /\ token_error_response_to_json d r
     = Some (lit "{""error"":""InvalidGrant"",""error_description"":""no"",""error_uri"":null,""a"":[1,null],""trace"":""x""}").
Proof. intros d. eexists. split; reflexivity. Qed.

(** * C12: details other than an object do not serialize, and an object can
    repeat a standard member *)
Definition C12_serializes : Prop :=
  forall d c description uri details r,
    create_access_token_error_response c description uri details = Ok r ->
    exists s, token_error_response_to_json d r = Some s.
Definition C12_unique_members : Prop :=
  forall d c description uri details r s m k,
    create_access_token_error_response c description uri details = Ok r ->
    token_error_response_to_json d r = Some s ->
    json_text s (JObj m) ->
    In k ["error"; "error_description"; "error_uri"]%string ->
    exists v, only_member m k v.
Theorem C12_always_serializes_refuted : ~ C12_serializes.
Proof. exact (serializes_refuted example_deps). Qed.
Print Assumptions C12_always_serializes_refuted.
Theorem C12_standard_members_unique_refuted : ~ C12_unique_members.
Proof. unfold C12_unique_members. by_reader (unique_members_refuted example_deps). Qed.
Print Assumptions C12_standard_members_unique_refuted.

Theorem C12_token_error_serializes_iff : forall d r,
  (exists s, token_error_response_to_json d r = Some s)
  <-> exists m, mergeable (flatten_unit_ok d) (resp_details r) m.
Proof. exact (fun d r => error_response_serializes d ser_token_code r). Qed.
Print Assumptions C12_token_error_serializes_iff.

Theorem C12_credential_error_serializes_iff : forall d r,
  (exists s, issuer_error_response_to_json d r = Some s)
  <-> exists m, mergeable (flatten_unit_ok d) (resp_details r) m.
Proof. exact (fun d r => error_response_serializes d ser_issuer_code r). Qed.
Print Assumptions C12_credential_error_serializes_iff.

(** With C11, which gives the members of the text: *)
Theorem C12_standard_members_unique_iff : forall error description uri details k,
  In k ["error"; "error_description"; "error_uri"]%string ->
  (exists v, only_member (response_members error description uri details) k v)
  <-> ~ In (lit k) (map fst details).
Proof. exact standard_member_unique. Qed.
Print Assumptions C12_standard_members_unique_iff.

Example C12_good_details : ~ In (lit "error") [lit "a"; lit "trace"].
Proof. cbn. intuition discriminate. Qed.

(** * C60 *)
Definition information (d : deps) (e : any_error) : error_information :=
  match e with
  | AValidation e => validation_error_information e
  | AJwt e => jwt_error_information d e
  | AIssuer e => issuer_error_information d e
  | AToken e => token_error_information e
  end.

Theorem C60_code_identifies_variant : forall d a b,
  ei_code (information d a) = ei_code (information d b) <-> same_variant a b.
Proof. exact codes_identify. Qed.
Print Assumptions C60_code_identifies_variant.

Theorem C60_name_identifies_variant : forall d a b, enum_of a = enum_of b ->
  (ei_name (information d a) = ei_name (information d b) <-> same_variant a b).
Proof. exact names_identify. Qed.
Print Assumptions C60_name_identifies_variant.

Theorem C60_code_in_range : forall d a, in_enum_range (enum_of a) (ei_code (information d a)).
Proof. exact codes_in_range. Qed.
Print Assumptions C60_code_in_range.

(** The codes and names are exactly those of the table. *)
Theorem C60_published_table : forall d,
  (forall a, exists name, ei_name (information d a) = lit name
     /\ In (enum_of a, ei_code (information d a), name) error_table)
  /\ (forall en n name, In (en, n, name) error_table ->
      exists a, enum_of a = en /\ ei_code (information d a) = n /\ ei_name (information d a) = lit name).
Proof. exact (fun d => conj (information_in_table d) (table_in_information d)). Qed.
Print Assumptions C60_published_table.

Example C60_same_name_other_enum : forall d,
  ei_name (information d (AIssuer (IValidationError (VAny []))))
  = ei_name (information d (AJwt (JValidationError (VAny [])))).
Proof. reflexivity. Qed.

(** * C61 *)
Theorem C61_validation_information : forall e, exists v,
  ei_additional (validation_error_information e) = Some v /\ additional_for (validation_fields e) v.
Proof. exact (fun e => ex_intro _ _ (conj eq_refl (validation_additional e))). Qed.
Print Assumptions C61_validation_information.

Theorem C61_jwt_information : forall d e, exists v,
  ei_additional (jwt_error_information d e) = Some v /\ additional_for (jwt_fields d e) v.
Proof. exact (fun d e => ex_intro _ _ (conj eq_refl (jwt_additional d e))). Qed.
Print Assumptions C61_jwt_information.

Theorem C61_issuer_information : forall d e, exists v,
  ei_additional (issuer_error_information d e) = Some v
  /\ additional_for (issuer_fields d (fun c => to_value (ser_cfp c)) e) v.
Proof. exact (fun d e => ex_intro _ _ (conj eq_refl (issuer_additional d e))). Qed.
Print Assumptions C61_issuer_information.

Theorem C61_token_information : forall e, exists v,
  ei_additional (token_error_information e) = Some v /\ token_additional e v.
Proof. exact (fun e => ex_intro _ _ (conj eq_refl (token_additional_ok e))). Qed.
Print Assumptions C61_token_information.

(** Wrapping an error keeps its description (validation errors in JWT errors
    excepted) and its additional information. *)
Theorem C61_wrapping_keeps_information : forall d,
  (forall e, ei_description (issuer_error_information d (IValidationError e))
             = ei_description (validation_error_information e)
          /\ ei_additional (issuer_error_information d (IValidationError e))
             = ei_additional (validation_error_information e))
  /\ (forall e, ei_description (issuer_error_information d (IJwtError e))
             = ei_description (jwt_error_information d e)
          /\ ei_additional (issuer_error_information d (IJwtError e))
             = ei_additional (jwt_error_information d e))
  /\ (forall e, ei_description (token_error_information (TValidationError e))
             = ei_description (validation_error_information e)
          /\ ei_additional (token_error_information (TValidationError e))
             = ei_additional (validation_error_information e))
  /\ (forall e, ei_additional (jwt_error_information d (JValidationError e))
             = ei_additional (validation_error_information e)).
Proof. exact wrapping_keeps. Qed.
Print Assumptions C61_wrapping_keeps_information.

(** The description is the published message of the code, its placeholders filled
    with the fields; every error but the three forwarding ones has one. *)
Theorem C61_description : forall d e t,
  In (enum_of e, ei_code (information d e), t) message_table ->
  ei_description (information d e) = fill (shown d e) None (lit t).
Proof. exact description_is_message. Qed.
Print Assumptions C61_description.

Theorem C61_every_error_described : forall d e,
  (exists t, In (enum_of e, ei_code (information d e), t) message_table)
  <-> ~ ((exists v, e = AIssuer (IValidationError v)) \/ (exists j, e = AIssuer (IJwtError j))
         \/ exists v, e = AToken (TValidationError v)).
Proof. exact description_exists. Qed.
Print Assumptions C61_every_error_described.

Example C61_message : ei_description (information example_deps (AIssuer (ICredentialIdNotInIssuerMetadata (lit "{now}"))))
  = lit "The id `{now}` does not refer to a credential format inside the issuer metadata".
Proof. reflexivity. Qed.

Example C61_nested : ei_additional (token_error_information
    (TInvalidAuthorizedAndPreAuthorizedCodeFlow
       (TInvalidGrantType (lit "x") [lit "y"]) TUserPinMismatch))
  = Some (JObj [(lit "authorized_error", JObj [(lit "accepted_grant_type", JArr [JStr (lit "y")]);
                                               (lit "requested_grant_type", JStr (lit "x"))]);
                (lit "pre_authorized_error", JNull)]).
Proof. reflexivity. Qed.

(** Every error, and what it displays as, is JSON. *)
Theorem C61_every_error_reportable : forall d e, error_ok d e -> information_ok 125 (information d e).
Proof. exact error_information_ok. Qed.
Print Assumptions C61_every_error_reportable.

Theorem C61_display : forall i, information_ok 126 i ->
  json_text (error_information_display i) (JObj (information_members i))
  /\ compact (JObj (information_members i)) (error_information_display i).
Proof. exact display_written. Qed.
Print Assumptions C61_display.

Example C61_reportable : error_ok example_deps (AToken
    (TInvalidAuthorizedAndPreAuthorizedCodeFlow (TInvalidGrantType (lit "x") [lit "y"]) TUserPinMismatch))
  /\ error_ok example_deps (AJwt (JNonceMismatch None (lit "n"))).
Proof. repeat split; try (cbn; lia); repeat constructor; apply rust_string_ascii; reflexivity. Qed.
Example C61_displayed : error_information_display (information example_deps
    (AToken (TInvalidPreAuthorizedCodeFlowValues true false)))
  = lit "{""code"":404,""name"":""InvalidPreAuthorizedCodeFlowValues"",""description"":""Requested pre-authorized code flow has invalid values"",""additional_information"":{""does_code_match"":false,""should_pin_be_supplied"":true}}".
Proof. vm_compute. reflexivity. Qed.

(** * C62: false for every message but one; the message is elsewhere *)
Definition C62_claim : Prop :=
  forall m, ei_description (validation_error_information (VAny m)) = m.
Definition C62_wrapped_claim : Prop :=
  forall d m, ei_description (issuer_error_information d (IValidationError (VAny m))) = m.
Theorem C62_description_is_message_refuted : ~ C62_claim /\ ~ C62_wrapped_claim.
Proof. exact (conj (proj1 description_refuted) (proj2 description_refuted example_deps)). Qed.
Print Assumptions C62_description_is_message_refuted.

Theorem C62_message_is_additional_information : forall d m,
  (forall i, In i [validation_error_information (VAny m);
                   issuer_error_information d (IValidationError (VAny m));
                   token_error_information (TValidationError (VAny m))] ->
     ei_description i = lit "An error occurred during validation, serialization or deserialization"
     /\ ei_additional i = Some (JObj [(lit "validation_message", JStr m)]))
  /\ ei_description (jwt_error_information d (JValidationError (VAny m)))
     = lit "An error occurred while validating"
  /\ ei_additional (jwt_error_information d (JValidationError (VAny m)))
     = Some (JObj [(lit "validation_message", JStr m)]).
Proof. exact message_in_additional. Qed.
Print Assumptions C62_message_is_additional_information.

(** * C63 *)
Theorem C63_return_object_of_ok : forall T E (info : E -> error_information) (t : T),
  ro_info (to_return_object info (inl t)) = Some t
  /\ ro_error (to_return_object info (inl t)) = None
  /\ ro_warnings (to_return_object info (inl t)) = None.
Proof. exact (@return_ok). Qed.
Print Assumptions C63_return_object_of_ok.

Theorem C63_return_object_of_err : forall T E (info : E -> error_information) (e : E),
  ro_info (to_return_object (T := T) info (inr e)) = None
  /\ ro_error (to_return_object (T := T) info (inr e)) = Some (info e)
  /\ ro_warnings (to_return_object (T := T) info (inr e)) = None.
Proof. exact (@return_err). Qed.
Print Assumptions C63_return_object_of_err.

Theorem C63_json_of_ok : forall T E (info : E -> error_information) (f : T -> json) t,
  json_ok (f t) ->
  levels_text (1 + depth (f t)) (return_object_to_json f (to_return_object info (inl t)))
    (JObj [(lit "info", f t)])
  /\ compact (JObj [(lit "info", f t)])
       (return_object_to_json f (to_return_object info (inl t))).
Proof. exact (@return_ok_text). Qed.
Print Assumptions C63_json_of_ok.

Theorem C63_json_of_err : forall T E (info : E -> error_information) (f : T -> json) e n,
  information_ok n (info e) ->
  levels_text (2 + n) (return_object_to_json f (to_return_object (T := T) info (inr e)))
    (JObj [(lit "error", JObj (information_members (info e)))])
  /\ compact (JObj [(lit "error", JObj (information_members (info e)))])
       (return_object_to_json f (to_return_object (T := T) info (inr e))).
Proof. exact (@return_err_text). Qed.
Print Assumptions C63_json_of_err.

Example C63_case : information_ok 125 (token_error_information
    (TInvalidGrantType (lit "pre_authorized_code_flow") [lit "authorized_code_flow"])).
Proof.
  split; [reflexivity|]. split; [apply rust_string_ascii; reflexivity|].
  split; [apply rust_string_ascii; reflexivity|]. cbn. ok.
Qed.

(** * C64 *)
Theorem C64_warnings_accumulate : forall T E W (ws : list W) (r : return_object T E W),
  ro_info (fold_left add_warning ws r) = ro_info r
  /\ ro_error (fold_left add_warning ws r) = ro_error r
  /\ (ws = [] -> ro_warnings (fold_left add_warning ws r) = ro_warnings r)
  /\ (ws <> [] -> ro_warnings (fold_left add_warning ws r)
      = Some (match ro_warnings r with Some l => l | None => [] end ++ ws)).
Proof. exact (@warnings_accumulate). Qed.
Print Assumptions C64_warnings_accumulate.

Theorem C64_json_of_ok : forall T E (info : E -> error_information) (f : T -> json) t ws,
  json_ok (f t) -> ws <> [] -> Forall rust_string ws ->
  levels_text (1 + max 1 (depth (f t))) (return_object_to_json f (fold_left add_warning ws (to_return_object info (inl t))))
    (JObj [(lit "info", f t); (lit "warnings", JArr (map JStr ws))])
  /\ compact (JObj [(lit "info", f t); (lit "warnings", JArr (map JStr ws))])
       (return_object_to_json f (fold_left add_warning ws (to_return_object info (inl t)))).
Proof. exact (@warnings_ok_text). Qed.
Print Assumptions C64_json_of_ok.

Theorem C64_json_of_err : forall T E (info : E -> error_information) (f : T -> json) e ws n,
  information_ok n (info e) -> ws <> [] -> Forall rust_string ws ->
  levels_text (2 + n) (return_object_to_json f (fold_left add_warning ws (to_return_object (T := T) info (inr e))))
    (JObj [(lit "error", JObj (information_members (info e))); (lit "warnings", JArr (map JStr ws))])
  /\ compact (JObj [(lit "error", JObj (information_members (info e))); (lit "warnings", JArr (map JStr ws))])
       (return_object_to_json f (fold_left add_warning ws (to_return_object (T := T) info (inr e)))).
Proof. exact (@warnings_err_text). Qed.
Print Assumptions C64_json_of_err.

Example C64_case : ro_warnings (fold_left add_warning [lit "second"; lit "third"]
  {| ro_info := Some tt; ro_error := @None unit; ro_warnings := Some [lit "first"] |})
  = Some [lit "first"; lit "second"; lit "third"].
Proof. reflexivity. Qed.
