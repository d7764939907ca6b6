(** Documents as a program can hold them: free-form values with any numbers (not
    only those that are read to themselves, C94) and of any nesting. Theorems only;
    proofs are in Proofs/AnyNumbers.v and Proofs/AnyErrors.v, vocabulary in SpecRelay.v,
    SpecJson.v, SpecWire.v, SpecErrors.v and SpecAnyErrors.v.

    [r] gives for the text of a number the text of the number it is read to
    ([rereads]); so [json_numbers r v] is what a reader gets where [v] was written. *)
From Verif Require Import Model.Prelude Model.Json Model.Types Model.Deps Model.Errors Model.AccessToken
  Model.CredentialIssuer Model.Wire
  Spec SpecNumber SpecOffer SpecErrors SpecJson SpecDocuments SpecWire SpecRelay SpecResults SpecAnyErrors
  Proofs.StrFacts Proofs.SerdeFacts Proofs.JsonFacts Proofs.RelayFacts Proofs.RenumberFacts Proofs.AnyNumbers Proofs.AnyErrors Examples Properties.Errors
  Properties.Relay.

(** * C66 *)
Theorem C66_any_numbers : forall r j, rereads r -> json_any j ->
  (forall n, levels_text n (print j) (json_numbers r j) <-> (depth j <= n)%nat)
  /\ forall j', rfc8259_text (print j) j' -> j' = json_numbers r j.
Proof. exact any_is_json. Qed.
Print Assumptions C66_any_numbers.

(** Different values have different texts, even if their numbers are read alike. *)
Theorem C66_texts_apart : forall j j', json_any j -> json_any j' -> print j = print j' -> j = j'.
Proof. exact any_apart. Qed.
Print Assumptions C66_texts_apart.

(** * C82 *)
Theorem C82_offer_any_numbers : forall n r x, rereads r -> offer_with (value_any n) x ->
  exists v, compact v (offer_to_json x) /\ offer_value Writing v x
    /\ rfc8259_text (offer_to_json x) (json_numbers r v).
Proof. exact offer_text_any. Qed.
Print Assumptions C82_offer_any_numbers.

Theorem C82_credential_any_numbers : forall n r x, rereads r -> cfp_with (value_any n) x ->
  exists v, compact v (cfp_to_json x) /\ credential_value Writing Alone v x
    /\ rfc8259_text (cfp_to_json x) (json_numbers r v).
Proof. exact cfp_text_any. Qed.
Print Assumptions C82_credential_any_numbers.

Theorem C82_credential_request_any_numbers : forall n r x, rereads r -> request_with (value_any n) x ->
  exists v, compact v (credential_request_to_json x) /\ request_value Writing v x
    /\ rfc8259_text (credential_request_to_json x) (json_numbers r v).
Proof. exact request_text_any. Qed.
Print Assumptions C82_credential_request_any_numbers.

Theorem C82_credential_response_any_numbers : forall n r x, rereads r -> credential_success_with (value_any n) x ->
  exists v, compact v (credential_success_to_json x) /\ credential_success_value Writing v x
    /\ rfc8259_text (credential_success_to_json x) (json_numbers r v).
Proof. exact response_text_any. Qed.
Print Assumptions C82_credential_response_any_numbers.

Theorem C82_metadata_any_numbers : forall n r x, rereads r -> metadata_with (value_any n) (value_any n) x ->
  (forall a k, im_additional_fields x = Some a -> In k (map fst a) -> ~ names_metadata k) ->
  exists v, compact v (metadata_to_json x) /\ metadata_value Writing v x
    /\ rfc8259_text (metadata_to_json x) (json_numbers r v).
Proof. exact metadata_text_any. Qed.
Print Assumptions C82_metadata_any_numbers.

(** Different documents have different texts; of metadata, absent additional fields
    and an empty map of them are written alike. *)
Theorem C82_texts_apart : forall n,
  (forall x x', cfp_with (value_any n) x -> cfp_with (value_any n) x' ->
     cfp_to_json x = cfp_to_json x' -> x = x')
  /\ (forall x x', offer_with (value_any n) x -> offer_with (value_any n) x' ->
     offer_to_json x = offer_to_json x' -> x = x')
  /\ (forall x x', request_with (value_any n) x -> request_with (value_any n) x' ->
     credential_request_to_json x = credential_request_to_json x' -> x = x')
  /\ (forall x x', credential_success_with (value_any n) x -> credential_success_with (value_any n) x' ->
     credential_success_to_json x = credential_success_to_json x' -> x = x')
  /\ (forall x x', metadata_with (value_any n) (value_any n) x -> metadata_with (value_any n) (value_any n) x' ->
     (forall a k, im_additional_fields x = Some a -> In k (map fst a) -> ~ names_metadata k) ->
     (forall a k, im_additional_fields x' = Some a -> In k (map fst a) -> ~ names_metadata k) ->
     metadata_to_json x = metadata_to_json x' ->
     with_additional x match im_additional_fields x with Some a => a | None => [] end
     = with_additional x' match im_additional_fields x' with Some a => a | None => [] end).
Proof.
  exact (fun n => conj (cfp_apart n) (conj (offer_apart n) (conj (request_apart n) (conj (response_apart n) (metadata_apart n))))).
Qed.
Print Assumptions C82_texts_apart.

(** * C17 *)
Theorem C17_any_numbers : forall n o o' s, offer_with (value_any n) o -> offer_with (value_any n) o' ->
  offer_url_encode o = Ok s -> offer_url_encode o' = Ok s -> o = o'.
Proof. exact payload_apart. Qed.
Print Assumptions C17_any_numbers.

(** * C92 *)
Theorem C92_any_numbers : forall n r x, rereads r ->
  on_some rust_string (er_subject_id x) -> cfp_with (value_any n) (er_credential x) ->
  exists v, compact v (eval_response_to_json x) /\ result_value v x
    /\ rfc8259_text (eval_response_to_json x) (json_numbers r v).
Proof. exact result_text_any. Qed.
Print Assumptions C92_any_numbers.

Theorem C92_determined_any_numbers : forall n x x',
  on_some rust_string (er_subject_id x) -> cfp_with (value_any n) (er_credential x) ->
  on_some rust_string (er_subject_id x') -> cfp_with (value_any n) (er_credential x') ->
  eval_response_to_json x = eval_response_to_json x' -> x = x'.
Proof. exact result_apart. Qed.
Print Assumptions C92_determined_any_numbers.

(** The credential of C105 with a number that does not survive: two that are read
    to the same value and are yet written differently. *)
Definition he_odd (t : string) : json := JArr [JFloat (lit t); JNull].
Lemma he_texts : f64_text (lit "4.6428839496425715e91") /\ f64_text (lit "4.642883949642571e91").
Proof.
  split; [exact rl_odd_text|]. apply becomes_f64 with (lit "4.6428839496425715e91").
  apply becomes_computed; vm_compute; reflexivity.
Qed.
Example C66_any_case : json_any (he_odd "4.6428839496425715e91") /\ json_any (he_odd "4.642883949642571e91").
Proof.
  destruct he_texts as [A B].
  split; constructor; intros x [<-|[<-|[]]]; constructor; assumption.
Qed.
Example C82_any_case : cfp_with (value_any 124) rl_odd /\ rereads reread
  /\ cfp_to_json rl_odd = lit "{""format"":""ldp_vc"",""@context"":[{""v"":[4.6428839496425715e91,null]}],""types"":[""T""]}".
Proof. split; [exact (proj1 C105_case)|]. split; [exact reread_rereads|]. vm_compute. reflexivity. Qed.

(** * C11 *)
Theorem C11_token_error_any_details : forall d r c description uri details x m s name,
  rereads r ->
  create_access_token_error_response c description uri details = Ok x ->
  token_rust_name c name ->
  on_some rust_string description -> on_some rust_string uri -> on_some json_any details ->
  mergeable (flatten_unit_ok d) details m ->
  token_error_response_to_json d x = Some s ->
  compact (JObj (response_members (lit name) description uri m)) s
  /\ rfc8259_text s (json_numbers r (JObj (response_members (lit name) description uri m))).
Proof. exact token_response_any. Qed.
Print Assumptions C11_token_error_any_details.

Theorem C11_credential_error_any_details : forall d r c description uri details x m s name,
  rereads r ->
  create_credential_error_response c description uri details = Ok x ->
  issuer_rust_name c name ->
  on_some rust_string description -> on_some rust_string uri -> on_some json_any details ->
  mergeable (flatten_unit_ok d) details m ->
  issuer_error_response_to_json d x = Some s ->
  compact (JObj (response_members (lit name) description uri m)) s
  /\ rfc8259_text s (json_numbers r (JObj (response_members (lit name) description uri m))).
Proof. exact issuer_response_any. Qed.
Print Assumptions C11_credential_error_any_details.

(** Details with a number that is not read to itself. *)
Example C11_any_case : let details := Some (JObj [(lit "v", he_odd "4.6428839496425715e91")]) in
  on_some json_any details
  /\ mergeable (flatten_unit_ok example_deps) details [(lit "v", he_odd "4.6428839496425715e91")]
  /\ exists x, create_access_token_error_response TInvalidGrant None None details = Ok x
     /\ token_error_response_to_json example_deps x
        = Some (lit "{""error"":""InvalidGrant"",""error_description"":null,""error_uri"":null,""v"":[4.6428839496425715e91,null]}").
Proof.
  split; [|split; [constructor|eexists; split; reflexivity]].
  intros v [= <-]. apply any_obj. constructor; [|constructor]. split; [apply rust_string_ascii; reflexivity|].
  exact (proj1 C66_any_case).
Qed.

(** * C61 *)
(** Every error, with requested credentials that hold any numbers and token errors
    wrapped any number of times, is displayed as JSON. *)
Theorem C61_any_error : forall d e, error_any d e -> information_any (information d e).
Proof. exact error_information_any. Qed.
Print Assumptions C61_any_error.

Theorem C61_any_display : forall r i, rereads r -> information_any i ->
  compact (JObj (information_members i)) (error_information_display i)
  /\ rfc8259_text (error_information_display i) (json_numbers r (JObj (information_members i))).
Proof. exact display_any. Qed.
Print Assumptions C61_any_display.

Fixpoint he_wrapped (n : nat) : token_error :=
  match n with O => TUserPinMismatch | S n => TInvalidAuthorizedAndPreAuthorizedCodeFlow (he_wrapped n) TUserPinMismatch end.
Example C61_any_case : (forall n, error_any example_deps (AToken (he_wrapped n)))
  /\ error_any example_deps (AIssuer (IInvalidRequestedCredential rl_odd [])).
Proof.
  split.
  - induction n as [|n IH]; [constructor|]. cbn [error_any he_wrapped token_texts] in *. apply Forall_app. split; [exact IH|constructor].
  - split; [|constructor]. apply (any_credential 124). exact (proj1 C105_case).
Qed.

(** * C63 C64 *)
(** Return objects with whatever they hold: the members present, in this order. *)
Theorem C63_any_return_object : forall T r (f : T -> json) (x : return_object T error_information str),
  rereads r -> on_some (fun t => json_any (f t)) (ro_info x) -> on_some information_any (ro_error x) ->
  on_some (Forall rust_string) (ro_warnings x) ->
  compact (JObj (return_members f x)) (return_object_to_json f x)
  /\ rfc8259_text (return_object_to_json f x) (json_numbers r (JObj (return_members f x))).
Proof. exact @return_object_any. Qed.
Print Assumptions C63_any_return_object.

Example C63_any_case :
  let x := add_warning (to_return_object token_error_information (inl (he_odd "4.6428839496425715e91"))) (lit "w") in
  on_some json_any (ro_info x) /\ on_some information_any (ro_error x) /\ on_some (Forall rust_string) (ro_warnings x)
  /\ return_object_to_json (fun v => v) x = lit "{""info"":[4.6428839496425715e91,null],""warnings"":[""w""]}".
Proof.
  split; [|split; [|split; [|reflexivity]]].
  - intros v [= <-]. exact (proj1 C66_any_case).
  - discriminate.
  - intros ws [= <-]. constructor; [apply rust_string_ascii; reflexivity|constructor].
Qed.
