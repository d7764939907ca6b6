(** C106: [==] on the crate's types. Theorems only; proofs are in
    Proofs/EqualityFacts.v and Proofs/SamenessFacts.v, vocabulary in
    SpecEquality.v. *)
From Verif Require Import Model.Prelude Model.Json Model.Types Model.Wire Model.Serde Model.AccessToken Model.CredentialIssuer Model.Equality Model.Hashing
  Spec SpecNumber SpecDocuments SpecRelay SpecEquality Examples
  Proofs.JsonFacts Proofs.RelayFacts Proofs.EqualityFacts Proofs.SamenessFacts Proofs.HashFacts.

(** * C106 *)
(** Two values compare equal exactly if they are the same. *)
Theorem C106_value : forall a b, held a -> held b -> (json_eqb a b = true <-> same_value a b).
Proof. exact json_decides. Qed.
Print Assumptions C106_value.

Theorem C106_credential : forall a b, cfp_with held a -> cfp_with held b ->
  (cfp_eqb a b = true <-> same_credential a b).
Proof. exact cfp_decides. Qed.
Print Assumptions C106_credential.

Theorem C106_supported_credential : forall a b, supported_with held a -> supported_with held b ->
  (supported_eqb a b = true <-> same_supported a b).
Proof. exact supported_decides. Qed.
Print Assumptions C106_supported_credential.

Theorem C106_offer : forall a b, offer_with held a -> offer_with held b ->
  (offer_eqb a b = true <-> same_offer a b).
Proof. exact offer_decides. Qed.
Print Assumptions C106_offer.

Theorem C106_response : forall a b, credential_success_with held a -> credential_success_with held b ->
  (credential_success_eqb a b = true <-> same_response a b).
Proof. exact response_decides. Qed.
Print Assumptions C106_response.

Theorem C106_result : forall a b, result_held a -> result_held b ->
  (eval_response_eqb a b = true <-> same_result a b).
Proof. exact result_decides. Qed.
Print Assumptions C106_result.

Theorem C106_error : forall a b, error_held a -> error_held b ->
  (issuer_error_eqb a b = true <-> same_error a b).
Proof. exact issuer_error_decides. Qed.
Print Assumptions C106_error.

Theorem C106_error_responses :
  (forall a b, on_some held (resp_details a) -> on_some held (resp_details b) ->
     (error_response_eqb token_error_code_eqb a b = true <-> same_error_response a b))
  /\ (forall a b, on_some held (resp_details a) -> on_some held (resp_details b) ->
     (error_response_eqb issuer_error_code_eqb a b = true <-> same_error_response a b)).
Proof.
  exact (conj (error_response_decides _ token_error_code_decides) (error_response_decides _ issuer_error_code_decides)).
Qed.
Print Assumptions C106_error_responses.

(** Types without maps and free-form values: [==] is equality. *)
Theorem C106_plain :
  (forall a b, token_request_eqb a b = true <-> a = b)
  /\ (forall a b, token_success_eqb a b = true <-> a = b)
  /\ (forall a b, token_options_eqb a b = true <-> a = b)
  /\ (forall a b, eval_options_eqb a b = true <-> a = b)
  /\ (forall a b, c_nonce_eqb a b = true <-> a = b)
  /\ (forall a b, pop_eqb a b = true <-> a = b)
  /\ (forall a b, additional_header_eqb a b = true <-> a = b)
  /\ (forall a b, grants_eqb a b = true <-> a = b)
  /\ (forall a b, token_error_eqb a b = true <-> a = b)
  /\ (forall a b, jwt_error_eqb a b = true <-> a = b).
Proof.
  exact (conj token_request_decides (conj token_success_decides (conj token_options_decides (conj eval_options_decides
    (conj c_nonce_decides (conj pop_decides (conj additional_header_decides (conj grants_decides
    (conj token_error_decides jwt_error_decides))))))))).
Qed.
Print Assumptions C106_plain.

(** Return objects, for any types with such an [==]. *)
Theorem C106_return_object : forall T E W (t : T -> T -> bool) (e : E -> E -> bool) (w : W -> W -> bool)
    (RT : T -> T -> Prop) (RE : E -> E -> Prop) (RW : W -> W -> Prop) (PT : T -> Prop) (PE : E -> Prop) (PW : W -> Prop),
  (forall a b, PT a -> PT b -> (t a b = true <-> RT a b)) -> (forall a b, PE a -> PE b -> (e a b = true <-> RE a b)) ->
  (forall a b, PW a -> PW b -> (w a b = true <-> RW a b)) -> forall a b : return_object T E W,
  on_some PT (ro_info a) -> on_some PT (ro_info b) -> on_some PE (ro_error a) -> on_some PE (ro_error b) ->
  on_some (Forall PW) (ro_warnings a) -> on_some (Forall PW) (ro_warnings b) ->
  (return_object_eqb t e w a b = true
   <-> opt_rel RT (ro_info a) (ro_info b) /\ opt_rel RE (ro_error a) (ro_error b)
       /\ opt_rel (Forall2 RW) (ro_warnings a) (ro_warnings b)).
Proof. exact (fun T E W t e w RT RE RW PT PE PW => return_decides t e w RT RE RW PT PE PW). Qed.
Print Assumptions C106_return_object.

(** Types that can be hashed: equal values feed a hasher the same bytes, so they
    are the same key of a map. *)
Theorem C106_equal_values_hash_equally :
  (forall a b, subject_display_eqb a b = true -> hash_subject_display a = hash_subject_display b)
  /\ (forall a b, c_nonce_eqb a b = true -> hash_c_nonce a = hash_c_nonce b)
  /\ (forall t a b, c_nonce_options_eqb a b = true -> hash_c_nonce_options t a = hash_c_nonce_options t b)
  /\ (forall t a b, eval_options_eqb a b = true -> hash_eval_options t a = hash_eval_options t b).
Proof. exact hash_equal. Qed.
Print Assumptions C106_equal_values_hash_equally.

(** Different values feed it different bytes; [t] is what chrono feeds for a time. *)
Theorem C106_hashed_bytes_determine_value :
  (forall a b, subject_display_ok a -> subject_display_ok b ->
     (hash_subject_display a = hash_subject_display b <-> subject_display_eqb a b = true))
  /\ (forall a b, c_nonce_ok a -> c_nonce_ok b -> (hash_c_nonce a = hash_c_nonce b <-> c_nonce_eqb a b = true))
  /\ (forall t,
        (forall x y, in_instant_range x = true -> in_instant_range y = true -> List.length (t x) = List.length (t y)) ->
        (forall x y, in_instant_range x = true -> in_instant_range y = true -> t x = t y -> x = y) ->
        (forall a b, c_nonce_options_ok a -> c_nonce_options_ok b ->
           (hash_c_nonce_options t a = hash_c_nonce_options t b <-> c_nonce_options_eqb a b = true))
        /\ (forall a b, eval_options_ok a -> eval_options_ok b ->
           (hash_eval_options t a = hash_eval_options t b <-> eval_options_eqb a b = true))).
Proof. exact hash_iff. Qed.
Print Assumptions C106_hashed_bytes_determine_value.

Example C106_hashed :
  hash_c_nonce {| cn_c_nonce := lit "n"; cn_expires_in := Some 258 |}
  = map chr [110; 255; 1; 0; 0; 0; 0; 0; 0; 0; 2; 1; 0; 0].
Proof. reflexivity. Qed.
(** The premises on [t] are met: e.g. ten bytes of the number of nanoseconds. *)
Example C106_hash_case : exists t : instant -> str,
  (forall x y, in_instant_range x = true -> in_instant_range y = true -> List.length (t x) = List.length (t y))
  /\ (forall x y, in_instant_range x = true -> in_instant_range y = true -> t x = t y -> x = y).
Proof. exact instants_as_bytes. Qed.

(** [==] is reflexive, symmetric and transitive. *)
Theorem C106_equivalence_credential :
  (forall a, cfp_with held a -> cfp_eqb a a = true)
  /\ (forall a b, cfp_with held a -> cfp_with held b -> cfp_eqb a b = cfp_eqb b a)
  /\ (forall a b c, cfp_with held a -> cfp_with held b -> cfp_with held c ->
        cfp_eqb a b = true -> cfp_eqb b c = true -> cfp_eqb a c = true).
Proof. exact (eqb_equivalence _ _ _ cfp_decides credential_equivalence). Qed.
Print Assumptions C106_equivalence_credential.

Theorem C106_equivalence_offer :
  (forall a, offer_with held a -> offer_eqb a a = true)
  /\ (forall a b, offer_with held a -> offer_with held b -> offer_eqb a b = offer_eqb b a)
  /\ (forall a b c, offer_with held a -> offer_with held b -> offer_with held c ->
        offer_eqb a b = true -> offer_eqb b c = true -> offer_eqb a c = true).
Proof. exact (eqb_equivalence _ _ _ offer_decides offer_equivalence). Qed.
Print Assumptions C106_equivalence_offer.

Theorem C106_equivalence_response :
  (forall a, credential_success_with held a -> credential_success_eqb a a = true)
  /\ (forall a b, credential_success_with held a -> credential_success_with held b ->
        credential_success_eqb a b = credential_success_eqb b a)
  /\ (forall a b c, credential_success_with held a -> credential_success_with held b -> credential_success_with held c ->
        credential_success_eqb a b = true -> credential_success_eqb b c = true -> credential_success_eqb a c = true).
Proof. exact (eqb_equivalence _ _ _ response_decides response_equivalence). Qed.
Print Assumptions C106_equivalence_response.

(** Whatever was read from a document can be compared. *)
Theorem C106_read :
  (forall s x, cfp_from_json s = Some x -> cfp_with held x)
  /\ (forall s x, offer_from_json s = Some x -> offer_with held x)
  /\ (forall s x, credential_success_from_json s = Some x -> credential_success_with held x).
Proof. exact (conj credential_read_held (conj offer_read_held response_read_held)). Qed.
Print Assumptions C106_read.

(** Values that compare equal are written as documents that are read to values that
    compare equal. *)
Theorem C106_credential_documents : forall x y, cfp_with (value_any 124) x -> cfp_with (value_any 124) y ->
  cfp_eqb x y = true ->
  exists x' y', cfp_from_json (cfp_to_json x) = Some x' /\ cfp_from_json (cfp_to_json y) = Some y'
    /\ cfp_eqb x' y' = true.
Proof. exact credential_survives. Qed.
Print Assumptions C106_credential_documents.

Theorem C106_offer_documents : forall x y, offer_with (value_any 122) x -> offer_with (value_any 122) y ->
  offer_eqb x y = true ->
  exists x' y', offer_from_json (offer_to_json x) = Some x' /\ offer_from_json (offer_to_json y) = Some y'
    /\ offer_eqb x' y' = true.
Proof. exact offer_survives. Qed.
Print Assumptions C106_offer_documents.

Theorem C106_response_documents : forall x y,
  credential_success_with (value_any 122) x -> credential_success_with (value_any 122) y ->
  credential_success_eqb x y = true ->
  exists x' y', credential_success_from_json (credential_success_to_json x) = Some x'
    /\ credential_success_from_json (credential_success_to_json y) = Some y' /\ credential_success_eqb x' y' = true.
Proof. exact response_survives. Qed.
Print Assumptions C106_response_documents.

(** Offers that compare equal are worth the same. *)
Theorem C106_token_evaluation : forall r o o' options, offer_eqb o o' = true ->
  evaluate_access_token_request r (Some o) options = evaluate_access_token_request r (Some o') options.
Proof. exact equal_offers_token. Qed.
Print Assumptions C106_token_evaluation.

Theorem C106_credential_evaluation : forall d now m r o o' asm doc options, offer_eqb o o' = true ->
  evaluate_credential_request d now m r (Some o) asm doc options
  = evaluate_credential_request d now m r (Some o') asm doc options.
Proof. exact equal_offers_credential. Qed.
Print Assumptions C106_credential_evaluation.

(** * Examples *)
Definition eq_credential (flip : bool) (zero : string) : cfp :=
  let a := (lit "a", JArr [JFloat (lit zero); JInt 0]) in
  let b := (lit "b", JObj [(lit "x", JNull)]) in
  LdpVc [LDString (lit "https://c"); LDMap (if flip then [b; a] else [a; b])] [lit "T"] None None.
Definition eq_offer (flip : bool) (zero : string) : credential_offer :=
  {| co_credential_issuer := lit "https://i"; co_credentials := [CredentialId (lit "d"); Credential (eq_credential flip zero)];
     co_grants := {| og_auth := None; og_pre := Some {| pf_code := lit "c"; pf_user_pin_required := Some true |} |} |}.

Lemma eq_plus : f64_text (lit "0.0").
Proof. apply becomes_f64 with (lit "0.0"). apply becomes_computed; vm_compute; reflexivity. Qed.
Lemma eq_minus : f64_text (lit "-0.0").
Proof. apply becomes_f64 with (lit "-0.0"). apply becomes_computed; vm_compute; reflexivity. Qed.
Lemma eq_held flip zero : f64_text (lit zero) -> cfp_with (value_any 2) (eq_credential flip zero).
Proof.
  intros Z. split; [constructor; [apply rust_string_ascii; reflexivity|constructor; [|constructor]]|].
  - assert (value_any 2 (JArr [JFloat (lit zero); JInt 0])) as A.
    { split; [|split; [|vm_compute; repeat constructor]]; constructor; intros x [<-|[<-|[]]]; constructor;
        first [exact Z|split; [discriminate|reflexivity]]. }
    assert (value_any 2 (JObj [(lit "x", JNull)])) as B.
    { split; [|split; [|vm_compute; repeat constructor]]; constructor.
      - intros k v [[= <- <-]|[]]. apply rust_string_ascii. reflexivity.
      - intros k v [[= <- <-]|[]]. constructor.
      - repeat constructor.
      - intros k v [[= <- <-]|[]]. constructor. }
    split.
    + destruct flip; repeat constructor; intros H; repeat destruct H as [H|H]; try discriminate H; destruct H.
    + intros k v I. destruct flip; destruct I as [[= <- <-]|[[= <- <-]|[]]]; (split; [apply rust_string_ascii; reflexivity|assumption]).
  - split; [repeat constructor; apply rust_string_ascii; reflexivity|split; discriminate].
Qed.

(** Maps in another order and zeros of another sign compare equal, although they are
    written differently; an integer and an [f64], and lists in another order, do not. *)
Example C106_case :
  cfp_with (value_any 2) (eq_credential false "0.0") /\ cfp_with (value_any 2) (eq_credential true "-0.0")
  /\ cfp_eqb (eq_credential false "0.0") (eq_credential true "-0.0") = true
  /\ cfp_to_json (eq_credential false "0.0")
     = lit "{""format"":""ldp_vc"",""@context"":[""https://c"",{""a"":[0.0,0],""b"":{""x"":null}}],""types"":[""T""]}"
  /\ cfp_to_json (eq_credential true "-0.0")
     = lit "{""format"":""ldp_vc"",""@context"":[""https://c"",{""b"":{""x"":null},""a"":[-0.0,0]}],""types"":[""T""]}".
Proof.
  split; [exact (eq_held _ _ eq_plus)|]. split; [exact (eq_held _ _ eq_minus)|]. vm_compute. repeat split; reflexivity.
Qed.
Example C106_case_different :
  json_eqb (JInt 0) (JFloat (lit "0.0")) = false
  /\ json_eqb (JArr [JNull; JInt 1]) (JArr [JInt 1; JNull]) = false
  /\ cfp_eqb (JwtVcJson [lit "T"] None None) (JwtVcJson [lit "T"] (Some []) None) = false
  /\ offer_eqb (eq_offer false "0.0") (eq_offer true "0.5") = false.
Proof. vm_compute. repeat split; reflexivity. Qed.
Example C106_offer_case : offer_with (value_any 2) (eq_offer true "-0.0")
  /\ offer_eqb (eq_offer false "0.0") (eq_offer true "-0.0") = true.
Proof.
  split; [|vm_compute; reflexivity]. split; [apply rust_string_ascii; reflexivity|]. split.
  - constructor; [apply rust_string_ascii; reflexivity|]. constructor; [exact (eq_held _ _ eq_minus)|constructor].
  - split; [discriminate|]. intros p [= <-]. apply rust_string_ascii. reflexivity.
Qed.
Example C106_error_case :
  error_held (IInvalidRequestedCredential (eq_credential true "-0.0") [])
  /\ issuer_error_eqb (IInvalidRequestedCredential (eq_credential true "-0.0") []) (IInvalidRequestedCredential (eq_credential false "0.0") []) = true
  /\ issuer_error_eqb ICredentialOfferMustBeSupplied INoProofInCredentialRequest = false.
Proof.
  split; [|vm_compute; split; reflexivity]. intros c l [= <- <-]. split; [|constructor].
  exact (cfp_impl _ held _ (held_any 2) (eq_held _ _ eq_minus)).
Qed.
