(** Documents that are stored or exchanged: issuer metadata, credential and token
    requests, options, parsed proofs. Theorems only; proofs are in
    Proofs/DocumentFacts.v, vocabulary in SpecDocuments.v. *)
From Verif Require Import Model.Prelude Model.Json Model.Types Model.Deps Model.Jwt Model.AccessToken
  Model.CredentialIssuer Model.Wire Model.SerdeOptions
  Spec SpecToken SpecJwt SpecDocuments SpecJson SpecWire
  Proofs.StrFacts Proofs.Utf8Facts Proofs.JsonFacts Proofs.ReaderFacts Proofs.GrammarFacts Proofs.SpellingFacts Proofs.JwtFacts Proofs.DocumentFacts
  Proofs.OkTac Examples Properties.Offers Properties.Jwt Properties.Evaluation.

(** Members of a concrete object. *)
Ltac member := vm_compute; intuition congruence.

(** * C69: false for metadata without additional fields *)
Definition C69_claim : Prop :=
  forall n m, metadata_ok n m -> (n <= 122)%nat -> metadata_from_json (metadata_to_json m) = Some m.

(** What is read back: an absent map becomes an empty one. *)
Theorem C69_metadata_read_back : forall n m,
  metadata_ok n m -> (n <= 122)%nat ->
  (forall a k, im_additional_fields m = Some a -> In k (map fst a) -> ~ names_metadata k) ->
  metadata_from_json (metadata_to_json m)
  = Some (with_additional m match im_additional_fields m with Some a => a | None => [] end).
Proof. exact metadata_json_rt. Qed.
Print Assumptions C69_metadata_read_back.

(** An additional field named like a field of the metadata makes the text unreadable. *)
Theorem C69_name_clash_unreadable : forall n m a k,
  metadata_ok n m -> (n <= 122)%nat -> im_additional_fields m = Some a -> In k (map fst a) -> names_metadata k ->
  metadata_from_json (metadata_to_json m) = None.
Proof. exact metadata_collision. Qed.
Print Assumptions C69_name_clash_unreadable.

(** Reading keeps every member it does not know. *)
Theorem C69_unknown_members_kept : forall s m md,
  json_text s (JObj m) -> metadata_from_json s = Some md ->
  exists a, im_additional_fields md = Some a /\ additional_of m a.
Proof. by_reader metadata_additional. Qed.
Print Assumptions C69_unknown_members_kept.

Definition do_supported (methods : option (list str)) : credential_supported :=
  {| sup_format := ex_license; sup_id := Some (lit "license"); sup_binding_methods := methods;
     sup_suites := None;
     sup_display := Some [{| dp_name := lit "License"; dp_locale := Some (lit "en"); dp_logo := None;
                             dp_description := None; dp_background_color := None; dp_text_color := None |}] |}.
Definition do_metadata (a : option (hmap json)) : issuer_metadata :=
  {| im_credential_issuer := lit "https://issuer.example"; im_authorization_server := None;
     im_credential_endpoint := lit "https://issuer.example/credential";
     im_batch_credential_endpoint := None;
     im_credentials_supported := [do_supported (Some [lit "did"])];
     im_additional_fields := a |}.
Example C69_plain : metadata_ok 0 (do_metadata None).
Proof. ok. Qed.
Example C69_extra : metadata_ok 2 (do_metadata (Some [(lit "display", JArr [JObj [(lit "name", JStr (lit "x"))]])])).
Proof. ok. Qed.
Example C69_clash : metadata_ok 0 (do_metadata (Some [(lit "credential_issuer", JNull)]))
  /\ names_metadata (lit "credential_issuer").
Proof. split; [ok|]. exists "credential_issuer"%string. split; [now left|reflexivity]. Qed.

Theorem C69_metadata_round_trip_refuted : ~ C69_claim.
Proof.
  intros H. specialize (H _ _ C69_plain ltac:(apply Nat.le_0_l)).
  rewrite (C69_metadata_read_back _ _ C69_plain ltac:(apply Nat.le_0_l)) in H; [discriminate H|intros a k E; discriminate E].
Qed.
Print Assumptions C69_metadata_round_trip_refuted.

(** * C70: the member name of the specification is not the one that is read *)
Definition C70_claim : Prop :=
  forall s m md l i e c,
  json_text s (JObj m) -> only_member m "credentials_supported" (JArr l) -> metadata_from_json s = Some md ->
  nth_error l i = Some (JObj e) -> nth_error (im_credentials_supported md) i = Some c ->
  optional_member e "cryptographic_binding_methods_supported" methods_value (sup_binding_methods c).

Theorem C70_misspelt_member_read : forall s m md l i e c,
  json_text s (JObj m) -> only_member m "credentials_supported" (JArr l) -> metadata_from_json s = Some md ->
  nth_error l i = Some (JObj e) -> nth_error (im_credentials_supported md) i = Some c ->
  optional_member e "cryptographic_binding_mehtods_supported" methods_value (sup_binding_methods c).
Proof. by_reader binding_methods_read. Qed.
Print Assumptions C70_misspelt_member_read.

(** The member of the specification is never written. *)
Theorem C70_misspelt_member_written : forall n md,
  metadata_ok n md -> (n <= 122)%nat ->
  exists m l, json_text (metadata_to_json md) (JObj m) /\ In (lit "credentials_supported", JArr l) m
  /\ Forall2 (fun e c => exists em, e = JObj em
        /\ no_member em "cryptographic_binding_methods_supported"
        /\ only_member em "cryptographic_binding_mehtods_supported"
             match sup_binding_methods c with None => JNull | Some l => JArr (map JStr l) end)
       l (im_credentials_supported md).
Proof. by_reader binding_methods_written. Qed.
Print Assumptions C70_misspelt_member_written.

(** Metadata as the specification has it. *)
Definition do_spec_entry : list (str * json) :=
  [(lit "format", JStr (lit "jwt_vc_json")); (lit "types", JArr [JStr (lit "T")]);
   (lit "cryptographic_binding_methods_supported", JArr [JStr (lit "did")])].
Definition do_spec_members : list (str * json) :=
  [(lit "credential_issuer", JStr (lit "https://i.example"));
   (lit "credential_endpoint", JStr (lit "https://i.example/c"));
   (lit "credentials_supported", JArr [JObj do_spec_entry])].
Definition do_spec_metadata : issuer_metadata :=
  {| im_credential_issuer := lit "https://i.example"; im_authorization_server := None;
     im_credential_endpoint := lit "https://i.example/c"; im_batch_credential_endpoint := None;
     im_credentials_supported :=
       [{| sup_format := JwtVcJson [lit "T"] None None; sup_id := None; sup_binding_methods := None;
           sup_suites := None; sup_display := None |}];
     im_additional_fields := Some [] |}.
Example C70_case : json_text (print (JObj do_spec_members)) (JObj do_spec_members)
  /\ only_member do_spec_members "credentials_supported" (JArr [JObj do_spec_entry])
  /\ metadata_from_json (print (JObj do_spec_members)) = Some do_spec_metadata.
Proof. split; [apply parse_json_iff; vm_compute; reflexivity|]. split; [member|vm_compute; reflexivity]. Qed.

Theorem C70_binding_methods_read_refuted : ~ C70_claim.
Proof.
  intros H. destruct C70_case as (H1 & H2 & H3).
  specialize (H _ _ _ _ 0%nat do_spec_entry _ H1 H2 H3 eq_refl eq_refl).
  destruct H as [H|H].
  - apply H. vm_compute. tauto.
  - apply get_unique_only in H. vm_compute in H. discriminate H.
Qed.
Print Assumptions C70_binding_methods_read_refuted.

(** * C71 *)
Theorem C71_request_round_trip : forall n r,
  request_ok n r -> (n <= 124)%nat -> credential_request_from_json (credential_request_to_json r) = Some r.
Proof. exact request_json_rt. Qed.
Print Assumptions C71_request_round_trip.

Theorem C71_proof_read : forall s m r,
  json_text s (JObj m) -> credential_request_from_json s = Some r ->
  optional_member m "proof" proof_value (cr_proof r).
Proof. by_reader request_proof_read. Qed.
Print Assumptions C71_proof_read.

(** A proof without a type is treated like one of type [jwt]. *)
Theorem C71_default_type : forall d s m pm r,
  upper_case_facts d -> json_text s (JObj m) -> only_member m "proof" (JObj pm) ->
  no_member pm "proof_type" -> credential_request_from_json s = Some r ->
  exists jwt, only_member pm "jwt" (JStr jwt)
  /\ let r' := {| cr_format := cr_format r;
                  cr_proof := Some {| rp_proof_type := lit "jwt"; rp_jwt := jwt |} |} in
     pre_evaluate_credential_request d r = pre_evaluate_credential_request d r'
     /\ forall now ct n, create_credential_success_response d now r ct n
                         = create_credential_success_response d now r' ct n.
Proof. by_reader default_type_valid. Qed.
Print Assumptions C71_default_type.

Example C71_case : request_ok 0 {| cr_format := ex_license; cr_proof := Some {| rp_proof_type := lit "jwt"; rp_jwt := lit "a.b.c" |} |}.
Proof. ok. Qed.
Definition do_request : list (str * json) :=
  [(lit "format", JStr (lit "jwt_vc_json")); (lit "types", JArr [JStr (lit "T")]);
   (lit "proof", JObj [(lit "jwt", JStr (lit "a.b"))])].
Example C71_default : json_text (print (JObj do_request)) (JObj do_request)
  /\ only_member do_request "proof" (JObj [(lit "jwt", JStr (lit "a.b"))])
  /\ credential_request_from_json (print (JObj do_request))
     = Some {| cr_format := JwtVcJson [lit "T"] None None;
               cr_proof := Some {| rp_proof_type := lit "JWT"; rp_jwt := lit "a.b" |} |}.
Proof. split; [apply parse_json_iff; vm_compute; reflexivity|]. split; [member|vm_compute; reflexivity]. Qed.

(** * C72: a PIN is a JSON number, not text as in the specification *)
Definition C72_claim : Prop :=
  forall s m inner code pin,
  json_text s (JObj m) -> only_member m "grant_type" (JObj inner) ->
  only_member inner "grant_type" (JStr (lit "urn:ietf:params:oauth:grant-type:pre-authorized_code")) ->
  only_member inner "pre_authorized_code" (JStr code) ->
  only_member inner "user_pin" (JStr pin) -> digits pin -> (List.length pin <= 8)%nat ->
  token_request_from_json s
  = Some {| tr_grant_type := GPreAuthorized code (Some (digits_value 0 pin)) |}.

Theorem C72_token_request_read_iff : forall s m inner r,
  json_text s (JObj m) -> only_member m "grant_type" (JObj inner) ->
  (token_request_from_json s = Some r <-> grant_of inner (tr_grant_type r)).
Proof. by_reader token_request_read. Qed.
Print Assumptions C72_token_request_read_iff.

Theorem C72_text_pin_rejected : forall s m inner pin,
  json_text s (JObj m) -> only_member m "grant_type" (JObj inner) ->
  only_member inner "grant_type" (JStr (lit "urn:ietf:params:oauth:grant-type:pre-authorized_code")) ->
  only_member inner "user_pin" (JStr pin) -> token_request_from_json s = None.
Proof. by_reader text_pin_rejected. Qed.
Print Assumptions C72_text_pin_rejected.

(** The member name of the specification is not read either. *)
Theorem C72_specified_code_name_rejected : forall s m inner code,
  json_text s (JObj m) -> only_member m "grant_type" (JObj inner) ->
  only_member inner "grant_type" (JStr (lit "urn:ietf:params:oauth:grant-type:pre-authorized_code")) ->
  only_member inner "pre-authorized_code" (JStr code) -> no_member inner "pre_authorized_code" ->
  token_request_from_json s = None.
Proof. by_reader spec_code_rejected. Qed.
Print Assumptions C72_specified_code_name_rejected.

Definition do_grant (pin : json) : list (str * json) :=
  [(lit "grant_type", JStr (lit "urn:ietf:params:oauth:grant-type:pre-authorized_code"));
   (lit "pre_authorized_code", JStr (lit "c")); (lit "user_pin", pin)].
Definition do_token_request (pin : json) : list (str * json) := [(lit "grant_type", JObj (do_grant pin))].
Example C72_case : forall pin, pin = JInt 493536 \/ pin = JStr (lit "493536") ->
  json_text (print (JObj (do_token_request pin))) (JObj (do_token_request pin))
  /\ only_member (do_token_request pin) "grant_type" (JObj (do_grant pin))
  /\ only_member (do_grant pin) "grant_type" (JStr (lit "urn:ietf:params:oauth:grant-type:pre-authorized_code"))
  /\ only_member (do_grant pin) "pre_authorized_code" (JStr (lit "c"))
  /\ only_member (do_grant pin) "user_pin" pin.
Proof.
  intros pin [-> | ->]; (split; [apply parse_json_iff; vm_compute; reflexivity|]; repeat split; try reflexivity; vm_compute; tauto).
Qed.
Example C72_number : grant_of (do_grant (JInt 493536)) (GPreAuthorized (lit "c") (Some 493536)).
Proof.
  destruct (C72_case (JInt 493536) (or_introl eq_refl)) as (_ & _ & H1 & H2 & H3).
  constructor; [exact H1|exact H2|]. exists (JInt 493536). split; [exact H3|]. split; reflexivity.
Qed.

Theorem C72_text_pin_read_refuted : ~ C72_claim.
Proof.
  intros H. destruct (C72_case (JStr (lit "493536")) (or_intror eq_refl)) as (H1 & H2 & H3 & H4 & H5).
  specialize (H _ _ _ _ _ H1 H2 H3 H4 H5).
  rewrite (C72_text_pin_rejected _ _ _ _ H1 H2 H3 H5) in H.
  assert (digits (lit "493536")) as D.
  { split; [discriminate|]. repeat constructor; vm_compute; discriminate. }
  specialize (H D). assert (6 <= 8)%nat as L by repeat constructor. specialize (H L). discriminate H.
Qed.
Print Assumptions C72_text_pin_read_refuted.

(** * C73 *)
Theorem C73_token_options : forall o,
  token_options_ok o -> token_options_from_json (token_options_to_json o) = Some o.
Proof. exact token_options_json_rt. Qed.
Print Assumptions C73_token_options.

Theorem C73_c_nonce : forall n, c_nonce_ok n -> c_nonce_from_json (c_nonce_to_json n) = Some n.
Proof. exact c_nonce_json_rt. Qed.
Print Assumptions C73_c_nonce.

Theorem C73_evaluation_options : forall d o,
  dt_round_trips d -> eval_options_ok o -> eval_options_from_json d (eval_options_to_json d o) = Some o.
Proof. exact eval_options_json_rt. Qed.
Print Assumptions C73_evaluation_options.

Theorem C73_parsed_proof : forall d j,
  dt_round_trips d -> proof_jwt_ok j -> proof_jwt_from_json d (proof_jwt_to_json d j) = Some j.
Proof. exact proof_jwt_json_rt. Qed.
Print Assumptions C73_parsed_proof.

Example C73_cases :
  token_options_ok {| to_expected_user_pin := Some 493536 |}
  /\ c_nonce_ok {| cn_c_nonce := lit "n"; cn_expires_in := Some 300 |}
  /\ eval_options_ok {| eo_c_nonce := Some {| cno_expires_in := 300; cno_expected := lit "n"; cno_created_at := 0%Z |};
                        eo_client_id := Some (lit "client") |}
  /\ proof_jwt_ok ex_jwt.
Proof.
  split; [ok|]. split; [ok|]. split; [|split; [|split; [|split]]].
  - split; cbn [eo_c_nonce eo_client_id]; intros a E; injection E as <-; [|ok].
    split; [reflexivity|]. split; [cbn [cno_expected]; ok|reflexivity].
  - apply ex_jwt_ok.
  - apply ex_jwt_ok.
  - apply ex_jwt_ok.
  - intros a E. injection E as <-. ok.
Qed.

(** * C74 *)
(** The generic reader accepts the texts of the RFC 8259 grammar, at most 127
    levels deep, and gives the document they spell. *)
Theorem C74_json_reader_iff : forall s j, parse_json s = Some j <-> json_text s j.
Proof. exact parse_json_iff. Qed.
Print Assumptions C74_json_reader_iff.

Theorem C74_json_unambiguous : forall s j j', json_text s j -> json_text s j' -> j = j'.
Proof. exact unambiguous. Qed.
Print Assumptions C74_json_unambiguous.

Theorem C74_spelling_irrelevant : forall d s s' j, json_text s j -> json_text s' j ->
  header_from_json s = header_from_json s'
  /\ claims_from_json d s = claims_from_json d s'
  /\ token_request_from_json s = token_request_from_json s'
  /\ token_success_from_json s = token_success_from_json s'
  /\ offer_from_json s = offer_from_json s'
  /\ cfp_from_json s = cfp_from_json s'
  /\ credential_success_from_json s = credential_success_from_json s'
  /\ credential_request_from_json s = credential_request_from_json s'
  /\ metadata_from_json s = metadata_from_json s'
  /\ token_options_from_json s = token_options_from_json s'
  /\ c_nonce_from_json s = c_nonce_from_json s'
  /\ eval_options_from_json d s = eval_options_from_json d s'
  /\ proof_jwt_from_json d s = proof_jwt_from_json d s'.
Proof. exact spelling. Qed.
Print Assumptions C74_spelling_irrelevant.

(** Nothing but JSON is accepted; the types without flattened fields do not look
    into the values of members they do not know. *)
Local Open Scope string_scope.
Local Open Scope list_scope.
Theorem C74_only_json_accepted : forall d s,
  (forall x, header_from_json s = Some x -> exists j, json_text s j)
  /\ (forall x, cfp_from_json s = Some x -> exists j, json_text s j)
  /\ (forall x, credential_request_from_json s = Some x -> exists j, shaped_text request_layout s j)
  /\ (forall x, metadata_from_json s = Some x -> exists j, shaped_text metadata_layout s j)
  /\ (forall x, claims_from_json d s = Some x ->
        exists j, struct_text (map lit ["iss"; "aud"; "sub"; "iat"; "nonce"; "nbf"; "exp"]) s j)
  /\ (forall x, token_request_from_json s = Some x -> exists j, struct_text (map lit ["grant_type"]) s j)
  /\ (forall x, token_success_from_json s = Some x ->
        exists j, struct_text (map lit ["access_token"; "token_type"; "expires_in"; "scope"; "c_nonce";
                                       "c_nonce_expires_in"; "authorization_pending"; "interval"]) s j)
  /\ (forall x, offer_from_json s = Some x -> exists j, shaped_text offer_layout s j)
  /\ (forall x, credential_success_from_json s = Some x ->
        exists j, struct_text (map lit ["format"; "credential"; "acceptance_token"; "c_nonce";
                                       "c_nonce_expires_in"]) s j)
  /\ (forall x, token_options_from_json s = Some x -> exists j, struct_text (map lit ["expected_user_pin"]) s j)
  /\ (forall x, c_nonce_from_json s = Some x ->
        exists j, struct_text (map lit ["c_nonce"; "c_nonce_expires_in"]) s j)
  /\ (forall x, eval_options_from_json d s = Some x -> exists j, shaped_text eval_options_layout s j)
  /\ (forall x, proof_jwt_from_json d s = Some x -> exists j, shaped_text proof_jwt_layout s j).
Proof. exact only_json. Qed.
Print Assumptions C74_only_json_accepted.

(** The same document with escapes and white space, and without. *)
Definition do_text1 : str := lit "{""c_nonce"":""n/1"",""c_nonce_expires_in"":300}".
Definition do_text2 : str := lit " { ""c\u005Fnonce"" : ""n\/1"" , ""c_nonce_expires_in"":300 } ".
Example C74_case : exists j, json_text do_text1 j /\ json_text do_text2 j.
Proof.
  exists (JObj [(lit "c_nonce", JStr (lit "n/1")); (lit "c_nonce_expires_in", JInt 300)]).
  split; apply parse_json_iff; vm_compute; reflexivity.
Qed.
Example C74_accepted : c_nonce_from_json do_text2
  = Some {| cn_c_nonce := lit "n/1"; cn_expires_in := Some 300 |}.
Proof. vm_compute. reflexivity. Qed.

(** * C75 *)
Theorem C75_unknown_members_ignored : forall d s s' m m', json_text s (JObj m) -> json_text s' (JObj m') ->
  (same_members ["iss"; "aud"; "sub"; "iat"; "nonce"; "nbf"; "exp"] m m' ->
     claims_from_json d s = claims_from_json d s')
  /\ (same_members ["grant_type"] m m' -> token_request_from_json s = token_request_from_json s')
  /\ (same_members ["access_token"; "token_type"; "expires_in"; "scope"; "c_nonce"; "c_nonce_expires_in";
                    "authorization_pending"; "interval"] m m' ->
     token_success_from_json s = token_success_from_json s')
  /\ (same_members ["credential_issuer"; "credentials"; "grants"] m m' ->
     offer_from_json s = offer_from_json s')
  /\ (same_members ["format"; "credential"; "acceptance_token"; "c_nonce"; "c_nonce_expires_in"] m m' ->
     credential_success_from_json s = credential_success_from_json s')
  /\ (same_members ["expected_user_pin"] m m' -> token_options_from_json s = token_options_from_json s')
  /\ (same_members ["c_nonce"; "c_nonce_expires_in"] m m' -> c_nonce_from_json s = c_nonce_from_json s')
  /\ (same_members ["c_nonce"; "client_id"] m m' -> eval_options_from_json d s = eval_options_from_json d s')
  /\ (same_members ["header"; "body"; "signature"] m m' -> proof_jwt_from_json d s = proof_jwt_from_json d s')
  /\ (same_members ["format"; "types"; "credentialSubject"; "order"; "@context"; "doctype"; "claims"] m m' ->
     cfp_from_json s = cfp_from_json s')
  /\ (same_members ["proof"; "format"; "types"; "credentialSubject"; "order"; "@context"; "doctype"; "claims"] m m' ->
     credential_request_from_json s = credential_request_from_json s').
Proof. exact unknown_members. Qed.
Print Assumptions C75_unknown_members_ignored.

(** At any depth: two texts are read alike if they agree on the members listed
    for the structs in them, so a grant, a proof, a nonce option or a display entry
    may have members of its own that are ignored. *)
Theorem C75_nested_members_ignored : forall d s s' j j', json_text s j -> json_text s' j' ->
  (alike offer_layout j j' -> offer_from_json s = offer_from_json s')
  /\ (alike request_layout j j' -> credential_request_from_json s = credential_request_from_json s')
  /\ (alike metadata_layout j j' -> metadata_from_json s = metadata_from_json s')
  /\ (alike eval_options_layout j j' -> eval_options_from_json d s = eval_options_from_json d s')
  /\ (alike proof_jwt_layout j j' -> proof_jwt_from_json d s = proof_jwt_from_json d s').
Proof. exact nested_members. Qed.
Print Assumptions C75_nested_members_ignored.

(** Ignored members may hold what no JSON value holds: a lone surrogate escape,
    here in a grant and in the flow inside it. *)
Definition do_grant_text : str := lit "{""credential_issuer"":""i"",""credentials"":[],""grants"":{""x"":""\uD800"",""authorization_code"":{""y"":""\uDFFF"",""issuer_state"":""s""}}}".
Example C75_nested_surrogate : offer_from_json do_grant_text
  = Some {| co_credential_issuer := lit "i"; co_credentials := [];
            co_grants := {| og_auth := Some {| af_issuer_state := Some (lit "s") |}; og_pre := None |} |}.
Proof. vm_compute. reflexivity. Qed.
(** But not in a member that is kept. *)
Example C75_kept_surrogate : metadata_from_json
  (lit "{""credential_issuer"":""i"",""credential_endpoint"":""e"",""credentials_supported"":[],""x"":""\uD800""}") = None.
Proof. vm_compute. reflexivity. Qed.
Example C75_nested_case : exists j j',
  json_text (lit "{""credential_issuer"":""i"",""credentials"":[],""grants"":{""authorization_code"":{""issuer_state"":""s""}}}") j
  /\ json_text (lit "{""grants"":{""x"":1,""authorization_code"":{""issuer_state"":""s"",""y"":2}},""credentials"":[],""credential_issuer"":""i""}") j'
  /\ alike offer_layout j j' /\ j <> j'.
Proof.
  exists (JObj [(lit "credential_issuer", JStr (lit "i")); (lit "credentials", JArr []);
    (lit "grants", JObj [(lit "authorization_code", JObj [(lit "issuer_state", JStr (lit "s"))])])]),
    (JObj [(lit "grants", JObj [(lit "x", JInt 1); (lit "authorization_code", JObj [(lit "issuer_state", JStr (lit "s")); (lit "y", JInt 2)])]);
      (lit "credentials", JArr []); (lit "credential_issuer", JStr (lit "i"))]).
  split; [apply parse_json_iff; vm_compute; reflexivity|]. split; [apply parse_json_iff; vm_compute; reflexivity|].
  split; [|discriminate].
  assert (one : forall k s fs, SpecJson.listed fs k = Some s -> In (k, s) fs).
  { intros k s fs. induction fs as [|[k' s'] fs IH]; cbn [SpecJson.listed]; [discriminate|].
    destruct (list_eq_dec ascii_dec k k') as [->|]; [intros [= ->]; now left|intros H; right; now apply IH]. }
  apply al_struct. intros k s Hk. apply one in Hk. destruct Hk as [[= <- <-]|[[= <- <-]|[[= <- <-]|[]]]].
  - repeat constructor.
  - repeat constructor.
  - constructor; [|constructor]. apply al_struct. intros k s Hk. apply one in Hk.
    destruct Hk as [[= <- <-]|[[= <- <-]|[]]]; [|constructor].
    constructor; [|constructor]. apply al_struct. intros k s Hk. apply one in Hk.
    destruct Hk as [[= <- <-]|[]]. repeat constructor.
Qed.

(** Another order and an unknown member. *)
Example C75_case : exists m m',
  json_text (lit "{""c_nonce"":""n"",""c_nonce_expires_in"":3}") (JObj m)
  /\ json_text (lit "{""c_nonce_expires_in"":3,""x"":[],""c_nonce"":""n""}") (JObj m')
  /\ same_members ["c_nonce"; "c_nonce_expires_in"] m m' /\ m <> m'.
Proof.
  exists [(lit "c_nonce", JStr (lit "n")); (lit "c_nonce_expires_in", JInt 3)],
    [(lit "c_nonce_expires_in", JInt 3); (lit "x", JArr []); (lit "c_nonce", JStr (lit "n"))].
  split; [apply parse_json_iff; vm_compute; reflexivity|]. split; [apply parse_json_iff; vm_compute; reflexivity|].
  split; [|discriminate]. intros k [<-|[<-|[]]]; vm_compute; reflexivity.
Qed.
