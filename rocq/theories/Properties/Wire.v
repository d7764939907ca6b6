(** The form of every document, member by member. Theorems only; proofs are in
    Proofs/WireFacts.v and Proofs/WrittenFacts.v, vocabulary in SpecWire.v. *)
From Verif Require Import Model.Prelude Model.Json Model.Types Model.Deps Model.Wire Model.SerdeOptions
  Spec SpecToken SpecJwt SpecDocuments SpecJson SpecWire
  Proofs.StrFacts Proofs.GrammarFacts Proofs.WireFacts Proofs.WrittenFacts
  Proofs.OkTac Examples Properties.Offers Properties.AccessToken Properties.Documents.

(** * C81: exactly which texts are read, and as what *)
Theorem C81_offer : forall s x, offer_from_json s = Some x <->
  exists v, shaped_text offer_layout s v /\ offer_value Reading v x.
Proof. exact offer_reading. Qed.
Print Assumptions C81_offer.

Theorem C81_token_request : forall s x, token_request_from_json s = Some x <->
  exists v, struct_text [lit "grant_type"] s v /\ token_request_value Reading v x.
Proof. exact token_request_reading. Qed.
Print Assumptions C81_token_request.

Theorem C81_token_response : forall s x, token_success_from_json s = Some x <->
  exists v, struct_text (map lit token_success_names) s v /\ token_success_value Reading v x.
Proof. exact token_success_reading. Qed.
Print Assumptions C81_token_response.

Theorem C81_credential : forall s x, cfp_from_json s = Some x <->
  exists v, json_text s v /\ credential_value Reading Alone v x.
Proof. exact cfp_reading. Qed.
Print Assumptions C81_credential.

Theorem C81_credential_request : forall s x, credential_request_from_json s = Some x <->
  exists v, shaped_text request_layout s v /\ request_value Reading v x.
Proof. exact credential_request_reading. Qed.
Print Assumptions C81_credential_request.

Theorem C81_credential_response : forall s x, credential_success_from_json s = Some x <->
  exists v, struct_text (map lit credential_success_names) s v /\ credential_success_value Reading v x.
Proof. exact credential_success_reading. Qed.
Print Assumptions C81_credential_response.

Theorem C81_metadata : forall s x, metadata_from_json s = Some x <->
  exists v, shaped_text metadata_layout s v /\ metadata_value Reading v x.
Proof. exact metadata_reading. Qed.
Print Assumptions C81_metadata.

Theorem C81_token_options : forall s x, token_options_from_json s = Some x <->
  exists v, struct_text [lit "expected_user_pin"] s v /\ token_options_value Reading v x.
Proof. exact token_options_reading. Qed.
Print Assumptions C81_token_options.

Theorem C81_nonce : forall s x, c_nonce_from_json s = Some x <->
  exists v, struct_text (map lit c_nonce_names) s v /\ c_nonce_value Reading v x.
Proof. exact c_nonce_reading. Qed.
Print Assumptions C81_nonce.

Theorem C81_evaluation_options : forall d s x, eval_options_from_json d s = Some x <->
  exists v, shaped_text eval_options_layout s v /\ eval_options_value Reading d v x.
Proof. exact eval_options_reading. Qed.
Print Assumptions C81_evaluation_options.

Theorem C81_parsed_proof : forall d s x, proof_jwt_from_json d s = Some x <->
  exists v, shaped_text proof_jwt_layout s v /\ proof_jwt_value Reading d v x.
Proof. exact proof_jwt_reading. Qed.
Print Assumptions C81_parsed_proof.

Theorem C81_header : forall s x, header_from_json s = Some x <->
  exists v, json_text s v /\ header_value Reading v x.
Proof. exact header_reading. Qed.
Print Assumptions C81_header.

Theorem C81_claims : forall d s x, claims_from_json d s = Some x <->
  exists v, struct_text (map lit claim_names) s v /\ claims_value Reading d v x.
Proof. exact claims_reading. Qed.
Print Assumptions C81_claims.

(** * C82: what is written *)
Theorem C82_offer : forall n x, offer_ok n x ->
  exists v, rfc8259_text (offer_to_json x) v /\ compact v (offer_to_json x)
    /\ offer_value Writing v x.
Proof. exact offer_written. Qed.
Print Assumptions C82_offer.

Theorem C82_token_request : forall x, token_request_ok x ->
  exists v, json_text (token_request_to_json x) v /\ compact v (token_request_to_json x)
    /\ token_request_value Writing v x.
Proof. exact token_request_written. Qed.
Print Assumptions C82_token_request.

Theorem C82_token_response : forall x, token_success_ok x ->
  exists v, json_text (token_success_to_json x) v /\ compact v (token_success_to_json x)
    /\ token_success_value Writing v x.
Proof. exact token_success_written. Qed.
Print Assumptions C82_token_response.

Theorem C82_credential : forall n x, cfp_ok n x ->
  exists v, rfc8259_text (cfp_to_json x) v /\ compact v (cfp_to_json x)
    /\ credential_value Writing Alone v x.
Proof. exact credential_written_text. Qed.
Print Assumptions C82_credential.

Theorem C82_credential_request : forall n x, request_ok n x ->
  exists v, rfc8259_text (credential_request_to_json x) v /\ compact v (credential_request_to_json x)
    /\ request_value Writing v x.
Proof. exact request_written. Qed.
Print Assumptions C82_credential_request.

Theorem C82_credential_response : forall n x, credential_success_ok n x ->
  exists v, rfc8259_text (credential_success_to_json x) v /\ compact v (credential_success_to_json x)
    /\ credential_success_value Writing v x.
Proof. exact credential_success_written. Qed.
Print Assumptions C82_credential_response.

Theorem C82_metadata : forall n x, metadata_ok n x ->
  (forall a k, im_additional_fields x = Some a -> In k (map fst a) -> ~ names_metadata k) ->
  exists v, rfc8259_text (metadata_to_json x) v /\ compact v (metadata_to_json x)
    /\ metadata_value Writing v x.
Proof. exact metadata_written_text. Qed.
Print Assumptions C82_metadata.

Theorem C82_token_options : forall x, token_options_ok x ->
  exists v, json_text (token_options_to_json x) v /\ compact v (token_options_to_json x)
    /\ token_options_value Writing v x.
Proof. exact token_options_written. Qed.
Print Assumptions C82_token_options.

Theorem C82_nonce : forall x, c_nonce_ok x ->
  exists v, json_text (c_nonce_to_json x) v /\ compact v (c_nonce_to_json x)
    /\ c_nonce_value Writing v x.
Proof. exact c_nonce_written. Qed.
Print Assumptions C82_nonce.

Theorem C82_evaluation_options : forall d x, dt_round_trips d -> eval_options_ok x ->
  exists v, json_text (eval_options_to_json d x) v /\ compact v (eval_options_to_json d x)
    /\ eval_options_value Writing d v x.
Proof. exact eval_options_written. Qed.
Print Assumptions C82_evaluation_options.

Theorem C82_parsed_proof : forall d x, dt_round_trips d -> proof_jwt_ok x ->
  exists v, json_text (proof_jwt_to_json d x) v /\ compact v (proof_jwt_to_json d x)
    /\ proof_jwt_value Writing d v x.
Proof. exact proof_jwt_written. Qed.
Print Assumptions C82_parsed_proof.

Theorem C82_header : forall x, header_ok x ->
  exists v, json_text (header_to_json x) v /\ compact v (header_to_json x)
    /\ header_value Writing v x.
Proof. exact header_written. Qed.
Print Assumptions C82_header.

Theorem C82_claims : forall d x, dt_round_trips d -> body_ok x -> body_instants_ok x ->
  exists v, json_text (claims_to_json d x) v /\ compact v (claims_to_json d x)
    /\ claims_value Writing d v x.
Proof. exact claims_written_text. Qed.
Print Assumptions C82_claims.

(** A concrete offer: an identifier, a linked data credential with a duplicated
    member in its context, one flow as an object and one as an array. *)
Definition wi_offer_text : str := lit "{""credentials"":[""degree"",{""order"":null,""format"":""ldp_vc"",""types"":[""A""],""@context"":[""x"",{""z"":1,""a"":{""q"":1,""b"":2},""z"":3}]}],""credential_issuer"":""i"",""new"":0,""grants"":{""urn:ietf:params:oauth:grant-type:pre-authorized_code"":[""c"",false]}}".
Definition wi_offer : credential_offer :=
  {| co_credential_issuer := lit "i";
     co_credentials :=
       [ CredentialId (lit "degree");
         Credential (LdpVc [LDString (lit "x");
                            LDMap [(lit "z", JInt 3); (lit "a", JObj [(lit "b", JInt 2); (lit "q", JInt 1)])]]
                           [lit "A"] None None) ];
     co_grants := {| og_auth := None;
                     og_pre := Some {| pf_code := lit "c"; pf_user_pin_required := Some false |} |} |}.
Example C81_offer_case : exists v, shaped_text offer_layout wi_offer_text v
  /\ offer_value Reading v wi_offer.
Proof. apply C81_offer. vm_compute. reflexivity. Qed.
Example C81_metadata_case : exists v, shaped_text metadata_layout (metadata_to_json do_spec_metadata) v
  /\ metadata_value Reading v (with_additional do_spec_metadata
       match im_additional_fields do_spec_metadata with Some a => a | None => [] end).
Proof. apply C81_metadata. vm_compute. reflexivity. Qed.
Example C81_request_case : exists v, struct_text [lit "grant_type"] (lit "[{""user_pin"":1,""grant_type"":""urn:ietf:params:oauth:grant-type:pre-authorized_code"",""pre_authorized_code"":""c""}]") v
  /\ token_request_value Reading v {| tr_grant_type := GPreAuthorized (lit "c") (Some 1) |}.
Proof. apply C81_token_request. vm_compute. reflexivity. Qed.
(** The format by its position: inside an offer, but not by itself. *)
Example C81_position_case :
  (exists v, shaped_text offer_layout (lit "{""credential_issuer"":""i"",""credentials"":[{""format"":3,""doctype"":""d""}],""grants"":{}}") v
     /\ offer_value Reading v {| co_credential_issuer := lit "i";
          co_credentials := [Credential (MsoMdoc (lit "d") None None)];
          co_grants := {| og_auth := None; og_pre := None |} |})
  /\ cfp_from_json (lit "{""format"":3,""doctype"":""d""}") = None.
Proof. split; [apply C81_offer|]; vm_compute; reflexivity. Qed.
(** A duplicate, a missing member, a wrong type: not read. *)
Example C81_not_read : c_nonce_from_json (lit "{""c_nonce"":""a"",""c_nonce"":""a""}") = None
  /\ c_nonce_from_json (lit "{""c_nonce_expires_in"":1}") = None
  /\ c_nonce_from_json (lit "{""c_nonce"":""a"",""c_nonce_expires_in"":4294967296}") = None
  /\ c_nonce_from_json (lit "[""a""]") = None.
Proof. repeat split; vm_compute; reflexivity. Qed.

Example C82_offer_case : offer_ok 2 wi_offer.
Proof. ok. Qed.
Example C82_metadata_case : metadata_ok 2 (do_metadata (Some [(lit "display", JArr [JObj [(lit "name", JStr (lit "x"))]])]))
  /\ ~ names_metadata (lit "display").
Proof.
  split; [ok|]. intros (n & Hn & E). cbn [metadata_names In] in Hn.
  repeat destruct Hn as [<-|Hn]; try discriminate E. destruct Hn.
Qed.
