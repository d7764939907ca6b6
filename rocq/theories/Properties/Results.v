(** Results of evaluation as JSON, and what evaluations depend on. Theorems only;
    proofs are in Proofs/ResultFacts.v, vocabulary in SpecResults.v. *)
From Verif Require Import Model.Prelude Model.Json Model.Types Model.Deps Model.AccessToken
  Model.CredentialIssuer Model.Wire
  Spec SpecToken SpecJwt SpecDocuments SpecJson SpecWire SpecResults
  Proofs.GrammarFacts Proofs.ResultFacts Proofs.OkTac Examples Properties.Offers Properties.AccessToken Properties.Evaluation.

(** * C92 *)
Theorem C92_result_document : forall n r, result_ok n r ->
  exists v, rfc8259_text (eval_response_to_json r) v /\ compact v (eval_response_to_json r)
    /\ result_value v r.
Proof. exact result_written. Qed.
Print Assumptions C92_result_document.

Theorem C92_document_determines_result : forall n n' r r', result_ok n r -> result_ok n' r' ->
  eval_response_to_json r = eval_response_to_json r' -> r = r'.
Proof. exact result_injective. Qed.
Print Assumptions C92_document_determines_result.

Theorem C92_pre_evaluation_document : forall did, on_some rust_string did ->
  exists v, json_text (pre_eval_response_to_json did) v /\ compact v (pre_eval_response_to_json did)
    /\ v = JObj (match did with Some s => [(lit "did", JStr s)] | None => [] end).
Proof. exact pre_result_written. Qed.
Print Assumptions C92_pre_evaluation_document.

Definition re_result (k : str) : eval_response :=
  {| er_pop := Some {| pop_algorithm := ES256K; pop_public_key := k;
                       pop_message := lit "a.b"; pop_signature := lit "c" |};
     er_subject_id := Some (lit "did:x:y");
     er_credential := MsoMdoc (lit "mdl") None None |}.
Example C92_case : result_ok 0 (re_result [chr 0; chr 255]).
Proof. ok. Qed.
Example C92_text : eval_response_to_json (re_result [chr 0; chr 255])
  = lit "{""proof_of_possession"":{""algorithm"":""ES256K"",""public_key"":[0,255],""message"":[97,46,98],""signature"":[99]},""subject_id"":""did:x:y"",""credential"":{""format"":""mso_mdoc"",""doctype"":""mdl""}}".
Proof. vm_compute. reflexivity. Qed.

(** * C93 *)
Theorem C93_credential_evaluation_depends : forall d now m m' r r' o o' asm doc options,
  same_issuer m m' -> same_flows o o' -> same_token r r' ->
  same_outcome (cr_format r')
    (evaluate_credential_request d now m r (Some o) asm doc options)
    (evaluate_credential_request d now m' r' (Some o') asm doc options).
Proof. exact evaluation_looks_at. Qed.
Print Assumptions C93_credential_evaluation_depends.

Theorem C93_token_evaluation_depends : forall r o o' options, same_grants o o' ->
  evaluate_access_token_request r (Some o) options = evaluate_access_token_request r (Some o') options.
Proof. exact token_evaluation_looks_at. Qed.
Print Assumptions C93_token_evaluation_depends.

(** Other endpoints, another credential under the same id, an offer of another
    issuer for nothing, with another code, and a request for another credential in
    a proof of another type: accepted all the same. *)
Definition re_metadata : issuer_metadata :=
  {| im_credential_issuer := lit "https://issuer.example"; im_authorization_server := Some (lit "x");
     im_credential_endpoint := lit "y"; im_batch_credential_endpoint := Some (lit "z");
     im_credentials_supported := [ex_supported (Some (lit "Degree")) (MsoMdoc (lit "mdl") None None)];
     im_additional_fields := Some [(lit "a", JNull)] |}.
Definition re_offer : credential_offer :=
  {| co_credential_issuer := lit "https://other.example"; co_credentials := [];
     co_grants := {| og_auth := None; og_pre := Some {| pf_code := lit "other"; pf_user_pin_required := None |} |} |}.
Definition re_request : credential_request :=
  ev_request (JwtVcJson [lit "Unknown"] None None) "saml" (ev_good EdDSA).
Example C93_case : same_issuer ev_metadata re_metadata /\ same_flows ev_offer re_offer
  /\ same_token (ev_request ex_degree "jwt" (ev_good EdDSA)) re_request.
Proof. split; [split; reflexivity|]. split; [split; split; (reflexivity || discriminate)|reflexivity]. Qed.
Example C93_accepted_too : exists resp,
  evaluate_credential_request example_deps ev_now re_metadata re_request (Some re_offer) None (Some ev_document)
    (ev_options None) = Ok resp /\ er_credential resp = JwtVcJson [lit "Unknown"] None None.
Proof.
  destruct C93_case as (Hm & Ho & Hr).
  pose proof (C93_credential_evaluation_depends example_deps ev_now _ _ _ _ _ _ None (Some ev_document)
    (ev_options None) Hm Ho Hr) as H.
  pose proof (ev_accepted EdDSA ex_degree "jwt") as A. unfold ev_evaluate in A. rewrite A in H.
  destruct (evaluate_credential_request _ _ re_metadata _ _ _ _ _) as [x|e|]; try contradiction.
  exists x. split; [reflexivity|]. cbn [same_outcome] in H. rewrite H. reflexivity.
Qed.

Example C93_token_case : same_grants re_offer
  {| co_credential_issuer := lit "i"; co_credentials := [CredentialId (lit "c")];
     co_grants := {| og_auth := None;
                     og_pre := Some {| pf_code := lit "other"; pf_user_pin_required := Some false |} |} |}.
Proof. split; [split; reflexivity|]. split; [reflexivity|]. split; discriminate. Qed.
