(** C108, C111, C112: sizes of the texts that are written. *)
From Verif Require Import Model.Prelude Model.Float Model.Json Model.Base64 Model.Types Model.Deps Model.CredentialIssuer
  Model.Chrono Model.Serde Model.SerdeOptions Model.Wire
  Spec SpecJson SpecNumber SpecOffer SpecJwt SpecDocuments SpecRelay SpecHops SpecSizes Examples
  Proofs.StrFacts Proofs.SizeFacts Proofs.GrowthFacts Proofs.DateSize Proofs.NumberSize Proofs.GrammarFacts Proofs.RelayFacts Proofs.AnyDepth Properties.Offers Properties.Evaluation Properties.Responses Properties.Held.

(** * C108 *)
(** Each byte of the JSON that is not unreserved (RFC 3986) costs two more. *)
Theorem C108_url_length : forall m creds ep a p o url n, create_offer m creds ep a p = Ok (o, url) ->
  counts (fun c => ~ url_unreserved c) (offer_to_json o) n ->
  (List.length url = List.length (offer_url_prefix ep) + List.length (offer_to_json o) + 2 * n)%nat.
Proof. exact offer_url_length. Qed.
Print Assumptions C108_url_length.

Theorem C108_url_bound : forall m creds ep a p o url, create_offer m creds ep a p = Ok (o, url) ->
  (List.length url <= List.length (offer_url_prefix ep) + 3 * List.length (offer_to_json o))%nat.
Proof. exact offer_url_bound. Qed.
Print Assumptions C108_url_bound.

Theorem C108_base64_length : forall bytes,
  List.length (base64_encode bytes) = (4 * ((List.length bytes + 2) / 3))%nat
  /\ List.length (base64url_encode bytes) = ((4 * List.length bytes + 2) / 3)%nat.
Proof. exact base64_lengths. Qed.
Print Assumptions C108_base64_length.

Theorem C108_issued_length : forall d now r c n resp t text,
  create_credential_success_response d now r (Some (CTCredential c)) n = Ok (resp, t) ->
  cs_credential resp = Some (Encoded text) ->
  List.length text = ((4 * List.length (cfp_to_json c) + 2) / 3)%nat.
Proof. exact issued_length. Qed.
Print Assumptions C108_issued_length.

(** What a text of JSON spells is not larger than the text. *)
Theorem C108_reading : forall s j, rfc8259_text s j -> (values j + letters j <= List.length s)%nat.
Proof. exact spelled_size. Qed.
Print Assumptions C108_reading.

Theorem C108_writing : forall j, json_any j ->
  (List.length (print j) + 4 <= 6 * letters j + 28 * values j)%nat.
Proof. exact written_size. Qed.
Print Assumptions C108_writing.

(** So writing what was read takes at most 28 times the space. *)
Theorem C108_rewriting : forall s j, rfc8259_text s j ->
  (List.length (print j) <= 28 * List.length s)%nat.
Proof. exact rewritten_size. Qed.
Print Assumptions C108_rewriting.

Example C108_url_case : exists o url,
  create_offer ex_good [CredentialId (lit "Degree")] (Some (lit "https://w.example/cb")) None (Some ex_pre) = Ok (o, url)
  /\ List.length (offer_to_json o) = 199%nat /\ List.length url = 327%nat
  /\ counts (fun c => ~ url_unreserved c) (lit "a%") 1.
Proof.
  do 2 eexists. split; [reflexivity|]. split; [vm_compute; reflexivity|]. split; [vm_compute; reflexivity|].
  apply counts_other; [|apply counts_one; [|constructor]].
  - intros H. apply H. rewrite <- Proofs.ShapeFacts.unreserved_iff. reflexivity.
  - rewrite <- Proofs.ShapeFacts.unreserved_iff. discriminate.
Qed.

Example C108_issued_case : exists resp text, re_response ex_degree (Some (CTCredential ex_degree)) None = Ok (resp, ev_now)
  /\ cs_credential resp = Some (Encoded text)
  /\ List.length (cfp_to_json ex_degree) = 86%nat /\ List.length text = 115%nat.
Proof. do 2 eexists. repeat split; vm_compute; reflexivity. Qed.

Example C108_case : exists j, rfc8259_text (lit " [""\u0001"", 1e9, {}] ") j
  /\ values j = 4%nat /\ letters j = 1%nat /\ List.length (print j) = 26%nat.
Proof.
  exists (JArr [JStr [chr 1]; JFloat (lit "1000000000.0"); JObj []]). split; [|split; [|split]; vm_compute; reflexivity].
  apply json_text_rfc8259. apply (proj1 (parse_json_iff _ _)). vm_compute. reflexivity.
Qed.

(** * C111 *)
(** The digits in which a number is written: [d], the shortest that are read to it. *)
Theorem C111_digits : forall x d k, mantissa x <> 0 -> shortest_decimal x d k -> d < 10 ^ 17.
Proof. exact few_digits. Qed.
Print Assumptions C111_digits.

Theorem C111_length : forall t, f64_text t -> (List.length t <= 24)%nat.
Proof. exact f64_length. Qed.
Print Assumptions C111_length.

(** However many digits a number was sent with. *)
Theorem C111_after_reading : forall s t, float_becomes s t -> (List.length t <= 24)%nat.
Proof. exact becomes_length. Qed.
Print Assumptions C111_after_reading.

(** Both bounds are reached. *)
Example C111_case :
  f64_text (lit "-2.2250738585072014e-308") /\ List.length (lit "-2.2250738585072014e-308") = 24%nat
  /\ float_becomes (lit "0.30000000000000004440892098500626") (lit "0.30000000000000004").
Proof.
  split; [|split; [reflexivity|apply becomes_computed; vm_compute; reflexivity]].
  apply becomes_f64 with (lit "-2.2250738585072014e-308"). apply becomes_computed; vm_compute; reflexivity.
Qed.

(** * C112 *)
Theorem C112_documents :
  not_amplified cfp_from_json cfp_to_json
  /\ not_amplified offer_from_json offer_to_json
  /\ not_amplified credential_request_from_json credential_request_to_json
  /\ not_amplified credential_success_from_json credential_success_to_json
  /\ not_amplified metadata_from_json metadata_to_json
  /\ not_amplified token_request_from_json token_request_to_json
  /\ not_amplified token_success_from_json token_success_to_json
  /\ not_amplified token_options_from_json token_options_to_json
  /\ not_amplified c_nonce_from_json c_nonce_to_json
  /\ not_amplified header_from_json header_to_json.
Proof.
  exact (conj credential_within (conj offer_within (conj request_within (conj response_within (conj metadata_within
    (conj token_request_within (conj token_success_within (conj token_options_within (conj c_nonce_within header_within))))))))).
Qed.
Print Assumptions C112_documents.

(** Documents with dates. *)
Theorem C112_dated : forall d, dt_round_trips d -> dates_in_range d -> dates_brief d ->
  not_amplified (claims_from_json d) (claims_to_json d)
  /\ not_amplified (eval_options_from_json d) (eval_options_to_json d)
  /\ not_amplified (proof_jwt_from_json d) (proof_jwt_to_json d).
Proof.
  exact (fun d A B C => conj (claims_within d A B C) (conj (eval_options_within d A B C) (proof_jwt_within d A B C))).
Qed.
Print Assumptions C112_dated.

Theorem C112_dates : forall d, dates_brief (with_chrono d).
Proof. exact chrono_brief. Qed.
Print Assumptions C112_dates.

Definition sz_text : str := lit "{""credential_issuer"":"""",""credential_endpoint"":"""",""credentials_supported"":[
  {""format"":""mso_mdoc"",""doctype"":"""",""display"":[{""name"":""""},{""name"":""""}]},{""format"":3,""doctype"":""""}],""max"":1e20}".
Example C112_case : exists t, passed_on metadata_from_json metadata_to_json 3 sz_text = Some t
  /\ List.length sz_text = 186%nat /\ List.length t = 632%nat.
Proof.
  destruct (passed_on metadata_from_json metadata_to_json 3 sz_text) as [t|] eqn:E; [|vm_compute in E; discriminate E].
  vm_compute in E. exists t. split; [reflexivity|]. injection E as <-. split; vm_compute; reflexivity.
Qed.
Example C112_dates_case : List.length (dt_print (with_chrono example_deps) (-8334632851200000000000)%Z) = 23%nat
  /\ List.length (dt_print (with_chrono example_deps) (8210298412799123456789)%Z) = 33%nat.
Proof. split; vm_compute; reflexivity. Qed.
