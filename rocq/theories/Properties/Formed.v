(** C128, C129: whatever bytes arrive, what is read is well-formed; and what is
    written is UTF-8. *)
From Coq Require Import Lia.
From Verif Require Import Model.Prelude Model.Json Model.Types Model.Deps Model.Chrono Model.Errors Model.Jwt Model.CredentialIssuer
  Model.Serde Model.SerdeOptions Model.Wire
  Spec SpecToken SpecJwt SpecDocuments SpecRelay SpecAnyErrors SpecEvaluation Examples
  Proofs.Utf8Facts Proofs.JsonFacts Proofs.RelayFacts Proofs.TimeFacts Proofs.SerdeFacts Proofs.GrowthFacts Proofs.AnyErrors Proofs.FormedFacts Properties.Offers Properties.Evaluation.

(** * C128 *)
(** The bytes [s] are any bytes, UTF-8 or not. The texts in what is read are Rust
    strings, PINs fit 64 bits, lifetimes 32, no member occurs twice in a map, numbers
    are written for some [f64], and free-form values are nested less deep than the
    document. *)
Theorem C128_token_documents : forall s,
  (forall x, token_request_from_json s = Some x -> token_request_ok x)
  /\ (forall x, token_success_from_json s = Some x -> token_success_ok x)
  /\ (forall x, token_options_from_json s = Some x -> token_options_ok x)
  /\ (forall x, c_nonce_from_json s = Some x -> c_nonce_ok x).
Proof.
  exact (fun s => conj (token_request_formed s) (conj (token_success_formed s)
    (conj (token_options_formed s) (c_nonce_formed s)))).
Qed.
Print Assumptions C128_token_documents.

Theorem C128_credential_documents : forall s,
  (forall x, offer_from_json s = Some x -> offer_with (value_any 122) x)
  /\ (forall x, metadata_from_json s = Some x -> metadata_with (value_any 122) (value_any 126) x)
  /\ (forall x, credential_request_from_json s = Some x -> request_with (value_any 124) x)
  /\ (forall x, credential_success_from_json s = Some x -> credential_success_with (value_any 122) x)
  /\ (forall x, cfp_from_json s = Some x -> cfp_with (value_any 124) x).
Proof.
  exact (fun s => conj (offer_formed s) (conj (metadata_formed s) (conj (request_formed s)
    (conj (response_formed s) (credential_formed s))))).
Qed.
Print Assumptions C128_credential_documents.

Theorem C128_proof_documents : forall d s, dates_in_range d ->
  (forall x, header_from_json s = Some x -> header_ok x)
  /\ (forall x, claims_from_json d s = Some x -> body_ok x /\ body_instants_ok x)
  /\ (forall x, proof_jwt_from_json d s = Some x -> proof_jwt_ok x)
  /\ (forall x, eval_options_from_json d s = Some x -> eval_options_ok x).
Proof.
  exact (fun d s Hd => conj (header_formed s) (conj (fun x => claims_formed d s x Hd)
    (conj (fun x => proof_jwt_formed d s x Hd) (fun x => eval_options_formed d s x Hd)))).
Qed.
Print Assumptions C128_proof_documents.

(** A token: what is encoded in its first two parts can be any bytes, even if the
    token is a string. *)
Theorem C128_tokens : forall d s j, dates_in_range d -> jwt_from_str d s = Ok j ->
  header_ok (j_header j) /\ body_ok (j_body j) /\ body_instants_ok (j_body j)
  /\ (rust_string s -> on_some rust_string (j_signature j)).
Proof. exact token_formed. Qed.
Print Assumptions C128_tokens.

(** The evidence that evaluation returns for a request that arrived as any bytes. *)
Theorem C128_evidence : forall d s now m r offer asm doc options resp,
  dt_round_trips d -> dates_in_range d -> lower_case_facts d ->
  credential_request_from_json s = Some r ->
  evaluate_credential_request d now m r offer asm doc options = Ok resp ->
  cfp_with (value_any 124) (er_credential resp)
  /\ exists pop, er_pop resp = Some pop /\ rust_string (pop_message pop) /\ rust_string (pop_signature pop).
Proof. exact (fun d s now m r offer asm doc options resp rt ranged => evaluated_formed d rt ranged s now m r offer asm doc options resp). Qed.
Print Assumptions C128_evidence.

(** Dates as chrono reads and writes them meet the assumptions. *)
Theorem C128_dates : forall d, dt_round_trips (with_chrono d) /\ dates_in_range (with_chrono d).
Proof. exact (fun d => conj (chrono_round_trips d) (chrono_dates d)). Qed.
Print Assumptions C128_dates.

(** The nonce U+00E9, written in the document as an escape: its two bytes are read. The
    byte FF is no text. *)
Example C128_case :
  c_nonce_from_json (lit "{""c_nonce"":""\u00e9""}")
    = Some {| cn_c_nonce := [chr 195; chr 169]; cn_expires_in := None |}
  /\ c_nonce_from_json (lit "{""c_nonce"":""" ++ [chr 255] ++ lit """}") = None
  /\ c_nonce_from_json (lit "{""c_nonce"":""\ud800""}") = None
  /\ c_nonce_from_json (lit "{""c_nonce"":""n"",""c_nonce_expires_in"":4294967296}") = None.
Proof. vm_compute. auto. Qed.
Example C128_evidence_case : exists resp,
  evaluate_credential_request example_deps ev_now ev_metadata (ev_request ex_degree "jwt" (ev_good EdDSA)) (Some ev_offer) None
    (Some ev_document) (ev_options (Some (lit "client"))) = Ok resp.
Proof.
  destruct C37_accepted as (resp & A). exists resp. apply C37_success_exactly; [exact example_lower_case_facts|exact A].
Qed.

(** * C129 *)
Theorem C129_token_documents :
  (forall x, token_request_ok x -> rust_string (token_request_to_json x))
  /\ (forall x, token_success_ok x -> rust_string (token_success_to_json x))
  /\ (forall x, token_options_ok x -> rust_string (token_options_to_json x))
  /\ (forall x, c_nonce_ok x -> rust_string (c_nonce_to_json x)).
Proof.
  exact (conj (fun x H => print_string _ (good_any 2 _ (good_token_request x H)))
    (conj (fun x H => print_string _ (good_any 1 _ (good_token_success x H)))
    (conj token_options_string c_nonce_string))).
Qed.
Print Assumptions C129_token_documents.

Theorem C129_credential_documents : forall n k,
  (forall x, offer_with (value_any n) x -> rust_string (offer_to_json x))
  /\ (forall x, metadata_with (value_any n) (value_any k) x -> rust_string (metadata_to_json x))
  /\ (forall x, request_with (value_any n) x -> rust_string (credential_request_to_json x))
  /\ (forall x, credential_success_with (value_any n) x -> rust_string (credential_success_to_json x))
  /\ (forall x, cfp_with (value_any n) x -> rust_string (cfp_to_json x)).
Proof.
  exact (fun n k => conj (fun x H => print_string _ (offer_any n x H)) (conj (fun x H => print_string _ (metadata_any n k x H))
    (conj (fun x H => print_string _ (request_any n x H)) (conj (fun x H => print_string _ (response_holds n x H))
    (fun x H => print_string _ (credential_any x (any_credential n x H))))))).
Qed.
Print Assumptions C129_credential_documents.

Theorem C129_proof_documents : forall d, dt_round_trips d ->
  (forall x, header_ok x -> rust_string (header_to_json x))
  /\ (forall x, body_ok x -> body_instants_ok x -> rust_string (claims_to_json d x))
  /\ (forall x, proof_jwt_ok x -> rust_string (proof_jwt_to_json d x))
  /\ (forall x, eval_options_ok x -> rust_string (eval_options_to_json d x)).
Proof.
  exact (fun d rt => conj (fun x H => print_string _ (good_any 1 _ (good_header x H)))
    (conj (fun x H I => print_string _ (good_any 1 _ (good_body d x rt I H)))
    (conj (fun x H => print_string _ (proof_any d rt x H)) (fun x H => print_string _ (options_any d rt x H))))).
Qed.
Print Assumptions C129_proof_documents.

(** Error answers with any description, URI and details, and the text of errors. *)
Theorem C129_errors : forall d,
  (forall x s, on_some rust_string (resp_description x) -> on_some rust_string (resp_uri x) ->
     on_some json_any (resp_details x) -> token_error_response_to_json d x = Some s -> rust_string s)
  /\ (forall x s, on_some rust_string (resp_description x) -> on_some rust_string (resp_uri x) ->
     on_some json_any (resp_details x) -> issuer_error_response_to_json d x = Some s -> rust_string s)
  /\ (forall e, information_any e -> rust_string (error_information_display e)).
Proof. exact (fun d => conj (token_answer_string d) (conj (issuer_answer_string d) display_string)). Qed.
Print Assumptions C129_errors.

(** The link for an offer: ASCII from "credential_offer=" on, whatever the offer. *)
Theorem C129_links : forall m credentials endpoint a p offer url,
  create_offer m credentials endpoint a p = Ok (offer, url) ->
  (exists start rest, url = start ++ lit "credential_offer=" ++ rest
     /\ Forall (fun c => code c < 128) rest
     /\ (endpoint = None -> start = lit "openid-credential-offer://")
     /\ (forall e, endpoint = Some e -> start = e ++ lit "?"))
  /\ (on_some rust_string endpoint -> rust_string url).
Proof. exact link_string. Qed.
Print Assumptions C129_links.

(** The two bytes of U+00E9 are written as they are, a line break as an escape. *)
Example C129_case :
  c_nonce_ok {| cn_c_nonce := [chr 195; chr 169; chr 10]; cn_expires_in := Some 5 |}
  /\ c_nonce_to_json {| cn_c_nonce := [chr 195; chr 169; chr 10]; cn_expires_in := Some 5 |}
     = lit "{""c_nonce"":""" ++ [chr 195; chr 169] ++ lit "\n"",""c_nonce_expires_in"":5}"
  /\ ~ rust_string (lit "{""c_nonce"":""" ++ [chr 195] ++ lit """}").
Proof.
  split; [|split; [vm_compute; reflexivity|intros H; apply rust_string_iff in H; vm_compute in H; discriminate H]].
  split; [apply rust_string_iff; vm_compute; reflexivity|]. intros n [= <-]. reflexivity.
Qed.
