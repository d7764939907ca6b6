(** C132: which errors each call reports. Theorems only; proofs are in
    Proofs/ReportedFacts.v, vocabulary in SpecReported.v. *)
From Verif Require Import Model.Prelude Model.Utf8 Model.Json Model.Types Model.Deps Model.Chrono Model.Serde Model.Errors Model.Jwt
  Model.AccessToken Model.CredentialIssuer Spec SpecJwt SpecErrors SpecReported SpecEvaluation
  Proofs.TimeFacts Proofs.JwtFacts Proofs.EvalFacts Proofs.EvalFacts2 Proofs.ReportedFacts Proofs.OkTac
  Examples Properties.Offers Properties.Jwt Properties.AccessToken Properties.Evaluation.

(** The dependencies of the examples, with symmetric keys that cannot be mapped. *)
Definition re_deps : deps := {|
  Document := ex_document;
  VerificationMethod := jwk;
  did_url_try_from := ex_did_url;
  select_object := ex_select;
  get_jwk := fun k => match jwk_parameters k with PSymmetric => inl (lit "no key") | _ => inr k end;
  jwk_from_str := jwk_from_str example_deps;
  dt_parse := chrono_parse;
  dt_print := chrono_print;
  dt_display := chrono_display;
  base64_error := fun _ => lit "base64";
  serde_error := fun _ => lit "serde";
  lower_table := lower_table example_deps;
  upper_table := upper_table example_deps;
  flatten_unit_ok := true |}.
Lemma re_realistic : lower_case_facts re_deps /\ upper_case_facts re_deps /\ dt_round_trips re_deps.
Proof. exact (conj example_lower_case_facts (conj example_upper_case_facts (chrono_round_trips re_deps))). Qed.

Definition re_jwt (typ : string) (key : option additional_header) (aud nonce : string) (sig : option str) : proof_jwt := {|
  j_header := {| h_typ := lit typ; h_alg := EdDSA; h_additional := key |};
  j_body := {| b_iss := Some (lit "client"); b_aud := lit aud; b_sub := None;
               b_iat := 1683000000000000000%Z; b_nonce := lit nonce;
               b_nbf := Some 1684000000000000000%Z; b_exp := Some 1682000000000000000%Z |};
  j_signature := sig |}.
Definition re_kid (s : string) : option additional_header := Some (KeyId (lit s)).

Definition re_metadata (url : string) : issuer_metadata :=
  {| im_credential_issuer := lit url; im_authorization_server := None; im_credential_endpoint := lit url;
     im_batch_credential_endpoint := None; im_credentials_supported := []; im_additional_fields := None |}.
Definition re_document (alg : jwk_alg) (k : jwk_params) : option ex_document :=
  Some [(lit "did:key:z6Mk#z6Mk", {| jwk_algorithm := Some alg; jwk_parameters := k |})].

Definition re_parsed (j : proof_jwt) : Prop := jwt_from_str re_deps (ev_token j) = Ok j.
Ltac re_parses :=
  unfold re_parsed; change (jwt_from_str re_deps) with (jwt_from_str example_deps); ev_parses.

Definition re_code {A} (x : res issuer_error A) : option N :=
  match x with Err (IJwtError e) => Some (jwt_error_code e) | _ => None end.
Lemma re_at j client doc n : re_parsed j ->
  re_code (token_part re_deps (re_metadata "https://issuer") ev_offer doc (ev_options client) ex_degree j) = Some n ->
  met re_deps CEvaluate n.
Proof.
  intros P C. destruct (token_part _ _ _ _ _ _ _) as [a|[v|e| | | | | | | | | | |]|] eqn:H; try discriminate C.
  injection C as <-.
  exists (AIssuer (IJwtError e)), (AJwt e). split; [|split; [repeat constructor|reflexivity]].
  apply (SpecReported.re_evaluate re_deps ev_now (re_metadata "https://issuer") (ev_request ex_degree "jwt" j) (Some ev_offer) None doc (ev_options client)).
  rewrite <- H.
  exact (evaluate_at re_deps ev_now (re_metadata "https://issuer") (ev_request ex_degree "jwt" j) ev_offer doc
    (ev_options client) {| rp_proof_type := lit "jwt"; rp_jwt := ev_token j |} j eq_refl eq_refl eq_refl P).
Qed.

(** The error itself carries the code; or the error it wraps. *)
Lemma met_self d c e n : reported d c e -> code_shown d e = n -> met d c n.
Proof. intros H E. exists e, e. split; [exact H|split; [constructor|exact E]]. Qed.
Lemma met_within d c e a n : reported d c e -> within a e -> code_shown d a = n -> met d c n.
Proof. intros H W E. now exists e, a. Qed.

(** Everything the errors of a call can be is met. *)
Definition re_good (key : option additional_header) (sig : option str) : proof_jwt :=
  re_jwt "openid4vci-proof+jwt" key "https://issuer" "n1" sig.

Lemma re_p1 : re_parsed (re_jwt "openid4vci-proof+jwt" (re_kid "did:key:z6Mk#z6Mk") "https://issuer" "n2" ev_sig).
Proof. re_parses. Qed.
Lemma re_p2 : re_parsed (re_jwt "openid4vci-proof+jwt" (re_kid "did:key:z6Mk#z6Mk") "https://other" "n1" ev_sig).
Proof. re_parses. Qed.
Lemma re_p3 : re_parsed (re_good (re_kid "did:key:z6Mk#z6Mk") ev_sig).
Proof. re_parses. Qed.
Lemma re_p4 : re_parsed (re_good (re_kid "did:key:z6Mk#z6Mk") None).
Proof. re_parses. Qed.
Lemma re_p5 : re_parsed (re_good (re_kid "z6Mk") ev_sig).
Proof. re_parses. Qed.
Lemma re_p6 : re_parsed (re_good None ev_sig).
Proof. re_parses. Qed.
Lemma re_p7 : re_parsed (re_good (Some (Jwk (lit "{}"))) ev_sig).
Proof. re_parses. Qed.
Lemma re_p8 : re_parsed (re_good (Some (X5c (lit "MII"))) ev_sig).
Proof. re_parses. Qed.

Lemma re_create_offer_codes n : In n (codes_of CCreateOffer) -> met re_deps CCreateOffer n.
Proof.
  intros [<-|[<-|[<-|[<-|[]]]]].
  - exact (met_within _ _ _ _ _ (SpecReported.re_create_offer re_deps ex_duplicate [] None None None _ eq_refl)
      (wi_issuer_validation _ _ (wi_self _)) eq_refl).
  - exact (met_self _ _ _ _ (SpecReported.re_create_offer re_deps ex_duplicate [] None None None _ eq_refl) eq_refl).
  - exact (met_self _ _ _ _ (SpecReported.re_create_offer re_deps ex_good [] None (Some {| af_issuer_state := None |}) None _ eq_refl) eq_refl).
  - exact (met_self _ _ _ _ (SpecReported.re_create_offer re_deps ex_good [CredentialId (lit "none")] None None None _ eq_refl) eq_refl).
Qed.

Lemma re_evaluate_codes n : In n (codes_of CEvaluate) -> met re_deps CEvaluate n.
Proof.
  assert (reported re_deps CEvaluate (AIssuer (SpecOffer.duplicate_ids_error))) as D.
  { exact (SpecReported.re_evaluate re_deps ev_now ex_duplicate (ev_request ex_degree "jwt" (re_good None None)) None None None None _ eq_refl). }
  intros [<-|[<-|[<-|[<-|[<-|[<-|[<-|I]]]]]]].
  - exact (met_within _ _ _ _ _ D (wi_issuer_validation _ _ (wi_self _)) eq_refl).
  - exact (met_self _ _ _ _ D eq_refl).
  - refine (met_self re_deps CEvaluate (AIssuer (IJwtError JNoKeyFoundInProof)) _ _ eq_refl).
    apply (SpecReported.re_evaluate re_deps ev_now (re_metadata "https://issuer") (ev_request ex_degree "jwt" (re_good None ev_sig)) (Some ev_offer) None None (ev_options None)).
    exact (evaluate_at re_deps ev_now (re_metadata "https://issuer") (ev_request ex_degree "jwt" (re_good None ev_sig)) ev_offer None
      (ev_options None) {| rp_proof_type := lit "jwt"; rp_jwt := ev_token (re_good None ev_sig) |} _ eq_refl eq_refl eq_refl re_p6).
  - exact (met_self _ _ _ _ (SpecReported.re_evaluate re_deps ev_now ev_metadata
      {| cr_format := ex_degree; cr_proof := None |} (Some ev_offer) (Some tt) None None _ eq_refl) eq_refl).
  - exact (met_self _ _ _ _ (SpecReported.re_evaluate re_deps ev_now ev_metadata
      {| cr_format := ex_degree; cr_proof := None |} None None None None _ eq_refl) eq_refl).
  - exact (met_self _ _ _ _ (SpecReported.re_evaluate re_deps 1683000300000000001%Z ev_metadata
      {| cr_format := ex_degree; cr_proof := None |} (Some ev_offer) None None (ev_options None) _ eq_refl) eq_refl).
  - exact (met_self _ _ _ _ (SpecReported.re_evaluate re_deps ev_now ev_metadata
      {| cr_format := ex_degree; cr_proof := None |} (Some ev_offer) None None None _ eq_refl) eq_refl).
  - destruct I as [<-|[<-|[<-|[<-|[<-|[<-|[<-|[<-|[<-|[<-|[<-|[<-|[<-|[]]]]]]]]]]]]]].
    + apply (re_at _ (Some (lit "other")) None _ re_p3). vm_compute. reflexivity.
    + apply (re_at _ None None _ re_p6). vm_compute. reflexivity.
    + apply (re_at _ None None _ re_p3). vm_compute. reflexivity.
    + apply (re_at _ None None _ re_p5). vm_compute. reflexivity.
    + apply (re_at _ None (Some []) _ re_p3). vm_compute. reflexivity.
    + apply (re_at _ None (re_document JAEdDSA PSymmetric) _ re_p3). vm_compute. reflexivity.
    + apply (re_at _ None None _ re_p7). vm_compute. reflexivity.
    + apply (re_at _ None (re_document (JAOther (lit "RS256")) PRSA) _ re_p3). vm_compute. reflexivity.
    + apply (re_at _ None (re_document JAEdDSA (PEC None)) _ re_p3). vm_compute. reflexivity.
    + apply (re_at _ None (re_document JAEdDSA (POKP (lit "k"))) _ re_p4). vm_compute. reflexivity.
    + apply (re_at _ None None _ re_p8). vm_compute. reflexivity.
    + apply (re_at _ None None _ re_p1). vm_compute. reflexivity.
    + apply (re_at _ None None _ re_p2). vm_compute. reflexivity.
Qed.

Lemma re_pre_at j e : re_parsed j -> jwt_validate re_deps j = Ok tt -> jwt_extract_did re_deps j = Err e ->
  reported re_deps CPreEvaluate (AIssuer (IJwtError e)).
Proof.
  intros P V H. apply (SpecReported.re_pre_evaluate re_deps (ev_request ex_degree "jwt" j)).
  unfold pre_evaluate_credential_request, request_validate, proof_validate.
  cbn [cr_proof ev_request rp_jwt rp_proof_type]. red in P. rewrite P.
  replace (str_eqb (to_uppercase (upper_table re_deps) (lit "jwt")) jwt_proof_type) with true by (vm_compute; reflexivity).
  cbn [negb bind map_err]. rewrite V. cbn [bind map_err]. now rewrite H.
Qed.

Lemma re_pre_codes n : In n (codes_of CPreEvaluate) -> met re_deps CPreEvaluate n.
Proof.
  assert (reported re_deps CPreEvaluate (AIssuer (IValidationError SpecEvaluation.proof_type_error))) as D.
  { exact (SpecReported.re_pre_evaluate re_deps (ev_request ex_degree "x509" (re_good None None)) _ eq_refl). }
  pose proof (re_pre_at _ _ re_p5 eq_refl eq_refl) as K. pose proof (re_pre_at _ _ re_p8 eq_refl eq_refl) as X.
  intros [<-|[<-|[<-|[<-|[<-|[]]]]]].
  - exact (met_within _ _ _ _ _ D (wi_issuer_validation _ _ (wi_self _)) eq_refl).
  - exact (met_self _ _ _ _ D eq_refl).
  - exact (met_self _ _ _ _ K eq_refl).
  - exact (met_within _ _ _ _ _ K (wi_issuer_jwt _ _ (wi_self _)) eq_refl).
  - exact (met_within _ _ _ _ _ X (wi_issuer_jwt _ _ (wi_self _)) eq_refl).
Qed.

Lemma re_token_codes n : In n (codes_of CEvaluateToken) -> met re_deps CEvaluateToken n.
Proof.
  pose (auth := Some {| af_issuer_state := None |}).
  pose (grants := fun a p => Some {| co_credential_issuer := lit "https://issuer"; co_credentials := [];
    co_grants := {| og_auth := a; og_pre := p |} |}).
  intros [<-|[<-|[<-|[<-|[<-|[<-|[<-|[<-|[<-|[<-|[]]]]]]]]]]].
  - exact (met_within _ _ _ _ _ (SpecReported.re_token re_deps (ex_request (Some 1000000000)) None None _ eq_refl)
      (wi_token_validation _ _ (wi_self _)) eq_refl).
  - exact (met_self _ _ _ _ (SpecReported.re_token re_deps (ex_request (Some 1000000000)) None None _ eq_refl) eq_refl).
  - exact (met_self _ _ _ _ (SpecReported.re_token re_deps (ex_request None) (grants auth None) None _ eq_refl) eq_refl).
  - exact (met_self _ _ _ _ (SpecReported.re_token re_deps {| tr_grant_type := GAuthorizedCode |} None None _ eq_refl) eq_refl).
  - exact (met_self _ _ _ _ (SpecReported.re_token re_deps (ex_request None) (grants None None) None _ eq_refl) eq_refl).
  - exact (met_self _ _ _ _ (SpecReported.re_token re_deps (ex_request None) (grants None (Some ex_grant)) None _ eq_refl) eq_refl).
  - exact (met_self _ _ _ _ (SpecReported.re_token re_deps (ex_request None) (grants auth (Some ex_grant)) None _ eq_refl) eq_refl).
  - exact (met_self _ _ _ _ (SpecReported.re_token re_deps (ex_request (Some 1)) (grants None (Some ex_grant)) None _ eq_refl) eq_refl).
  - exact (met_self _ _ _ _ (SpecReported.re_token re_deps (ex_request (Some 1)) (grants None (Some ex_grant)) (ex_options 2) _ eq_refl) eq_refl).
  - exact (met_self _ _ _ _ (SpecReported.re_token re_deps (ex_request None) None None _ eq_refl) eq_refl).
Qed.

Lemma re_key_codes n : In n (codes_of CExtractKey) -> met re_deps CExtractKey n.
Proof.
  pose (h := fun key => j_header (re_good key None)). pose (k := re_kid "did:key:z6Mk#z6Mk").
  intros [<-|[<-|[<-|[<-|[<-|[<-|[<-|[<-|[<-|[]]]]]]]]]].
  - exact (met_self _ _ _ _ (SpecReported.re_key re_deps (h None) None _ eq_refl) eq_refl).
  - exact (met_self _ _ _ _ (SpecReported.re_key re_deps (h k) None _ eq_refl) eq_refl).
  - exact (met_self _ _ _ _ (SpecReported.re_key re_deps (h (re_kid "z6Mk")) None _ eq_refl) eq_refl).
  - exact (met_self _ _ _ _ (SpecReported.re_key re_deps (h k) (Some []) _ eq_refl) eq_refl).
  - exact (met_self _ _ _ _ (SpecReported.re_key re_deps (h k) (re_document JAEdDSA PSymmetric) _ eq_refl) eq_refl).
  - exact (met_self _ _ _ _ (SpecReported.re_key re_deps (h (Some (Jwk (lit "{}")))) None _ eq_refl) eq_refl).
  - exact (met_self _ _ _ _ (SpecReported.re_key re_deps (h k) (re_document (JAOther (lit "RS256")) PRSA) _ eq_refl) eq_refl).
  - exact (met_self _ _ _ _ (SpecReported.re_key re_deps (h k) (re_document JAEdDSA (PEC None)) _ eq_refl) eq_refl).
  - exact (met_self _ _ _ _ (SpecReported.re_key re_deps (h (Some (X5c (lit "MII")))) None _ eq_refl) eq_refl).
Qed.

Lemma re_occurs c n : In n (codes_of c) -> met re_deps c n.
Proof.
  pose (j := re_good (re_kid "z6Mk") None).
  destruct c.
  - exact (re_create_offer_codes n).
  - intros [].
  - intros [<-|[]]. exact (met_self _ _ _ _ (SpecReported.re_resolve re_deps ex_good (CredentialId (lit "none")) _ eq_refl) eq_refl).
  - intros [<-|[]]. exact (met_self _ _ _ _ (SpecReported.re_resolve_all re_deps ex_good [CredentialId (lit "none")] _ eq_refl) eq_refl).
  - exact (re_pre_codes n).
  - exact (re_evaluate_codes n).
  - assert (reported re_deps CSuccessResponse (AIssuer (IValidationError SpecEvaluation.proof_type_error))) as D
      by exact (SpecReported.re_success re_deps ev_now (ev_request ex_degree "x509" (re_good None None)) None None _ eq_refl).
    intros [<-|[<-|[]]].
    + exact (met_within _ _ _ _ _ D (wi_issuer_validation _ _ (wi_self _)) eq_refl).
    + exact (met_self _ _ _ _ D eq_refl).
  - intros [].
  - exact (re_token_codes n).
  - intros [].
  - intros [].
  - intros [<-|[]]. exact (met_self _ _ _ _ (SpecReported.re_from_text re_deps (lit "e30") _ eq_refl) eq_refl).
  - intros [].
  - intros [<-|[<-|[]]].
    + exact (met_self _ _ _ _ (SpecReported.re_verify re_deps 1683000000000000000%Z j _ eq_refl) eq_refl).
    + exact (met_self _ _ _ _ (SpecReported.re_verify re_deps 1685000000000000000%Z j _ eq_refl) eq_refl).
  - intros [<-|[<-|[]]].
    + exact (met_self _ _ _ _ (SpecReported.re_did re_deps j _ eq_refl) eq_refl).
    + exact (met_self _ _ _ _ (SpecReported.re_did re_deps (re_good (Some (Jwk (lit "{}"))) None) _ eq_refl) eq_refl).
  - exact (re_key_codes n).
  - intros [<-|[]].
    assert (exists t, jwt_extract_signature re_deps j = Err (JSignatureNotInJwt t)) as [t H]
      by (eexists; vm_compute; reflexivity).
    exact (met_self _ _ _ _ (SpecReported.re_signature re_deps j _ H) eq_refl).
  - intros [].
  - intros [<-|[]]. exact (met_self _ _ _ _ (SpecReported.re_nonce re_deps j None _ eq_refl) eq_refl).
  - intros [<-|[]]. exact (met_self _ _ _ _ (SpecReported.re_iss re_deps j None _ eq_refl) eq_refl).
  - intros [<-|[]]. exact (met_self _ _ _ _ (SpecReported.re_aud re_deps j [] _ eq_refl) eq_refl).
  - intros [<-|[]]. exact (met_self _ _ _ _ (SpecReported.re_issuer_code re_deps [] _ eq_refl) eq_refl).
  - intros [<-|[]]. exact (met_self _ _ _ _ (SpecReported.re_token_code re_deps [] _ eq_refl) eq_refl).
  - intros [<-|[]]. exact (met_self _ _ _ _ (SpecReported.re_token_type re_deps [] _ eq_refl) eq_refl).
  - intros [].
  - intros [<-|[]]. exact (met_self _ _ _ _ (SpecReported.re_metadata re_deps ex_duplicate _ eq_refl) eq_refl).
  - intros [].
  - intros [<-|[]]. exact (met_self _ _ _ _ (SpecReported.re_request re_deps (ev_request ex_degree "x509" j) _ eq_refl) eq_refl).
  - intros [<-|[]]. exact (met_self _ _ _ _ (SpecReported.re_token_request re_deps (ex_request (Some 1000000000)) _ eq_refl) eq_refl).
  - intros [<-|[]]. exact (met_self _ _ _ _ (SpecReported.re_token_answer re_deps
      {| ts_access_token := lit "t"; ts_token_type := Bearer; ts_expires_in := None; ts_scope := None; ts_c_nonce := None;
         ts_c_nonce_expires_in := Some 1; ts_authorization_pending := None; ts_interval := None |} _ eq_refl) eq_refl).
  - intros [<-|[]]. exact (met_self _ _ _ _ (SpecReported.re_proof re_deps (re_jwt "JWT" None "" "" None) _ eq_refl) eq_refl).
  - intros [<-|[]]. exact (met_self _ _ _ _ (SpecReported.re_header re_deps (Jwk []) _ eq_refl) eq_refl).
Qed.

(* ------------------------------------------------------------------ *)
(** * C132: false, seven of the published errors are never reported *)
Definition C132_claim : Prop :=
  forall en n name, In (en, n, name) error_table -> exists d c, met d c n.
Theorem C132_every_error_is_reported_refuted : ~ C132_claim.
Proof. exact not_every_error. Qed.
Print Assumptions C132_every_error_is_reported_refuted.

(** A call reports no other errors than those listed for it. *)
Theorem C132_no_other_errors : forall d c n, met d c n -> In n (codes_of c).
Proof. exact reported_codes. Qed.
Print Assumptions C132_no_other_errors.

(** And each of those is met, with dependencies that behave as the real ones do. *)
Theorem C132_listed_errors : exists d,
  lower_case_facts d /\ upper_case_facts d /\ dt_round_trips d
  /\ forall c n, In n (codes_of c) -> met d c n.
Proof.
  exists re_deps. destruct re_realistic as (A & B & C). exact (conj A (conj B (conj C re_occurs))).
Qed.
Print Assumptions C132_listed_errors.

(** So the published errors that are met are all but the seven. *)
Theorem C132_published_errors : forall en n name, In (en, n, name) error_table ->
  ((exists d c, met d c n) <-> ~ In n never_met).
Proof. exact (published_errors re_deps re_occurs). Qed.
Print Assumptions C132_published_errors.
