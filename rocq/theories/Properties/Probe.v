(** What a wallet that was not told the nonce learns from rejections. Theorems
    only; proofs are in Proofs/ProbeFacts.v, vocabulary in SpecProbe.v. *)
From Coq Require Import Lia.
From Verif Require Import Model.Prelude Model.Base64 Model.Json Model.Types Model.Deps Model.Errors
  Model.Jwt Model.CredentialIssuer Model.Wire
  Spec SpecToken SpecOffer SpecJwt SpecEvaluation SpecSession SpecEvidence SpecGuess SpecProbe
  Proofs.StrFacts Proofs.Utf8Facts Proofs.JsonFacts Proofs.JwtFacts Proofs.OfferFacts Proofs.EvalFacts Proofs.EvalFacts2
  Proofs.EvalFacts3 Proofs.SessionFacts Proofs.GuessFacts Proofs.ProbeFacts
  Proofs.OkTac Examples Properties.Offers Properties.Jwt Properties.Evaluation.

(* ------------------------------------------------------------------ *)
(** * C134: a wallet that was not told the nonce has to guess it. False if the
    issuer passes the error on: it names the expected nonce, client id and URL. *)
Definition C134_claim : Prop := forall d w clock m o doc options nonces k,
  lower_case_facts d -> NoDup nonces -> (k < List.length nonces)%nat ->
  exists e, In e nonces /\ forall seen,
    talk (issuer_shows everything d clock m o doc (with_expected_nonce e options)) w seen ->
    (List.length seen <= k)%nat -> forall resp, ~ In (Ok resp) seen.

(** A wallet with a key that knows nothing else is accepted after at most three
    rejections, by every issuer that resolves its key. *)
Theorem C134_three_rejections_suffice : forall d alg kid iat sign c guess_nonce guess_aud,
  lower_case_facts d -> dt_round_trips d -> rust_string kid -> in_instant_range iat = true ->
  (forall s, rust_string (sign s) /\ dotless (sign s)) -> rust_string guess_nonce -> rust_string guess_aud ->
  exists w : list verdict -> credential_request,
    (forall seen, signed_request d alg kid iat sign c (w seen))
    /\ forall m o doc n client u key bytes clock,
    ids_distinct (im_credentials_supported m) -> representable (nonce_expiry n) ->
    (forall i, (clock i <= nonce_expiry n)%Z) ->
    rust_string (cno_expected n) -> on_some rust_string client -> rust_string (im_credential_issuer m) ->
    did_url_try_from d kid = inr u -> document_key d doc kid key -> public_key key bytes ->
    exists seen resp,
      talk (issuer_shows everything d clock m o (Some doc) (Some {| eo_c_nonce := Some n; eo_client_id := client |})) w
        (seen ++ [Ok resp])
      /\ (List.length seen <= 3)%nat /\ er_subject_id resp = Some (du_did u) /\ er_credential resp = c.
Proof. exact three_rejections. Qed.
Print Assumptions C134_three_rejections_suffice.

(** Fewer do not: whatever a wallet does, for one of two nonces, two client ids
    and two URLs its first three requests are refused. *)
Theorem C134_three_rejections_needed : forall d w clock m o doc n n1 n2 c1 c2 u1 u2,
  n1 <> n2 -> c1 <> c2 -> u1 <> u2 ->
  exists e c u, In e [n1; n2] /\ In c [c1; c2] /\ In u [u1; u2] /\ forall seen,
    talk (issuer_shows everything d clock (at_url u m) o doc
      (with_client_id c (with_expected_nonce e (Some {| eo_c_nonce := Some n; eo_client_id := None |})))) w seen ->
    (List.length seen <= 3)%nat -> forall resp, ~ In (Ok resp) seen.
Proof. intros d w clock m o doc n. exact (rejections_needed d m o doc n w clock). Qed.
Print Assumptions C134_three_rejections_needed.

(** If only the numbers of the errors are passed on, the nonce has to be guessed. *)
Theorem C134_numbers_keep_the_nonce_partial : forall d w clock m o doc options nonces k,
  lower_case_facts d -> NoDup nonces -> (k < List.length nonces)%nat ->
  exists e, In e nonces /\ forall seen,
    talk (issuer_shows number_only d clock m o doc (with_expected_nonce e options)) w seen ->
    (List.length seen <= k)%nat -> ~ In (Ok tt) seen.
Proof. exact nonces_needed. Qed.
Print Assumptions C134_numbers_keep_the_nonce_partial.

(** So has the client id, by a wallet that knows the nonce. *)
Theorem C134_numbers_keep_the_client_id : forall d w clock m o doc opts clients k,
  lower_case_facts d -> NoDup clients -> (k < List.length clients)%nat ->
  exists x, In x clients /\ forall seen,
    talk (issuer_shows number_only d clock m o doc (with_client_id x (Some opts))) w seen ->
    (List.length seen <= k)%nat -> ~ In (Ok tt) seen.
Proof. exact clients_needed. Qed.
Print Assumptions C134_numbers_keep_the_client_id.

(** The example issuer, wallet and nonces. *)
Definition pr_kid : str := lit "did:key:z6Mk#z6Mk".
Definition pr_sign : str -> str := fun _ => lit "c2ln".
Definition pr_nonces : list str := map lit ["n1"; "n2"; "n3"; "n4"; "n5"]%string.
Definition pr_nonce (e : str) : c_nonce_options :=
  {| cno_expires_in := 300; cno_expected := e; cno_created_at := 1683000000000000000%Z |}.
Definition pr_options : option eval_options :=
  Some {| eo_c_nonce := Some (pr_nonce []); eo_client_id := Some (lit "client") |}.

Lemma pr_signs : forall s : str, rust_string (pr_sign s) /\ dotless (pr_sign s).
Proof. intros s. split; [apply rust_string_ascii; reflexivity|]. intros H. vm_compute in H. intuition discriminate. Qed.
Lemma pr_distinct : NoDup pr_nonces.
Proof.
  unfold pr_nonces. cbn [map].
  repeat (apply NoDup_cons; [intros H; vm_compute in H; intuition discriminate|]). apply NoDup_nil.
Qed.
Lemma pr_texts : Forall rust_string pr_nonces.
Proof. unfold pr_nonces. cbn [map]. repeat (apply Forall_cons; [apply rust_string_ascii; reflexivity|]). apply Forall_nil. Qed.
Lemma pr_client : on_some rust_string (Some (lit "client")).
Proof. intros x X. assert (x = lit "client") as -> by congruence. apply rust_string_ascii. reflexivity. Qed.
Lemma pr_key : document_key example_deps ev_document pr_kid ev_key /\ public_key ev_key (lit "key bytes").
Proof. split; [|constructor; reflexivity]. eexists. exists ev_key. split; [reflexivity|]. split; reflexivity. Qed.

Theorem C134_nonce_has_to_be_guessed_refuted : ~ C134_claim.
Proof.
  intros H.
  destruct (three_rejections example_deps EdDSA pr_kid ev_now pr_sign ex_degree [] []
    example_lower_case_facts example_dt_round_trips ltac:(apply rust_string_ascii; reflexivity) ltac:(reflexivity)
    pr_signs ltac:(apply rust_string_ascii; reflexivity) ltac:(apply rust_string_ascii; reflexivity)) as (w & _ & W).
  destruct (H example_deps w (fun _ => ev_now) ev_metadata ev_offer (Some ev_document) pr_options pr_nonces 4%nat
    example_lower_case_facts pr_distinct ltac:(cbn; lia)) as (e & I & N).
  destruct (W ev_metadata ev_offer ev_document (pr_nonce e) (Some (lit "client"))
    {| du_did := lit "did:key:z6Mk"; du_path := []; du_query := None; du_fragment := Some (lit "z6Mk") |}
    ev_key (lit "key bytes") (fun _ => ev_now)
    ltac:(apply metadata_validate_ok; reflexivity) ltac:(split; vm_compute; discriminate)
    ltac:(intros i; vm_compute; discriminate) (proj1 (Forall_forall _ _) pr_texts e I)
    pr_client ltac:(apply rust_string_ascii; reflexivity)
    ltac:(reflexivity) (proj1 pr_key) (proj2 pr_key)) as (seen & resp & D & L & _).
  apply (N _ D) with (resp := resp).
  - rewrite app_length. cbn [List.length]. unfold verdict in *. lia.
  - apply in_or_app. right. now left.
Qed.
Print Assumptions C134_nonce_has_to_be_guessed_refuted.

(** Both lower bounds apply to the example issuer and every wallet. *)
Example C134_numbers_example : forall w,
  (exists e, In e pr_nonces /\ forall seen,
     talk (issuer_shows number_only example_deps (fun _ => ev_now) ev_metadata ev_offer (Some ev_document)
       (with_expected_nonce e pr_options)) w seen ->
     (List.length seen <= 4)%nat -> ~ In (Ok tt) seen)
  /\ exists x, In x pr_nonces /\ forall seen,
     talk (issuer_shows number_only example_deps (fun _ => ev_now) ev_metadata ev_offer (Some ev_document)
       (with_client_id x pr_options)) w seen ->
     (List.length seen <= 4)%nat -> ~ In (Ok tt) seen.
Proof.
  intros w. split.
  - apply (C134_numbers_keep_the_nonce_partial example_deps w (fun _ => ev_now) ev_metadata ev_offer (Some ev_document)
      pr_options pr_nonces 4%nat example_lower_case_facts pr_distinct). cbn; lia.
  - apply (C134_numbers_keep_the_client_id example_deps w (fun _ => ev_now) ev_metadata ev_offer (Some ev_document)
      {| eo_c_nonce := Some (pr_nonce []); eo_client_id := Some (lit "client") |}
      pr_nonces 4%nat example_lower_case_facts pr_distinct). cbn; lia.
Qed.

(** Two nonces, clients and URLs: the wallet of [C134_three_rejections_suffice]
    needs its three rejections. *)
Example C134_three_rejections_example : forall w,
  exists e c u, In e [lit "n1"; lit "n2"] /\ In c [lit "client"; lit "other"]
    /\ In u [lit "https://a.example"; lit "https://b.example"] /\ forall seen,
    talk (issuer_shows everything example_deps (fun _ => ev_now) (at_url u ev_metadata) ev_offer (Some ev_document)
      (with_client_id c (with_expected_nonce e (Some {| eo_c_nonce := Some (pr_nonce []); eo_client_id := None |})))) w seen ->
    (List.length seen <= 3)%nat -> forall resp, ~ In (Ok resp) seen.
Proof.
  intros w. apply (C134_three_rejections_needed example_deps w (fun _ => ev_now) ev_metadata ev_offer (Some ev_document)
    (pr_nonce [])); intros E; vm_compute in E; discriminate.
Qed.

(* ------------------------------------------------------------------ *)
(** * C137: until the nonce is sent, every answer is the same whatever the client
    id, the issuer's URL and metadata, the offer and the wallet's document are. *)
Theorem C137_nonce_gates : forall d w clock m m' o o' doc doc' n client client' seen,
  ids_distinct (im_credentials_supported m) -> ids_distinct (im_credentials_supported m') ->
  silent (sends_nonce d) w (cno_expected n) seen ->
  talk (issuer_shows everything d clock m o doc (Some {| eo_c_nonce := Some n; eo_client_id := client |})) w seen ->
  talk (issuer_shows everything d clock m' o' doc' (Some {| eo_c_nonce := Some n; eo_client_id := client' |})) w seen.
Proof. exact nonce_gates. Qed.
Print Assumptions C137_nonce_gates.

(** Until the client id is sent, if one is expected, whatever the issuer's URL and
    metadata, the offer and the document are. *)
Theorem C137_client_id_gates : forall d w clock m m' o o' doc doc' n c seen,
  ids_distinct (im_credentials_supported m) -> ids_distinct (im_credentials_supported m') ->
  silent (sends_client d) w c seen ->
  talk (issuer_shows everything d clock m o doc (Some {| eo_c_nonce := Some n; eo_client_id := Some c |})) w seen ->
  talk (issuer_shows everything d clock m' o' doc' (Some {| eo_c_nonce := Some n; eo_client_id := Some c |})) w seen.
Proof. exact client_gates. Qed.
Print Assumptions C137_client_id_gates.

(** Until a proof has all three of nonce, client id and URL, whatever keys the
    document has. *)
Theorem C137_keys_gated : forall d w clock m o doc doc' n c seen,
  ids_distinct (im_credentials_supported m) ->
  (forall before x after, seen = before ++ x :: after ->
     ~ (sends_nonce d (w before) (cno_expected n) /\ sends_client d (w before) c
        /\ sends_audience d (w before) (im_credential_issuer m))) ->
  talk (issuer_shows everything d clock m o doc (Some {| eo_c_nonce := Some n; eo_client_id := Some c |})) w seen ->
  talk (issuer_shows everything d clock m o doc' (Some {| eo_c_nonce := Some n; eo_client_id := Some c |})) w seen.
Proof. exact document_gates. Qed.
Print Assumptions C137_keys_gated.

(** A wallet whose proof is for nonce [n1] and by [client]. *)
Definition pr_wallet : list verdict -> credential_request := fun _ => ev_request ex_degree "jwt" (ev_good EdDSA).
Lemma pr_wallet_proof seen : exists p, cr_proof (pr_wallet seen) = Some p
  /\ proof_token example_deps (rp_jwt p) (ev_good EdDSA).
Proof. eexists. split; [reflexivity|]. exact (ev_token_good EdDSA). Qed.
Lemma pr_wallet_claims : b_nonce (j_body (ev_good EdDSA)) <> lit "n2" /\ b_iss (j_body (ev_good EdDSA)) <> Some (lit "other").
Proof. split; intros E; vm_compute in E; discriminate. Qed.
Example C137_without_nonce : forall seen,
  silent (sends_nonce example_deps) pr_wallet (lit "n2") seen
  /\ silent (sends_client example_deps) pr_wallet (lit "other") seen.
Proof.
  intros seen. split; intros b x t _ S; destruct (pr_wallet_proof b) as (p & P & T).
  - exact (proj1 pr_wallet_claims (sent_nonce _ _ _ _ _ P T S)).
  - exact (proj2 pr_wallet_claims (sent_client _ _ _ _ _ P T S)).
Qed.
