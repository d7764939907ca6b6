(** Proofs about wallets that learn from rejections. *)
From Coq Require Import Lia.
From Verif Require Import Model.Prelude Model.Base64 Model.Json Model.Types Model.Deps Model.Errors Model.Jwt
  Model.CredentialIssuer Model.Wire
  Spec SpecToken SpecOffer SpecJwt SpecEvaluation SpecSession SpecEvidence SpecGuess SpecProbe
  Proofs.StrFacts Proofs.Utf8Facts Proofs.Base64Facts Proofs.Base64Bits Proofs.JsonFacts Proofs.JwtFacts Proofs.OfferFacts
  Proofs.EvalFacts Proofs.EvalFacts2 Proofs.EvalFacts3 Proofs.SessionFacts Proofs.EvidenceFacts Proofs.GuessFacts.

(* ---------------- what the wallet knows ---------------- *)
Record known : Type := { k_nonce : str; k_iss : option str; k_aud : str }.
Definition learn (k : known) (x : verdict) : known :=
  match x with
  | Err (IJwtError (JNonceMismatch (Some e) _)) => {| k_nonce := e; k_iss := k_iss k; k_aud := k_aud k |}
  | Err (IJwtError (JIssuerMismatch (Some e) _)) => {| k_nonce := k_nonce k; k_iss := Some e; k_aud := k_aud k |}
  | Err (IJwtError (JAudienceMismatch e _)) => {| k_nonce := k_nonce k; k_iss := k_iss k; k_aud := e |}
  | _ => k
  end.

Section Wallet.
Context (d : deps) (alg : proof_alg) (kid : str) (iat : instant) (sign : str -> str) (c : cfp).
Context (HL : lower_case_facts d) (HD : dt_round_trips d) (HK : rust_string kid)
  (HI : in_instant_range iat = true) (HS : forall s, rust_string (sign s) /\ dotless (sign s)).

Definition proof_of (k : known) (sig : str) : proof_jwt :=
  wallet_proof alg kid (k_aud k) (k_nonce k) (k_iss k) iat sig.
Definition input_of (k : known) : str :=
  base64url_encode (header_to_json (j_header (proof_of k []))) ++ lit "."
  ++ base64url_encode (claims_to_json d (j_body (proof_of k []))).
Definition token_of (k : known) : str := input_of k ++ lit "." ++ sign (input_of k).
Definition request_of (k : known) : credential_request :=
  {| cr_format := c; cr_proof := Some {| rp_proof_type := lit "jwt"; rp_jwt := token_of k |} |}.
Definition probing (k : known) : list verdict -> credential_request :=
  fun seen => request_of (fold_left learn seen k).

Definition known_ok (k : known) : Prop :=
  rust_string (k_nonce k) /\ on_some rust_string (k_iss k) /\ rust_string (k_aud k).

Lemma request_signed k : signed_request d alg kid iat sign c (request_of k).
Proof.
  exists (k_nonce k), (k_iss k), (k_aud k), (base64url_encode (header_to_json (j_header (proof_of k [])))),
    (base64url_encode (claims_to_json d (j_body (proof_of k [])))).
  cbv zeta. split; [apply base64_text_url; reflexivity|]. split; [apply base64_text_url; reflexivity|].
  unfold request_of, token_of, input_of. rewrite <- !app_assoc. reflexivity.
Qed.

Lemma token_read k : known_ok k -> proof_token d (token_of k) (proof_of k (sign (input_of k))).
Proof.
  intros (K1 & K2 & K3). destruct (HS (input_of k)) as [S1 S2].
  apply (wallet_token d _ (sign (input_of k))); try assumption; try reflexivity.
  - split; [apply rust_string_ascii; reflexivity|]. intros s [E|[E|E]]; try discriminate E. injection E as <-. exact HK.
  - repeat split; cbn; try assumption. now intros ? [=].
  - repeat split; cbn; try assumption; now intros ? [=].
  - exists (base64url_encode (header_to_json (j_header (proof_of k [])))),
      (base64url_encode (claims_to_json d (j_body (proof_of k [])))).
    split; [apply base64_text_url; reflexivity|]. split; [apply base64_text_url; reflexivity|].
    unfold token_of, input_of. rewrite <- !app_assoc. reflexivity.
Qed.

Section Issuer.
Context (m : issuer_metadata) (o : credential_offer) (doc : Document d) (n : c_nonce_options) (client : option str)
  (u : didurl) (key : jwk) (bytes : str).
Context (M1 : ids_distinct (im_credentials_supported m)) (M2 : representable (nonce_expiry n))
  (M3 : rust_string (cno_expected n)) (M4 : on_some rust_string client) (M5 : rust_string (im_credential_issuer m))
  (M6 : did_url_try_from d kid = inr u) (M7 : document_key d doc kid key) (M8 : public_key key bytes).
Let options := Some {| eo_c_nonce := Some n; eo_client_id := client |}.

Lemma nonce_here : nonce_options options n.
Proof. eexists. split; reflexivity. Qed.
Lemma nonce_only n' : nonce_options options n' -> n' = n.
Proof. intros (op & E & F). injection E as <-. cbn in F. now injection F as <-. Qed.

Lemma checks_pass now k : (now <= nonce_expiry n)%Z -> known_ok k ->
  Forall passes (request_checks d now m (request_of k) (Some o) None options).
Proof.
  intros T K. eapply request_checks_pass; [exact M1| |reflexivity|exact (token_read k K)].
  intros n' N. apply nonce_only in N. subst. auto.
Qed.

Lemma typ_ok k : ascii_ci (h_typ (j_header (proof_of k (sign (input_of k))))) proof_typ.
Proof. apply same_ascii_ci. reflexivity. Qed.

Lemma nonce_unknown now k : (now <= nonce_expiry n)%Z -> known_ok k -> k_nonce k <> cno_expected n ->
  evaluate_credential_request d now m (request_of k) (Some o) None (Some doc) options
  = Err (IJwtError (JNonceMismatch (Some (cno_expected n)) (k_nonce k))).
Proof.
  intros T K N.
  exact (nonce_obtained d now m (request_of k) o (Some doc) options n _ (proof_of k (sign (input_of k)))
    HL M1 nonce_here M2 T eq_refl (token_read k K) (typ_ok k) N).
Qed.

Lemma client_unknown now k x : (now <= nonce_expiry n)%Z -> known_ok k -> k_nonce k = cno_expected n ->
  client = Some x -> k_iss k <> Some x ->
  evaluate_credential_request d now m (request_of k) (Some o) None (Some doc) options
  = Err (IJwtError (JIssuerMismatch (Some x) (k_iss k))).
Proof.
  intros T K N C I. apply (proj1 (proj2 (evaluate_outcomes d now m _ (Some o) None (Some doc) options HL))).
  right. split; [now apply checks_pass|].
  exists {| rp_proof_type := lit "jwt"; rp_jwt := token_of k |}, (proof_of k (sign (input_of k))), o.
  repeat split; [now apply token_read|]. unfold token_checks.
  apply first_reports_cons. right. split; [apply typ_ok|].
  apply first_reports_cons. right. split; [exists n; split; [apply nonce_here|exact N]|].
  apply first_reports_cons. left. cbn [reports]. unfold options, iss_allowed, client_id.
  cbn [eo_client_id]. rewrite C. split; [exact I|reflexivity].
Qed.

Lemma audience_unknown now k : (now <= nonce_expiry n)%Z -> known_ok k -> k_nonce k = cno_expected n ->
  k_iss k = client -> k_aud k <> im_credential_issuer m ->
  evaluate_credential_request d now m (request_of k) (Some o) None (Some doc) options
  = Err (IJwtError (JAudienceMismatch (im_credential_issuer m) (k_aud k))).
Proof.
  intros T K N C I. apply (proj1 (proj2 (evaluate_outcomes d now m _ (Some o) None (Some doc) options HL))).
  right. split; [now apply checks_pass|].
  exists {| rp_proof_type := lit "jwt"; rp_jwt := token_of k |}, (proof_of k (sign (input_of k))), o.
  repeat split; [now apply token_read|]. unfold token_checks.
  apply first_reports_cons. right. split; [apply typ_ok|].
  apply first_reports_cons. right. split; [exists n; split; [apply nonce_here|exact N]|].
  apply first_reports_cons. right. split.
  { cbn [passes]. unfold options, iss_allowed. cbn [eo_client_id]. cbn. rewrite C. destruct client; auto. }
  apply first_reports_cons. left. cbn [reports]. split; [exact I|reflexivity].
Qed.

Lemma all_known now k : (now <= nonce_expiry n)%Z -> known_ok k -> k_nonce k = cno_expected n ->
  k_iss k = client -> k_aud k = im_credential_issuer m ->
  exists resp, evaluate_credential_request d now m (request_of k) (Some o) None (Some doc) options = Ok resp
    /\ er_subject_id resp = Some (du_did u) /\ er_credential resp = c.
Proof.
  intros T K N C I. set (j := proof_of k (sign (input_of k))).
  destruct (raw_signed d j) as [s2 S2]; [discriminate|].
  destruct (proj2 (proj2 (message_determined (raw_text d j)))) as [msg S1].
  exists {| er_pop := Some {| pop_algorithm := alg; pop_public_key := bytes; pop_message := msg; pop_signature := s2 |};
            er_subject_id := Some (du_did u); er_credential := c |}.
  split; [|split; reflexivity].
  apply (evaluate_outcomes d _ _ _ _ _ _ _ HL). split; [now apply checks_pass|].
  exists {| rp_proof_type := lit "jwt"; rp_jwt := token_of k |}, j, o, bytes, msg, s2, (Some (du_did u)).
  assert (P : proof_key d (Some doc) (h_additional (j_header j)) bytes) by now apply key_of_kid with doc key.
  assert (Q : proof_did d (h_additional (j_header j)) (Some (du_did u))) by now constructor.
  split; [reflexivity|]. split; [now apply token_read|]. split; [reflexivity|]. split.
  { unfold token_checks. apply Forall_cons; [apply typ_ok|].
    apply Forall_cons; [exists n; split; [apply nonce_here|exact N]|].
    apply Forall_cons.
    { cbn [passes]. unfold options, iss_allowed. cbn. rewrite C. destruct client; auto. }
    apply Forall_cons; [exact I|]. apply Forall_cons; [now exists bytes|].
    apply Forall_cons; [now exists s2|]. apply Forall_cons; [exists (Some (du_did u)); exact Q|]. apply Forall_nil. }
  repeat split; assumption.
Qed.

(* ---------------- the run ---------------- *)
Context (clock : nat -> instant) (M9 : forall i, (clock i <= nonce_expiry n)%Z).
Let asked := talk (issuer_shows everything d clock m o (Some doc) options).

Lemma ask_next w seen : asked w seen ->
  asked w (seen ++ [evaluate_credential_request d (clock (List.length seen)) m (w seen) (Some o) None (Some doc) options]).
Proof. intros D. exact (talk_next (issuer_shows everything d clock m o (Some doc) options) w seen D). Qed.

Lemma fold_snoc k seen x : fold_left learn (seen ++ [x]) k = learn (fold_left learn seen k) x.
Proof. now rewrite fold_left_app. Qed.

Definition accepted_after (k : known) (seen : list verdict) (l : nat) : Prop :=
  exists more resp, asked (probing k) ((seen ++ more) ++ [Ok resp]) /\ (List.length more <= l)%nat
    /\ er_subject_id resp = Some (du_did u) /\ er_credential resp = c.

Lemma after_audience k seen : asked (probing k) seen -> known_ok (fold_left learn seen k) ->
  k_nonce (fold_left learn seen k) = cno_expected n -> k_iss (fold_left learn seen k) = client ->
  k_aud (fold_left learn seen k) = im_credential_issuer m -> accepted_after k seen 0.
Proof.
  intros D K N C I. destruct (all_known (clock (List.length seen)) _ (M9 _) K N C I) as [resp [E R]].
  exists [], resp. rewrite app_nil_r. split; [|split; [cbn; lia|exact R]].
  rewrite <- E. now apply ask_next.
Qed.

Lemma more_after k seen x l : accepted_after k (seen ++ [x]) l -> accepted_after k seen (S l).
Proof.
  intros (more & resp & D & L & R). exists (x :: more), resp.
  replace (seen ++ x :: more) with ((seen ++ [x]) ++ more) by now rewrite <- app_assoc.
  split; [exact D|]. split; [cbn [List.length]; lia|exact R].
Qed.

Lemma str_dec (x y : str) : {x = y} + {x <> y}.
Proof. apply (list_eq_dec ascii_dec). Qed.

Lemma after_client k seen : asked (probing k) seen -> known_ok (fold_left learn seen k) ->
  k_nonce (fold_left learn seen k) = cno_expected n -> k_iss (fold_left learn seen k) = client ->
  accepted_after k seen 1.
Proof.
  intros D K N C. destruct (str_dec (k_aud (fold_left learn seen k)) (im_credential_issuer m)) as [E|E].
  - destruct (after_audience k seen D K N C E) as (more & resp & H & L & R). exists more, resp. repeat split; try apply R; auto; lia.
  - pose proof (audience_unknown (clock (List.length seen)) _ (M9 _) K N C E) as A.
    apply ask_next in D. unfold probing at 2 in D. rewrite A in D.
    eapply more_after. eapply after_audience; [exact D| | | |]; rewrite fold_snoc; cbn [learn k_nonce k_iss k_aud]; auto.
    destruct K as (K1 & K2 & K3). repeat split; assumption.
Qed.

Lemma after_nonce k seen : asked (probing k) seen -> known_ok (fold_left learn seen k) ->
  k_nonce (fold_left learn seen k) = cno_expected n ->
  (k_iss (fold_left learn seen k) = None \/ k_iss (fold_left learn seen k) = client) ->
  accepted_after k seen 2.
Proof.
  intros D K N C.
  assert (k_iss (fold_left learn seen k) = client
          \/ exists x, client = Some x /\ k_iss (fold_left learn seen k) <> Some x) as [E|(x & Cx & E)].
  { destruct C as [C|C]; [|now left]. destruct client as [x|]; [|now left]. right. exists x. rewrite C.
    split; [reflexivity|discriminate]. }
  - destruct (after_client k seen D K N E) as (more & resp & H & L & R). exists more, resp. repeat split; try apply R; auto; lia.
  - pose proof (client_unknown (clock (List.length seen)) _ x (M9 _) K N Cx E) as A.
    apply ask_next in D. unfold probing at 2 in D. rewrite A in D.
    eapply more_after. eapply after_client; [exact D| | |]; rewrite fold_snoc; cbn [learn k_nonce k_iss k_aud]; auto.
    destruct K as (K1 & K2 & K3). repeat split; try assumption. cbn. intros y Y. injection Y as <-. now apply M4.
Qed.

Lemma after_start k : known_ok k -> k_iss k = None -> accepted_after k [] 3.
Proof.
  intros K C. pose proof (talk_start (issuer_shows everything d clock m o (Some doc) options) (probing k)) as D.
  fold asked in D. destruct (str_dec (k_nonce k) (cno_expected n)) as [E|E].
  - destruct (after_nonce k [] D K E (or_introl C)) as (more & resp & H & L & R). exists more, resp. repeat split; try apply R; auto; lia.
  - pose proof (nonce_unknown (clock 0%nat) k (M9 _) K E) as A.
    apply ask_next in D. unfold probing at 2 in D. cbn [fold_left List.length] in D. rewrite A in D.
    eapply more_after. eapply after_nonce; [exact D| | |]; cbn [app fold_left learn k_nonce k_iss k_aud]; auto.
    destruct K as (K1 & K2 & K3). repeat split; assumption.
Qed.
End Issuer.
End Wallet.

Lemma three_rejections d alg kid iat sign c guess_nonce guess_aud :
  lower_case_facts d -> dt_round_trips d -> rust_string kid -> in_instant_range iat = true ->
  (forall s, rust_string (sign s) /\ dotless (sign s)) -> rust_string guess_nonce -> rust_string guess_aud ->
  exists w : list verdict -> credential_request,
    (forall seen, signed_request d alg kid iat sign c (w seen))
    /\ forall m o doc n client u key bytes clock,
    ids_distinct (im_credentials_supported m) -> representable (nonce_expiry n) ->
    (forall i, (clock i <= nonce_expiry n)%Z) ->
    rust_string (cno_expected n) -> on_some rust_string client -> rust_string (im_credential_issuer m) ->
    did_url_try_from d kid = inr u -> document_key d doc kid key -> public_key key bytes ->
    exists seen resp,
      talk (issuer_shows everything d clock m o (Some doc) (Some {| eo_c_nonce := Some n; eo_client_id := client |})) w
        (seen ++ [Ok resp])
      /\ (List.length seen <= 3)%nat /\ er_subject_id resp = Some (du_did u) /\ er_credential resp = c.
Proof.
  intros HL HD HK HI HS G1 G2.
  exists (probing d alg kid iat sign c {| k_nonce := guess_nonce; k_iss := None; k_aud := guess_aud |}).
  split; [intros seen; apply request_signed|].
  intros m o doc n client u key bytes clock M1 M2 M9 M3 M4 M5 M6 M7 M8.
  destruct (after_start d alg kid iat sign c HL HD HK HI HS m o doc n client u key bytes M1 M2 M3 M4 M5 M6 M7 M8 clock M9
    {| k_nonce := guess_nonce; k_iss := None; k_aud := guess_aud |}) as (more & resp & D & L & R).
  - repeat split; try assumption. now intros ? [=].
  - reflexivity.
  - exists more, resp. auto.
Qed.

(* ---------------- with the numbers only ---------------- *)
Lemma request_part_nonce d now m r offer asm e1 e2 options :
  request_part d now m r offer asm (with_expected_nonce e1 options)
  = request_part d now m r offer asm (with_expected_nonce e2 options).
Proof. unfold request_part. now rewrite !with_expected_expiry. Qed.

Lemma nonce_not_sent d now m r offer asm doc options e1 e2 :
  ~ sends_nonce d r e1 -> ~ sends_nonce d r e2 ->
  number_only (evaluate_credential_request d now m r offer asm doc (with_expected_nonce e1 options))
  = number_only (evaluate_credential_request d now m r offer asm doc (with_expected_nonce e2 options)).
Proof.
  intros N1 N2. destruct (cr_proof r) as [p|] eqn:P.
  - destruct (jwt_from_str d (rp_jwt p)) as [j|e|] eqn:J.
    + assert (T : proof_token d (rp_jwt p) j) by now apply proof_token_iff.
      destruct (nonce_disclosure d now m r offer asm doc options p j e1 e2 P T) as [-> | [-> ->]]; try reflexivity.
      * intros E. apply N1. now exists p, j.
      * intros E. apply N2. now exists p, j.
    + rewrite !evaluate_split, (request_part_nonce d now m r offer asm e1 e2).
      unfold request_part. rewrite P. cbn [ok_or bind]. rewrite J. cbn [map_err bind].
      destruct (map_err _ _) as [?|?|]; cbn [bind]; try reflexivity.
      destruct (ok_or offer _) as [?|?|]; cbn [bind]; try reflexivity.
      destruct asm; cbn [bind]; try reflexivity.
      destruct (check_nonce_expiry _ _) as [?|?|]; reflexivity.
    + rewrite !evaluate_split, (request_part_nonce d now m r offer asm e1 e2).
      unfold request_part. rewrite P. cbn [ok_or bind]. rewrite J. cbn [map_err bind].
      destruct (map_err _ _) as [?|?|]; cbn [bind]; try reflexivity.
      destruct (ok_or offer _) as [?|?|]; cbn [bind]; try reflexivity.
      destruct asm; cbn [bind]; try reflexivity.
      destruct (check_nonce_expiry _ _) as [?|?|]; reflexivity.
  - rewrite !evaluate_split, (request_part_nonce d now m r offer asm e1 e2).
    unfold request_part. rewrite P. cbn [ok_or bind].
    destruct (map_err _ _) as [?|?|]; cbn [bind]; try reflexivity.
    destruct (ok_or offer _) as [?|?|]; cbn [bind]; try reflexivity.
    destruct asm; cbn [bind]; try reflexivity.
    destruct (check_nonce_expiry _ _) as [?|?|]; reflexivity.
Qed.

Lemma sends_nonce_dec d r e : {sends_nonce d r e} + {~ sends_nonce d r e}.
Proof.
  destruct (cr_proof r) as [p|] eqn:P.
  - destruct (jwt_from_str d (rp_jwt p)) as [j|x|] eqn:J.
    + destruct (str_dec (b_nonce (j_body j)) e) as [E|E].
      * left. exists p, j. split; [exact P|]. split; [now apply proof_token_iff|exact E].
      * right. intros (p' & j' & P' & T & F). rewrite P in P'. injection P' as <-.
        apply proof_token_iff in T. congruence.
    + right. intros (p' & j' & P' & T & F). rewrite P in P'. injection P' as <-.
      apply proof_token_iff in T. congruence.
    + right. intros (p' & j' & P' & T & F). rewrite P in P'. injection P' as <-.
      apply proof_token_iff in T. congruence.
  - right. intros (p' & j' & P' & _). congruence.
Qed.

Lemma nonces_needed d w clock m o doc options nonces k : lower_case_facts d ->
  NoDup nonces -> (k < List.length nonces)%nat ->
  exists e, In e nonces /\ forall seen,
    talk (issuer_shows number_only d clock m o doc (with_expected_nonce e options)) w seen ->
    (List.length seen <= k)%nat -> ~ In (Ok tt) seen.
Proof.
  intros HL ND L.
  destruct (unopened (A := res N unit) (sends_nonce d) (sends_nonce_dec d)) with (a := w) (secrets := nonces) (k := k)
    (open := fun x : res N unit => x = Ok tt)
    (ask := fun e => issuer_shows number_only d clock m o doc (with_expected_nonce e options)) as [e [I H]];
    try assumption.
  - intros r s t (p & j & P & T & E) (p' & j' & P' & T' & E'). rewrite P in P'. injection P' as <-.
    apply proof_token_iff in T, T'. congruence.
  - intros i r s t. apply nonce_not_sent.
  - intros i r e E. unfold issuer_shows, number_only in E.
    destruct (evaluate_credential_request d (clock i) m r (Some o) None doc (with_expected_nonce e options))
      as [resp|x|] eqn:V; try discriminate.
    apply (evaluate_outcomes d _ _ _ _ _ _ _ HL) in V.
    destruct V as (_ & p & j & o' & key & message & signature & did & P & T & _ & F & _).
    exists p, j. split; [exact P|]. split; [exact T|].
    unfold token_checks in F. inversion F as [|? ? _ F1]; subst. inversion F1 as [|? ? Fn _]; subst.
    cbn [passes] in Fn. destruct Fn as (n & (op & Eo & En) & ->).
    destruct options as [[[q|] cl]|]; cbn in Eo; try discriminate; injection Eo as <-; cbn in En; try discriminate.
    injection En as <-. reflexivity.
  - exists e. split; [exact I|]. intros seen D Ls. now apply (H seen D Ls).
Qed.

Lemma request_part_client d now m r offer asm c1 c2 options :
  request_part d now m r offer asm (with_client_id c1 options)
  = request_part d now m r offer asm (with_client_id c2 options).
Proof. unfold request_part. destruct options; reflexivity. Qed.

(** Requests without a readable token are refused before the options matter. *)
Lemma unread_request d now m r offer asm options :
  (forall p j, cr_proof r = Some p -> ~ proof_token d (rp_jwt p) j) ->
  forall x, request_part d now m r offer asm options <> Ok x.
Proof.
  intros U x. unfold request_part.
  destruct (map_err _ (metadata_validate m)) as [?|?|]; cbn [bind]; try discriminate.
  destruct (ok_or offer _) as [?|?|]; cbn [bind]; try discriminate.
  destruct asm; cbn [bind]; try discriminate.
  destruct (check_nonce_expiry _ _) as [?|?|]; cbn [bind]; try discriminate.
  destruct (cr_proof r) as [p|] eqn:P; cbn [ok_or bind]; try discriminate.
  destruct (jwt_from_str d (rp_jwt p)) as [j|?|] eqn:J; cbn [map_err bind]; try discriminate.
  exfalso. apply (U p j eq_refl). now apply proof_token_iff.
Qed.

Lemma client_not_sent d now m r offer asm doc options c1 c2 :
  ~ sends_client d r c1 -> ~ sends_client d r c2 ->
  number_only (evaluate_credential_request d now m r offer asm doc (with_client_id c1 options))
  = number_only (evaluate_credential_request d now m r offer asm doc (with_client_id c2 options)).
Proof.
  intros N1 N2.
  assert ((exists p j, cr_proof r = Some p /\ proof_token d (rp_jwt p) j)
          \/ forall p j, cr_proof r = Some p -> ~ proof_token d (rp_jwt p) j) as [(p & j & P & T)|U].
  { destruct (cr_proof r) as [p|]; [|right; discriminate].
    destruct (jwt_from_str d (rp_jwt p)) as [j|?|] eqn:J.
    - left. exists p, j. split; [reflexivity|now apply proof_token_iff].
    - right. intros q j E T. injection E as <-. apply proof_token_iff in T. congruence.
    - right. intros q j E T. injection E as <-. apply proof_token_iff in T. congruence. }
  - destruct (client_id_disclosure d now m r offer asm doc options p j c1 c2 P T) as [-> | [-> ->]]; try reflexivity.
    + intros E. apply N1. now exists p, j.
    + intros E. apply N2. now exists p, j.
  - rewrite !evaluate_split, (request_part_client d now m r offer asm c1 c2).
    pose proof (unread_request d now m r offer asm (with_client_id c2 options) U) as V.
    destruct (request_part _ _ _ _ _ _ _) as [x|e|]; [|reflexivity..]. exfalso. now apply (V x).
Qed.

Lemma sends_client_dec d r e : {sends_client d r e} + {~ sends_client d r e}.
Proof.
  destruct (cr_proof r) as [p|] eqn:P; [|right; intros (p' & j' & P' & _); congruence].
  destruct (jwt_from_str d (rp_jwt p)) as [j|x|] eqn:J.
  - destruct (b_iss (j_body j)) as [y|] eqn:Y; [destruct (str_dec y e) as [->|E]|].
    + left. exists p, j. split; [exact P|]. split; [now apply proof_token_iff|exact Y].
    + right. intros (p' & j' & P' & T & F). rewrite P in P'. injection P' as <-.
      apply proof_token_iff in T. congruence.
    + right. intros (p' & j' & P' & T & F). rewrite P in P'. injection P' as <-.
      apply proof_token_iff in T. congruence.
  - right. intros (p' & j' & P' & T & F). rewrite P in P'. injection P' as <-.
    apply proof_token_iff in T. congruence.
  - right. intros (p' & j' & P' & T & F). rewrite P in P'. injection P' as <-.
    apply proof_token_iff in T. congruence.
Qed.

Lemma clients_needed d w clock m o doc opts clients k : lower_case_facts d ->
  NoDup clients -> (k < List.length clients)%nat ->
  exists x, In x clients /\ forall seen,
    talk (issuer_shows number_only d clock m o doc (with_client_id x (Some opts))) w seen ->
    (List.length seen <= k)%nat -> ~ In (Ok tt) seen.
Proof.
  intros HL ND L.
  destruct (unopened (A := res N unit) (sends_client d) (sends_client_dec d)) with (a := w) (secrets := clients) (k := k)
    (open := fun x : res N unit => x = Ok tt)
    (ask := fun x => issuer_shows number_only d clock m o doc (with_client_id x (Some opts))) as [e [I H]];
    try assumption.
  - intros r s t (p & j & P & T & E) (p' & j' & P' & T' & E'). rewrite P in P'. injection P' as <-.
    apply proof_token_iff in T, T'. congruence.
  - intros i r s t. apply client_not_sent.
  - intros i r x E. unfold issuer_shows, number_only in E.
    destruct (evaluate_credential_request d (clock i) m r (Some o) None doc (with_client_id x (Some opts)))
      as [resp|y|] eqn:V; try discriminate.
    pose proof V as V'. apply (evaluate_outcomes d _ _ _ _ _ _ _ HL) in V'.
    destruct V' as (_ & p & j & o' & key & message & signature & did & P & T & _).
    exists p, j. split; [exact P|]. split; [exact T|].
    exact (client_id_required d (clock i) m r (Some o) None doc
      {| eo_c_nonce := eo_c_nonce opts; eo_client_id := Some x |} resp x p j HL eq_refl V P T).
  - exists e. split; [exact I|]. intros seen D Ls. now apply (H seen D Ls).
Qed.

(* ---------------- fewer rejections do not suffice ---------------- *)
Section Needed.
Context (d : deps) (m : issuer_metadata) (o : credential_offer) (doc : option (Document d)) (n : c_nonce_options).

Definition settings (e c : str) : option eval_options :=
  with_client_id c (with_expected_nonce e (Some {| eo_c_nonce := Some n; eo_client_id := None |})).
Definition ruling (e c u : str) (now : instant) (r : credential_request) : verdict :=
  evaluate_credential_request d now (at_url u m) r (Some o) None doc (settings e c).

Lemma request_part_same e c u e' c' u' now r :
  request_part d now (at_url u m) r (Some o) None (settings e c)
  = request_part d now (at_url u' m) r (Some o) None (settings e' c').
Proof. reflexivity. Qed.

Lemma request_part_read e c u now r j o' :
  request_part d now (at_url u m) r (Some o) None (settings e c) = Ok (j, o') ->
  exists p, cr_proof r = Some p /\ proof_token d (rp_jwt p) j.
Proof.
  unfold request_part.
  destruct (map_err _ (metadata_validate _)) as [?|?|]; cbn [bind]; try discriminate.
  cbn [ok_or bind].
  destruct (check_nonce_expiry _ _) as [?|?|]; cbn [bind]; try discriminate.
  destruct (cr_proof r) as [p|]; cbn [ok_or bind]; try discriminate.
  destruct (jwt_from_str d (rp_jwt p)) as [j'|?|] eqn:J; cbn [map_err bind]; try discriminate.
  intros E. injection E as -> _. exists p. split; [reflexivity|]. now apply proof_token_iff.
Qed.

Lemma without_nonce e c u c' u' now r : ~ sends_nonce d r e ->
  ruling e c u now r = ruling e c' u' now r /\ forall x, ruling e c u now r <> Ok x.
Proof.
  intros N. unfold ruling. rewrite !evaluate_split, (request_part_same e c u e c' u').
  destruct (request_part d now (at_url u' m) r (Some o) None (settings e c')) as [[j o']|x|] eqn:Q;
    [|split; [reflexivity|discriminate]..].
  apply request_part_read in Q as (p & P & T). cbn [bind fst snd]. unfold token_part.
  destruct (map_err IValidationError (jwt_validate d j)) as [[]|x|]; cbn [bind]; [|split; [reflexivity|discriminate]..].
  cbn [settings with_client_id with_expected_nonce option_map opt_bind eo_c_nonce cno_expected]. unfold jwt_check_nonce.
  rewrite opt_str_eqb_neq by (intros E; apply N; now exists p, j). split; [reflexivity|discriminate].
Qed.

Lemma without_client e c u u' now r : ~ sends_client d r c ->
  ruling e c u now r = ruling e c u' now r /\ forall x, ruling e c u now r <> Ok x.
Proof.
  intros N. unfold ruling. rewrite !evaluate_split, (request_part_same e c u e c u').
  destruct (request_part d now (at_url u' m) r (Some o) None (settings e c)) as [[j o']|x|] eqn:Q;
    [|split; [reflexivity|discriminate]..].
  apply request_part_read in Q as (p & P & T). cbn [bind fst snd]. unfold token_part.
  destruct (map_err IValidationError (jwt_validate d j)) as [[]|x|]; cbn [bind]; [|split; [reflexivity|discriminate]..].
  destruct (map_err IJwtError (jwt_check_nonce _ _)) as [[]|x|]; cbn [bind]; [|split; [reflexivity|discriminate]..].
  unfold should_validate_iss.
  cbn [settings with_client_id with_expected_nonce option_map opt_bind eo_client_id is_some orb]. unfold jwt_check_iss.
  replace (opt_str_eqb (b_iss (j_body j)) (Some c)) with false; [split; [reflexivity|discriminate]|].
  destruct (b_iss (j_body j)) as [y|] eqn:Y; [|reflexivity]. symmetry. apply opt_str_eqb_neq.
  intros ->. apply N. now exists p, j.
Qed.

Lemma without_audience e c u now r x : ~ sends_audience d r u -> ruling e c u now r <> Ok x.
Proof.
  intros N. unfold ruling. rewrite evaluate_split.
  destruct (request_part d now (at_url u m) r (Some o) None (settings e c)) as [[j o']|y|] eqn:Q; [|discriminate..].
  apply request_part_read in Q as (p & P & T). cbn [bind fst snd]. unfold token_part.
  destruct (map_err IValidationError (jwt_validate d j)) as [[]|y|]; cbn [bind]; [|discriminate..].
  destruct (map_err IJwtError (jwt_check_nonce _ _)) as [[]|y|]; cbn [bind]; [|discriminate..].
  match goal with |- context [if ?b then ?s else ?t] => destruct (if b then s else t) as [[]|y|] end; cbn [bind]; [|discriminate..].
  unfold jwt_check_aud. cbn [at_url im_credential_issuer].
  destruct (str_eqb (b_aud (j_body j)) u) eqn:U; [|discriminate].
  exfalso. apply N. exists p, j. split; [exact P|]. split; [exact T|]. now apply str_eqb_eq.
Qed.

(** Of two values a request does not send one. *)
Lemma one_not_sent (sends : credential_request -> str -> Prop) r x y :
  (forall a b, sends r a -> sends r b -> a = b) -> (forall a, {sends r a} + {~ sends r a}) -> x <> y ->
  exists z, In z [x; y] /\ ~ sends r z.
Proof.
  intros One Dec Ne. destruct (Dec x) as [X|X]; [|exists x; split; [now left|exact X]].
  exists y. split; [right; now left|]. intros Y. apply Ne. now apply One.
Qed.

Lemma sends_audience_dec r u : {sends_audience d r u} + {~ sends_audience d r u}.
Proof.
  destruct (cr_proof r) as [p|] eqn:P; [|right; intros (p' & j' & P' & _); congruence].
  destruct (jwt_from_str d (rp_jwt p)) as [j|x|] eqn:J.
  - destruct (str_dec (b_aud (j_body j)) u) as [E|E].
    + left. exists p, j. split; [exact P|]. split; [now apply proof_token_iff|exact E].
    + right. intros (p' & j' & P' & T & F). rewrite P in P'. injection P' as <-.
      apply proof_token_iff in T. congruence.
  - right. intros (p' & j' & P' & T & F). rewrite P in P'. injection P' as <-.
    apply proof_token_iff in T. congruence.
  - right. intros (p' & j' & P' & T & F). rewrite P in P'. injection P' as <-.
    apply proof_token_iff in T. congruence.
Qed.

Lemma sends_one (f : proof_jwt -> option str) r a b :
  (exists p j, cr_proof r = Some p /\ proof_token d (rp_jwt p) j /\ f j = Some a) ->
  (exists p j, cr_proof r = Some p /\ proof_token d (rp_jwt p) j /\ f j = Some b) -> a = b.
Proof.
  intros (p & j & P & T & E) (p' & j' & P' & T' & E'). rewrite P in P'. injection P' as <-.
  apply proof_token_iff in T, T'. congruence.
Qed.

Lemma rejections_needed w clock n1 n2 c1 c2 u1 u2 : n1 <> n2 -> c1 <> c2 -> u1 <> u2 ->
  exists e c u, In e [n1; n2] /\ In c [c1; c2] /\ In u [u1; u2] /\ forall seen,
    talk (issuer_shows everything d clock (at_url u m) o doc (settings e c)) w seen ->
    (List.length seen <= 3)%nat -> forall resp, ~ In (Ok resp) seen.
Proof.
  intros N C U.
  destruct (one_not_sent (sends_nonce d) (w []) n1 n2) as (e & Ie & Ne); [|apply sends_nonce_dec|exact N|].
  { intros a b (p & j & P & T & E) (p' & j' & P' & T' & E'). rewrite P in P'. injection P' as <-.
    apply proof_token_iff in T, T'. congruence. }
  set (x0 := ruling e c1 u1 (clock 0%nat) (w [])).
  destruct (one_not_sent (sends_client d) (w [x0]) c1 c2) as (c & Ic & Nc); [|apply sends_client_dec|exact C|].
  { intros a b. exact (sends_one (fun j => b_iss (j_body j)) (w [x0]) a b). }
  set (x1 := ruling e c u1 (clock 1%nat) (w [x0])).
  destruct (one_not_sent (sends_audience d) (w [x0; x1]) u1 u2) as (u & Iu & Nu); [|apply sends_audience_dec|exact U|].
  { intros a b (p & j & P & T & E) (p' & j' & P' & T' & E'). rewrite P in P'. injection P' as <-.
    apply proof_token_iff in T, T'. congruence. }
  exists e, c, u. split; [exact Ie|]. split; [exact Ic|]. split; [exact Iu|].
  set (x2 := ruling e c u (clock 2%nat) (w [x0; x1])).
  set (ask := issuer_shows everything d clock (at_url u m) o doc (settings e c)).
  assert (D : talk ask w [x0; x1; x2]).
  { pose proof (talk_start ask w) as D0. apply talk_next in D0. cbn [List.length app] in D0.
    change (ask 0%nat (w [])) with (ruling e c u (clock 0%nat) (w [])) in D0.
    rewrite (proj1 (without_nonce e c u c1 u1 (clock 0%nat) (w []) Ne)) in D0. fold x0 in D0.
    apply talk_next in D0. cbn [List.length app] in D0.
    change (ask 1%nat (w [x0])) with (ruling e c u (clock 1%nat) (w [x0])) in D0.
    rewrite (proj1 (without_client e c u u1 (clock 1%nat) (w [x0]) Nc)) in D0. fold x1 in D0.
    apply talk_next in D0. exact D0. }
  assert (B : forall resp, ~ In (Ok resp) [x0; x1; x2]).
  { intros resp [I|[I|[I|[]]]].
    - exact (proj2 (without_nonce e c1 u1 c1 u1 (clock 0%nat) (w []) Ne) resp I).
    - exact (proj2 (without_client e c u1 u1 (clock 1%nat) (w [x0]) Nc) resp I).
    - exact (without_audience e c u (clock 2%nat) (w [x0; x1]) resp Nu I). }
  intros seen T L resp I. apply (B resp).
  assert (seen = firstn (List.length seen) [x0; x1; x2]) as E.
  { apply (talk_det ask w); [exact T|apply talk_prefix; [exact D|cbn [List.length]; exact L]|].
    rewrite firstn_length. cbn [List.length]. unfold verdict in *. lia. }
  rewrite <- (firstn_skipn (List.length seen) [x0; x1; x2]). apply in_or_app. left. now rewrite <- E.
Qed.
End Needed.

(* ---------------- who learns what ---------------- *)
Definition its_settings (n : c_nonce_options) (client : option str) : option eval_options :=
  Some {| eo_c_nonce := Some n; eo_client_id := client |}.

Lemma request_part_alike d now m m' r o o' n client client' :
  ids_distinct (im_credentials_supported m) -> ids_distinct (im_credentials_supported m') ->
  match request_part d now m r (Some o) None (its_settings n client) with
  | Ok (j, o1) => request_part d now m' r (Some o') None (its_settings n client') = Ok (j, o') /\ o1 = o
                  /\ exists p, cr_proof r = Some p /\ proof_token d (rp_jwt p) j
  | Err e => request_part d now m' r (Some o') None (its_settings n client') = Err e
  | Panic => request_part d now m' r (Some o') None (its_settings n client') = Panic
  end.
Proof.
  intros D D'. apply metadata_validate_ok in D, D'. unfold request_part. rewrite D, D'. cbn [map_err bind ok_or].
  change (check_nonce_expiry now (its_settings n client)) with (check_nonce_expiry now (its_settings n client')).
  destruct (check_nonce_expiry now (its_settings n client')) as [[]|e|]; cbn [bind]; [|reflexivity..].
  destruct (cr_proof r) as [p|]; cbn [ok_or bind]; [|reflexivity].
  destruct (jwt_from_str d (rp_jwt p)) as [j|e|] eqn:J; cbn [map_err bind]; [|reflexivity..].
  split; [reflexivity|]. split; [reflexivity|]. exists p. split; [reflexivity|]. now apply proof_token_iff.
Qed.

Lemma nonce_first d now m m' r o o' doc doc' n client client' :
  ids_distinct (im_credentials_supported m) -> ids_distinct (im_credentials_supported m') ->
  ~ sends_nonce d r (cno_expected n) ->
  evaluate_credential_request d now m r (Some o) None doc (its_settings n client)
  = evaluate_credential_request d now m' r (Some o') None doc' (its_settings n client').
Proof.
  intros D D' N. rewrite !evaluate_split.
  pose proof (request_part_alike d now m m' r o o' n client client' D D') as A.
  destruct (request_part d now m r (Some o) None (its_settings n client)) as [[j o1]|e|];
    [destruct A as (-> & -> & p & P & T)|rewrite A; reflexivity..].
  cbn [bind fst snd]. unfold token_part.
  destruct (map_err IValidationError (jwt_validate d j)) as [[]|x|]; cbn [bind]; [|reflexivity..].
  cbn [its_settings option_map opt_bind eo_c_nonce]. unfold jwt_check_nonce.
  now rewrite opt_str_eqb_neq by (intros E; apply N; now exists p, j).
Qed.

Lemma client_second d now m m' r o o' doc doc' n c :
  ids_distinct (im_credentials_supported m) -> ids_distinct (im_credentials_supported m') ->
  ~ sends_client d r c ->
  evaluate_credential_request d now m r (Some o) None doc (its_settings n (Some c))
  = evaluate_credential_request d now m' r (Some o') None doc' (its_settings n (Some c)).
Proof.
  intros D D' N. rewrite !evaluate_split.
  pose proof (request_part_alike d now m m' r o o' n (Some c) (Some c) D D') as A.
  destruct (request_part d now m r (Some o) None (its_settings n (Some c))) as [[j o1]|e|];
    [destruct A as (-> & -> & p & P & T)|rewrite A; reflexivity..].
  cbn [bind fst snd]. unfold token_part.
  destruct (map_err IValidationError (jwt_validate d j)) as [[]|x|]; cbn [bind]; [|reflexivity..].
  destruct (map_err IJwtError (jwt_check_nonce _ _)) as [[]|x|]; cbn [bind]; [|reflexivity..].
  unfold should_validate_iss. cbn [its_settings option_map opt_bind eo_client_id is_some orb]. unfold jwt_check_iss.
  replace (opt_str_eqb (b_iss (j_body j)) (Some c)) with false; [reflexivity|].
  destruct (b_iss (j_body j)) as [y|] eqn:Y; [|reflexivity]. symmetry. apply opt_str_eqb_neq.
  intros ->. apply N. now exists p, j.
Qed.

Lemma audience_third d now m r o doc doc' options :
  ~ sends_audience d r (im_credential_issuer m) ->
  evaluate_credential_request d now m r (Some o) None doc options
  = evaluate_credential_request d now m r (Some o) None doc' options.
Proof.
  intros N. rewrite !evaluate_split.
  destruct (request_part d now m r (Some o) None options) as [[j o1]|e|] eqn:Q; [|reflexivity..].
  cbn [bind fst snd]. unfold token_part.
  destruct (map_err IValidationError (jwt_validate d j)) as [[]|x|]; cbn [bind]; [|reflexivity..].
  destruct (map_err IJwtError (jwt_check_nonce _ _)) as [[]|x|]; cbn [bind]; [|reflexivity..].
  match goal with |- context [if ?b then ?s else ?t] => destruct (if b then s else t) as [[]|y|] end; cbn [bind]; [|reflexivity..].
  unfold jwt_check_aud.
  destruct (str_eqb (b_aud (j_body j)) (im_credential_issuer m)) eqn:U; [|reflexivity].
  exfalso. apply N. apply str_eqb_eq in U. revert Q. unfold request_part.
  destruct (map_err _ (metadata_validate _)) as [?|?|]; cbn [bind]; try discriminate.
  cbn [ok_or bind].
  destruct (check_nonce_expiry _ _) as [?|?|]; cbn [bind]; try discriminate.
  destruct (cr_proof r) as [p|] eqn:P; cbn [ok_or bind]; try discriminate.
  destruct (jwt_from_str d (rp_jwt p)) as [j'|?|] eqn:J; cbn [map_err bind]; try discriminate.
  intros E. injection E as -> _. exists p, j. split; [exact P|]. split; [now apply proof_token_iff|exact U].
Qed.

Lemma nonce_gates d w clock m m' o o' doc doc' n client client' seen :
  ids_distinct (im_credentials_supported m) -> ids_distinct (im_credentials_supported m') ->
  silent (sends_nonce d) w (cno_expected n) seen ->
  talk (issuer_shows everything d clock m o doc (Some {| eo_c_nonce := Some n; eo_client_id := client |})) w seen ->
  talk (issuer_shows everything d clock m' o' doc' (Some {| eo_c_nonce := Some n; eo_client_id := client' |})) w seen.
Proof.
  intros D D' S T. apply (same_talk _ _ w _ T). intros b x t E.
  apply (nonce_first d _ m m' _ o o' doc doc' n client client' D D'). exact (S b x t E).
Qed.

Lemma client_gates d w clock m m' o o' doc doc' n c seen :
  ids_distinct (im_credentials_supported m) -> ids_distinct (im_credentials_supported m') ->
  silent (sends_client d) w c seen ->
  talk (issuer_shows everything d clock m o doc (Some {| eo_c_nonce := Some n; eo_client_id := Some c |})) w seen ->
  talk (issuer_shows everything d clock m' o' doc' (Some {| eo_c_nonce := Some n; eo_client_id := Some c |})) w seen.
Proof.
  intros D D' S T. apply (same_talk _ _ w _ T). intros b x t E.
  apply (client_second d _ m m' _ o o' doc doc' n c D D'). exact (S b x t E).
Qed.

Lemma document_gates d w clock m o doc doc' n c seen :
  ids_distinct (im_credentials_supported m) ->
  (forall before x after, seen = before ++ x :: after ->
     ~ (sends_nonce d (w before) (cno_expected n) /\ sends_client d (w before) c
        /\ sends_audience d (w before) (im_credential_issuer m))) ->
  talk (issuer_shows everything d clock m o doc (Some {| eo_c_nonce := Some n; eo_client_id := Some c |})) w seen ->
  talk (issuer_shows everything d clock m o doc' (Some {| eo_c_nonce := Some n; eo_client_id := Some c |})) w seen.
Proof.
  intros D S T. apply (same_talk _ _ w _ T). intros b x t E. specialize (S b x t E).
  unfold issuer_shows, everything.
  destruct (sends_nonce_dec d (w b) (cno_expected n)) as [Y1|Y1];
    [|exact (nonce_first d _ m m _ o o doc doc' n (Some c) (Some c) D D Y1)].
  destruct (sends_client_dec d (w b) c) as [Y2|Y2];
    [|exact (client_second d _ m m _ o o doc doc' n c D D Y2)].
  apply audience_third. intros Y3. now apply S.
Qed.

Lemma sent_nonce d r p j e : cr_proof r = Some p -> proof_token d (rp_jwt p) j -> sends_nonce d r e -> b_nonce (j_body j) = e.
Proof.
  intros P T (p' & j' & P' & T' & E). rewrite P in P'. injection P' as <-.
  apply proof_token_iff in T, T'. congruence.
Qed.
Lemma sent_client d r p j c : cr_proof r = Some p -> proof_token d (rp_jwt p) j -> sends_client d r c -> b_iss (j_body j) = Some c.
Proof.
  intros P T (p' & j' & P' & T' & E). rewrite P in P'. injection P' as <-.
  apply proof_token_iff in T, T'. congruence.
Qed.
