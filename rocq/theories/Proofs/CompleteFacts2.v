(** Proofs that the specifications of the smaller calls leave no outcome open. *)
From Coq Require Import Lia.
From Verif Require Import Model.Prelude Model.Json Model.Types Model.Deps Model.Errors Model.Jwt Model.AccessToken
  Model.CredentialIssuer Model.Wire Spec SpecJson SpecNumber SpecToken SpecOffer SpecJwt SpecEvaluation SpecResponse SpecErrors
  SpecComplete
  Proofs.StrFacts Proofs.FloatText Proofs.TokenFacts Proofs.OfferFacts Proofs.EvalFacts Proofs.EvalFacts2 Proofs.EvalFacts3
  Proofs.JwtFacts Proofs.ErrorFacts Proofs.ResponseFacts Proofs.MethodFacts Proofs.ShapeFacts Proofs.ValidationFacts
  Proofs.CompleteFacts.

Lemma determined {E A} (f : res E A) ok err panics :
  (forall a, f = Ok a <-> ok a) -> (forall e, f = Err e <-> err e) -> (f = Panic <-> panics) ->
  determines (allowed ok err panics) f.
Proof. intros H1 H2 H3. apply one_outcome. now apply allowed_iff. Qed.

Lemma never {E A} (f : res E A) : f <> Panic -> (f = Panic <-> False).
Proof. intros H. split; [exact H|intros []]. Qed.

(** Calls that cannot fail. *)
Lemma determined_ok {E A} (a : A) ok : (forall b, a = b <-> ok b) -> determines (E := E) (allowed ok (fun _ => False) False) (Ok a).
Proof.
  intros H. apply determined.
  - intros b. rewrite <- H. split; congruence.
  - split; [discriminate|intros []].
  - apply never. discriminate.
Qed.

Lemma tokens_complete d s :
  determines (allowed (fun j => exists hs bs tail ht bt hm bv bm,
      token_parts s hs bs tail
      /\ base64_text url_alphabet false ht hs /\ base64_text url_alphabet false bt bs
      /\ json_text ht (JObj hm) /\ header_of hm (j_header j)
      /\ struct_text (map lit claim_names) bt bv /\ members_of claim_names bv bm /\ claims_of d bm (j_body j)
      /\ signature_is tail (j_signature j)) (token_error d s) False) (jwt_from_str d s).
Proof.
  apply determined; [apply accepted_tokens|apply from_str_err|apply never, from_str_no_panic].
Qed.

Lemma proofs_complete d j n i u :
  determines (allowed (fun _ : unit => n = Some (b_nonce (j_body j)))
     (fun e => n <> Some (b_nonce (j_body j)) /\ e = JNonceMismatch n (b_nonce (j_body j))) False) (jwt_check_nonce j n)
  /\ determines (allowed (fun _ : unit => b_iss (j_body j) = i)
       (fun e => b_iss (j_body j) <> i /\ e = JIssuerMismatch i (b_iss (j_body j))) False) (jwt_check_iss j i)
  /\ determines (allowed (fun _ : unit => b_aud (j_body j) = u)
       (fun e => b_aud (j_body j) <> u /\ e = JAudienceMismatch u (b_aud (j_body j))) False) (jwt_check_aud j u)
  /\ determines (allowed (proof_did d (h_additional (j_header j))) (did_error d (h_additional (j_header j))) False)
       (jwt_extract_did d j)
  /\ determines (allowed (message_of (raw_text d j)) (fun _ => False) False) (jwt_to_signable_message d j)
  /\ determines (allowed (after_second_dot (raw_text d j))
       (fun e => ~ (exists sig, after_second_dot (raw_text d j) sig) /\ e = JSignatureNotInJwt (raw_text d j)) False)
       (jwt_extract_signature d j)
  /\ determines (allowed (fun s => s = header_to_json (j_header j) ++ lit "." ++ claims_to_json d (j_body j)
                            ++ match j_signature j with Some sig => lit "." ++ sig | None => [] end)
       (fun _ => False) False) (jwt_try_into_string d j).
Proof.
  destruct (nonce_check j n) as (N1 & N2 & N3), (iss_check j i) as (I1 & I2 & I3), (aud_check j u) as (A1 & A2 & A3),
    (did_method d j) as (D1 & D2 & D3), (message_method d j) as (M1 & m & M2), (signature_method d j) as (S1 & S2 & S3).
  split; [apply determined; [intros []; exact N1|exact N2|now apply never]|].
  split; [apply determined; [intros []; exact I1|exact I2|now apply never]|].
  split; [apply determined; [intros []; exact A1|exact A2|now apply never]|].
  split; [apply determined; [exact D1|exact D2|now apply never]|].
  split; [apply determined; [exact M1|intros e; rewrite M2; split; [discriminate|intros []]|apply never; rewrite M2; discriminate]|].
  split; [apply determined; [exact S1|exact S2|now apply never]|].
  rewrite try_into_string_text. apply determined_ok. intros b. split; intros; congruence.
Qed.

Lemma token_request_determined r :
  determines (allowed (fun _ : unit => forall code pin, tr_grant_type r = GPreAuthorized code (Some pin) -> pin < 10 ^ 9)
    (fun e => exists code pin, tr_grant_type r = GPreAuthorized code (Some pin) /\ 10 ^ 9 <= pin
                /\ pin_length_error pin (TValidationError e)) False) (token_request_validate r).
Proof.
  destruct (token_request_validates r) as [H1 H3].
  apply determined; [intros []; exact H1| |now apply never].
  intros e. rewrite TokenFacts.request_validate_eq, validate_err. split.
  - intros (c & n & k & G & D & L & ->). exists c, n. split; [exact G|]. split.
    + destruct D as [[-> ->]|(_ & _ & Lo & _)]; [lia|].
      assert (10 ^ 9 <= 10 ^ (k - 1)) by (apply N.pow_le_mono_r; lia). lia.
    + exists k, (dec (k - 1)). split; [exact D|]. split; [apply FloatText.dec_text|reflexivity].
  - intros (c & n & G & L & k & text & D & T & [= ->]). exists c, n, k. split; [exact G|]. split; [exact D|]. split.
    + destruct D as [[-> ->]|(_ & _ & _ & U)]; [lia|].
      destruct (N.le_gt_cases k 9) as [G'|]; [|assumption]. exfalso.
      assert (10 ^ k <= 10 ^ 9) by (apply N.pow_le_mono_r; lia). lia.
    + apply FloatText.decimal_text_iff in T. now rewrite T.
Qed.

Lemma token_success_determined t :
  determines (allowed (fun _ : unit => ~ (ts_c_nonce t = None /\ ts_c_nonce_expires_in t <> None))
    (fun e => ts_c_nonce t = None /\ ts_c_nonce_expires_in t <> None
       /\ e = VAny (lit "c_nonce_expires_in is provided, but c_nonce is not")) False) (token_success_validate t).
Proof.
  apply determined; [intros []; apply token_success_validate_iff|intros e; apply token_success_validate_err|].
  apply never. unfold token_success_validate. now destruct (_ && _).
Qed.

Lemma metadata_determined m :
  determines (allowed (fun _ : unit => ids_distinct (im_credentials_supported m))
    (fun e => ~ ids_distinct (im_credentials_supported m) /\ IValidationError e = duplicate_ids_error) False)
    (metadata_validate m).
Proof.
  destruct (metadata_validate_cases m) as [[D ->]|[D ->]]; apply determined.
  - intros []. tauto.
  - intros e. split; [discriminate|]. tauto.
  - now apply never.
  - intros []. split; [discriminate|tauto].
  - intros e. unfold duplicate_ids_error. split; [intros E; split; [exact D|congruence]|intros [_ E]; congruence].
  - now apply never.
Qed.

Lemma offer_determined o : determines (allowed (fun _ : unit => True) (fun _ => False) False) (offer_validate o).
Proof. apply determined_ok. intros []. tauto. Qed.

Lemma request_determined d r :
  lower_case_facts d -> upper_case_facts d -> on_some (fun p => rust_string (rp_proof_type p)) (cr_proof r) ->
  determines (allowed (fun _ : unit => valid_request d r) (fun e => request_error d r (IValidationError e)) False)
    (request_validate d r).
Proof.
  intros H1 H2 H3. destruct (request_validates d r H1 H2 H3) as [A B].
  apply determined; [intros []; exact A|exact B|apply never, request_validate_no_panic].
Qed.

Lemma proof_determined d j : lower_case_facts d -> rust_string (h_typ (j_header j)) ->
  determines (allowed (fun _ : unit => ascii_ci (h_typ (j_header j)) (lit "openid4vci-proof+jwt"))
    (fun e => ~ ascii_ci (h_typ (j_header j)) (lit "openid4vci-proof+jwt") /\ e = typ_error) False) (jwt_validate d j).
Proof.
  intros H1 H2. destruct (header_validates d (j_header j) H1 H2) as [A B].
  assert (jwt_validate d j = header_validate d (j_header j)) as ->.
  { unfold jwt_validate. now destruct (header_validate d (j_header j)) as [[]| |]. }
  apply determined; [intros []; exact A|exact B|].
  apply never. unfold header_validate. now destruct (negb _).
Qed.

Lemma key_form_determined a :
  determines (allowed (fun _ : unit => exists kid, a = KeyId kid)
    (fun e => (exists s, a = Jwk s) /\ e = VAny (lit "JWK is not supported as key type in the JWT header")
              \/ (exists s, a = X5c s) /\ e = VAny (lit "X5c is not supported as key type in the JWT header")) False)
    (additional_header_validate a).
Proof.
  destruct (key_form_validates a) as (H1 & H2 & H3). apply determined; [intros []; exact H1| |].
  - intros e. split.
    + destruct a as [k|s|s]; [rewrite (proj2 H1) by eauto; discriminate|rewrite (H2 s eq_refl)|rewrite (H3 s eq_refl)];
        intros [= <-]; eauto.
    + intros [[[s S] ->]|[[s S] ->]]; [exact (H2 s S)|exact (H3 s S)].
  - apply never. destruct a as [k|s|s]; [rewrite (proj2 H1) by eauto|rewrite (H2 s eq_refl)|rewrite (H3 s eq_refl)]; discriminate.
Qed.

Lemma codes_determined s :
  determines (allowed (fun c => exists name, oauth_code c name /\ s = lit name)
    (fun e => (forall c name, oauth_code c name -> s <> lit name) /\ e = VAny (lit "Invalid access token error code")) False)
    (token_code_try_from s)
  /\ determines (allowed (fun c => exists name, vci_code c name /\ s = lit name)
       (fun e => (forall c name, vci_code c name -> s <> lit name) /\ e = VAny (lit "Invalid error code: " ++ s)) False)
       (issuer_code_try_from s)
  /\ determines (allowed (fun _ : token_type => s = lit "Bearer")
       (fun e => s <> lit "Bearer" /\ e = VAny (lit "Invalid access token type")) False) (token_type_try_from s).
Proof.
  assert (G : forall C (name : C -> string -> Prop) (f : str -> res validation_error C) (msg : str),
    (forall c n, name c n -> f (lit n) = Ok c) ->
    ((forall c n, name c n -> s <> lit n) -> f s = Err (VAny msg)) ->
    ((exists c n, name c n /\ s = lit n) \/ (forall c n, name c n -> s <> lit n)) ->
    determines (allowed (fun c => exists n, name c n /\ s = lit n)
      (fun e => (forall c n, name c n -> s <> lit n) /\ e = VAny msg) False) (f s)).
  { intros C name f msg H1 H2 [(c & n & N & ->)|N].
    - rewrite (H1 c n N). apply determined.
      + intros c'. split; [intros [= <-]; eauto|]. intros (n' & N' & E). rewrite E in *.
        pose proof (H1 c n N) as A. rewrite E, (H1 c' n' N') in A. congruence.
      + intros e. split; [discriminate|]. intros [X _]. now destruct (X c n N).
      + now apply never.
    - rewrite (H2 N). apply determined.
      + intros c. split; [discriminate|]. intros (n & M & E). now destruct (N c n M).
      + intros e. split; [intros [= <-]; tauto|]. now intros [_ ->].
      + now apply never. }
  destruct token_codes_bijection as (T1 & T2 & _ & T4 & _ & _ & T7), issuer_codes_bijection as (I1 & I2 & _ & I4).
  split; [|split].
  - apply G; [intros c n N; now rewrite <- (T1 c n N), T2|exact (T4 s)|].
    destruct (token_code_try_from s) as [c|e|] eqn:E.
    + left. revert E. unfold token_code_try_from.
      repeat match goal with |- (if str_eqb s ?t then _ else _) = _ -> _ =>
               destruct (str_eqb s t) eqn:S;
               [apply str_eqb_eq in S; intros _; do 2 eexists; split; [|exact S]; constructor|clear S] end.
      discriminate.
    + right. intros c n N ->. rewrite <- (T1 c n N), T2 in E. discriminate.
    + right. intros c n N ->. rewrite <- (T1 c n N), T2 in E. discriminate.
  - apply G; [intros c n N; now rewrite <- (I1 c n N), I2|exact (I4 s)|].
    destruct (issuer_code_try_from s) as [c|e|] eqn:E.
    + left. revert E. unfold issuer_code_try_from.
      repeat match goal with |- (if str_eqb s ?t then _ else _) = _ -> _ =>
               destruct (str_eqb s t) eqn:S;
               [apply str_eqb_eq in S; intros _; do 2 eexists; split; [|exact S]; constructor|clear S] end.
      discriminate.
    + right. intros c n N ->. rewrite <- (I1 c n N), I2 in E. discriminate.
    + right. intros c n N ->. rewrite <- (I1 c n N), I2 in E. discriminate.
  - unfold token_type_try_from. destruct (str_eqb s (lit "Bearer")) eqn:E; [apply str_eqb_eq in E|apply str_eqb_neq in E];
      apply determined.
    + intros []. tauto.
    + intros e. split; [discriminate|tauto].
    + now apply never.
    + intros []. split; [discriminate|tauto].
    + intros e. split; [intros [= <-]; tauto|now intros [_ ->]].
    + now apply never.
Qed.

Lemma token_answers_determined now access_token token_type expires_in scope c_nonce c_nonce_expires_in pending interval :
  determines (allowed (fun x : token_success * instant => let '(t, at_) := x in
      ts_access_token t = access_token /\ ts_token_type t = token_type /\ ts_expires_in t = expires_in
      /\ ts_scope t = scope /\ ts_c_nonce t = c_nonce /\ ts_c_nonce_expires_in t = c_nonce_expires_in
      /\ ts_authorization_pending t = pending /\ ts_interval t = interval /\ at_ = now) (fun _ => False) False)
    (create_access_token_success_response now access_token token_type expires_in scope c_nonce c_nonce_expires_in
       pending interval).
Proof.
  apply determined_ok. intros [t at_]. split; [intros [= <- <-]; cbn; tauto|].
  destruct t. cbn. intros H. decompose [and] H. now subst.
Qed.

Lemma error_answers_determined tc ic description uri details :
  determines (allowed (fun r => resp_error r = tc /\ resp_description r = description /\ resp_uri r = uri
                         /\ resp_details r = details) (fun _ => False) False)
    (create_access_token_error_response tc description uri details)
  /\ determines (allowed (fun r => resp_error r = ic /\ resp_description r = description /\ resp_uri r = uri
                         /\ resp_details r = details) (fun _ => False) False)
    (create_credential_error_response ic description uri details).
Proof.
  split; apply determined_ok; intros [c x y z]; (split; [intros [= <- <- <- <-]; cbn; tauto|]); cbn;
    intros (-> & -> & -> & ->); reflexivity.
Qed.

Lemma parts_determined m c p o :
  determines (allowed (issued p) (fun _ => False) False) (cfp_encode p)
  /\ determines (allowed (fun t => percent_encoded (offer_to_json o) t) (fun _ => False) False) (offer_url_encode o)
  /\ determines (allowed (resolves m c)
       (fun e => exists id, c = CredentialId id /\ ~ known_id m id /\ e = ICredentialIdNotInIssuerMetadata id) False)
       (resolve m c).
Proof.
  split; [|split].
  - destruct (encode_ok p) as (x & -> & I). apply determined_ok. intros b. split; [now intros <-|].
    intros I'. exact (issued_det _ _ _ I I').
  - apply determined_ok. intros b. apply percent_encoded_iff.
  - apply determined; [apply resolve_ok|apply resolve_err|apply never].
    unfold resolve, ok_or. destruct c; [|discriminate]. now destruct (option_map _ _).
Qed.
