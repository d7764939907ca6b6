(** Proofs that the specifications leave no outcome open. *)
From Verif Require Import Model.Prelude Model.Json Model.Types Model.Deps Model.Errors Model.Jwt Model.AccessToken
  Model.CredentialIssuer Model.Wire Spec SpecToken SpecOffer SpecJwt SpecEvaluation SpecResponse SpecComplete
  Proofs.TokenFacts Proofs.OfferFacts Proofs.EvalFacts Proofs.EvalFacts2 Proofs.EvalFacts3
  Proofs.JwtFacts Proofs.ResponseFacts Proofs.MethodFacts Proofs.ShapeFacts.

Lemma allowed_iff {E A} (f : res E A) ok err panics :
  (forall a, f = Ok a <-> ok a) -> (forall e, f = Err e <-> err e) -> (f = Panic <-> panics) ->
  forall x, allowed ok err panics x <-> f = x.
Proof.
  intros H1 H2 H3 x. split.
  - intros [a H|e H|H]; [now apply H1|now apply H2|now apply H3].
  - intros E'. destruct x as [a|e|]; constructor; [now apply H1|now apply H2|now apply H3].
Qed.

Lemma one_outcome {E A} (f : res E A) ok err panics :
  (forall x, allowed ok err panics x <-> f = x) ->
  (exists! x, allowed ok err panics x) /\ forall g, allowed ok err panics g -> g = f.
Proof.
  intros H. split.
  - exists f. split; [now apply H|]. intros y Y. now apply H.
  - intros g G. symmetry. now apply H.
Qed.

Lemma token_complete r offer opts :
  (exists! x, allowed (fun _ : unit => token_accepted r offer opts) (token_rejected r offer opts) False x)
  /\ forall g, allowed (fun _ : unit => token_accepted r offer opts) (token_rejected r offer opts) False g ->
     g = evaluate_access_token_request r offer opts.
Proof.
  apply one_outcome, allowed_iff.
  - intros []. apply evaluate_ok.
  - intros e. apply evaluate_err.
  - split; [intros H; now apply evaluate_no_panic in H|intros []].
Qed.

Lemma evaluation_complete d now m r offer asm doc options : lower_case_facts d ->
  (exists! x, allowed (eval_answer d now m r offer asm doc options) (eval_error d now m r offer asm doc options)
                (eval_panics d now m r offer asm doc options) x)
  /\ forall g, allowed (eval_answer d now m r offer asm doc options) (eval_error d now m r offer asm doc options)
                (eval_panics d now m r offer asm doc options) g ->
     g = evaluate_credential_request d now m r offer asm doc options.
Proof.
  intros HL. pose proof (evaluate_outcomes d now m r offer asm doc options HL) as (H1 & H2 & _).
  apply one_outcome, allowed_iff; [exact H1|exact H2|]. now apply panic_exact.
Qed.

Lemma pre_evaluation_complete d r :
  lower_case_facts d -> upper_case_facts d -> on_some (fun p => rust_string (rp_proof_type p)) (cr_proof r) ->
  (exists! x, allowed (pre_answer d r) (pre_error d r) False x)
  /\ forall g, allowed (pre_answer d r) (pre_error d r) False g -> g = pre_evaluate_credential_request d r.
Proof.
  intros H1 H2 H3. destruct (pre_evaluate_outcomes d r H1 H2 H3) as [A B].
  apply one_outcome, allowed_iff; [exact A|exact B|].
  split; [intros H; now apply pre_evaluate_no_panic in H|intros []].
Qed.

Lemma offer_complete m creds ep a p :
  let ok := fun x : credential_offer * str => let '(o, url) := x in
    (ids_distinct (im_credentials_supported m) /\ a = None /\ Forall (resolvable m) creds)
    /\ (co_credential_issuer o = im_credential_issuer m /\ co_credentials o = creds
        /\ og_auth (co_grants o) = None /\ og_pre (co_grants o) = p)
    /\ exists payload, percent_encoded (offer_to_json o) payload /\ url = offer_url_prefix ep ++ payload in
  (exists! x, allowed ok (offer_error m creds a) False x)
  /\ forall g, allowed ok (offer_error m creds a) False g -> g = create_offer m creds ep a p.
Proof.
  intros ok. apply one_outcome, allowed_iff.
  - intros [o url]. split.
    + intros C. split; [apply (create_offer_iff m creds ep a p); eauto|].
      split; [exact (create_offer_content m creds ep a p o url C)|].
      apply create_offer_ok in C as (_ & _ & _ & _ & ->). eexists. split; [now apply percent_encoded_iff|reflexivity].
    + intros (Y & C & payload & E & U). apply (create_offer_iff m creds ep a p) in Y as (o' & url' & Y).
      pose proof (create_offer_content _ _ _ _ _ _ _ Y) as C'.
      assert (o = o') as ->.
      { destruct o as [i c [ga gp]], o' as [i' c' [ga' gp']]. cbn in *.
        destruct C as (-> & -> & -> & ->), C' as (-> & -> & -> & ->). reflexivity. }
      rewrite Y. apply create_offer_ok in Y as (_ & _ & _ & _ & ->). apply percent_encoded_iff in E. now subst.
  - intros e. apply create_offer_err.
  - split; [intros H; now apply create_offer_no_panic in H|intros []].
Qed.

Lemma resolve_complete m l :
  (exists! x, allowed (fun ps => Forall2 (resolves m) l ps)
                (fun e => exists id, first_unknown m l id /\ e = ICredentialIdNotInIssuerMetadata id) False x)
  /\ forall g, allowed (fun ps => Forall2 (resolves m) l ps)
                (fun e => exists id, first_unknown m l id /\ e = ICredentialIdNotInIssuerMetadata id) False g ->
     g = resolve_all m l.
Proof.
  destruct (resolve_all_total m l) as (H1 & H2 & H3 & _).
  apply one_outcome, allowed_iff; [exact H1|exact H2|]. split; [intros H; now apply H3|intros []].
Qed.

Lemma verify_complete now j :
  (exists! x, allowed (fun _ : unit => in_window (j_body j) now) (window_error (j_body j) now) False x)
  /\ forall g, allowed (fun _ : unit => in_window (j_body j) now) (window_error (j_body j) now) False g ->
     g = jwt_verify now j.
Proof.
  destruct (verify_exact now j) as (H1 & H2 & H3).
  apply one_outcome, allowed_iff; [intros []; exact H1|exact H2|]. split; [intros H; now apply H3|intros []].
Qed.

Lemma answer_complete d now r ct n :
  lower_case_facts d -> upper_case_facts d -> on_some (fun p => rust_string (rp_proof_type p)) (cr_proof r) ->
  let ok := fun x : credential_success * instant =>
    valid_request d r /\ (exists f, format_of (cr_format r) f /\ cs_format (fst x) = lit f)
    /\ payload_is ct (fst x) /\ nonce_is n (fst x) /\ snd x = now in
  (exists! x, allowed ok (request_error d r) False x)
  /\ forall g, allowed ok (request_error d r) False g -> g = create_credential_success_response d now r ct n.
Proof.
  intros H1 H2 H3 ok. apply one_outcome, allowed_iff.
  - intros [resp t]. apply (success_iff d now r ct n resp t H1 H2 H3).
  - intros e. apply (success_err d now r ct n e H1 H2 H3).
  - split; [intros H; now apply success_no_panic in H|intros []].
Qed.

Lemma key_complete d h doc :
  let ok := fun x => proof_key d doc (h_additional h) (fst x) /\ snd x = h_alg h in
  (exists! x, allowed ok (key_error d doc (h_additional h)) (key_panics d doc (h_additional h)) x)
  /\ forall g, allowed ok (key_error d doc (h_additional h)) (key_panics d doc (h_additional h)) g ->
     g = header_extract_key_and_alg d h doc.
Proof.
  intros ok. destruct (key_method d h doc) as (H1 & H2 & H3).
  apply one_outcome, allowed_iff; [intros [b a]; exact (H1 b a)|exact H2|exact H3].
Qed.
