(** The methods of a parsed proof, one by one. *)
From Verif Require Import Model.Prelude Model.Json Model.Types Model.Deps Model.Serde Model.Errors Model.Jwt
  Model.Wire Spec SpecJwt SpecEvaluation SpecResponse Proofs.StrFacts Proofs.JwtFacts Proofs.OfferFacts
  Proofs.ShapeFacts Proofs.EvalFacts.

Lemma nonce_check j n :
  (jwt_check_nonce j n = Ok tt <-> n = Some (b_nonce (j_body j)))
  /\ (forall e, jwt_check_nonce j n = Err e <->
        n <> Some (b_nonce (j_body j)) /\ e = JNonceMismatch n (b_nonce (j_body j)))
  /\ jwt_check_nonce j n <> Panic.
Proof.
  unfold jwt_check_nonce. destruct (opt_str_eqb (Some (b_nonce (j_body j))) n) eqn:E; [apply opt_str_eqb_eq in E|apply opt_str_eqb_neq in E].
  - split; [now split|]. split; [|discriminate]. intros e. split; [discriminate|]. intros [H _]. congruence.
  - split; [split; [discriminate|congruence]|]. split; [|discriminate]. intros e. split.
    + intros [= <-]. split; [congruence|reflexivity].
    + now intros [_ ->].
Qed.

Lemma iss_check j i :
  (jwt_check_iss j i = Ok tt <-> b_iss (j_body j) = i)
  /\ (forall e, jwt_check_iss j i = Err e <->
        b_iss (j_body j) <> i /\ e = JIssuerMismatch i (b_iss (j_body j)))
  /\ jwt_check_iss j i <> Panic.
Proof.
  unfold jwt_check_iss. destruct (opt_str_eqb (b_iss (j_body j)) i) eqn:E; [apply opt_str_eqb_eq in E|apply opt_str_eqb_neq in E].
  - split; [now split|]. split; [|discriminate]. intros e. split; [discriminate|]. intros [H _]. congruence.
  - split; [split; [discriminate|congruence]|]. split; [|discriminate]. intros e. split.
    + intros [= <-]. split; [congruence|reflexivity].
    + now intros [_ ->].
Qed.

Lemma aud_check j u :
  (jwt_check_aud j u = Ok tt <-> b_aud (j_body j) = u)
  /\ (forall e, jwt_check_aud j u = Err e <->
        b_aud (j_body j) <> u /\ e = JAudienceMismatch u (b_aud (j_body j)))
  /\ jwt_check_aud j u <> Panic.
Proof.
  unfold jwt_check_aud. destruct (str_eqb (b_aud (j_body j)) u) eqn:E; [apply str_eqb_eq in E|apply str_eqb_neq in E].
  - split; [now split|]. split; [|discriminate]. intros e. split; [discriminate|]. intros [H _]. congruence.
  - split; [split; [discriminate|congruence]|]. split; [|discriminate]. intros e. split.
    + intros [= <-]. split; [congruence|reflexivity].
    + now intros [_ ->].
Qed.

Lemma did_method d j :
  (forall did, jwt_extract_did d j = Ok did <-> proof_did d (h_additional (j_header j)) did)
  /\ (forall e, jwt_extract_did d j = Err e <-> did_error d (h_additional (j_header j)) e)
  /\ jwt_extract_did d j <> Panic.
Proof.
  destruct (did_cases d j) as [H N]. destruct (jwt_extract_did d j) as [did|e|].
  - split; [|split; [|discriminate]].
    + intros did'. rewrite H. split; congruence.
    + intros e. split; [discriminate|]. intros H'. now apply (N did eq_refl) in H'.
  - destruct H as [H1 H2]. split; [|split; [|discriminate]].
    + intros did'. split; [discriminate|]. intros H'. now apply H1 in H'.
    + intros e'. rewrite H2. split; congruence.
  - destruct H.
Qed.

Lemma key_method d h doc :
  (forall bytes alg, header_extract_key_and_alg d h doc = Ok (bytes, alg) <->
     proof_key d doc (h_additional h) bytes /\ alg = h_alg h)
  /\ (forall e, header_extract_key_and_alg d h doc = Err e <-> key_error d doc (h_additional h) e)
  /\ (header_extract_key_and_alg d h doc = Panic <-> key_panics d doc (h_additional h)).
Proof.
  destruct (key_step d h doc) as [S K].
  destruct (header_extract_key_and_alg d h doc) as [[b a]|e|]; cbn [map_err step key_check passes reports panics] in S;
    destruct S as (P & R & Q).
  - destruct (K _ eq_refl) as [K1 K2]. cbn [fst snd] in K1, K2.
    split; [|split].
    + intros bytes alg. split.
      * intros [= <- <-]. now split.
      * intros [H ->]. now rewrite (proof_key_det _ _ _ _ _ K1 H), K2.
    + intros e. split; [discriminate|]. intros H. exfalso. apply (R (IJwtError e)). now exists e.
    + split; [discriminate|]. intros H. now apply Q in H.
  - split; [|split].
    + intros bytes alg. split; [discriminate|]. intros [H _]. exfalso. apply P. now exists bytes.
    + intros e'. split.
      * intros [= <-]. destruct (proj2 (R _) eq_refl) as (v & H & [= <-]). exact H.
      * intros H. assert (IJwtError e' = IJwtError e) as [= <-] by (apply R; now exists e'). reflexivity.
    + split; [discriminate|]. intros H. now apply Q in H.
  - split; [|split].
    + intros bytes alg. split; [discriminate|]. intros [H _]. exfalso. apply P. now exists bytes.
    + intros e. split; [discriminate|]. intros H. exfalso. apply (R (IJwtError e)). now exists e.
    + now split.
Qed.

Lemma message_method d j :
  (forall m, jwt_to_signable_message d j = Ok m <-> message_of (raw_text d j) m)
  /\ exists m, jwt_to_signable_message d j = Ok m.
Proof.
  destruct (signable d j) as (m & E & H). split; [|now exists m].
  intros m'. rewrite E. split.
  - intros [= <-]. exact H.
  - intros H'. now rewrite (message_of_det _ _ _ H H').
Qed.

Lemma signature_method d j :
  (forall sig, jwt_extract_signature d j = Ok sig <-> after_second_dot (raw_text d j) sig)
  /\ (forall e, jwt_extract_signature d j = Err e <->
        ~ (exists sig, after_second_dot (raw_text d j) sig) /\ e = JSignatureNotInJwt (raw_text d j))
  /\ jwt_extract_signature d j <> Panic.
Proof.
  destruct (extract_signature_cases d j) as [(sig & E & H)|[E H]]; rewrite E; (split; [|split; [|discriminate]]).
  - intros s'. split; [now intros [= <-]|]. intros H'. now rewrite (after_second_dot_det _ _ _ H H').
  - intros e. split; [discriminate|]. intros [N _]. exfalso. apply N. now exists sig.
  - intros s'. split; [discriminate|]. intros H'. exfalso. apply H. now exists s'.
  - intros e. split; [intros [= <-]; now split|]. now intros [_ ->].
Qed.

Lemma format_method c f : format_name c = lit f <-> format_of c f.
Proof.
  split.
  - intros H. destruct c; cbn [format_name] in H; apply lit_inj in H; subst f; constructor.
  - intros H. destruct H; reflexivity.
Qed.
