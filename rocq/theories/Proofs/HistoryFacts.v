(** Metadata that grows (C109) and documents that reach a party through others (C110). *)
From Verif Require Import Model.Prelude Model.Json Model.Types Model.Deps Model.AccessToken Model.CredentialIssuer
  Model.Serde Model.SerdeOptions Model.Wire
  Spec SpecOffer SpecToken SpecJwt SpecDocuments SpecResults SpecRelay SpecHops SpecHistory
  Proofs.JsonFacts Proofs.StrFacts Proofs.OfferFacts Proofs.EvalFacts2 Proofs.ResultFacts Proofs.RelayFacts
  Proofs.RenumberFacts Proofs.HopsFacts.
From Coq Require Import Permutation.

(* ---------------- one publication ---------------- *)

Lemma ids_app a b : ids (a ++ b) = ids a ++ ids b.
Proof. rewrite !ids_of_map. now rewrite map_app, flat_map_app. Qed.

Definition id_list (c : credential_supported) : list str := match sup_id c with Some i => [i] | None => [] end.

Lemma adds_ids c m m' : adds c m m' ->
  Permutation (ids (im_credentials_supported m')) (id_list c ++ ids (im_credentials_supported m)).
Proof.
  intros (_ & b & a & E & E'). rewrite E, E', !ids_app.
  change (ids (c :: a)) with (id_list c ++ ids a). rewrite !app_assoc. apply Permutation_app_tail, Permutation_app_comm.
Qed.

Lemma known_ids m id : known_id m id <-> In id (ids (im_credentials_supported m)).
Proof. symmetry. apply in_ids. Qed.

Lemma adds_distinct c m m' : adds c m m' ->
  ids_distinct (im_credentials_supported m') <-> ids_distinct (im_credentials_supported m) /\ fresh m c.
Proof.
  intros H. apply adds_ids in H. rewrite !ids_distinct_nodup. unfold fresh. setoid_rewrite known_ids.
  set (l := ids (im_credentials_supported m)) in *. clearbody l.
  assert (NoDup (id_list c ++ l) <-> NoDup l /\ (forall id, sup_id c = Some id -> ~ In id l)) as <-.
  { unfold id_list. destruct (sup_id c) as [i|]; cbn [app].
    - rewrite NoDup_cons_iff. split.
      + intros [N D]. split; [exact D|]. intros id E. apply some_inj in E. now subst.
      + intros [D N]. split; [now apply N|exact D].
    - split; [|tauto]. intros D. split; [exact D|discriminate]. }
  split; apply Permutation_NoDup; [|symmetry]; exact H.
Qed.

Lemma adds_known c m m' id : adds c m m' -> known_id m id -> known_id m' id.
Proof.
  intros (_ & b & a & E & E') (x & I & X). exists x. split; [|exact X]. rewrite E in I. rewrite E'.
  apply in_app_or in I. apply in_or_app. destruct I; [now left|]. right. now right.
Qed.

Lemma adds_first c m m' id x : adds c m m' -> fresh m c ->
  first_with_id (im_credentials_supported m) id x -> first_with_id (im_credentials_supported m') id x.
Proof.
  intros (_ & b & a & E & E') F (u & v & S & X & N). rewrite E in S. rewrite E'.
  assert (sup_id c <> Some id) as NC.
  { intros C. apply (F id C). exists x. split; [|exact X]. rewrite E, S. apply in_or_app. right. now left. }
  clear E E' F. revert b S. induction u as [|w u IH]; intros b S; cbn [app] in S.
  - destruct b as [|y b]; cbn [app] in S.
    + exists [c], v. rewrite S. repeat split; [exact X|]. constructor; [exact NC|constructor].
    + injection S as -> S. exists [], (b ++ c :: a). split; [reflexivity|]. split; [exact X|constructor].
  - apply Forall_cons_iff in N as (NW & N). destruct b as [|y b]; cbn [app] in S.
    + exists (c :: w :: u), v. rewrite S. split; [reflexivity|]. split; [exact X|]. repeat (constructor; [assumption|]). exact N.
    + injection S as -> S. destruct (IH N b S) as (u' & v' & S' & _ & N'). exists (w :: u'), v'. cbn [app].
      rewrite S'. split; [reflexivity|]. split; [exact X|]. now constructor.
Qed.

Lemma adds_resolves c m m' x p : adds c m m' -> fresh m c -> resolves m x p -> resolves m' x p.
Proof. intros A F [y|id y Y]; constructor. exact (adds_first c m m' id y A F Y). Qed.

(* ---------------- any number ---------------- *)

Lemma grown_issuer m m' : grown m m' -> im_credential_issuer m' = im_credential_issuer m.
Proof. intros G. induction G as [|m1 c m2 G IH (E & _) _]; congruence. Qed.

Lemma grown_distinct m m' : grown m m' ->
  ids_distinct (im_credentials_supported m') <-> ids_distinct (im_credentials_supported m).
Proof.
  intros G. induction G as [|m1 c m2 G IH A F]; [reflexivity|]. rewrite (adds_distinct c m1 m2 A), IH. tauto.
Qed.

Lemma grown_validate m m' : grown m m' -> metadata_validate m' = metadata_validate m.
Proof.
  intros G. apply grown_distinct in G.
  destruct (metadata_validate_cases m) as [[D ->]|[D ->]], (metadata_validate_cases m') as [[D' ->]|[D' ->]];
    tauto || reflexivity.
Qed.

Lemma grown_resolves m m' x p : grown m m' -> resolves m x p -> resolves m' x p.
Proof. intros G H. induction G as [|m1 c m2 G IH A F]; [exact H|]. exact (adds_resolves c m1 m2 x p A F IH). Qed.

Lemma grown_resolve m m' x p : grown m m' -> resolve m x = Ok p -> resolve m' x = Ok p.
Proof. rewrite !resolve_ok. apply grown_resolves. Qed.

Lemma grown_resolve_all m m' l ps : grown m m' -> resolve_all m l = Ok ps -> resolve_all m' l = Ok ps.
Proof.
  intros G. rewrite !resolve_all_ok. intros H. induction H; constructor; [|assumption]. now apply (grown_resolves m).
Qed.

Lemma grown_offer m m' creds ep a p r : grown m m' ->
  create_offer m creds ep a p = Ok r -> create_offer m' creds ep a p = Ok r.
Proof.
  intros G. destruct r as [o url]. rewrite !create_offer_ok. rewrite (grown_distinct m m' G), (grown_issuer m m' G).
  intros (D & A & R & O & U). repeat (split; [assumption|]). split; [|split; assumption].
  rewrite Forall_forall in *. intros x I. specialize (R x I). apply resolvable_iff in R as [q Q].
  apply resolvable_iff. exists q. exact (grown_resolves m m' x q G Q).
Qed.

Lemma evaluate_validated d now m m' r offer asm doc options :
  metadata_validate m' = metadata_validate m -> im_credential_issuer m' = im_credential_issuer m ->
  evaluate_credential_request d now m' r offer asm doc options
  = evaluate_credential_request d now m r offer asm doc options.
Proof.
  intros V I. destruct (metadata_validate_cases m) as [[D E]|[D E]].
  - assert (ids_distinct (im_credentials_supported m')) as D'.
    { apply metadata_validate_ok. now rewrite V. }
    destruct offer as [o|].
    + now apply supported_unexamined.
    + unfold evaluate_credential_request. rewrite V, E. reflexivity.
  - unfold evaluate_credential_request. rewrite V, E. reflexivity.
Qed.

Lemma grown_evaluate d now m m' r offer asm doc options : grown m m' ->
  evaluate_credential_request d now m' r offer asm doc options
  = evaluate_credential_request d now m r offer asm doc options.
Proof. intros G. apply evaluate_validated; [now apply grown_validate|now apply grown_issuer]. Qed.

(** An id that is in use blocks everything. *)
Lemma reused_id c m m' id : adds c m m' -> sup_id c = Some id -> known_id m id ->
  (forall creds ep a p, create_offer m' creds ep a p = Err duplicate_ids_error)
  /\ (forall d now r offer asm doc options,
        evaluate_credential_request d now m' r offer asm doc options = Err duplicate_ids_error).
Proof.
  intros A S K. assert (~ ids_distinct (im_credentials_supported m')) as D.
  { rewrite (adds_distinct c m m' A). intros (_ & F). exact (F id S K). }
  split.
  - intros creds ep a p. apply create_offer_err. now constructor.
  - intros d now r offer asm doc options. unfold evaluate_credential_request.
    destruct (metadata_validate_cases m') as [[D' _]|[_ ->]]; [contradiction|]. reflexivity.
Qed.

(* ---------------- through others ---------------- *)

Section Reaches.
Context {A : Type} (read : str -> option A) (write : A -> str).

Lemma reaches_same s x k x' : (forall s x, read s = Some x -> read (write x) = Some x) ->
  reaches read write s x k x' -> x' = x.
Proof.
  intros once (H & t & P & R). destruct k as [|k].
  - cbn [passed_on] in P. congruence.
  - rewrite (settles read write once k s x H) in P. apply some_inj in P. subst t. rewrite (once s x H) in R. congruence.
Qed.

Context (numbers : (str -> str) -> A -> A).
Hypothesis once : forall r s x, rereads r -> read s = Some x -> read (write x) = Some (numbers r x).
Hypothesis twice : forall r q x, numbers r (numbers q x) = numbers (fun s => r (q s)) x.
Hypothesis same : forall x, numbers (fun s => s) x = x.

Lemma reaches_numbers r s x k x' : rereads r -> reaches read write s x k x' -> x' = numbers (times k r) x.
Proof.
  intros Hr (H & t & P & R). destruct k as [|k].
  - cbn [passed_on] in P. change (times 0 r) with (fun s : str => s). rewrite same. congruence.
  - destruct (many_times read write numbers once twice same r k s x Hr H) as (P' & R').
    rewrite P in P'. apply some_inj in P'. subst t. rewrite R in R'. now apply some_inj in R'.
Qed.
End Reaches.

Lemma reaches_metadata r s x k x' : rereads r -> reaches metadata_from_json metadata_to_json s x k x' ->
  x' = metadata_numbers (times k r) x.
Proof. exact (reaches_numbers _ _ _ (fun r s x H => metadata_again r H s x) metadata_twice metadata_same r s x k x'). Qed.
Lemma reaches_offer r s x k x' : rereads r -> reaches offer_from_json offer_to_json s x k x' ->
  x' = offer_numbers (times k r) x.
Proof. exact (reaches_numbers _ _ _ (fun r s x H => offer_again r H s x) offer_twice offer_same r s x k x'). Qed.
Lemma reaches_request r s x k x' : rereads r ->
  reaches credential_request_from_json credential_request_to_json s x k x' -> x' = request_numbers (times k r) x.
Proof. exact (reaches_numbers _ _ _ (fun r s x H => request_again r H s x) request_twice request_same r s x k x'). Qed.

Lemma issuer_numbers r m : same_issuer m (metadata_numbers r m).
Proof.
  split; [reflexivity|]. unfold metadata_numbers. cbn [im_credentials_supported]. rewrite map_map. now apply map_ext.
Qed.
Lemma relayed_verdict d now sm m km m' sr r kr r' so o ko o' asm doc options :
  reaches metadata_from_json metadata_to_json sm m km m' ->
  reaches credential_request_from_json credential_request_to_json sr r kr r' ->
  reaches offer_from_json offer_to_json so o ko o' ->
  same_outcome (cr_format r')
    (evaluate_credential_request d now m r (Some o) asm doc options)
    (evaluate_credential_request d now m' r' (Some o') asm doc options).
Proof.
  intros Hm Hr Ho. apply (reaches_metadata reread) in Hm; [|exact reread_rereads].
  apply (reaches_request reread) in Hr; [|exact reread_rereads].
  apply (reaches_offer reread) in Ho; [|exact reread_rereads]. subst.
  apply evaluation_looks_at; [apply issuer_numbers| |reflexivity]. split; reflexivity.
Qed.
Lemma relayed_credential s r k r' :
  reaches credential_request_from_json credential_request_to_json s r k r' ->
  forall q, rereads q -> cr_format r' = credential_numbers (times k q) (cr_format r).
Proof. intros Hr q Q. apply (reaches_request q) in Hr; [|exact Q]. now subst. Qed.

Lemma relayed_options d s x k x' : dt_round_trips d -> dates_in_range d ->
  reaches (eval_options_from_json d) (eval_options_to_json d) s x k x' -> x' = x.
Proof. intros R D. apply reaches_same. intros t y. now apply eval_options_relay. Qed.

Lemma relayed_verdicts d now sm m km m' sr r kr r' so o ko o' sp p kp p' asm doc :
  dt_round_trips d -> dates_in_range d ->
  reaches metadata_from_json metadata_to_json sm m km m' ->
  reaches credential_request_from_json credential_request_to_json sr r kr r' ->
  reaches offer_from_json offer_to_json so o ko o' ->
  reaches (eval_options_from_json d) (eval_options_to_json d) sp p kp p' ->
  same_outcome (cr_format r')
    (evaluate_credential_request d now m r (Some o) asm doc (Some p))
    (evaluate_credential_request d now m' r' (Some o') asm doc (Some p'))
  /\ same_outcome (cr_format r')
    (evaluate_credential_request d now m r (Some o) asm doc None)
    (evaluate_credential_request d now m' r' (Some o') asm doc None).
Proof.
  intros Hd Hi Hm Hr Ho Hp. apply (relayed_options d sp p kp p' Hd Hi) in Hp. subst p'.
  split; now apply (relayed_verdict d now sm m km m' sr r kr r' so o ko o').
Qed.

Lemma relayed_token_verdict sr r kr r' so o ko o' sp p kp p' :
  reaches token_request_from_json token_request_to_json sr r kr r' ->
  reaches offer_from_json offer_to_json so o ko o' ->
  reaches token_options_from_json token_options_to_json sp p kp p' ->
  evaluate_access_token_request r' (Some o') (Some p') = evaluate_access_token_request r (Some o) (Some p)
  /\ evaluate_access_token_request r' (Some o') None = evaluate_access_token_request r (Some o) None.
Proof.
  intros Hr Ho Hp. apply reaches_same in Hr; [|exact token_request_relay].
  apply reaches_same in Hp; [|exact token_options_relay].
  apply (reaches_offer reread) in Ho; [|exact reread_rereads]. subst.
  assert (same_grants (offer_numbers (times ko reread) o) o) as S.
  { split; [reflexivity|]. cbn [offer_numbers co_grants]. destruct (og_pre (co_grants o)); [|exact I]. split; reflexivity. }
  split; now apply token_evaluation_looks_at.
Qed.

Lemma same_known m m' id : same_issuer m m' -> known_id m id <-> known_id m' id.
Proof. intros (_ & E). rewrite !known_ids, !ids_of_map. now rewrite E. Qed.
Lemma same_distinct m m' : same_issuer m m' ->
  ids_distinct (im_credentials_supported m) <-> ids_distinct (im_credentials_supported m').
Proof. intros (_ & E). rewrite !ids_distinct_nodup, !ids_of_map. now rewrite E. Qed.
Lemma same_resolvable m m' l : same_issuer m m' -> Forall (resolvable m) l -> Forall (resolvable m') l.
Proof.
  intros S H. rewrite Forall_forall in *. intros x I id E. apply (same_known m m' id S). exact (H x I id E).
Qed.
Lemma same_issuer_sym m m' : same_issuer m m' -> same_issuer m' m.
Proof. intros (A & B). now split. Qed.

Lemma create_offer_looks m m' creds ep a p : same_issuer m m' ->
  create_offer m' creds ep a p = create_offer m creds ep a p.
Proof.
  intros S. destruct (create_offer m creds ep a p) as [[o url]|e|] eqn:E.
  - apply create_offer_ok in E as (D & A & R & O & U). apply create_offer_ok.
    rewrite <- (same_distinct m m' S), <- (proj1 S). repeat (split; [assumption|]). split; [|split; assumption].
    exact (same_resolvable m m' creds S R).
  - apply create_offer_err in E. apply create_offer_err. destruct E as [a D|a D|id D (b & f & L & R & K)].
    + constructor. now rewrite <- (same_distinct m m' S).
    + constructor. now rewrite <- (same_distinct m m' S).
    + constructor; [now rewrite <- (same_distinct m m' S)|]. exists b, f. split; [exact L|].
      split; [exact (same_resolvable m m' b S R)|]. now rewrite <- (same_known m m' id S).
  - now apply create_offer_no_panic in E.
Qed.

Lemma relayed_create sm m km m' creds ep a p :
  reaches metadata_from_json metadata_to_json sm m km m' ->
  create_offer m' creds ep a p = create_offer m creds ep a p.
Proof.
  intros H. apply (reaches_metadata reread) in H; [|exact reread_rereads]. subst.
  apply create_offer_looks, issuer_numbers.
Qed.

(* ---------------- every document arrives ---------------- *)

Lemma arrives_same {A} (read : str -> option A) write k s x : (forall s x, read s = Some x -> read (write x) = Some x) ->
  read s = Some x -> reaches read write s x k x.
Proof.
  intros once H. split; [exact H|]. destruct k as [|k]; [exists s; now split|].
  exists (write x). split; [now apply settles|exact (once s x H)].
Qed.

Lemma arrives_numbers {A} (read : str -> option A) write (numbers : (str -> str) -> A -> A) k s x :
  (forall r s x, rereads r -> read s = Some x -> read (write x) = Some (numbers r x)) ->
  (forall r q x, numbers r (numbers q x) = numbers (fun s => r (q s)) x) ->
  (forall x, numbers (fun s => s) x = x) ->
  read s = Some x -> exists x', reaches read write s x k x'.
Proof.
  intros once twice same H. destruct k as [|k]; [exists x; split; [exact H|]; exists s; now split|].
  destruct (many_times read write numbers once twice same reread k s x reread_rereads H) as (P & R).
  eexists. split; [exact H|]. eexists. split; [exact P|exact R].
Qed.

Lemma arrives d k s : dt_round_trips d -> dates_in_range d ->
  (forall x, metadata_from_json s = Some x ->
     exists x', reaches metadata_from_json metadata_to_json s x k x')
  /\ (forall x, offer_from_json s = Some x -> exists x', reaches offer_from_json offer_to_json s x k x')
  /\ (forall x, credential_request_from_json s = Some x ->
     exists x', reaches credential_request_from_json credential_request_to_json s x k x')
  /\ (forall x, eval_options_from_json d s = Some x ->
     reaches (eval_options_from_json d) (eval_options_to_json d) s x k x)
  /\ (forall x, token_request_from_json s = Some x ->
     reaches token_request_from_json token_request_to_json s x k x)
  /\ (forall x, token_options_from_json s = Some x ->
     reaches token_options_from_json token_options_to_json s x k x).
Proof.
  intros Hd Hr. split; [|split; [|split; [|split; [|split]]]]; intros x.
  - exact (arrives_numbers _ _ _ k s x (fun r s x H => metadata_again r H s x) metadata_twice metadata_same).
  - exact (arrives_numbers _ _ _ k s x (fun r s x H => offer_again r H s x) offer_twice offer_same).
  - exact (arrives_numbers _ _ _ k s x (fun r s x H => request_again r H s x) request_twice request_same).
  - exact (arrives_same _ _ k s x (fun s x => eval_options_relay d s x Hd Hr)).
  - exact (arrives_same _ _ k s x token_request_relay).
  - exact (arrives_same _ _ k s x token_options_relay).
Qed.
