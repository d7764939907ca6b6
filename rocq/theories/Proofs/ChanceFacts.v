(** Proofs about the number of secrets found within a number of requests. *)
From Coq Require Import Lia.
From Verif Require Import Model.Prelude Model.Json Model.Types Model.Deps Model.Errors Model.AccessToken
  Model.CredentialIssuer
  Spec SpecToken SpecOffer SpecJwt SpecEvaluation SpecSession SpecEvidence SpecGuess SpecProbe SpecChance
  Proofs.StrFacts Proofs.TokenFacts Proofs.EvidenceFacts Proofs.GuessFacts Proofs.ProbeFacts.

(* ---------------- counting ---------------- *)
Lemma filter_parts {A} (f : A -> bool) l :
  List.length l = (List.length (filter f l) + List.length (filter (fun x => negb (f x)) l))%nat.
Proof. induction l as [|x l IH]; [reflexivity|]. cbn. destruct (f x); cbn; lia. Qed.

Lemma at_most_inj {S T} n (P : S -> Prop) (Q : T -> Prop) (f : S -> T) :
  at_most n Q -> (forall s, P s -> Q (f s)) -> (forall s t, P s -> P t -> f s = f t -> s = t) -> at_most n P.
Proof.
  intros H I J l N A. rewrite <- (map_length f l). apply H.
  - clear H. induction N as [|x l X N IH]; [constructor|]. cbn [map]. constructor.
    + intros Y. apply in_map_iff in Y as (y & E & Y). apply X.
      rewrite (J x y); [exact Y|apply A; now left|apply A; now right|now symmetry].
    + apply IH. intros s Z. apply A. now right.
  - intros t X. apply in_map_iff in X as (s & <- & X). apply I, A, X.
Qed.

Lemma at_most_split {S} n m (b : S -> bool) (P : S -> Prop) :
  at_most n (fun s => b s = true /\ P s) -> at_most m (fun s => b s = false /\ P s) -> at_most (n + m) P.
Proof.
  intros H1 H2 l N A. rewrite (filter_parts b l).
  apply Nat.add_le_mono; [apply H1|apply H2]; try (apply NoDup_filter; exact N).
  - intros s X. apply filter_In in X as [X B]. auto.
  - intros s X. apply filter_In in X as [X B]. split; [now destruct (b s)|auto].
Qed.

Lemma at_most_le {S} n m (P : S -> Prop) : (n <= m)%nat -> at_most n P -> at_most m P.
Proof. intros L H l N A. specialize (H l N A). lia. Qed.

Lemma at_most_one {S} (P : S -> Prop) (x : S) : (forall s, P s -> s = x) -> at_most 1 P.
Proof.
  intros H l N A. destruct l as [|a [|b l]]; cbn; try lia.
  exfalso. inversion N as [|? ? X _]; subst. apply X.
  rewrite (H a), (H b); [now left|apply A; right; now left|apply A; now left].
Qed.

Lemma at_most_none {S} (P : S -> Prop) : (forall s, ~ P s) -> at_most 0 P.
Proof. intros H l N A. destruct l as [|a l]; [apply le_n|]. exfalso. apply (H a), A. now left. Qed.

Lemma lucky_at_most {S} coins (won : nat -> S -> Prop) k :
  (forall i, at_most k (won i)) -> at_most (coins * k) (lucky coins won).
Proof.
  intros H. induction coins as [|n IH].
  - apply at_most_none. intros [i s] [L _]. cbn in L. lia.
  - cbn [Nat.mul]. apply (at_most_split k (n * k) (fun c => Nat.eqb (fst c) n)).
    + apply (at_most_inj k _ (won n) snd (H n)).
      * intros [i s] [E [_ W]]. cbn [fst snd] in *. apply Nat.eqb_eq in E. now subst.
      * intros [i s] [j t] [E _] [F _] X. cbn [fst snd] in *. apply Nat.eqb_eq in E, F. now subst.
    + apply (at_most_inj (n * k) _ (lucky n won) (fun c => c) IH); [|auto].
      intros [i s] [E [L W]]. cbn [fst snd] in *. apply Nat.eqb_neq in E. split; [cbn; lia|exact W].
Qed.

(** Someone who needs all but every [k] requests finds at most [k]. *)
Lemma needed_at_most {Q E S} (ask : S -> nat -> Q -> res E unit) choose k :
  (forall secrets, NoDup secrets -> (k < List.length secrets)%nat ->
     exists s, In s secrets /\ forall seen, talk (ask s) choose seen -> (List.length seen <= k)%nat -> ~ In (Ok tt) seen) ->
  at_most k (fun s => finds (ask s) choose k).
Proof.
  intros H l N A. destruct (Nat.le_gt_cases (List.length l) k) as [L|L]; [exact L|exfalso].
  destruct (H l N L) as (s & I & F). destruct (A s I) as (seen & T & B & O). now apply (F seen T B).
Qed.

Lemma codes_found o opts (a : nat -> attacker) coins k :
  at_most (coins * k) (lucky coins (fun coin c =>
    finds (fun _ r => evaluate_access_token_request r (Some (with_code c o)) opts) (a coin) k)).
Proof.
  apply lucky_at_most. intros i.
  apply (needed_at_most (fun c (_ : nat) r => evaluate_access_token_request r (Some (with_code c o)) opts)).
  intros codes N L. exact (codes_unopened (a i) o opts codes k N L).
Qed.

Lemma pins_found o g (a : nat -> attacker) coins k : og_pre (co_grants o) = Some g -> pin_required g ->
  at_most (coins * k) (lucky coins (fun coin n =>
    finds (fun _ r => evaluate_access_token_request r (Some o) (expecting n)) (a coin) k)).
Proof.
  intros G R. apply lucky_at_most. intros i.
  apply (needed_at_most (fun n (_ : nat) r => evaluate_access_token_request r (Some o) (expecting n))).
  intros pins N L. exact (pins_unopened (a i) o g pins k G R N L).
Qed.

Lemma numbers_found o af g (a : nat -> list (res N unit) -> token_request) coins k :
  og_auth (co_grants o) = Some af -> og_pre (co_grants o) = Some g -> pin_required g ->
  at_most (coins * k) (lucky coins (fun coin s =>
    finds (fun i r => token_number_only (token_endpoint o s i r)) (a coin) k)).
Proof.
  intros A G R. apply lucky_at_most. intros i.
  apply (needed_at_most (fun s n r => token_number_only (token_endpoint o s n r))).
  intros secrets N L. exact (both_unopened (a i) o af g secrets k A G R N L).
Qed.

Lemma nonces_found d clock m o doc options (w : nat -> list (res N unit) -> credential_request) coins k :
  lower_case_facts d ->
  at_most (coins * k) (lucky coins (fun coin e =>
    finds (issuer_shows number_only d clock m o doc (with_expected_nonce e options)) (w coin) k)).
Proof.
  intros HL. apply lucky_at_most. intros i.
  apply (needed_at_most (fun e => issuer_shows number_only d clock m o doc (with_expected_nonce e options))).
  intros nonces N L. exact (nonces_needed d (w i) clock m o doc options nonces k HL N L).
Qed.

(* ---------------- code and PIN together, with the errors ---------------- *)
Lemma talk_rest {Q A} (f : Q -> A) (a : list A -> Q) seen : talk (fun _ => f) a seen ->
  seen = [] \/ exists rest, seen = f (a []) :: rest /\ talk (fun _ => f) (fun l => a (f (a []) :: l)) rest.
Proof.
  induction 1 as [|s T IH]; [now left|right]. destruct IH as [->|(rest & -> & R)].
  - exists []. split; [reflexivity|constructor].
  - exists (rest ++ [f (a (f (a []) :: rest))]). split; [reflexivity|].
    exact (talk_next (fun _ => f) (fun l => a (f (a []) :: l)) rest R).
Qed.

Lemma finds_step {Q E} (f : Q -> res E unit) (a : list (res E unit) -> Q) k :
  finds (fun _ => f) a (S k) -> f (a []) = Ok tt \/ finds (fun _ => f) (fun l => a (f (a []) :: l)) k.
Proof.
  intros (seen & T & L & I). destruct (talk_rest f a seen T) as [->|(rest & -> & R)]; [destruct I|].
  destruct I as [I|I]; [now left|right]. exists rest. split; [exact R|]. split; [cbn in L; lia|exact I].
Qed.

Lemma finds_none {Q E} (f : nat -> Q -> res E unit) a : ~ finds f a 0.
Proof. intros (seen & T & L & I). destruct seen; [destruct I|cbn in L; lia]. Qed.

(** Secrets to which the first request, which none of them accepts, gets the same
    answer are found with the requests after it. *)
Lemma after_alike {Q E S} (ask : S -> Q -> res E unit) (a : list (res E unit) -> Q) k n (P : S -> Prop) :
  (forall s t, P s -> P t -> ask s (a []) = ask t (a [])) ->
  (forall s, P s -> ask s (a []) <> Ok tt) ->
  (forall b, at_most n (fun s => P s /\ finds (fun _ => ask s) b k)) ->
  at_most n (fun s => P s /\ finds (fun _ => ask s) a (Datatypes.S k)).
Proof.
  intros Same No B l N A. destruct l as [|s0 l0] eqn:El; [cbn; lia|]. rewrite <- El in *.
  assert (I0 : In s0 l) by (rewrite El; now left).
  apply (B (fun x => a (ask s0 (a []) :: x)) l N). intros s I. destruct (A s I) as [Ps F].
  split; [exact Ps|]. destruct (A s0 I0) as [P0 _]. apply finds_step in F as [F|F].
  - exfalso. now apply (No s Ps).
  - now rewrite (Same s s0 Ps P0) in F.
Qed.

Lemma endpoint_accepts o g s i r : og_pre (co_grants o) = Some g -> pin_required g ->
  token_endpoint o s i r = Ok tt -> sends_both r s.
Proof.
  intros G R E. apply evaluate_ok in E. inversion E as [code pin of g' op A B [C [D F]]]; subst.
  cbn in B. rewrite G in B. injection B as <-. cbn [pf_code] in *. unfold sends_both. cbn [tr_grant_type].
  destruct pin as [m|]; [|destruct D as [_ D]; now destruct (D R)].
  specialize (F m eq_refl). apply expecting_is in F. now subst.
Qed.

Lemma endpoint_alike o s t i r :
  (sends_code r (fst s) <-> sends_code r (fst t)) -> (sends_pin r (snd s) <-> sends_pin r (snd t)) ->
  token_endpoint o s i r = token_endpoint o t i r.
Proof.
  intros C P. unfold token_endpoint.
  assert (evaluate_access_token_request r (Some (with_code (fst s) o)) (expecting (snd s))
          = evaluate_access_token_request r (Some (with_code (fst t) o)) (expecting (snd s))) as ->.
  { destruct (sends_code_dec r (fst s)) as [[p Y]|Y].
    - destruct (proj1 C (ex_intro _ p Y)) as [q Z]. now replace (fst t) with (fst s) by congruence.
    - apply code_not_sent; [exact Y|]. intros Z. now apply Y, C. }
  destruct (sends_pin_dec r (snd s)) as [[c Y]|Y].
  - destruct (proj1 P (ex_intro _ c Y)) as [q Z]. now replace (snd t) with (snd s) by congruence.
  - apply pin_not_sent; [exact Y|]. intros Z. now apply Y, P.
Qed.

(** A PIN that was sent and is wrong: the code makes no difference. *)
Lemma wrong_pin_alike o s t i r code pin : tr_grant_type r = GPreAuthorized code (Some pin) ->
  pin <> snd s -> pin <> snd t -> token_endpoint o s i r = token_endpoint o t i r.
Proof.
  intros R Ns Nt. destruct r as [gt]. cbn in R. subst gt. unfold token_endpoint.
  rewrite (pin_not_sent _ _ (snd s) (snd t)) by (intros [c E]; cbn in E; congruence).
  unfold evaluate_access_token_request. destruct (token_request_validate _) as [[]|e|]; cbn [map_err bind]; [|reflexivity..].
  cbn [with_code co_grants og_auth og_pre tr_grant_type expecting].
  destruct (og_pre (co_grants o)) as [g|]; cbn [option_map]; [|reflexivity].
  assert (W : forall c, validate_pre_authorized_code_flow (Some {| to_expected_user_pin := Some (snd t) |})
     {| pf_code := c; pf_user_pin_required := pf_user_pin_required g |} (GPreAuthorized code (Some pin))
     = Err TUserPinMismatch).
  { intros c. cbn. destruct (N.eqb_spec pin (snd t)) as [E|_]; [congruence|reflexivity]. }
  now rewrite !W.
Qed.

Definition triangle (k : nat) : nat := (k * (k + 1) / 2)%nat.
Lemma triangle_S k : triangle (S k) = (triangle k + S k)%nat.
Proof.
  unfold triangle. replace (S k * (S k + 1))%nat with (k * (k + 1) + S k * 2)%nat by lia.
  rewrite Nat.div_add by lia. reflexivity.
Qed.

Lemma both_found_by o g k : og_pre (co_grants o) = Some g -> pin_required g -> forall a : attacker,
  at_most (triangle k) (fun s => finds (token_endpoint o s) a k).
Proof.
  intros G R. induction k as [|k IH]; intros a; [apply at_most_none; intros s; apply finds_none|].
  set (ask := fun s r => token_endpoint o s 0%nat r).
  assert (A : forall (P : str * N -> Prop), (forall s t, P s -> P t -> ask s (a []) = ask t (a [])) ->
            (forall s, P s -> ~ sends_both (a []) s) ->
            forall n, (forall b, at_most n (fun s => P s /\ finds (fun _ => ask s) b k)) ->
            at_most n (fun s => P s /\ finds (fun _ => ask s) a (S k))).
  { intros P H1 H2 n H3. apply after_alike; [exact H1| |exact H3].
    intros s Ps E. apply (H2 s Ps). exact (endpoint_accepts o g s 0 _ G R E). }
  assert (IH' : forall (P : str * N -> Prop) b, at_most (triangle k) (fun s => P s /\ finds (fun _ => ask s) b k)).
  { intros P b. apply (at_most_inj _ _ _ (fun s => s) (IH b)); [|auto]. intros s [_ F]. exact F. }
  change (at_most (triangle (S k)) (fun s => finds (fun _ => ask s) a (S k))). rewrite triangle_S.
  destruct (tr_grant_type (a [])) as [|code [pin|]] eqn:T.
  - apply (at_most_le (triangle k)); [lia|].
    apply (at_most_inj _ _ (fun s => True /\ finds (fun _ => ask s) a (S k)) (fun s => s)); [|auto..].
    apply A; [|intros s _ B; unfold sends_both in B; congruence|apply IH'].
    intros s t _ _. apply endpoint_alike; split; intros [x E]; congruence.
  - replace (triangle k + S k)%nat with ((1 + k) + triangle k)%nat by lia.
    apply (at_most_split _ _ (fun s => snd s =? pin)).
    + apply (at_most_split _ _ (fun s => str_eqb (fst s) code)).
      * apply (at_most_one _ (code, pin)). intros [c n] [E [F _]]. cbn [fst snd] in *.
        apply N.eqb_eq in F. apply str_eqb_eq in E. now subst.
      * apply (at_most_inj _ _ (fun s => (str_eqb (fst s) code = false /\ (snd s =? pin) = true)
                                         /\ finds (fun _ => ask s) a (S k)) (fun s => s)); [|tauto|auto].
        apply A.
        -- intros s t [E1 F1] [E2 F2]. apply N.eqb_eq in F1, F2.
           assert (N1 : fst s <> code) by (intros X; apply str_eqb_eq in X; congruence).
           assert (N2 : fst t <> code) by (intros X; apply str_eqb_eq in X; congruence).
           apply endpoint_alike; [|now rewrite F1, F2].
           split; intros [x E]; exfalso; [apply N1|apply N2]; congruence.
        -- intros s [E F] B. unfold sends_both in B. rewrite T in B. injection B as B _.
           rewrite (proj2 (str_eqb_eq (fst s) code)) in E; [discriminate|now symmetry].
        -- intros b. apply (at_most_inj _ _ (fun c => finds (fun _ r =>
             evaluate_access_token_request r (Some (with_code c o)) (expecting pin)) b k) fst).
           ++ apply (needed_at_most (fun c (_ : nat) r => evaluate_access_token_request r (Some (with_code c o)) (expecting pin))).
              intros codes N L. exact (codes_unopened b o (expecting pin) codes k N L).
           ++ intros [c n] [[_ F] X]. cbn [fst snd] in *. apply N.eqb_eq in F. subst n. exact X.
           ++ intros [c n] [c' n'] [[_ F] _] [[_ F'] _] X. cbn [fst snd] in *. apply N.eqb_eq in F, F'. now subst.
    + apply A; [| |apply IH'].
      * intros s t E1 E2. apply N.eqb_neq in E1, E2. apply (wrong_pin_alike o s t 0 _ code pin T); congruence.
      * intros s E B. unfold sends_both in B. rewrite T in B. injection B as _ B.
        apply N.eqb_neq in E. congruence.
  - apply (at_most_le (k + triangle k)); [lia|].
    apply (at_most_split _ _ (fun s => str_eqb (fst s) code)).
    + apply A.
      * intros s t E1 E2. apply str_eqb_eq in E1, E2. apply endpoint_alike; [now rewrite E1, E2|].
        split; intros [x E]; congruence.
      * intros s _ B. unfold sends_both in B. congruence.
      * intros b. apply (at_most_inj _ _ (fun n => finds (fun _ r =>
             evaluate_access_token_request r (Some (with_code code o)) (expecting n)) b k) snd).
        -- apply (needed_at_most (fun n (_ : nat) r => evaluate_access_token_request r (Some (with_code code o)) (expecting n))).
           intros pins N L.
           apply (pins_unopened b (with_code code o)
             {| pf_code := code; pf_user_pin_required := pf_user_pin_required g |} pins k); [|exact R|exact N|exact L].
           cbn. now rewrite G.
        -- intros [c n] [E X]. cbn [fst snd] in *. apply str_eqb_eq in E. subst c. exact X.
        -- intros [c n] [c' n'] [E _] [E' _] X. cbn [fst snd] in *. apply str_eqb_eq in E, E'. now subst.
    + apply A; [| |apply IH'].
      * intros s t E1 E2.
        assert (N1 : fst s <> code) by (intros X; apply str_eqb_eq in X; congruence).
        assert (N2 : fst t <> code) by (intros X; apply str_eqb_eq in X; congruence).
        apply endpoint_alike; split; intros [x E]; exfalso; first [congruence|apply N1; congruence|apply N2; congruence].
      * intros s _ B. unfold sends_both in B. congruence.
Qed.

Lemma both_found o g (a : nat -> attacker) coins k : og_pre (co_grants o) = Some g -> pin_required g ->
  at_most (coins * (k * (k + 1) / 2)) (lucky coins (fun coin s => finds (token_endpoint o s) (a coin) k)).
Proof. intros G R. apply lucky_at_most. intros i. exact (both_found_by o g k G R (a i)). Qed.

(* ---------------- the bound is reached ---------------- *)
Fixpoint below (k : nat) : list (nat * nat) :=
  match k with
  | O => []
  | S k' => below k' ++ map (fun i => (i, k' - i)%nat) (seq 0 k)
  end.
Lemma below_in k p : In p (below k) -> (fst p + snd p < k)%nat.
Proof.
  induction k as [|k IH]; [intros []|]. cbn [below]. intros I. apply in_app_or in I as [I|I].
  - apply IH in I. lia.
  - apply in_map_iff in I as (i & <- & I). apply in_seq in I. cbn [fst snd]. lia.
Qed.
Lemma below_length k : List.length (below k) = triangle k.
Proof.
  induction k as [|k IH]; [reflexivity|]. rewrite triangle_S. cbn [below].
  now rewrite app_length, IH, map_length, seq_length.
Qed.
Lemma NoDup_app_intro {A} (l m : list A) :
  NoDup l -> NoDup m -> (forall x, In x l -> ~ In x m) -> NoDup (l ++ m).
Proof.
  induction 1 as [|x l X N IH]; intros M D; [exact M|]. cbn [app]. constructor.
  - intros I. apply in_app_or in I as [I|I]; [now apply X|]. apply (D x); [now left|exact I].
  - apply IH; [exact M|]. intros y Y. apply D. now right.
Qed.
Lemma NoDup_map_on {A B} (f : A -> B) l :
  (forall x y, In x l -> In y l -> f x = f y -> x = y) -> NoDup l -> NoDup (map f l).
Proof.
  intros J N. induction N as [|x l X N IH]; [constructor|]. cbn [map]. constructor.
  - intros Y. apply in_map_iff in Y as (y & E & Y). apply X.
    rewrite (J x y); [exact Y|now left|now right|now symmetry].
  - apply IH. intros a b Ia Ib. apply J; now right.
Qed.
Lemma below_distinct k : NoDup (below k).
Proof.
  induction k as [|k IH]; [constructor|]. cbn [below]. apply NoDup_app_intro; [exact IH| |].
  - apply NoDup_map_on; [|apply seq_NoDup]. intros x y _ _ E. now injection E.
  - intros p I J. apply below_in in I. apply in_map_iff in J as (i & <- & J). apply in_seq in J.
    cbn [fst snd] in I. lia.
Qed.

Lemma both_found_enough pins codes k : Forall (fun p => pin_length_ok (Some p)) pins ->
  NoDup pins -> NoDup codes -> (k <= List.length pins)%nat -> (k <= List.length codes)%nat ->
  exists a : attacker, forall o g, og_pre (co_grants o) = Some g -> pin_required g ->
    exists secrets, NoDup secrets /\ List.length secrets = (k * (k + 1) / 2)%nat
      /\ forall s, In s secrets -> In (fst s) codes /\ In (snd s) pins /\ finds (token_endpoint o s) a k.
Proof.
  intros L Np Nc Lp Lc. exists (one_by_one pins codes). intros o g G R.
  exists (map (fun p => (nth (snd p) codes [], nth (fst p) pins 0)) (below k)).
  rewrite map_length, below_length. split; [|split; [reflexivity|]].
  - apply NoDup_map_on; [|apply below_distinct]. intros [i j] [i' j'] I J E.
    apply below_in in I, J. cbn [fst snd] in *. injection E as E1 E2.
    assert (j = j') as -> by (apply (proj1 (NoDup_nth codes []) Nc); [unfold str in *; lia..|exact E1]).
    assert (i = i') as -> by (apply (proj1 (NoDup_nth pins 0) Np); [lia..|exact E2]). reflexivity.
  - intros s I. apply in_map_iff in I as ([i j] & <- & I). apply below_in in I. cbn [fst snd] in *.
    split; [apply nth_In; unfold str in *; lia|]. split; [apply nth_In; lia|].
    destruct (pins_then_codes_at pins codes (with_code (nth j codes []) o)
      {| pf_code := nth j codes []; pf_user_pin_required := pf_user_pin_required g |} (nth i pins 0) i j L)
      as (seen & D & E); try reflexivity.
    + cbn. now rewrite G.
    + exact R.
    + lia.
    + intros x X E. apply (proj1 (NoDup_nth pins 0) Np) in E; lia.
    + exists (seen ++ [Ok tt]). split; [exact D|]. split.
      * rewrite app_length. cbn [List.length]. unfold answer in *. lia.
      * apply in_or_app. right. now left.
Qed.

Lemma clients_found d clock m o doc opts (w : nat -> list (res N unit) -> credential_request) coins k :
  lower_case_facts d ->
  at_most (coins * k) (lucky coins (fun coin c =>
    finds (issuer_shows number_only d clock m o doc (with_client_id c (Some opts))) (w coin) k)).
Proof.
  intros HL. apply lucky_at_most. intros i.
  apply (needed_at_most (fun c => issuer_shows number_only d clock m o doc (with_client_id c (Some opts)))).
  intros clients N L. exact (clients_needed d (w i) clock m o doc opts clients k HL N L).
Qed.
