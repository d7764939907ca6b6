(** Proofs about guessing codes and PINs. *)
From Coq Require Import Lia.
From Verif Require Import Model.Prelude Model.Json Model.Types Model.Errors Model.AccessToken
  Spec SpecToken SpecEvidence SpecGuess Proofs.StrFacts Proofs.TokenFacts Proofs.EvidenceFacts.

(* ---------------- any dialogue ---------------- *)
Lemma silent_app {Q A S} (sends : Q -> S -> Prop) (a : list A -> Q) s seen x :
  silent sends a s seen -> ~ sends (a seen) s -> silent sends a s (seen ++ [x]).
Proof.
  intros H N b y t E. destruct (exists_last (l := y :: t)) as [t' [z Ez]]; [discriminate|].
  rewrite Ez in E. rewrite app_assoc in E. apply app_inj_tail in E as [-> _].
  destruct t' as [|y' t'']; [now rewrite app_nil_r in N|].
  injection Ez as <- ->. now apply (H b y t'').
Qed.

Section Talk.
Context {Q A : Type}.
Implicit Types (ask : nat -> Q -> A) (a : list A -> Q) (seen : list A).

Lemma talk_inv ask a seen x :
  talk ask a (seen ++ [x]) -> talk ask a seen /\ x = ask (List.length seen) (a seen).
Proof.
  intros D. inversion D as [E|s D' E].
  - destruct seen; discriminate.
  - apply app_inj_tail in E as [-> <-]. auto.
Qed.

(** Two parties that answer the requests actually sent alike. *)
Lemma same_talk ask ask' a seen :
  talk ask a seen ->
  (forall b x t, seen = b ++ x :: t -> ask (List.length b) (a b) = ask' (List.length b) (a b)) ->
  talk ask' a seen.
Proof.
  induction 1 as [|s D IH]; intros H; [constructor|].
  rewrite (H s _ [] eq_refl). constructor. apply IH. intros b x t ->.
  apply (H b x (t ++ [ask (List.length (b ++ x :: t)) (a (b ++ x :: t))])).
  now rewrite <- app_assoc.
Qed.

Lemma talk_det ask a : forall s1 s2, talk ask a s1 -> talk ask a s2 -> List.length s1 = List.length s2 -> s1 = s2.
Proof.
  intros s1 s2 D. revert s2. induction D as [|s D IH]; intros s2 D2 L.
  - destruct s2; [reflexivity|discriminate].
  - inversion D2 as [E|t D' E]; subst.
    + rewrite app_length in L. cbn in L. lia.
    + rewrite !app_length in L. cbn in L. rewrite (IH t D'); [reflexivity|lia].
Qed.

Lemma talk_prefix ask a : forall n s, talk ask a s -> (n <= List.length s)%nat -> talk ask a (firstn n s).
Proof.
  intros n s D. induction D as [|s D IH]; intros L; [rewrite firstn_nil; constructor|].
  rewrite app_length in L. cbn in L. destruct (Nat.eq_dec n (List.length s + 1)) as [->|Ne].
  - rewrite firstn_all2 by (rewrite app_length; cbn; lia). now constructor.
  - rewrite firstn_app. replace (n - List.length s)%nat with 0%nat by lia. cbn [firstn]. rewrite app_nil_r.
    apply IH. lia.
Qed.

Lemma talk_at ask a s : talk ask a s -> forall b x t, s = b ++ x :: t -> x = ask (List.length b) (a b).
Proof.
  intros D b x t E. assert (P : talk ask a (firstn (List.length b + 1) s)).
  { apply talk_prefix; [exact D|]. rewrite E, app_length. cbn. lia. }
  rewrite E, firstn_app, firstn_all2 in P by lia.
  replace (List.length b + 1 - List.length b)%nat with 1%nat in P by lia. cbn [firstn] in P.
  now apply talk_inv in P as [_ ->].
Qed.
End Talk.

(** Each request can send one secret, and answers are alike for the secrets that
    were not sent: then every request excludes at most one of them. *)
Section Fewest.
Context {Q A S : Type}.
Context (sends : Q -> S -> Prop) (sends_dec : forall r s, {sends r s} + {~ sends r s}).
Context (sends_one : forall r s t, sends r s -> sends r t -> s = t).
Context (ask : S -> nat -> Q -> A).
Context (alike : forall i r s t, ~ sends r s -> ~ sends r t -> ask s i r = ask t i r).

Lemma remaining (a : list A -> Q) secrets : NoDup secrets -> forall k, (k < List.length secrets)%nat ->
  exists rest seen, NoDup rest /\ incl rest secrets /\ (List.length secrets <= List.length rest + k)%nat
    /\ List.length seen = k
    /\ forall s, In s rest -> talk (ask s) a seen /\ silent sends a s seen.
Proof.
  intros ND. induction k as [|k IH]; intros L.
  - exists secrets, []. repeat split; auto using incl_refl; [lia|constructor|].
    intros b x t E. destruct b; discriminate.
  - destruct IH as [rest [seen [N [I [C [Ls H]]]]]]; [lia|].
    set (r := a seen).
    assert (exists rest', NoDup rest' /\ incl rest' rest /\ (List.length rest <= List.length rest' + 1)%nat
              /\ forall s, In s rest' -> ~ sends r s) as [rest' [N' [I' [C' H']]]].
    { clear -N sends_dec sends_one. induction rest as [|s rest IH].
      - exists []. repeat split; auto using incl_refl. cbn. lia.
      - inversion N as [|? ? Ns N']; subst. destruct (sends_dec r s) as [Y|Y].
        + exists rest. repeat split; [exact N'|now apply incl_tl, incl_refl|cbn; lia|].
          intros t T Z. apply Ns. now rewrite (sends_one r s t Y Z).
        + destruct (IH N') as [rest' [B1 [B [C D]]]]. exists (s :: rest').
          repeat split.
          * constructor; [intros X; apply Ns, B, X|exact B1].
          * intros x [<-|X]; [now left|right; now apply B].
          * cbn. lia.
          * intros x [<-|X]; [exact Y|now apply D]. }
    destruct rest' as [|s0 rest0] eqn:Er; [cbn in C'; lia|]. rewrite <- Er in *.
    exists rest', (seen ++ [ask s0 (List.length seen) r]).
    repeat split.
    + exact N'.
    + intros x X. apply I, I', X.
    + lia.
    + rewrite app_length, Ls. cbn. lia.
    + intros. rewrite (alike (List.length seen) r s0 s); [|apply H'; rewrite Er; now left|now apply H'].
      constructor. apply (H s). now apply I'.
    + apply silent_app; [apply (H s); now apply I'|now apply H'].
Qed.

Context (open : A -> Prop) (opened : forall i r s, open (ask s i r) -> sends r s).

Lemma unopened (a : list A -> Q) secrets k : NoDup secrets -> (k < List.length secrets)%nat ->
  exists s, In s secrets /\ forall seen, talk (ask s) a seen -> (List.length seen <= k)%nat ->
    forall x, open x -> ~ In x seen.
Proof.
  intros N L. destruct (remaining a secrets N k L) as [rest [all [_ [I [C [La H]]]]]].
  destruct rest as [|s rest]; [cbn in C; lia|]. exists s. split; [apply I; now left|].
  destruct (H s (or_introl eq_refl)) as [D B]. intros seen Ds Ls x Ox X.
  assert (seen = firstn (List.length seen) all) as E.
  { apply (talk_det (ask s) a); [exact Ds|apply talk_prefix; [exact D|lia]|].
    rewrite firstn_length. lia. }
  apply in_split in X as [b [t Eb]].
  pose proof (talk_at _ _ _ Ds _ _ _ Eb) as O. rewrite O in Ox. apply opened in Ox.
  revert Ox. apply (B b x (t ++ skipn (List.length seen) all)).
  rewrite <- (firstn_skipn (List.length seen) all) at 1. rewrite <- E, Eb.
  now rewrite <- app_assoc.
Qed.
End Fewest.

(* ---------------- what one answer says ---------------- *)
Lemma code_not_sent r o c1 c2 opts :
  ~ sends_code r c1 -> ~ sends_code r c2 ->
  evaluate_access_token_request r (Some (with_code c1 o)) opts
  = evaluate_access_token_request r (Some (with_code c2 o)) opts.
Proof.
  destruct r as [[|code pin]]; intros H1 H2; [reflexivity|].
  apply wrong_code_same; intros ->; [apply H1|apply H2]; now exists pin.
Qed.

Lemma pin_not_sent r offer n1 n2 :
  ~ sends_pin r n1 -> ~ sends_pin r n2 ->
  evaluate_access_token_request r offer (expecting n1) = evaluate_access_token_request r offer (expecting n2).
Proof.
  destruct r as [[|code [pin|]]]; intros H1 H2; [reflexivity| |reflexivity].
  apply wrong_pin_same; intros ->; [apply H1|apply H2]; now exists code.
Qed.

Lemma code_dialogue a o c1 c2 opts seen :
  silent sends_code a c1 seen -> silent sends_code a c2 seen ->
  dialogue a (Some (with_code c1 o)) opts seen -> dialogue a (Some (with_code c2 o)) opts seen.
Proof.
  intros Q1 Q2 D. apply (same_talk _ _ a _ D). intros b x t E.
  apply code_not_sent; [apply (Q1 _ _ _ E)|apply (Q2 _ _ _ E)].
Qed.

Lemma pin_dialogue a offer n1 n2 seen :
  silent sends_pin a n1 seen -> silent sends_pin a n2 seen ->
  dialogue a offer (expecting n1) seen -> dialogue a offer (expecting n2) seen.
Proof.
  intros Q1 Q2 D. apply (same_talk _ _ a _ D). intros b x t E.
  apply pin_not_sent; [apply (Q1 _ _ _ E)|apply (Q2 _ _ _ E)].
Qed.

(** With any code, the answer to a PIN says exactly whether it is the expected one. *)
Lemma wrong_pin_answer code pin o g n :
  og_pre (co_grants o) = Some g -> pin_length_ok (Some pin) -> pin <> n ->
  says_wrong_pin (evaluate_access_token_request {| tr_grant_type := GPreAuthorized code (Some pin) |}
                    (Some o) (expecting n)).
Proof.
  intros G L P.
  assert (M : grant_error g code (expecting n) (Some pin) TUserPinMismatch)
    by (apply (ge_mismatch g code (expecting n) pin n); [eexists; split; reflexivity|exact P]).
  destruct (og_auth (co_grants o)) as [a|] eqn:A.
  - exists (TInvalidAuthorizedAndPreAuthorizedCodeFlow wrong_grant_error TUserPinMismatch).
    split; [|reflexivity]. apply evaluate_err. eapply rej_both; eauto.
  - exists TUserPinMismatch. split; [|reflexivity]. apply evaluate_err. eapply rej_pre_authorized; eauto.
Qed.

Lemma expecting_is n m : expected_pin (expecting n) m -> m = n.
Proof. intros [o [E1 E2]]. injection E1 as <-. cbn in E2. now injection E2. Qed.

Lemma right_pin_answer code o n :
  ~ says_wrong_pin (evaluate_access_token_request {| tr_grant_type := GPreAuthorized code (Some n) |}
                      (Some o) (expecting n)).
Proof.
  intros [e [E R]]. apply evaluate_err in E. inversion E; subst; try discriminate;
    try (match goal with H : pin_length_error _ _ |- _ => destruct H as [k' [t [_ [_ ->]]]] end; discriminate);
    match goal with H : grant_error _ _ _ _ _ |- _ => inversion H; subst; cbn [pre_authorized_reason] in R end;
    try discriminate;
    match goal with H : expected_pin _ _ |- _ => apply expecting_is in H; congruence end.
Qed.

Lemma pin_judged code pin o g n :
  og_pre (co_grants o) = Some g -> pin_length_ok (Some pin) ->
  (says_wrong_pin (evaluate_access_token_request {| tr_grant_type := GPreAuthorized code (Some pin) |}
                     (Some o) (expecting n)) <-> pin <> n).
Proof.
  intros G L. split.
  - intros S ->. now apply (right_pin_answer code o n).
  - now apply (wrong_pin_answer code pin o g n).
Qed.

(* ---------------- the fewest requests ---------------- *)
Lemma sends_code_dec r c : {sends_code r c} + {~ sends_code r c}.
Proof.
  destruct r as [[|code pin]].
  - right. intros [p E]. discriminate.
  - destruct (list_eq_dec ascii_dec code c) as [->|Ne].
    + left. now exists pin.
    + right. intros [p E]. cbn in E. congruence.
Qed.
Lemma sends_pin_dec r n : {sends_pin r n} + {~ sends_pin r n}.
Proof.
  destruct r as [[|code [pin|]]]; try (right; intros [p E]; discriminate).
  destruct (N.eq_dec pin n) as [->|Ne].
  - left. now exists code.
  - right. intros [p E]. cbn in E. congruence.
Qed.

Lemma codes_unopened a o opts codes k : NoDup codes -> (k < List.length codes)%nat ->
  exists c, In c codes /\ forall seen, dialogue a (Some (with_code c o)) opts seen ->
    (List.length seen <= k)%nat -> ~ In (Ok tt) seen.
Proof.
  intros N L.
  destruct (unopened (A := answer) sends_code sends_code_dec) with (a := a) (secrets := codes) (k := k) (open := fun x : answer => x = Ok tt)
    (ask := fun c (_ : nat) r => evaluate_access_token_request r (Some (with_code c o)) opts) as [c [I H]];
    try assumption.
  - intros r s t [p E1] [q E2]. congruence.
  - intros. now apply code_not_sent.
  - intros i r s E. apply evaluate_ok in E. inversion E as [code pin of g op A B [C _]]; subst.
    cbn in B. destruct (og_pre (co_grants o)); [|discriminate]. injection B as <-. now exists pin.
  - exists c. split; [exact I|]. intros seen D Ls. now apply (H seen D Ls).
Qed.

Lemma pins_unopened a o g pins k : og_pre (co_grants o) = Some g -> pin_required g ->
  NoDup pins -> (k < List.length pins)%nat ->
  exists n, In n pins /\ forall seen, dialogue a (Some o) (expecting n) seen ->
    (List.length seen <= k)%nat -> ~ In (Ok tt) seen.
Proof.
  intros G R N L.
  destruct (unopened (A := answer) sends_pin sends_pin_dec) with (a := a) (secrets := pins) (k := k) (open := fun x : answer => x = Ok tt)
    (ask := fun n (_ : nat) r => evaluate_access_token_request r (Some o) (expecting n)) as [n [I H]]; try assumption.
  - intros r s t [p E1] [q E2]. congruence.
  - intros. now apply pin_not_sent.
  - intros i r s E. apply evaluate_ok in E. inversion E as [code pin of g' op A B [C [D F]]]; subst.
    rewrite G in B. injection B as <-. destruct pin as [m|]; [|destruct D as [_ D]; now destruct (D R)].
    specialize (F m eq_refl). apply expecting_is in F. subst. now exists (pf_code g).
  - exists n. split; [exact I|]. intros seen D Ls. now apply (H seen D Ls).
Qed.

(* ---------------- enough requests ---------------- *)
Definition is_wrong_pin (x : answer) : bool :=
  match x with
  | Err e => match pre_authorized_reason e with TUserPinMismatch => true | _ => false end
  | _ => false
  end.
Lemma is_wrong_pin_iff x : is_wrong_pin x = true <-> says_wrong_pin x.
Proof.
  unfold says_wrong_pin, is_wrong_pin. split.
  - destruct x as [|e|]; try discriminate. intros H. exists e. split; [reflexivity|].
    destruct (pre_authorized_reason e); try discriminate. reflexivity.
  - intros [e [-> ->]]. reflexivity.
Qed.

Definition wrong_pins (seen : list answer) : nat := List.length (filter is_wrong_pin seen).

(** Try the PINs with the first code until one is not refused, then the codes. *)
Definition one_by_one (pins : list N) (codes : list str) : attacker := fun seen =>
  {| tr_grant_type := GPreAuthorized (nth (List.length seen - wrong_pins seen) codes [])
                                     (Some (nth (wrong_pins seen) pins 0)) |}.

Lemma first_index {A} (dec : forall x y : A, {x = y} + {x <> y}) (x d : A) l : In x l ->
  exists i, (i < List.length l)%nat /\ nth i l d = x /\ forall j, (j < i)%nat -> nth j l d <> x.
Proof.
  induction l as [|y l IH]; [intros []|]. intros I. destruct (dec y x) as [->|Ne].
  - exists 0%nat. cbn. repeat split; [lia|]. lia.
  - destruct I as [->|I]; [congruence|]. destruct (IH I) as [i [L [E F]]].
    exists (Datatypes.S i). cbn [List.length nth]. repeat split; [lia|exact E|].
    intros [|j] J; [exact Ne|]. apply F. lia.
Qed.

Lemma pins_then_codes_at pins (codes : list str) o g n i j :
  Forall (fun p => pin_length_ok (Some p)) pins ->
  og_pre (co_grants o) = Some g -> pin_required g ->
  (i < List.length pins)%nat -> nth i pins 0 = n -> (forall x, (x < i)%nat -> nth x pins 0 <> n) ->
  nth j codes [] = pf_code g ->
  exists seen, dialogue (one_by_one pins codes) (Some o) (expecting n) (seen ++ [Ok tt])
    /\ List.length seen = (i + j)%nat.
Proof.
  intros L G R Li Ei Fi Ej.
  set (a := one_by_one pins codes).
  assert (P1 : forall k, (k <= i)%nat -> exists seen, dialogue a (Some o) (expecting n) seen
            /\ List.length seen = k /\ wrong_pins seen = k).
  { induction k as [|k IH]; intros Lk; [exists []; repeat split; constructor|].
    destruct IH as [seen [D [E W]]]; [lia|].
    exists (seen ++ [evaluate_access_token_request (a seen) (Some o) (expecting n)]).
    split; [now apply (talk_next (fun _ r => evaluate_access_token_request r (Some o) (expecting n)))|]. unfold wrong_pins. rewrite filter_app, !app_length.
    fold (wrong_pins seen). rewrite E, W. cbn [List.length filter].
    unfold a, one_by_one. rewrite E, W.
    replace (is_wrong_pin _) with true; [cbn [List.length]; lia|].
    symmetry. apply is_wrong_pin_iff. apply (wrong_pin_answer _ _ o g); [exact G| |].
    - rewrite Forall_forall in L. apply L, nth_In. lia.
    - apply Fi. lia. }
  assert (P2 : forall k, (k <= j)%nat -> exists seen, dialogue a (Some o) (expecting n) seen
            /\ List.length seen = (i + k)%nat /\ wrong_pins seen = i).
  { induction k as [|k IH]; intros Lk.
    - destruct (P1 i (le_n i)) as [seen [D [E W]]]. exists seen. repeat split; [exact D|lia|exact W].
    - destruct IH as [seen [D [E W]]]; [lia|].
      exists (seen ++ [evaluate_access_token_request (a seen) (Some o) (expecting n)]).
      split; [now apply (talk_next (fun _ r => evaluate_access_token_request r (Some o) (expecting n)))|]. unfold wrong_pins. rewrite filter_app, !app_length.
      fold (wrong_pins seen). rewrite E, W. cbn [List.length filter].
      unfold a, one_by_one. rewrite E, W, Ei.
      replace (is_wrong_pin _) with false; [cbn [List.length]; lia|].
      symmetry. apply Bool.not_true_iff_false. rewrite is_wrong_pin_iff. apply right_pin_answer. }
  destruct (P2 j (le_n j)) as [seen [D [E W]]]. exists seen. split; [|exact E].
  replace (Ok tt) with (evaluate_access_token_request (a seen) (Some o) (expecting n));
    [now apply (talk_next (fun _ r => evaluate_access_token_request r (Some o) (expecting n)))|].
  apply evaluate_ok. unfold a, one_by_one. rewrite E, W, Ei.
  replace (i + j - i)%nat with j by lia. rewrite Ej.
  apply (token_accept _ _ _ g); [| exact G |].
  - rewrite Forall_forall in L. apply L. rewrite <- Ei. now apply nth_In.
  - repeat split; [auto|discriminate|]. intros m M. injection M as <-. eexists. split; reflexivity.
Qed.

Lemma pins_then_codes pins codes o g n :
  Forall (fun p => pin_length_ok (Some p)) pins ->
  og_pre (co_grants o) = Some g -> pin_required g -> In n pins -> In (pf_code g) codes ->
  exists seen, dialogue (one_by_one pins codes) (Some o) (expecting n) (seen ++ [Ok tt])
    /\ (List.length seen + 2 <= List.length pins + List.length codes)%nat.
Proof.
  intros L G R In1 In2.
  destruct (first_index N.eq_dec n 0 pins In1) as [i [Li [Ei Fi]]].
  destruct (first_index (A := str) (list_eq_dec ascii_dec) (pf_code g) [] codes In2) as [j [Lj [Ej _]]].
  destruct (pins_then_codes_at pins codes o g n i j L G R Li Ei Fi Ej) as [seen [D E]].
  exists seen. split; [exact D|]. unfold answer, str in *. lia.
Qed.

Lemma requests_enough pins codes :
  Forall (fun p => pin_length_ok (Some p)) pins ->
  exists a, forall o g n,
    og_pre (co_grants o) = Some g -> pin_required g -> In n pins -> In (pf_code g) codes ->
    exists seen, dialogue a (Some o) (expecting n) (seen ++ [Ok tt])
      /\ (List.length (seen ++ [Ok (E := token_error) tt]) < List.length pins + List.length codes)%nat.
Proof.
  intros L. exists (one_by_one pins codes). intros o g n G R I1 I2.
  destruct (pins_then_codes pins codes o g n L G R I1 I2) as [seen [D B]]. exists seen. split; [exact D|].
  rewrite app_length. cbn [List.length]. unfold answer, str in *. lia.
Qed.

(* ---------------- with the numbers only ---------------- *)
Lemma sends_both_dec r s : {sends_both r s} + {~ sends_both r s}.
Proof.
  destruct r as [[|code [pin|]]]; destruct s as [c n]; try (right; intros E; discriminate).
  destruct (list_eq_dec ascii_dec code c) as [->|Ne]; [|right; intros E; cbv in E; congruence].
  destruct (N.eq_dec pin n) as [->|Ne]; [now left|right; intros E; injection E; congruence].
Qed.

Lemma both_number r o a g c n :
  og_auth (co_grants o) = Some a -> og_pre (co_grants o) = Some g -> pin_required g -> ~ sends_both r (c, n) ->
  token_number_only (evaluate_access_token_request r (Some (with_code c o)) (expecting n))
  = match tr_grant_type r with
    | GAuthorizedCode => Err (token_error_code_num TAuthorizedFlowNotSupported)
    | GPreAuthorized code pin =>
        match grant_type_validate (GPreAuthorized code pin) with
        | Ok _ => Err (token_error_code_num
                    (TInvalidAuthorizedAndPreAuthorizedCodeFlow wrong_grant_error TUserPinMismatch))
        | _ => Err (token_error_code_num (TValidationError (VAny [])))
        end
    end.
Proof.
  intros A G R N. destruct r as [[|code pin]]; [reflexivity|]. cbn [tr_grant_type].
  assert (P : forall x, evaluate_access_token_request {| tr_grant_type := GPreAuthorized code pin |}
                (Some (with_code c o)) (expecting n) <> Ok x).
  { intros [] E. apply evaluate_ok in E. inversion E as [co pi of g' op B1 B2 [B3 [B4 B5]]]; subst.
    cbn in B2. rewrite G in B2. injection B2 as <-. apply N. unfold sends_both. cbn [fst snd tr_grant_type pf_code].
    destruct pin as [m|]; [|destruct B4 as [_ B4]; destruct B4; [exact R|reflexivity]].
    now rewrite (expecting_is n m (B5 m eq_refl)). }
  revert P. unfold evaluate_access_token_request, token_request_validate. cbn [tr_grant_type].
  destruct (grant_type_validate (GPreAuthorized code pin)) as [[]|e|] eqn:V; cbn [map_err bind].
  - cbn [with_code co_grants og_auth og_pre]. rewrite A, G. cbn [option_map].
    destruct (validate_pre_authorized_code_flow _ _ _) as [[]|e|] eqn:W; intros P.
    + exfalso. now apply (P tt).
    + reflexivity.
    + exfalso. now apply preauth_no_panic in W.
  - intros _. cbn [token_number_only token_error_code_num]. reflexivity.
  - exfalso. now apply validate_no_panic in V.
Qed.

Lemma both_unopened a o af g secrets k :
  og_auth (co_grants o) = Some af -> og_pre (co_grants o) = Some g -> pin_required g ->
  NoDup secrets -> (k < List.length secrets)%nat ->
  exists s, In s secrets /\ forall seen,
    talk (fun _ r => token_number_only
                       (evaluate_access_token_request r (Some (with_code (fst s) o)) (expecting (snd s)))) a seen ->
    (List.length seen <= k)%nat -> ~ In (Ok tt) seen.
Proof.
  intros Au G R ND L.
  destruct (unopened (A := res N unit) sends_both sends_both_dec) with (a := a) (secrets := secrets) (k := k)
    (open := fun x : res N unit => x = Ok tt)
    (ask := fun s (_ : nat) r => token_number_only
              (evaluate_access_token_request r (Some (with_code (fst s) o)) (expecting (snd s)))) as [s [I H]];
    try assumption.
  - intros r [c1 n1] [c2 n2] E1 E2. unfold sends_both in *. cbn [fst snd] in *. congruence.
  - intros i r [c1 n1] [c2 n2] N1 N2. cbn [fst snd].
    now rewrite (both_number r o af g c1 n1), (both_number r o af g c2 n2).
  - intros i r [c n] E. cbn [fst snd] in E. destruct (sends_both_dec r (c, n)) as [Y|Y]; [exact Y|exfalso].
    rewrite (both_number r o af g c n Au G R Y) in E. destruct (tr_grant_type r); [discriminate|].
    destruct (grant_type_validate _); discriminate.
  - exists s. split; [exact I|]. intros seen D Ls. now apply (H seen D Ls).
Qed.

Lemma pin_number code pin o g n :
  og_auth (co_grants o) = None -> og_pre (co_grants o) = Some g -> pin_length_ok (Some pin) ->
  (token_number_only (evaluate_access_token_request {| tr_grant_type := GPreAuthorized code (Some pin) |}
                        (Some o) (expecting n)) = Err 407 <-> pin <> n).
Proof.
  intros A G L. rewrite <- (pin_judged code pin o g n G L). unfold says_wrong_pin, token_number_only.
  destruct (evaluate_access_token_request _ _ _) as [[]|e|] eqn:E.
  - split; [discriminate|]. intros [x [X _]]. discriminate.
  - split.
    + intros H. exists e. split; [reflexivity|]. destruct e; try discriminate. reflexivity.
    + intros [x [X Y]]. injection X as <-. apply evaluate_err in E.
      destruct e; cbn in Y; try discriminate; [|reflexivity].
      exfalso. inversion E; subst; try congruence.
      * match goal with H : pin_length_error _ _ |- _ => destruct H as [? [? [_ [_ X]]]] end. discriminate.
      * match goal with H : grant_error _ _ _ _ _ |- _ => inversion H end.
  - split; [discriminate|]. intros [x [X _]]. discriminate.
Qed.
