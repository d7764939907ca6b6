(** Proofs about extensions in the header of a token. *)
From Coq Require Import Lia.
From Verif Require Import Model.Prelude Model.Base64 Model.Json Model.Types Model.Deps Model.Serde Model.Jwt Model.CredentialIssuer Model.Wire
  Spec SpecJson SpecToken SpecJwt SpecEvaluation SpecRespell SpecCritical
  Proofs.StrFacts Proofs.JsonFacts Proofs.Base64Facts Proofs.Base64Bits Proofs.SerdeFacts Proofs.JwtFacts Proofs.GrammarFacts Proofs.ShapeFacts Proofs.EvalFacts
  Proofs.EvalFacts2 Proofs.RenumberFacts Proofs.RespellFacts.

Lemma json_text_det s j j' : json_text s j -> json_text s j' -> j = j'.
Proof. intros A B. apply parse_json_iff in A, B. congruence. Qed.

Lemma only_cons m k v k' v' : lit k <> k' -> only_member m k v -> only_member ((k', v') :: m) k v.
Proof.
  intros N [I C]. split; [now right|]. cbn [map fst count_occ].
  destruct (list_eq_dec ascii_dec k' (lit k)) as [E|_]; [now destruct N|exact C].
Qed.

Lemma header_of_cons m h k v : (forall n, In n header_names -> k <> lit n) -> header_of m h -> header_of ((k, v) :: m) h.
Proof.
  intros N (T & (a & A & V) & K).
  split; [apply only_cons; [|exact T]; intros E; exact (N "typ"%string ltac:(cbn; auto) (eq_sym E))|].
  split; [exists a; split; [|exact V]; apply only_cons; [|exact A]; intros E; exact (N "alg"%string ltac:(cbn; auto) (eq_sym E))|].
  assert (Q : ~ names_key k).
  { intros (n & I & E). apply (N n); [cbn in I |- *; tauto|exact E]. }
  destruct K as [F|b a' n s key E F I|b a' k' v' E F I V'].
  - apply fk_none. intros x y [[= <- <-]|X]; [exact Q|exact (F x y X)].
  - apply (fk_some _ ((k, v) :: b) a' n s key); [now rewrite E| |exact I].
    intros x y [[= <- <-]|X]; [exact Q|exact (F x y X)].
  - apply (fk_not_text _ ((k, v) :: b) a' k' v'); [now rewrite E| |exact I|exact V'].
    intros x y [[= <- <-]|X]; [exact Q|exact (F x y X)].
Qed.

Lemma extended_token d token t k v j : (forall n, In n header_names -> k <> lit n) ->
  proof_token d token j -> extended token t k v -> proof_token d t j.
Proof.
  intros N (hs & bs & tail & ht & bt & P & E1 & E2 & H & B & S) (hs1 & hs' & bs1 & tail1 & ht1 & ht' & m & P1 & F1 & J & P' & F' & J').
  destruct (token_parts_det _ _ _ _ _ _ _ P P1) as (<- & <- & <-).
  assert (ht1 = ht) as -> by exact (url_text_det _ _ _ F1 E1).
  exists hs', bs, tail, ht', bt. split; [exact P'|]. split; [exact F'|]. split; [exact E2|]. split; [|now split].
  apply header_from_json_iff in H as (m1 & M & O). apply parse_json_iff in M.
  pose proof (json_text_det _ _ _ J M) as Q. injection Q as ->.
  apply header_from_json_iff. exists ((k, v) :: m1). split; [now apply parse_json_iff|now apply header_of_cons].
Qed.

(** A member can be put in front of any other. *)
Lemma white_nil : white []. Proof. constructor. Qed.

Lemma member_added s m k kt v vt : m <> [] -> string_text true kt k -> value_text true Whole 126 vt v ->
  json_text s (JObj m) -> exists s', json_text s' (JObj ((k, v) :: m)).
Proof.
  intros N K V (a & t & b & -> & A & B & T). inversion T as [| | | | | | |? ? ? ? ? ? ?|? ? ? n u ? D M]; subst.
  - match goal with H : number_text _ _ (JObj _) |- _ => inversion H end.
  - now destruct N.
  - cbn in D. injection D as <-.
    exists (a ++ ("{"%char :: ([] ++ kt ++ [] ++ ":"%char :: [] ++ vt ++ [] ++ ","%char :: u) ++ ["}"%char]) ++ b).
    exists a, ("{"%char :: ([] ++ kt ++ [] ++ ":"%char :: [] ++ vt ++ [] ++ ","%char :: u) ++ ["}"%char]), b.
    split; [reflexivity|]. split; [exact A|]. split; [exact B|].
    apply (vt_object _ _ _ 126%nat); [reflexivity|].
    apply (mt_next true Whole true Whole); try apply white_nil; try assumption. reflexivity.
Qed.

Lemma header_members_exist d token j : proof_token d token j -> exists m, header_members token m /\ m <> [].
Proof.
  intros (hs & bs & tail & ht & bt & P & E1 & E2 & H & B & S).
  apply header_from_json_iff in H as (m & M & (I & _) & _). apply parse_json_iff in M.
  exists m. split; [exists hs, bs, tail, ht; now repeat split|]. intros ->. destruct I.
Qed.

Lemma extension_exists d token j k kt v vt : string_text true kt k -> value_text true Whole 126 vt v ->
  proof_token d token j -> exists t, extended token t k v.
Proof.
  intros K V T. destruct (header_members_exist _ _ _ T) as (m & (hs & bs & tail & ht & P & E & J) & N).
  destruct (member_added ht m k kt v vt N K V J) as (ht' & J').
  assert (B : dotless bs) by (destruct P; assumption).
  destruct (parts_exist (base64url_encode ht') bs tail (base64url_no_dot _) B) as (t & Q).
  exists t, hs, (base64url_encode ht'), bs, tail, ht, ht', m. repeat (split; [assumption|]).
  split; [now apply base64_text_url|exact J'].
Qed.

Lemma names_text names : names <> [] -> Forall rust_string names ->
  forall i, exists t, elements_text true Whole i 125 t (map JStr names).
Proof.
  intros N F. induction F as [|x l X F IH]; [now destruct N|]. intros i.
  destruct l as [|y l].
  - exists ([] ++ print_str x ++ []). apply et_last; try apply white_nil. apply vt_string, printed_string, X.
  - destruct (IH ltac:(discriminate) (S i)) as (t & T).
    exists ([] ++ print_str x ++ [] ++ ","%char :: t). apply et_next; try apply white_nil; [|exact T].
    apply vt_string, printed_string, X.
Qed.

Lemma crit_text names : names <> [] -> Forall rust_string names ->
  exists t, value_text true Whole 126 t (JArr (map JStr names)).
Proof.
  intros N F. destruct (names_text names N F 0) as (t & T). eexists. apply (vt_array _ _ _ 125%nat); [reflexivity|exact T].
Qed.

Lemma extended_critical token t names : extended token t (lit "crit") (JArr (map JStr names)) -> critical t names.
Proof.
  intros (hs & hs' & bs & tail & ht & ht' & m & _ & _ & _ & P & E & J).
  eexists. split; [exists hs', bs, tail, ht'; split; [exact P|]; split; [exact E|exact J]|now left].
Qed.

Lemma crit_other : forall n, In n header_names -> lit "crit" <> lit n.
Proof. intros n I E. repeat destruct I as [<-|I]; try discriminate E. destruct I. Qed.

(** Every token has a marked counterpart that is treated alike. *)
Lemma marked_exists d token j names : names <> [] -> Forall rust_string names -> proof_token d token j ->
  exists t, extended token t (lit "crit") (JArr (map JStr names)) /\ critical t names /\ proof_token d t j.
Proof.
  intros N F T. destruct (crit_text names N F) as (vt & V).
  assert (K : string_text true (print_str (lit "crit")) (lit "crit")) by (apply printed_string, rust_string_ascii; reflexivity).
  destruct (extension_exists d token j _ _ _ _ K V T) as (t & E). exists t. split; [exact E|].
  split; [exact (extended_critical _ _ _ E)|exact (extended_token _ _ _ _ _ _ crit_other T E)].
Qed.

Lemma extended_same d now m r offer asm doc options p t k v : (forall n, In n header_names -> k <> lit n) ->
  cr_proof r = Some p -> (exists j, proof_token d (rp_jwt p) j) -> extended (rp_jwt p) t k v ->
  evaluate_credential_request d now m (with_token t r) offer asm doc options
  = evaluate_credential_request d now m r offer asm doc options
  /\ pre_evaluate_credential_request d (with_token t r) = pre_evaluate_credential_request d r
  /\ forall ct n, create_credential_success_response d now (with_token t r) ct n
       = create_credential_success_response d now r ct n.
Proof.
  intros N P (j & T) E. pose proof (extended_token _ _ _ _ _ _ N T E) as T'. apply proof_token_iff in T, T'.
  exact (same_read d now m r offer asm doc options p t j P T T').
Qed.

Lemma marked_accepted d now m r offer asm doc options resp p names : lower_case_facts d ->
  names <> [] -> Forall rust_string names -> cr_proof r = Some p ->
  evaluate_credential_request d now m r offer asm doc options = Ok resp ->
  exists t, critical t names /\ evaluate_credential_request d now m (with_token t r) offer asm doc options = Ok resp.
Proof.
  intros L N F P E.
  pose proof (accepted_inv _ _ _ _ _ _ _ _ _ L E) as (_ & _ & o & p1 & j & n1 & d1 & k1 & u1 & y1 & z1 & w1 & _ & _ & _ & _ & _ & P1 & T & _).
  rewrite P in P1. injection P1 as <-.
  destruct (marked_exists d _ _ names N F T) as (t & X & C & _). exists t. split; [exact C|].
  destruct (extended_same d now m r offer asm doc options p t _ _ crit_other P (ex_intro _ j T) X) as (Q & _). now rewrite Q.
Qed.

(** What the library writes is never marked. *)
Lemma written_unmarked h : header_ok h -> forall m, json_text (header_to_json h) (JObj m) ->
  forall k v, In (k, v) m -> exists n, In n header_names /\ k = lit n.
Proof.
  intros O m J k v I. apply parse_json_iff in J. unfold header_to_json, parse_json in J.
  rewrite (read_written 1) in J; [|now apply good_header|lia]. injection J as <-.
  destruct h as [ty al ad]. unfold field in I. cbn in I.
  destruct I as [[= <- <-]|[[= <- <-]|I]]; [exists "typ"%string|exists "alg"%string|]; try (cbn; tauto).
  destruct ad as [[s|s|s]|]; cbn in I; repeat destruct I as [[= <- <-]|I]; try destruct I;
    [exists "kid"%string|exists "jwk"%string|exists "x5c"%string]; cbn; tauto.
Qed.
