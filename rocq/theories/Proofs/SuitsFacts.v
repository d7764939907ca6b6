(** Proofs about algorithms and keys. *)
From Coq Require Import Lia.
From Verif Require Import Model.Prelude Model.Base64 Model.Json Model.Types Model.Deps Model.Serde Model.Jwt Model.CredentialIssuer
  Model.Wire Spec SpecJson SpecToken SpecJwt SpecEvaluation SpecRespell SpecSuits
  Proofs.StrFacts Proofs.Base64Facts Proofs.Base64Bits Proofs.JwtFacts Proofs.EvalFacts Proofs.EvalFacts2 Proofs.EvalFacts3 Proofs.RespellFacts.

Lemma dotless_app a b : dotless a -> dotless b -> dotless (a ++ b).
Proof. intros A B I. apply in_app_or in I as [I|I]; auto. Qed.

Lemma escape_dot c : In "."%char (escape_byte c) -> c = "."%char.
Proof. destruct c as [[][][][][][][][]]; intros H; vm_compute in H; repeat destruct H as [H|H]; try discriminate H; try reflexivity; destruct H. Qed.

Lemma dotless_printed s : dotless s -> dotless (print_str s).
Proof.
  intros D [E|I]; [discriminate E|]. apply in_app_or in I as [I|[E|[]]]; [|discriminate E].
  apply in_flat_map in I as (c & C & X). apply escape_dot in X. subst c. exact (D C).
Qed.

Lemma typ_dotless t : ascii_ci t proof_typ -> dotless t.
Proof.
  intros H I. apply In_nth_error in I as (i & N).
  assert (G : forall s u, Forall2 same_letter s u -> nth_error s i = Some "."%char -> In "."%char u).
  { clear. induction i as [|i IH]; intros s u F N; destruct F as [|a b s u L F]; try discriminate; cbn in N.
    - injection N as ->. left. destruct L as [L|[[L1 L2]|[L1 L2]]]; [now symmetry| |]; exfalso;
        change (code "."%char) with 46 in *; unfold upper_letter in *; try lia;
        change (code "."%char) with 46 in *; lia.
    - right. exact (IH s u F N). }
  apply (G t _ H) in N. vm_compute in N. repeat destruct N as [N|N]; try discriminate N. destruct N.
Qed.

(** The header text up to the algorithm, and after it. *)
Definition header_front (typ : str) : str :=
  lit "{" ++ print_str (lit "typ") ++ lit ":" ++ print_str typ ++ lit "," ++ print_str (lit "alg") ++ lit ":".
Definition header_back (a : option additional_header) : str :=
  match a with
  | Some (KeyId s) => lit "," ++ print_str (lit "kid") ++ lit ":" ++ print_str s
  | Some (Jwk s) => lit "," ++ print_str (lit "jwk") ++ lit ":" ++ print_str s
  | Some (X5c s) => lit "," ++ print_str (lit "x5c") ++ lit ":" ++ print_str s
  | None => []
  end ++ lit "}".

Lemma header_split h : header_to_json h = header_front (h_typ h) ++ print_str (alg_name (h_alg h)) ++ header_back (h_additional h).
Proof.
  destruct h as [ty al ad]. unfold header_to_json, ser_header, header_front, header_back. cbn [h_typ h_alg h_additional].
  destruct ad as [[s|s|s]|]; cbn [field additional_members app print map join fst snd];
    rewrite ?app_nil_r, <- ?app_assoc; reflexivity.
Qed.

Lemma front_dotless typ a : dotless typ -> dotless (header_front typ ++ print_str (alg_name a)).
Proof.
  intros D. unfold header_front. repeat apply dotless_app; try (apply dotless_printed; first [exact D|idtac]);
    try (intros I; vm_compute in I; repeat destruct I as [I|I]; try discriminate I; destruct I).
  destruct a; intros I; vm_compute in I; repeat destruct I as [I|I]; try discriminate I; destruct I.
Qed.

Lemma second_dot_front x y t sig : dotless x -> dotless y -> after_second_dot (x ++ t) sig -> after_second_dot (y ++ t) sig.
Proof.
  intros X Y (a & b & A & B & E).
  assert (G : forall x a t r, dotless x -> dotless a -> x ++ t = a ++ lit "." ++ r -> exists a', a = x ++ a' /\ t = a' ++ lit "." ++ r).
  { clear. induction x as [|c x IH]; intros a t r X A E; [exists a; now split|].
    destruct a as [|c' a]; cbn in E.
    - injection E as -> _. destruct X. now left.
    - injection E as -> E. destruct (IH a t r) as (a' & -> & ->); [intros I; apply X; now right|intros I; apply A; now right|exact E|].
      exists a'. now split. }
  destruct (G x a t _ X A E) as (a' & -> & ->).
  exists (y ++ a'), b. split; [apply dotless_app; [exact Y|intros I; apply A; apply in_or_app; now right]|].
  split; [exact B|]. now rewrite <- !app_assoc.
Qed.

Lemma second_dot_alg d a j sig : ascii_ci (h_typ (j_header j)) proof_typ ->
  after_second_dot (raw_text d j) sig -> after_second_dot (raw_text d (with_alg a j)) sig.
Proof.
  intros T. apply typ_dotless in T. unfold raw_text. cbn [with_alg j_header j_body j_signature].
  rewrite !header_split. cbn [h_typ h_alg h_additional]. rewrite <- !app_assoc.
  intros H. rewrite app_assoc in H. rewrite (app_assoc (header_front _)).
  exact (second_dot_front _ _ _ _ (front_dotless _ _ T) (front_dotless _ _ T) H).
Qed.

Lemma realg_token d token j a : proof_token d token j -> exists t, proof_token d t (with_alg a j).
Proof.
  intros (hs & bs & tail & ht & bt & P & E1 & E2 & H & B & S).
  pose proof (header_text _ _ H) as O.
  set (h := j_header (with_alg a j)).
  assert (O' : header_ok h) by exact O.
  assert (D : dotless bs) by (destruct P; assumption).
  destruct (parts_exist (base64url_encode (header_to_json h)) bs tail (base64url_no_dot _) D) as (t & Q).
  exists t, (base64url_encode (header_to_json h)), bs, tail, (header_to_json h), bt.
  split; [exact Q|]. split; [now apply base64_text_url|]. split; [exact E2|].
  split; [exact (header_json_rt h O')|]. now split.
Qed.

Lemma any_algorithm d now m r offer asm doc options resp pop a : lower_case_facts d ->
  evaluate_credential_request d now m r offer asm doc options = Ok resp -> er_pop resp = Some pop ->
  exists t resp' pop', evaluate_credential_request d now m (with_token t r) offer asm doc options = Ok resp'
    /\ er_pop resp' = Some pop' /\ pop_algorithm pop' = a /\ pop_public_key pop' = pop_public_key pop
    /\ pop_signature pop' = pop_signature pop /\ er_subject_id resp' = er_subject_id resp
    /\ er_credential resp' = er_credential resp.
Proof.
  intros L E Q. apply (proj1 (evaluate_outcomes d now m r offer asm doc options L)) in E as
    (R & p & j & o & key & msg & sg & did & P & T & O & C & K & D & M & S & U & V & W).
  rewrite W in Q. injection Q as <-. cbn [pop_public_key pop_signature].
  destruct (realg_token d _ _ a T) as (t & T').
  assert (TY : ascii_ci (h_typ (j_header j)) proof_typ) by exact (Forall_inv C).
  pose proof (second_dot_alg d a j sg TY S) as S'.
  destruct (proj2 (proj2 (message_determined (raw_text d (with_alg a j))))) as (msg' & M').
  eexists t, {| er_pop := Some {| pop_algorithm := a; pop_public_key := key; pop_message := msg'; pop_signature := sg |};
               er_subject_id := did; er_credential := cr_format r |}, _.
  split; [|cbn; repeat split; congruence].
  apply (proj1 (evaluate_outcomes d now m (with_token t r) offer asm doc options L)).
  split.
  - unfold request_checks in *. repeat match goal with H : Forall _ (_ :: _) |- _ => inversion H; clear H; subst end.
    repeat (apply Forall_cons; [cbn [passes] in *; try assumption|]); try apply Forall_nil.
    + unfold with_token. cbn. rewrite P. discriminate.
    + intros q. unfold with_token. cbn. rewrite P. cbn. intros [= <-]. cbn. eauto.
  - exists {| rp_proof_type := rp_proof_type p; rp_jwt := t |}, (with_alg a j), o, key, msg', sg, did.
    split; [unfold with_token; cbn; now rewrite P|]. split; [exact T'|]. split; [exact O|].
    split; [|repeat split; assumption].
    unfold token_checks in *. repeat match goal with H : Forall _ (_ :: _) |- _ => inversion H; clear H; subst end.
    repeat (apply Forall_cons; [cbn [passes] in *; try assumption|]); try apply Forall_nil. now exists sg.
Qed.

(** Evidence is right about the algorithm exactly for EdDSA with octet keys. *)
Lemma suits_exactly k bytes a : public_key k bytes -> (suits k a <-> a = EdDSA /\ jwk_parameters k = POKP bytes /\ stated_is k EdDSA).
Proof.
  intros P. split.
  - intros [b E S|x b E I S].
    + split; [reflexivity|]. split; [|exact S]. destruct P as [k' b' E'|k' x E' _]; congruence.
    + exfalso. destruct P as [k' b' E'|k' y E' A]; [congruence|]. destruct (S _ A) as (n & N & Q).
      repeat destruct I as [<-|I]; try destruct I; inversion N; subst; vm_compute in Q; discriminate.
  - intros (-> & E & S). exact (suits_octets k bytes E S).
Qed.

Lemma eddsa_suits k bytes : public_key k bytes -> well_stated k -> suits k EdDSA.
Proof.
  intros P (W1 & W2). destruct P as [k bytes E|k x E A].
  - exact (suits_octets k bytes E (W1 _ E)).
  - destruct (W2 _ E A).
Qed.

Lemma document_key_det d doc kid k k' : document_key d doc kid k -> document_key d doc kid k' -> k = k'.
Proof. intros (u & v & A & B & C) (u' & v' & A' & B' & C'). congruence. Qed.

(** The key in the evidence is that of the document. *)
Lemma evidence_key d now m r offer asm doc options resp p j kid k pop : lower_case_facts d ->
  evaluate_credential_request d now m r offer asm (Some doc) options = Ok resp ->
  cr_proof r = Some p -> proof_token d (rp_jwt p) j -> h_additional (j_header j) = Some (KeyId kid) ->
  document_key d doc kid k -> er_pop resp = Some pop -> public_key k (pop_public_key pop).
Proof.
  intros L E P T A K Q. destruct (returned_key _ _ _ _ _ _ _ _ _ L E) as (p1 & j1 & kid1 & doc1 & k1 & pop1 & P1 & T1 & A1 & D1 & K1 & Q1 & W).
  rewrite P in P1. injection P1 as <-. apply proof_token_iff in T, T1. rewrite T in T1. injection T1 as <-.
  rewrite A in A1. injection A1 as <-. injection D1 as <-. rewrite Q in Q1. injection Q1 as <-.
  now rewrite (document_key_det _ _ _ _ _ K K1).
Qed.

Lemma right_exactly d now m r offer asm doc options resp p j kid k pop : lower_case_facts d ->
  evaluate_credential_request d now m r offer asm (Some doc) options = Ok resp ->
  cr_proof r = Some p -> proof_token d (rp_jwt p) j -> h_additional (j_header j) = Some (KeyId kid) ->
  document_key d doc kid k -> er_pop resp = Some pop ->
  (suits k (pop_algorithm pop)
   <-> pop_algorithm pop = EdDSA /\ jwk_parameters k = POKP (pop_public_key pop) /\ stated_is k EdDSA).
Proof.
  intros L E P T A K Q. apply suits_exactly. exact (evidence_key _ _ _ _ _ _ _ _ _ _ _ _ _ _ L E P T A K Q).
Qed.

Lemma eddsa_only d now m r offer asm doc options resp p j kid k pop : lower_case_facts d ->
  evaluate_credential_request d now m r offer asm (Some doc) options = Ok resp ->
  cr_proof r = Some p -> proof_token d (rp_jwt p) j -> h_additional (j_header j) = Some (KeyId kid) ->
  document_key d doc kid k -> er_pop resp = Some pop -> well_stated k ->
  (suits k (pop_algorithm pop) <-> pop_algorithm pop = EdDSA).
Proof.
  intros L E P T A K Q W. pose proof (evidence_key _ _ _ _ _ _ _ _ _ _ _ _ _ _ L E P T A K Q) as G. split.
  - intros S. apply (suits_exactly _ _ _ G) in S. apply S.
  - intros ->. exact (eddsa_suits _ _ G W).
Qed.
