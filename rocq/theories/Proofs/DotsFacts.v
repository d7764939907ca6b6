(** Proofs about dots in tokens. *)
From Verif Require Import Model.Prelude Model.Base64 Model.Json Model.Types Model.Deps Model.Serde Model.Jwt Model.AccessToken
  Model.CredentialIssuer Model.Wire
  Spec SpecToken SpecOffer SpecJwt SpecSession SpecEvaluation SpecDocuments SpecEvidence SpecRelay SpecAgreement SpecCareful SpecDots
  Proofs.StrFacts Proofs.Base64Facts Proofs.Base64Bits Proofs.JsonFacts Proofs.JwtFacts Proofs.EvalFacts Proofs.EvalFacts2 Proofs.EvalFacts3
  Proofs.SessionFacts Proofs.AgreementFacts Proofs.ProbeFacts Proofs.SuitsFacts.

Lemma printed_dot s : dotless (print_str s) -> dotless s.
Proof.
  intros D I. apply D. right. apply in_or_app. left. apply in_flat_map. exists "."%char. split; [exact I|now left].
Qed.
Lemma dotless_parts a b : dotless (a ++ b) -> dotless a /\ dotless b.
Proof. intros D. split; intros I; apply D, in_or_app; [now left|now right]. Qed.

Lemma member_dotless m k v : dotless (print (JObj m)) -> In (k, JStr v) m -> dotless v.
Proof.
  intros D I. cbn [print] in D. apply dotless_parts in D as [_ D]. apply dotless_parts in D as [D _].
  apply printed_dot. clear - D I. induction m as [|x m IH]; [destruct I|]. cbn [map join] in D.
  destruct I as [->|I].
  - destruct m; cbn [map join] in D; [|apply dotless_parts in D as [D _]];
      cbn [fst snd print] in D; apply dotless_parts in D as [_ D]; now apply dotless_parts in D as [_ D].
  - destruct m as [|y m]; [destruct I|]. cbn [map join] in D |- *. apply dotless_parts in D as [_ D].
    apply dotless_parts in D as [_ D]. exact (IH D I).
Qed.

Lemma claims_dotless d b : dotless (claims_to_json d b) ->
  dotless (b_aud b) /\ dotless (b_nonce b) /\ on_some dotless (b_iss b).
Proof.
  intros D. unfold claims_to_json, ser_body in D. split; [|split].
  - apply (member_dotless _ (lit "aud") _ D). apply in_or_app. right. now left.
  - apply (member_dotless _ (lit "nonce") _ D). do 4 (apply in_or_app; right). now left.
  - intros s E. apply (member_dotless _ (lit "iss") _ D). rewrite E. now left.
Qed.

Lemma header_dotless h kid : dotless (header_to_json h) -> h_additional h = Some (KeyId kid) -> dotless kid.
Proof.
  intros D E. unfold header_to_json, ser_header in D. apply (member_dotless _ (lit "kid") _ D). rewrite E.
  do 2 (apply in_or_app; right). now left.
Qed.

Lemma wallet_header_dotless alg kid : dotless kid ->
  dotless (header_to_json {| h_typ := proof_typ; h_alg := alg; h_additional := Some (KeyId kid) |}).
Proof.
  intros D. rewrite header_split. cbn [h_typ h_alg h_additional]. rewrite app_assoc. apply dotless_app.
  - apply front_dotless, typ_dotless. apply same_ascii_ci. reflexivity.
  - unfold header_back. repeat apply dotless_app; try (apply dotless_printed; exact D);
      intros I; vm_compute in I; repeat destruct I as [I|I]; try discriminate I; destruct I.
Qed.

Lemma wallet_claims_dotless d iss aud nonce iat : on_some dotless iss -> dotless aud -> dotless nonce -> dotless (dt_print d iat) ->
  dotless (claims_to_json d {| b_iss := iss; b_aud := aud; b_sub := None; b_iat := iat; b_nonce := nonce; b_nbf := None; b_exp := None |}).
Proof.
  intros I A N T. unfold claims_to_json, ser_body, ser_instant.
  cbn [b_iss b_aud b_sub b_iat b_nonce b_nbf b_exp]. destruct iss as [s|]; cbn [field_opt field ser_opt app print map join fst snd];
    repeat apply dotless_app; try (apply dotless_printed; try assumption; now apply I);
    intros X; vm_compute in X; repeat destruct X as [X|X]; try discriminate X; destruct X.
Qed.

(** What evidence with a signature that can be decoded is for. *)
Lemma decodable_inv d now m r offer asm doc n client resp pop sg : lower_case_facts d ->
  evaluate_credential_request d now m r offer asm doc (with_nonce n client) = Ok resp ->
  er_pop resp = Some pop -> base64_text url_alphabet false sg (pop_signature pop) ->
  dotless (im_credential_issuer m) /\ dotless (cno_expected n) /\ on_some dotless client
  /\ exists doc' kid, doc = Some doc' /\ dotless kid /\ usable_key d doc' kid (pop_public_key pop).
Proof.
  intros L E R B. pose proof (accepted_inv _ _ _ _ _ _ _ _ _ L E) as A.
  destruct A as (_ & _ & o & p & j & n' & doc' & kid & u & k & opts & pop' & _ & Eo & En & _ & _ & P & T & _ & Nn & Au & Is
    & Ad & Du & Ed & Dk & Ep & _ & Pk & _ & _ & Su & _).
  injection Eo as <-. cbn [eo_c_nonce] in En. injection En as <-. rewrite R in Ep. injection Ep as <-.
  assert (V : evidence_for d (rp_jwt p) j pop) by (exists now, m, r, offer, asm, doc; do 3 eexists; eauto).
  destruct (proj1 (proj1 (decodable _ _ _ _ L V) sg) B) as (_ & _ & H & C).
  destruct (claims_dotless _ _ C) as (C1 & C2 & C3).
  rewrite Au in C1. rewrite Nn in C2. split; [exact C1|]. split; [exact C2|]. split.
  - intros x ->. apply C3. exact Is.
  - exists doc', kid. split; [exact Ed|]. split; [exact (header_dotless _ _ H Ad)|].
    split; [|now exists k]. apply (proj2 (token_header_ok _ _ _ T)). now left.
Qed.

Lemma can_be_checked d now m o doc n client kid key (sign : str -> str) : lower_case_facts d -> dt_round_trips d ->
  whole_seconds d -> can_go_on now m n client ->
  dotless (im_credential_issuer m) -> dotless (cno_expected n) -> on_some dotless client ->
  dotless kid -> usable_key d doc kid key ->
  exists pop, checkable d now m o doc n client pop (sign (pop_message pop)) /\ pop_public_key pop = key.
Proof.
  intros L D (t & T1 & T2) (M & R & T & N & C & I) DI DN DC DK (K & k & Y & B).
  set (kn := {| k_nonce := cno_expected n; k_iss := client; k_aud := im_credential_issuer m |}).
  set (j0 := proof_of EdDSA kid t kn []).
  set (sig := base64url_encode (sign (both_documents d j0))).
  assert (BT : base64_text url_alphabet false (sign (both_documents d j0)) sig) by (apply base64_text_url; reflexivity).
  assert (S : forall s : str, rust_string sig /\ dotless sig).
  { intros s. split; [exact (base64_rust_string _ _ BT)|apply base64url_no_dot]. }
  destruct Y as (u & vm & U & Y1 & Y2). assert (Y : document_key d doc kid k) by (exists u, vm; auto).
  destruct (all_known d EdDSA kid t (fun _ => sig) (JwtVcJson [] None None) L D K T1 S m o doc n client u k key M R C U Y B
    now kn T (conj N (conj C I)) eq_refl eq_refl eq_refl) as (resp & E & F & _).
  pose proof (token_read d EdDSA kid t (fun _ => sig) D K T1 S kn (conj N (conj C I))) as TR.
  set (j := proof_of EdDSA kid t kn sig) in *.
  pose proof (accepted_inv _ _ _ _ _ _ _ _ _ L E) as A.
  destruct A as (_ & _ & o' & p & j' & n' & doc' & kid' & u' & k' & opts & pop & _ & _ & _ & _ & _ & P & T' & _ & _ & _ & _
    & Ad & Du & Ed & Dk & Ep & _ & Pk & _).
  cbn [request_of cr_proof] in P. injection P as <-. cbn [rp_jwt] in T'.
  pose proof (proof_token_det _ _ _ _ T' TR) as ->.
  cbn in Ad. injection Ad as <-. injection Ed as <-.
  assert (H1 : dotless (header_to_json (j_header j))) by now apply wallet_header_dotless.
  assert (H2 : dotless (claims_to_json d (j_body j))) by now apply wallet_claims_dotless.
  assert (SG : pop_signature pop = sig).
  { eapply (signature_iff_dotless d now m _ (Some o) None (Some doc) _ resp _ j sig pop L E eq_refl TR eq_refl Ep). now split. }
  assert (V : evidence_for d (token_of d EdDSA kid t (fun _ => sig) kn) j pop)
    by (exists now, m; do 7 eexists; split; [exact E|]; split; [reflexivity|]; split; [reflexivity|]; auto).
  assert (MS : pop_message pop = both_documents d j).
  { apply (proj2 (decodable _ _ _ _ L V) (sign (both_documents d j0))). rewrite SG. exact BT. }
  exists pop. split.
  - eexists. exists resp. split; [exact E|]. split; [exact Ep|]. rewrite SG, MS. exact BT.
  - destruct Dk as (u2 & vm2 & U2 & Z1 & Z2). rewrite U in U2. injection U2 as <-. rewrite Y1 in Z1. injection Z1 as <-.
    rewrite Y2 in Z2. injection Z2 as <-. clear - Pk B.
    destruct B as [? ? B|? ? B]; inversion Pk as [? ? Q|? ? Q]; congruence.
Qed.

Lemma checkable_iff d now m o doc n client : lower_case_facts d -> dt_round_trips d -> whole_seconds d ->
  can_go_on now m n client ->
  ((exists pop signature, checkable d now m o doc n client pop signature)
   <-> dotless (im_credential_issuer m) /\ dotless (cno_expected n) /\ on_some dotless client
       /\ exists kid key, dotless kid /\ usable_key d doc kid key).
Proof.
  intros L D W G. split.
  - intros (pop & sg & r & resp & E & R & B).
    destruct (decodable_inv _ _ _ _ _ _ _ _ _ _ _ _ L E R B) as (H1 & H2 & H3 & doc' & kid & Ed & H4 & H5).
    injection Ed as <-. eauto 10.
  - intros (H1 & H2 & H3 & kid & key & H4 & H5).
    destruct (can_be_checked d now m o doc n client kid key (fun x => x) L D W G H1 H2 H3 H4 H5) as (pop & P & _). eauto.
Qed.

Lemma no_history d safe h st k key url n c s : lower_case_facts d -> network d safe h st ->
  In (Trusts k key url n c s) h -> dotless url /\ dotless n /\ on_some dotless c.
Proof.
  intros L H I. apply in_split in I as (a & b & X).
  destruct (network_prefix d safe h st (a ++ [Trusts k key url n c s]) b H) as [st' H']; [now rewrite <- app_assoc|].
  destruct (trusts_inv _ _ _ _ _ _ _ _ _ _ _ H' eq_refl)
    as (st1 & x & now & m & r & offer & asm & doc & resp & pop & sg & _ & _ & -> & -> & -> & -> & E & R & B & _).
  destruct (decodable_inv d now m r offer asm doc x c resp pop sg L E R B) as (H1 & H2 & H3 & _). auto.
Qed.
