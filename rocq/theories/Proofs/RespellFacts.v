(** Proofs about other spellings of a token. *)
From Coq Require Import Lia.
From Verif Require Import Model.Prelude Model.Json Model.Types Model.Deps Model.Jwt Model.Base64 Model.CredentialIssuer Model.Wire
  Spec SpecJson SpecJwt SpecEvaluation SpecRespell
  Proofs.Base64Facts Proofs.Base64Bits Proofs.JwtFacts Proofs.GrammarFacts Proofs.ShapeFacts Proofs.EvalFacts Proofs.EvalFacts2.

Lemma white_app a b : white a -> white b -> white (a ++ b).
Proof. intros A B. apply Forall_app. now split. Qed.

Lemma shaped_white sh s w j : white w -> shaped_text sh s j -> shaped_text sh (s ++ w) j.
Proof.
  intros W (a & t & b & -> & A & B & V). exists a, t, (b ++ w).
  split; [now rewrite <- !app_assoc|]. split; [exact A|]. split; [now apply white_app|exact V].
Qed.

Lemma claims_white d s w b : white w -> claims_from_json d s = Some b -> claims_from_json d (s ++ w) = Some b.
Proof.
  intros W H. apply claims_read_iff in H as (j & m & T & M & C). apply claims_read_iff. exists j, m.
  split; [|now split]. now apply shaped_white.
Qed.

Lemma respelled_reads d token t j : respelled token t -> jwt_from_str d token = Ok j -> jwt_from_str d t = Ok j.
Proof.
  intros (hs & bs & tail & text & w & bs' & P & B & W & _ & B' & P') H.
  apply from_str_iff in H as (hs1 & bs1 & tail1 & ht & bt & P1 & E1 & E2 & H1 & H2 & S).
  destruct (token_parts_det _ _ _ _ _ _ _ P P1) as (<- & <- & <-).
  assert (bt = text) as -> by exact (url_text_det _ _ _ E2 B).
  apply from_str_iff. exists hs, bs', tail, ht, (text ++ w).
  repeat (split; [assumption|]). split; [now apply claims_white|exact S].
Qed.

Lemma respelled_signing_input token t i i' : respelled token t ->
  signing_input token i -> signing_input t i' -> i <> i' /\ token <> t.
Proof.
  intros (hs & bs & tail & text & w & bs' & P & B & W & N & B' & P') (h1 & b1 & t1 & P1 & ->) (h2 & b2 & t2 & P2 & ->).
  destruct (token_parts_det _ _ _ _ _ _ _ P P1) as (<- & <- & <-).
  destruct (token_parts_det _ _ _ _ _ _ _ P' P2) as (<- & <- & <-).
  assert (D : bs <> bs').
  { intros <-. apply N. pose proof (url_text_det _ _ _ B B') as E.
    apply (f_equal (@List.length _)) in E. rewrite app_length in E. destruct w; [reflexivity|cbn in E; lia]. }
  split.
  - intros E. apply D. apply app_inv_head in E. now apply app_inv_head in E.
  - intros ->. destruct (token_parts_det _ _ _ _ _ _ _ P P') as (_ & E & _). now apply D.
Qed.

(** The calls look at what is read. *)
Lemma same_read d now m r offer asm doc options p t j :
  cr_proof r = Some p -> jwt_from_str d (rp_jwt p) = Ok j -> jwt_from_str d t = Ok j ->
  evaluate_credential_request d now m (with_token t r) offer asm doc options
  = evaluate_credential_request d now m r offer asm doc options
  /\ pre_evaluate_credential_request d (with_token t r) = pre_evaluate_credential_request d r
  /\ forall ct n, create_credential_success_response d now (with_token t r) ct n
       = create_credential_success_response d now r ct n.
Proof.
  intros P J J'. destruct r as [c pr]. cbn in P. subst pr.
  assert (V : request_validate d (with_token t {| cr_format := c; cr_proof := Some p |})
              = request_validate d {| cr_format := c; cr_proof := Some p |}).
  { unfold request_validate, with_token. cbn [cr_proof cr_format option_map]. unfold proof_validate. cbn [rp_proof_type rp_jwt].
    now rewrite J, J'. }
  split; [|split].
  - unfold evaluate_credential_request, with_token. cbn [cr_proof cr_format option_map rp_jwt]. now rewrite J, J'.
  - unfold pre_evaluate_credential_request. rewrite V. unfold with_token. cbn [cr_proof cr_format option_map rp_jwt]. now rewrite J, J'.
  - intros ct n. unfold create_credential_success_response. now rewrite V.
Qed.

Lemma parts_exist hs bs tail : dotless hs -> dotless bs -> exists t, token_parts t hs bs tail.
Proof. intros H B. destruct tail as [tail|]; eexists; [apply (tp_more _ _ tail)|apply tp_two]; assumption. Qed.

(** The spelling with [k] blanks. *)
Lemma respelling_exists token hs bs tail text w :
  token_parts token hs bs tail -> base64_text url_alphabet false text bs -> white w -> w <> [] ->
  exists t, token_parts t hs (base64url_encode (text ++ w)) tail /\ respelled token t.
Proof.
  intros P B W N.
  assert (H : dotless hs) by (destruct P; assumption).
  destruct (parts_exist hs (base64url_encode (text ++ w)) tail H (base64url_no_dot _)) as (t & T).
  exists t. split; [exact T|]. exists hs, bs, tail, text, w, (base64url_encode (text ++ w)).
  repeat (split; [assumption|]). split; [now apply base64_text_url|exact T].
Qed.

Lemma many_respellings d token j : jwt_from_str d token = Ok j ->
  forall k, exists l, List.length l = k /\ NoDup l /\ Forall (respelled token) l.
Proof.
  intros H k. apply from_str_iff in H as (hs & bs & tail & ht & bt & P & E1 & E2 & _).
  assert (G : forall k, exists l, List.length l = k /\ NoDup l /\ Forall (respelled token) l
    /\ forall t, In t l -> exists i, (1 <= i <= k)%nat /\ token_parts t hs (base64url_encode (bt ++ repeat (chr 32) i)) tail).
  { intros k'. induction k' as [|k' (l & L & D & F & I)].
    - exists []. repeat split; [constructor|constructor|]. intros t [].
    - assert (W : white (repeat (chr 32) (S k'))).
      { apply Forall_forall. intros c C. apply repeat_spec in C. subst c. left. reflexivity. }
      destruct (respelling_exists token hs bs tail bt (repeat (chr 32) (S k')) P E2 W) as (t & T & R); [discriminate|].
      exists (t :: l). split; [cbn; now rewrite L|]. split.
      { constructor; [|exact D]. intros C. destruct (I t C) as (i & Li & T').
        destruct (token_parts_det _ _ _ _ _ _ _ T T') as (_ & E & _).
        assert (X : base64_text url_alphabet false (bt ++ repeat (chr 32) (S k')) (base64url_encode (bt ++ repeat (chr 32) i)))
          by (apply base64_text_url; now rewrite E).
        pose proof (url_text_det _ _ _ X (proj2 (base64_text_url _ _) eq_refl)) as Y.
        apply (f_equal (@List.length _)) in Y. rewrite !app_length, !repeat_length in Y. lia. }
      split; [now constructor|]. intros t' [<-|C].
      + exists (S k'). split; [lia|exact T].
      + destruct (I t' C) as (i & Li & T'). exists i. split; [lia|exact T']. }
  destruct (G k) as (l & L & D & F & _). eauto.
Qed.

(** So remembering the text does not help. *)
Lemma accepted_again d now m r offer asm doc n client resp p :
  lower_case_facts d -> cr_proof r = Some p ->
  evaluate_credential_request d now m r offer asm doc (Some {| eo_c_nonce := Some n; eo_client_id := client |}) = Ok resp ->
  forall k, exists h, remembering its_text d n h /\ List.length h = k /\ Forall (fun x => snd x = resp) h.
Proof.
  intros L P E k.
  pose proof (accepted_inv _ _ _ _ _ _ _ _ _ L E) as (_ & _ & o & p1 & j & n1 & d1 & k1 & u1 & y1 & z1 & w1 & _ & _ & _ & _ & _ & P1 & T & _).
  rewrite P in P1. injection P1 as <-. apply proof_token_iff in T.
  destruct (many_respellings d _ _ T k) as (l & Ll & D & F). exists (map (fun t => (t, resp)) l).
  split; [|split; [now rewrite map_length|]].
  2: { apply Forall_forall. intros x X. apply in_map_iff in X as (t & <- & _). reflexivity. }
  clear Ll k. induction l as [|t l IH]; [constructor|]. inversion D as [|? ? D1 D2]; subst. inversion F as [|? ? F1 F2]; subst.
  cbn [map].
  set (q := {| rp_proof_type := rp_proof_type p; rp_jwt := t |}).
  refine (remembering_accept its_text d n _ now m (with_token t r) offer asm doc client resp q (IH D2 F2) _ _ _).
  - unfold with_token. cbn. now rewrite P.
  - destruct (same_read d now m r offer asm doc (Some {| eo_c_nonce := Some n; eo_client_id := client |}) p t j P T
      (respelled_reads d _ _ j F1 T)) as (X & _). now rewrite X.
  - rewrite map_map. unfold its_text. cbn. now rewrite map_id.
Qed.

(** Remembering messages does: no proof is accepted in two spellings. *)
Lemma messages_tell d n h : remembering its_message d n h ->
  forall a t1 x1 b t2 x2 c j1 j2, h = a ++ (t1, x1) :: b ++ (t2, x2) :: c ->
    proof_token d t1 j1 -> proof_token d t2 j2 -> j1 <> j2.
Proof.
  intros R.
  assert (M : forall t x, In (t, x) h -> forall j, proof_token d t j ->
    exists msg, its_message t x = Some msg /\ jwt_to_signable_message d j = Ok msg).
  { induction R as [|h now m r offer asm doc client resp p R IH P E N]; [intros t x []|].
    intros t x [[= <- <-]|I]; [|exact (IH t x I)]. intros j T. apply proof_token_iff in T.
    revert E. unfold evaluate_credential_request. rewrite P.
    destruct (map_err IValidationError (metadata_validate m)) as [[]| |]; cbn [bind]; try discriminate.
    destruct (ok_or offer ICredentialOfferMustBeSupplied) as [o| |]; cbn [bind]; try discriminate.
    destruct (map_err IValidationError (offer_validate o)) as [[]| |]; cbn [bind]; try discriminate.
    destruct (match asm with Some a => _ | None => _ end) as [[]| |]; cbn [bind]; try discriminate.
    destruct (check_nonce_expiry now _) as [[]| |]; cbn [bind]; try discriminate.
    rewrite T. cbn [map_err bind].
    destruct (map_err IValidationError (jwt_validate d j)) as [[]| |]; cbn [bind]; try discriminate.
    destruct (map_err IJwtError (jwt_check_nonce j _)) as [[]| |]; cbn [bind]; try discriminate.
    destruct (if should_validate_iss _ o then _ else _) as [[]| |]; cbn [bind]; try discriminate.
    destruct (map_err IJwtError (jwt_check_aud j _)) as [[]| |]; cbn [bind]; try discriminate.
    destruct (map_err IJwtError (header_extract_key_and_alg d (j_header j) doc)) as [ka| |]; cbn [bind]; try discriminate.
    destruct (map_err IJwtError (jwt_extract_signature d j)) as [sg| |]; cbn [bind]; try discriminate.
    destruct (jwt_to_signable_message d j) as [msg| |]; cbn [map_err bind]; try discriminate.
    destruct (map_err IJwtError (jwt_extract_did d j)) as [did| |]; cbn [bind]; try discriminate.
    intros [= <-]. exists msg. now split. }
  intros a t1 x1 b t2 x2 c j1 j2 E T1 T2 X. subst j2.
  destruct (M t1 x1 ltac:(rewrite E; apply in_elt) j1 T1) as (m1 & A1 & B1).
  destruct (M t2 x2 ltac:(rewrite E, app_comm_cons, app_assoc; apply in_elt) j1 T2) as (m2 & A2 & B2).
  assert (its_message t1 x1 = its_message t2 x2) as Q by congruence. clear - R E Q.
  revert a E. induction R as [|h now m r offer asm doc client resp p R IH P Ev N]; intros a E; [now destruct a|].
  destruct a as [|y a]; cbn in E.
  - injection E as <- <- ->. apply N. rewrite Q. apply in_map_iff. exists (t2, x2). split; [reflexivity|apply in_elt].
  - injection E as <- E. exact (IH a E).
Qed.

Lemma messages_catch d n h : lower_case_facts d -> remembering its_message d n h ->
  forall a t1 x1 b t2 x2 c, h = a ++ (t1, x1) :: b ++ (t2, x2) :: c -> t1 <> t2 /\ ~ respelled t1 t2 /\ ~ respelled t2 t1.
Proof.
  intros L R.
  assert (M : forall t x, In (t, x) h -> exists j, proof_token d t j).
  { induction R as [|h now m r offer asm doc client resp p R IH P E N]; [intros t x []|].
    intros t x [[= <- <-]|I]; [|exact (IH t x I)].
    pose proof (accepted_inv _ _ _ _ _ _ _ _ _ L E) as (_ & _ & o & p1 & j & n1 & d1 & k1 & u1 & y1 & z1 & w1 & _ & _ & _ & _ & _ & P1 & T & _).
    rewrite P in P1. injection P1 as <-. now exists j. }
  intros a t1 x1 b t2 x2 c E.
  destruct (M t1 x1 ltac:(rewrite E; apply in_elt)) as (j1 & T1).
  destruct (M t2 x2 ltac:(rewrite E, app_comm_cons, app_assoc; apply in_elt)) as (j2 & T2).
  pose proof (messages_tell d n h R a t1 x1 b t2 x2 c j1 j2 E T1 T2) as D.
  apply proof_token_iff in T1, T2. split; [|split].
  - intros ->. apply D. congruence.
  - intros S. apply D. pose proof (respelled_reads d _ _ _ S T1). congruence.
  - intros S. apply D. pose proof (respelled_reads d _ _ _ S T2). congruence.
Qed.

(** Nothing but the parsed proof is in the evidence. *)
Lemma same_outcome d now m r offer asm doc options p t : cr_proof r = Some p ->
  (exists j, proof_token d (rp_jwt p) j) -> respelled (rp_jwt p) t ->
  evaluate_credential_request d now m (with_token t r) offer asm doc options
  = evaluate_credential_request d now m r offer asm doc options
  /\ pre_evaluate_credential_request d (with_token t r) = pre_evaluate_credential_request d r
  /\ forall ct n, create_credential_success_response d now (with_token t r) ct n
       = create_credential_success_response d now r ct n.
Proof.
  intros P (j & T) S. apply proof_token_iff in T.
  exact (same_read d now m r offer asm doc options p t j P T (respelled_reads d _ _ j S T)).
Qed.

Lemma respelled_token d token t j : proof_token d token j -> respelled token t -> proof_token d t j.
Proof. intros T S. apply proof_token_iff in T. apply proof_token_iff. exact (respelled_reads d _ _ j S T). Qed.

Lemma many_respelled d token j : proof_token d token j ->
  forall k, exists l, List.length l = k /\ NoDup l /\ Forall (respelled token) l.
Proof. intros T. apply proof_token_iff in T. exact (many_respellings d token j T). Qed.
