(** Descriptions of errors and the answers made of them (C125, C126). *)
From Coq Require Import Lia.
From Verif Require Import Model.Prelude Model.Json Model.Types Model.Deps Model.Serde Model.Errors Model.Chrono
  Model.AccessToken Model.CredentialIssuer Model.Wire
  Spec SpecToken SpecJson SpecErrors SpecAnyErrors SpecEvaluation SpecOffer SpecDraft SpecRelay SpecSendable
  Proofs.StrFacts Proofs.JsonFacts Proofs.GrammarFacts Proofs.AnyDepth Proofs.ResponseFacts Proofs.ErrorFacts
  Proofs.OfferFacts Proofs.EvalFacts Proofs.AnyErrors Proofs.FollowFacts.

(* ---------------- characters ---------------- *)

Definition description_byte (c : ascii) : bool :=
  (32 <=? code c) && (code c <=? 126) && negb (code c =? 34) && negb (code c =? 92).
Lemma description_byte_iff c : description_byte c = true <-> description_char c.
Proof.
  unfold description_byte, description_char. rewrite !andb_true_iff, !negb_true_iff, !N.leb_le, !N.eqb_neq. lia.
Qed.
Lemma sendable_iff s : sendable s <-> forallb description_byte s = true.
Proof.
  unfold sendable. rewrite forallb_forall, Forall_forall. split; intros H c I; apply description_byte_iff; auto.
Qed.
Lemma sendable_app a b : sendable (a ++ b) <-> sendable a /\ sendable b.
Proof. apply Forall_app. Qed.
Lemma sendable_cons c s : sendable (c :: s) <-> description_char c /\ sendable s.
Proof. apply Forall_cons_iff. Qed.

Ltac fixed_text := apply sendable_iff; vm_compute; reflexivity.

Lemma digit_char n : description_char (chr (48 + n mod 10)).
Proof.
  pose proof (N.mod_lt n 10). unfold description_char, code, chr. rewrite N_ascii_embedding; lia.
Qed.
Lemma fixed_sendable k n : sendable (digits_fixed k n).
Proof.
  revert n. induction k as [|k IH]; intros n; [constructor|]. cbn [digits_fixed]. apply sendable_app. split; [apply IH|].
  constructor; [apply digit_char|constructor].
Qed.
Lemma dec_digits_sendable f n acc : sendable acc -> sendable (dec_digits f n acc).
Proof.
  revert n acc. induction f as [|f IH]; intros n acc H; [exact H|]. cbn [dec_digits]. cbv zeta.
  assert (sendable (chr (48 + n mod 10) :: acc)) as K by (constructor; [apply digit_char|exact H]).
  destruct (n <? 10); [exact K|now apply IH].
Qed.
Lemma dec_sendable n : sendable (dec n).
Proof. apply dec_digits_sendable. constructor. Qed.
Lemma year_sendable y : sendable (year_text y).
Proof.
  unfold year_text. cbv zeta.
  assert (sendable (if (Z.to_N (Z.abs y) <? 10000)%N then digits_fixed 4 (Z.to_N (Z.abs y)) else dec (Z.to_N (Z.abs y)))) as K
    by (destruct (_ <? _)%N; [apply fixed_sendable|apply dec_sendable]).
  destruct (y <? 0)%Z; [|destruct (y <=? 9999)%Z; [exact K|]];
    (apply sendable_cons; split; [apply description_byte_iff; reflexivity|exact K]).
Qed.
Lemma fraction_sendable n : sendable (fraction_text n).
Proof.
  unfold fraction_text. destruct (n =? 0)%Z; [constructor|].
  destruct (_ =? 0)%Z; [|destruct (_ =? 0)%Z];
    (apply sendable_cons; split; [apply description_byte_iff; reflexivity|apply fixed_sendable]).
Qed.
Lemma display_sendable t : sendable (chrono_display t).
Proof.
  unfold chrono_display, chrono_date, chrono_time, two. destruct (date_of_day _) as [[y m] x]. cbv zeta.
  rewrite !sendable_app. repeat split; try apply fixed_sendable; try apply year_sendable; try apply fraction_sendable;
    fixed_text.
Qed.

(* ---------------- descriptions ---------------- *)

Lemma token_description e : sendable (token_error_display e).
Proof. destruct e as [[]| | | | | | | |]; fixed_text. Qed.

Lemma around (a b : string) s : sendable (lit a) -> sendable (lit b) ->
  (sendable (lit a ++ s ++ lit b) <-> sendable s).
Proof. intros A B. rewrite !sendable_app. tauto. Qed.

Lemma two_dates (a b : string) d t u : sendable (lit a) -> sendable (lit b) ->
  sendable (lit a ++ dt_display (with_chrono d) t ++ lit b ++ dt_display (with_chrono d) u).
Proof.
  intros A B. cbn [dt_display with_chrono]. rewrite !sendable_app. repeat split; try assumption; apply display_sendable.
Qed.

Lemma issuer_description d e :
  sendable (issuer_error_display (with_chrono d) e) <-> forall s, repeats e s -> sendable s.
Proof.
  destruct e as [[]|[ | | | | | | | | | | | | | | | | ]| | | | | | | | | | | ];
    cbn [issuer_error_display jwt_error_display validation_error_display];
    lazymatch goal with
    | |- sendable (_ ++ dt_display _ _ ++ _) <-> _ =>
        split; [intros _ s H; inversion H|intros _; apply two_dates; fixed_text]
    | |- sendable (_ ++ ?s ++ _) <-> _ =>
        rewrite around by fixed_text; split; [intros K t H; inversion H; subst; exact K|intros K; apply K; constructor]
    | |- _ => split; [intros _ s H; inversion H|intros _; fixed_text]
    end.
Qed.

Lemma quoted_not a n : ~ sendable (a ++ lit """" ++ n).
Proof.
  intros H. apply sendable_app in H. destruct H as [_ H]. apply sendable_app in H. destruct H as [H _].
  apply sendable_iff in H. vm_compute in H. discriminate.
Qed.

Lemma first_in l e : first_reports l e -> exists c, In c l /\ reports c e.
Proof. intros (b & c & a & -> & _ & H). exists c. split; [|exact H]. apply in_or_app. right. now left. Qed.

Lemma public_key_repeats h k v s : public_key_error k v -> repeats (IJwtError v) s -> repeated_from h s.
Proof.
  intros H R. destruct H as [| x n | n]; inversion R; subst; exact (rf_algorithm h (flat_map escape_byte n)).
Qed.
Lemma key_repeats d doc h v s : key_error d doc h v -> repeats (IJwtError v) s -> repeated_from h s.
Proof.
  intros H R. destruct H; try (inversion R; subst; constructor; fail); now apply (public_key_repeats _ k e).
Qed.
Lemma did_repeats d h v s : did_error d h v -> repeats (IJwtError v) s -> repeated_from h s.
Proof. intros H R. destruct H; inversion R; subst; constructor. Qed.

Ltac no_repeat :=
  repeat match goal with
  | H : _ /\ _ |- _ => destruct H
  | H : exists _, _ |- _ => destruct H
  | H : _ \/ _ |- _ => destruct H
  end; subst; match goal with R : repeats _ _ |- _ => inversion R end.

Lemma evaluation_repeats d now m r offer asm doc options e s :
  eval_error d now m r offer asm doc options e -> repeats e s ->
  exists p j, cr_proof r = Some p /\ proof_token d (rp_jwt p) j /\ repeated_from (h_additional (j_header j)) s.
Proof.
  intros [H|(_ & p & j & o & P & T & O & H)] R; apply first_in in H; destruct H as (c & I & H).
  - exfalso. cbn [In request_checks] in I.
    repeat (destruct I as [<-|I]; [cbn [reports] in H; unfold duplicate_ids_error in H; no_repeat|]); destruct I.
  - exists p, j. split; [exact P|]. split; [exact T|]. cbn [In token_checks] in I.
    destruct I as [<-|I]; [cbn [reports] in H; exfalso; no_repeat|].
    destruct I as [<-|I]; [cbn [reports] in H; exfalso; no_repeat|].
    destruct I as [<-|I]; [cbn [reports] in H; exfalso; no_repeat|].
    destruct I as [<-|I]; [cbn [reports] in H; exfalso; no_repeat|].
    destruct I as [<-|I]; [cbn [reports] in H; destruct H as (v & H & ->); exact (key_repeats _ _ _ _ _ H R)|].
    destruct I as [<-|I]; [cbn [reports] in H; exfalso; no_repeat|].
    destruct I as [<-|[]]. cbn [reports] in H. destruct H as (v & H & ->). exact (did_repeats _ _ _ _ H R).
Qed.

Lemma pre_repeats d r e s : pre_error d r e -> repeats e s ->
  exists p j, cr_proof r = Some p /\ proof_token d (rp_jwt p) j
    /\ (h_additional (j_header j) = Some (Jwk s) \/ h_additional (j_header j) = Some (X5c s)).
Proof.
  intros (p & P & H) R. apply first_in in H. destruct H as (c & I & H). cbn [In app proof_checks] in I.
  destruct I as [<-|[<-|[<-|[<-|[]]]]]; cbn [reports did_check] in H; try (exfalso; no_repeat; fail).
  destruct H as (j & v & T & H & ->). exists p, j. split; [exact P|]. split; [exact T|].
  destruct H; inversion R; subst; auto.
Qed.

(* ---------------- answers ---------------- *)

Lemma text_opt (P : str -> Prop) o :
  (exists t, opt_text o = JStr t /\ P t) <-> exists t, o = Some t /\ P t.
Proof.
  destruct o as [x|]; cbn [opt_text].
  - split; intros (t & E & H); injection E as <-; now exists x.
  - split; intros (t & E & _); discriminate.
Qed.

Lemma answer_iff error description uri m : NoDup (map fst m) ->
  (error_answer (JObj (response_members error description uri m))
   <-> (exists t, description = Some t /\ sendable t) /\ (exists t, uri = Some t /\ uri_sendable t)
       /\ not_defined m ["error"; "error_description"; "error_uri"]%string).
Proof.
  intros N. unfold error_answer, response_members. split.
  - intros (m' & [= <-] & N' & _ & D & U). split; [|split].
    + apply text_opt. apply D. right. now left.
    + apply text_opt. apply U. right. right. now left.
    + cbn [map fst] in N'. inversion N' as [|? ? A N1]; subst. inversion N1 as [|? ? B N2]; subst.
      inversion N2 as [|? ? C _]; subst.
      intros k I J. destruct I as [<-|[<-|[<-|[]]]]; [apply A; right; right; exact J|apply B; right; exact J|now apply C].
  - intros (D & U & F). eexists. split; [reflexivity|].
    assert (forall k v, In k ["error"; "error_description"; "error_uri"]%string -> ~ In (lit k, v) m) as G
      by (intros k v I J; exact (F k I (in_map fst _ _ J))).
    split; [|split; [|split]].
    + cbn [map fst]. repeat constructor; [| | |exact N].
      * intros [E|[E|J]]; [apply lit_inj in E; discriminate|apply lit_inj in E; discriminate|].
        exact (F "error"%string (or_introl eq_refl) J).
      * intros [E|J]; [apply lit_inj in E; discriminate|]. exact (F "error_description"%string (or_intror (or_introl eq_refl)) J).
      * intros J. exact (F "error_uri"%string (or_intror (or_intror (or_introl eq_refl))) J).
    + exists (JStr error). split; [now left|now exists error].
    + intros v [E|[E|[E|J]]]; try (apply pair_equal_spec in E; destruct E as [E E']).
      * apply lit_inj in E. discriminate.
      * subst v. now apply text_opt.
      * apply lit_inj in E. discriminate.
      * exfalso. exact (G "error_description"%string v (or_intror (or_introl eq_refl)) J).
    + intros v [E|[E|[E|J]]]; try (apply pair_equal_spec in E; destruct E as [E E']).
      * apply lit_inj in E. discriminate.
      * apply lit_inj in E. discriminate.
      * subst v. now apply text_opt.
      * exfalso. exact (G "error_uri"%string v (or_intror (or_intror (or_introl eq_refl))) J).
Qed.

Lemma code_not names name description uri m :
  ~ In name names -> ~ error_is_one_of names (JObj (response_members (lit name) description uri m)).
Proof.
  intros NI (m' & [= <-] & N & v & I & n & J & ->).
  destruct I as [E|I].
  - apply pair_equal_spec in E. destruct E as [_ E]. injection E as E. apply lit_inj in E. now subst.
  - cbn [map fst response_members] in N. inversion N as [|? ? A _]; subst. apply A.
    exact (in_map fst _ (lit "error", JStr (lit n)) I).
Qed.

Lemma numbers_members r error description uri m :
  json_numbers r (JObj (response_members error description uri m))
  = JObj (response_members error description uri (map (fun kv => (fst kv, json_numbers r (snd kv))) m)).
Proof. cbn [json_numbers response_members map fst snd]. destruct description, uri; reflexivity. Qed.

Lemma same_names r (m : list (str * json)) :
  map fst (map (fun kv => (fst kv, json_numbers r (snd kv))) m) = map fst m.
Proof. rewrite map_map. apply map_ext. reflexivity. Qed.

Lemma answerable_iff b description uri details m :
  mergeable b details m ->
  (answerable description uri details
   <-> (exists t, description = Some t /\ sendable t) /\ (exists t, uri = Some t /\ uri_sendable t)
       /\ not_defined m ["error"; "error_description"; "error_uri"]%string).
Proof.
  intros M. unfold answerable. destruct M.
  - split; intros (D & U & F); repeat split; try assumption; [intros k _ []|discriminate].
  - split; intros (D & U & F); repeat split; try assumption; [now apply F|intros m' [= <-]; exact F].
  - split; intros (D & U & F); repeat split; try assumption; [intros k _ []|discriminate].
Qed.

Lemma answer_of b r description uri details m name s v :
  mergeable b details m -> distinct_details details ->
  rfc8259_text s (json_numbers r (JObj (response_members (lit name) description uri m))) -> rfc8259_text s v ->
  (error_answer v <-> answerable description uri details)
  /\ forall names, ~ In name names -> ~ error_is_one_of names v.
Proof.
  intros M N T V. rewrite (rfc8259_det _ _ _ V T), numbers_members.
  assert (NoDup (map fst (map (fun kv => (fst kv, json_numbers r (snd kv))) m))) as N'.
  { rewrite same_names. destruct M; [constructor|now apply N|constructor]. }
  split; [|intros names I; now apply code_not].
  rewrite (answerable_iff b description uri details m M), (answer_iff (lit name) description uri _ N').
  unfold not_defined. rewrite same_names. reflexivity.
Qed.

Lemma algorithm_not d s : (exists n, s = lit """" ++ n) ->
  ~ sendable (issuer_error_display d (IJwtError (JUnsupportedAlgorithm s))).
Proof.
  intros (n & ->) H. cbn [issuer_error_display jwt_error_display] in H. rewrite <- app_assoc in H.
  exact (quoted_not _ _ H).
Qed.

Lemma evaluation_algorithm d now m r offer asm doc options s :
  eval_error d now m r offer asm doc options (IJwtError (JUnsupportedAlgorithm s)) -> exists n, s = lit """" ++ n.
Proof.
  assert (forall k v, public_key_error k v -> v = JUnsupportedAlgorithm s -> exists n, s = lit """" ++ n) as K.
  { intros k v [| x n | n]; intros; try discriminate;
      match goal with E : _ = _ |- _ => injection E as <- end; now exists (flat_map escape_byte n ++ lit """"). }
  intros [H|(_ & p & j & o & P & T & O & H)]; apply first_in in H; destruct H as (c & I & H).
  - exfalso. cbn [In request_checks] in I.
    repeat (destruct I as [<-|I]; [cbn [reports] in H; unfold duplicate_ids_error in H;
      repeat match goal with H : _ /\ _ |- _ => destruct H | H : exists _, _ |- _ => destruct H end; discriminate|]); destruct I.
  - cbn [In token_checks] in I.
    destruct I as [<-|[<-|[<-|[<-|[<-|[<-|[<-|[]]]]]]]]; cbn [reports] in H;
      repeat match goal with H : _ /\ _ |- _ => destruct H | H : exists _, _ |- _ => destruct H | H : _ \/ _ |- _ => destruct H end;
      try discriminate.
    + match goal with E : IJwtError _ = IJwtError _ |- _ => injection E as <- end.
      match goal with H : key_error _ _ _ _ |- _ => inversion H; subst end; eauto.
    + match goal with E : IJwtError _ = IJwtError _ |- _ => injection E as <- end.
      match goal with H : did_error _ _ _ |- _ => inversion H end.
Qed.

Lemma sendable_dec s : sendable s \/ ~ sendable s.
Proof. rewrite sendable_iff. destruct (forallb description_byte s); [now left|right; discriminate]. Qed.

Lemma repeats_one e : (exists s, repeats e s) \/ forall s, ~ repeats e s.
Proof.
  destruct e as [|[]| | | | | | | | | | |]; try (right; intros x H; inversion H; fail); left; eexists; constructor.
Qed.
Lemma repeats_same e s s' : repeats e s -> repeats e s' -> s = s'.
Proof. intros [] H; inversion H; reflexivity. Qed.

Lemma unsendable_repeats d e : ~ sendable (issuer_error_display (with_chrono d) e) -> exists s, ~ sendable s /\ repeats e s.
Proof.
  rewrite issuer_description. intros H. destruct (repeats_one e) as [(s & R)|N].
  - exists s. split; [|exact R]. intros K. apply H. intros t R'. now rewrite (repeats_same _ _ _ R' R).
  - exfalso. apply H. intros s R. now apply N in R.
Qed.

Lemma evaluation_unsendable d now m r offer asm doc options e :
  eval_error (with_chrono d) now m r offer asm doc options e ->
  ~ sendable (issuer_error_display (with_chrono d) e) ->
  exists s p j, ~ sendable s /\ repeats e s /\ cr_proof r = Some p /\ proof_token (with_chrono d) (rp_jwt p) j
    /\ repeated_from (h_additional (j_header j)) s.
Proof.
  intros E H. destruct (unsendable_repeats d e H) as (s & N & R).
  destruct (evaluation_repeats _ _ _ _ _ _ _ _ _ _ E R) as (p & j & P & T & F). now exists s, p, j.
Qed.
Lemma pre_unsendable d r e :
  pre_error (with_chrono d) r e -> ~ sendable (issuer_error_display (with_chrono d) e) ->
  exists s p j, ~ sendable s /\ cr_proof r = Some p /\ proof_token (with_chrono d) (rp_jwt p) j
    /\ (h_additional (j_header j) = Some (Jwk s) \/ h_additional (j_header j) = Some (X5c s)).
Proof.
  intros E H. destruct (unsendable_repeats d e H) as (s & N & R).
  destruct (pre_repeats _ _ _ _ E R) as (p & j & P & T & F). now exists s, p, j.
Qed.

Lemma response_description d now r ct n e :
  create_credential_success_response (with_chrono d) now r ct n = Err e ->
  sendable (issuer_error_display (with_chrono d) e).
Proof.
  intros H. apply issuer_description. intros s R. exfalso. unfold create_credential_success_response in H.
  destruct (request_validate _ r); cbn [map_err bind] in H; [|injection H as <-; inversion R|discriminate].
  destruct ct as [[c|t]|]; cbn [bind] in H; try discriminate.
  destruct (cfp_encode c); cbn [map_err bind] in H; [discriminate|injection H as <-; inversion R|discriminate].
Qed.

Lemma offer_description d m creds ep a p e :
  create_offer m creds ep a p = Err e ->
  (sendable (issuer_error_display (with_chrono d) e)
   <-> forall id, e = ICredentialIdNotInIssuerMetadata id -> sendable id).
Proof.
  intros H. apply create_offer_err in H. rewrite issuer_description. destruct H; unfold duplicate_ids_error.
  - split; [discriminate|]. intros _ s R. inversion R.
  - split; [discriminate|]. intros _ s R. inversion R.
  - split; [intros K x [= <-]; apply K; constructor|]. intros K s R. inversion R; subst. now apply K.
Qed.

Lemma token_answers d n c description uri details r m s v :
  rereads n ->
  create_access_token_error_response c description uri details = Ok r ->
  on_some rust_string description -> on_some rust_string uri -> on_some json_any details -> distinct_details details ->
  mergeable (flatten_unit_ok d) details m ->
  token_error_response_to_json d r = Some s -> rfc8259_text s v ->
  (error_answer v <-> answerable description uri details) /\ ~ error_is_one_of token_codes v.
Proof.
  intros Hr C D U O N M W V.
  assert (exists name, token_rust_name c name /\ ~ In name token_codes) as (name & Hn & Hi).
  { destruct c; eexists; (split; [constructor|]); cbn [In token_codes]; intuition discriminate. }
  destruct (token_response_any d n c description uri details r m s name Hr C Hn D U O M W) as [_ T].
  destruct (answer_of _ n description uri details m name s v M N T V) as [A B]. split; [exact A|exact (B _ Hi)].
Qed.
Lemma issuer_answers d n c description uri details r m s v :
  rereads n ->
  create_credential_error_response c description uri details = Ok r ->
  on_some rust_string description -> on_some rust_string uri -> on_some json_any details -> distinct_details details ->
  mergeable (flatten_unit_ok d) details m ->
  issuer_error_response_to_json d r = Some s -> rfc8259_text s v ->
  (error_answer v <-> answerable description uri details) /\ ~ error_is_one_of credential_codes v.
Proof.
  intros Hr C D U O N M W V.
  assert (exists name, issuer_rust_name c name /\ ~ In name credential_codes) as (name & Hn & Hi).
  { destruct c; eexists; (split; [constructor|]); cbn [In credential_codes]; intuition discriminate. }
  destruct (issuer_response_any d n c description uri details r m s name Hr C Hn D U O M W) as [_ T].
  destruct (answer_of _ n description uri details m name s v M N T V) as [A B]. split; [exact A|exact (B _ Hi)].
Qed.

Lemma uri_sendable_iff s : uri_sendable s <-> forallb (fun c => description_byte c && negb (code c =? 32)) s = true.
Proof.
  unfold uri_sendable, uri_char. rewrite forallb_forall, Forall_forall.
  split; intros H c I; specialize (H c I); rewrite andb_true_iff, negb_true_iff, N.eqb_neq, description_byte_iff in *; exact H.
Qed.
