(** Success responses and independence of iteration order. *)
From Coq Require Import Lia ZifyBool ZifyN ZifyNat Permutation.
From Verif Require Import Model.Prelude Model.Utf8 Model.Base64 Model.Json Model.Types Model.Deps
  Model.Serde Model.Errors Model.Jwt Model.AccessToken Model.CredentialIssuer Model.Wire
  Spec SpecToken SpecOffer SpecJwt SpecEvaluation SpecResponse
  Proofs.StrFacts Proofs.Utf8Facts Proofs.Base64Facts Proofs.Base64Bits Proofs.JsonFacts
  Proofs.ReaderFacts Proofs.SerdeFacts Proofs.TokenFacts Proofs.OfferFacts Proofs.JwtFacts
  Proofs.EvalFacts Proofs.EvalFacts2 Proofs.EvalFacts3.

Lemma format_of_name c f : format_of c f <-> format_name c = lit f.
Proof.
  split.
  - now intros [].
  - destruct c; intros E; cbn [format_name] in E.
    all: assert (forall a b, lit a = lit b -> a = b) as K by
      (intros a b H; rewrite <- (string_of_list_ascii_of_string a), <- (string_of_list_ascii_of_string b);
       unfold lit in H; now rewrite H).
    all: apply K in E; subst; constructor.
Qed.

Lemma encode_ok c : exists e, cfp_encode c = Ok e /\ issued c e.
Proof.
  destruct codec_exact as (K & _).
  destruct c; cbn [cfp_encode]; eexists; (split; [reflexivity|]).
  all: try (apply is_plain; constructor).
  all: eapply is_encoded; [constructor|discriminate|]; apply K.
Qed.

Lemma issued_det c e1 e2 : issued c e1 -> issued c e2 -> e1 = e2.
Proof.
  intros [F1|f1 t1 F1 N1 B1] [F2|f2 t2 F2 N2 B2].
  - reflexivity.
  - exfalso. inversion F1; subst; inversion F2; subst; congruence.
  - exfalso. inversion F1; subst; inversion F2; subst; congruence.
  - f_equal. destruct codec_exact as (_ & _ & D & _ & _ & K). apply D in B1, B2. eapply K; eassumption.
Qed.

Lemma success_iff d now r ct n resp t :
  lower_case_facts d -> upper_case_facts d -> on_some (fun p => rust_string (rp_proof_type p)) (cr_proof r) ->
  (create_credential_success_response d now r ct n = Ok (resp, t) <->
   valid_request d r /\ (exists f, format_of (cr_format r) f /\ cs_format resp = lit f)
   /\ payload_is ct resp /\ nonce_is n resp /\ t = now).
Proof.
  intros HL HU HT. destruct (request_validate_outcomes d r HL HU HT) as (V1 & V2 & V3).
  unfold create_credential_success_response.
  destruct (map_err IValidationError (request_validate d r)) as [[]|e|]; cbn [bind]; [| |easy].
  2: { split; [discriminate|]. intros (V & _). apply V1 in V. discriminate. }
  assert (valid_request d r) as V by now apply V1.
  assert (exists f, format_of (cr_format r) f) as (f & F) by (destruct (cr_format r); eexists; constructor).
  assert (format_name (cr_format r) = lit f) as EF by now apply format_of_name.
  assert (forall resp, (exists f, format_of (cr_format r) f /\ cs_format resp = lit f) <->
                       cs_format resp = format_name (cr_format r)) as HF.
  { intros resp'. split.
    - intros (f' & F' & ->). apply format_of_name in F'. now rewrite F'.
    - intros ->. exists f. auto. }
  assert (forall resp, nonce_is n resp <-> cs_c_nonce resp = option_map cn_c_nonce n
                       /\ cs_c_nonce_expires_in resp = opt_bind n cn_expires_in) as HN.
  { intros resp'. unfold nonce_is. now destruct n. }
  rewrite HF, HN.
  destruct ct as [[c|tok]|]; cbn [bind payload_is].
  - destruct (encode_ok c) as (e & -> & I). cbn [map_err bind fst snd]. split.
    + intros E. apply ok_inj in E. apply pair_equal_spec in E. destruct E as [<- <-]. cbn. repeat split; auto. eauto.
    + intros (_ & A & ((e' & B & I') & C) & (D & G) & ->). rewrite (issued_det _ _ _ I' I) in B.
      destruct resp. cbn in *. now subst.
  - cbn [fst snd]. split.
    + intros E. apply ok_inj in E. apply pair_equal_spec in E. destruct E as [<- <-]. cbn. repeat split; auto.
    + intros (_ & A & (B & C) & (D & G) & ->). destruct resp. cbn in *. now subst.
  - cbn [fst snd]. split.
    + intros E. apply ok_inj in E. apply pair_equal_spec in E. destruct E as [<- <-]. cbn. repeat split; auto.
    + intros (_ & A & (B & C) & (D & G) & ->). destruct resp. cbn in *. now subst.
Qed.

Lemma success_err d now r ct n e :
  lower_case_facts d -> upper_case_facts d -> on_some (fun p => rust_string (rp_proof_type p)) (cr_proof r) ->
  (create_credential_success_response d now r ct n = Err e <-> request_error d r e).
Proof.
  intros HL HU HT. destruct (request_validate_outcomes d r HL HU HT) as (V1 & V2 & V3).
  unfold create_credential_success_response.
  destruct (map_err IValidationError (request_validate d r)) as [[]|e'|]; cbn [bind]; [| |easy].
  - split.
    + destruct ct as [[c|tok]|]; cbn [bind]; try discriminate.
      destruct (encode_ok c) as (x & -> & _). discriminate.
    + intros H. apply V2 in H. discriminate.
  - rewrite <- V2. split; now intros [= ->].
Qed.

(** Shape facts that need no premises. *)
Lemma success_shape d now r ct n resp t :
  create_credential_success_response d now r ct n = Ok (resp, t) ->
  (cs_credential resp <> None <-> exists c, ct = Some (CTCredential c))
  /\ (forall a, cs_acceptance_token resp = Some a <-> ct = Some (CTAcceptanceToken a))
  /\ ~ (cs_credential resp <> None /\ cs_acceptance_token resp <> None)
  /\ nonce_is n resp
  /\ (cs_c_nonce_expires_in resp <> None -> cs_c_nonce resp <> None)
  /\ cs_format resp = format_name (cr_format r)
  /\ (forall c, ct = Some (CTCredential c) -> exists e, cs_credential resp = Some e /\ issued c e)
  /\ t = now.
Proof.
  unfold create_credential_success_response.
  destruct (request_validate d r) as [[]|e|]; cbn [map_err bind]; try discriminate.
  assert (forall x : option c_nonce, opt_bind x cn_expires_in <> None -> option_map cn_c_nonce x <> None) as HN
    by (now intros []).
  destruct ct as [[c|tok]|]; cbn [bind].
  - destruct (encode_ok c) as (e & -> & I). cbn [map_err bind fst snd]. intros E. apply ok_inj in E.
    apply pair_equal_spec in E. destruct E as [<- <-]. cbn.
    split; [split; [eauto|easy]|]. split; [easy|]. split; [tauto|]. split; [now destruct n|].
    split; [apply HN|]. split; [easy|]. split; [|easy]. intros c' E. injection E as <-. eauto.
  - cbn [fst snd]. intros E. apply ok_inj in E. apply pair_equal_spec in E. destruct E as [<- <-]. cbn.
    split; [split; [easy|now intros (c & [=])]|]. split; [intros a; split; congruence|].
    split; [tauto|]. split; [now destruct n|]. split; [apply HN|]. split; [easy|]. split; easy.
  - cbn [fst snd]. intros E. apply ok_inj in E. apply pair_equal_spec in E. destruct E as [<- <-]. cbn.
    split; [split; [easy|now intros (c & [=])]|]. split; [easy|].
    split; [tauto|]. split; [now destruct n|]. split; [apply HN|]. split; [easy|]. split; easy.
Qed.

Lemma cfp_json_rt n c : cfp_ok n c -> (n <= 124)%nat -> cfp_from_json (cfp_to_json c) = Some c.
Proof.
  intros H Hn. unfold cfp_from_json, cfp_to_json, parse_json.
  rewrite (read_written (max 5 (3 + n))); [|now apply good_cfp|lia]. cbn [opt_bind]. now apply (cfp_rt n).
Qed.

Lemma cfp_ok_any n c f : format_of c f -> f <> "ldp_vc"%string -> cfp_ok n c -> cfp_ok 0 c.
Proof. intros F N. destruct F; cbn; auto. congruence. Qed.

(** The credential can be read from the response. *)
Lemma issued_recovered n c e :
  cfp_ok n c -> issued c e ->
  match e with
  | CFP c' => c' = c
  | Encoded text => exists bytes, base64_text url_alphabet false bytes text /\ cfp_from_json bytes = Some c
  end.
Proof.
  intros H [F|f text F N B]; [reflexivity|]. exists (cfp_to_json c). split; [exact B|].
  apply (cfp_json_rt 0); [|lia]. eapply cfp_ok_any; eassumption.
Qed.

Lemma response_recovered d now r c n resp t k :
  create_credential_success_response d now r (Some (CTCredential c)) n = Ok (resp, t) -> cfp_ok k c ->
  (format_of c "ldp_vc" /\ cs_credential resp = Some (CFP c))
  \/ (~ format_of c "ldp_vc" /\ exists text bytes, cs_credential resp = Some (Encoded text)
      /\ base64_text url_alphabet false bytes text /\ cfp_from_json bytes = Some c).
Proof.
  intros H Hc. destruct (success_shape _ _ _ _ _ _ _ H) as (_ & _ & _ & _ & _ & _ & HI & _).
  destruct (HI c eq_refl) as (e & E & I). pose proof (issued_recovered k c e Hc I) as R.
  destruct I as [F|f text F N B]; [left; auto|]. right. split.
  - intros F'. inversion F; subst; inversion F'; subst; congruence.
  - destruct R as (bytes & R1 & R2). exists text, bytes. auto.
Qed.

Lemma credential_success_json_rt n r :
  credential_success_ok n r -> (n <= 122)%nat ->
  credential_success_from_json (credential_success_to_json r) = Some r.
Proof.
  intros H Hn. unfold credential_success_from_json, credential_success_to_json, parse_struct.
  rewrite (read_written (max 7 (5 + n))); [|now apply good_credential_success|lia]. cbn [opt_bind].
  now apply (credential_success_rt n).
Qed.

Lemma credential_member n r :
  credential_success_ok n r -> (n <= 122)%nat ->
  exists m, parse_json (credential_success_to_json r) = Some (JObj m)
    /\ only_member m "format" (JStr (cs_format r))
    /\ match cs_credential r with
       | None => only_member m "credential" JNull
       | Some (Encoded text) => only_member m "credential" (JObj [(lit "Encoded", JStr text)])
       | Some (CFP c) => exists v, cfp_from_json (print v) = Some c
                           /\ only_member m "credential" (JObj [(lit "CredentialFormatProfile", v)])
       end.
Proof.
  intros H Hn. unfold credential_success_to_json, parse_json.
  rewrite (read_written (max 7 (5 + n))); [|now apply good_credential_success|lia].
  unfold ser_credential_success. eexists. split; [reflexivity|].
  assert (forall a b c d e k v,
    In (k, v) [("format"%string, a); ("credential"%string, b); ("acceptance_token"%string, c);
               ("c_nonce"%string, d); ("c_nonce_expires_in"%string, e)] ->
    only_member (field "format" a ++ field "credential" b ++ field "acceptance_token" c
                 ++ field "c_nonce" d ++ field "c_nonce_expires_in" e) k v) as K.
  { intros a b c d e k v Hin. cbn [In] in Hin. unfold only_member, field. cbn [app In map fst].
    repeat (destruct Hin as [Hin|Hin]; [injection Hin as <- <-; split; [tauto|vm_compute; reflexivity]|]).
    easy. }
  split; [apply K; now left|].
  assert (forall v, v = ser_opt ser_cfp_or_encoded (cs_credential r) ->
    only_member (field "format" (JStr (cs_format r))
        ++ field "credential" (ser_opt ser_cfp_or_encoded (cs_credential r))
        ++ field "acceptance_token" (ser_opt JStr (cs_acceptance_token r))
        ++ field "c_nonce" (ser_opt JStr (cs_c_nonce r))
        ++ field "c_nonce_expires_in" (ser_opt ser_N (cs_c_nonce_expires_in r))) "credential" v) as K2.
  { intros v ->. apply K. right. now left. }
  destruct H as (_ & HC & _).
  destruct (cs_credential r) as [[c|text]|] eqn:E.
  - exists (ser_cfp c). split; [|now apply K2]. apply (cfp_json_rt n); [|lia]. now apply (HC (CFP c)).
  - now apply K2.
  - now apply K2.
Qed.

Lemma never_both d now r ct n resp t :
  create_credential_success_response d now r ct n = Ok (resp, t) ->
  (cs_credential resp <> None <-> exists c, ct = Some (CTCredential c))
  /\ (forall a, cs_acceptance_token resp = Some a <-> ct = Some (CTAcceptanceToken a))
  /\ ~ (cs_credential resp <> None /\ cs_acceptance_token resp <> None)
  /\ (cs_c_nonce_expires_in resp <> None -> cs_c_nonce resp <> None).
Proof. intros H. apply success_shape in H. tauto. Qed.

Lemma lit_inj a b : lit a = lit b -> a = b.
Proof.
  intros H. rewrite <- (string_of_list_ascii_of_string a), <- (string_of_list_ascii_of_string b).
  unfold lit in H. now rewrite H.
Qed.

Lemma response_format d now r c n resp t f g :
  create_credential_success_response d now r (Some (CTCredential c)) n = Ok (resp, t) ->
  format_of (cr_format r) g -> format_of c f ->
  cs_format resp = lit g /\ (cs_format resp = lit f <-> f = g).
Proof.
  intros H G F. destruct (success_shape _ _ _ _ _ _ _ H) as (_ & _ & _ & _ & _ & E & _).
  apply format_of_name in G. rewrite E, G. split; [reflexivity|]. split; [|now intros ->].
  intros K. now apply lit_inj in K.
Qed.

Lemma only_member_det m k v w : only_member m k v -> only_member m k w -> v = w.
Proof.
  intros (I1 & C) (I2 & _). induction m as [|[a x] m IH]; [easy|]. cbn [map fst] in C.
  destruct (list_eq_dec ascii_dec a (lit k)) as [->|N].
  - rewrite count_occ_cons_eq in C by reflexivity. injection C as C.
    assert (forall y, ~ In (lit k, y) m) as K.
    { intros y Hy. apply (in_map fst) in Hy. cbn [fst] in Hy.
      apply (proj1 (count_occ_In (A := str) (list_eq_dec ascii_dec) (map fst m) (lit k))) in Hy.
      unfold str in *. rewrite C in Hy. inversion Hy. }
    destruct I1 as [[= <-]|I1]; [|exfalso; eapply K; eassumption].
    destruct I2 as [[= <-]|I2]; [|exfalso; eapply K; eassumption]. reflexivity.
  - rewrite count_occ_cons_neq in C by congruence.
    destruct I1 as [I1|I1]; [congruence|]. destruct I2 as [I2|I2]; [congruence|]. auto.
Qed.
