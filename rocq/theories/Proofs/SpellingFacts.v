(** Reading a document depends only on the value it denotes, and for most types
    only on the members they know. *)
From Coq Require Import Lia.
From Verif Require Import Model.Prelude Model.Utf8 Model.Json Model.Types Model.Deps Model.Serde Model.Wire
  Model.SerdeOptions Spec SpecJson SpecToken SpecWire
  Proofs.StrFacts Proofs.JsonFacts Proofs.ReaderFacts Proofs.GrammarFacts Proofs.KeptFacts.

(** [D] looks at its argument only through the fields [F]. *)
Definition through {A : Type} (F : list str) (D : json -> option A) : Prop :=
  forall j j', fields_of F j = fields_of F j' -> D j = D j'.

Lemma struct_read {A : Type} F (D : json -> option A) s j : through F D -> json_text s j ->
  opt_bind (parse_struct F s) D = D j.
Proof.
  intros T H. apply parse_json_iff in H.
  pose proof (struct_kept F s j H) as K.
  destruct j; try (rewrite K; reflexivity).
  destruct K as (m' & -> & Hs). cbn [opt_bind]. symmetry. apply T.
  apply (fields_of_kept F); [apply incl_refl|exact Hs].
Qed.

Lemma value_read {A : Type} (D : json -> option A) s j : json_text s j -> opt_bind (parse_json s) D = D j.
Proof. intros H. apply parse_json_iff in H. now rewrite H. Qed.

Ltac thr := intros j j' E; cbv delta [de_body de_token_request de_token_success de_offer
  de_credential_success de_token_options de_c_nonce de_eval_options de_proof_jwt]; cbv beta; rewrite E; reflexivity.

Lemma thr_claims d : through body_fields (de_body d). Proof. thr. Qed.
Lemma thr_token_request : through [lit "grant_type"] de_token_request. Proof. thr. Qed.
Lemma thr_token_success : through token_success_fields de_token_success. Proof. thr. Qed.
Lemma thr_offer : through offer_fields de_offer. Proof. thr. Qed.
Lemma thr_credential_success : through credential_success_fields de_credential_success. Proof. thr. Qed.
Lemma thr_token_options : through token_options_fields de_token_options. Proof. thr. Qed.
Lemma thr_c_nonce : through c_nonce_fields de_c_nonce. Proof. thr. Qed.
Lemma thr_eval_options d : through eval_options_fields (de_eval_options d). Proof. thr. Qed.
Lemma thr_proof_jwt d : through proof_jwt_fields (de_proof_jwt d). Proof. thr. Qed.

Lemma spelling d s s' j : json_text s j -> json_text s' j ->
  header_from_json s = header_from_json s'
  /\ claims_from_json d s = claims_from_json d s'
  /\ token_request_from_json s = token_request_from_json s'
  /\ token_success_from_json s = token_success_from_json s'
  /\ offer_from_json s = offer_from_json s'
  /\ cfp_from_json s = cfp_from_json s'
  /\ credential_success_from_json s = credential_success_from_json s'
  /\ credential_request_from_json s = credential_request_from_json s'
  /\ metadata_from_json s = metadata_from_json s'
  /\ token_options_from_json s = token_options_from_json s'
  /\ c_nonce_from_json s = c_nonce_from_json s'
  /\ eval_options_from_json d s = eval_options_from_json d s'
  /\ proof_jwt_from_json d s = proof_jwt_from_json d s'.
Proof.
  intros H H'.
  unfold header_from_json, claims_from_json, token_request_from_json, token_success_from_json, offer_from_json,
    cfp_from_json, credential_success_from_json, credential_request_from_json, metadata_from_json,
    token_options_from_json, c_nonce_from_json, eval_options_from_json, proof_jwt_from_json.
  rewrite !(value_read _ s j H), !(value_read _ s' j H').
  rewrite !(struct_read _ _ s j (thr_claims d) H), !(struct_read _ _ s' j (thr_claims d) H').
  rewrite !(struct_read _ _ s j thr_token_request H), !(struct_read _ _ s' j thr_token_request H').
  rewrite !(struct_read _ _ s j thr_token_success H), !(struct_read _ _ s' j thr_token_success H').
  rewrite !(respects_read _ _ s j respects_offer H), !(respects_read _ _ s' j respects_offer H').
  rewrite !(struct_read _ _ s j thr_credential_success H), !(struct_read _ _ s' j thr_credential_success H').
  rewrite !(struct_read _ _ s j thr_token_options H), !(struct_read _ _ s' j thr_token_options H').
  rewrite !(struct_read _ _ s j thr_c_nonce H), !(struct_read _ _ s' j thr_c_nonce H').
  rewrite !(respects_read _ _ s j (respects_eval_options d) H), !(respects_read _ _ s' j (respects_eval_options d) H').
  rewrite !(respects_read _ _ s j (respects_proof_jwt d) H), !(respects_read _ _ s' j (respects_proof_jwt d) H').
  rewrite !(respects_read _ _ s j respects_request H), !(respects_read _ _ s' j respects_request H').
  rewrite !(respects_read _ _ s j respects_metadata H), !(respects_read _ _ s' j respects_metadata H').
  repeat split.
Qed.

Lemma unambiguous s j j' : json_text s j -> json_text s j' -> j = j'.
Proof. intros H H'. apply parse_json_iff in H, H'. rewrite H in H'. now injection H'. Qed.

(* ---------------- only JSON is accepted ---------------- *)

Lemma bind_json {A : Type} (D : json -> option A) s x :
  opt_bind (parse_json s) D = Some x -> exists j, json_text s j.
Proof.
  destruct (parse_json s) as [j|] eqn:E; [|discriminate]. intros _. exists j. now apply parse_json_iff.
Qed.

Lemma bind_struct {A : Type} F (D : json -> option A) s x :
  opt_bind (parse_struct F s) D = Some x -> exists j, struct_text F s j.
Proof.
  destruct (parse_struct F s) as [j|] eqn:E; [|discriminate]. intros _. exists j. now apply parse_struct_iff.
Qed.

Lemma bind_shaped {A : Type} sh (D : json -> option A) s x :
  opt_bind (parse_doc sh s) D = Some x -> exists j, shaped_text sh s j.
Proof.
  destruct (parse_doc sh s) as [j|] eqn:E; [|discriminate]. intros _. exists j. now apply parse_doc_iff.
Qed.

(** Every text of the grammar is a text of the grammar that skips members. *)
Lemma struct_text_of_json F s j : json_text s j -> exists j', struct_text F s j'.
Proof.
  intros H. apply parse_json_iff in H.
  pose proof (struct_kept F s j H) as K.
  destruct j; try (eexists; apply parse_struct_iff; exact K).
  destruct K as (m' & K & _). exists (JObj m'). apply parse_struct_iff. exact K.
Qed.

(* ---------------- unknown members and the order of members ---------------- *)

Lemma get_unique_named k m m' : named k m = named k m' -> get_unique k m = get_unique k m'.
Proof. intros H. unfold get_unique. rewrite !named_filter, H. reflexivity. Qed.

Lemma named_without k p (m : list (str * json)) : p k = true ->
  named k (filter (fun kv => p (fst kv)) m) = named k m.
Proof.
  intros Hp. induction m as [|[k' v] m IH]; [reflexivity|]. cbn [filter named fst].
  destruct (list_eq_dec ascii_dec k k') as [<-|Hn].
  - rewrite Hp. cbn [named]. destruct (list_eq_dec ascii_dec k k); [now rewrite IH|contradiction].
  - destruct (p k'); [|exact IH]. cbn [named]. destruct (list_eq_dec ascii_dec k k'); [contradiction|exact IH].
Qed.

Lemma fields_named names m m' : (forall k, In k names -> named k m = named k m') ->
  fields_of names (JObj m) = fields_of names (JObj m').
Proof.
  intros H. cbn [fields_of]. induction names as [|k names IH]; [reflexivity|]. cbn [map_opt].
  rewrite (get_unique_named k m m') by (apply H; now left). rewrite IH; [reflexivity|].
  intros k' Hk. apply H. now right.
Qed.

Lemma fields_same names m m' : same_members names m m' ->
  fields_of (map lit names) (JObj m) = fields_of (map lit names) (JObj m').
Proof.
  intros H. apply fields_named. intros k Hk. apply in_map_iff in Hk. destruct Hk as (n & <- & Hn). now apply H.
Qed.

Lemma struct_members {A : Type} names (D : json -> option A) s s' m m' : through (map lit names) D ->
  json_text s (JObj m) -> json_text s' (JObj m') -> same_members names m m' ->
  opt_bind (parse_struct (map lit names) s) D = opt_bind (parse_struct (map lit names) s') D.
Proof.
  intros T H H' Hs. rewrite (struct_read _ _ s _ T H), (struct_read _ _ s' _ T H'). apply T. now apply fields_same.
Qed.

Lemma shaped_members {A : Type} sh names (D : json -> option A) s s' m m' :
  through (map lit names) D -> respects sh D ->
  json_text s (JObj m) -> json_text s' (JObj m') -> same_members names m m' ->
  opt_bind (parse_doc sh s) D = opt_bind (parse_doc sh s') D.
Proof.
  intros T R H H' Hs. rewrite (respects_read _ _ s _ R H), (respects_read _ _ s' _ R H'). apply T. now apply fields_same.
Qed.

Definition format_names : list string :=
  ["format"; "types"; "credentialSubject"; "order"; "@context"; "doctype"; "claims"]%string.

Lemma cfp_members_only p m m' : (forall n, In n format_names -> p (lit n) = true) ->
  same_members format_names m m' ->
  forall ix, de_cfp_tagged ix (JObj (filter (fun kv => p (fst kv)) m)) = de_cfp_tagged ix (JObj (filter (fun kv => p (fst kv)) m')).
Proof.
  intros Hp Hs.
  assert (Hn : forall n, In n format_names ->
    named (lit n) (filter (fun kv => p (fst kv)) m) = named (lit n) (filter (fun kv => p (fst kv)) m')).
  { intros n Hn. rewrite !named_without by (apply Hp; exact Hn). now apply Hs. }
  revert Hn. generalize (filter (fun kv => p (fst kv)) m) (filter (fun kv => p (fst kv)) m').
  clear. intros m m' Hn ix.
  unfold de_cfp_tagged, split_tag.
  rewrite (get_unique_named (lit "format") m m') by (apply Hn; now left).
  destruct (get_unique (lit "format") m') as [[v|]|]; try reflexivity.
  destruct (tag_name ix v) as [t|]; [|reflexivity]. cbn [opt_bind].
  set (q := fun k => negb (str_eqb (lit "format") k)).
  change (filter (fun kv => negb (str_eqb (lit "format") (fst kv))) m) with (filter (fun kv => q (fst kv)) m).
  change (filter (fun kv => negb (str_eqb (lit "format") (fst kv))) m') with (filter (fun kv => q (fst kv)) m').
  assert (Hf : forall l, (forall k, In k l -> exists n, In n (tl format_names) /\ k = lit n) ->
    fields_of l (JObj (filter (fun kv => q (fst kv)) m)) = fields_of l (JObj (filter (fun kv => q (fst kv)) m'))).
  { intros l Hl. apply fields_named. intros k Hk. destruct (Hl k Hk) as (n & Hi & ->).
    assert (q (lit n) = true) as Hq.
    { unfold q. cbn [tl format_names In] in Hi. repeat destruct Hi as [<-|Hi]; try reflexivity. destruct Hi. }
    rewrite !named_without by exact Hq. apply Hn. now right. }
  rewrite !(Hf [lit "types"; lit "credentialSubject"; lit "order"]),
    (Hf [lit "@context"; lit "types"; lit "credentialSubject"; lit "order"]),
    (Hf [lit "doctype"; lit "claims"; lit "order"]).
  - reflexivity.
  - intros k Hk. cbn [In] in Hk. repeat destruct Hk as [<-|Hk]; try (eexists; split; [|reflexivity]; cbn; tauto).
    destruct Hk.
  - intros k Hk. cbn [In] in Hk. repeat destruct Hk as [<-|Hk]; try (eexists; split; [|reflexivity]; cbn; tauto).
    destruct Hk.
  - intros k Hk. cbn [In] in Hk. repeat destruct Hk as [<-|Hk]; try (eexists; split; [|reflexivity]; cbn; tauto).
    destruct Hk.
Qed.

Lemma filter_all {A : Type} (l : list A) : filter (fun _ => true) l = l.
Proof. induction l as [|a l IH]; [reflexivity|]. cbn. now rewrite IH. Qed.

Lemma cfp_same_members m m' : same_members format_names m m' -> forall ix, de_cfp_tagged ix (JObj m) = de_cfp_tagged ix (JObj m').
Proof.
  intros H ix. pose proof (cfp_members_only (fun _ => true) m m' (fun _ _ => eq_refl) H ix) as K.
  cbn beta in K. now rewrite !filter_all in K.
Qed.

Lemma request_same_members m m' : same_members ("proof"%string :: format_names) m m' ->
  de_request (JObj m) = de_request (JObj m').
Proof.
  intros H. unfold de_request.
  rewrite (get_unique_named (lit "proof") m m') by (apply H; now left).
  destruct (get_unique (lit "proof") m') as [p|]; [|reflexivity]. cbn [opt_bind].
  destruct (opt de_proof p) as [p'|]; [|reflexivity]. cbn [opt_bind].
  unfold other_members. pose proof (cfp_members_only (fun k => negb (mem_str k [lit "proof"])) m m') as K.
  cbn beta in K. unfold de_cfp_buffered. rewrite K; [reflexivity| |].
  - intros n Hn. cbn [format_names In] in Hn. repeat destruct Hn as [<-|Hn]; try reflexivity. destruct Hn.
  - intros n Hn. apply H. now right.
Qed.

Ltac via T Hs := match type of Hs with same_members ?names ?m ?m' =>
    match goal with H : json_text ?s (JObj m), H' : json_text ?s' (JObj m') |- _ =>
      exact (struct_members names _ s s' m m' T H H' Hs) end end.

Ltac via_shape T R Hs := match type of Hs with same_members ?names ?m ?m' =>
    match goal with H : json_text ?s (JObj m), H' : json_text ?s' (JObj m') |- _ =>
      exact (shaped_members _ names _ s s' m m' T R H H' Hs) end end.

Local Open Scope string_scope.
Local Open Scope list_scope.

Lemma unknown_members d s s' m m' : json_text s (JObj m) -> json_text s' (JObj m') ->
  (same_members ["iss"; "aud"; "sub"; "iat"; "nonce"; "nbf"; "exp"] m m' ->
     claims_from_json d s = claims_from_json d s')
  /\ (same_members ["grant_type"] m m' -> token_request_from_json s = token_request_from_json s')
  /\ (same_members ["access_token"; "token_type"; "expires_in"; "scope"; "c_nonce"; "c_nonce_expires_in";
                    "authorization_pending"; "interval"] m m' ->
     token_success_from_json s = token_success_from_json s')
  /\ (same_members ["credential_issuer"; "credentials"; "grants"] m m' ->
     offer_from_json s = offer_from_json s')
  /\ (same_members ["format"; "credential"; "acceptance_token"; "c_nonce"; "c_nonce_expires_in"] m m' ->
     credential_success_from_json s = credential_success_from_json s')
  /\ (same_members ["expected_user_pin"] m m' -> token_options_from_json s = token_options_from_json s')
  /\ (same_members ["c_nonce"; "c_nonce_expires_in"] m m' -> c_nonce_from_json s = c_nonce_from_json s')
  /\ (same_members ["c_nonce"; "client_id"] m m' -> eval_options_from_json d s = eval_options_from_json d s')
  /\ (same_members ["header"; "body"; "signature"] m m' -> proof_jwt_from_json d s = proof_jwt_from_json d s')
  /\ (same_members ["format"; "types"; "credentialSubject"; "order"; "@context"; "doctype"; "claims"] m m' ->
     cfp_from_json s = cfp_from_json s')
  /\ (same_members ["proof"; "format"; "types"; "credentialSubject"; "order"; "@context"; "doctype"; "claims"] m m' ->
     credential_request_from_json s = credential_request_from_json s').
Proof.
  intros H H'.
  repeat split; intros Hs.
  - via (thr_claims d) Hs.
  - via thr_token_request Hs.
  - via thr_token_success Hs.
  - via_shape thr_offer respects_offer Hs.
  - via thr_credential_success Hs.
  - via thr_token_options Hs.
  - via thr_c_nonce Hs.
  - via_shape (thr_eval_options d) (respects_eval_options d) Hs.
  - via_shape (thr_proof_jwt d) (respects_proof_jwt d) Hs.
  - unfold cfp_from_json. rewrite (value_read _ s _ H), (value_read _ s' _ H'). now apply cfp_same_members.
  - unfold credential_request_from_json.
    rewrite (respects_read _ _ s _ respects_request H), (respects_read _ _ s' _ respects_request H').
    now apply request_same_members.
Qed.

Lemma only_json d s :
  (forall x, header_from_json s = Some x -> exists j, json_text s j)
  /\ (forall x, cfp_from_json s = Some x -> exists j, json_text s j)
  /\ (forall x, credential_request_from_json s = Some x -> exists j, shaped_text request_layout s j)
  /\ (forall x, metadata_from_json s = Some x -> exists j, shaped_text metadata_layout s j)
  /\ (forall x, claims_from_json d s = Some x ->
        exists j, struct_text (map lit ["iss"; "aud"; "sub"; "iat"; "nonce"; "nbf"; "exp"]) s j)
  /\ (forall x, token_request_from_json s = Some x -> exists j, struct_text (map lit ["grant_type"]) s j)
  /\ (forall x, token_success_from_json s = Some x ->
        exists j, struct_text (map lit ["access_token"; "token_type"; "expires_in"; "scope"; "c_nonce";
                                       "c_nonce_expires_in"; "authorization_pending"; "interval"]) s j)
  /\ (forall x, offer_from_json s = Some x -> exists j, shaped_text offer_layout s j)
  /\ (forall x, credential_success_from_json s = Some x ->
        exists j, struct_text (map lit ["format"; "credential"; "acceptance_token"; "c_nonce";
                                       "c_nonce_expires_in"]) s j)
  /\ (forall x, token_options_from_json s = Some x -> exists j, struct_text (map lit ["expected_user_pin"]) s j)
  /\ (forall x, c_nonce_from_json s = Some x ->
        exists j, struct_text (map lit ["c_nonce"; "c_nonce_expires_in"]) s j)
  /\ (forall x, eval_options_from_json d s = Some x -> exists j, shaped_text eval_options_layout s j)
  /\ (forall x, proof_jwt_from_json d s = Some x -> exists j, shaped_text proof_jwt_layout s j).
Proof.
  repeat split; intros x H; first [exact (bind_json _ _ _ H) | exact (bind_struct _ _ _ _ H) | exact (bind_shaped _ _ _ _ H)].
Qed.

Lemma nested_members d s s' j j' : json_text s j -> json_text s' j' ->
  (alike offer_layout j j' -> offer_from_json s = offer_from_json s')
  /\ (alike request_layout j j' -> credential_request_from_json s = credential_request_from_json s')
  /\ (alike metadata_layout j j' -> metadata_from_json s = metadata_from_json s')
  /\ (alike eval_options_layout j j' -> eval_options_from_json d s = eval_options_from_json d s')
  /\ (alike proof_jwt_layout j j' -> proof_jwt_from_json d s = proof_jwt_from_json d s').
Proof.
  intros H H'. repeat split; intros K.
  - exact (respects_alike _ _ s s' j j' respects_offer H H' K).
  - exact (respects_alike _ _ s s' j j' respects_request H H' K).
  - exact (respects_alike _ _ s s' j j' respects_metadata H H' K).
  - exact (respects_alike _ _ s s' j j' (respects_eval_options d) H H' K).
  - exact (respects_alike _ _ s s' j j' (respects_proof_jwt d) H H' K).
Qed.
