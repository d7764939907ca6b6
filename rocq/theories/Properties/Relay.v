(** C104, C105: documents that are read, written and read again, and values that
    are written and read. *)
From Verif Require Import Model.Prelude Model.Json Model.Types Model.Deps Model.Chrono Model.CredentialIssuer Model.Serde Model.SerdeOptions Model.Wire
  Spec SpecNumber SpecOffer SpecToken SpecJwt SpecDocuments SpecRelay SpecHops Examples
  Proofs.JsonFacts Proofs.NumberValues Proofs.RelayFacts Proofs.RenumberFacts Proofs.HopsFacts Properties.Numbers.

(** * C104 *)
Theorem C104_token_request : forall s x, token_request_from_json s = Some x ->
  token_request_from_json (token_request_to_json x) = Some x.
Proof. exact token_request_relay. Qed.
Print Assumptions C104_token_request.

Theorem C104_token_response : forall s x, token_success_from_json s = Some x ->
  token_success_from_json (token_success_to_json x) = Some x.
Proof. exact token_success_relay. Qed.
Print Assumptions C104_token_response.

Theorem C104_token_options : forall s x, token_options_from_json s = Some x ->
  token_options_from_json (token_options_to_json x) = Some x.
Proof. exact token_options_relay. Qed.
Print Assumptions C104_token_options.

Theorem C104_nonce : forall s x, c_nonce_from_json s = Some x -> c_nonce_from_json (c_nonce_to_json x) = Some x.
Proof. exact c_nonce_relay. Qed.
Print Assumptions C104_nonce.

Theorem C104_header : forall s x, header_from_json s = Some x -> header_from_json (header_to_json x) = Some x.
Proof. exact header_relay. Qed.
Print Assumptions C104_header.

Theorem C104_claims : forall d s x, dt_round_trips d -> dates_in_range d -> claims_from_json d s = Some x ->
  claims_from_json d (claims_to_json d x) = Some x.
Proof. exact claims_relay. Qed.
Print Assumptions C104_claims.

Theorem C104_evaluation_options : forall d s x, dt_round_trips d -> dates_in_range d ->
  eval_options_from_json d s = Some x -> eval_options_from_json d (eval_options_to_json d x) = Some x.
Proof. exact eval_options_relay. Qed.
Print Assumptions C104_evaluation_options.

Theorem C104_parsed_proof : forall d s x, dt_round_trips d -> dates_in_range d ->
  proof_jwt_from_json d s = Some x -> proof_jwt_from_json d (proof_jwt_to_json d x) = Some x.
Proof. exact proof_jwt_relay. Qed.
Print Assumptions C104_parsed_proof.

(** Documents with free-form values, if the numbers in them are kept. *)
Theorem C104_credential : forall s x, cfp_from_json s = Some x -> credential_kept x ->
  cfp_from_json (cfp_to_json x) = Some x.
Proof. exact cfp_relay. Qed.
Print Assumptions C104_credential.

Theorem C104_offer : forall s x, offer_from_json s = Some x -> offer_kept x ->
  offer_from_json (offer_to_json x) = Some x.
Proof. exact offer_relay. Qed.
Print Assumptions C104_offer.

Theorem C104_request : forall s x, credential_request_from_json s = Some x -> credential_kept (cr_format x) ->
  credential_request_from_json (credential_request_to_json x) = Some x.
Proof. exact request_relay. Qed.
Print Assumptions C104_request.

Theorem C104_response : forall s x, credential_success_from_json s = Some x -> response_kept x ->
  credential_success_from_json (credential_success_to_json x) = Some x.
Proof. exact success_relay. Qed.
Print Assumptions C104_response.

Theorem C104_metadata : forall s x, metadata_from_json s = Some x -> metadata_kept x ->
  metadata_from_json (metadata_to_json x) = Some x.
Proof. exact metadata_relay. Qed.
Print Assumptions C104_metadata.

(** Whatever was read is written as a text that is read again, and only numbers
    other than integers change: each to the one that its text is read to. *)
Theorem C104_credential_numbers : forall r s x, rereads r -> cfp_from_json s = Some x ->
  cfp_from_json (cfp_to_json x) = Some (credential_numbers r x).
Proof. exact (fun r s x H => cfp_again r H s x). Qed.
Print Assumptions C104_credential_numbers.

Theorem C104_offer_numbers : forall r s x, rereads r -> offer_from_json s = Some x ->
  offer_from_json (offer_to_json x) = Some (offer_numbers r x).
Proof. exact (fun r s x H => offer_again r H s x). Qed.
Print Assumptions C104_offer_numbers.

Theorem C104_request_numbers : forall r s x, rereads r -> credential_request_from_json s = Some x ->
  credential_request_from_json (credential_request_to_json x) = Some (request_numbers r x).
Proof. exact (fun r s x H => request_again r H s x). Qed.
Print Assumptions C104_request_numbers.

Theorem C104_response_numbers : forall r s x, rereads r -> credential_success_from_json s = Some x ->
  credential_success_from_json (credential_success_to_json x) = Some (response_numbers r x).
Proof. exact (fun r s x H => success_again r H s x). Qed.
Print Assumptions C104_response_numbers.

Theorem C104_metadata_numbers : forall r s x, rereads r -> metadata_from_json s = Some x ->
  metadata_from_json (metadata_to_json x) = Some (metadata_numbers r x).
Proof. exact (fun r s x H => metadata_again r H s x). Qed.
Print Assumptions C104_metadata_numbers.

Theorem C104_numbers_exist : exists r, rereads r.
Proof. exact (ex_intro _ reread reread_rereads). Qed.
Print Assumptions C104_numbers_exist.

(** The same however often a document is passed on: from the first party on, the text
    of these documents does not change any more ... *)
Theorem C104_passed_on_unchanged : forall d n s, dt_round_trips d -> dates_in_range d ->
  (forall x, token_request_from_json s = Some x ->
     passed_on token_request_from_json token_request_to_json (S n) s = Some (token_request_to_json x))
  /\ (forall x, token_success_from_json s = Some x ->
     passed_on token_success_from_json token_success_to_json (S n) s = Some (token_success_to_json x))
  /\ (forall x, token_options_from_json s = Some x ->
     passed_on token_options_from_json token_options_to_json (S n) s = Some (token_options_to_json x))
  /\ (forall x, c_nonce_from_json s = Some x ->
     passed_on c_nonce_from_json c_nonce_to_json (S n) s = Some (c_nonce_to_json x))
  /\ (forall x, header_from_json s = Some x ->
     passed_on header_from_json header_to_json (S n) s = Some (header_to_json x))
  /\ (forall x, claims_from_json d s = Some x ->
     passed_on (claims_from_json d) (claims_to_json d) (S n) s = Some (claims_to_json d x))
  /\ (forall x, eval_options_from_json d s = Some x ->
     passed_on (eval_options_from_json d) (eval_options_to_json d) (S n) s = Some (eval_options_to_json d x))
  /\ (forall x, proof_jwt_from_json d s = Some x ->
     passed_on (proof_jwt_from_json d) (proof_jwt_to_json d) (S n) s = Some (proof_jwt_to_json d x)).
Proof.
  exact (fun d n s Hd Hr => conj (settles _ _ C104_token_request n s) (conj (settles _ _ C104_token_response n s)
    (conj (settles _ _ C104_token_options n s) (conj (settles _ _ C104_nonce n s) (conj (settles _ _ C104_header n s)
    (conj (settles _ _ (fun s x => C104_claims d s x Hd Hr) n s)
    (conj (settles _ _ (fun s x => C104_evaluation_options d s x Hd Hr) n s)
    (settles _ _ (fun s x => C104_parsed_proof d s x Hd Hr) n s)))))))).
Qed.
Print Assumptions C104_passed_on_unchanged.

(** ... and in these only the numbers other than integers do, each on its own way. *)
Theorem C104_passed_on : forall r n s, rereads r ->
  (forall x, cfp_from_json s = Some x ->
     passed_on cfp_from_json cfp_to_json (S n) s = Some (cfp_to_json (credential_numbers (times n r) x))
     /\ cfp_from_json (cfp_to_json (credential_numbers (times n r) x)) = Some (credential_numbers (times (S n) r) x))
  /\ (forall x, offer_from_json s = Some x ->
     passed_on offer_from_json offer_to_json (S n) s = Some (offer_to_json (offer_numbers (times n r) x))
     /\ offer_from_json (offer_to_json (offer_numbers (times n r) x)) = Some (offer_numbers (times (S n) r) x))
  /\ (forall x, credential_request_from_json s = Some x ->
     passed_on credential_request_from_json credential_request_to_json (S n) s
       = Some (credential_request_to_json (request_numbers (times n r) x))
     /\ credential_request_from_json (credential_request_to_json (request_numbers (times n r) x))
       = Some (request_numbers (times (S n) r) x))
  /\ (forall x, credential_success_from_json s = Some x ->
     passed_on credential_success_from_json credential_success_to_json (S n) s
       = Some (credential_success_to_json (response_numbers (times n r) x))
     /\ credential_success_from_json (credential_success_to_json (response_numbers (times n r) x))
       = Some (response_numbers (times (S n) r) x))
  /\ (forall x, metadata_from_json s = Some x ->
     passed_on metadata_from_json metadata_to_json (S n) s
       = Some (metadata_to_json (metadata_numbers (times n r) x))
     /\ metadata_from_json (metadata_to_json (metadata_numbers (times n r) x))
       = Some (metadata_numbers (times (S n) r) x)).
Proof.
  exact (fun r n s Hr =>
    conj (fun x => many_times _ _ _ C104_credential_numbers credential_twice credential_same r n s x Hr)
    (conj (fun x => many_times _ _ _ C104_offer_numbers offer_twice offer_same r n s x Hr)
    (conj (fun x => many_times _ _ _ C104_request_numbers request_twice request_same r n s x Hr)
    (conj (fun x => many_times _ _ _ C104_response_numbers response_twice response_same r n s x Hr)
    (fun x => many_times _ _ _ C104_metadata_numbers metadata_twice metadata_same r n s x Hr))))).
Qed.
Print Assumptions C104_passed_on.

Theorem C104_dates : forall d, dates_in_range (with_chrono d).
Proof. exact chrono_dates. Qed.
Print Assumptions C104_dates.

(** Without that condition it does not hold, not even in the long run: this number
    alternates between two texts. *)
Definition C104_claim : Prop := forall s x, metadata_from_json s = Some x ->
  metadata_from_json (metadata_to_json x) = Some x.

(** Metadata relayed [n] times. *)
Definition relayed (s : str) : option str := option_map metadata_to_json (metadata_from_json s).
Fixpoint hops (n : nat) (s : str) : option str :=
  match n with
  | O => Some s
  | S n => match relayed s with Some t => hops n t | None => None end
  end.

Lemma rl_up : relayed (nu_metadata "4.6428839496425715e91") = Some (nu_metadata "4.642883949642571e91").
Proof. vm_compute. reflexivity. Qed.
Lemma rl_down : relayed (nu_metadata "4.642883949642571e91") = Some (nu_metadata "4.6428839496425715e91").
Proof. vm_compute. reflexivity. Qed.
Lemma rl_apart : nu_metadata "4.6428839496425715e91" <> nu_metadata "4.642883949642571e91".
Proof. vm_compute. discriminate. Qed.

(** But it is never refused on the way. *)
Theorem C104_always_readable : forall s x n, metadata_from_json s = Some x -> exists t, hops n s = Some t.
Proof.
  intros s x n. revert s x. induction n as [|n IH]; intros s x H; [now exists s|]. cbn [hops]. unfold relayed at 1.
  rewrite H. cbn [option_map]. exact (IH _ _ (C104_metadata_numbers reread s x reread_rereads H)).
Qed.
Print Assumptions C104_always_readable.

Theorem C104_refuted : ~ C104_claim.
Proof. exact (alternating_refutes _ _ _ _ rl_apart rl_up rl_down). Qed.
Print Assumptions C104_refuted.

Theorem C104_never_settles : exists s0, forall n, exists s t,
  hops n s0 = Some s /\ relayed s = Some t /\ s <> t.
Proof.
  exists (nu_metadata "4.6428839496425715e91"). pose proof rl_up as U. pose proof rl_down as D. pose proof rl_apart as A.
  revert U D A. generalize (nu_metadata "4.6428839496425715e91") (nu_metadata "4.642883949642571e91").
  intros a b U D A n. revert a b U D A. induction n as [|n IH]; intros a b U D A.
  - exists a, b. auto.
  - destruct (IH b a D U (not_eq_sym A)) as (s & t & H). exists s, t. cbn [hops]. now rewrite U.
Qed.
Print Assumptions C104_never_settles.

(** * Examples *)
Example C104_passed_on_case : rereads reread
  /\ (exists x, metadata_from_json (nu_metadata "4.6428839496425715e91") = Some x)
  /\ passed_on metadata_from_json metadata_to_json 3 (nu_metadata "4.6428839496425715e91")
     = Some (nu_metadata "4.642883949642571e91").
Proof.
  destruct (passed_step metadata_from_json metadata_to_json 2 _ _ rl_up) as [A X].
  destruct (passed_step metadata_from_json metadata_to_json 1 _ _ rl_down) as [B _].
  destruct (passed_step metadata_from_json metadata_to_json 0 _ _ rl_up) as [C _].
  split; [exact reread_rereads|]. split; [exact X|]. rewrite A, B, C. reflexivity.
Qed.
Example C104_token_case :
  token_success_from_json (lit "{ ""x"": [1.0], ""token_type"": {""Bearer"": null}, ""interval"": 5, ""access_token"": ""\u00e9"" }")
  = Some {| ts_access_token := [chr 195; chr 169]; ts_token_type := Bearer; ts_expires_in := None; ts_scope := None;
            ts_c_nonce := None; ts_c_nonce_expires_in := None; ts_authorization_pending := None; ts_interval := Some 5 |}.
Proof. vm_compute. reflexivity. Qed.

Lemma rl_limit : float_kept (lit "0.25").
Proof. apply becomes_computed; vm_compute; reflexivity. Qed.

Definition rl_metadata : issuer_metadata :=
  {| im_credential_issuer := lit "https://i"; im_authorization_server := None; im_credential_endpoint := lit "https://i/c";
     im_batch_credential_endpoint := None; im_credentials_supported := [];
     im_additional_fields := Some [(lit "limit", JFloat (lit "0.25"))] |}.
Example C104_metadata_case :
  metadata_from_json (nu_metadata "2.50e-1") = Some rl_metadata /\ metadata_kept rl_metadata
  /\ metadata_to_json rl_metadata = nu_metadata "0.25".
Proof.
  split; [vm_compute; reflexivity|]. split; [|vm_compute; reflexivity]. split.
  - intros s [].
  - intros h k v [= <-] [[= <- <-]|[]] s N. inversion N. exact rl_limit.
Qed.

Example C104_numbers_case :
  exists x, metadata_from_json (nu_metadata "4.6428839496425715e91") = Some x
  /\ metadata_numbers reread x <> x
  /\ metadata_to_json (metadata_numbers reread x) = nu_metadata "4.6428839496425715e91".
Proof.
  destruct (metadata_from_json (nu_metadata "4.6428839496425715e91")) as [x|] eqn:E; vm_compute in E; [|discriminate E].
  injection E as <-. eexists. split; [reflexivity|]. split; [vm_compute; discriminate|vm_compute; reflexivity].
Qed.

Definition rl_credential : cfp :=
  LdpVc [LDString (lit "https://c"); LDMap [(lit "v", JArr [JFloat (lit "0.25"); JNull])]] [lit "T"] None None.
Example C104_offer_case :
  offer_from_json (lit "{""grants"":{},""credential_issuer"":""https://i"",""credentials"":[""a"",[""ldp_vc"",[""https://c"",{""v"":[25E-2,null]}],[""T""],null,null]]}")
  = Some {| co_credential_issuer := lit "https://i"; co_credentials := [CredentialId (lit "a"); Credential rl_credential];
            co_grants := {| og_auth := None; og_pre := None |} |}
  /\ credential_kept rl_credential.
Proof.
  split; [vm_compute; reflexivity|]. intros v H. inversion H as [? k h ? ? ? ? I1 I2]; subst.
  destruct I1 as [I1|[I1|[]]]; [discriminate|]. injection I1 as <-. destruct I2 as [[= <- <-]|[]].
  intros s N. inversion N as [|? x l I N'|]; subst. destruct I as [<-|[<-|[]]]; inversion N'. exact rl_limit.
Qed.

Example C104_claims_case :
  option_map (claims_to_json example_deps) (claims_from_json example_deps
    (lit "{""iat"":""2023-06-01T02:00:00+02:00"",""aud"":""https://i"",""nonce"":""n"",""more"":1}"))
  = Some (lit "{""aud"":""https://i"",""sub"":null,""iat"":""2023-06-01T00:00:00Z"",""nonce"":""n""}")
  /\ dt_round_trips example_deps /\ dates_in_range example_deps.
Proof.
  split; [vm_compute; reflexivity|]. split; [exact example_dt_round_trips|exact (C104_dates example_deps)].
Qed.

(** * C105 *)
(** Values of any depth that can be read, with any numbers. *)
Theorem C105_credential : forall r x, rereads r -> cfp_with (value_any 124) x ->
  cfp_from_json (cfp_to_json x) = Some (credential_numbers r x).
Proof. exact (fun r x H => cfp_rewritten r H x). Qed.
Print Assumptions C105_credential.

Theorem C105_offer : forall r x, rereads r -> offer_with (value_any 122) x ->
  offer_from_json (offer_to_json x) = Some (offer_numbers r x).
Proof. exact (fun r x H => offer_rewritten r H x). Qed.
Print Assumptions C105_offer.

Theorem C105_request : forall r x, rereads r -> request_with (value_any 124) x ->
  credential_request_from_json (credential_request_to_json x) = Some (request_numbers r x).
Proof. exact (fun r x H => request_rewritten r H x). Qed.
Print Assumptions C105_request.

Theorem C105_response : forall r x, rereads r -> credential_success_with (value_any 122) x ->
  credential_success_from_json (credential_success_to_json x) = Some (response_numbers r x).
Proof. exact (fun r x H => success_rewritten r H x). Qed.
Print Assumptions C105_response.

Theorem C105_metadata : forall r x, rereads r -> metadata_with (value_any 122) (value_any 126) x ->
  (forall a k, im_additional_fields x = Some a -> In k (map fst a) -> ~ names_metadata k) ->
  metadata_from_json (metadata_to_json x)
  = Some (metadata_numbers r (with_additional x match im_additional_fields x with Some a => a | None => [] end)).
Proof. exact (fun r x H => metadata_rewritten r H x). Qed.
Print Assumptions C105_metadata.

(** The offer in a URL. *)
Theorem C105_created_offer : forall r m creds ep a p o url, rereads r ->
  create_offer m creds ep a p = Ok (o, url) -> rust_string (im_credential_issuer m) ->
  Forall (credential_or_id_with (value_any 122)) creds -> on_some preauth_flow_ok p ->
  exists payload text, url = offer_url_prefix ep ++ payload /\ percent_decoded payload text
    /\ offer_from_json text = Some (offer_numbers r o).
Proof. exact (fun r m creds ep a p o url H => created_rewritten r H m creds ep a p o url). Qed.
Print Assumptions C105_created_offer.

(** Every [f64] in memory is such a number, and its text can be read. *)
Theorem C105_every_f64 : forall neg x, (neg = [] \/ neg = ["-"%char]) -> finite_f64 x ->
  exists t, written_as neg x t /\ f64_text t /\ exists u, parse_json t = Some (JFloat u).
Proof. exact every_f64. Qed.
Print Assumptions C105_every_f64.

(** A credential with a number that does not survive. *)
Definition rl_odd : cfp :=
  LdpVc [LDMap [(lit "v", JArr [JFloat (lit "4.6428839496425715e91"); JNull])]] [lit "T"] None None.
Lemma rl_odd_text : f64_text (lit "4.6428839496425715e91").
Proof.
  apply becomes_f64 with (lit "4.642883949642571e91"). apply becomes_computed; vm_compute; reflexivity.
Qed.
Example C105_case : cfp_with (value_any 124) rl_odd /\ ~ credential_kept rl_odd
  /\ credential_numbers reread rl_odd
     = LdpVc [LDMap [(lit "v", JArr [JFloat (lit "4.642883949642571e91"); JNull])]] [lit "T"] None None.
Proof.
  split; [|split].
  - split; [constructor; [|constructor]|split; [repeat constructor; apply rust_string_ascii; reflexivity|split; discriminate]].
    + split; [repeat constructor; intros []|]. intros k v [[= <- <-]|[]]. split; [apply rust_string_ascii; reflexivity|].
      split; [|split; [|vm_compute; repeat constructor]].
      * constructor. intros x [<-|[<-|[]]]; constructor. exact rl_odd_text.
      * constructor. intros x [<-|[<-|[]]]; constructor.
  - intros K. specialize (K (JArr [JFloat (lit "4.6428839496425715e91"); JNull])).
    assert (float_kept (lit "4.6428839496425715e91")) as F.
    { apply K.
      - apply fi_context with (lit "v") [(lit "v", JArr [JFloat (lit "4.6428839496425715e91"); JNull])]; now left.
      - apply ni_element with (JFloat (lit "4.6428839496425715e91")); [now left|constructor]. }
    apply parse_json_becomes in F. vm_compute in F. discriminate F.
  - vm_compute. reflexivity.
Qed.
