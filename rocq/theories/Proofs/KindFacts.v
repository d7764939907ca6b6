(** Which documents can be taken for which (C113). *)
From Coq Require Import Lia.
From Verif Require Import Model.Prelude Model.Json Model.Types Model.Deps Model.Serde Model.SerdeOptions Model.Wire
  Model.Chrono Examples Spec SpecNumber SpecToken SpecJson SpecJwt SpecDocuments SpecErrors SpecResponse SpecWire SpecRelay SpecKinds
  Proofs.StrFacts Proofs.JsonFacts Proofs.SerdeFacts Proofs.DocumentFacts Proofs.ReaderFacts Proofs.GrammarFacts Proofs.WireFacts Proofs.RelayFacts Proofs.RenumberFacts
  Proofs.AnyNumbers Proofs.AnyErrors Proofs.ErrorCompact Proofs.TimeFacts Proofs.KeptFacts Proofs.ErrorFacts Proofs.CompactFacts Proofs.DepthFacts.

(* ---------------- the members that are written ---------------- *)

(** [s] spells an object whose members are named by [P]. *)
Definition spells_names (s : str) (P : str -> Prop) : Prop :=
  exists m, parse_json s = Some (JObj m) /\ forall k, In k (map fst m) -> P k.

Lemma names_spelled n m (P : str -> Prop) : jgood n (json_numbers half (JObj m)) -> (n <= 127)%nat ->
  (forall k, In k (map fst m) -> P k) -> spells_names (print (JObj m)) P.
Proof.
  intros G L H. exists (map (fun kv => (fst kv, json_numbers reread (snd kv))) m).
  split; [exact (read_again reread n (JObj m) reread_rereads G L)|]. now rewrite map_fst_numbers.
Qed.
Lemma names_good n m (P : str -> Prop) : jgood n (JObj m) -> (n <= 127)%nat ->
  (forall k, In k (map fst m) -> P k) -> spells_names (print (JObj m)) P.
Proof.
  intros [G D] L H. exists m. split; [|exact H]. apply parse_doc_print; [exact G|lia].
Qed.

Definition listed_in (names : list string) (k : str) : Prop := In k (map lit names).
Ltac names_in := let k := fresh "k" in intros k; unfold listed_in, field, field_opt; cbn [map fst snd app In]; intuition (subst; auto 30).

Definition request_names : list string :=
  ["format"; "types"; "@context"; "doctype"; "claims"; "credentialSubject"; "order"; "proof"]%string.
Definition error_names : list string := ["error"; "error_description"; "error_uri"]%string.
Definition header_names : list string := ["typ"; "alg"; "kid"; "jwk"; "x5c"]%string.

Lemma credential_member_names c k : In k (map fst (cfp_members c)) -> listed_in request_names k.
Proof.
  destruct c as [ty su od|ty su od|cx ty su od|dt cl od]; unfold cfp_members, field, field_opt, cfp_tag;
    try destruct su; try destruct cl; destruct od; unfold listed_in, request_names; cbn [map fst snd app In]; intuition (subst; auto 20).
Qed.

Lemma offer_spelled x : offer_with (value_any 122) x -> spells_names (offer_to_json x) (listed_in offer_names).
Proof.
  intros W. apply (names_spelled (max 7 (5 + 122))); [|lia|unfold offer_names; names_in].
  change (jgood (max 7 (5 + 122)) (json_numbers half (ser_offer x))). now apply any_offer.
Qed.
Lemma request_spelled x : request_with (value_any 124) x ->
  spells_names (credential_request_to_json x) (listed_in request_names).
Proof.
  intros W. rewrite request_to_json_eq. apply (names_spelled (max 5 (3 + 124))); [|lia|].
  - change (jgood (max 5 (3 + 124)) (json_numbers half (ser_request x))). now apply any_request.
  - intros k. rewrite map_app, in_app_iff. intros [H|[<-|[]]]; [exact (credential_member_names _ _ H)|].
    unfold listed_in, request_names. cbn [map In fst]. auto 20.
Qed.
Lemma response_spelled x : credential_success_with (value_any 122) x ->
  spells_names (credential_success_to_json x) (listed_in credential_success_names).
Proof.
  intros W. rewrite response_to_json_eq. apply (names_spelled (max 7 (5 + 122))); [|lia|unfold credential_success_names; names_in].
  change (jgood (max 7 (5 + 122)) (json_numbers half (ser_credential_success x))). now apply any_response.
Qed.
Lemma metadata_spelled x : metadata_with (value_any 122) (value_any 126) x -> on_some own_names (im_additional_fields x) ->
  spells_names (metadata_to_json x) (fun k => listed_in metadata_names k \/ ~ protocol_name k).
Proof.
  intros W O. rewrite metadata_to_json_eq. apply (names_spelled (max 7 (max (5 + 122) (1 + 126)))); [|lia|].
  - change (jgood (max 7 (max (5 + 122) (1 + 126))) (json_numbers half (ser_metadata x))). rewrite metadata_written.
    pose proof (metadata_with_numbers (value_any 122) (value_ok 122) (value_any 126) (value_ok 126) half
      (value_half 122) (value_half 126) x W) as (H1 & H2 & H3 & H4 & H5 & H6).
    apply good_metadata_parts; [|exact H5|exact H6].
    repeat (split; [assumption|]). split.
    + eapply Forall_impl; [|exact H5]. intros s0. apply supported_ok_mono. lia.
    + exact H6.
  - intros k. rewrite !map_app, !in_app_iff. unfold listed_in, metadata_names, field. cbn [map fst In].
    intros [[<-|[]]|[[<-|[]]|[[<-|[]]|[[<-|[]]|[[<-|[]]|H]]]]]; try (left; auto 20; fail).
    right. destruct (im_additional_fields x) as [a|]; [|destruct H]. exact (O a eq_refl k H).
Qed.
Lemma token_request_spelled x : token_request_ok x -> spells_names (token_request_to_json x) (listed_in ["grant_type"%string]).
Proof. intros W. apply (names_good 2); [exact (good_token_request x W)|lia|names_in]. Qed.
Lemma token_success_spelled x : token_success_ok x -> spells_names (token_success_to_json x) (listed_in token_success_names).
Proof. intros W. apply (names_good 1); [exact (good_token_success x W)|lia|unfold token_success_names; names_in]. Qed.
Lemma header_spelled x : header_ok x -> spells_names (header_to_json x) (listed_in header_names).
Proof.
  intros W. apply (names_good 1); [exact (good_header x W)|lia|].
  destruct x as [typ alg [[s|s|s]|]]; unfold header_names; cbn [h_additional h_typ h_alg additional_members]; names_in.
Qed.
Lemma claims_spelled d x : dt_round_trips d -> body_ok x -> body_instants_ok x ->
  spells_names (claims_to_json d x) (listed_in claim_names).
Proof.
  intros D W I. apply (names_good 1); [exact (good_body d x D I W)|lia|].
  destruct x as [[iss|] aud [sub|] iat nonce [nbf|] [exp|]]; unfold claim_names; cbn [b_iss b_aud b_sub b_iat b_nonce b_nbf b_exp]; names_in.
Qed.

(** Error responses. *)
Lemma error_spelled {E} d (code : E -> json) name (x : error_response E) s :
  code (resp_error x) = JStr name -> rust_string name ->
  on_some rust_string (resp_description x) -> on_some rust_string (resp_uri x) ->
  on_some (value_any 127) (resp_details x) -> (forall m, resp_details x = Some (JObj m) -> own_names m) ->
  option_map print (ser_error_response d code x) = Some s ->
  spells_names s (fun k => listed_in error_names k \/ ~ protocol_name k).
Proof.
  intros C N D U V O W.
  assert (exists m, mergeable (flatten_unit_ok d) (resp_details x) m /\ own_names m
            /\ (depth (JObj m) <= 127)%nat) as (m & M & Om & Dm).
  { unfold ser_error_response in W. destruct (resp_details x) as [[| | | | | |m]|] eqn:R; try discriminate W.
    - destruct (flatten_unit_ok d); [|discriminate W]. exists []. split; [now constructor|]. split; [intros k []|cbn; lia].
    - exists m. split; [constructor|]. split; [exact (O m eq_refl)|]. exact (proj2 (proj2 (V _ eq_refl))).
    - exists []. split; [constructor|]. split; [intros k []|cbn; lia]. }
  pose proof (response_text d code name x m s C M W) as T. apply compact_iff in T. subst s.
  assert (json_any (JObj (response_members name (resp_description x) (resp_uri x) m))) as J.
  { apply (response_any name _ _ (resp_details x) m (flatten_unit_ok d)); auto. intros v E0. apply (V v E0). }
  apply (names_spelled (depth (JObj (response_members name (resp_description x) (resp_uri x) m)))); [now apply any_good| |].
  - unfold response_members. cbn [depth map list_max fold_right snd] in Dm |- *.
    destruct (resp_description x); destruct (resp_uri x); cbn [opt_text depth]; unfold list_max in *; cbn [fold_right] in *; lia.
  - intros k. unfold response_members. cbn [map fst In]. unfold listed_in, error_names. cbn [map In].
    intros [<-|[<-|[<-|H]]]; [left; auto..|]. right. exact (Om k H).
Qed.

(* ---------------- the members that are needed ---------------- *)

Lemma only_named m k v : only_member m k v -> In (lit k) (map fst m).
Proof. intros (H & _). exact (in_map fst m _ H). Qed.
Lemma required_named {A} m k (P : json -> A -> Prop) a : required_member m k P a -> In (lit k) (map fst m).
Proof. intros (v & H & _). exact (only_named m k v H). Qed.

Lemma kept_named sh m j : kept sh (JObj m) j -> exists m', j = JObj m' /\ map fst m' = map fst m.
Proof.
  intros K. inversion K as [|sh' l l' H|sh' n n' H]; subst.
  - exists m. now split.
  - exists n'. split; [reflexivity|]. clear K. induction H as [|sh' k v v' n n' _ _ IH]; [reflexivity|]. cbn [map fst]. now f_equal.
Qed.

Lemma shaped_named sh s m v : parse_json s = Some (JObj m) -> shaped_text sh s v -> exists m', v = JObj m' /\ map fst m' = map fst m.
Proof.
  intros E T. destruct (parse_doc_kept sh s (JObj m) E) as (j & D & K). apply parse_doc_iff in T.
  rewrite T in D. apply some_inj in D. subst j. exact (kept_named sh m v K).
Qed.

(** [s] spells the object [m]. *)
Section Needed.
Context (s : str) (m : list (str * json)) (Hs : parse_json s = Some (JObj m)).

Ltac shaped T m' E := destruct (shaped_named _ s m _ Hs T) as (m' & -> & E).

Lemma offer_needs x : offer_from_json s = Some x -> In (lit "credentials") (map fst m).
Proof.
  intros H. apply offer_reading in H as (v & T & V). shaped T m' E. destruct V as (m2 & M & _ & R & _).
  inversion M; subst. rewrite <- E. exact (required_named _ _ _ _ R).
Qed.
Lemma metadata_needs x : metadata_from_json s = Some x -> In (lit "credential_endpoint") (map fst m).
Proof.
  intros H. apply metadata_reading in H as (v & T & V). shaped T m' E. destruct V as (m2 & [= <-] & _ & _ & R & _).
  rewrite <- E. exact (required_named _ _ _ _ R).
Qed.
Lemma request_needs x : credential_request_from_json s = Some x ->
  In (lit "types") (map fst m) \/ In (lit "doctype") (map fst m).
Proof.
  intros H. apply credential_request_reading in H as (v & T & V). shaped T m' E. destruct V as (m2 & [= <-] & C & _).
  rewrite <- E. destruct C as [ty su od _ R|ty su od _ R|cx ty su od _ _ R|dt cl od _ R];
    [left|left|left|right]; exact (required_named _ _ _ _ R).
Qed.
Lemma response_needs x : credential_success_from_json s = Some x -> In (lit "format") (map fst m).
Proof.
  intros H. apply credential_success_reading in H as (v & T & V). shaped T m' E. destruct V as (m2 & M & R & _).
  inversion M; subst. rewrite <- E. exact (required_named _ _ _ _ R).
Qed.
Lemma token_request_needs x : token_request_from_json s = Some x -> In (lit "grant_type") (map fst m).
Proof.
  intros H. apply token_request_reading in H as (v & T & V). shaped T m' E. destruct V as (m2 & M & R).
  inversion M; subst. rewrite <- E. exact (required_named _ _ _ _ R).
Qed.
Lemma token_success_needs x : token_success_from_json s = Some x -> In (lit "access_token") (map fst m).
Proof.
  intros H. apply token_success_reading in H as (v & T & V). shaped T m' E. destruct V as (m2 & M & R & _).
  inversion M; subst. rewrite <- E. exact (required_named _ _ _ _ R).
Qed.
Lemma header_needs x : header_from_json s = Some x -> In (lit "typ") (map fst m).
Proof.
  intros H. apply header_reading in H as (v & T & V). shaped T m' E. destruct V as (m2 & [= <-] & R & _).
  rewrite <- E. exact (only_named _ _ _ R).
Qed.
Lemma claims_needs d x : claims_from_json d s = Some x -> In (lit "aud") (map fst m).
Proof.
  intros H. apply claims_reading in H as (v & T & V). shaped T m' E. destruct V as (m2 & M & _ & R & _).
  inversion M; subst. rewrite <- E. exact (only_named _ _ _ R).
Qed.
End Needed.

(* ---------------- kinds ---------------- *)

Definition member_names (k : kind) : list string :=
  match k with
  | KOffer => offer_names
  | KMetadata => metadata_names
  | KRequest => request_names
  | KResponse => credential_success_names
  | KCredentialError | KTokenError => error_names
  | KTokenRequest => ["grant_type"%string]
  | KTokenResponse => token_success_names
  | KProofHeader => header_names
  | KProofClaims => claim_names
  end.
Definition needed_names (k : kind) : list string :=
  match k with
  | KOffer => ["credentials"]
  | KMetadata => ["credential_endpoint"]
  | KRequest => ["types"; "doctype"]
  | KResponse => ["format"]
  | KCredentialError | KTokenError => []
  | KTokenRequest => ["grant_type"]
  | KTokenResponse => ["access_token"]
  | KProofHeader => ["typ"]
  | KProofClaims => ["aud"]
  end%string.

Lemma kind_written d k s : dt_round_trips d -> written_as d k s ->
  spells_names s (fun n => listed_in (member_names k) n \/ ~ protocol_name n).
Proof.
  intros D W.
  assert (forall names, spells_names s (listed_in names) -> spells_names s (fun n => listed_in names n \/ ~ protocol_name n)) as L.
  { intros names (m & E & H). exists m. split; [exact E|]. intros n I. left. now apply H. }
  inversion W; subst; cbn [member_names].
  - now apply L, offer_spelled.
  - now apply metadata_spelled.
  - now apply L, request_spelled.
  - now apply L, response_spelled.
  - apply (error_spelled d ser_issuer_code (issuer_code_variant (resp_error x)) x); auto. apply issuer_variant_string.
  - now apply L, token_request_spelled.
  - now apply L, token_success_spelled.
  - apply (error_spelled d ser_token_code (token_code_variant (resp_error x)) x); auto. apply token_variant_string.
  - now apply L, header_spelled.
  - now apply L, claims_spelled.
Qed.

Lemma kind_read d k s m : parse_json s = Some (JObj m) -> read_as d s k ->
  exists n, In n (needed_names k) /\ In (lit n) (map fst m).
Proof.
  intros E R. inversion R as [x H|x H|x H|x H|x H|x H|x H|x H]; subst; cbn [needed_names].
  - eexists. split; [now left|exact (offer_needs s m E x H)].
  - eexists. split; [now left|exact (metadata_needs s m E x H)].
  - destruct (request_needs s m E x H) as [I|I]; eexists; (split; [|exact I]); cbn; auto.
  - eexists. split; [now left|exact (response_needs s m E x H)].
  - eexists. split; [now left|exact (token_request_needs s m E x H)].
  - eexists. split; [now left|exact (token_success_needs s m E x H)].
  - eexists. split; [now left|exact (header_needs s m E x H)].
  - eexists. split; [now left|exact (claims_needs s m E d x H)].
Qed.

Definition apart (k k' : kind) : bool :=
  forallb (fun n => negb (mem_str (lit n) (map lit (member_names k)))) (needed_names k').

Lemma apart_all k k' : k' <> k -> ~ (k = KRequest /\ k' = KResponse) -> apart k k' = true.
Proof.
  intros N R. destruct k, k'; try congruence; try (vm_compute; reflexivity). exfalso. auto.
Qed.
Lemma needed_protocol k n : In n (needed_names k) -> protocol_name (lit n).
Proof.
  intros I. exists n. split; [|reflexivity].
  assert (Forall (fun n => In n protocol_names) (needed_names k)) as F.
  { destruct k; cbn [needed_names]; repeat apply Forall_cons; try apply Forall_nil; unfold protocol_names; cbn [In]; auto 50. }
  rewrite Forall_forall in F. now apply F.
Qed.

Lemma kind_dec (k k' : kind) : {k = k'} + {k <> k'}.
Proof. decide equality. Qed.

Theorem kinds_apart d k k' s : dt_round_trips d -> written_as d k s -> read_as d s k' ->
  k' = k \/ k = KRequest /\ k' = KResponse.
Proof.
  intros D W R. destruct (kind_dec k' k) as [->|N]; [now left|]. right.
  destruct (kind_written d k s D W) as (m & E & H). destruct (kind_read d k' s m E R) as (n & I & J).
  assert (k = KRequest /\ k' = KResponse \/ apart k k' = true) as [Q|Q].
  { destruct (kind_dec k KRequest) as [Hk|Hk]; destruct (kind_dec k' KResponse) as [Hk'|Hk']; auto;
      right; apply apart_all; tauto. }
  - exact Q.
  - exfalso. unfold apart in Q. rewrite forallb_forall in Q. specialize (Q n I). apply negb_true_iff, mem_str_not_In in Q.
    destruct (H _ J) as [L|L]; [exact (Q L)|]. apply L. exact (needed_protocol k' n I).
Qed.

(** A request as a response. *)
Definition bare_response (c : cfp) : credential_success :=
  {| cs_format := format_name c; cs_credential := None; cs_acceptance_token := None; cs_c_nonce := None;
     cs_c_nonce_expires_in := None |}.
Lemma request_as_response x : request_with (value_any 124) x ->
  credential_success_from_json (credential_request_to_json x) = Some (bare_response (cr_format x)).
Proof.
  intros W.
  assert (parse_json (print (ser_request x)) = Some (json_numbers reread (ser_request x))) as R.
  { apply (read_again reread (max 5 (3 + 124))); [exact reread_rereads|now apply any_request|lia]. }
  rewrite response_from_json_eq, request_to_json_eq, (respects_parsed _ _ _ _ respects_credential_success R).
  rewrite RenumberFacts.request_written.
  assert (bare_response (cr_format x) = bare_response (cr_format (request_numbers reread x))) as ->
    by (destruct x as [[]]; reflexivity).
  generalize (request_numbers reread x). intros [c p].
  destruct c as [ty su od|ty su od|cx ty su od|dt cl od]; try destruct su; try destruct cl; destruct od; vm_compute; reflexivity.
Qed.
Lemma request_response_refuted :
  (forall d k k' s, dt_round_trips d -> written_as d k s -> read_as d s k' -> k' = k) ->
  forall x, ~ request_with (value_any 124) x.
Proof.
  intros H x W.
  assert (KResponse = KRequest) as E; [|discriminate E].
  apply (H (with_chrono example_deps) KRequest KResponse (credential_request_to_json x)).
  - apply chrono_round_trips.
  - now constructor.
  - econstructor. exact (request_as_response x W).
Qed.
Lemma request_reads_as_response x f : request_with (value_any 124) x -> format_of (cr_format x) f ->
  credential_success_from_json (credential_request_to_json x)
  = Some {| cs_format := lit f; cs_credential := None; cs_acceptance_token := None; cs_c_nonce := None;
            cs_c_nonce_expires_in := None |}.
Proof.
  intros W F. rewrite (request_as_response x W). unfold bare_response.
  assert (format_name (cr_format x) = lit f) as ->; [|reflexivity]. destruct F; reflexivity.
Qed.
