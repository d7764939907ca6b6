(** Lemmas about error information, return objects and error responses. *)
From Coq Require Import Lia ZifyBool ZifyN ZifyNat Permutation Sorted.
From Verif Require Import Model.Prelude Model.Json Model.Types Model.Deps Model.Serde
  Model.Errors Model.AccessToken Model.CredentialIssuer Model.Wire Spec SpecToken SpecJson SpecErrors
  Proofs.StrFacts Proofs.JsonFacts Proofs.AnyDepth Proofs.SerdeFacts Proofs.TokenFacts.

(* ---------------- issuer error codes ---------------- *)

Lemma vci_code_iff c s : vci_code c s <-> lit s = issuer_code_to_str c.
Proof.
  split.
  - intros H. destruct H; reflexivity.
  - destruct c; intros H; apply lit_string in H; subst s; constructor.
Qed.

Lemma issuer_code_try_from_ok s c : issuer_code_try_from s = Ok c <-> s = issuer_code_to_str c.
Proof.
  unfold issuer_code_try_from. split.
  - repeat match goal with
    | |- context [str_eqb s ?l] => destruct (str_eqb s l) eqn:?E
    end; intros H; try discriminate H; injection H as <-;
    match goal with E : str_eqb _ _ = true |- _ => apply str_eqb_eq in E; exact E end.
  - intros ->. destruct c; reflexivity.
Qed.

Lemma issuer_code_try_from_err s : (forall c, s <> issuer_code_to_str c) ->
  issuer_code_try_from s = Err (VAny (lit "Invalid error code: " ++ s)).
Proof.
  intros H. destruct (issuer_code_try_from s) as [c|e|] eqn:E.
  - apply issuer_code_try_from_ok in E. now apply H in E.
  - revert E. unfold issuer_code_try_from.
    repeat match goal with
    | |- context [str_eqb s ?l] => destruct (str_eqb s l); [discriminate|]
    end. intros E. symmetry. exact E.
  - revert E. unfold issuer_code_try_from.
    repeat match goal with
    | |- context [str_eqb s ?l] => destruct (str_eqb s l); [discriminate|]
    end. discriminate.
Qed.

Lemma issuer_codes_bijection :
  (forall c name, vci_code c name -> issuer_code_to_str c = lit name)
  /\ (forall c, issuer_code_try_from (issuer_code_to_str c) = Ok c)
  /\ (forall a b, issuer_code_to_str a = issuer_code_to_str b -> a = b)
  /\ (forall s, (forall c name, vci_code c name -> s <> lit name) ->
      issuer_code_try_from s = Err (VAny (lit "Invalid error code: " ++ s))).
Proof.
  split; [intros c name H; symmetry; now apply vci_code_iff|].
  split; [intros c; now apply issuer_code_try_from_ok|].
  split.
  { intros a b H. assert (issuer_code_try_from (issuer_code_to_str a) = Ok b) as E
      by (now apply issuer_code_try_from_ok). destruct a, b; (reflexivity || discriminate E). }
  intros s H. apply issuer_code_try_from_err. intros c E.
  destruct c; refine (H _ _ _ E); constructor.
Qed.

(* ---------------- error responses ---------------- *)

Lemma ser_opt_text o : ser_opt JStr o = opt_text o.
Proof. destruct o; reflexivity. Qed.

Lemma good_details n m : value_ok (S n) (JObj m) -> Forall (mgood n) m.
Proof.
  intros (J & _ & D). inversion J as [| | | | | |m' Hk Hv]; subst. rewrite Forall_forall. intros [k v] Hin.
  split; [eapply Hk; eassumption|]. split; [eapply Hv; eassumption|].
  cbn [depth] in D. apply le_S_n in D.
  etransitivity; [|exact D]. apply list_max_le_In. cbn [snd]. apply (in_map (fun kv => depth (snd kv)) m (k, v) Hin).
Qed.

Lemma error_response_written {T} d (code : T -> json) (name : T -> str) r m s :
  (forall c, code c = JStr (name c)) -> (forall c, rust_string (name c)) ->
  on_some rust_string (resp_description r) -> on_some rust_string (resp_uri r) ->
  details_ok (resp_details r) ->
  mergeable (flatten_unit_ok d) (resp_details r) m ->
  option_map print (ser_error_response d code r) = Some s ->
  parse_json s = Some (JObj (response_members (name (resp_error r)) (resp_description r) (resp_uri r) m)).
Proof.
  intros Hc Hn Hd Hu Ho M.
  assert (ser_error_response d code r
          = Some (JObj (response_members (name (resp_error r)) (resp_description r) (resp_uri r) m))) as ->.
  { unfold ser_error_response, response_members. rewrite Hc, !ser_opt_text. inversion M as [|m'|F]; subst.
    - reflexivity.
    - reflexivity.
    - rewrite F. reflexivity. }
  cbn [option_map]. intros W. apply some_inj in W. subst s. apply (read_written 127); [|lia].
  apply jgood_obj. unfold response_members. repeat apply Forall_cons.
  - split; [now apply rust_string_ascii|]. apply jgood_str, Hn.
  - split; [now apply rust_string_ascii|]. cbn [snd]. rewrite <- ser_opt_text. now apply good_opt_str.
  - split; [now apply rust_string_ascii|]. cbn [snd]. rewrite <- ser_opt_text. now apply good_opt_str.
  - inversion M as [E|m' E|F E].
    + constructor.
    + subst m'. apply good_details. apply Ho. now symmetry.
    + constructor.
Qed.

Lemma error_response_serializes {T} d (code : T -> json) r :
  (exists s, option_map print (ser_error_response d code r) = Some s)
  <-> exists m, mergeable (flatten_unit_ok d) (resp_details r) m.
Proof.
  unfold ser_error_response. split.
  - destruct (resp_details r) as [[| | | | | |m]|]; cbn.
    1: destruct (flatten_unit_ok d) eqn:F; [exists []; now constructor|].
    all: intros (w & H); try discriminate H.
    + exists m. constructor.
    + exists []. constructor.
  - intros (m & M). inversion M as [E|m' E|F E]; cbn; [eauto|eauto|]. rewrite F. cbn. eauto.
Qed.

Lemma count_occ_keys (m : list (str * json)) k : ~ In k (map fst m) <->
  count_occ (list_eq_dec ascii_dec) (map fst m) k = O.
Proof. apply count_occ_not_In. Qed.

Lemma standard_member_unique error description uri m k :
  In k ["error"; "error_description"; "error_uri"]%string ->
  (exists v, only_member (response_members error description uri m) k v)
  <-> ~ In (lit k) (map fst m).
Proof.
  intros Hk. unfold only_member, response_members. cbn [map fst].
  assert (forall a b (l : list str), a <> b ->
            count_occ (list_eq_dec ascii_dec) (a :: l) b = count_occ (list_eq_dec ascii_dec) l b) as Cn
    by (intros; now apply count_occ_cons_neq).
  assert (forall a (l : list str),
            count_occ (list_eq_dec ascii_dec) (a :: l) a = S (count_occ (list_eq_dec ascii_dec) l a)) as Cs
    by (intros; now apply count_occ_cons_eq).
  assert (count_occ (list_eq_dec ascii_dec)
            (lit "error" :: lit "error_description" :: lit "error_uri" :: map fst m) (lit k)
          = S (count_occ (list_eq_dec ascii_dec) (map fst m) (lit k))) as E.
  { destruct Hk as [<-|[<-|[<-|[]]]].
    - rewrite Cs, Cn, Cn by discriminate. reflexivity.
    - rewrite Cn, Cs, Cn by discriminate. reflexivity.
    - rewrite Cn, Cn, Cs by discriminate. reflexivity. }
  rewrite E, count_occ_keys. split.
  - intros (v & _ & H). lia.
  - intros H. rewrite H. destruct Hk as [<-|[<-|[<-|[]]]]; eexists; (split; [|reflexivity]).
    + left. reflexivity.
    + right. left. reflexivity.
    + right. right. left. reflexivity.
Qed.

Lemma token_rust_name_iff c s : token_rust_name c s <-> lit s = token_code_variant c.
Proof.
  split.
  - intros H. destruct H; reflexivity.
  - destruct c; intros H; apply lit_string in H; subst s; constructor.
Qed.

Lemma issuer_rust_name_iff c s : issuer_rust_name c s <-> lit s = issuer_code_variant c.
Proof.
  split.
  - intros H. destruct H; reflexivity.
  - destruct c; intros H; apply lit_string in H; subst s; constructor.
Qed.

Lemma token_variant_string c : rust_string (token_code_variant c).
Proof. destruct c; now apply rust_string_ascii. Qed.
Lemma issuer_variant_string c : rust_string (issuer_code_variant c).
Proof. destruct c; now apply rust_string_ascii. Qed.

(** The written form of both kinds of error response. *)
Lemma token_error_response_written d c description uri details r m s name :
  create_access_token_error_response c description uri details = Ok r ->
  token_rust_name c name ->
  on_some rust_string description -> on_some rust_string uri -> details_ok details ->
  mergeable (flatten_unit_ok d) details m ->
  token_error_response_to_json d r = Some s ->
  parse_json s = Some (JObj (response_members (lit name) description uri m))
  /\ exists e, token_code_try_from (lit name) = Err e.
Proof.
  intros C N D U O M W. injection C as <-. apply token_rust_name_iff in N. rewrite N. split.
  - apply (error_response_written d ser_token_code token_code_variant
             {| resp_error := c; resp_description := description; resp_uri := uri; resp_details := details |}); auto.
    apply token_variant_string.
  - destruct c; eexists; reflexivity.
Qed.

Lemma issuer_error_response_written d c description uri details r m s name :
  create_credential_error_response c description uri details = Ok r ->
  issuer_rust_name c name ->
  on_some rust_string description -> on_some rust_string uri -> details_ok details ->
  mergeable (flatten_unit_ok d) details m ->
  issuer_error_response_to_json d r = Some s ->
  parse_json s = Some (JObj (response_members (lit name) description uri m))
  /\ exists e, issuer_code_try_from (lit name) = Err e.
Proof.
  intros C N D U O M W. injection C as <-. apply issuer_rust_name_iff in N. rewrite N. split.
  - apply (error_response_written d ser_issuer_code issuer_code_variant
             {| resp_error := c; resp_description := description; resp_uri := uri; resp_details := details |}); auto.
    apply issuer_variant_string.
  - destruct c; eexists; reflexivity.
Qed.

Lemma create_token_error_total c description uri details :
  exists r, create_access_token_error_response c description uri details = Ok r
    /\ resp_error r = c /\ resp_description r = description /\ resp_uri r = uri /\ resp_details r = details.
Proof. eexists. split; [reflexivity|]. auto. Qed.

Lemma create_issuer_error_total c description uri details :
  exists r, create_credential_error_response c description uri details = Ok r
    /\ resp_error r = c /\ resp_description r = description /\ resp_uri r = uri /\ resp_details r = details.
Proof. eexists. split; [reflexivity|]. auto. Qed.

(* ---------------- codes and names ---------------- *)

Definition any_code (e : any_error) : N :=
  match e with
  | AValidation e => validation_error_code e
  | AJwt e => jwt_error_code e
  | AIssuer e => issuer_error_code_num e
  | AToken e => token_error_code_num e
  end.
Definition any_name (e : any_error) : str :=
  match e with
  | AValidation e => validation_error_name e
  | AJwt e => jwt_error_name e
  | AIssuer e => issuer_error_name e
  | AToken e => token_error_name e
  end.
Definition any_display (d : deps) (e : any_error) : str :=
  match e with
  | AValidation e => validation_error_display e
  | AJwt e => jwt_error_display d e
  | AIssuer e => issuer_error_display d e
  | AToken e => token_error_display e
  end.

Definition any_information (d : deps) (e : any_error) : error_information :=
  match e with
  | AValidation e => validation_error_information e
  | AJwt e => jwt_error_information d e
  | AIssuer e => issuer_error_information d e
  | AToken e => token_error_information e
  end.

Lemma information_code d e : ei_code (any_information d e) = any_code e.
Proof. destruct e; reflexivity. Qed.
Lemma information_name d e : ei_name (any_information d e) = any_name e.
Proof. destruct e; reflexivity. Qed.

Lemma codes_identify d a b :
  ei_code (any_information d a) = ei_code (any_information d b) <-> same_variant a b.
Proof.
  rewrite !information_code. split.
  - destruct a as [[]|[]|[]|[]], b as [[]|[]|[]|[]]; cbn; intros H; (exact I || discriminate H).
  - destruct a as [[]|[]|[]|[]], b as [[]|[]|[]|[]]; cbn; intros H; (reflexivity || destruct H).
Qed.

Lemma names_identify d a b : enum_of a = enum_of b ->
  (ei_name (any_information d a) = ei_name (any_information d b) <-> same_variant a b).
Proof.
  rewrite !information_name. intros E. split.
  - destruct a as [[]|[]|[]|[]], b as [[]|[]|[]|[]]; cbn; intros H; try exact I;
      try (apply lit_string in H; discriminate H); discriminate E.
  - destruct a as [[]|[]|[]|[]], b as [[]|[]|[]|[]]; cbn; intros H; (reflexivity || destruct H).
Qed.

Lemma codes_in_range d a : in_enum_range (enum_of a) (ei_code (any_information d a)).
Proof. rewrite information_code. destruct a as [[]|[]|[]|[]]; cbn; lia. Qed.

Lemma information_in_table d a : exists name, ei_name (any_information d a) = lit name
  /\ In (enum_of a, ei_code (any_information d a), name) error_table.
Proof.
  rewrite information_code, information_name.
  destruct a as [[]|[]|[]|[]]; cbn [any_code any_name enum_of validation_error_code jwt_error_code
    issuer_error_code_num token_error_code_num validation_error_name jwt_error_name issuer_error_name
    token_error_name]; (eexists; split; [reflexivity|]); unfold error_table;
    repeat first [apply in_eq | apply in_cons].
Qed.

Lemma table_in_information d en n name : In (en, n, name) error_table ->
  exists a, enum_of a = en /\ ei_code (any_information d a) = n /\ ei_name (any_information d a) = lit name.
Proof.
  intros H.
  set (all := [AValidation (VAny []);
    AIssuer (IValidationError (VAny [])); AIssuer (IJwtError JNoKeyFoundInProof);
    AIssuer IAuthorizedFlowNotSupported; AIssuer (ICredentialIdNotInIssuerMetadata []);
    AIssuer (IInvalidCredentialOfferEncoding []);
    AIssuer (IInvalidRequestedCredential (MsoMdoc [] None None) []); AIssuer (IExpiredCNonce 0%Z None);
    AIssuer ICredentialAndAcceptanceTokenSupplied; AIssuer IAuthorizationServerMetadataNotSupported;
    AIssuer ICredentialOfferMustBeSupplied; AIssuer (IEvaluteCredentialRequestOptionsNotSupplied []);
    AIssuer (ICNonceIsExpired 0%Z 0%Z); AIssuer INoProofInCredentialRequest;
    AJwt (JValidationError (VAny [])); AJwt (JNotYetValid 0%Z 0%Z); AJwt (JNotValidAnymore 0%Z 0%Z);
    AJwt (JIssuerMismatch None None); AJwt JNoKeyFoundInProof; AJwt JNoDidDocumentProvidedForKidAsDid;
    AJwt (JUnableToTransformIntoDid [] []); AJwt (JUnableToResolveDidInDidDocument [] []);
    AJwt (JUnableToMapVerificationMethodToJwk []); AJwt (JUnableToTransformIntoJoseItem [] []);
    AJwt (JUnsupportedAlgorithm []); AJwt JEdDSAHasNoXCoordinate; AJwt (JESXXXHasNoXOrYCoordinate [] None None);
    AJwt (JSignatureNotInJwt []); AJwt (JUnsupportedKeyTypeInJwtHeader [] []);
    AJwt (JNonceMismatch None []); AJwt (JAudienceMismatch [] []);
    AToken (TValidationError (VAny [])); AToken (TInvalidGrantType [] []); AToken TAuthorizedFlowNotSupported;
    AToken TNoFlowSupportedInCredentialOffer; AToken (TInvalidPreAuthorizedCodeFlowValues true true);
    AToken (TInvalidAuthorizedAndPreAuthorizedCodeFlow TUserPinMismatch TUserPinMismatch);
    AToken (TOptionsAreRequiredForEvaluation []); AToken TUserPinMismatch; AToken TCredentialOfferMustBeSupplied]).
  assert (map (fun a => (enum_of a, any_code a, any_name a)) all
          = map (fun t => (fst t, lit (snd t))) error_table) as E by reflexivity.
  apply (in_map (fun t => (fst t, lit (snd t)))) in H. rewrite <- E in H. cbn [fst snd] in H.
  apply in_map_iff in H as (a & Ha & _). exists a. rewrite information_code, information_name.
  apply pair_equal_spec in Ha as [Ha H3]. apply pair_equal_spec in Ha as [H1 H2]. auto.
Qed.

(* ---------------- additional information ---------------- *)

Lemma bt_insert_perm k v m : ~ In k (map fst m) -> Permutation (bt_insert k v m) ((k, v) :: m).
Proof.
  induction m as [|[k' v'] m IH]; cbn [bt_insert map fst In]; intros H; [reflexivity|].
  destruct (str_eqb k k') eqn:E; [apply str_eqb_eq in E; subst; tauto|].
  destruct (str_ltb k k'); [reflexivity|]. rewrite IH by tauto. apply perm_swap.
Qed.

Lemma fold_bt_perm l : forall acc, NoDup (map fst (l ++ acc)) ->
  Permutation (fold_left (fun a kv => bt_insert (fst kv) (snd kv) a) l acc) (l ++ acc).
Proof.
  induction l as [|[k v] l IH]; intros acc N; cbn [fold_left app fst snd]; [reflexivity|].
  cbn [app map fst] in N. inversion N as [|? ? H1 H2]; subst.
  assert (~ In k (map fst acc)) as Hk by (intros H; apply H1; rewrite map_app; apply in_or_app; now right).
  rewrite IH.
  - rewrite (bt_insert_perm k v acc Hk). symmetry. apply Permutation_middle.
  - apply (Permutation_NoDup (l := map fst (l ++ (k, v) :: acc))).
    + apply Permutation_map, Permutation_app_head. symmetry. now apply bt_insert_perm.
    + rewrite <- Permutation_middle. cbn [map fst]. now constructor.
Qed.

Lemma additional_object (l : list (string * json)) :
  NoDup (map fst l) ->
  additional_for (Some (map (fun kv => (fst kv, to_value (snd kv))) l))
    (to_value (JObj (map (fun kv => (lit (fst kv), snd kv)) l))).
Proof.
  intros N. cbn [to_value additional_for].
  set (m0 := map (fun kv => (fst kv, to_value (snd kv))) (map (fun kv => (lit (fst kv), snd kv)) l)).
  assert (m0 = map (fun kv => (lit (fst kv), snd kv)) (map (fun kv : string * json => (fst kv, to_value (snd kv))) l)) as E0.
  { unfold m0. rewrite !map_map. reflexivity. }
  eexists. split; [reflexivity|]. split.
  - rewrite <- E0, fold_bt_perm.
    + now rewrite app_nil_r.
    + rewrite app_nil_r, E0, !map_map. cbn [fst].
      change (NoDup (map (fun x : string * json => lit (fst x)) l)).
      rewrite <- (map_map fst lit). apply FinFun.Injective_map_NoDup; [|exact N].
      intros a b H. now apply lit_string in H.
  - apply (proj1 (fold_bt_value m0 [] (SSorted_nil _) ltac:(intros ? ? []) ltac:(
      unfold m0; intros k v H; apply in_map_iff in H; destruct H as ([a b] & [= <- <-] & _); apply to_value_value))).
Qed.

Lemma to_value_opt_text o : to_value (opt_text o) = opt_text o.
Proof. destruct o; reflexivity. Qed.
Lemma to_value_opt_bytes o : to_value (opt_bytes o) = opt_bytes o.
Proof. destruct o; cbn [opt_bytes to_value]; [|reflexivity]. now rewrite map_map. Qed.
Lemma ser_opt_bytes o : ser_opt ser_bytes o = opt_bytes o.
Proof. destruct o; reflexivity. Qed.

Lemma additional_object' (l l' : list (string * json)) j :
  NoDup (map fst l) -> l' = map (fun kv => (fst kv, to_value (snd kv))) l ->
  j = JObj (map (fun kv => (lit (fst kv), snd kv)) l) ->
  additional_for (Some l') (to_value j).
Proof. intros N -> ->. now apply additional_object. Qed.

Ltac nodup := repeat constructor; cbn [In map fst]; intuition discriminate.

Lemma validation_additional e : additional_for (validation_fields e) (to_value (ser_validation_error e)).
Proof. destruct e as [m]. eapply (additional_object' [("validation_message"%string, JStr m)]); [nodup|reflexivity|reflexivity]. Qed.

Lemma jwt_additional d e : additional_for (jwt_fields d e) (to_value (ser_jwt_error d e)).
Proof.
  destruct e; cbn [jwt_fields ser_jwt_error]; try exact eq_refl; try apply validation_additional.
  all: rewrite ?ser_opt_text, ?ser_opt_bytes.
  all: match goal with |- additional_for (Some ?l) _ => apply (additional_object' l) end;
    [nodup | cbn [map fst snd]; rewrite ?to_value_opt_text, ?to_value_opt_bytes; reflexivity | reflexivity].
Qed.

Lemma issuer_additional d e :
  additional_for (issuer_fields d (fun c => to_value (ser_cfp c)) e) (to_value (ser_issuer_error d e)).
Proof.
  destruct e as [e|e| |id|m|c l|t e| | | |r|t t'|];
    cbn [issuer_fields ser_issuer_error]; try exact eq_refl;
    try apply validation_additional; try apply jwt_additional.
  3: apply (additional_object' [("requested_credential"%string, ser_cfp c);
        ("supported_formats"%string, ser_list ser_cfp l)]);
     [nodup | cbn [map fst snd ser_list to_value]; rewrite map_map; reflexivity | reflexivity].
  all: match goal with
       | |- additional_for (Some ?l) _ => apply (additional_object' l)
       end; [nodup | cbn [map fst snd]; try destruct e; reflexivity | try destruct e; reflexivity].
Qed.

Lemma token_additional_ok e : token_additional e (to_value (ser_token_error e)).
Proof.
  induction e; cbn [token_additional ser_token_error]; try exact eq_refl; try apply validation_additional.
  3: exists (to_value (ser_token_error e1)), (to_value (ser_token_error e2)); split; [assumption|split; [assumption|]];
     apply (additional_object' [("authorized_error"%string, ser_token_error e1);
        ("pre_authorized_error"%string, ser_token_error e2)]); [nodup|reflexivity|reflexivity].
  1: apply (additional_object' [("requested_grant_type"%string, JStr requested_grant_type);
        ("accepted_grant_type"%string, JArr (map JStr accepted_grant_type))]);
     [nodup | cbn [map fst snd to_value]; rewrite map_map; reflexivity | reflexivity].
  all: match goal with |- additional_for (Some ?l) _ => apply (additional_object' l) end;
    [nodup | reflexivity | reflexivity].
Qed.

(* ---------------- return objects ---------------- *)

Lemma written_levels n j : jgood n j -> levels_text n (print j) j.
Proof. intros [H1 H2]. now apply print_levels. Qed.

Lemma good_information n e : information_ok n e -> jgood (S n) (ser_error_information e).
Proof.
  intros (H1 & H2 & H3 & H4). unfold ser_error_information. apply jgood_obj. jfields.
  - apply jgood_N, u32_u64, H1.
  - now apply jgood_str.
  - now apply jgood_str.
  - apply good_value. now apply H4.
Qed.

(** What a finished return object says, given the result it was built from. *)
Lemma return_ok {T E} (info : E -> error_information) (t : T) :
  ro_info (to_return_object info (inl t)) = Some t
  /\ ro_error (to_return_object info (inl t)) = None
  /\ ro_warnings (to_return_object info (inl t)) = None.
Proof. repeat split. Qed.

Lemma return_err {T E} (info : E -> error_information) (e : E) :
  ro_info (to_return_object (T := T) info (inr e)) = None
  /\ ro_error (to_return_object (T := T) info (inr e)) = Some (info e)
  /\ ro_warnings (to_return_object (T := T) info (inr e)) = None.
Proof. repeat split. Qed.

Lemma return_ok_json {T E} (info : E -> error_information) (f : T -> json) t :
  json_ok (f t) ->
  levels_text (1 + depth (f t)) (return_object_to_json f (to_return_object info (inl t))) (JObj [(lit "info", f t)]).
Proof.
  intros J. unfold return_object_to_json. apply written_levels.
  unfold ser_return_object. cbn. apply jgood_obj. constructor; [|constructor]. split; [jlit|].
  split; [assumption|apply Nat.le_refl].
Qed.

Lemma return_err_json {T E} (info : E -> error_information) (f : T -> json) e n :
  information_ok n (info e) ->
  levels_text (2 + n) (return_object_to_json f (to_return_object (T := T) info (inr e)))
    (JObj [(lit "error", JObj (information_members (info e)))]).
Proof.
  intros H. unfold return_object_to_json.
  assert (ser_return_object f ser_error_information JStr (to_return_object (T := T) info (inr e))
          = JObj [(lit "error", JObj (information_members (info e)))]) as ->.
  { unfold ser_return_object, ser_error_information, information_members. cbn.
    destruct (ei_additional (info e)); reflexivity. }
  apply written_levels. apply (jgood_obj (S n)). constructor; [|constructor]. split; [jlit|]. cbn [snd].
  replace (JObj (information_members (info e))) with (ser_error_information (info e))
    by (unfold ser_error_information, information_members; destruct (ei_additional (info e)); reflexivity).
  now apply good_information.
Qed.

(* ---------------- warnings ---------------- *)

Lemma warnings_accumulate {T E W} (ws : list W) : forall r : return_object T E W,
  ro_info (fold_left add_warning ws r) = ro_info r
  /\ ro_error (fold_left add_warning ws r) = ro_error r
  /\ (ws = [] -> ro_warnings (fold_left add_warning ws r) = ro_warnings r)
  /\ (ws <> [] -> ro_warnings (fold_left add_warning ws r)
      = Some (match ro_warnings r with Some l => l | None => [] end ++ ws)).
Proof.
  induction ws as [|w ws IH]; intros r; cbn [fold_left].
  - repeat split. intros H. now destruct H.
  - destruct (IH (add_warning r w)) as (H1 & H2 & H3 & H4). rewrite H1, H2.
    split; [reflexivity|]. split; [reflexivity|]. split; [discriminate|]. intros _.
    destruct ws as [|w' ws].
    + rewrite H3 by reflexivity. reflexivity.
    + rewrite H4 by discriminate. cbn. f_equal. now rewrite <- app_assoc.
Qed.

Lemma good_warnings n ws : Forall rust_string ws -> jgood (S n) (JArr (map JStr ws)).
Proof.
  intros H. apply jgood_arr. rewrite Forall_map. eapply Forall_impl; [|exact H]. intros w Hw. now apply jgood_str.
Qed.

Lemma warnings_ok_json {T E} (info : E -> error_information) (f : T -> json) t ws :
  json_ok (f t) -> ws <> [] -> Forall rust_string ws ->
  levels_text (1 + max 1 (depth (f t)))
    (return_object_to_json f (fold_left add_warning ws (to_return_object info (inl t))))
    (JObj [(lit "info", f t); (lit "warnings", JArr (map JStr ws))]).
Proof.
  intros J N W. destruct (warnings_accumulate ws (to_return_object info (inl t))) as (E1 & E2 & _ & E3).
  specialize (E3 N). unfold return_object_to_json, ser_return_object. rewrite E1, E2, E3.
  cbn [to_return_object ro_info ro_error ro_warnings field_opt app].
  apply written_levels. apply jgood_obj.
  constructor; [split; [jlit|split; [assumption|apply Nat.le_max_r]]|].
  constructor; [split; [jlit|]|constructor].
  eapply jgood_mono; [apply Nat.le_max_l|now apply good_warnings].
Qed.

Lemma warnings_err_json {T E} (info : E -> error_information) (f : T -> json) e ws n :
  information_ok n (info e) -> ws <> [] -> Forall rust_string ws ->
  levels_text (2 + n) (return_object_to_json f (fold_left add_warning ws (to_return_object (T := T) info (inr e))))
    (JObj [(lit "error", JObj (information_members (info e))); (lit "warnings", JArr (map JStr ws))]).
Proof.
  intros H N W. destruct (warnings_accumulate ws (to_return_object (T := T) info (inr e))) as (E1 & E2 & _ & E3).
  specialize (E3 N). unfold return_object_to_json, ser_return_object. rewrite E1, E2, E3.
  cbn [to_return_object ro_info ro_error ro_warnings field_opt app].
  replace (JObj (information_members (info e))) with (ser_error_information (info e))
    by (unfold ser_error_information, information_members; destruct (ei_additional (info e)); reflexivity).
  apply written_levels. apply (jgood_obj (S n)).
  constructor; [split; [jlit|now apply good_information]|]. constructor; [split; [jlit|now apply good_warnings]|constructor].
Qed.


(* ---------------- refutations ---------------- *)

Lemma oauth_string_refuted (d : deps) : ~ (forall d c name description uri details r s,
    oauth_code c name ->
    create_access_token_error_response c description uri details = Ok r ->
    token_error_response_to_json d r = Some s ->
    exists m, parse_json s = Some (JObj m) /\ In (lit "error", JStr (lit name)) m).
Proof.
  intros C. destruct (C d _ _ None None None _ _ oc_request eq_refl eq_refl) as (m & P & I).
  vm_compute in P. injection P as <-. cbn in I.
  repeat destruct I as [I|I]; try discriminate I; exact I.
Qed.

Lemma serializes_refuted (d : deps) : ~ (forall d c description uri details r,
    create_access_token_error_response c description uri details = Ok r ->
    exists s, token_error_response_to_json d r = Some s).
Proof.
  intros C. destruct (C d TInvalidRequest None None (Some (JStr [])) _ eq_refl) as (s & H). discriminate H.
Qed.

Lemma unique_members_refuted (d : deps) : ~ (forall d c description uri details r s m k,
    create_access_token_error_response c description uri details = Ok r ->
    token_error_response_to_json d r = Some s ->
    parse_json s = Some (JObj m) ->
    In k ["error"; "error_description"; "error_uri"]%string ->
    exists v, only_member m k v).
Proof.
  intros C.
  destruct (C d TInvalidRequest None None (Some (JObj [(lit "error", JNull)])) _ _
              (response_members (lit "InvalidRequest") None None [(lit "error", JNull)]) "error"%string
              eq_refl eq_refl eq_refl ltac:(now left)) as (v & H).
  assert (~ In (lit "error") (map fst [(lit "error", JNull)])) as N.
  { apply (standard_member_unique (lit "InvalidRequest") None None _ "error"); [now left|]. exists v. exact H. }
  apply N. now left.
Qed.

Lemma description_refuted :
  ~ (forall m, ei_description (validation_error_information (VAny m)) = m)
  /\ (forall d : deps, ~ (forall d m, ei_description (issuer_error_information d (IValidationError (VAny m))) = m)).
Proof.
  split.
  - intros C. specialize (C []). discriminate C.
  - intros d C. specialize (C d []). discriminate C.
Qed.

Lemma message_in_additional d m :
  (forall i, In i [validation_error_information (VAny m);
                   issuer_error_information d (IValidationError (VAny m));
                   token_error_information (TValidationError (VAny m))] ->
     ei_description i = lit "An error occurred during validation, serialization or deserialization"
     /\ ei_additional i = Some (JObj [(lit "validation_message", JStr m)]))
  /\ ei_description (jwt_error_information d (JValidationError (VAny m)))
     = lit "An error occurred while validating"
  /\ ei_additional (jwt_error_information d (JValidationError (VAny m)))
     = Some (JObj [(lit "validation_message", JStr m)]).
Proof.
  split; [|split; reflexivity]. intros i [<-|[<-|[<-|[]]]]; split; reflexivity.
Qed.

Lemma wrapping_keeps d :
  (forall e, ei_description (issuer_error_information d (IValidationError e))
             = ei_description (validation_error_information e)
          /\ ei_additional (issuer_error_information d (IValidationError e))
             = ei_additional (validation_error_information e))
  /\ (forall e, ei_description (issuer_error_information d (IJwtError e))
             = ei_description (jwt_error_information d e)
          /\ ei_additional (issuer_error_information d (IJwtError e))
             = ei_additional (jwt_error_information d e))
  /\ (forall e, ei_description (token_error_information (TValidationError e))
             = ei_description (validation_error_information e)
          /\ ei_additional (token_error_information (TValidationError e))
             = ei_additional (validation_error_information e))
  /\ (forall e, ei_additional (jwt_error_information d (JValidationError e))
             = ei_additional (validation_error_information e)).
Proof. repeat split. Qed.
