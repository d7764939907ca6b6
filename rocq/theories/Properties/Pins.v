(** C114: which PINs a wallet can send. *)
From Verif Require Import Model.Prelude Model.Json Model.Types Model.AccessToken Model.Serde Model.Wire
  Spec SpecNumber SpecJson SpecToken SpecPin Proofs.StrFacts Proofs.JsonFacts Proofs.GrammarFacts Proofs.PinFacts.

(** The PIN is a number of up to eight digits, in the specification a text. *)
Definition C114_claim : Prop := forall quoted code pin,
  string_text true quoted code -> digits pin -> (List.length pin <= 8)%nat ->
  token_request_from_json (pin_request quoted pin) <> None.

(** No PIN that starts with zero can be sent digit by digit. *)
Theorem C114_leading_zero_refused : forall quoted code pin,
  string_text true quoted code -> digits pin -> zero_led pin ->
  token_request_from_json (pin_request quoted pin) = None.
Proof. exact zero_led_refused. Qed.
Print Assumptions C114_leading_zero_refused.

Definition pi_quoted : str := lit """SplxlOBeZQQYbYS6WxSbIA""".
Lemma pi_code : string_text true pi_quoted (lit "SplxlOBeZQQYbYS6WxSbIA").
Proof.
  destruct (string_of_read true (tl pi_quoted) (lit "SplxlOBeZQQYbYS6WxSbIA") []) as (t & E & T).
  - vm_compute. reflexivity.
  - rewrite app_nil_r in E. rewrite <- E in T. exact T.
Qed.
Lemma pi_digits pin : forallb is_digit pin = true -> pin <> [] -> digits pin.
Proof.
  intros H N. split; [exact N|]. apply Forall_forall. intros c I. rewrite forallb_forall in H.
  specialize (H c I). unfold is_digit in H. apply andb_true_iff in H. destruct H as [H1 H2].
  apply N.leb_le in H1, H2. now split.
Qed.
Theorem C114_eight_digits_refuted : ~ C114_claim.
Proof.
  intros H. apply (H pi_quoted _ (lit "0123") pi_code).
  - apply pi_digits; [reflexivity|discriminate].
  - vm_compute. repeat constructor.
  - apply (zero_led_refused _ _ _ pi_code).
    + apply pi_digits; [reflexivity|discriminate].
    + exists "1"%char, (lit "23"). reflexivity.
Qed.
Print Assumptions C114_eight_digits_refuted.

(** All others are read, as their value. *)
Theorem C114_read_exactly : forall quoted code pin r, string_text true quoted code -> digits pin ->
  (token_request_from_json (pin_request quoted pin) = Some r <->
   ~ zero_led pin /\ digits_value 0 pin < 2 ^ 64
   /\ r = {| tr_grant_type := GPreAuthorized code (Some (digits_value 0 pin)) |}).
Proof. exact pin_read. Qed.
Print Assumptions C114_read_exactly.

(** The digits with which an offer is redeemed: those of the expected number, without
    leading zero, and at most nine of them. *)
Theorem C114_redeemed_exactly : forall quoted code pin offer g opts n,
  string_text true quoted code -> digits pin ->
  og_pre (co_grants offer) = Some g -> pf_code g = code -> pin_required g -> expected_pin opts n ->
  ((exists r, token_request_from_json (pin_request quoted pin) = Some r
     /\ evaluate_access_token_request r (Some offer) opts = Ok tt) <->
   decimal_text n pin /\ (List.length pin <= 9)%nat).
Proof. exact pin_redeemed. Qed.
Print Assumptions C114_redeemed_exactly.

(** So no two different sequences of digits redeem the same offer. *)
Theorem C114_told_apart : forall quoted quoted' code code' pin pin' offer g opts n r r',
  string_text true quoted code -> string_text true quoted' code' -> digits pin -> digits pin' ->
  og_pre (co_grants offer) = Some g -> pin_required g -> expected_pin opts n ->
  token_request_from_json (pin_request quoted pin) = Some r ->
  token_request_from_json (pin_request quoted' pin') = Some r' ->
  evaluate_access_token_request r (Some offer) opts = Ok tt ->
  evaluate_access_token_request r' (Some offer) opts = Ok tt -> pin = pin'.
Proof. exact pins_apart. Qed.
Print Assumptions C114_told_apart.

(** The user of the PIN 0123 can only send 123, and so can the user of the PIN 123. *)
Example C114_case :
  token_request_from_json (pin_request pi_quoted (lit "123"))
  = Some {| tr_grant_type := GPreAuthorized (lit "SplxlOBeZQQYbYS6WxSbIA") (Some 123) |}
  /\ token_request_from_json (pin_request pi_quoted (lit "0123")) = None
  /\ digits_value 0 (lit "0123") = digits_value 0 (lit "123")
  /\ token_request_from_json (pin_request pi_quoted (lit "0"))
     = Some {| tr_grant_type := GPreAuthorized (lit "SplxlOBeZQQYbYS6WxSbIA") (Some 0) |}
  /\ token_request_from_json (pin_request pi_quoted (lit "18446744073709551616")) = None.
Proof. repeat split; vm_compute; reflexivity. Qed.
Definition pi_grant : preauth_flow :=
  {| pf_code := lit "SplxlOBeZQQYbYS6WxSbIA"; pf_user_pin_required := Some true |}.
Definition pi_offer : credential_offer :=
  {| co_credential_issuer := lit "https://issuer.example"; co_credentials := [];
     co_grants := {| og_auth := None; og_pre := Some pi_grant |} |}.
Example C114_redeemed_case : forall opts, opts = {| to_expected_user_pin := Some 493536 |} ->
  og_pre (co_grants pi_offer) = Some pi_grant /\ pf_code pi_grant = lit "SplxlOBeZQQYbYS6WxSbIA"
  /\ pin_required pi_grant /\ expected_pin (Some opts) 493536
  /\ (exists r, token_request_from_json (pin_request pi_quoted (lit "493536")) = Some r
      /\ evaluate_access_token_request r (Some pi_offer) (Some opts) = Ok tt).
Proof.
  intros opts ->. repeat split.
  - now eexists.
  - eexists. split; [vm_compute; reflexivity|]. vm_compute. reflexivity.
Qed.
