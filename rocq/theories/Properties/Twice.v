(** C115: members that occur twice. *)
From Verif Require Import Model.Prelude Model.Json Model.Types Model.Deps Model.Serde Model.SerdeOptions Model.Wire
  Spec SpecToken SpecJson SpecJwt SpecDocuments SpecWire SpecTwice Examples
  Proofs.StrFacts Proofs.JsonFacts Proofs.GrammarFacts Proofs.TwiceFacts.

Definition C115_claim : Prop := forall d s v ns m n,
  json_text s v -> read_object d true s v ns m -> In n ns -> (times n m <= 1)%nat.

(** The key of a proof can be given twice; the first one counts. *)
Definition tw_header (second : string) : str :=
  lit "{""typ"":""openid4vci-proof+jwt"",""alg"":""EdDSA"",""kid"":""did:web:a#1""" ++ lit second ++ lit "}".
Definition tw_members : member_list :=
  [(lit "typ", JStr (lit "openid4vci-proof+jwt")); (lit "alg", JStr (lit "EdDSA"));
   (lit "kid", JStr (lit "did:web:a#1"))].
Definition tw_extra : member_list := [(lit "kid", JStr (lit "did:web:b#1"))].
Definition tw_read : jwt_header :=
  {| h_typ := lit "openid4vci-proof+jwt"; h_alg := EdDSA; h_additional := Some (KeyId (lit "did:web:a#1")) |}.
Lemma tw_texts : json_text (tw_header "") (JObj tw_members)
  /\ json_text (tw_header ",""kid"":""did:web:b#1""") (JObj (tw_members ++ tw_extra)).
Proof. split; apply parse_json_iff; vm_compute; reflexivity. Qed.
Theorem C115_key_twice_refuted : ~ C115_claim.
Proof.
  intros H.
  assert (header_from_json (tw_header ",""kid"":""did:web:b#1""") = Some tw_read) as R by (vm_compute; reflexivity).
  pose proof (H example_deps _ _ _ _ "kid"%string (proj2 tw_texts) (rob_header example_deps true _ _ _ _ R eq_refl)) as T.
  cbn [header_names In] in T. specialize (T (or_intror (or_intror (or_introl eq_refl)))).
  vm_compute in T. apply le_S_n in T. inversion T.
Qed.
Print Assumptions C115_key_twice_refuted.

(** That is the only exception: in no document that is read, at no depth, is there an
    object in which another name that is looked up occurs twice. *)
Theorem C115_once_except_key : forall d s v ns m n,
  json_text s v -> read_object d false s v ns m -> In n ns -> (times n m <= 1)%nat.
Proof. exact members_once. Qed.
Print Assumptions C115_once_except_key.

(** Whatever follows the first key in the header of a proof is not looked at... *)
Theorem C115_first_key_counts : forall s s' m extra h key,
  json_text s (JObj m) -> json_text s' (JObj (m ++ extra)) ->
  header_from_json s = Some h -> h_additional h = Some key ->
  ~ In (lit "typ") (map fst extra) -> ~ In (lit "alg") (map fst extra) -> header_from_json s' = Some h.
Proof. exact later_keys_unread. Qed.
Print Assumptions C115_first_key_counts.

(** ... while of additional metadata with the same name the last one counts. *)
Theorem C115_last_field_counts : forall s m x k v,
  json_text s (JObj m) -> metadata_from_json s = Some x ->
  ~ In k (map lit metadata_names) -> last_member m k v ->
  exists a v', im_additional_fields x = Some a /\ In (k, v') a /\ free_value v v'.
Proof. exact last_field_read. Qed.
Print Assumptions C115_last_field_counts.

Example C115_first_key_case : header_from_json (tw_header "") = Some tw_read
  /\ ~ In (lit "typ") (map fst tw_extra) /\ ~ In (lit "alg") (map fst tw_extra)
  /\ header_from_json (tw_header ",""kid"":""did:web:b#1""") = Some tw_read.
Proof.
  split; [vm_compute; reflexivity|]. split; [intros [E|[]]; vm_compute in E; discriminate E|].
  split; [intros [E|[]]; vm_compute in E; discriminate E|]. vm_compute. reflexivity.
Qed.

(** A token request, read once and not read with a second PIN. *)
Definition tw_request (more : string) : str :=
  lit "{""grant_type"":{""grant_type"":""urn:ietf:params:oauth:grant-type:pre-authorized_code"",""pre_authorized_code"":""c"",""user_pin"":1"
  ++ lit more ++ lit "}}".
Definition tw_grant : member_list :=
  [(lit "grant_type", JStr (lit "urn:ietf:params:oauth:grant-type:pre-authorized_code"));
   (lit "pre_authorized_code", JStr (lit "c")); (lit "user_pin", JInt 1)].
Example C115_request_case :
  json_text (tw_request "") (JObj [(lit "grant_type", JObj tw_grant)])
  /\ read_object example_deps false (tw_request "") (JObj [(lit "grant_type", JObj tw_grant)])
       ["grant_type"; "pre_authorized_code"; "user_pin"]%string tw_grant
  /\ token_request_from_json (tw_request ",""user_pin"":2") = None.
Proof.
  split; [apply parse_json_iff; vm_compute; reflexivity|]. split; [|vm_compute; reflexivity].
  apply rob_token_request with (x := {| tr_grant_type := GPreAuthorized (lit "c") (Some 1) |});
    [vm_compute; reflexivity|].
  apply to_grant with (m := [(lit "grant_type", JObj tw_grant)]) (g := JObj tw_grant); [constructor|now left|constructor].
Qed.

(** Metadata in which a further name occurs twice. *)
Definition tw_metadata : str :=
  lit "{""credential_issuer"":""https://i"",""credential_endpoint"":""https://i/c"",""credentials_supported"":[],""x"":1,""x"":2}".
Example C115_metadata_case : exists m x,
  json_text tw_metadata (JObj m) /\ metadata_from_json tw_metadata = Some x
  /\ ~ In (lit "x") (map lit metadata_names) /\ last_member m (lit "x") (JInt 2)
  /\ im_additional_fields x = Some [(lit "x", JInt 2)].
Proof.
  do 2 eexists. split; [apply parse_json_iff; vm_compute; reflexivity|]. split; [vm_compute; reflexivity|]. split.
  { intros I. vm_compute in I. intuition discriminate. }
  split; [|reflexivity]. 
  exists [(lit "credential_issuer", JStr (lit "https://i")); (lit "credential_endpoint", JStr (lit "https://i/c"));
          (lit "credentials_supported", JArr []); (lit "x", JInt 1)], []. split; [reflexivity|intros []].
Qed.
