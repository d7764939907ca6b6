(** C113: documents of one kind are not taken for documents of another. *)
From Verif Require Import Model.Prelude Model.Json Model.Types Model.Deps Model.Chrono Model.Serde Model.Wire
  Spec SpecDocuments SpecJwt SpecResponse SpecRelay SpecKinds Examples
  Proofs.StrFacts Proofs.JsonFacts Proofs.TimeFacts Proofs.KindFacts.

Definition C113_claim : Prop := forall d k k' s, dt_round_trips d -> written_as d k s -> read_as d s k' -> k' = k.

(** Every credential request is a readable credential response without credential. *)
Theorem C113_request_read_as_response : forall x f, request_with (value_any 124) x -> format_of (cr_format x) f ->
  credential_success_from_json (credential_request_to_json x)
  = Some {| cs_format := lit f; cs_credential := None; cs_acceptance_token := None;
            cs_c_nonce := None; cs_c_nonce_expires_in := None |}.
Proof. exact request_reads_as_response. Qed.
Print Assumptions C113_request_read_as_response.

Definition ki_request : credential_request :=
  {| cr_format := MsoMdoc (lit "org.iso.18013.5.1.mDL") None None;
     cr_proof := Some {| rp_proof_type := lit "jwt"; rp_jwt := lit "e30.e30.c2ln" |} |}.
Lemma ki_request_held : request_with (value_any 124) ki_request.
Proof.
  split.
  - split; [now apply rust_string_ascii|]. split; intros ? E; discriminate E.
  - intros p [= <-]. split; now apply rust_string_ascii.
Qed.
Theorem C113_refuted : ~ C113_claim.
Proof. exact (fun H => request_response_refuted H ki_request ki_request_held). Qed.
Print Assumptions C113_refuted.

(** That is the only confusion. In particular no error response is taken for a
    success response, and a proof's header not for its claims. *)
Theorem C113_otherwise : forall d k k' s, dt_round_trips d -> written_as d k s -> read_as d s k' ->
  k' = k \/ k = KRequest /\ k' = KResponse.
Proof. exact kinds_apart. Qed.
Print Assumptions C113_otherwise.

(** An error response with details, and what becomes of it when the details have names
    of the protocol: the hypothesis about names is needed. *)
Definition ki_error (m : list (str * json)) : error_response token_error_code :=
  {| resp_error := TInvalidRequest; resp_description := None; resp_uri := None; resp_details := Some (JObj m) |}.
Example C113_error_case : exists s,
  token_error_response_to_json example_deps (ki_error [(lit "trace", JStr (lit "17"))]) = Some s
  /\ written_as example_deps KTokenError s.
Proof.
  eexists. split; [reflexivity|]. apply (wr_token_error _ (ki_error [(lit "trace", JStr (lit "17"))]));
    try (intros ? E; discriminate E).
  - intros v [= <-]. split; [|split].
    + constructor. { intros k v [[= <- <-]|[]]. now apply rust_string_ascii. }
      intros k v [[= <- <-]|[]]. constructor. now apply rust_string_ascii.
    + constructor; [repeat constructor|]. intros k v [[= <- <-]|[]]. constructor.
    + cbn. auto with arith.
  - intros m [= <-] k [<-|[]] (n & I & E). unfold protocol_names in I. cbn [In] in I.
    repeat (destruct I as [<-|I]; [vm_compute in E; discriminate E|]). destruct I.
  - reflexivity.
Qed.
Example C113_names_needed : exists s x,
  token_error_response_to_json example_deps
    (ki_error [(lit "access_token", JStr (lit "a")); (lit "token_type", JStr (lit "Bearer"))]) = Some s
  /\ token_success_from_json s = Some x.
Proof. do 2 eexists. split; [vm_compute; reflexivity|]. vm_compute. reflexivity. Qed.
