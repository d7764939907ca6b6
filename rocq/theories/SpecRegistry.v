(** Where DID documents come from. *)
From Verif Require Import Model.Prelude Model.Types Model.Deps Model.CredentialIssuer Spec SpecJwt SpecEvaluation.

(** What resolving a DID gives. *)
Definition registry (d : deps) : Type := str -> option (Document d).

(** According to the registry, the key is one of this DID: its own document gives it,
    for a DID URL of this DID. *)
Definition key_of (d : deps) (reg : registry d) (did key : str) : Prop :=
  exists doc kid u k, reg did = Some doc /\ did_url_try_from d kid = inr u /\ du_did u = did
    /\ document_key d doc kid k /\ public_key k key.

(** The caller took the document of the DID that pre-evaluation named for this request. *)
Definition resolved_as_told (d : deps) (reg : registry d) (r : credential_request) (doc : Document d) : Prop :=
  exists did, pre_evaluate_credential_request d r = Ok (Some did) /\ reg did = Some doc.

(** The document has usable keys for DID URLs of this DID only. *)
Definition keys_of_only (d : deps) (did : str) (doc : Document d) : Prop :=
  forall kid u k key, rust_string kid -> did_url_try_from d kid = inr u -> document_key d doc kid k ->
    public_key k key -> du_did u = did.
