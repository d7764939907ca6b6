(** Wallets and issuers as in SpecAgreement.v, and a registry of DID documents that
    change. *)
From Verif Require Import Model.Prelude Model.Json Model.Types Model.Deps Model.Jwt Model.AccessToken
  Model.CredentialIssuer Model.Wire Spec SpecToken SpecOffer SpecJwt SpecEvaluation SpecDocuments SpecEvidence SpecAgreement.

(** What happens: a DID gets a document, instead of the one it had, or something of
    SpecAgreement.v. *)
Inductive entry (d : deps) : Type :=
| Registers (did : str) (doc : Document d)
| Happens (e : happening).
Arguments Registers {d} did doc.
Arguments Happens {d} e.

(** The document that the DID has after [h]. *)
Definition current {d : deps} (h : list (entry d)) (did : str) (doc : Document d) : Prop :=
  exists a b, h = a ++ Registers did doc :: b /\ forall doc', ~ In (Registers did doc') b.

(** The document gives the key for a DID URL of this DID. *)
Definition has_key (d : deps) (did : str) (doc : Document d) (key : str) : Prop :=
  exists kid u k, did_url_try_from d kid = inr u /\ du_did u = did /\ document_key d doc kid k /\ public_key k key.

Fixpoint happened {d : deps} (h : list (entry d)) : list happening :=
  match h with
  | [] => []
  | Registers _ _ :: h' => happened h'
  | Happens e :: h' => e :: happened h'
  end.

(** Which document the caller supplies: that of the DID which pre-evaluation names
    for the request, as it is or as it was at some time, or that of any DID. *)
Inductive supplies : Type := AsTold | Cached | AnyDocument.
Definition supplied {d : deps} (p : supplies) (h : list (entry d)) (r : credential_request) (doc : Document d) : Prop :=
  exists did before since, h = before ++ since /\ current before did doc
    /\ (p <> AnyDocument -> pre_evaluate_credential_request d r = Ok (Some did)) /\ (p <> Cached -> since = []).

(** What can happen. Anyone can register any document for a DID of theirs, whatever
    is in it. The rest is as in [network]. *)
Inductive world (d : deps) (safe : str -> Prop) (p : supplies) : list (entry d) -> stored -> Prop :=
| world_start : world d safe p [] (fun _ => None)
| world_registers h st did doc : world d safe p h st -> world d safe p (h ++ [Registers did doc]) st
| world_signs h st key j text : world d safe p h st -> proof_jwt_ok j -> signing_text d j text ->
    world d safe p (h ++ [Happens (Signs key j text)]) st
| world_gives h st k n : world d safe p h st -> ~ In (cno_expected n) (nonces_given (happened h)) ->
    world d safe p (h ++ [Happens (Gives k (cno_expected n))]) (store st k (Some n))
| world_trusts h st k n now m r offer asm doc client resp pop signature : world d safe p h st ->
    st k = Some n -> supplied p h r doc ->
    evaluate_credential_request d now m r offer asm (Some doc) (Some {| eo_c_nonce := st k; eo_client_id := client |})
      = Ok resp ->
    er_pop resp = Some pop -> base64_text url_alphabet false signature (pop_signature pop) ->
    (safe (pop_public_key pop) -> exists j, In (Happens (Signs (pop_public_key pop) j (pop_message pop))) h) ->
    world d safe p
      (h ++ [Happens (Trusts k (pop_public_key pop) (im_credential_issuer m) (cno_expected n) client (er_subject_id resp))])
      (store st k None).

(** Only its owner has the keys that the DID has, or had at any time. *)
Definition keeps_its_keys {d : deps} (safe : str -> Prop) (h : list (entry d)) (did : str) : Prop :=
  forall doc key, In (Registers did doc) h -> has_key d did doc key -> safe key.

(** With this key, a proof was signed for this issuer, nonce and client, with a key id
    of the DID. *)
Definition signed_for {d : deps} (h : list (entry d)) (did key url n : str) (client : option str) : Prop :=
  exists j text kid u, In (Happens (Signs key j text)) h
     /\ b_aud (j_body j) = url /\ b_nonce (j_body j) = n /\ (forall x, client = Some x -> b_iss (j_body j) = Some x)
     /\ h_additional (j_header j) = Some (KeyId kid) /\ did_url_try_from d kid = inr u /\ du_did u = did.

(** It was signed with a key that the DID has after [h], or with one that it has or had. *)
Definition asked {d : deps} (h : list (entry d)) (did key url n : str) (client : option str) : Prop :=
  (exists doc, current h did doc /\ has_key d did doc key) /\ signed_for h did key url n client.
Definition asked_once {d : deps} (h : list (entry d)) (did key url n : str) (client : option str) : Prop :=
  (exists doc, In (Registers did doc) h /\ has_key d did doc key) /\ signed_for h did key url n client.
