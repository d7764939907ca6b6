(** The proof of possession of OpenID4VCI draft 11, 7.2.1.1, as a wallet that
    follows it sends it, and the credential request around it. *)
From Verif Require Import Model.Prelude Model.Base64 Model.Json Model.Types Spec SpecToken SpecJson SpecJwt SpecDraft.

(** NumericDate (RFC 7519, 2): a number of seconds, perhaps with a fraction. *)
Definition a_date (v : json) : Prop := (exists n, v = JInt n) \/ exists t, v = JFloat t.

Definition draft_claims : json -> Prop := an_object (fun m =>
  may m "iss" a_text /\ must m "aud" a_text /\ must m "iat" a_date /\ must m "nonce" a_text
  /\ may m "nbf" a_date /\ may m "exp" a_date).

(** A signed token in the compact serialization. *)
Definition draft_token (s : str) : Prop :=
  exists hs bs signature ht bt hv bv,
    token_parts s hs bs (Some signature)
    /\ base64_text url_alphabet false ht hs /\ base64_text url_alphabet false bt bs
    /\ json_text ht hv /\ json_text bt bv /\ draft_header hv /\ draft_claims bv.

(** A credential request with such a token. *)
Definition draft_request_with_token (v : json) : Prop :=
  exists m p t, v = JObj m /\ draft_request v
    /\ In (lit "proof", JObj p) m /\ In (lit "jwt", JStr t) p /\ draft_token t.
