(** Extensions in the header of a token. *)
From Verif Require Import Model.Prelude Model.Json Model.Types Spec SpecJson SpecJwt.

(** The members of a proof's header that are looked at. *)
Definition header_names : list string := ["typ"; "alg"; "kid"; "jwk"; "x5c"]%string.

(** The header document of a token, as members. *)
Definition header_members (token : str) (m : list (str * json)) : Prop :=
  exists hs bs tail ht, token_parts token hs bs tail /\ base64_text url_alphabet false ht hs /\ json_text ht (JObj m).

(** RFC 7515, 4.1.11: [crit] lists the extensions a recipient must understand; it
    must refuse the token if it does not. *)
Definition critical (token : str) (names : list str) : Prop :=
  exists m, header_members token m /\ In (lit "crit", JArr (map JStr names)) m.

(** [t] is [token] with one more member in its header: claims, signature and what
    follows are the same. *)
Definition extended (token t : str) (k : str) (v : json) : Prop :=
  exists hs hs' bs tail ht ht' m,
    token_parts token hs bs tail /\ base64_text url_alphabet false ht hs /\ json_text ht (JObj m)
    /\ token_parts t hs' bs tail /\ base64_text url_alphabet false ht' hs' /\ json_text ht' (JObj ((k, v) :: m)).
