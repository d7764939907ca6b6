(** Evaluation of credential requests: what is checked, in which order, and what
    the answer is; without the functions of Model/Jwt.v and
    Model/CredentialIssuer.v. Reading and writing JSON documents is
    [header_from_json], [claims_from_json], [header_to_json], [claims_to_json]
    (Model/Wire.v; see C24 for what they mean). *)
From Verif Require Import Model.Prelude Model.Json Model.Types Model.Deps Model.Wire
  Spec SpecToken SpecOffer SpecJwt.

(* ------------------------------------------------------------------ *)
(** * Proof tokens *)

(** The text [s] is a proof token and denotes [j] (C25). *)
Definition proof_token (d : deps) (s : str) (j : proof_jwt) : Prop :=
  exists hs bs tail ht bt,
    token_parts s hs bs tail
    /\ base64_text url_alphabet false ht hs /\ base64_text url_alphabet false bt bs
    /\ header_from_json ht = Some (j_header j) /\ claims_from_json d bt = Some (j_body j)
    /\ signature_is tail (j_signature j).

(** Why a text is not a proof token, and the message reported. *)
Inductive token_error (d : deps) (s : str) : validation_error -> Prop :=
| te_no_body : dotless s -> token_error d s (VAny (lit "No body found in the `JWT`"))
| te_header_base64 hs bs tail :
    token_parts s hs bs tail -> (forall ht, ~ base64_text url_alphabet false ht hs) ->
    token_error d s (VAny (base64_error d hs))
| te_claims_base64 hs bs tail ht :
    token_parts s hs bs tail -> base64_text url_alphabet false ht hs ->
    (forall bt, ~ base64_text url_alphabet false bt bs) ->
    token_error d s (VAny (base64_error d bs))
| te_header_json hs bs tail ht bt :
    token_parts s hs bs tail -> base64_text url_alphabet false ht hs ->
    base64_text url_alphabet false bt bs -> header_from_json ht = None ->
    token_error d s (VAny (serde_error d ht))
| te_claims_json hs bs tail ht bt h :
    token_parts s hs bs tail -> base64_text url_alphabet false ht hs ->
    base64_text url_alphabet false bt bs -> header_from_json ht = Some h ->
    claims_from_json d bt = None ->
    token_error d s (VAny (serde_error d bt)).

Definition proof_typ : str := lit "openid4vci-proof+jwt".
Definition typ_error : validation_error :=
  VAny (lit "jwt header `typ` MUST of of value `openid4vci-proof+jwt`").
Definition proof_type_error : validation_error := VAny (lit "`proof_type` MUST of of value `JWT`").

(** The text the library computes the message and the signature from: the two
    JSON documents and the signature, joined by dots. *)
Definition raw_text (d : deps) (j : proof_jwt) : str :=
  header_to_json (j_header j) ++ lit "." ++ claims_to_json d (j_body j)
  ++ match j_signature j with Some sig => lit "." ++ sig | None => [] end.

(** The text of [t] after its second dot. *)
Definition after_second_dot (t rest : str) : Prop :=
  exists a b, dotless a /\ dotless b /\ t = a ++ lit "." ++ b ++ lit "." ++ rest.

(** [t] with exactly two dots, and the text before the second one. *)
Definition two_dots (t front : str) : Prop :=
  exists a b c, dotless a /\ dotless b /\ dotless c
    /\ t = a ++ lit "." ++ b ++ lit "." ++ c /\ front = a ++ lit "." ++ b.

(** The front of [t] if it has exactly two dots, and all of [t] otherwise. *)
Definition message_of (t message : str) : Prop :=
  two_dots t message \/ (~ (exists front, two_dots t front) /\ message = t).

(* ------------------------------------------------------------------ *)
(** * Keys *)

(** The key bytes of a JWK. *)
Inductive public_key : jwk -> str -> Prop :=
| pk_okp k bytes : jwk_parameters k = POKP bytes -> public_key k bytes
| pk_ec k x :
    jwk_parameters k = PEC (Some x) -> jwk_algorithm k = Some JAEdDSA -> public_key k x.

(** Name of the JWK's algorithm; [none] if it has no algorithm. *)
Inductive jwk_alg_text (k : jwk) : str -> Prop :=
| jt_default : jwk_algorithm k = None -> jwk_alg_text k (lit "none")
| jt_eddsa : jwk_algorithm k = Some JAEdDSA -> jwk_alg_text k (lit "EdDSA")
| jt_other n : jwk_algorithm k = Some (JAOther n) -> jwk_alg_text k n.

Inductive public_key_error (k : jwk) : jwt_error -> Prop :=
| pe_no_x :
    jwk_parameters k = PEC None -> jwk_algorithm k = Some JAEdDSA ->
    public_key_error k JEdDSAHasNoXCoordinate
| pe_curve x n :
    jwk_parameters k = PEC x -> jwk_algorithm k <> Some JAEdDSA -> jwk_alg_text k n ->
    public_key_error k (JUnsupportedAlgorithm (print (JStr n)))
| pe_type n :
    jwk_parameters k = PSymmetric \/ jwk_parameters k = PRSA -> jwk_alg_text k n ->
    public_key_error k (JUnsupportedAlgorithm (print (JStr n))).

(** The key that a DID document gives for a kid. *)
Definition document_key (d : deps) (doc : Document d) (kid : str) (k : jwk) : Prop :=
  exists u vm, did_url_try_from d kid = inr u
    /\ select_object d doc u = inr (RVerificationMethod vm) /\ get_jwk d vm = inr k.

Inductive proof_key (d : deps) (doc : option (Document d)) : option additional_header -> str -> Prop :=
| key_of_kid doc' kid k bytes :
    doc = Some doc' -> document_key d doc' kid k -> public_key k bytes ->
    proof_key d doc (Some (KeyId kid)) bytes
| key_of_jwk text k bytes :
    jwk_from_str d text = inr k -> public_key k bytes -> proof_key d doc (Some (Jwk text)) bytes.

(** The text of a DID URL. *)
Inductive did_url_text : didurl -> str -> Prop :=
| dut_plain did path :
    did_url_text {| du_did := did; du_path := path; du_query := None; du_fragment := None |} (did ++ path)
| dut_query did path q :
    did_url_text {| du_did := did; du_path := path; du_query := Some q; du_fragment := None |}
      (did ++ path ++ lit "?" ++ q)
| dut_fragment did path f :
    did_url_text {| du_did := did; du_path := path; du_query := None; du_fragment := Some f |}
      (did ++ path ++ lit "#" ++ f)
| dut_both did path q f :
    did_url_text {| du_did := did; du_path := path; du_query := Some q; du_fragment := Some f |}
      (did ++ path ++ lit "?" ++ q ++ lit "#" ++ f).

Inductive key_error (d : deps) (doc : option (Document d))
  : option additional_header -> jwt_error -> Prop :=
| ke_none : key_error d doc None JNoKeyFoundInProof
| ke_x5c s : key_error d doc (Some (X5c s)) (JUnsupportedKeyTypeInJwtHeader (lit "x5c") s)
| ke_not_did kid m :
    did_url_try_from d kid = inl m ->
    key_error d doc (Some (KeyId kid)) (JUnableToTransformIntoDid kid m)
| ke_no_document kid u :
    did_url_try_from d kid = inr u -> doc = None ->
    key_error d doc (Some (KeyId kid)) JNoDidDocumentProvidedForKidAsDid
| ke_not_found kid u t doc' m :
    did_url_try_from d kid = inr u -> doc = Some doc' -> select_object d doc' u = inl m -> did_url_text u t ->
    key_error d doc (Some (KeyId kid)) (JUnableToResolveDidInDidDocument t m)
| ke_no_jwk kid u doc' vm m :
    did_url_try_from d kid = inr u -> doc = Some doc' ->
    select_object d doc' u = inr (RVerificationMethod vm) -> get_jwk d vm = inl m ->
    key_error d doc (Some (KeyId kid)) (JUnableToMapVerificationMethodToJwk m)
| ke_kid_key kid doc' k e :
    doc = Some doc' -> document_key d doc' kid k -> public_key_error k e ->
    key_error d doc (Some (KeyId kid)) e
| ke_jwk_text text m :
    jwk_from_str d text = inl m ->
    key_error d doc (Some (Jwk text)) (JUnableToTransformIntoJoseItem text m)
| ke_jwk_key text k e :
    jwk_from_str d text = inr k -> public_key_error k e -> key_error d doc (Some (Jwk text)) e.

(** The document has something under the kid that is not a verification method. *)
Definition key_panics (d : deps) (doc : option (Document d)) (key : option additional_header) : Prop :=
  exists kid u doc', key = Some (KeyId kid) /\ did_url_try_from d kid = inr u
    /\ doc = Some doc' /\ select_object d doc' u = inr ROther.

(** The DID of the token's kid; no key names no DID. *)
Inductive proof_did (d : deps) : option additional_header -> option str -> Prop :=
| pd_none : proof_did d None None
| pd_kid kid u : did_url_try_from d kid = inr u -> proof_did d (Some (KeyId kid)) (Some (du_did u)).

Inductive did_error (d : deps) : option additional_header -> jwt_error -> Prop :=
| de_not_did kid m :
    did_url_try_from d kid = inl m -> did_error d (Some (KeyId kid)) (JUnableToTransformIntoDid kid m)
| de_jwk s : did_error d (Some (Jwk s)) (JUnsupportedKeyTypeInJwtHeader (lit "jwk") s)
| de_x5c s : did_error d (Some (X5c s)) (JUnsupportedKeyTypeInJwtHeader (lit "x5c") s).

(* ------------------------------------------------------------------ *)
(** * Checks *)

Definition nonce_options (options : option eval_options) (n : c_nonce_options) : Prop :=
  exists opts, options = Some opts /\ eo_c_nonce opts = Some n.

Definition client_id (options : option eval_options) : option str :=
  match options with Some opts => eo_client_id opts | None => None end.

(** When the nonce expires: the lifetime is in seconds, instants in nanoseconds. *)
Definition nonce_expiry (n : c_nonce_options) : instant :=
  (cno_created_at n + 1000000000 * Z.of_N (cno_expires_in n))%Z.

(** chrono can represent it. *)
Definition representable (t : instant) : Prop := (instant_min <= t <= instant_max)%Z.

(** The offer has the pre-authorized code grant and no other. *)
Definition only_pre_authorized (o : credential_offer) : Prop :=
  og_pre (co_grants o) <> None /\ og_auth (co_grants o) = None.

(** Documented policy: with a client id, iss must be that client id; without
    one, iss is free if the offer is pre-authorized only, and must otherwise be
    absent like the client id. Without options there is no policy. *)
Definition iss_allowed (options : option eval_options) (o : credential_offer) (iss : option str) : Prop :=
  match options with
  | None => True
  | Some opts =>
      match eo_client_id opts with
      | Some c => iss = Some c
      | None => only_pre_authorized o \/ iss = None
      end
  end.

(** A check: when it passes, which errors it reports, when it panics. *)
Record check : Type := {
  passes : Prop; reports : issuer_error -> Prop; panics : Prop }.

(** The first check that does not pass reports [e]. *)
Definition first_reports (l : list check) (e : issuer_error) : Prop :=
  exists before c after, l = before ++ c :: after /\ Forall passes before /\ reports c e.
Definition first_panics (l : list check) : Prop :=
  exists before c after, l = before ++ c :: after /\ Forall passes before /\ panics c.

(** Checks that come before the token is looked at, in order: metadata, offer,
    authorization server metadata, nonce expiry, proof present, token syntax. *)
Definition request_checks (d : deps) (now : instant) (m : issuer_metadata) (r : credential_request)
    (offer : option credential_offer) (asm : option auth_server_metadata)
    (options : option eval_options) : list check :=
  [ {| passes := ids_distinct (im_credentials_supported m);
       reports := fun e => ~ ids_distinct (im_credentials_supported m) /\ e = duplicate_ids_error;
       panics := False |};
    {| passes := offer <> None;
       reports := fun e => offer = None /\ e = ICredentialOfferMustBeSupplied;
       panics := False |};
    {| passes := asm = None;
       reports := fun e => asm <> None /\ e = IAuthorizationServerMetadataNotSupported;
       panics := False |};
    {| passes := forall n, nonce_options options n ->
                   representable (nonce_expiry n) /\ (now <= nonce_expiry n)%Z;
       reports := fun e => exists n, nonce_options options n /\ representable (nonce_expiry n)
                   /\ (nonce_expiry n < now)%Z /\ e = ICNonceIsExpired now (nonce_expiry n);
       panics := exists n, nonce_options options n /\ ~ representable (nonce_expiry n) |};
    {| passes := cr_proof r <> None;
       reports := fun e => cr_proof r = None /\ e = INoProofInCredentialRequest;
       panics := False |};
    {| passes := forall p, cr_proof r = Some p -> exists j, proof_token d (rp_jwt p) j;
       reports := fun e => exists p v, cr_proof r = Some p /\ token_error d (rp_jwt p) v
                   /\ e = IValidationError v;
       panics := False |} ].

(** Checks of the token [j], in order: typ, nonce, iss, aud, key, signature, DID. *)
Definition token_checks (d : deps) (m : issuer_metadata) (o : credential_offer)
    (doc : option (Document d)) (options : option eval_options) (j : proof_jwt) : list check :=
  [ {| passes := ascii_ci (h_typ (j_header j)) proof_typ;
       reports := fun e => ~ ascii_ci (h_typ (j_header j)) proof_typ /\ e = IValidationError typ_error;
       panics := False |};
    {| passes := exists n, nonce_options options n /\ b_nonce (j_body j) = cno_expected n;
       reports := fun e =>
         ((forall n, ~ nonce_options options n)
          /\ e = IJwtError (JNonceMismatch None (b_nonce (j_body j))))
         \/ (exists n, nonce_options options n /\ b_nonce (j_body j) <> cno_expected n
             /\ e = IJwtError (JNonceMismatch (Some (cno_expected n)) (b_nonce (j_body j))));
       panics := False |};
    {| passes := iss_allowed options o (b_iss (j_body j));
       reports := fun e => ~ iss_allowed options o (b_iss (j_body j))
         /\ e = IJwtError (JIssuerMismatch (client_id options) (b_iss (j_body j)));
       panics := False |};
    {| passes := b_aud (j_body j) = im_credential_issuer m;
       reports := fun e => b_aud (j_body j) <> im_credential_issuer m
         /\ e = IJwtError (JAudienceMismatch (im_credential_issuer m) (b_aud (j_body j)));
       panics := False |};
    {| passes := exists key, proof_key d doc (h_additional (j_header j)) key;
       reports := fun e => exists v, key_error d doc (h_additional (j_header j)) v /\ e = IJwtError v;
       panics := key_panics d doc (h_additional (j_header j)) |};
    {| passes := exists sig, after_second_dot (raw_text d j) sig;
       reports := fun e => ~ (exists sig, after_second_dot (raw_text d j) sig)
         /\ e = IJwtError (JSignatureNotInJwt (raw_text d j));
       panics := False |};
    {| passes := exists did, proof_did d (h_additional (j_header j)) did;
       reports := fun e => exists v, did_error d (h_additional (j_header j)) v /\ e = IJwtError v;
       panics := False |} ].

(** The answer: the first failing check decides; otherwise the response is made
    of the token, the key, the DID and the requested format. *)
Definition eval_error (d : deps) now m r offer asm (doc : option (Document d)) options
    (e : issuer_error) : Prop :=
  first_reports (request_checks d now m r offer asm options) e
  \/ (Forall passes (request_checks d now m r offer asm options)
      /\ exists p j o, cr_proof r = Some p /\ proof_token d (rp_jwt p) j /\ offer = Some o
         /\ first_reports (token_checks d m o doc options j) e).

Definition eval_panics (d : deps) now m r offer asm (doc : option (Document d)) options : Prop :=
  first_panics (request_checks d now m r offer asm options)
  \/ (Forall passes (request_checks d now m r offer asm options)
      /\ exists p j o, cr_proof r = Some p /\ proof_token d (rp_jwt p) j /\ offer = Some o
         /\ first_panics (token_checks d m o doc options j)).

Definition eval_answer (d : deps) now m r offer asm (doc : option (Document d)) options
    (resp : eval_response) : Prop :=
  Forall passes (request_checks d now m r offer asm options)
  /\ exists p j o key message signature did,
       cr_proof r = Some p /\ proof_token d (rp_jwt p) j /\ offer = Some o
       /\ Forall passes (token_checks d m o doc options j)
       /\ proof_key d doc (h_additional (j_header j)) key
       /\ proof_did d (h_additional (j_header j)) did
       /\ message_of (raw_text d j) message
       /\ after_second_dot (raw_text d j) signature
       /\ er_subject_id resp = did
       /\ er_credential resp = cr_format r
       /\ er_pop resp = Some {| pop_algorithm := h_alg (j_header j); pop_public_key := key;
                                pop_message := message; pop_signature := signature |}.

(* ------------------------------------------------------------------ *)
(** * Validation of a request, pre-evaluation, success responses *)

(** Checks of a proof, in order: proof_type, token syntax, typ. *)
Definition proof_checks (d : deps) (p : request_proof) : list check :=
  [ {| passes := ascii_ci (rp_proof_type p) (lit "jwt");
       reports := fun e => ~ ascii_ci (rp_proof_type p) (lit "jwt") /\ e = IValidationError proof_type_error;
       panics := False |};
    {| passes := exists j, proof_token d (rp_jwt p) j;
       reports := fun e => exists v, token_error d (rp_jwt p) v /\ e = IValidationError v;
       panics := False |};
    {| passes := exists j, proof_token d (rp_jwt p) j /\ ascii_ci (h_typ (j_header j)) proof_typ;
       reports := fun e => exists j, proof_token d (rp_jwt p) j
                   /\ ~ ascii_ci (h_typ (j_header j)) proof_typ /\ e = IValidationError typ_error;
       panics := False |} ].

Definition valid_request (d : deps) (r : credential_request) : Prop :=
  forall p, cr_proof r = Some p -> Forall passes (proof_checks d p).

Definition request_error (d : deps) (r : credential_request) (e : issuer_error) : Prop :=
  exists p, cr_proof r = Some p /\ first_reports (proof_checks d p) e.

(** The DID that pre-evaluation asks to resolve. *)
Definition did_check (d : deps) (p : request_proof) : check :=
  {| passes := exists j did, proof_token d (rp_jwt p) j /\ proof_did d (h_additional (j_header j)) did;
     reports := fun e => exists j v, proof_token d (rp_jwt p) j
                 /\ did_error d (h_additional (j_header j)) v /\ e = IJwtError v;
     panics := False |}.

Definition pre_answer (d : deps) (r : credential_request) (did : option str) : Prop :=
  (cr_proof r = None /\ did = None)
  \/ (exists p j, cr_proof r = Some p /\ Forall passes (proof_checks d p)
      /\ proof_token d (rp_jwt p) j /\ proof_did d (h_additional (j_header j)) did).

Definition pre_error (d : deps) (r : credential_request) (e : issuer_error) : Prop :=
  exists p, cr_proof r = Some p /\ first_reports (proof_checks d p ++ [did_check d p]) e.

(* ------------------------------------------------------------------ *)
(** * Comparing outcomes *)

(** Both calls fail in the same way, or both succeed with the same subject,
    credential and public key. *)
Definition same_verdict (x y : res issuer_error eval_response) : Prop :=
  match x, y with
  | Ok a, Ok b =>
      er_subject_id a = er_subject_id b /\ er_credential a = er_credential b
      /\ option_map pop_public_key (er_pop a) = option_map pop_public_key (er_pop b)
  | Err e, Err f => e = f
  | Panic, Panic => True
  | _, _ => False
  end.

(** A token with another iss, alg, validity window or signature. *)
Definition with_iss (iss : option str) (j : proof_jwt) : proof_jwt :=
  {| j_header := j_header j;
     j_body := {| b_iss := iss; b_aud := b_aud (j_body j); b_sub := b_sub (j_body j);
                  b_iat := b_iat (j_body j); b_nonce := b_nonce (j_body j);
                  b_nbf := b_nbf (j_body j); b_exp := b_exp (j_body j) |};
     j_signature := j_signature j |}.
Definition with_alg (alg : proof_alg) (j : proof_jwt) : proof_jwt :=
  {| j_header := {| h_typ := h_typ (j_header j); h_alg := alg; h_additional := h_additional (j_header j) |};
     j_body := j_body j; j_signature := j_signature j |}.
Definition with_window (nbf exp : option instant) (j : proof_jwt) : proof_jwt :=
  {| j_header := j_header j;
     j_body := {| b_iss := b_iss (j_body j); b_aud := b_aud (j_body j); b_sub := b_sub (j_body j);
                  b_iat := b_iat (j_body j); b_nonce := b_nonce (j_body j);
                  b_nbf := nbf; b_exp := exp |};
     j_signature := j_signature j |}.
Definition with_signature (sig : option str) (j : proof_jwt) : proof_jwt :=
  {| j_header := j_header j; j_body := j_body j; j_signature := sig |}.
