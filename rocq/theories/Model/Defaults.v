(** [Default] of the types that have it: derived, every field is its type's
    default (an empty string or list, [None], 0, the Unix epoch for a
    [DateTime<Utc>]). Paths are relative to /repo/crates/openid4vci/src;
    [CredentialOrId::default] (credential_issuer/mod.rs:44-48) is in
    [CredentialIssuer.v]. *)
From Verif Require Import Model.Prelude Model.Json Model.Types.

(** chrono 0.4.24: the default [DateTime<Utc>] is 1970-01-01 00:00:00. *)
Definition instant_default : instant := 0%Z.

(** types/credential_issuer_metadata.rs:12 [CredentialIssuerMetadata], 91
    [DisplayProperties] and 119 [DisplayLogo]. *)
Definition metadata_default : issuer_metadata :=
  {| im_credential_issuer := []; im_authorization_server := None; im_credential_endpoint := [];
     im_batch_credential_endpoint := None; im_credentials_supported := []; im_additional_fields := None |}.
Definition display_default : display_properties :=
  {| dp_name := []; dp_locale := None; dp_logo := None; dp_description := None;
     dp_background_color := None; dp_text_color := None |}.
Definition logo_default : display_logo := {| dl_url := None; dl_alt_text := None |}.

(** jwt/mod.rs:496 [ProofJwtBody]. *)
Definition body_default : jwt_body :=
  {| b_iss := None; b_aud := []; b_sub := None; b_iat := instant_default; b_nonce := [];
     b_nbf := None; b_exp := None |}.

(** error.rs:15 [ErrorInformation]. *)
Definition information_default : error_information :=
  {| ei_code := 0; ei_name := []; ei_description := []; ei_additional := None |}.

(** credential_issuer/mod.rs:78 [CredentialOrIds], 141 [AuthorizedCodeFlow], 148
    [PreAuthorizedCodeFlow], 266 [CredentialOfferGrants], 170 [CredentialOffer]. *)
Definition credential_or_ids_default : list credential_or_id := [].
Definition auth_flow_default : auth_flow := {| af_issuer_state := None |}.
Definition preauth_flow_default : preauth_flow := {| pf_code := []; pf_user_pin_required := None |}.
Definition grants_default : offer_grants := {| og_auth := None; og_pre := None |}.
Definition offer_default : credential_offer :=
  {| co_credential_issuer := []; co_credentials := credential_or_ids_default; co_grants := grants_default |}.

(** credential_issuer/mod.rs:286 [PreEvaluateCredentialRequestResponse], its
    field [did]. *)
Definition pre_response_default : option str := None.

(** credential_issuer/mod.rs:354 [CNonce], 394 [CNonceOptions], 368
    [EvaluateCredentialRequestOptions]. *)
Definition c_nonce_default : c_nonce := {| cn_c_nonce := []; cn_expires_in := None |}.
Definition c_nonce_options_default : c_nonce_options :=
  {| cno_expires_in := 0; cno_expected := []; cno_created_at := instant_default |}.
Definition eval_options_default : eval_options := {| eo_c_nonce := None; eo_client_id := None |}.
