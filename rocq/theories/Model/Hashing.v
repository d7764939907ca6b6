(** The bytes which the derived [Hash] of a type feeds to a hasher. Paths are
    relative to /repo/crates/openid4vci/src. The contracts of the standard library:
    a [str] feeds its bytes and 0xff, a [u32] its four bytes, an [Option] the
    number of its variant as an [isize] (64-bit) and its content, a derived struct
    its fields in order. What chrono feeds for a [DateTime<Utc>] is an argument. *)
From Verif Require Import Model.Prelude Model.Json Model.Types.

(** [n] little-endian in [k] bytes. *)
Fixpoint hash_bytes (k : nat) (n : N) : str :=
  match k with O => [] | S k' => chr (n mod 256) :: hash_bytes k' (n / 256) end.

Definition hash_str (s : str) : str := s ++ [chr 255].
Definition hash_u32 (n : N) : str := hash_bytes 4 n.
Definition hash_option {A : Type} (f : A -> str) (o : option A) : str :=
  match o with None => hash_bytes 8 0 | Some x => hash_bytes 8 1 ++ f x end.

(** types/credential.rs:146-157 [CredentialSubjectDisplay]. *)
Definition hash_subject_display (s : subject_display) : str :=
  hash_option hash_str (sd_name s) ++ hash_option hash_str (sd_locale s).

(** credential_issuer/mod.rs:354-365 [CNonce]. *)
Definition hash_c_nonce (n : c_nonce) : str :=
  hash_str (cn_c_nonce n) ++ hash_option hash_u32 (cn_expires_in n).

(** credential_issuer/mod.rs:394-404 [CNonceOptions]. *)
Definition hash_c_nonce_options (t : instant -> str) (o : c_nonce_options) : str :=
  hash_u32 (cno_expires_in o) ++ hash_str (cno_expected o) ++ t (cno_created_at o).

(** credential_issuer/mod.rs:368-391 [EvaluateCredentialRequestOptions]. *)
Definition hash_eval_options (t : instant -> str) (o : eval_options) : str :=
  hash_option (hash_c_nonce_options t) (eo_c_nonce o) ++ hash_option hash_str (eo_client_id o).
