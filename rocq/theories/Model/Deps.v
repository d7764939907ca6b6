(** What the crate takes from other crates and what is left abstract here. Every
    theorem that mentions [d : deps] holds for all such functions; facts about
    them are explicit premises (Spec.v), and Examples.v has an instance. *)
From Verif Require Import Model.Prelude Model.Json Model.Types.

(** [ssi_dids::DIDURL]: DID, path, query and fragment. *)
Record didurl : Type := {
  du_did : str; du_path : str; du_query : option str; du_fragment : option str }.

(** [DIDURL::to_string]. *)
Definition didurl_to_string (u : didurl) : str :=
  du_did u ++ du_path u
  ++ (match du_query u with Some q => lit "?" ++ q | None => [] end)
  ++ (match du_fragment u with Some f => lit "#" ++ f | None => [] end).

(** [ssi_jwk::Algorithm], split as the code does; [JAOther] carries the name
    under which serde writes it. The default is [none]. *)
Inductive jwk_alg : Type := JAEdDSA | JAOther (name : str).
Definition jwk_alg_default : jwk_alg := JAOther (lit "none").
Definition jwk_alg_name (a : jwk_alg) : str :=
  match a with JAEdDSA => lit "EdDSA" | JAOther n => n end.

(** [ssi_jwk::Params], as far as the code looks at it. *)
Inductive jwk_params : Type :=
| PEC (x_coordinate : option str)
| POKP (public_key : str)
| PSymmetric
| PRSA.

(** [ssi_jwk::JWK]: the result of [get_algorithm] and the parameters. *)
Record jwk : Type := { jwk_algorithm : option jwk_alg; jwk_parameters : jwk_params }.

(** [ssi_dids::Resource] as returned by [select_object]. *)
Inductive resource (VM : Type) : Type :=
| RVerificationMethod (vm : VM)
| ROther.
Arguments RVerificationMethod {VM} vm.
Arguments ROther {VM}.

Record deps : Type := {
  (** [ssi_dids::Document] and [ssi_dids::VerificationMethodMap]. *)
  Document : Type;
  VerificationMethod : Type;
  (** [DIDURL::try_from(String)]; [inl] is the error's text. *)
  did_url_try_from : str -> str + didurl;
  (** [Document::select_object]. *)
  select_object : Document -> didurl -> str + resource VerificationMethod;
  (** [VerificationMethodMap::get_jwk]. *)
  get_jwk : VerificationMethod -> str + jwk;
  (** [serde_json::from_str::<JWK>]. *)
  jwk_from_str : str -> str + jwk;
  (** chrono: text read by, and written by, the serde form of [DateTime<Utc>],
      and its [Display]. *)
  dt_parse : str -> option instant;
  dt_print : instant -> str;
  dt_display : instant -> str;
  (** Text of the errors of base64 and serde_json for a given input. *)
  base64_error : str -> str;
  serde_error : str -> str;
  (** Non-ASCII part of [str::to_lowercase], given the text before and after the
      character, and of [char::to_uppercase]. *)
  lower_table : list N -> N -> list N -> list N;
  upper_table : N -> list N;
  (** Whether a flattened [Value::Null] can be serialized (depends on the serde
      release; used for [ErrorResponse] only). *)
  flatten_unit_ok : bool }.
