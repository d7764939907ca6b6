(** Vocabulary for errors, error responses and return objects whose free-form parts
    hold any numbers and nest to any depth (C11, C61, C63, C64). *)
From Verif Require Import Model.Prelude Model.Json Model.Types Model.Deps Model.Errors Spec SpecErrors SpecRelay.

(** Error information as the program can hold it. *)
Definition information_any (e : error_information) : Prop :=
  ei_code e < 2 ^ 32 /\ rust_string (ei_name e) /\ rust_string (ei_description e)
  /\ on_some json_any (ei_additional e).

(** Errors as the program can hold them, wrapped in one another any number of times. *)
Definition error_any (d : deps) (e : any_error) : Prop :=
  match e with
  | AValidation e => Forall rust_string (validation_texts e)
  | AJwt e => Forall rust_string (jwt_texts d e)
  | AIssuer (IInvalidRequestedCredential c l) => cfp_with json_any c /\ Forall (cfp_with json_any) l
  | AIssuer e => Forall rust_string (issuer_texts d e)
  | AToken e => Forall rust_string (token_texts e)
  end.

(** The members of a return object: those that are present, in this order. *)
Definition return_members {T} (f : T -> json) (r : return_object T error_information str) : list (str * json) :=
  match ro_info r with Some t => [(lit "info", f t)] | None => [] end
  ++ match ro_error r with Some e => [(lit "error", JObj (information_members e))] | None => [] end
  ++ match ro_warnings r with Some ws => [(lit "warnings", JArr (map JStr ws))] | None => [] end.
