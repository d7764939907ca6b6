(** Documents without content of their own: error codes by themselves and
    authorization server metadata. *)
From Verif Require Import Model.Prelude Model.Json SpecJson.

(** The two texts serde has for a variant without fields. *)
Definition names_variant (s : str) (name : string) : Prop :=
  json_text s (JStr (lit name)) \/ json_text s (JObj [(lit name, JNull)]).

(** An object with any members, or an empty array; no member is known, so the
    values are only skipped. *)
Definition any_object_text (s : str) : Prop :=
  exists v, struct_text [] s v /\ (v = JArr [] \/ exists m, v = JObj m).
