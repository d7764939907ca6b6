(** Vocabulary for C109 and C110: metadata that grows, and documents that reach a
    party through others. *)
From Verif Require Import Model.Prelude Model.Json Model.Types Spec SpecOffer SpecHops.

(** [c] is published in addition: somewhere in the list, by the same issuer; the
    rest of the metadata may change. *)
Definition adds (c : credential_supported) (m m' : issuer_metadata) : Prop :=
  im_credential_issuer m' = im_credential_issuer m
  /\ exists before after,
       im_credentials_supported m = before ++ after
       /\ im_credentials_supported m' = before ++ c :: after.

(** Under an id that is not in use, or under none. *)
Definition fresh (m : issuer_metadata) (c : credential_supported) : Prop :=
  forall id, sup_id c = Some id -> ~ known_id m id.

(** Any number of such publications. *)
Inductive grown (m : issuer_metadata) : issuer_metadata -> Prop :=
| grown_not : grown m m
| grown_more m1 c m2 : grown m m1 -> adds c m1 m2 -> fresh m1 c -> grown m m2.

(** The document [s], which is read to [x], reaches a party through [k] others, and
    that party reads [x']. *)
Definition reaches {A : Type} (read : str -> option A) (write : A -> str) (s : str) (x : A)
    (k : nat) (x' : A) : Prop :=
  read s = Some x /\ exists t, passed_on read write k s = Some t /\ read t = Some x'.
