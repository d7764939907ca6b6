(** Metadata that change while offers are around: credentials are published and
    withdrawn, and everything else is edited. *)
From Coq Require Import Permutation.
From Verif Require Import Model.Prelude Model.Json Model.Types Spec SpecOffer.

(** May an id be given to another credential once it is free, or never? *)
Inductive id_policy := FreeAgain | NeverAgain.

(** Versions of the metadata, the last one first. *)
Inductive maintained (p : id_policy) : list issuer_metadata -> Prop :=
| maintained_start m : ids_distinct (im_credentials_supported m) -> maintained p [m]
| maintained_publish m h m' c before after :
    maintained p (m :: h) ->
    im_credentials_supported m = before ++ after -> im_credentials_supported m' = before ++ c :: after ->
    (forall id v, sup_id c = Some id -> In v (match p with FreeAgain => [m] | NeverAgain => m :: h end) -> ~ known_id v id) ->
    maintained p (m' :: m :: h)
| maintained_withdraw m h m' c before after :
    maintained p (m :: h) ->
    im_credentials_supported m = before ++ c :: after -> im_credentials_supported m' = before ++ after ->
    maintained p (m' :: m :: h)
| maintained_edit m h m' :
    maintained p (m :: h) ->
    Permutation (map (fun c => (sup_id c, sup_format c)) (im_credentials_supported m))
      (map (fun c => (sup_id c, sup_format c)) (im_credentials_supported m')) ->
    maintained p (m' :: m :: h).
