(** A tactic for the well-formedness of concrete values, used by the examples. *)
From Coq Require Import Lia.
From Verif Require Import Model.Prelude Model.Utf8 Model.Json Model.Types Spec Proofs.Utf8Facts Proofs.JsonFacts.

Ltac in_cases :=
  repeat match goal with
  | H : In _ [] |- _ => destruct H
  | H : In _ (_ :: _) |- _ => destruct H as [H|H]
  | H : False |- _ => destruct H
  | H : _ \/ _ |- _ => destruct H as [H|H]
  end.

Ltac ok_step :=
  match goal with
  | |- rust_string _ => apply rust_string_ascii; reflexivity
  | |- _ /\ _ => split
  | |- True => exact I
  | |- on_some _ None => intros ? ?; discriminate
  | |- on_some _ (Some _) => let E := fresh in intros ? E; injection E as <-
  | |- Forall _ [] => constructor
  | |- Forall _ (_ :: _) => constructor
  | |- hmap_ok _ _ => split; [unfold hmap_wf; cbn; repeat constructor; cbn; intuition discriminate
                             | intros ? ? ?; cbn in *; in_cases;
                               repeat match goal with H : (_, _) = (_, _) |- _ => injection H as <- <- end]
  | |- value_ok _ _ => split; [|split]
  | |- json_ok _ => constructor
  | |- value _ => constructor
  | |- (_ <= _)%nat => cbn; lia
  | |- (_ <= _)%Z => lia
  | |- (_ < _)%Z => lia
  | |- Sorted.StronglySorted _ _ => cbn; repeat constructor
  | |- forall x, In x _ -> _ => intros ? ?; cbn in *; in_cases; subst
  | |- forall k v, In (k, v) _ -> _ => intros ? ? ?; cbn in *; in_cases;
        repeat match goal with H : (_, _) = (_, _) |- _ => injection H as <- <- end
  | |- u32 _ => reflexivity
  | |- u64 _ => reflexivity
  | |- ?P ?x => let f := head_of P in unfold f; cbn
  | |- ?P ?x => progress (hnf)
  end
with head_of t := match t with ?f _ => head_of f | _ => t end.
Ltac ok := repeat ok_step.
