(** The length of a written date (C112). *)
From Coq Require Import Lia ZifyBool ZifyN ZifyNat.
From Verif Require Import Model.Prelude Model.Types Model.Deps Model.Chrono Spec SpecTime SpecSizes Proofs.TimeFacts Proofs.TimeDocs.
Local Open Scope Z_scope.

Lemma pow_digits k y : 10 ^ (Z.of_nat k - 1) <= y -> y <= 262144 -> (k <= 6)%nat.
Proof.
  intros P Y. destruct (Nat.le_gt_cases k 6) as [|G]; [assumption|exfalso].
  assert (10 ^ 6 <= 10 ^ (Z.of_nat k - 1)) by (apply Z.pow_le_mono_r; lia). lia.
Qed.

Lemma brief_form s t : in_instant_range t = true -> written_form s t -> (List.length s <= 33)%nat.
Proof.
  intros R (x & c & n & ys & ms & ds & hs & mis & ss & fs & -> & Vx & D & C & E & Y & (M & _) & (Dd & _) & (H & _) & (Mi & _) & (S0 & _) & F).
  apply instant_range_years in R as (x' & c' & n' & Vx' & C' & D' & B & E').
  assert (n = n') as <-.
  { unfold instant_of in E, E'. destruct C as (? & ? & ? & ?). destruct C' as (? & ? & ? & ?). lia. }
  destruct (calendar_bijective n) as (z & _ & U). rewrite (U x' D'), <- (U x D) in B.
  assert (List.length ys <= 7)%nat as LY.
  { destruct Y as [(_ & L & _)|[(_ & k & r & (L & _) & _ & P & ->)|(Neg & k & r & (L & _) & _ & P & ->)]].
    - lia.
    - apply pow_digits in P; [|lia]. rewrite app_length. change (List.length (lit "+")) with 1%nat. lia.
    - rewrite app_length. change (List.length (lit "-")) with 1%nat. destruct P as [->|P]; [lia|]. apply pow_digits in P; lia. }
  assert (List.length fs <= 10)%nat as LF.
  { destruct F as [(_ & ->)|(k & q & r & -> & (L & _) & K & _)]; [cbn; lia|].
    rewrite app_length. change (List.length (lit ".")) with 1%nat. lia. }
  rewrite !app_length. change (List.length (lit "-")) with 1%nat. change (List.length (lit "T")) with 1%nat.
  change (List.length (lit ":")) with 1%nat. change (List.length (lit "Z")) with 1%nat. lia.
Qed.

Lemma chrono_brief d t : in_instant_range t = true -> (List.length (dt_print (with_chrono d) t) <= 33)%nat.
Proof. intros R. exact (brief_form _ t R (chrono_print_form t)). Qed.
