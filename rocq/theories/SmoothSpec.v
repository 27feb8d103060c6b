(* What smoothing and shifting should mean. *)
From Verif Require Import PyBase.

Definition pos_part (x : Qc) : Qc := if qltb 0 x then x else 0.
(* the counts moved by k bins; those moved off the axis are lost *)
Definition moved_by (k : Z) (counts : list Qc) : list Qc :=
  tab (length counts) (fun j =>
    let i := (Z.of_nat j - k)%Z in
    if ((0 <=? i) && (i <? Z.of_nat (length counts)))%Z then vget counts (Z.to_nat i) else 0).
(* W i j: the fraction of the counts of bin i that ends in bin j *)
Definition proper_weights (n : nat) (W : nat -> nat -> Qc) : Prop :=
  forall i, (i < n)%nat -> sumn n (W i) = 1 /\ forall j, 0 <= W i j.
