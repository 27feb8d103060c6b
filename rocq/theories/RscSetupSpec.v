(* Vocabulary for the preparation of rhosigchi. *)
From Verif Require Import PyBase RebinSpec MatrixModel MatrixSpec RhosigchiModel RhosigchiSpec RscSetupModel.
Local Open Scope Qc_scope.

(* a square matrix without uncertainties on one axis *)
Definition on_axis (m : matrix) (e : list Qc) : Prop :=
  consistent m /\ std m = None /\ Ex m = e /\ Eg m = e.

(* new is old with k more bins of the same width at the low end *)
Definition more_bins (old new : list Qc) (k : nat) : Prop :=
  length new = (k + length old)%nat /\ equidistant new /\ width new = width old /\
  forall i, (i < length old)%nat -> nth (k + i) new 0 = nth i old 0.
(* the counts stay at their energies; the new rows and columns are empty *)
Definition moved (k : nat) (m m' : matrix) : Prop :=
  forall i j, (i < k + length (Ex m))%nat -> (j < k + length (Eg m))%nat ->
    mget (a_rows (values m')) i j =
    if (i <? k)%nat || (j <? k)%nat then 0 else mget (a_rows (values m)) (i - k) (j - k).

(* the energy lies in bin i of the axis *)
Definition in_bin (axis : list Qc) (i : Z) (E : Qc) : Prop :=
  (0 <= i < Z.of_nat (length axis))%Z /\
  bin_lo axis (Z.to_nat i) <= E /\ E < bin_hi axis (Z.to_nat i).

(* r is one more than the last index in [lo, hi) where P holds, or d if there is none *)
Definition one_past (P : Z -> Prop) (lo hi d r : Z) : Prop :=
  (r = d /\ forall j, (lo <= j < hi)%Z -> ~ P j) \/
  (exists j, (lo <= j < hi)%Z /\ P j /\ r = (j + 1)%Z /\ forall j', (j < j' < hi)%Z -> ~ P j').

(* number of members whose results have to be computed *)
Fixpoint fresh {V} (l : list (member V)) : nat :=
  match l with [] => 0%nat | Saved _ :: l' => fresh l' | Fresh _ :: l' => S (fresh l') end.
