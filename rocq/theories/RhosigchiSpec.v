(* Vocabulary for the rhosigchi iteration. *)
From Coq Require Import List ZArith QArith Qcanon.
From Verif Require Import Num PyBase RhosigchiModel.
Import ListNotations.
Local Open Scope Qc_scope.

(* entry i of an array, 0 outside *)
Definition entry (l : list Qc) (i : Z) : Qc :=
  if (i <? 0)%Z then 0 else nth (Z.to_nat i) l 0.
Definition entry2 (m : list (list Qc)) (i j : Z) : Qc :=
  if (i <? 0)%Z then 0 else entry (nth (Z.to_nat i) m []) j.
Definition gmax (L : limits) (ix : Z) : Z := nth (Z.to_nat ix) (igmax L) 0%Z.

(* the change allowed from one iteration to the next: by the factor v, or to zero *)
Definition allowed (v old new : Qc) : Prop :=
  0 <= new /\ (new = 0 \/ (old / v <= new /\ new <= v * old)).

(* the model of the first generation spectrum: product of transmission coefficient and
   level density, divided by the sum over the row *)
Definition product (L : limits) (rho sig : list Qc) (ix ig : Z) : Qc :=
  entry sig ig * entry rho (ix - ig + iu0 L).
Definition row_total (L : limits) (rho sig : list Qc) (ix : Z) : Qc :=
  qsum (map (product L rho sig ix) (zrange (igmin L) (gmax L ix))).

(* the matrix is exactly such a product, with positive uncertainties *)
Definition factorises (L : limits) (FgN sFgN : list (list Qc)) (rho sig : list Qc) : Prop :=
  forall ix, (jmin L <= ix < jmax L)%Z -> 0 < row_total L rho sig ix /\
    forall ig, (igmin L <= ig < gmax L ix)%Z ->
      entry2 FgN ix ig = product L rho sig ix ig / row_total L rho sig ix /\
      0 < entry2 sFgN ix ig.

Definition nonneg (l : list Qc) : Prop := forall x, In x l -> 0 <= x.
