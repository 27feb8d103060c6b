(* What filling negative bins should and should not do. *)
From Verif Require Import PyBase MatrixModel FillModel.

(* the integer r is ceil((w-1)/2) *)
Definition half_window (w r : Z) : Prop := (w - 1 <= 2 * r)%Z /\ (2 * r < w + 1)%Z.
Definition within (w : Z) (i j : nat) : Prop :=
  exists r, half_window w r /\ (Z.of_nat i - r <= Z.of_nat j <= Z.of_nat i + r)%Z.
(* counts moved from non-negative to negative bins, none of which changes sign; the sum is
   kept *)
Definition moved (row row' : list Qc) : Prop :=
  length row' = length row /\ qsum row' = qsum row /\
  forall i, (i < length row)%nat ->
    (0 <= vget row i -> 0 <= vget row' i /\ vget row' i <= vget row i) /\
    (vget row i < 0 -> vget row i <= vget row' i /\ vget row' i <= 0).
(* an ordering of the positions of l by ascending value *)
Definition sorts (l : list Qc) (order : list nat) : Prop :=
  Permutation order (seq 0 (length l)) /\
  forall a b, (a < b < length order)%nat -> vget l (nth a order 0%nat) <= vget l (nth b order 0%nat).
(* what fill_negative_max guarantees for one row *)
Definition filled (ws : list Z) (row row' : list Qc) : Prop :=
  moved row row' /\
    (forall j, (j < length row)%nat -> vget row' j <> vget row j ->
       exists i, (i < length row)%nat /\ vget row i < 0 /\ within (nth i ws 0%Z) i j) /\
    (forall i, (i < length row)%nat -> vget row' i < 0 ->
       forall j, (j < length row)%nat -> within (nth i ws 0%Z) i j -> vget row' j <= 0).
(* the window size of every bin *)
Definition windows (w : window_arg) (nc : nat) : list Z :=
  match w with WInt w => repeat w nc | WArr ws => ws end.
