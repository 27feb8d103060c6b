(* Vocabulary for unfolding: n x n matrices as functions, and what "best" means. *)
From Verif Require Import PyBase ArithModel UnfoldModel.

Definition idm (i j : nat) : Qc := if Nat.eqb i j then 1 else 0.
Definition mmul (n : nat) (A B : nat -> nat -> Qc) (i j : nat) : Qc := sumn n (fun l => A i l * B l j).
(* A^k *)
Fixpoint mpow (n : nat) (A : nat -> nat -> Qc) (k : nat) : nat -> nat -> Qc :=
  match k with
  | O => idm
  | S k' => mmul n (mpow n A k') A
  end.
(* I - R *)
Definition id_minus (R : nat -> nat -> Qc) (i j : nat) : Qc := idm i j - R i j.
(* I + A + ... + A^k *)
Definition geometric (n : nat) (A : nat -> nat -> Qc) (k i j : nat) : Qc := sumn (S k) (fun m => mpow n A m i j).
(* every response function (row) sums to one *)
Definition row_stochastic (n : nat) (R : nat -> nat -> Qc) : Prop := forall i, (i < n)%nat -> sumn n (R i) = 1.

(* strict order of scores, nan incomparable *)
Definition xlt (x y : xnum) : Prop :=
  match x, y with
  | Fin a, Fin b => a < b
  | Fin _, PInf | NInf, Fin _ | NInf, PInf => True
  | _, _ => False
  end.
(* position selected by numpy as the minimum: the first nan if there is one, otherwise
   the first of the smallest *)
Definition best (l : list xnum) (k : nat) : Prop :=
  (k < length l)%nat /\
  ((nth k l NaN = NaN /\ forall j, (j < k)%nat -> nth j l NaN <> NaN) \/
   ((forall j, (j < length l)%nat -> nth j l NaN <> NaN) /\
    (forall j, (j < length l)%nat -> ~ xlt (nth j l NaN) (nth k l NaN)) /\
    (forall j, (j < k)%nat -> xlt (nth k l NaN) (nth j l NaN)))).
(* chi^2 of a row: bins without raw counts do not contribute *)
Definition chi2 (n : nat) (raw folded : nat -> Qc) : Qc :=
  sumn n (fun j => if qltb 0 (raw j) then (folded j - raw j) * (folded j - raw j) / raw j else 0).
