(* What the weights and the subtraction of the first-generation method should be. *)
From Verif Require Import PyBase MatrixModel VectorModel VectorSpec FirstGenModel.

(* n x n weights: W i k is the probability that a decay from Ex bin i goes to bin k < i *)
Definition decay_weights (n : nat) (W : list (list Qc)) : Prop :=
  length W = n /\
  forall i, (i < n)%nat ->
    length (nth i W []) = n /\
    (forall k, (k < n)%nat -> 0 <= mget W i k) /\
    (forall k, (i <= k < n)%nat -> mget W i k = 0) /\
    (sumn n (mget W i) = 1 \/ forall k, (k < n)%nat -> mget W i k = 0).
(* two lists of rows agree on the rows 0..i *)
Definition agree_upto {A} (i : nat) (H H' : list (list A)) : Prop :=
  forall r, (r <= i)%nat -> nth r H [] = nth r H' [].
(* share of the first generation spectrum of row i that ends in row k (firstgeneration.py
   docstring: weight(Ex -> Ex')) *)
Definition branching (v : arr2) (i k : nat) : Qc :=
  div0 (aget v i (i - k)) (sumn (S i) (fun l => aget v i l)).
(* AG(Ex) = FG(Ex), one per population, plus the weighted AG of the rows k that decay into;
   upto i is the number of rows that contribute to row i *)
Definition allgen_formula (v : arr2) (x : list Qc) (nr nc : nat) (A : nat -> nat -> Qc) : Prop :=
  forall i j, (i < nr)%nat -> (j < nc)%nat ->
    A i j = div0 (aget v i j) (sumn nc (aget v i)) * vget x i +
            sumn i (fun k => vget x i * branching v i k * div0 (A k j) (vget x k)).
(* counts of a row *)
Definition counts_of (m : matrix) (i : nat) : Qc := qsum (nth i (a_rows (values m)) []).
(* how many counts of row k belong to one count of row i, per unit of weight: the ratio of
   the counts per cascade of the two rows *)
Definition gen_norm (g : fgen) (m : matrix) (i k : nat) : Qc :=
  div0 (counts_of m i * vget (multiplicity g m) k) (vget (multiplicity g m) i * counts_of m k).
(* the factor a valley correction applies to row k (length 1: the same for all) *)
Definition factor (vc : option (list Qc)) (k : nat) : Qc :=
  match vc with None => 1 | Some c => match c with [x] => x | _ => vget c k end end.
Definition valley_ok (g : fgen) : Prop := forall v, g_valley g = Some v -> v_consistent v /\ v_E v <> [].
(* documented ranges of the parameters of the statistical multiplicity *)
Definition params_ok (g : fgen) : Prop :=
  g_method g = Statistical -> 0 <= g_shift g /\ 0 <= g_upper g /\ (g_slide g = true -> 0 <= g_lower g).
(* the cross-section used by allgen_from_primary *)
Definition population (fg : matrix) (xs : option (list Qc)) : list Qc :=
  match xs with Some x => x | None => map qsum (a_rows (values fg)) end.
