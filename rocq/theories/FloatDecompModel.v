(* ompy/decomposition.pyx 15-216 in double precision: every operation rounded to the nearest double
   (TextNumModel.near, no overflow).  The file is compiled with -O3 -ffast-math (setup.py), which allows
   the compiler to reassociate sums, to multiply by a reciprocal and to fuse operations; numpy's sum adds
   in blocks.  The order of a sum is therefore a parameter (a tree of additions over the summands in any
   order), and the rounding of a term of chi square is bounded and not fixed.  DecompModel is the same
   code over exact numbers. *)
From Coq Require Import Reals ZArith List Permutation.
From Flocq Require Import Core.
From Verif Require Import TextNumModel FloatRebinModel.
Import ListNotations.
Local Open Scope R_scope.

(* an order of additions *)
Inductive stree := Leaf (x : R) | Node (l r : stree).
Fixpoint leaves (t : stree) : list R := match t with Leaf x => [x] | Node l r => leaves l ++ leaves r end.
(* the sum computed in this order *)
Fixpoint fsum (t : stree) : R := match t with Leaf x => x | Node l r => fadd (fsum l) (fsum r) end.
(* s is a sum of the list l, computed in some order *)
Definition sums_to (l : list R) (s : R) : Prop := exists t, Permutation (leaves t) l /\ fsum t = s.

(* decomposition.pyx:44 halfbin *)
Definition f_halfbin (Eg : list R) : R := fdiv (fsub (nth 1 Eg 0) (nth 0 Eg 0)) 2.
(* 53 (66): Eg_max = Ex + resolution + halfbin, in some order *)
Definition f_egmax (Ex res Eg : list R) (i : nat) (emax : R) : Prop := sums_to [nth i Ex 0; nth i res 0; f_halfbin Eg] emax.
(* 79-106 _index (110-147 index): (array[i] - element)**2, compared with its predecessor *)
Definition f_dist (a e : R) : R := let d := fsub a e in fmul d d.
Fixpoint f_index_from (i : nat) (prev : R) (l : list R) (e : R) : nat :=
  match l with
  | [] => i
  | a :: t => if Rlt_dec prev (f_dist a e) then i else f_index_from (S i) (f_dist a e) t e
  end.
Definition f_index (E : list R) (e : R) : nat := match E with [] => 0%nat | a :: t => f_index_from 0 (f_dist a e) t e end.
(* 57-59 (70-72): the value stored in column j *)
Definition f_cell (nld T E : list R) (x g : R) (j : nat) : R := fmul (nth (f_index E (fsub x g)) nld 0) (nth j T 0).
(* 55-60 (68-73): the row of excitation energy x; columns from the first Eg > emax on keep the zero of np.zeros *)
Fixpoint f_row_from (nld T E : list R) (x emax : R) (Eg : list R) (j : nat) : list R :=
  match Eg with
  | [] => []
  | g :: t => if Rle_dec g emax then f_cell nld T E x g j :: f_row_from nld T E x emax t (S j) else map (fun _ => 0) (g :: t)
  end.
Definition f_row (nld T E : list R) (x emax : R) (Eg : list R) : list R := f_row_from nld T E x emax Eg 0.
(* 203-216 normalize: the row divided by its sum s *)
Definition f_normalize (row : list R) (s : R) : list R := map (fun x => fdiv x s) row.

(* 176-181, 195-201: one term of chi square, (fact - fit)**2/std**2 as written *)
Definition f_chi_term (a b s : R) : R := let d := fsub a b in fdiv (fmul d d) (fmul s s).
(* as -ffast-math may compile it: with the reciprocal, or with the quotient squared *)
Definition f_chi_term_rcp (a b s : R) : R := let d := fsub a b in fmul (fmul d d) (fdiv 1 (fmul s s)).
Definition f_chi_term_sq (a b s : R) : R := let q := fdiv (fsub a b) s in fmul q q.
