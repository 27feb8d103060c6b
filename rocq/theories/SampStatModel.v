(* ompy/ensembleNormalizer.py: samples_unify_E (411-443), vec_extend
   (735-745), plot_vector_stats (445-512) and stats_from_df (514-540): how the
   transformed samples of all ensemble members are put on one energy grid and
   summarised by a median and two percentiles per energy.

   The plotting calls are left out.  NaN is [None].  numpy's and pandas'
   routines (union1d, in1d, median, quantile) are modelled from their
   documentation for float arrays; the pandas default interpolation 'linear'
   is the one used. *)
From Verif Require Import Num PyBase.

(* The pieces of a Vector (ompy/vector.py 48-92) these functions touch: the
   energies, the values and, untouched by them, the uncertainties. *)
Record svec := mkS { s_E : list Qc; s_val : list (option Qc); s_std : option (list Qc) }.

(* ascending sort of numbers: np.sort, used by np.union1d (line 433) and by
   pandas' quantile and median (536-538) *)
Fixpoint insert (x : Qc) (l : list Qc) : list Qc :=
  match l with
  | [] => [x]
  | y :: r => if qleb x y then x :: l else y :: insert x r
  end.
Definition isort (l : list Qc) : list Qc := fold_right insert [] l.

(* np.unique of a sorted array, used by np.union1d (line 433) *)
Fixpoint dedup (l : list Qc) : list Qc :=
  match l with
  | [] => []
  | x :: r => match r with
              | [] => [x]
              | y :: _ => if qeqb x y then dedup r else x :: dedup r
              end
  end.
(* np.union1d (line 433): sorted, without repetitions *)
Definition union1d (a b : list Qc) : list Qc := dedup (isort (a ++ b)).

(* np.in1d (438-439): for each x of l, whether it occurs in m *)
Definition qin (x : Qc) (m : list Qc) : bool := existsb (qeqb x) m.
Definition in1d (l m : list Qc) : list bool := map (fun x => qin x m) l.

(* vec_extend (735-745): vector.E[0], vector.E[-1] *)
Definition vec_extend (v : svec) : result (Qc * Qc) :=
  match s_E v with
  | [] => Raise IndexError
  | x :: r => Ok (x, last (x :: r) x)
  end.

(* rest of samples_unify_E, 425-443: values[mask] selects, and
   val_union[mask] = ... stores in order; the numbers of entries selected must
   agree (or be one: numpy would then repeat it; the model raises ValueError
   in that case too when the counts differ, which needs repeated energies) *)
Fixpoint mask_sel {A} (m : list bool) (l : list A) : list A :=
  match m, l with
  | b :: m', x :: l' => if b then x :: mask_sel m' l' else mask_sel m' l'
  | _, _ => []
  end.
Fixpoint mask_put {A} (m : list bool) (base src : list A) : list A :=
  match m, base with
  | b :: m', x :: base' =>
      if b then match src with
                | y :: src' => y :: mask_put m' base' src'
                | [] => x :: mask_put m' base' []
                end
      else x :: mask_put m' base' src
  | _, _ => base
  end.
Definition count_true (m : list bool) : nat := length (filter (fun b => b) m).

(* vec_extend_values, 435-443: the boolean index vec.values[interEold] needs
   a mask as long as the values (IndexError otherwise) *)
Definition vec_extend_values (Eunion : list Qc) (v : svec) : result svec :=
  let mu := in1d Eunion (s_E v) in
  let mo := in1d (s_E v) Eunion in
  if negb (Nat.eqb (length mo) (length (s_val v))) then Raise IndexError
  else if negb (Nat.eqb (count_true mu) (count_true mo)) then Raise ValueError
  else Ok (mkS Eunion (mask_put mu (map (fun _ => None) Eunion) (mask_sel mo (s_val v))) (s_std v)).

(* the first index of the smallest / largest entry: np.argmin, np.argmax *)
Fixpoint argbest (better : Qc -> Qc -> bool) (i : nat) (x : Qc) (k : nat) (l : list Qc) : nat :=
  match l with
  | [] => i
  | y :: r => if better y x then argbest better k y (S k) r else argbest better i x (S k) r
  end.
Definition argmin (l : list Qc) : nat :=
  match l with [] => 0%nat | x :: r => argbest (fun y x => qltb y x) 0 x 1 r end.
Definition argmax (l : list Qc) : nat :=
  match l with [] => 0%nat | x :: r => argbest (fun y x => qltb x y) 0 x 1 r end.

Fixpoint rmapl {A B} (f : A -> result B) (l : list A) : result (list B) :=
  match l with
  | [] => Ok []
  | x :: r => do y <- f x ;; do ys <- rmapl f r ;; Ok (y :: ys)
  end.

(* samples_unify_E, 411-443.  The vectors are changed in place; the model
   returns the new ones.  An empty column fails at extend[0] (IndexError). *)
Definition samples_unify_E (df : list svec) : result (list svec) :=
  do ext <- rmapl vec_extend df ;;
  match ext with
  | [] => Raise IndexError
  | e0 :: _ =>
      if forallb (fun e => qeqb (fst e0) (fst e) && qeqb (snd e0) (snd e)) ext then Ok df
      else
        let d := mkS [] [] None in
        let vmin := nth (argmin (map fst ext)) df d in
        let vmax := nth (argmax (map snd ext)) df d in
        rmapl (vec_extend_values (union1d (s_E vmin) (s_E vmax))) df
  end.

(* pandas Series.quantile(q), interpolation 'linear', NaN skipped (537-538):
   the sorted entries read at the fractional position q (n - 1) *)
Definition present (l : list (option Qc)) : list Qc :=
  flat_map (fun o => match o with Some x => [x] | None => [] end) l.
Definition at_pos (s : list Qc) (h : Qc) : Qc :=
  let k := Z.to_nat (qfloor h) in
  let k1 := Nat.min (S k) (length s - 1) in
  vget s k + (h - qnat k) * (vget s k1 - vget s k).
Definition quantile (q : Qc) (l : list (option Qc)) : option Qc :=
  match isort (present l) with
  | [] => None
  | s => Some (at_pos s (q * qnat (length s - 1)))
  end.
(* DataFrame.median (536): middle entry, or mean of the two middle ones *)
Definition median (l : list (option Qc)) : option Qc :=
  match isort (present l) with
  | [] => None
  | s => Some ((vget s (Nat.div2 (length s - 1)) + vget s (Nat.div2 (length s))) / (1 + 1))
  end.

(* one line of the table of 535-538 *)
Record stat := mkStat { st_median : option Qc; st_low : option Qc; st_high : option Qc }.

(* out[idx] = vec.values (469-471): the row must have the width of out, or
   one entry, which numpy repeats *)
Definition put_row (n : nat) (v : svec) : result (list (option Qc)) :=
  if Nat.eqb (length (s_val v)) n then Ok (s_val v)
  else match s_val v with
       | [x] => Ok (repeat x n)
       | _ => Raise ValueError
       end.

(* stats_from_df, 514-540, with fmap = vec_to_values (469-471) as called in
   plot_vector_stats (473-477): n is the number of energies of the first
   vector; pandas refuses percentiles outside [0, 1] *)
Definition stats_from_df (n : nat) (p0 p1 : Qc) (df : list svec) : result (list stat) :=
  do rows <- rmapl (put_row n) df ;;
  if negb (qleb 0 p0 && qleb p0 1 && (qleb 0 p1 && qleb p1 1)) then Raise ValueError
  else Ok (tab n (fun j =>
         let c := map (fun r => nth j r None) rows in
         mkStat (median c) (quantile p0 c) (quantile p1 c))).

(* plot_vector_stats, 473-478, after samples_unify_E (plot, 261-262, 268-270):
   the table with its energies (stats["x"] = E of the first vector) *)
Definition vector_stats (p0 p1 : Qc) (df : list svec) : result (list (Qc * stat)) :=
  do df' <- samples_unify_E df ;;
  match df' with
  | [] => Raise IndexError
  | v :: _ => do st <- stats_from_df (length (s_E v)) p0 p1 df' ;; Ok (combine (s_E v) st)
  end.
