(* Model of fill_negative_max, fill_negative_gauss and shuffle_counts (ompy/library.py) and
   of the Matrix methods that use them. *)
From Verif Require Import PyBase MatrixModel.

(* library.py:195-215 shuffle_counts: fill = min(0, pos+neg), rest = max(0, pos+neg);
   row[i_to] = fill, then row[i_from] = rest *)
Definition shuffle_counts (row : list Qc) (i_from i_to : nat) : list Qc :=
  let s := vget row i_from + vget row i_to in
  upd (upd row i_to (qmin 0 s)) i_from (qmax 0 s).

(* np.where(row < 0)[0] *)
Definition negatives (row : list Qc) : list nat :=
  filter (fun i => qltb (vget row i) 0) (seq 0 (length row)).

(* np.argmax: the first maximum; ValueError on an empty array *)
Fixpoint argmax_from (best : Qc) (ibest i : nat) (l : list Qc) : nat :=
  match l with
  | [] => ibest
  | x :: t => if qltb best x then argmax_from x i (S i) t else argmax_from best ibest (S i) t
  end.
Definition argmax (l : list Qc) : result nat :=
  match l with [] => Raise ValueError | x :: t => Ok (argmax_from x 0 1 t) end.

(* library.py:117-119: int(ceil((w-1)/2)); the window bounds *)
Definition max_distance (w : Z) : Z := qceil ((qz w - 1) / qz 2).
Definition win_lo (i : nat) (d : Z) : Z := Z.max 0 (Z.of_nat i - d).
Definition win_hi (n i : nat) (d : Z) : Z := Z.min (Z.of_nat n) (Z.of_nat i + d).
(* library.py:121-126 the while loop; None: out of fuel (excluded by a theorem) *)
Fixpoint fill_loop (fuel : nat) (row : list Qc) (i : nat) (lo hi : Z) : option (result (list Qc)) :=
  match fuel with
  | O => None
  | S f =>
      if qltb (vget row i) 0 then
        match argmax (py_slice row lo (hi + 1)) with
        | Raise e => Some (Raise e)
        | Ok k =>
            let im := (Z.to_nat lo + k)%nat in
            if qleb (vget row im) 0 then Some (Ok row)
            else fill_loop f (shuffle_counts row im i) i lo hi
        end
      else Some (Ok row)
  end.
(* library.py:114-126 the loop over the bins negative at the start *)
Fixpoint fill_bins (ws : list Z) (row : list Qc) (l : list nat) : option (result (list Qc)) :=
  match l with
  | [] => Some (Ok row)
  | i :: t =>
      let d := max_distance (nth i ws 0%Z) in
      match fill_loop (S (length row)) row i (win_lo i d) (win_hi (length row) i d) with
      | Some (Ok row') => fill_bins ws row' t
      | r => r
      end
  end.
Definition fill_max_row (ws : list Z) (row : list Qc) : option (result (list Qc)) :=
  fill_bins ws row (negatives row).
Fixpoint rows_all (f : list Qc -> option (result (list Qc))) (rows : list (list Qc))
  : option (result (list (list Qc))) :=
  match rows with
  | [] => Some (Ok [])
  | r :: t =>
      match f r with
      | Some (Ok r') =>
          match rows_all f t with Some (Ok t') => Some (Ok (r' :: t')) | x => x end
      | Some (Raise e) => Some (Raise e)
      | None => None
      end
  end.
Inductive window_arg := WInt (w : Z) | WArr (ws : list Z).
(* library.py:81-129 fill_negative_max, integer window sizes (an array of another type or
   length fails an assertion) *)
Definition fill_negative_max (a : arr2) (w : window_arg) : option (result arr2) :=
  let go ws := match rows_all (fill_max_row ws) (a_rows a) with
               | Some (Ok rows) => Some (Ok (mkArr (a_nc a) rows))
               | Some (Raise e) => Some (Raise e)
               | None => None
               end in
  match w with
  | WInt w => go (repeat w (a_nc a))
  | WArr ws => if Nat.eqb (length ws) (a_nc a) then go ws else Some (Raise AssertionError)
  end.

Section Gauss.
(* gauss i j: the value at bin j of the truncated normal distribution centred at bin i
   (scipy.stats.truncnorm.pdf, library.py:168-174), a parameter of the model.
   argsort: np.argsort, whose order of equal keys is unspecified. *)
Variable gauss : nat -> nat -> Qc.
Variable argsort : list Qc -> list nat.
(* library.py:181-182 *)
Definition gweights (row : list Qc) (i : nat) : list Qc :=
  tab (length row) (fun j => (if qltb (vget row j) 0 then 0 else vget row j) * gauss i j).
(* library.py:184-189 *)
Fixpoint gauss_from (row : list Qc) (i : nat) (order : list nat) : list Qc :=
  match order with
  | [] => row
  | j :: t =>
      if qltb (vget row j) 0 then row
      else let row' := shuffle_counts row j i in
           if qleb 0 (vget row' i) then row' else gauss_from row' i t
  end.
Definition gauss_bin (row : list Qc) (i : nat) : list Qc := gauss_from row i (argsort (gweights row i)).
(* library.py:180-189 *)
Definition gauss_row (row : list Qc) : list Qc := fold_left gauss_bin (negatives row) row.
(* library.py:132-192 fill_negative_gauss and matrix.py:776-778 Matrix.fill_negative (for a
   window size that passes the length check) *)
Definition fill_negative_gauss (a : arr2) : arr2 := mkArr (a_nc a) (map gauss_row (a_rows a)).
Definition m_fill_negative (m : matrix) : matrix := with_values m (fill_negative_gauss (values m)).
(* matrix.py:784-794 *)
Definition fill_and_remove_negative (m : matrix) : matrix := remove_negative (m_fill_negative m).
End Gauss.
