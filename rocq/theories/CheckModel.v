(* Consistency checks of ompy/matrix.py and ompy/abstractarray.py, and cut_like with
   inplace=False. *)
From Verif Require Import PyBase Axis MatrixModel.

(* abstractarray.py:24-49 verify_equdistant for the energy array of the axis.
   np.roll(energy,1)[1:] are the left neighbours, so diff has len-1 >= 2 entries and
   diff[1] exists.  assert_array_almost_equal (6 decimals): |d| < 1.5e-6 everywhere. *)
Fixpoint diffs (l : list Qc) : list Qc :=
  match l with
  | x :: ((y :: _) as t) => (y - x) :: diffs t
  | _ => []
  end.
Definition almost_zero (x : Qc) : bool := qltb (qabs x) (qn 15 10000000).
Definition verify_equidistant (energy : list Qc) : result unit :=
  if (2 <? length energy)%nat then
    let d := diffs energy in
    if forallb (fun x => almost_zero (x - nth 1 d 0)) d then Ok tt else Raise ValueError
  else Ok tt.
(* matrix.py:140-177 verify_integrity(check_equidistant) *)
Definition verify_integrity_eq (m : matrix) (check_equidistant : bool) : result unit :=
  if negb (Nat.eqb (a_nr (values m)) (length (Ex m))) then Raise ValueError
  else if negb (Nat.eqb (a_nc (values m)) (length (Eg m))) then Raise ValueError
  else do _ <- (if check_equidistant
                then do _ <- verify_equidistant (Ex m) ;; verify_equidistant (Eg m)
                else Ok tt) ;;
  match std m with
  | Some s => if pair_eqb (shape (values m)) (shape s) then Ok tt else Raise ValueError
  | None => Ok tt
  end.

(* matrix.py:570-574 cut_like(inplace=False) *)
Definition cut_like_copy (m other : matrix) : result matrix :=
  do lox <- py_min (Ex other) ;; do hix <- py_max (Ex other) ;;
  do out <- cut_copy m (AInt 1) (Some lox) (Some hix) true true ;;
  do log <- py_min (Eg other) ;; do hig <- py_max (Eg other) ;;
  cut_inplace out (AInt 0) (Some log) (Some hig) true true.
