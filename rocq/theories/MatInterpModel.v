(* ompy/library.py 233-290: interpolation of a matrix along one or two axes. *)
From Verif Require Import PyBase VectorModel InterpModel RebinModel.

(* 233-259 interpolate_matrix_1D(matrix_in, E_array_in, E_array_out, axis).  nc is
   matrix_in.shape[1].  A plain Exception is a RuntimeError here.  Along axis 1 each row is
   interpolated, along axis 0 each column (interp1d acts on the axis it is given). *)
Definition interpolate_matrix_1D (m : list (list Qc)) (nc : nat) (E_in E_out : list Qc) (axis : Z) : result (list (list Qc)) :=
  if negb ((axis =? 0) || (axis =? 1))%Z then Raise IndexError
  else if negb ((if (axis =? 0)%Z then length m else nc) =? length E_in)%nat then Raise RuntimeError
  else if (axis =? 1)%Z then rmapm (fun r => rmapm (interp1d E_in r (FillBoth 0 0)) E_out) m
  else rmapm (fun e => rmapm (fun j => interp1d E_in (col m j) (FillBoth 0 0) e) (seq 0 nc)) E_out.

(* np.all(np.diff(x) > 0), np.all(np.diff(x) >= 0) *)
Fixpoint diffs (p : Qc -> Qc -> bool) (l : list Qc) : bool :=
  match l with
  | x :: (y :: _) as t => p x y && diffs p t
  | _ => true
  end.
(* an argument below the first or above the last knot is replaced by that knot (FITPACK bispev) *)
Definition clamp (E : list Qc) (e : Qc) : Qc :=
  if qltb e (vget E 0) then vget E 0 else if qltb (vget E (length E - 1)) e then vget E (length E - 1) else e.
(* RectBivariateSpline(E0, E1, m, kx=1, ky=1)(e0, e1): the product spline of degree one through
   all points, linear in each variable between neighbouring energies *)
Definition spline11 (E0 E1 : list Qc) (m : list (list Qc)) (e0 e1 : Qc) : result Qc :=
  do ys <- rmapm (fun r => interp1d E1 r Extrapolate (clamp E1 e1)) m ;;
  interp1d E0 ys Extrapolate (clamp E0 e0).
(* 279-282: one line of the mask: E_out <= E_in[0] or E_out >= E_in[-1] *)
Definition masked (E : list Qc) (e : Qc) : bool := qleb e (vget E 0) || qleb (vget E (length E - 1)) e.
(* 262-290 interpolate_matrix_2D.  The spline wants strictly increasing energies, at least two
   on each axis, and refuses energies to evaluate at that are not in order. *)
Definition interpolate_matrix_2D (m : list (list Qc)) (nc : nat) (E0 E1 E0_out E1_out : list Qc) : result (list (list Qc)) :=
  if negb ((length m =? length E0) && (nc =? length E1))%nat then Raise RuntimeError
  else if negb (diffs qltb E0 && diffs qltb E1 && (2 <=? length E0)%nat && (2 <=? length E1)%nat) then Raise ValueError
  else if negb (diffs qleb E0_out && diffs qleb E1_out) then Raise ValueError
  else rmapm (fun e0 => rmapm (fun e1 =>
         do v <- spline11 E0 E1 m e0 e1 ;;
         Ok (if masked E0 e0 || masked E1 e1 then 0 else v)) E1_out) E0_out.
