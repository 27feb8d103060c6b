(* Model of ompy/gauss_smoothing.pyx and of shift/shift_matrix (ompy/unfolder.py). *)
From Verif Require Import PyBase Axis RebinModel MatrixModel.

Section Smooth.
(* gauss_smoothing.pyx:17-49 gaussian(E, mu, sigma) of one energy: a section variable
   (np.exp is not computable on rationals). *)
Variable gaussian : Qc -> Qc -> Qc -> Qc.

(* gauss_smoothing.pyx:84-95 find_truncation_indices; sigma = fwhm/2.355 (103) *)
Definition sigma_of (fwhm : Qc) : Qc := fwhm / qn 2355 1000.
Definition trunc_low (a0 a1 E s t : Qc) : Z := Z.max 0 (qtrunc ((E - t * s - a0) / a1)).
Definition trunc_high (n : nat) (a0 a1 E s t : Qc) : Z :=
  Z.max (Z.min (Z.of_nat n) (qtrunc ((E + t * s - a0) / a1))) (trunc_low a0 a1 E s t + 1).
(* gauss_smoothing.pyx:106-113 pdf before normalisation; the slice [low:high+1] is clipped
   at the end of the array *)
Definition raw_pdf (E : list Qc) (a0 a1 : Qc) (i : nat) (fwhm t : Qc) : list Qc :=
  let e := vget E i in
  let s := sigma_of fwhm in
  tab (length E) (fun j =>
    if (trunc_low a0 a1 e s t <=? Z.of_nat j)%Z && (Z.of_nat j <=? trunc_high (length E) a0 a1 e s t)%Z
    then gaussian (vget E j) e s else 0).
(* gauss_smoothing.pyx:97-116 the loop over i.  The accumulated array; None: it has
   become nan everywhere (division of the pdf by its sum 0). *)
Fixpoint smooth_loop (arr E fw : list Qc) (a0 a1 t : Qc) (is_ : list nat) (acc : option (list Qc))
  : option (list Qc) :=
  match is_ with
  | [] => acc
  | i :: r =>
      let c := vget arr i in
      let acc' :=
        if qltb 0 c then
          let p := raw_pdf E a0 a1 i (vget fw i) t in
          if qeqb (qsum p) 0 then None
          else match acc with
               | Some a => Some (tab (length E) (fun j => vget a j + c * (vget p j / qsum p)))
               | None => None
               end
        else acc in
      smooth_loop arr E fw a0 a1 t r acc'
  end.
(* gauss_smoothing.pyx:52-118.  E_array[0], E_array[1] raise IndexError if missing (the
   bounds checks are on in this file); a zero bin width raises ZeroDivisionError as soon
   as a bin with counts is met. *)
Definition gauss_smoothing (arr E fw : list Qc) (t : Qc) : result (option (list Qc)) :=
  if negb (Nat.eqb (length arr) (length E)) then Raise ValueError
  else if negb (Nat.eqb (length arr) (length fw)) then Raise ValueError
  else match E with
       | e0 :: e1 :: _ =>
           if qeqb (e1 - e0) 0 && existsb (qltb 0) arr then Raise ZeroDivErr
           else Ok (smooth_loop arr E fw e0 (e1 - e0) t (seq 0 (length arr)) (Some (map (fun _ => 0) arr)))
       | _ => Raise IndexError
       end.

(* gauss_smoothing.pyx:121-160 gauss_smoothing_matrix_1D with an array of FWHMs.  axis 0
   (Eg) smooths the rows, any other axis the columns.  (A number for fwhm is first
   expanded to an array.)  A row or column that has become nan is None. *)
Inductive fwhm_arg := FwNum (q : Qc) | FwArr (l : list Qc).
Definition fwhm_list (f : fwhm_arg) (E : list Qc) : list Qc :=
  match f with FwNum q => map (fun _ => q) E | FwArr l => l end.
Definition smooth_matrix (m : arr2) (E : list Qc) (f : fwhm_arg) (axis : axis_arg) (t : Qc)
  : result (list (option (list Qc))) :=
  let fw := fwhm_list f E in
  do ax <- to_plot_axis axis ;;
  match ax with
  | AxEg => rmapm (fun r => gauss_smoothing r E fw t) (a_rows m)
  | _ => rmapm (fun j => gauss_smoothing (col (a_rows m) j) E fw t) (seq 0 (a_nc m))
  end.
End Smooth.

(* unfolder.py:416-432 shift *)
Definition shift (counts E : list Qc) (s : Qc) : result (list Qc) :=
  rebin_1D counts (map (fun e => e + s) E) E.
(* unfolder.py:435-444 shift_matrix *)
Definition shift_matrix (rows : list (list Qc)) (E : list Qc) (s : Qc) : result (list (list Qc)) :=
  rmapm (fun r => shift r E s) rows.
