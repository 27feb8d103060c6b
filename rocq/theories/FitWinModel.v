(* Model of the window in which an extrapolation is fitted to the strength function:
   ompy/models.py 224-264 (fit without curve_fit itself), 307-319 and 362-374 (autofitrange). *)
From Verif Require Import PyBase MatrixModel.

(* the strength function: energies in its own unit, and whether that is MeV *)
Record gvec := mkGV { gv_E : list Qc; gv_values : list Qc; gv_std : option (list Qc); gv_MeV : bool }.
(* vector.py:430-438 *)
Definition mev (v : gvec) : list Qc := if gv_MeV v then gv_E v else map (fun e => e / qz 1000) (gv_E v).

(* models.py:184-186: Efit is a list [None, None] unless set; a tuple cannot be filled in *)
Record efit := mkEfit { ef_list : bool; ef_low : option Qc; ef_high : option Qc }.
Definition efit_new : efit := mkEfit true None None.

(* models.py:307-319 (ExtrapolationModelLow) and 362-374 (ExtrapolationModelHigh); int(len/6)
   is the integer part.  E is the axis of the copy in MeV; with 8 or more bins all positions
   exist *)
Definition auto_one (E : list Qc) (islist : bool) (old : option Qc) (pos : nat) : result (option Qc) :=
  match old with
  | Some e => Ok (Some e)
  | None => if (length E <? 8)%nat then Raise NotImplementedErr
            else if islist then Ok (nth_error E pos) else Raise TypeError
  end.
Definition autofitrange (high : bool) (v : gvec) (f : efit) : efit * result unit :=
  let E := mev v in
  let n := length E in
  let fraction := (n / 6)%nat in
  match auto_one E (ef_list f) (ef_low f) (if high then n - fraction - 2 else 2)%nat with
  | Raise e => (f, Raise e)
  | Ok lo =>
      let f1 := mkEfit (ef_list f) lo (ef_high f) in
      match auto_one E (ef_list f) (ef_high f) (if high then n - 2 else fraction + 2)%nat with
      | Raise e => (f1, Raise e)
      | Ok hi => (mkEfit (ef_list f) lo hi, Ok tt)
      end
  end.

(* a numpy slice i:j of positions that are not negative *)
Definition between {A} (i j : nat) (l : list A) : list A := firstn (j - i) (skipn i l).
Record points := mkPts { pt_E : list Qc; pt_values : list Qc; pt_std : option (list Qc) }.
(* models.py:243-260: the points handed to curve_fit.  curve_fit refuses no points with
   ValueError and fewer points than parameters (two) with TypeError. *)
Definition fit_points (v : gvec) (a b : Qc) : result points :=
  if qltb a b then
    let i := index (gv_E v) a in
    let j := S (index (gv_E v) b) in
    let p := mkPts (between i j (gv_E v)) (between i j (gv_values v)) (option_map (between i j) (gv_std v)) in
    match length (pt_E p) with
    | 0%nat => Raise ValueError
    | 1%nat => Raise TypeError
    | _ => Ok p
    end
  else Raise AssertionError.
(* models.py:224-264: new Efit and the points, or the exception *)
Definition fit (high : bool) (v : gvec) (Emin Emax : option Qc) (f : efit) : efit * result points :=
  match autofitrange high v f with
  | (f', Raise e) => (f', Raise e)
  | (f', Ok _) =>
      let a := match Emin with Some x => Some x | None => ef_low f' end in
      let b := match Emax with Some x => Some x | None => ef_high f' end in
      (f', match a, b with Some a, Some b => fit_points v a b | _, _ => Raise TypeError end)
  end.
