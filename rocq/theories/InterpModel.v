(* scipy.interpolate.interp1d(kind="linear", bounds_error=False) as used in
   ompy/response.py and ompy/spinfunctions.py. *)
From Verif Require Import PyBase VectorModel.

(* interp1d sorts the points by x (assume_sorted=False; np.argsort with mergesort, hence
   stable). *)
Fixpoint insert_pt (p : Qc * Qc) (l : list (Qc * Qc)) : list (Qc * Qc) :=
  match l with
  | [] => [p]
  | q :: t => if qleb (fst p) (fst q) then p :: q :: t else q :: insert_pt p t
  end.
Definition sort_pts (l : list (Qc * Qc)) : list (Qc * Qc) := fold_right insert_pt [] l.

(* fill_value: "extrapolate", or the pair of values below and above *)
Inductive fill_t := Extrapolate | FillBoth (below above : Qc).
(* response.py:255-258, 474-476, spinfunctions.py:184-186, 217-219.  The number of points
   must be at least two here (scipy accepts a single point and fails on evaluation).  Two
   equal neighbouring x give nan or inf in scipy, here ZeroDivErr. *)
Definition interp1d (xs ys : list Qc) (fill : fill_t) (e : Qc) : result Qc :=
  if negb (length xs =? length ys)%nat || (length xs <? 2)%nat then Raise ValueError
  else
    let ps := sort_pts (combine xs ys) in
    let x i := fst (nth i ps (0, 0)) in
    let y i := snd (nth i ps (0, 0)) in
    let n := length ps in
    let inner :=
      let k := Nat.max 1 (Nat.min (n - 1) (searchsorted (map fst ps) e SideLeft)) in
      let d := x k - x (k - 1)%nat in
      if qeqb d 0 then Raise ZeroDivErr
      else Ok (y (k - 1)%nat + (y k - y (k - 1)%nat) / d * (e - x (k - 1)%nat)) in
    match fill with
    | FillBoth lo hi => if qltb e (x 0%nat) then Ok lo else if qltb (x (n - 1)%nat) e then Ok hi else inner
    | Extrapolate => inner
    end.
