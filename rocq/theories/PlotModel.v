(* What Matrix.plot shows (ompy/matrix.py:275-374), the ASCII picture (455-482) and the ticks of
   MeshLocator (946-977).  Colours, labels and the drawing itself are matplotlib's and left out;
   modelled are the cells handed to pcolormesh, the value under the pointer, the blocks printed and
   the positions of the ticks. *)
From Verif Require Import PyBase Axis MatrixModel VectorModel SampStatModel.
Local Open Scope Qc_scope.

(* ------------------------------------------------------------------ plot *)
Inductive scale_t := Log | Linear.
Inductive scale_arg := SAuto | SLog | SLinear | SOther.
(* matrix.py:831-832 counts *)
Definition m_counts (m : matrix) : Qc := qsum (concat (a_rows (values m))).
(* matrix.py:306-315.  (LogNorm and Normalize with vmin > vmax fail later, inside matplotlib.) *)
Definition choose_scale (s : scale_arg) (vmin : option Qc) (counts : Qc) : result scale_t :=
  let s' := match s with SAuto => if qltb (qz 1000) counts then SLog else SLinear | _ => s end in
  match s' with
  | SLog => match vmin with
            | Some v => if qleb v 0 then Raise ValueError else Ok Log
            | None => Ok Log
            end
  | SLinear => Ok Linear
  | _ => Raise ValueError
  end.
(* matrix.py:319-322: the axis (already moved to the lower ends of the bins) with one more end *)
Definition with_end (l : list Qc) : list Qc :=
  let n := length l in
  l ++ [nth (n - 1) l 0 + (nth (n - 1) l 0 - nth (n - 2) l 0)].
(* what is drawn: the ends of the columns and rows and the entries, None for those left white
   (331-332; entries are finite here, so none is nan) *)
Record picture := mkPic { p_scale : scale_t; p_Eg : list Qc; p_Ex : list Qc; p_cells : list (list (option Qc)) }.
Definition masked (x : Qc) : option Qc := if qeqb x 0 then None else Some x.
(* matrix.py:302-334: the picture and the matrix afterwards, whose axes have been moved and moved
   back (317, 324); an exception leaves the matrix as it is *)
Definition plot (m : matrix) (s : scale_arg) (vmin : option Qc) : matrix * result picture :=
  if (length (Ex m) <=? 1)%nat || (length (Eg m) <=? 1)%nat then (m, Raise ValueError)
  else match choose_scale s vmin (m_counts m) with
       | Raise e => (m, Raise e)
       | Ok sc =>
           match to_lower_bin m with
           | Raise e => (m, Raise e)
           | Ok l =>
               match to_mid_bin l with
               | Raise e => (l, Raise e)
               | Ok m' => (m', Ok (mkPic sc (with_end (Eg l)) (with_end (Ex l)) (map (map masked) (a_rows (values m')))))
               end
           end
       end.

(* matrix.py:348-361 format_coord: None if the pointer is outside, otherwise the entry shown (None:
   a white cell, shown as --).  min and max of the ends are those of a list that is not empty. *)
Definition ends_min (l : list Qc) : Qc := list_min (hd 0 l) (tl l).
Definition ends_max (l : list Qc) : Qc := list_max (hd 0 l) (tl l).
Definition pointer (p : picture) (x y : Qc) : option (option Qc) :=
  if qltb (ends_min (p_Eg p)) x && qleb x (ends_max (p_Eg p)) && (qltb (ends_min (p_Ex p)) y && qleb y (ends_max (p_Ex p)))
  then Some (nth (searchsorted (p_Eg p) x SideLeft - 1) (nth (searchsorted (p_Ex p) y SideLeft - 1) (p_cells p) []) None)
  else None.

(* ------------------------------------------------------------------ ascii_plot *)
(* matrix.py:461-462: np.unique (dedup of the sorted array, SampStatModel.v), then the positive entries *)
Definition levels (m : matrix) : list Qc := filter (qltb 0) (dedup (isort (concat (a_rows (values m))))).
(* matrix.py:463-468 block: i // (len/4), cut to an integer, as the number of the shade.  The
   argmin of nothing is a ValueError; i is below the length, so the number is below 4 (proved). *)
Definition block (ls : list Qc) (count : Qc) : result nat :=
  do i <- i_from_E count ls ;; py_index [0; 1; 2; 3]%nat (Z.of_nat (4 * i / length ls)).
(* matrix.py:470-478: the lines from top to bottom, None for a blank.  (The argument shape is not
   used by the code; the frame is left out.) *)
Definition ascii_plot (m : matrix) (shape : nat * nat) : result (list (list (option nat))) :=
  rmapl (rmapl (fun x => if qeqb x 0 then Ok None else rmap Some (block (levels m) x))) (rev (a_rows (values m))).

(* ------------------------------------------------------------------ MeshLocator *)
(* outcome of tick_values: positions, an exception, or OverflowError of int(-inf) *)
Inductive ticks_t := Ticks (l : list Qc) | TicksRaise (e : exn) | TicksOverflow.
(* every step-th element of a list *)
Fixpoint every_from (step k : nat) (l : list Qc) : list Qc :=
  match l with
  | [] => []
  | x :: t => match k with O => x :: every_from step (step - 1) t | S k' => every_from step k' t end
  end.
(* np.around(x, -i): to a multiple of 10**i, halves to the even multiple *)
Definition round_even (x : Qc) : Z :=
  let f := qfloor x in
  let d := x - qz f in
  if qltb d (qn 1 2) then f else if qltb (qn 1 2) d then (f + 1)%Z else if Z.even f then f else (f + 1)%Z.
Definition around (i : Z) (x : Qc) : Qc := qz (round_even (x / qz (10 ^ i))) * qz (10 ^ i).
(* matrix.py:957-977; dmin, dmax: the interval of the data; nbins is 10 unless given.  int(log10 a)
   limited to 1 .. 2 is 2 from a = 100 on and 1 below (an integer part of log10 that is right for
   powers of ten is assumed). *)
Definition tick_values (locs : list Qc) (nbins : nat) (dmin dmax vmin vmax : Qc) : ticks_t :=
  let '(v0, v1) := if qltb vmax vmin then (vmax, vmin) else (vmin, vmax) in
  let '(v0, v1) := if qeqb v0 v1 then (v0 - 1, v1 + 1) else (v0, v1) in
  match i_from_E v0 locs, i_from_E v1 locs with
  | Ok imin, Ok imax =>
      let step := Nat.max ((imax - imin + nbins - 1) / nbins) 1 in
      let ticks := every_from step 0 (firstn (imax + 1 - imin) (skipn imin locs)) in
      if qltb (qn 8 10 * (dmax - dmin)) (v1 - v0) && (20 <? imax - imin)%nat then
        let a := qabs (nth imax locs 0) in
        if qeqb a 0 then TicksOverflow
        else let i := (if qleb (qz 100) a then 2 else 1)%Z in
             Ticks (dedup (isort (map (around i) ticks)))
      else Ticks ticks
  | Raise e, _ | _, Raise e => TicksRaise e
  end.
