(* The pictures of the standard deviations of an ensemble (ompy/ensemble.py:575-646), of a vector (ompy/vector.py:118-159)
   and of a projection (ompy/matrix.py:375-415).  A figure is what is drawn, with the colour limits, the scales and the
   labels; the drawing itself is matplotlib's.  Entries are finite. *)
From Coq Require Import String.
From Verif Require Import PyBase Axis MatrixModel VectorModel PlotModel.
Local Open Scope Qc_scope.

(* ------------------------------------------------------------------ Ensemble.plot *)
(* the argument ax: None, one matplotlib axis (no len), or a list, tuple or array of n axes (which has no attribute figure) *)
Inductive ax_arg := AxNone | AxOne | AxMany (n : nat).
(* ensemble.py:596-602 *)
Definition take_axes (a : ax_arg) : result unit :=
  match a with
  | AxNone => Ok tt
  | AxOne => Raise TypeError
  | AxMany n => if (n <? 3)%nat then Raise ValueError else Raise AttributeError
  end.
Inductive scale_by := ByRaw | ByUnfolded | ByFirstgen | ByAll | ByOther.
(* ensemble.py:604-608: the smallest and largest entry *)
Definition extrema (m : matrix) : result (Qc * Qc) :=
  do a <- py_min (concat (a_rows (values m))) ;; do b <- py_max (concat (a_rows (values m))) ;; Ok (a, b).
Definition limits_by (by_ : scale_by) (r u f : Qc * Qc) : result (Qc * Qc) :=
  match by_ with
  | ByRaw => Ok r
  | ByUnfolded => Ok u
  | ByFirstgen => Ok f
  | ByAll => do a <- py_min [fst r; snd r; fst u; snd u; fst f; snd f] ;; do b <- py_max [fst r; snd r; fst u; snd u; fst f; snd f] ;; Ok (a, b)
  | ByOther => Raise ValueError
  end.
(* ensemble.py:612-620: the limits of the colours *)
Definition colour_limits (vmin vmax : option Qc) (c : Qc * Qc) : Qc * Qc :=
  (match vmin with Some v => v | None => if qleb (fst c) 0 then 1 else fst c end, match vmax with Some v => v | None => snd c end).
(* ensemble.py:636-644: the ends of the colour bar drawn as arrows *)
Inductive arrows := NoArrow | ArrowMin | ArrowMax | ArrowBoth.
Definition bar_arrows (vmin vmax : option Qc) : arrows :=
  match vmin, vmax with Some _, Some _ => ArrowBoth | Some _, None => ArrowMin | None, Some _ => ArrowMax | None, None => NoArrow end.
(* the pictures in order, the common limits, and the colour bar: the scale it shows, that of the last picture, and its ends *)
Record std_figure := mkFig { f_pics : list picture; f_limits : Qc * Qc; f_bar : option (scale_t * arrows) }.
(* ensemble.py:596-646; s is the scale handed on to Matrix.plot with kwargs. The three matrices are not changed
   (plot_keeps_matrix). Limits with vmin > vmax are refused by matplotlib while drawing, which is not part of this. *)
Definition std_plot (raw unfolded firstgen : matrix) (a : ax_arg) (vmin vmax : option Qc) (cbar : bool) (by_ : scale_by) (s : scale_arg)
  : result std_figure :=
  do _ <- take_axes a ;;
  do r <- extrema raw ;; do u <- extrema unfolded ;; do f <- extrema firstgen ;;
  do c <- limits_by by_ r u f ;;
  let lim := colour_limits vmin vmax c in
  do p1 <- snd (plot raw s (Some (fst lim))) ;;
  do p2 <- snd (plot unfolded s (Some (fst lim))) ;;
  do p3 <- snd (plot firstgen s (Some (fst lim))) ;;
  Ok (mkFig [p1; p2; p3] lim (if cbar then Some (p_scale p3, bar_arrows vmin vmax) else None)).

(* ------------------------------------------------------------------ Vector.plot *)
(* the argument kind; vector.py:129-133 documents line, plot, step and bar *)
Inductive kind_arg := KLine | KPlot | KStep | KBar | KElse.
(* what is drawn: a line, steps, or points with error bars *)
Inductive drawn := DLine (E v : list Qc) | DStep (E v : list Qc) | DErrors (E v std : list Qc).
(* vector.py:139-159: what is drawn and the scale of the y axis *)
Definition vector_plot (E v : list Qc) (std : option (list Qc)) (k : kind_arg) (scale : string) : result (drawn * string) :=
  match std with
  | None => match k with
            | KLine | KPlot => Ok (DLine E v, scale)
            | KStep => Ok (DStep E v, scale)
            | KBar | KElse => Raise NotImplementedErr
            end
  | Some s => Ok (DErrors E v s, scale)
  end.

(* ------------------------------------------------------------------ Matrix.plot_projection *)
(* matrix.py:399-415: what is drawn, whether the label of the x axis is that of Ex, and the scale of the y axis *)
Definition plot_projection (m : matrix) (axis : axis_arg) (Emin Emax : option Qc) (normalize : bool) (scale : string) (k : kind_arg)
  : result (drawn * bool * string) :=
  do ax <- to_plot_axis axis ;;
  do (p, e) <- projection m axis Emin Emax normalize ;;
  if Nat.eqb (length p) (length e) then
    do (d, _) <- vector_plot e p None k "linear"%string ;;
    Ok (d, match ax with AxEx => true | _ => false end, scale)
  else Raise ValueError.
