(* Model of the credibility bands of the extrapolations, ompy/ensembleNormalizer.py 553-627
   (plot_nld_ext_stats, plot_gsf_ext_stats without the drawing), over the real numbers. *)
From Coq Require Import Reals List.
From Verif Require Import PyBase TransformModel NormModel.
Import ListNotations.
Local Open Scope R_scope.

(* pandas' median and quantile (interpolation 'linear') of one column, as in SampStatModel but on
   real numbers; None is the nan of an empty column *)
Fixpoint rinsert (x : R) (l : list R) : list R :=
  match l with [] => [x] | y :: r => if Rle_dec x y then x :: l else y :: rinsert x r end.
Definition rsort (l : list R) : list R := fold_right rinsert [] l.
Definition r_at (s : list R) (h : R) : R :=
  let k := Z.to_nat (Int_part h) in
  let k1 := Nat.min (S k) (length s - 1) in
  nth k s 0 + (h - INR k) * (nth k1 s 0 - nth k s 0).
Definition rquantile (q : R) (l : list R) : option R :=
  match rsort l with [] => None | s => Some (r_at s (q * INR (length s - 1))) end.
Definition rmedian (l : list R) : option R :=
  match rsort l with
  | [] => None
  | s => Some ((nth (Nat.div2 (length s - 1)) s 0 + nth (Nat.div2 (length s)) s 0) / 2)
  end.
Record rstat := mkRS { rs_median : option R; rs_low : option R; rs_high : option R }.
(* one line of the table; entries that are infinite (None) are not modelled further *)
Fixpoint somes (l : list (option R)) : option (list R) :=
  match l with [] => Some [] | Some x :: t => option_map (cons x) (somes t) | None :: _ => None end.
Definition colstat (p0 p1 : R) (c : list (option R)) : option rstat :=
  option_map (fun l => mkRS (rmedian l) (rquantile p0 l) (rquantile p1 l)) (somes c).
(* pandas refuses percentiles outside [0, 1] *)
Definition fraction_ok (p : R) : bool := if Rle_dec 0 p then if Rle_dec p 1 then true else false else false.
Definition table (p0 p1 : R) (n : nat) (rows : list (list (option R))) : result (list (option rstat)) :=
  if fraction_ok p0 && fraction_ok p1 then
    Ok (map (fun j => colstat p0 p1 (map (fun r => nth j r None) rows)) (seq 0 n))
  else Raise ValueError.

(* ensembleNormalizer.py:554-584: samples are the columns T and Eshift *)
Definition nld_ext_stats (model : R -> R -> R -> R) (x : list R) (samples : list (R * R)) (p0 p1 : R)
  : result (list (option rstat)) :=
  table p0 p1 (length x) (map (fun s => map (fun e => Some (model (fst s) (snd s) e)) x) samples).

Section Gsf.
Variable fitf : rvec -> emodel -> R * R.
(* normalizer_gsf.py:246-251 with E given: models.py:266-281, scaled=False *)
Definition values_at (m : emodel) (x : list R) : list (option R) := map (model_value (em_high m) (em_scale m) (em_shift m)) x.
(* ensembleNormalizer.py:607-618: one sample after the other; a fit stays in the models.  The
   fit range is part of fitf: once set it does not change (FitWinModel), so with samples on one
   axis it is the same for all. *)
Fixpoint ext_rows (low high : emodel) (xlow xhigh : list R) (samples : list rvec) : list (list (option R)) * list (list (option R)) :=
  match samples with
  | [] => ([], [])
  | g :: t =>
      let (low', high') := fit_models fitf g low high in
      let (a, b) := ext_rows low' high' xlow xhigh t in
      (values_at low' xlow :: a, values_at high' xhigh :: b)
  end.
(* ensembleNormalizer.py:586-634 *)
Definition gsf_ext_stats (low high : emodel) (xlow xhigh : list R) (samples : list rvec) (p0 p1 : R)
  : result (list (option rstat) * list (option rstat)) :=
  if Nat.eqb (length xlow) (length xhigh) then
    let (a, b) := ext_rows low high xlow xhigh samples in
    do ta <- table p0 p1 (length xlow) a ;;
    do tb <- table p0 p1 (length xhigh) b ;;
    Ok (ta, tb)
  else Raise AssertionError.
End Gsf.
