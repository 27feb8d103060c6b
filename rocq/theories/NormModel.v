(* Model of the normalisation to D0 and to the average total radiative width:
   ompy/spinfunctions.py (distribution), ompy/normalizer_nld.py (D0 and rho(Sn)),
   ompy/library.py (log_interp1d), ompy/normalizer_gsf.py (Gg_standard, normalize) and
   ompy/models.py (extrapolation models, E_grid), over the real numbers. *)
From Coq Require Import Reals List Lra.
From Verif Require Import TransformModel.
Import ListNotations.
Local Open Scope R_scope.

(* ------------------------------------------------------------------ spin and D0 *)
(* spinfunctions.py:64-66, one spin and one squared spin-cut parameter s2 *)
Definition spin_dist (s2 J : R) : R := (2 * J + 1) / (2 * s2) * exp (- (J + / 2) ^ 2 / (2 * s2)).
(* D0 and Sn are numbers or [value, uncertainty]; np.atleast_1d(x)[0] *)
Inductive meas := Val (x : R) | Meas (x u : R).
Definition first (m : meas) : R := match m with Val x => x | Meas x _ => x end.
(* normalizer_nld.py:572-575 and 616-619.  g2 is the spin-cut model as a function of the
   energy (get_sigma2, see SpinModel.v). *)
Definition summe (s2 Jt : R) : R :=
  if Req_EM_T Jt 0 then / 2 * spin_dist s2 (Jt + / 2)
  else / 2 * (spin_dist s2 (Jt - / 2) + spin_dist s2 (Jt + / 2)).
(* 1e-6 *)
Definition mega : R := / 1000000.
(* normalizer_nld.py:530-578 *)
Definition nldSn_from_D0 (g2 : R -> R) (D0 Sn : meas) (Jt : R) : R * R :=
  (first Sn, 1 / (summe (g2 (first Sn)) Jt * first D0 * mega)).
(* normalizer_nld.py:580-623 *)
Definition D0_from_nldSn (g2 : R -> R) (nld_model : R -> R) (Sn : meas) (Jt : R) : R :=
  1 / (summe (g2 (first Sn)) Jt * nld_model (first Sn) * mega).
(* normalizer_nld.py:525-529 *)
Definition const_temperature (T Eshift E : R) : R := exp ((E - Eshift) / T) / T.

(* ------------------------------------------------------------------ interpolation *)
(* the logarithm of an entry of an array: finite, -inf (of zero), or NaN/+inf (of a negative
   number or of an entry that is inf) *)
Inductive lnum := LFin (x : R) | LNegInf | LBad.
Definition rln (v : option R) : lnum :=
  match v with
  | None => LBad
  | Some y => if Rlt_dec 0 y then LFin (ln y) else if Req_EM_T y 0 then LNegInf else LBad
  end.
(* the outcome of a calculation: a number, NaN or inf, or a ValueError *)
Inductive outc := OVal (x : R) | ONan | OErr.
(* scipy's linear interpolation on one segment, slope*(z - x0) + y0, then np.exp
   (library.py:296-298).  With a logarithm of -inf at the upper end the slope is -inf: the
   value is 0 beyond x0 and NaN at x0; at the lower end inf - inf is NaN. *)
Definition seg_value (x0 : R) (y0 : lnum) (x1 : R) (y1 : lnum) (z : R) : outc :=
  if Req_EM_T x0 x1 then ONan else
  match y0, y1 with
  | LFin a, LFin b => OVal (exp ((b - a) / (x1 - x0) * (z - x0) + a))
  | LFin a, LNegInf => if Rlt_dec x0 z then OVal 0 else ONan
  | _, _ => ONan
  end.
(* the segment is the first one whose upper end is not below z (np.searchsorted, clipped) *)
Fixpoint seg_find (x0 : R) (y0 : lnum) (rest : list (R * lnum)) (z : R) : outc :=
  match rest with
  | [] => ONan
  | (x1, y1) :: t =>
      match t with
      | [] => seg_value x0 y0 x1 y1 z
      | _ => if Rle_dec z x1 then seg_value x0 y0 x1 y1 z else seg_find x1 y1 t z
      end
  end.
(* library.py:294-299; energies are sorted (interp1d sorts its input).  Outside the energies
   interp1d raises a ValueError. *)
Definition log_interp (xs : list R) (ys : list (option R)) (z : R) : outc :=
  match combine xs (map rln ys) with
  | [] => OErr
  | (x0, y0) :: rest =>
      if Rlt_dec z x0 then OErr else if Rlt_dec (last (map fst ((x0, y0) :: rest)) x0) z then OErr
      else seg_find x0 y0 rest z
  end.

(* a curve: energies and values (None: inf) *)
Record curve := mkCurve { c_E : list R; c_v : list (option R) }.
Definition rv_curve (v : rvec) : curve := mkCurve (rv_E v) (map Some (rv_values v)).
(* normalizer_gsf.py:614-640 fgsf, one energy *)
Definition fgsf (gsf low high : curve) (E : R) : outc :=
  match c_E gsf with
  | [] => OErr
  | e0 :: _ =>
      if Rlt_dec E e0 then log_interp (c_E low) (c_v low) E
      else if Rle_dec E (last (c_E gsf) e0) then log_interp (c_E gsf) (c_v gsf) E
      else log_interp (c_E high) (c_v high) E
  end.
(* normalizer_gsf.py:585-612 fnld, one energy; model is nld_model *)
Definition fnld (nld : curve) (model : R -> R) (E : R) : outc :=
  match c_E nld with
  | [] => OErr
  | e0 :: _ => if Rle_dec E (last (c_E nld) e0) then log_interp (c_E nld) (c_v nld) E else OVal (model E)
  end.

(* ------------------------------------------------------------------ the integral *)
Definition omap2 (f : R -> R -> R) (a b : outc) : outc :=
  match a, b with
  | OErr, _ | _, OErr => OErr
  | OVal x, OVal y => OVal (f x y)
  | _, _ => ONan
  end.
Definition oscale (c : R) (a : outc) : outc := omap2 Rmult (OVal c) a.
Definition osum (l : list outc) : outc := fold_right (omap2 Rplus) (OVal 0) l.
(* np.linspace(a, b, n): models.py:193-195 and 476-477 *)
Definition rlinspace (a b : R) (n : nat) : list R := map (fun k => a + INR k * ((b - a) / INR (n - 1))) (seq 0 n).
(* NormalizationParameters, the fields used here (models.py:402-451) *)
Record npars := mkPars { np_D0 : R; np_D0u : R; np_Gg : R; np_Sn : R; np_Jt : R; np_Emin : R; np_Emax : option R; np_steps : nat }.
(* models.py:519-525, the property Emax *)
Definition Emax (p : npars) : R := match np_Emax p with None => np_Sn p | Some x => x end.
(* models.py:464-477; the upper end is Sn, not Emax *)
Definition E_grid (p : npars) : list R := rlinspace (np_Emin p) (np_Sn p) (np_steps p).
(* normalizer_gsf.py:254-347 Gg_standard; ss Ex is SpinSum(Ex, Jtarget) (SpinSumModel.v).
   The step returned by np.linspace for fewer than two points is NaN. *)
Definition integrand (p : npars) (ss : R -> R) (gsf low high : curve) (nld : curve) (model : R -> R) (Eg : R) : outc :=
  omap2 Rmult (omap2 Rmult (omap2 Rmult (OVal (Eg ^ 3)) (fgsf gsf low high Eg)) (fnld nld model (np_Sn p - Eg))) (OVal (ss (np_Sn p - Eg))).
Definition Gg_standard (p : npars) (ss : R -> R) (gsf low high : curve) (nld : curve) (model : R -> R) : outc :=
    let step := if (np_steps p <=? 1)%nat then ONan else OVal ((np_Sn p - np_Emin p) / INR (np_steps p - 1)) in
  let integral := omap2 Rmult (osum (map (integrand p ss gsf low high nld model) (E_grid p))) step in
  omap2 Rmult (omap2 Rmult (omap2 Rmult integral (OVal (/ 2))) (OVal (np_D0 p))) (OVal 1000).

(* ------------------------------------------------------------------ extrapolation models *)
(* models.py:144-191; em_high tells ExtrapolationModelHigh from ExtrapolationModelLow.  Efit
   is part of the fit oracle. *)
Record emodel := mkEM { em_high : bool; em_scale : R; em_shift : R; em_after : option R;
                        em_Emin : option R; em_Emax : option R; em_steps : nat; em_fit : bool }.
(* models.py:321-344 and 376-399: low exp(scale E + shift), high the same over E^3 (inf at 0) *)
Definition model_value (high : bool) (scale shift E : R) : option R :=
  if high then (if Req_EM_T E 0 then None else Some (exp (scale * E + shift) / E ^ 3))
  else Some (exp (scale * E + shift)).
(* models.py:210-215 *)
Definition shift_after (m : emodel) : R := match em_after m with None => em_shift m | Some s => s end.
(* models.py:221-222; np.log of a number that is not positive is not finite: None *)
Definition norm_to_shift_after (B : R) (m : emodel) : option emodel :=
  if Rlt_dec 0 B then
    Some (mkEM (em_high m) (em_scale m) (em_shift m) (Some (em_shift m + ln B)) (em_Emin m) (em_Emax m) (em_steps m) (em_fit m))
  else None.
(* models.py:266-281 with E=None: np.linspace(None, ...) is a TypeError (None) *)
Definition extrapolate (scaled : bool) (m : emodel) : option curve :=
  match em_Emin m, em_Emax m with
  | Some a, Some b =>
      let E := rlinspace a b (em_steps m) in
      Some (mkCurve E (map (model_value (em_high m) (em_scale m) (if scaled then shift_after m else em_shift m)) E))
  | _, _ => None
  end.
(* models.py:300-305 and 355-360; e0 is gsf.E[0] in MeV *)
Definition autorange (e0 : R) (m : emodel) : emodel :=
  mkEM (em_high m) (em_scale m) (em_shift m) (em_after m)
    (Some (match em_Emin m with None => 0 | Some x => x end))
    (Some (match em_Emax m with None => if em_high m then 20 else e0 | Some x => x end))
    (em_steps m) (em_fit m).
Definition set_fit (ab : R * R) (m : emodel) : emodel :=
  mkEM (em_high m) (fst ab) (snd ab) (em_after m) (em_Emin m) (em_Emax m) (em_steps m) (em_fit m).

Section Normalize.
(* curve_fit on the model's fit range (models.py:224-264): scale and shift *)
Variable fitf : rvec -> emodel -> R * R.
(* normalizer_gsf.py:226-251 extrapolate: whether both models are fitted is decided by the
   method of the low model alone *)
Definition fit_models (gsf : rvec) (low high : emodel) : emodel * emodel :=
  if em_fit low then (set_fit (fitf gsf low) low, set_fit (fitf gsf high) high) else (low, high).
(* the result of normalize *)
Record gres := mkRes { gr_gsf : rvec; gr_low : emodel; gr_high : emodel; gr_B : R; gr_Bu : R; gr_before : R }.
(* normalizer_gsf.py:191-225: from the copy of the data (in MeV) on; None: no finite result
   (an exception, or NaN) *)
Definition gsf_normalize (p : npars) (ss : R -> R) (nld : curve) (model : R -> R) (alpha : R)
    (low high : emodel) (gsf0 : rvec) : option gres :=
  let gsf := transform 1 alpha gsf0 in
  match rv_E gsf with
  | [] => None
  | e0 :: _ =>
      let (low, high) := fit_models gsf (autorange e0 low) (autorange e0 high) in
      match extrapolate false low, extrapolate false high with
      | Some cl, Some ch =>
          match Gg_standard p ss (rv_curve gsf) cl ch nld model with
          | OVal g =>
              let B := np_Gg p / g in
              if Req_EM_T g 0 then None else
              match norm_to_shift_after B low, norm_to_shift_after B high with
              | Some low', Some high' => Some (mkRes (transform B 0 gsf) low' high' B (B * np_D0u p / np_D0 p) g)
              | _, _ => None
              end
          | _ => None
          end
      | _, _ => None
      end
  end.
(* normalizer_simultan.py:369-382: the strength function and its extrapolations in lnlike *)
Definition simultan_curves (B alpha : R) (low high : emodel) (gsf_in : rvec) : option (curve * curve * curve) :=
  let gsf := transform B alpha gsf_in in
  let (low, high) := fit_models gsf low high in
  match extrapolate false low, extrapolate false high with
  | Some cl, Some ch => Some (rv_curve gsf, cl, ch)
  | _, _ => None
  end.
(* normalizer_simultan.py:173-182: the results, given the best parameters *)
Definition simultan_result (B alpha : R) (low high : emodel) (gsf_in : rvec) : option (rvec * emodel * emodel) :=
  let gsf := transform B alpha gsf_in in
  match rv_E gsf with
  | [] => None
  | e0 :: _ =>
      let (low, high) := fit_models gsf (autorange e0 low) (autorange e0 high) in
      let done m := mkEM (em_high m) (em_scale m) (em_shift m) (Some (em_shift m)) (em_Emin m) (em_Emax m) (em_steps m) (em_fit m) in
      Some (gsf, done low, done high)
  end.
End Normalize.
(* the quantity curve_fit minimises (models.py:261-262): squares of (y - model)/sigma on the
   points of the fit range, sigma = 1 without uncertainties *)
Definition chi2 (high : bool) (scale shift : R) (pts : list (R * R * R)) : R :=
  fold_right Rplus 0 (map (fun q => let '(e, y, s) := q in
    let m := exp (scale * e + shift) / (if high then e ^ 3 else 1) in ((y - m) / s) ^ 2) pts).
