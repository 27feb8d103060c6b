(* Model of the likelihoods maximised by the normalisation: NormalizerNLD.lnlike and its
   arguments (ompy/normalizer_nld.py:232-277, 481-523), NormalizerGSF.lnlike
   (ompy/normalizer_gsf.py:573-579) and NormalizerSimultan.lnlike
   (ompy/normalizer_simultan.py:345-383), over the real numbers. *)
From Coq Require Import Reals List Lra.
From Verif Require Import TransformModel NormModel.
Import ListNotations.
Local Open Scope R_scope.

(* np.allclose, one element (default tolerances) *)
Definition near (a b : R) : Prop := Rabs (a - b) <= / 100000000 + / 100000 * Rabs b.
Definition near_dec (a b : R) : {near a b} + {~ near a b} := Rle_dec _ _.
Fixpoint all_near (l m : list R) : bool :=
  match l, m with
  | [], [] => true
  | a :: l', b :: m' => if near_dec a b then all_near l' m' else false
  | _, _ => false
  end.
(* one term of the chi square, vector.py:320-333: div0 turns nan and inf into 0.
   s: no std, a std that is nan, a std *)
Definition err_bin (v : R) (o : rnan) (s : option rnan) : R :=
  match o, s with
  | None, _ => 0
  | Some o, None => (v - o) ^ 2
  | Some o, Some None => 0
  | Some o, Some (Some x) => if Req_EM_T x 0 then 0 else (v - o) ^ 2 / x ^ 2
  end.
Fixpoint err_bins (v : list R) (o : list rnan) (s : option (list rnan)) : R :=
  match v, o with
  | x :: v', y :: o' =>
      err_bin x y (match s with None => None | Some [] => Some None | Some (z :: _) => Some z end)
      + err_bins v' o' (match s with None => None | Some l => Some (tl l) end)
  | _, _ => 0
  end.
(* vector.py:299-333 error(other) and 537-559; the other vector is given by its energies and
   values, which may be nan or inf (None) *)
Definition rerror (v : rvec) (E : list R) (o : list rnan) : outc :=
  if (Nat.eqb (length (rv_values v)) (length o) && all_near (rv_E v) E)%bool
  then OVal (err_bins (rv_values v) o (rv_std v)) else OErr.
(* np.log(std).sum(); np.log(None) is a TypeError *)
Definition ln_std (v : rvec) : outc :=
  match rv_std v with
  | None => OErr
  | Some s => osum (map (fun x : rnan => match x with
                                  | Some y => if Rlt_dec 0 y then OVal (ln y) else ONan
                                  | None => ONan
                                  end) s)
  end.

(* the parameters A, alpha, T and Eshift *)
Record par4 := mkP4 { p_A : R; p_alpha : R; p_T : R; p_Eshift : R }.
(* normalizer_nld.py:525-529 with a T that may be 0: then all values are nan or inf *)
Definition ct (T Eshift E : R) : rnan :=
  if Req_EM_T T 0 then None else Some (const_temperature T Eshift E).

(* normalizer_nld.py:481-523 lnlike.  model T Eshift E; nldSn = (value, uncertainty). *)
Definition lnlike (model : R -> R -> R -> rnan) (x : par4) (low high disc : rvec) (Sn : R)
    (nldSn : R * R) : outc :=
  let tl := transform (p_A x) (p_alpha x) low in
  let th := transform (p_A x) (p_alpha x) high in
  let err_low := rerror tl (rv_E disc) (map Some (rv_values disc)) in
  let err_high := rerror th (rv_E th) (map (model (p_T x) (p_Eshift x)) (rv_E th)) in
  let err_Sn := match model (p_T x) (p_Eshift x) Sn with
                | Some m => if Req_EM_T (snd nldSn) 0 then ONan
                            else OVal (((fst nldSn - m) / snd nldSn) ^ 2)
                | None => ONan
                end in
  oscale (- / 2) (omap2 Rplus (omap2 Rplus (omap2 Rplus err_low err_high) err_Sn)
                              (omap2 Rplus (ln_std tl) (ln_std th))).

Section Fit.
(* Vector.index (vector.py:561-563): the position looked up on the energies *)
Variable idx : list R -> R -> nat.
Definition rslice {A} (lo hi : nat) (l : list A) : list A := firstn (hi + 1 - lo) (skipn lo l).
(* vector.py:335-367 cut(Emin, Emax, inplace=False) *)
Definition rcut (lim : R * R) (v : rvec) : rvec :=
  let lo := idx (rv_E v) (fst lim) in
  let hi := idx (rv_E v) (snd lim) in
  mkRV (rslice lo hi (rv_values v)) (rslice lo hi (rv_E v)) (option_map (rslice lo hi) (rv_std v)).

(* What the fit of the level density is given (normalizer_nld.py:259-271): limits, discrete
   levels, Sn and nld(Sn) from D0 *)
Record nld_fit := mkFit { f_low : R * R; f_high : R * R; f_disc : rvec; f_Sn : R; f_nldSn : R * R }.
(* normalizer_nld.py:263-271: nld(Sn) and its uncertainty *)
Definition sn_point (g2 : R -> R) (D0 D0u Sn Jt : R) : R * R :=
  let n := snd (nldSn_from_D0 g2 (Meas D0 D0u) (Val Sn) Jt) in (n, n * (D0u / D0)).
(* normalizer_nld.py:259-277 and 355-356: the function that differential evolution and
   multinest maximise *)
Definition objective (model : R -> R -> R -> rnan) (f : nld_fit) (nld : rvec) (x : par4) : outc :=
  lnlike model x (rcut (f_low f) nld) (rcut (f_high f) nld) (rcut (f_low f) (f_disc f)) (f_Sn f) (f_nldSn f).
(* normalizer_nld.py:217-221: the result *)
Definition normalised (nld : rvec) (x : par4) : rvec := transform (p_A x) (p_alpha x) nld.

(* normalizer_gsf.py:573-579 *)
Definition gsf_lnlike (Gg : outc) (meas sigma : R) : outc :=
  if Req_EM_T sigma 0 then ONan
  else omap2 (fun g _ => - / 2 * ((g - meas) / sigma) ^ 2) Gg (OVal 0).
(* normalizer_simultan.py:345-383 lnlike with the constant temperature model.  D0 is the one
   equivalent to T and Eshift.  fitf, p, ss, g2, low, high: as in NormModel.v. *)
Definition sim_lnlike (fitf : rvec -> emodel -> R * R) (g2 : R -> R) (p : npars) (sigma : R)
    (ss : R -> R) (low high : emodel) (f : nld_fit) (nld gsf_in : rvec) (x : par4) (B : R) : outc :=
  let model := const_temperature (p_T x) (p_Eshift x) in
  let D0 := D0_from_nldSn g2 model (Val (np_Sn p)) (np_Jt p) in
  let p' := mkPars D0 (np_D0u p) (np_Gg p) (np_Sn p) (np_Jt p) (np_Emin p) (np_Emax p) (np_steps p) in
  omap2 Rplus (objective ct f nld x)
    (match simultan_curves fitf B (p_alpha x) low high gsf_in with
     | Some (cg, cl, ch) =>
         gsf_lnlike (Gg_standard p' ss cg cl ch (rv_curve (transform (p_A x) (p_alpha x) nld)) model) (np_Gg p) sigma
     | None => OErr
     end).
End Fit.
