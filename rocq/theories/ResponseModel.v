(* Model of ompy/response.py: interpolation of the response matrix.
   An angle theta in [0, pi] is represented by its cosine.  E_compton depends on theta only
   through the cosine; in fan_method_compton the factors sin(theta) of dE_dtheta cancel (see
   ComptonProps.fan_sine_cancels over the reals). *)
From Verif Require Import PyBase Axis RebinModel MatrixModel VectorModel SmoothModel InterpModel.

(* response.py:88-233: the tables loaded from file (attributes resp, compton_matrix and
   Ecmp_array).  Reading the files: RespLoadModel.  All columns have as many entries as
   there are tabulated energies. *)
Record resp_t := mkResp {
  r_Eg : list Qc; r_fwhm : list Qc; r_eff : list Qc;
  r_FE : list Qc; r_SE : list Qc; r_DE : list Qc; r_c511 : list Qc;
  r_cmp : list (list Qc); r_Ecmp : list Qc }.

(* response.py:709-727 E_compton, with c the cosine of the angle *)
Definition E_compton (Eg c : Qc) : Qc :=
  if qltb (qn 1 10) Eg then Eg - Eg / (1 + Eg / qz 511 * (1 - c)) else Eg.
(* response.py:729-745 dE_dtheta without its factor sin(theta) *)
Definition dE_dtheta (Eg c : Qc) : Qc :=
  let b := 1 + Eg / qz 511 * (1 - c) in (Eg * Eg / qz 511) / (b * b).

(* response.py:747-767 two_channel_split.  E_array[1] of a shorter array raises IndexError;
   a zero bin width is outside the model. *)
Definition two_channel_split (e : Qc) (E : list Qc) : result (Z * Z * Qc) :=
  match E with
  | a0 :: a1 :: _ =>
      let b := (e - a0) / (a1 - a0) in
      Ok (qfloor b, qceil b, b - qz (qfloor b))
  | _ => Raise IndexError
  end.

(* response.py:235-253 get_probabilities: total counts and probabilities of row i *)
Definition sum_spec (r : resp_t) (i : nat) : Qc :=
  qsum (nth i (r_cmp r) []) + vget (r_FE r) i + vget (r_SE r) i + vget (r_DE r) i + vget (r_c511 r) i.
Definition nE (r : resp_t) : nat := length (r_Eg r).
Definition cmp_matrix (r : resp_t) : list (list Qc) :=
  tab (nE r) (fun i => map (fun x => div0 x (sum_spec r i)) (nth i (r_cmp r) [])).
Definition prob (r : resp_t) (column : list Qc) : list Qc :=
  tab (nE r) (fun i => div0 (vget column i) (sum_spec r i)).
Definition pcmp (r : resp_t) : list Qc := map qsum (cmp_matrix r).
(* response.py:255-276: the interpolating functions *)
Definition f_pcmp (r : resp_t) : Qc -> result Qc := interp1d (r_Eg r) (pcmp r) Extrapolate.
Definition f_pFE (r : resp_t) : Qc -> result Qc := interp1d (r_Eg r) (prob r (r_FE r)) Extrapolate.
Definition f_pSE (r : resp_t) : Qc -> result Qc := interp1d (r_Eg r) (prob r (r_SE r)) (FillBoth 0 0).
Definition f_pDE (r : resp_t) : Qc -> result Qc := interp1d (r_Eg r) (prob r (r_DE r)) (FillBoth 0 0).
Definition f_p511 (r : resp_t) : Qc -> result Qc := interp1d (r_Eg r) (prob r (r_c511 r)) (FillBoth 0 0).
Definition f_eff (r : resp_t) : Qc -> result Qc := interp1d (r_Eg r) (r_eff r) Extrapolate.
Definition f_fwhm_norm (r : resp_t) : Qc -> result Qc := interp1d (r_Eg r) (r_fwhm r) Extrapolate.
Definition f_fwhm_rel (r : resp_t) (fwhm_abs : Qc) : Qc -> result Qc :=
  interp1d (r_Eg r) (map (fun x => x * (fwhm_abs / qz 1330 * qz 100)) (r_fwhm r)) Extrapolate.

(* response.py:392-410 iterpolate_checks *)
Definition interpolate_checks (r : resp_t) (Eout : list Qc) (fwhm_abs : Qc) : result unit :=
  if negb (qleb (qn 1 10) fwhm_abs && qleb fwhm_abs (qz 1000)) then Raise AssertionError
  else if (length Eout <=? 1)%nat then Raise ValueError
  else do f <- f_fwhm_norm r (qz 1330) ;;
       if qltb (qabs (f - 1)) (qn 5 100) then Ok tt else Raise AssertionError.

(* np.arange(start, stop, step) for a positive step *)
Definition arange (start stop step : Qc) : list Qc :=
  tab (Z.to_nat (qceil ((stop - start) / step))) (fun i => start + qnat i * step).

(* response.py:412-455 get_closest_compton.  Tabulated energies that make Elow equal to Ehigh
   lead to nan in the interpolations; here ZeroDivErr. *)
Record compton_t := mkCompton { c_Elow : Qc; c_Ehigh : Qc; c_low : list Qc; c_high : list Qc }.
Definition get_closest_compton (r : resp_t) (Eout : list Qc) (E : Qc) : result compton_t :=
  let k := Z.of_nat (searchsorted (r_Eg r) E SideRight) in
  let ihigh := if (k =? Z.of_nat (nE r))%Z then (k - 1)%Z else k in
  let ilow := (ihigh - 1)%Z in
  do Ehigh <- py_index (r_Eg r) ihigh ;;
  do high <- py_index (cmp_matrix r) ihigh ;;
  do lowp <- (if (ilow <? 0)%Z then Ok (0, map (fun _ => 0) high)
              else do e <- py_index (r_Eg r) ilow ;; do l <- py_index (cmp_matrix r) ilow ;; Ok (e, l)) ;;
  match Eout with
  | e0 :: e1 :: _ =>
      let Enew := arange e0 (last (r_Ecmp r) 0) (e1 - e0) in
      do l <- rebin_1D (snd lowp) (r_Ecmp r) Enew ;;
      do h <- rebin_1D high (r_Ecmp r) Enew ;;
      if qeqb (fst lowp) Ehigh then Raise ZeroDivErr
      else Ok (mkCompton (fst lowp) Ehigh l h)
  | _ => Raise IndexError
  end.

(* y0 + (y1-y0)*(x-x0)/(x1-x0), response.py:560 and 616; also interp1d of the two spectra,
   response.py:457-476 *)
Definition lin (x x0 y0 x1 y1 : Qc) : Qc := y0 + (y1 - y0) * (x - x0) / (x1 - x0).
(* response.py:457-476 linear_cmp_interpolation (the two arrays have the same length) *)
Definition linear_cmp (E : Qc) (c : compton_t) : list Qc :=
  tab (length (c_low c)) (fun k => lin E (c_Elow c) (vget (c_low c) k) (c_Ehigh c) (vget (c_high c) k)).

(* numpy: R[lo:hi] = rhs for 0 <= lo; a right-hand side of one element is broadcast, any other
   difference in length raises ValueError *)
Definition assign_slice (R : list Qc) (lo hi : nat) (rhs : list Qc) : result (list Qc) :=
  let a := Nat.min lo (length R) in
  let b := Nat.max a (Nat.min hi (length R)) in
  if (length rhs =? b - a)%nat then Ok (firstn a R ++ rhs ++ skipn b R)
  else match rhs with
       | [x] => Ok (firstn a R ++ repeat x (b - a) ++ skipn b R)
       | _ => Raise ValueError
       end.
(* numpy: l[lo:hi] for 0 <= lo <= hi *)
Definition slice (l : list Qc) (lo hi : nat) : list Qc := firstn (hi - lo) (skipn lo l).
(* R[R < 0] = 0 *)
Definition clip0 (R : list Qc) : list Qc := map (fun x => if qltb x 0 then 0 else x) R.
Definition zeros (n : nat) : list Qc := repeat 0 n.

(* response.py:478-500 linear_backscatter *)
Definition linear_backscatter (Eout : list Qc) (E : Qc) (c : compton_t) : result (list Qc * nat) :=
  let Ebsc := E - E_compton E (- (1)) in
  let i_bsc := index Eout Ebsc in
  do R <- assign_slice (zeros (length Eout)) 0 (i_bsc + 1) (slice (linear_cmp E c) 0 (i_bsc + 1)) ;;
  Ok (clip0 R, i_bsc).
(* response.py:502-520 linear_to_end *)
Definition linear_to_end (Eout : list Qc) (E : Qc) (c : compton_t) (i_start i_stop : nat) : result (list Qc) :=
  do R <- assign_slice (zeros (length Eout)) i_start (i_stop + 1)
            (slice (linear_cmp E c) i_start (i_stop + 1)) ;;
  Ok (clip0 R).

(* response.py:522-588 fan_to_end.  A zero denominator of scale1 gives inf and int(inf) raises
   OverflowError (here ValueError). *)
Definition fan_to_end (Eout : list Qc) (E : Qc) (c : compton_t) (i_start i_stop : nat) (fwhm : list Qc)
  : result (list Qc) :=
  let Ecmp1 := E_compton (c_Elow c) (- (1)) in
  let Ecmp2 := E_compton (c_Ehigh c) (- (1)) in
  let low_edge := qnat (index Eout Ecmp1) in
  let high_edge := qnat (index Eout Ecmp2) in
  do f1 <- py_index fwhm (Z.of_nat (index Eout (c_Elow c))) ;;
  do f2 <- py_index fwhm (Z.of_nat (index Eout (c_Ehigh c))) ;;
  do e_stop <- py_index Eout (Z.of_nat i_stop) ;;
  do e_start <- py_index Eout (Z.of_nat i_start) ;;
  if qeqb (e_stop - e_start) 0 then Raise ValueError
  else
    let scale1 := (c_Elow c + qz 6 * (f1 / qn 235 100) - Ecmp1) / (e_stop - e_start) in
    let scale2 := (c_Ehigh c + qz 6 * (f2 / qn 235 100) - Ecmp2) / (e_stop - e_start) in
    do vals <- rmapm (fun i =>
        let d := qnat i - (qnat i_start - 1) in
        let i1 := Z.min (qtrunc (low_edge + scale1 * d)) (Z.of_nat (length (c_low c)) - 1) in
        let i2 := Z.min (qtrunc (high_edge + scale2 * d)) (Z.of_nat (length (c_high c)) - 1) in
        do c1 <- py_index (c_low c) i1 ;;
        do c2 <- py_index (c_high c) i2 ;;
        Ok (lin E (c_Elow c) c1 (c_Ehigh c) c2)) (seq i_start (length Eout - i_start)) ;;
    Ok (clip0 (zeros i_start ++ vals)).

(* response.py:590-654 fan_method_compton, the loop; returns the array and i_last.  The
   comparison 0 < theta < pi is made on the cosine 1 - z; for z outside [0, 2] arccos is nan
   and the comparison fails, as it does here. *)
Fixpoint fan_loop (Eout : list Qc) (E Ece : Qc) (c : compton_t) (is_ : list nat) (R : list Qc) (i_last : nat)
  : result (list Qc * nat) :=
  match is_ with
  | [] => Ok (R, i_last)
  | i :: rest =>
      let Ei := vget Eout i in
      if qltb Ei (qn 1 10) || qltb Ece Ei then fan_loop Eout E Ece c rest R i_last
      else
        let z := div0 Ei (E / qz 511 * (E - Ei)) in
        if qltb 0 z && qltb z (qz 2) then
          let co := 1 - z in
          do c1 <- py_index (c_low c) (Z.of_nat (index Eout (E_compton (c_Elow c) co))) ;;
          do c2 <- py_index (c_high c) (Z.of_nat (index Eout (E_compton (c_Ehigh c) co))) ;;
          let v := lin E (c_Elow c) (c1 * dE_dtheta (c_Elow c) co) (c_Ehigh c) (c2 * dE_dtheta (c_Ehigh c) co) in
          fan_loop Eout E Ece c rest (upd R i (v / dE_dtheta E co)) i
        else fan_loop Eout E Ece c rest R i_last
  end.
Definition fan_method (Eout : list Qc) (E : Qc) (c : compton_t) (i_start i_stop : nat)
  : result (list Qc * nat) :=
  let Ece := E_compton E (- (1)) in
  let i_ce := Nat.min (index Eout Ece) (Nat.min i_stop (length Eout)) in
  do p <- fan_loop Eout E Ece c (seq i_start (i_ce - i_start)) (zeros (length Eout)) i_start ;;
  Ok (clip0 (fst p), snd p).

(* a[i] += x for an index given by Python's rules *)
Definition add_at (l : list Qc) (i : Z) (x : Qc) : result (list Qc) :=
  do y <- py_index l i ;;
  Ok (upd l (Z.to_nat (if (i <? 0)%Z then Z.of_nat (length l) + i else i)) (y + x)).
(* response.py:680-705: one peak shared between two channels *)
Definition add_peak (Eout l : list Qc) (e p : Qc) : result (list Qc) :=
  do s <- two_channel_split e Eout ;;
  let '(i, k, d) := s in
  do l1 <- add_at l i ((1 - d) * p) ;;
  add_at l1 k (d * p).
(* response.py:656-701 discrete_peaks before smoothing *)
Definition raw_peaks (r : resp_t) (Eout : list Qc) (j : nat) : result (list Qc) :=
  do e_fe <- py_index Eout (Z.of_nat j) ;;
  do e0 <- py_index Eout 0 ;;
  do pFE <- f_pFE r e_fe ;;
  let l0 := upd (zeros (length Eout)) j pFE in
  let e_se := e_fe - qz 511 in
  do l1 <- (if qleb 0 e_se && qleb e0 e_se then do p <- f_pSE r e_fe ;; add_peak Eout l0 e_se p else Ok l0) ;;
  let e_de := e_fe - qz 2 * qz 511 in
  do l2 <- (if qleb 0 e_de && qleb e0 e_de then do p <- f_pDE r e_fe ;; add_peak Eout l1 e_de p else Ok l1) ;;
  if qltb (qz 511) e_fe && qleb e0 (qz 511) then do p <- f_p511 r e_fe ;; add_peak Eout l2 (qz 511) p else Ok l2.

Definition vadd (a b : list Qc) : list Qc := tab (length a) (fun k => vget a k + vget b k).
(* div0(R, sum(R)) *)
Definition normalise_row (R : list Qc) : list Qc := map (fun x => div0 x (qsum R)) R.

Section Interpolate.
Variable gaussian : Qc -> Qc -> Qc -> Qc.
(* response.py:61-66 the attributes smooth_compton and truncate *)
Variable smooth_compton : bool.
Variable truncate : Qc.

(* response.py:331-355: the Compton part of row j *)
Definition compton_part (r : resp_t) (Eout fwhm : list Qc) (j : nat) (E : Qc) : result (list Qc) :=
  let Egmax := E + qz 6 * (vget fwhm j / qn 235 100) in
  let i_Egmax := Nat.min (index Eout Egmax) (length Eout - 1) in
  do c <- get_closest_compton r Eout E ;;
  do low <- linear_backscatter Eout E c ;;
  let '(R_low, i_bsc) := low in
  do fan <- fan_method Eout E c (i_bsc + 1) i_Egmax ;;
  let '(R_fan, i_last) := fan in
  do R <- (if (i_last <=? i_bsc + 2)%nat
           then do R_high <- linear_to_end Eout E c (i_bsc + 1) i_Egmax ;; Ok (vadd R_low R_high)
           else do R_high <- fan_to_end Eout E c (i_last + 1) i_Egmax fwhm ;;
                Ok (vadd (vadd R_low R_fan) R_high)) ;;
  Ok (if qltb E (vget (r_Eg r) 0) then firstn (j + 1) R ++ zeros (length R - (j + 1)) else R).
(* response.py:331-369: row j.  None from the smoothing is an array of nan; adding and
   normalising keep nan and div0 turns them into 0. *)
Definition row (r : resp_t) (Eout fwhm : list Qc) (j : nat) : result (list Qc) :=
  do R <- compton_part r Eout fwhm j (vget Eout j) ;;
  do peaks <- raw_peaks r Eout j ;;
  if smooth_compton then
    do s <- gauss_smoothing gaussian (vadd R peaks) Eout fwhm truncate ;;
    Ok (match s with Some l => normalise_row l | None => zeros (length Eout) end)
  else
    do s <- gauss_smoothing gaussian peaks Eout fwhm truncate ;;
    Ok (match s with Some l => normalise_row (vadd R l) | None => zeros (length Eout) end).
(* response.py:278-376 interpolate (without return_table) *)
Definition interpolate (r : resp_t) (Eout : list Qc) (fwhm_abs : Qc) : result matrix :=
  do _ <- interpolate_checks r Eout fwhm_abs ;;
  do fwhm <- rmapm (fun e => do f <- f_fwhm_rel r fwhm_abs e ;; Ok (e * f / qz 100)) Eout ;;
  do R <- rmapm (row r Eout fwhm) (seq 0 (length Eout)) ;;
  mk_matrix (mkArr (length Eout) (map clip0 R)) (Some Eout) (Some Eout) None SNone.
End Interpolate.
