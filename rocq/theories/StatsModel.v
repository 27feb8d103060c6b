(* Quantiles of the normal and the truncated normal distribution: src/stats.cpp and
   src/erfinv.hpp, and the priors built from them (normalizer_nld.py 326-354,
   normalizer_simultan.py 254-291). Real numbers replace doubles, the decimal
   constant sqrt2 is the square root of 2, M_PI is PI; infinite values are those of
   Rbar. *)
From Coq Require Import Reals.
From Coquelicot Require Import Coquelicot.
Local Open Scope R_scope.

(* std::erf *)
Definition erf (x : R) : R := 2 / sqrt PI * RInt (fun t => exp (- (t * t))) 0 x.
(* std::erf on infinite arguments *)
Definition erf_x (x : Rbar) : R :=
  match x with Finite r => erf r | p_infty => 1 | m_infty => -1 end.

(* erfinv.hpp 62-71: the first approximation for 0 <= x < 1 *)
Definition dec (n d : Z) : R := IZR n / IZR d.
Definition approx_low (x : R) : R :=
  let x2 := x * x in
  x * (((dec (-140543331) 1000000000 * x2 + dec 914624893 1000000000) * x2
        + dec (-1645349621) 1000000000) * x2 + dec 886226899 1000000000)
  / ((((dec 12229801 1000000000 * x2 + dec (-329097515) 1000000000) * x2
       + dec 1442710462 1000000000) * x2 + dec (-2118377725) 1000000000) * x2 + 1).
Definition approx_high (x : R) : R :=
  let y := sqrt (- ln ((1 - x) / 2)) in
  (((dec 1641345311 1000000000 * y + dec 3429567803 1000000000) * y
    + dec (-162490649) 100000000) * y + dec (-1970840454) 1000000000)
  / ((dec 1637067800 1000000000 * y + dec 3543889200 1000000000) * y + 1).
Definition approx (x : R) : R :=
  if Rle_dec x (7 / 10) then approx_low x else approx_high x.

(* erfinv.hpp 76-77: one Newton step for erf r = x *)
Definition newton (x r : R) : R :=
  r - (erf r - x) / (2 / sqrt PI * exp (- r * r)).

(* erfinv.hpp 49-80 *)
Definition erfinv (x : R) : Rbar :=
  if Rle_dec x (-1) then m_infty
  else if Rle_dec 1 x then p_infty
  else
    let sign_x := if Rlt_dec x 0 then -1 else 1 in
    let x' := Rabs x in
    let r := approx x' * sign_x in
    let x'' := x' * sign_x in
    Finite (newton x'' (newton x'' r)).

(* multiplication of a possibly infinite double by sqrt2 *)
Definition times_sqrt2 (r : Rbar) : Rbar :=
  match r with Finite x => Finite (sqrt 2 * x) | p_infty => p_infty | m_infty => m_infty end.
(* division by sqrt2 *)
Definition over_sqrt2 (r : Rbar) : Rbar :=
  match r with Finite x => Finite (x / sqrt 2) | p_infty => p_infty | m_infty => m_infty end.

Section Inv.
  (* the inverse error function used *)
  Variable inv : R -> Rbar.
  (* stats.cpp 13-16 *)
  Definition normal_ppf_by (x : R) : Rbar := times_sqrt2 (inv (2 * x - 1)).
  (* stats.cpp 19-24 *)
  Definition truncnorm_ppf_by (x : R) (alpha beta : Rbar) : Rbar :=
    let a := 1 / 2 * (1 + erf_x (over_sqrt2 alpha)) in
    let b := 1 / 2 * (1 + erf_x (over_sqrt2 beta)) in
    times_sqrt2 (inv (2 * (x * (b - a) + a) - 1)).
End Inv.
Definition normal_ppf : R -> Rbar := normal_ppf_by erfinv.
Definition truncnorm_ppf : R -> Rbar -> Rbar -> Rbar := truncnorm_ppf_by erfinv.

(* normalizer_nld.py 329-332 and 342: prior of A (and of B in
   normalizer_simultan.py 268-271, 288): truncated at 0, centre A, width 10 A.
   b_A is infinite for A > 0. *)
Definition prior_scale (inv : R -> Rbar) (A u : R) : Rbar :=
  let a := (0 - A) / (10 * A) in
  match truncnorm_ppf_by inv u (Finite a) p_infty with
  | Finite t => Finite (t * (10 * A) + A)
  | x => x
  end.
(* normalizer_nld.py 334-337 and 350-351: prior of Eshift: within [-5, 5] *)
Definition prior_shift (inv : R -> Rbar) (u : R) : Rbar :=
  match truncnorm_ppf_by inv u (Finite ((-5 - 0) / 5)) (Finite ((5 - 0) / 5)) with
  | Finite t => Finite (t * 5 + 0)
  | x => x
  end.
(* normalizer_nld.py 319, 345: 10**(u*2 + (log10(guess) - 1)) *)
Definition prior_log (guess u : R) : R :=
  Rpower 10 (u * 2 + (ln guess / ln 10 - 1)).
