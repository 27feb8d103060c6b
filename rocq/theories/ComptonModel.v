(* Model over the real numbers of the Compton kinematics in ompy/response.py. *)
From Coq Require Import Reals.
Local Open Scope R_scope.

(* response.py:709-727 E_compton *)
Definition E_compton_R (Eg theta : R) : R :=
  if Rlt_dec (/ 10) Eg then Eg - Eg / (1 + Eg / 511 * (1 - cos theta)) else Eg.
(* response.py:729-745 dE_dtheta *)
Definition dE_dtheta_R (Eg theta : R) : R :=
  (Eg * Eg / 511 * sin theta) / ((1 + Eg / 511 * (1 - cos theta)) ^ 2).
(* response.py:622-623: the angle belonging to the electron energy Ei; div0 gives 0 for a zero
   denominator *)
Definition z_of (E Ei : R) : R :=
  if Req_EM_T (E / 511 * (E - Ei)) 0 then 0 else Ei / (E / 511 * (E - Ei)).
Definition theta_of (E Ei : R) : R := acos (1 - z_of E Ei).
(* response.py:616 lin_interpolation and 639-640 *)
Definition lin_R (x x0 y0 x1 y1 : R) : R := y0 + (y1 - y0) * (x - x0) / (x1 - x0).
Definition fan_value (E E1 c1 E2 c2 theta : R) : R :=
  lin_R E E1 (c1 * dE_dtheta_R E1 theta) E2 (c2 * dE_dtheta_R E2 theta) / dE_dtheta_R E theta.
