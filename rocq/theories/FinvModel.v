(* The inverse of the normal distribution used for the uncertainties of rhosigchi:
   ompy/rhosigchi.cpp (Finv). Real numbers replace doubles; abs is the one for doubles
   (std::abs, in scope through Python.h's math.h). *)
From Coq Require Import Reals.
From Verif Require Import StatsModel.
Local Open Scope R_scope.

(* rhosigchi.cpp 299: the function that is inverted; 1.414213562 as in the source *)
Definition rootc : R := 1414213562 / 1000000000.
Definition Fc (x : R) : R := 5 / 10 * (1 + erf (x / rootc)).

(* rhosigchi.cpp 296: the local variables *)
Record fvars := mkF { xl : R; xh : R; xx : R; yl : R; yh : R; yy : R }.
Definition fstart : fvars := mkF (-3) 3 0 0 1 (5 / 10).

(* The value, a division by zero (inf or NaN in C++), or the loop still running when
   the fuel is used up. *)
Inductive fres := FVal (x : R) | FDiv | FMore.

(* rhosigchi.cpp 297-309: each turn of the loop takes one unit of fuel; the C++ loop
   has no limit. *)
Fixpoint finv_loop (fuel : nat) (y0 : R) (s : fvars) : fres :=
  if Rlt_dec (1 / 1000) (Rabs (yy s - y0)) then
    match fuel with
    | O => FMore
    | S n =>
        if Req_EM_T (yh s - yl s) 0 then FDiv
        else
          let x := xl s + (xh s - xl s) * (y0 - yl s) / (yh s - yl s) in
          let y := Fc x in
          if Rlt_dec y0 y then finv_loop n y0 (mkF x (xh s) x y (yh s) y)
          else finv_loop n y0 (mkF (xl s) x x (yl s) y y)
    end
  else FVal (xx s).
(* rhosigchi.cpp 294-311 *)
Definition Finv (fuel : nat) (y0 : R) : fres := finv_loop fuel y0 fstart.
