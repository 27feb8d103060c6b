(* Model of Vector.transform (ompy/vector.py:264-297) over the real numbers, with numpy's
   exp as the real exponential. *)
From Coq Require Import Reals List.
Import ListNotations.
Local Open Scope R_scope.

(* a float64 result that may be NaN *)
Notation rnan := (option R).
(* a Vector with real values; std, if present, may contain NaN *)
Record rvec := mkRV { rv_values : list R; rv_E : list R; rv_std : option (list rnan) }.

(* vector.py:284-285 and 288-289, one bin: relative_uncertainty = std/values, then times the
   transformed value t = const*value*exp(alpha*E).  A zero value gives inf or NaN, and inf*0
   (t = 0 in that case) is NaN. *)
Definition std_bin (s : rnan) (v t : R) : rnan :=
  match s with
  | None => None
  | Some x => if Req_EM_T v 0 then None else Some (x / v * t)
  end.
(* vector.py:286 *)
Definition value_bin (c a v e : R) : R := c * v * exp (a * e).
Fixpoint rmap2 {A B C} (f : A -> B -> C) (l : list A) (m : list B) : list C :=
  match l, m with x :: l', y :: m' => f x y :: rmap2 f l' m' | _, _ => [] end.
(* vector.py:264-297 transform; inplace and not inplace give the same data, units are kept
   (modelled: the data).  The arrays have equal lengths. *)
Definition transform (c a : R) (v : rvec) : rvec :=
  let t := rmap2 (value_bin c a) (rv_values v) (rv_E v) in
  mkRV t (rv_E v)
    (match rv_std v with
     | None => None
     | Some s => Some (rmap2 (fun sv x => std_bin (fst sv) (snd sv) x) (rmap2 pair s (rv_values v)) t)
     end).
