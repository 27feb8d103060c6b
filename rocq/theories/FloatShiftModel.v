(* Model of Matrix.to_lower_bin and to_mid_bin (ompy/matrix.py:851-863) on one axis, and of the
   call of both in Matrix.plot (ompy/matrix.py:319-326), in double precision: each operation is
   followed by rounding to the nearest double.  Numbers beyond the greatest double are not modelled
   (nothing overflows).  An axis with less than two bins is refused (None): the code raises
   IndexError (plot: ValueError). *)
From Coq Require Import Reals List.
From Flocq Require Import Core.
From Verif Require Import TextNumModel.
Import ListNotations.
Local Open Scope R_scope.

(* 853, 854, 860, 861: half of the difference of the first two energies *)
Definition fhalf (E0 E1 : R) : R := near (near (E1 - E0) / 2).
(* 851-856 *)
Definition flower (l : list R) : option (list R) :=
  match l with
  | E0 :: E1 :: _ => Some (map (fun e => near (e - fhalf E0 E1)) l)
  | _ => None
  end.
(* 858-863 *)
Definition fmid (l : list R) : option (list R) :=
  match l with
  | E0 :: E1 :: _ => Some (map (fun e => near (e + fhalf E0 E1)) l)
  | _ => None
  end.
(* 319, 326: the axis after a call of plot *)
Definition fplot (l : list R) : option (list R) :=
  match flower l with Some k => fmid k | None => None end.
(* ... and after n calls *)
Fixpoint fplots (n : nat) (l : list R) : option (list R) :=
  match n with
  | O => Some l
  | S n' => match fplots n' l with Some k => fplot k | None => None end
  end.
