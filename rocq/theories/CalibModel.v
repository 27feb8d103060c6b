(* Model of library.py:51-78 E_array_from_calibration. *)
From Verif Require Import PyBase.

(* np.round: to the nearest integer, ties to even *)
Definition round_even (x : Qc) : Z :=
  let f := qfloor x in
  let d := x - qz f in
  if qltb d (qn 1 2) then f
  else if qltb (qn 1 2) d then (f + 1)%Z
  else if Z.even f then f else (f + 1)%Z.
(* np.linspace(start, stop, num): num < 0 raises ValueError; one element: [start];
   otherwise start + i*(stop-start)/(num-1) *)
Definition linspace (start stop : Qc) (num : Z) : result (list Qc) :=
  if (num <? 0)%Z then Raise ValueError
  else Ok (tab (Z.to_nat num) (fun i => start + qnat i * ((stop - start) / qz (num - 1)))).
(* library.py:51-78; Python floats: division by a1 = 0 raises *)
Definition E_array_from_calibration (a0 a1 : Qc) (N : option Z) (E_max : option Qc) : result (list Qc) :=
  match E_max, N with
  | Some _, Some _ => Raise ValueError
  | _, Some n => linspace a0 (a0 + a1 * qz (n - 1)) n
  | Some em, None =>
      if qeqb a1 0 then Raise ZeroDivErr
      else let n := (round_even ((em - a0) / a1) + 1)%Z in linspace a0 (a0 + a1 * qz (n - 1)) n
  | None, None => Raise ValueError
  end.
