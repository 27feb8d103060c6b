(* Model of the initial guess of the level density (ompy/extractor.py 431-540), over the real
   numbers. *)
From Coq Require Import Reals List String.
Import ListNotations.
Local Notation length := List.length (only parsing).
Local Open Scope R_scope.

Section Guess.
Variables E0 a : R.                   (* the arguments of x0_BSFG; defaults -0.2 and 15 *)
(* 490-491 *)
Definition shifted (e : R) : R := let u := e - E0 in if Rle_dec u 0 then 1 / 2 else u.
(* 492 *)
Definition fermi_gas (e : R) : R :=
  let u := shifted e in exp (2 * sqrt (a * u)) / (Rpower a (1 / 4) * Rpower u (5 / 4)).
(* 475-502 x0_BSFG.  None: nan, since the two energies that fix alpha are equal (in
   particular for a single energy) *)
Definition x0_BSFG (E : list R) : option (list R) :=
  let n := length E in
  let q := Nat.div n 4 in
  let e i := nth i E 0 in
  let fg i := fermi_gas (e i) in
  if Req_EM_T (e (n - 1)%nat) (e q) then None
  else
    let alpha := ln (fg q / fg (n - 1)%nat) / (e (n - 1)%nat - e q) in
    let g i := fg i * exp (alpha * e i) in
    Some (map (fun i => g i / (g (Nat.div n 2) * (7 / 10))) (seq 0 n)).
End Guess.
(* 455-458: energies above 100 are taken for keV *)
Definition to_MeV (E : list R) : list R :=
  if Rlt_dec 100 (nth (length E - 1) E 0) then map (fun e => e / 1000) E else E.
(* 460-461: the default guess; an empty axis (IndexError) is left out *)
Definition guess_nld (E_nld : list R) : option (list R) := x0_BSFG (- (2 / 10)) 15 (to_MeV E_nld).
(* 504-520 *)
Definition x0_CT (E : list R) : list R := map (fun _ => 1) E.
(* 522-540 with the default arguments; the assertion vals >= 0 then holds *)
Definition x0_parabola (E : list R) : list R := map (fun e => 1 * ((e - 4) * (e - 4)) + 1 / 100) E.
(* 431-473 guess_initial_values, the part for the level density.  The assertion
   `np.isfinite(x0).all` is about a method and holds always: nan is returned *)
Inductive guess := Guess (x : list R) | GuessNan | NotImplementedError.
Definition guess_by (method : option string) (E_nld : list R) : guess :=
  let bsfg := match guess_nld E_nld with Some x => Guess x | None => GuessNan end in
  match method with
  | None => bsfg
  | Some m =>
      if String.eqb m "BSFG-like" then bsfg
      else if String.eqb m "CT-like" then Guess (x0_CT (to_MeV E_nld))
      else if String.eqb m "parabola" then Guess (x0_parabola (to_MeV E_nld))
      else NotImplementedError
  end.
(* 381-385: np.random.uniform(x0/5, x0*5), as a fraction u in [0, 1) of the interval *)
Definition randomise (x us : list R) : list R := map (fun p => fst p / 5 + snd p * (fst p * 5 - fst p / 5)) (combine x us).
