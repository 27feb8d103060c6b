(* Model of the steps between the extraction and the normalisation: ompy/extractor.py (from the
   transmission coefficient to the strength function) and the change of units in
   ompy/vector.py, over the real numbers. *)
From Coq Require Import Reals List.
From Verif Require Import TransformModel.
Local Open Scope R_scope.

(* extractor.py:418 (decompose, u = 1) and 263-264 (rhosigchi, u = 1000): the transmission
   coefficient over 2 pi E^3, values and uncertainties.  A bin at energy 0 (division by zero,
   inf in numpy) is not modelled: the theorems ask for energies above 0. *)
Definition strength (u : R) (v : rvec) : rvec :=
  mkRV (rmap2 (fun t e => t / (2 * PI * (e / u) ^ 3)) (rv_values v) (rv_E v)) (rv_E v)
       (option_map (fun s => rmap2 (fun x e => option_map (fun y => y / (2 * PI * (e / u) ^ 3)) x) s (rv_E v)) (rv_std v)).
(* vector.py:430-438 to_MeV of a vector in keV *)
Definition in_MeV (v : rvec) : rvec := mkRV (rv_values v) (map (fun e => e / 1000) (rv_E v)) (rv_std v).
