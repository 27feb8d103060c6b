(* Numbers in text files (ompy/filehandling.py): how they are printed and read back.
   R with the rounding of Flocq: a double is a number of the format FLT(-1074, 53); the
   greatest double is not modelled (nothing overflows). *)
From Coq Require Import Reals ZArith List.
From Flocq Require Import Core.
Import ListNotations.
Local Open Scope R_scope.

Definition fdouble : Z -> Z := FLT_exp (-1074) 53.
Definition radix10 : radix := Build_radix 10 eq_refl.
(* is a number a double precision number *)
Definition double (x : R) : Prop := generic_format radix2 fdouble x.
(* float(text), np.loadtxt 308, 373, np.genfromtxt 28: the double nearest to the decimal number;
   also the result of an operation on doubles *)
Definition near (x : R) : R := round radix2 fdouble ZnearestE x.
(* '%.<n>e': one digit before and n digits after the point, rounded correctly *)
Definition fmt_e (n : Z) (x : R) : R := round radix10 (FLX_exp (n + 1)) ZnearestE x.

(* 303, 393: np.savetxt with its default format '%.18e' *)
Definition txt_number (x : R) : R := fmt_e 18 x.
(* 136, 190: fmt="%-17.8E" *)
Definition mama_number (x : R) : R := fmt_e 8 x.
(* 114-117, 164-171: '%12.6E' *)
Definition mama_coefficient (x : R) : R := fmt_e 6 x.
(* a table written by np.savetxt and read again *)
Definition txt_again (t : list (list R)) : list (list R) := map (map (fun x => near (txt_number x))) t.
(* the counts of a mama file *)
Definition mama_counts (t : list (list R)) : list (list R) := map (map (fun x => near (mama_number x))) t.
(* one axis of a mama file: 96-101, 148-156 with vector.py 108-116, matrix.py 261-273: the
   coefficients are E[0], E[1]-E[0] and 0; 62, 72-73: a0 + a1*i + a2*i**2 in this order *)
Definition mama_axis (E0 E1 : R) (i : nat) : R :=
  let a0 := near (mama_coefficient E0) in
  let a1 := near (mama_coefficient (near (E1 - E0))) in
  near (near (a0 + near (a1 * INR i)) + 0).
(* np.allclose(self.E, other.E) for one bin (vector.py 556, matrix.py 888): rtol 1e-5, atol 1e-8 *)
Definition close (x y : R) : Prop := Rabs (x - y) <= 1 / 100000000 + 1 / 100000 * Rabs y.
