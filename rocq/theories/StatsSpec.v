(* The standard normal distribution, said without the error function: its density and
   the probability between two possibly infinite bounds. *)
From Coq Require Import Reals.
From Coquelicot Require Import Coquelicot.
Local Open Scope R_scope.

Definition density (t : R) : R := / sqrt (2 * PI) * exp (- (t * t) / 2).

(* the bound of an integral: a number, or a limit *)
Definition edge (a : Rbar) : (R -> Prop) -> Prop :=
  match a with Finite r => at_point r | x => Rbar_locally x end.

(* the normal distribution has probability m between a and b *)
Definition mass (a b : Rbar) (m : R) : Prop := is_RInt_gen density (edge a) (edge b) m.
