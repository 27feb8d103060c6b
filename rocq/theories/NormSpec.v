(* Vocabulary for the normalisation theorems. *)
From Coq Require Import Reals List.
From Verif Require Import TransformModel NormModel.
Import ListNotations.
Local Open Scope R_scope.

(* value v at energy e multiplied by A exp(a e) *)
Definition times (A a e : R) (v : option R) : option R := option_map (fun y => A * exp (a * e) * y) v.
(* the curve multiplied by A exp(a E) *)
Definition scaled_curve (A a : R) (c c' : curve) : Prop :=
  c_E c' = c_E c /\ c_v c' = rmap2 (times A a) (c_E c) (c_v c).
(* energies in ascending order *)
Fixpoint ascending (l : list R) : Prop :=
  match l with [] => True | x :: t => match t with [] => True | y :: _ => x < y /\ ascending t end end.
(* a curve of finite positive values, as many as energies *)
Definition positive_curve (c : curve) : Prop :=
  length (c_v c) = length (c_E c) /\ Forall (fun v => exists y, v = Some y /\ 0 < y) (c_v c).
