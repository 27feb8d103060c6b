(* What the two-point spin-cut models should compute. *)
From Verif Require Import PyBase.

(* constant up to e0, then the straight line through (e0, s0) and (e1, s1), constant from e1 *)
Definition two_point (e0 s0 e1 s1 e : Qc) : Qc :=
  if qleb e e0 then s0 else if qleb e1 e then s1 else ((e1 - e) * s0 + (e - e0) * s1) / (e1 - e0).
