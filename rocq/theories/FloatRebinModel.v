(* ompy/rebin.pyx 12-92 in double precision: every operation is rounded to the nearest double
   (TextNumModel.near: IEEE 754 without overflow; rebin.pyx is compiled without -ffast-math, and no
   multiplication and addition are fused).  RebinModel is the same code over exact numbers. *)
From Coq Require Import Reals ZArith List.
From Flocq Require Import Core.
From Verif Require Import TextNumModel.
Import ListNotations.
Local Open Scope R_scope.

Definition fadd (x y : R) : R := near (x + y).
Definition fsub (x y : R) : R := near (x - y).
Definition fmul (x y : R) : R := near (x * y).
Definition fdiv (x y : R) : R := near (x / y).

(* 65, 67: a1 = mids[1] - mids[0] *)
Definition f_a1 (m0 m1 : R) : R := fsub m1 m0.
(* 65, 67, 70-71: a0 = mids[0] - a1/2 *)
Definition f_a0 (m0 m1 : R) : R := fsub m0 (fdiv (f_a1 m0 m1) 2).
(* 81-84, 87: a0 + a1*k; the integer k is exact *)
Definition f_edge (a0 a1 : R) (k : Z) : R := fadd a0 (fmul a1 (IZR k)).
(* 81-82: (a0_out + a1_out*k - a0_in)/a1_in *)
Definition f_quot (a0i a1i a0o a1o : R) (k : Z) : R := fdiv (fsub (f_edge a0o a1o k) a0i) a1i.
(* 81 *)
Definition f_jmin (a0i a1i a0o a1o : R) (i : Z) : Z := Z.max 0 (Ztrunc (f_quot a0i a1i a0o a1o (i - 1))).
(* 82 *)
Definition f_jmax (Nin : nat) (a0i a1i a0o a1o : R) (i : Z) : Z := Z.min (Z.of_nat Nin - 1) (Ztrunc (f_quot a0i a1i a0o a1o (i + 1))).
(* 12-36 *)
Definition f_overlap (il iu ol ou : R) : R := Rmax 0 (fsub (Rmin ou iu) (Rmax ol il)).
(* 86-90: counts[j] * overlap(...) / a1_in *)
Definition f_term (c a0i a1i a0o a1o : R) (i j : Z) : R :=
  let Ein := f_edge a0i a1i j in
  let Eout := f_edge a0o a1o i in
  fdiv (fmul c (f_overlap Ein (fadd Ein a1i) Eout (fadd Eout a1o))) a1i.
(* range(a, b) *)
Definition zr (a b : Z) : list Z := map (fun k => (a + Z.of_nat k)%Z) (seq 0 (Z.to_nat (b - a))).
(* 78-90: one output bin; counts[j] with j in range (RebinModel proves the same of the exact code) *)
Definition f_bin (counts : list R) (Nin : nat) (a0i a1i a0o a1o : R) (i : Z) : R :=
  fold_left (fun acc j => fadd acc (f_term (nth (Z.to_nat j) counts 0) a0i a1i a0o a1o i j))
            (zr (f_jmin a0i a1i a0o a1o i) (f_jmax Nin a0i a1i a0o a1o i + 1)) 0.
(* 42-92 for two axes of Nin and Nout bins that begin m0, m1 and o0, o1 *)
Definition f_rebin (counts : list R) (Nin Nout : nat) (m0 m1 o0 o1 : R) : list R :=
  map (fun i => f_bin counts Nin (f_a0 m0 m1) (f_a1 m0 m1) (f_a0 o0 o1) (f_a1 o0 o1) (Z.of_nat i)) (seq 0 Nout).
