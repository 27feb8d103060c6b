(* Selection rules.  Spins are given by their doubles (natural numbers). *)
From Verif Require Import PyBase.

(* a spin from its double *)
Definition half (n : nat) : Qc := qnat n / qz 2.
Definition same_parity (a b : nat) : Prop := Nat.even a = Nat.even b.
(* three angular momenta (doubled) that can form a closed triangle *)
Definition triangle (a b c : nat) : Prop := (a <= b + c)%nat /\ (b <= a + c)%nat /\ (c <= a + b)%nat /\ Nat.even (a + b + c) = true.
(* r is a spin that target spin j, neutron spin one half and orbital momentum l couple to *)
Definition reachable (j l r : nat) : Prop := exists s, triangle j 1 s /\ triangle s (2 * l) r.
(* electric or magnetic dipole radiation connects r and f *)
Definition dipole (r f : nat) : Prop := triangle r 2 f.
