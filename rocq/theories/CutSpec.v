(* What energy look-up and cuts should mean, independent of the implementation. *)
From Coq Require Export Sorting.Sorted.
From Verif Require Import Num.

Definition nondecreasing (l : list Qc) : Prop := StronglySorted Qcle l.
Definition increasing (l : list Qc) : Prop := StronglySorted Qclt l.

(* i is the last of the bins whose centre is nearest to e *)
Definition nearest (l : list Qc) (e : Qc) (i : nat) : Prop :=
  (i < length l)%nat /\
  (forall k, (k < length l)%nat -> qabs (nth i l 0 - e) <= qabs (nth k l 0 - e)) /\
  (forall k, (i < k < length l)%nat -> qabs (nth i l 0 - e) < qabs (nth k l 0 - e)).

(* energy window with optional limits, inclusive on both sides *)
Definition in_window (Emin Emax : option Qc) (e : Qc) : bool :=
  match Emin with Some a => qleb a e | None => true end &&
  match Emax with Some b => qleb e b | None => true end.
(* the same with each limit inclusive or exclusive *)
Definition in_window_gen (Emin Emax : option Qc) (imin imax : bool) (e : Qc) : bool :=
  match Emin with Some a => if imin then qleb a e else qltb a e | None => true end &&
  match Emax with Some b => if imax then qleb e b else qltb e b | None => true end.

(* the entries of v whose bin energy satisfies p, in order *)
Definition select {A} (p : Qc -> bool) (energies : list Qc) (v : list A) : list A :=
  map snd (filter (fun q => p (fst q)) (combine energies v)).
