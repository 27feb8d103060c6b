(* What vectors and their operations should satisfy. *)
From Verif Require Import Num VectorModel.

Definition v_consistent (v : vector) : Prop :=
  length (v_E v) = length (v_values v) /\
  match v_std v with Some s => length s = length (v_values v) | None => True end.

(* entries i..j (both included) of a list *)
Definition range_of {A} (i j : nat) (l : list A) : list A := firstn (S j - i) (skipn i l).

(* prefix sums *)
Definition prefix_sum (l : list Qc) (n : nat) : Qc := qsum (firstn n l).

(* the bin of axis l that contains e: lower edge included (right) or excluded (left) *)
Definition in_bin (l : list Qc) (s : side_t) (e : Qc) (i : nat) : Prop :=
  (S i < length l)%nat /\
  match s with
  | SideRight => nth i l 0 <= e /\ e < nth (S i) l 0
  | SideLeft => nth i l 0 < e /\ e <= nth (S i) l 0
  end.
