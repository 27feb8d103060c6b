(* What a well-formed matrix is. *)
From Verif Require Import PyBase CutSpec MatrixModel.

(* an array with nr rows of nc entries each *)
Definition shaped (a : arr2) (nr nc : nat) : Prop :=
  a_nc a = nc /\ length (a_rows a) = nr /\ forall r, In r (a_rows a) -> length r = nc.
(* values and std (if any) match the axes *)
Definition consistent (m : matrix) : Prop :=
  shaped (values m) (length (Ex m)) (length (Eg m)) /\
  match std m with Some s => shaped s (length (Ex m)) (length (Eg m)) | None => True end.
(* all rows of an array have the length it claims (always true of a numpy array) *)
Definition rect_arr (a : arr2) : Prop := forall r, In r (a_rows a) -> length r = a_nc a.
(* total number of counts *)
Definition total (m : matrix) : Qc := msum (a_rows (values m)).

(* the point (c, r) lies strictly below (at a smaller r than) the line through p and q;
   points are (column, row) *)
Definition below_line (p q : Qc * Qc) (c r : Qc) : Prop :=
  exists y, (y - snd p) * (fst q - fst p) = (snd q - snd p) * (c - fst p) /\ r < y.
(* j is the last non-zero position of row r *)
Definition last_nonzero (r : list Qc) (j : nat) : Prop :=
  (j < length r)%nat /\ vget r j <> 0 /\ forall k, (j < k < length r)%nat -> vget r k = 0.
(* sum of a function over the indices lo..hi (both included; empty if hi < lo) *)
Definition sum_between (lo hi : nat) (f : nat -> Qc) : Qc := sumn (S hi - lo) (fun k => f (lo + k)%nat).
(* the matrix has the content v in the bin with energies (ex, eg) *)
Definition val_at (m : matrix) (ex eg v : Qc) : Prop :=
  exists row, In (ex, row) (combine (Ex m) (a_rows (values m))) /\ In (eg, v) (combine (Eg m) row).
(* first and last bin of the range with these limits *)
Definition proj_lim (l : list Qc) (Emin Emax : option Qc) (lo hi : nat) : Prop :=
  match Emin with Some e => nearest l e lo | None => lo = 0%nat end /\
  match Emax with Some e => nearest l e hi | None => hi = (length l - 1)%nat end.
(* filling a list of events (Eg, Ex, count) one after the other *)
Fixpoint fills (m : matrix) (es : list (Qc * Qc * Qc)) : result matrix :=
  match es with
  | [] => Ok m
  | (eg, ex, c) :: t => do m' <- fill m eg ex c ;; fills m' t
  end.
