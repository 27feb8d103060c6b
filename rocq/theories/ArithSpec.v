(* What arithmetic, equality and div0 should do. *)
From Verif Require Import PyBase MatrixModel VectorModel ArithModel.

(* r is the result of the operation on the elements x (left) and y (right); None: not a
   finite number *)
Definition op_spec (o : aop) (x y : Qc) (r : option Qc) : Prop :=
  match o with
  | OAdd => r = Some (x + y)
  | OSub => exists d, r = Some d /\ d + y = x
  | ORSub => exists d, r = Some d /\ d + x = y
  | OMul => r = Some (x * y)
  | ODiv => (y = 0 /\ r = None) \/ (y <> 0 /\ exists d, r = Some d /\ d * y = x)
  | ORDiv => (x = 0 /\ r = None) \/ (x <> 0 /\ exists d, r = Some d /\ d * x = y)
  end.
(* b is close to a in the sense of numpy: |a-b| <= 1e-8 + 1e-5 |b| *)
Definition close (a b : Qc) : Prop := qabs (a - b) <= qn 1 100000000 + qn 1 100000 * qabs b.
Definition close_axes (l m : list Qc) : Prop := Forall2 close l m.
Definition oget (l : list (option Qc)) (i : nat) : option Qc := nth i l None.
(* the entries of a vector without nan *)
Definition no_nan (v : nvector) : Prop :=
  (forall x, In x (n_values v) -> x <> None) /\
  match n_std v with Some s => forall x, In x s -> x <> None | None => True end.
Definition oclose_spec (a b : option Qc) : Prop :=
  exists x y, a = Some x /\ b = Some y /\ close x y.
Definition close_list (l m : list (option Qc)) : Prop := Forall2 oclose_spec l m.
(* the two objects have the same shape and (up to tolerance) the same axes *)
Definition same_grid (m w : matrix) : Prop :=
  shape (values m) = shape (values w) /\ close_axes (Ex m) (Ex w) /\ close_axes (Eg m) (Eg w).
Definition v_same_grid (v w : vector) : Prop :=
  length (v_values v) = length (v_values w) /\ close_axes (v_E v) (v_E w).
(* the arrays of the two vectors have the same lengths *)
Definition same_form (v w : nvector) : Prop :=
  length (n_values v) = length (n_values w) /\ length (n_E v) = length (n_E w) /\
  match n_std v, n_std w with
  | None, None => True | Some a, Some b => length a = length b | _, _ => False end.
Definition all_close (v w : nvector) (u u' : units_t) : Prop :=
  close_list (n_values v) (n_values w) /\ close_axes (n_E v) (n_E w) /\
  match n_std v, n_std w with Some a, Some b => close_list a b | _, _ => True end /\ u = u'.
(* x/y = z as an extended number with a finite result *)
Definition fin_ratio (x y z : xnum) : Prop :=
  match x, y with
  | Fin a, Fin b => b <> 0 /\ exists c, z = Fin c /\ c * b = a
  | Fin _, PInf | Fin _, NInf => z = Fin 0
  | _, _ => False
  end.
Definition div0_elem (x y z : xnum) : Prop :=
  fin_ratio x y z \/ ((forall z', ~ fin_ratio x y z') /\ z = Fin 0).
(* broadcast element i of an operand in a result of length n *)
Definition bget (a : dnum) (i : nat) : xnum :=
  match a with DNum x => x | DArr [x] => x | DArr l => nth i l NaN end.
Definition dlen (a : dnum) : option nat := match a with DArr l => Some (length l) | DNum _ => None end.
(* the length of the broadcast of two operands of which at least one is an array *)
Definition bcast_len (a b : dnum) (n : nat) : Prop :=
  match a, b with
  | DArr l, DArr m => (length l = n /\ length m = n) \/ (length l = 1%nat /\ length m = n) \/
                      (length l = n /\ length m = 1%nat)
  | DArr l, DNum _ => length l = n
  | DNum _, DArr m => length m = n
  | DNum _, DNum _ => False
  end.
(* two matrices agree up to tolerance *)
Definition close_arr (a b : arr2) : Prop := Forall2 (Forall2 close) (a_rows a) (a_rows b).
Definition m_close (m w : matrix) : Prop :=
  close_arr (values m) (values w) /\ close_axes (Eg m) (Eg w) /\ close_axes (Ex m) (Ex w) /\
  match std m, std w with Some a, Some b => close_arr a b | None, None => True | _, _ => False end /\
  state m = state w.
