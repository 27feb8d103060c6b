(* Python-level notions shared by the models: exceptions as values, slices,
   ranges, 2-D arrays as lists of rows. *)
From Verif Require Export Num.

(* Python exceptions that the modelled code raises (or runs into). *)
Inductive exn :=
| ValueError | TypeError | AssertionError | RuntimeError | KeyError | IndexError
| AttributeError | NotImplementedErr | NameError | OSErr | ZeroDivErr.

Inductive result (A : Type) := Ok (a : A) | Raise (e : exn).
Arguments Ok {A} a.
Arguments Raise {A} e.

Definition rbind {A B} (r : result A) (f : A -> result B) : result B :=
  match r with Ok a => f a | Raise e => Raise e end.
Notation "'do' x <- r ;; k" := (rbind r (fun x => k))
  (at level 200, x pattern, r at level 100, k at level 200, right associativity).
Definition rmap {A B} (f : A -> B) (r : result A) : result B :=
  match r with Ok a => Ok (f a) | Raise e => Raise e end.
Definition is_ok {A} (r : result A) : bool :=
  match r with Ok _ => true | Raise _ => false end.

(* Python: l[i] for a possibly negative integer index (data model of list/ndarray
   indexing); out of range raises IndexError. *)
Definition py_index {A} (l : list A) (i : Z) : result A :=
  let n := Z.of_nat (length l) in
  let k := (if i <? 0 then n + i else i)%Z in
  if ((0 <=? k) && (k <? n))%Z
  then match nth_error l (Z.to_nat k) with Some x => Ok x | None => Raise IndexError end
  else Raise IndexError.

(* Python: normalisation of a slice bound for a sequence of length n (step 1):
   negative bounds count from the end, then clip to [0,n]. *)
Definition slice_bound (n i : Z) : Z :=
  (if i <? 0 then Z.max 0 (n + i) else Z.min n i)%Z.
(* Python: l[lo:hi] *)
Definition py_slice {A} (l : list A) (lo hi : Z) : list A :=
  let n := Z.of_nat (length l) in
  let a := slice_bound n lo in
  let b := slice_bound n hi in
  firstn (Z.to_nat (b - a)) (skipn (Z.to_nat a) l).

(* range(a, b) over the integers *)
Definition zrange (a b : Z) : list Z :=
  map (fun k => (a + Z.of_nat k)%Z) (seq 0 (Z.to_nat (b - a))).

(* 2-D arrays: list of rows *)
Definition mget (m : list (list Qc)) (i j : nat) : Qc := vget (nth i m []) j.
Definition rect (m : list (list Qc)) (nr nc : nat) : Prop :=
  length m = nr /\ forall r, In r m -> length r = nc.
Definition col (m : list (list Qc)) (j : nat) : list Qc := map (fun r => vget r j) m.
Definition msum (m : list (list Qc)) : Qc := qsum (map qsum m).
Definition mtab (nr nc : nat) (f : nat -> nat -> Qc) : list (list Qc) :=
  tab nr (fun i => tab nc (fun j => f i j)).

(* Setting one element: a[i] = x (index assumed in range, otherwise unchanged) *)
Fixpoint upd {A} (l : list A) (i : nat) (x : A) : list A :=
  match l, i with
  | [], _ => []
  | _ :: l', O => x :: l'
  | y :: l', S i' => y :: upd l' i' x
  end.
