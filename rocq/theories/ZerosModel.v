(* Model of arrays made without values: ZerosMatrix (ompy/matrix.py 910-942), the constructor of
   Matrix with shape or without values (matrix.py 81-138), and Vector(E=...) with the type of its
   entries (ompy/vector.py 63-83, arithmetic in ompy/abstractarray.py 60-115). *)
From Verif Require Import PyBase Axis RebinModel MatrixModel.
Local Notation length := List.length (only parsing).

(* np.zeros(shape, dtype=float) *)
Definition zeros2 (s : nat * nat) : arr2 := mkArr (snd s) (repeat (repeat 0 (snd s)) (fst s)).
(* matrix.py:922-942.  std=False becomes None.  With std=True the constructor of Matrix gets
   True itself: self.std = True, and verify_integrity asks for True.shape after the checks of the
   axes.  The array assigned to self.std before is lost. *)
Definition zeros_matrix (shp : option (nat * nat)) (ex eg : option (list Qc)) (std : bool) (st : state_arg) : result matrix :=
  do s <- match shp with
          | Some s => Ok s
          | None => match ex, eg with Some x, Some g => Ok (length x, length g) | _, _ => Raise AssertionError end
          end ;;
  do m <- mk_matrix (zeros2 s) eg ex None (if std then SNone else st) ;;
  if std then Raise AttributeError else Ok m.

(* what the constructor of Matrix leaves behind: a matrix, or, without values, an object with
   the number nan (an array without dimensions) as values, the given axes and std unchecked *)
Inductive made := Made (m : matrix) | Unmade (eg ex : option (list Qc)) (s : option arr2) (st : option mstate).
(* matrix.py:81-138 without path *)
Definition matrix_init (v : option arr2) (eg ex : option (list Qc)) (s : option arr2) (st : state_arg) (shp : option (nat * nat)) : result made :=
  do v1 <- match shp with
           | Some _ => rmap (fun m => Some (values m)) (zeros_matrix shp ex eg false SNone)
           | None => Ok v
           end ;;
  do v2 <- match v1, ex, eg with
           | None, Some _, Some _ => rmap (fun m => Some (values m)) (zeros_matrix None ex eg false SNone)
           | _, _, _ => Ok v1
           end ;;
  match v2 with
  | Some a => rmap Made (mk_matrix a eg ex s st)
  | None => do t <- set_state st ;; Ok (Unmade eg ex s t)
  end.

(* ------------------------------------------------------------------ Vector(E=...) *)
(* the entries of a numpy array and whether it holds integers *)
Record narr := mkN { n_int : bool; n_vals : list Qc }.
(* vector.py:63-70: E becomes float, zeros_like(E) has the type of the argument *)
Definition vec_values (v : option narr) (E : narr) : narr :=
  match v with Some x => mkN false (n_vals x) | None => mkN (n_int E) (map (fun _ => 0) (n_vals E)) end.
(* values[i] = x: an integer array keeps the integer part *)
Definition int_part (x : Qc) : Qc := qz (qtrunc x).
Fixpoint set_nth (l : list Qc) (i : nat) (x : Qc) : list Qc :=
  match l, i with [] , _ => [] | _ :: t, O => x :: t | y :: t, S k => y :: set_nth t k x end.
Definition item_set (a : narr) (i : nat) (x : Qc) : result narr :=
  if (i <? length (n_vals a))%nat then Ok (mkN (n_int a) (set_nth (n_vals a) i (if n_int a then int_part x else x))) else Raise IndexError.
(* abstractarray.py:68,86,98 result.values op= other with a number: numpy does not cast a float
   result to integers (UFuncTypeError is a TypeError).  other_int says whether other is an int. *)
Definition inplace (op : Qc -> Qc -> Qc) (a : narr) (other_int : bool) (x : Qc) : result narr :=
  if n_int a && negb other_int then Raise TypeError else Ok (mkN (n_int a) (map (fun y => op y x) (n_vals a))).
(* abstractarray.py:110 result.values /= other: true division has float results; inf and nan are
   not modelled, x <> 0 in the theorems *)
Definition inplace_div (a : narr) (x : Qc) : result narr :=
  if n_int a then Raise TypeError else Ok (mkN false (map (fun y => y / x) (n_vals a))).
