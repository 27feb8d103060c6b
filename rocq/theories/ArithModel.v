(* Model of ompy/abstractarray.py (arithmetic and ==), of Matrix.has_equal_binning and
   Matrix.__matmul__, and of library.py div0 on non-finite operands. *)
From Verif Require Import PyBase Axis MatrixModel VectorModel.

(* --- arithmetic ---------------------------------------------------------------- *)
(* Element-wise operations.  numpy yields inf or nan for x/0; the model has one marker
   None for a non-finite result. *)
Inductive aop := OAdd | OSub | ORSub | OMul | ODiv | ORDiv.
Definition aop_fun (o : aop) (x y : Qc) : option Qc :=
  match o with
  | OAdd => Some (x + y)
  | OSub => Some (x - y)
  | ORSub => Some (y - x)
  | OMul => Some (x * y)
  | ODiv => if qeqb y 0 then None else Some (x / y)
  | ORDiv => if qeqb x 0 then None else Some (y / x)
  end.

(* matrix.py:870-892 has_equal_binning for two matrices *)
Definition m_equal_binning (m w : matrix) : result unit :=
  if negb (pair_eqb (shape (values m)) (shape (values w))) then Raise ValueError
  else if allclose (Ex m) (Ex w) && allclose (Eg m) (Eg w) then Ok tt else Raise ValueError.

(* The right operand: an int/float, an object of the same class, anything else (numpy
   integers, arrays, objects of the other class ...). *)
Inductive operand (A : Type) := OpNum (q : Qc) | OpObj (w : A) | OpOther.
Arguments OpNum {A} q.
Arguments OpObj {A} w.
Arguments OpOther {A}.

(* results may contain non-finite entries *)
Record xmatrix := mkXM {
  x_values : list (list (option Qc)); x_Eg : list Qc; x_Ex : list Qc;
  x_std : option arr2; x_state : option mstate }.
Record xvector := mkXV {
  xv_values : list (option Qc); xv_E : list Qc; xv_std : option (list Qc); xv_units : units_t }.

Definition zip2 {A B C} (f : A -> B -> C) (l : list (list A)) (m : list (list B)) : list (list C) :=
  map2 (map2 f) l m.
(* abstractarray.py:65-123, Matrix operands: a deep copy of the left operand whose values
   are replaced; std and state are those of the left operand. *)
Definition m_arith (o : aop) (m : matrix) (y : operand matrix) : result xmatrix :=
  do v <- match y with
          | OpNum q => Ok (map (map (fun x => aop_fun o x q)) (a_rows (values m)))
          | OpObj w => do _ <- m_equal_binning m w ;;
                       Ok (zip2 (aop_fun o) (a_rows (values m)) (a_rows (values w)))
          | OpOther => Raise TypeError
          end ;;
  Ok (mkXM v (Eg m) (Ex m) (std m) (state m)).
(* the same for Vector operands *)
Definition v_arith (o : aop) (v : vector) (y : operand vector) : result xvector :=
  do r <- match y with
          | OpNum q => Ok (map (fun x => aop_fun o x q) (v_values v))
          | OpObj w => do _ <- v_equal_binning v w ;; Ok (map2 (aop_fun o) (v_values v) (v_values w))
          | OpOther => Raise TypeError
          end ;;
  Ok (mkXV r (v_E v) (v_std v) (v_units v)).

(* matrix.py:894-907 __matmul__.  The test compares the matrix with itself
   (len(self.Eg) != len(self.Ex)); np.allclose of axes of different length raises
   ValueError (a length-1 axis is broadcast).  For an operand that is no Matrix the
   exception object is created but not raised; the result is then whatever `@` does
   (not modelled: TypeError). *)
Definition bcast_allclose (l m : list Qc) : result bool :=
  if Nat.eqb (length l) (length m) then Ok (allclose l m)
  else match l, m with
       | [x], _ => Ok (forallb (fun y => isclose x y) m)
       | _, [y] => Ok (forallb (fun x => isclose x y) l)
       | _, _ => Raise ValueError
       end.
Definition dot (l m : list Qc) : Qc := qsum (map2 Qcmult l m).
Definition matprod (a b : arr2) : arr2 :=
  mkArr (a_nc b) (map (fun r => tab (a_nc b) (fun j => dot r (col (a_rows b) j))) (a_rows a)).
Definition m_matmul (m w : matrix) : result matrix :=
  if negb (Nat.eqb (length (Eg m)) (length (Ex m))) then Raise ValueError
  else do c <- bcast_allclose (Eg m) (Eg w) ;;
       if negb c then Raise ValueError
       else if negb (Nat.eqb (a_nc (values m)) (a_nr (values w))) then Raise ValueError
       else Ok (with_values m (matprod (values m) (values w))).

(* --- equality ------------------------------------------------------------------ *)
(* abstractarray.py:51-63 __eq__ on vectors whose entries may be nan (None).  np.isclose
   of a nan with anything is False. *)
Definition oclose (a b : option Qc) : bool :=
  match a, b with Some x, Some y => isclose x y | _, _ => false end.
Fixpoint oallclose (l m : list (option Qc)) : bool :=
  match l, m with
  | [], [] => true
  | x :: l', y :: m' => oclose x y && oallclose l' m'
  | _, _ => false
  end.
(* np.allclose broadcasts arrays of length 1; other unequal lengths raise ValueError *)
Definition np_allclose (l m : list (option Qc)) : result bool :=
  if Nat.eqb (length l) (length m) then Ok (oallclose l m)
  else match l, m with
       | [x], _ => Ok (forallb (fun y => oclose x y) m)
       | _, [y] => Ok (forallb (fun x => oclose x y) l)
       | _, _ => Raise ValueError
       end.
(* an element of the list `truth`: a bool, or the array None == array (all False) *)
Inductive truth := TB (b : bool) | TFalses (n : nat).
(* bool(x) as used by all(): ambiguous for arrays with more than one element *)
Definition truth_bool (t : truth) : result bool :=
  match t with
  | TB b => Ok b
  | TFalses n => if (n <=? 1)%nat then Ok false else Raise ValueError
  end.
(* all(truth): stops at the first false element *)
Fixpoint py_all (l : list truth) : result bool :=
  match l with
  | [] => Ok true
  | t :: l' => do b <- truth_bool t ;; if b then py_all l' else Ok false
  end.
Definition std_test (s t : option (list (option Qc))) : result truth :=
  match s, t with
  | None, None => Ok (TB true)
  | None, Some b => Ok (TFalses (length b))
  | Some a, None => Raise TypeError (* np.isfinite of an object array *)
  | Some a, Some b => do c <- np_allclose a b ;; Ok (TB c)
  end.
Definition units_eqb (a b : units_t) : bool :=
  match a, b with
  | KeV, KeV => true | MeV, MeV => true
  | OtherUnits s, OtherUnits t => String.eqb s t
  | _, _ => false
  end.
(* Vector.__dict__ is (values, E, std, units), in this order *)
Definition v_eq (v w : nvector) (u u' : units_t) : result bool :=
  do a <- np_allclose (n_values v) (n_values w) ;;
  do b <- np_allclose (map Some (n_E v)) (map Some (n_E w)) ;;
  do c <- std_test (n_std v) (n_std w) ;;
  py_all [TB a; TB b; c; TB (units_eqb u u')].

(* Matrix.__dict__ is (values, Eg, Ex, std, _state), finite entries.  np.allclose of 2-D
   arrays broadcasts dimensions of length 1; other unequal dimensions raise ValueError. *)
Definition dim_bcast (n m : nat) : bool := (n =? m)%nat || (n =? 1)%nat || (m =? 1)%nat.
Definition dim_len (n m : nat) : nat := if (n =? 1)%nat then m else n.
Definition dim_ix (n i : nat) : nat := if (n =? 1)%nat then 0%nat else i.
Definition np_allclose2 (a b : arr2) : result bool :=
  if dim_bcast (a_nr a) (a_nr b) && dim_bcast (a_nc a) (a_nc b) then
    Ok (forallb (fun i => forallb (fun j =>
          isclose (aget a (dim_ix (a_nr a) i) (dim_ix (a_nc a) j))
                  (aget b (dim_ix (a_nr b) i) (dim_ix (a_nc b) j)))
        (seq 0 (dim_len (a_nc a) (a_nc b)))) (seq 0 (dim_len (a_nr a) (a_nr b))))
  else Raise ValueError.
Definition std_test2 (s t : option arr2) : result truth :=
  match s, t with
  | None, None => Ok (TB true)
  | None, Some b => Ok (TFalses (a_nr b * a_nc b))
  | Some a, None => Raise TypeError
  | Some a, Some b => do c <- np_allclose2 a b ;; Ok (TB c)
  end.
Definition ostate_eqb (a b : option mstate) : bool :=
  match a, b with
  | None, None => true
  | Some s, Some t => state_eq s (PState t)
  | _, _ => false
  end.
Definition m_eq (m w : matrix) : result bool :=
  do a <- np_allclose2 (values m) (values w) ;;
  do b <- bcast_allclose (Eg m) (Eg w) ;;
  do c <- bcast_allclose (Ex m) (Ex w) ;;
  do d <- std_test2 (std m) (std w) ;;
  py_all [TB a; TB b; TB c; d; TB (ostate_eqb (state m) (state w))].

(* --- div0 ---------------------------------------------------------------------- *)
(* library.py:10-23 on IEEE numbers without signed zeros and without overflow *)
Inductive xnum := Fin (q : Qc) | PInf | NInf | NaN.
Definition xneg (x : xnum) : xnum :=
  match x with Fin q => Fin (- q) | PInf => NInf | NInf => PInf | NaN => NaN end.
(* np.true_divide; x/0 is signed by x (zeros count as +0) *)
Definition xdiv (x y : xnum) : xnum :=
  match x, y with
  | NaN, _ | _, NaN => NaN
  | Fin a, Fin b => if qeqb b 0 then (if qeqb a 0 then NaN else if qltb 0 a then PInf else NInf)
                    else Fin (a / b)
  | Fin _, _ => Fin 0
  | PInf, Fin b => if qltb b 0 then NInf else PInf
  | NInf, Fin b => if qltb b 0 then PInf else NInf
  | _, _ => NaN
  end.
Definition finite (x : xnum) : bool := match x with Fin _ => true | _ => false end.
Definition fin0 (x : xnum) : xnum := if finite x then x else Fin 0.
(* operands: numpy arrays (1-D here) or Python numbers *)
Inductive dnum := DArr (l : list xnum) | DNum (x : xnum).
(* library.py:14-18, broadcasting a scalar or a length-1 array *)
Definition xmap2 (f : xnum -> xnum -> xnum) (l m : list xnum) : result (list xnum) :=
  if Nat.eqb (length l) (length m) then Ok (map2 f l m)
  else match l, m with
       | [x], _ => Ok (map (f x) m)
       | _, [y] => Ok (map (fun x => f x y) l)
       | _, _ => Raise ValueError
       end.
Definition np_div0 (a b : dnum) : result dnum :=
  match a, b with
  | DArr l, DArr m => do c <- xmap2 xdiv l m ;; Ok (DArr (map fin0 c))
  | DArr l, DNum y => Ok (DArr (map fin0 (map (fun x => xdiv x y) l)))
  | DNum x, DArr m => Ok (DArr (map fin0 (map (xdiv x) m)))
  | DNum x, DNum y =>
      (* 19-22: b == 0, otherwise a / b *)
      match y with
      | Fin q => if qeqb q 0 then Ok (DNum (Fin 0)) else Ok (DNum (xdiv x y))
      | _ => Ok (DNum (xdiv x y))
      end
  end.
