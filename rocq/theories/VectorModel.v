(* Model of ompy/vector.py (class Vector).  np.exp and np.sqrt appear as section
   variables expf, sqrtf: the model is parametric in them (see TransformModel.v for the
   real exponential). *)
From Coq Require Import String.
From Verif Require Import PyBase Axis RebinModel MatrixModel.

(* vector.py:54 units: "keV", "MeV" or any other string *)
Inductive units_t := KeV | MeV | OtherUnits (s : string).

Record vector := mkV {
  v_values : list Qc;
  v_E : list Qc;
  v_std : option (list Qc);
  v_units : units_t
}.

(* vector.py:88-107 verify_integrity *)
Definition v_verify (v : vector) : result unit :=
  if negb (Nat.eqb (length (v_E v)) (length (v_values v))) then Raise ValueError
  else match v_std v with
       | Some s => if Nat.eqb (length s) (length (v_values v)) then Ok tt else Raise ValueError
       | None => Ok tt
       end.
(* vector.py:36-83 __init__ with values and E, or with E only (values None = zeros) *)
Definition mk_vector (values : option (list Qc)) (E : list Qc) (s : option (list Qc)) (u : units_t)
  : result vector :=
  let vals := match values with Some v => v | None => map (fun _ => 0) E end in
  let v := mkV vals E s u in
  do _ <- v_verify v ;; Ok v.

(* vector.py:109-117 calibration *)
Definition v_calibration (v : vector) : result (Qc * Qc) :=
  match v_E v with x :: y :: _ => Ok (x, y - x) | _ => Raise IndexError end.

(* vector.py:348-361 the data of cut (both limits inclusive after look-up).
   np.ndarray.min() of an empty array raises ValueError. *)
Definition v_cut_data (v : vector) (Emin Emax : option Qc)
  : result (list Qc * list Qc * option (list Qc)) :=
  do emin <- match Emin with Some e => Ok e | None => py_min (v_E v) end ;;
  do emax <- match Emax with Some e => Ok e | None => py_max (v_E v) end ;;
  let lo := Z.of_nat (index (v_E v) emin) in
  let hi := (Z.of_nat (index (v_E v) emax) + 1)%Z in
  Ok (py_slice (v_values v) lo hi, py_slice (v_E v) lo hi,
      option_map (fun s => py_slice s lo hi) (v_std v)).
(* vector.py:362-365 cut(inplace=True) *)
Definition v_cut (v : vector) Emin Emax : result vector :=
  do (vals, E, s) <- v_cut_data v Emin Emax ;; Ok (mkV vals E s (v_units v)).
(* vector.py:366-367 cut(inplace=False) *)
Definition v_cut_copy (v : vector) Emin Emax : result vector :=
  do (vals, E, s) <- v_cut_data v Emin Emax ;; mk_vector (Some vals) E s (v_units v).

(* vector.py:369-388 cut_nan.  Entries are option Qc, None standing for nan; np.delete
   with the indices of the nan entries of values is applied to all three arrays. *)
Record nvector := mkNV {
  n_values : list (option Qc); n_E : list Qc; n_std : option (list (option Qc)) }.
Definition nan_mask (l : list (option Qc)) : list bool :=
  map (fun x => match x with None => true | Some _ => false end) l.
Fixpoint np_delete {A} (mask : list bool) (l : list A) : list A :=
  match mask, l with
  | b :: mask', x :: l' => if b then np_delete mask' l' else x :: np_delete mask' l'
  | _, _ => l
  end.
Definition cut_nan (v : nvector) : nvector :=
  let mask := nan_mask (n_values v) in
  mkNV (np_delete mask (n_values v)) (np_delete mask (n_E v)) (option_map (np_delete mask) (n_std v)).

(* vector.py:390-428 rebin: the data *)
Definition v_rebin_data (v : vector) (mids : option (list Qc)) (factor : option Qc)
  : result (list Qc * list Qc) :=
  do new <- match factor, mids with
            | Some f, None => factor_mids (v_E v) f
            | None, Some ms => Ok ms
            | _, _ => Raise ValueError
            end ;;
  do out <- rebin_1D (v_values v) (v_E v) new ;;
  Ok (out, new).
(* vector.py:423-426 inplace: verify_integrity runs after the assignment *)
Definition v_rebin (v : vector) mids factor : vector * result unit :=
  match v_rebin_data v mids factor with
  | Raise e => (v, Raise e)
  | Ok (out, new) =>
      let v' := mkV out new (v_std v) (v_units v) in (v', v_verify v')
  end.
(* vector.py:427-428 Vector(E=mids, values=rebinned): no std, default units keV *)
Definition v_rebin_copy (v : vector) mids factor : result vector :=
  do (out, new) <- v_rebin_data v mids factor ;; mk_vector (Some out) new None KeV.

(* vector.py:430-448 *)
Definition to_MeV (v : vector) : result vector :=
  match v_units v with
  | MeV => Ok v
  | KeV => Ok (mkV (v_values v) (map (fun e => e / qz 1000) (v_E v)) (v_std v) MeV)
  | OtherUnits _ => Raise NotImplementedErr
  end.
Definition to_keV (v : vector) : result vector :=
  match v_units v with
  | KeV => Ok v
  | MeV => Ok (mkV (v_values v) (map (fun e => e * qz 1000) (v_E v)) (v_std v) KeV)
  | OtherUnits _ => Raise NotImplementedErr
  end.

(* vector.py:474 np.all(E[:-1] <= E[1:]) *)
Fixpoint sorted_b (l : list Qc) : bool :=
  match l with
  | x :: ((y :: _) as t) => qleb x y && sorted_b t
  | _ => true
  end.
Inductive side_t := SideLeft | SideRight.
(* np.searchsorted on a sorted array: number of entries < e (left) or <= e (right) *)
Definition searchsorted (l : list Qc) (e : Qc) (s : side_t) : nat :=
  length (filter (fun x => match s with SideLeft => qltb x e | SideRight => qleb x e end) l).
(* vector.py:477-487: index into values with a 0 appended; index -1 is that 0 *)
Definition closest_index (l : list Qc) (e : Qc) (s : side_t) : Z :=
  let i := searchsorted l e s in
  ((if (length l <=? i)%nat then 0 else Z.of_nat i) - 1)%Z.
Definition closest_values (l vals : list Qc) (E_new : list Qc) (s : side_t) : result (list Qc) :=
  rmapm (fun e => py_index (vals ++ [0]) (closest_index l e s)) E_new.
(* vector.py:450-497 closest for an array E_new.  (A scalar E_new raises TypeError at line
   481, item assignment to a numpy scalar.) *)
Definition closest_data (v : vector) (E_new : list Qc) (s : side_t)
  : result (list Qc * option (list Qc)) :=
  if sorted_b (v_E v) then
    do vals <- closest_values (v_E v) (v_values v) E_new s ;;
    match v_std v with
    | None => Ok (vals, None)
    | Some sd => do sd' <- closest_values (v_E v) sd E_new s ;; Ok (vals, Some sd')
    end
  else Raise RuntimeError.
Definition closest (v : vector) E_new s : result vector :=
  do (vals, sd) <- closest_data v E_new s ;; Ok (mkV vals E_new sd (v_units v)).
Definition closest_copy (v : vector) E_new s : result vector :=
  do (vals, sd) <- closest_data v E_new s ;; mk_vector (Some vals) E_new sd (v_units v).

(* np.cumsum *)
Fixpoint cumsum_from (acc : Qc) (l : list Qc) : list Qc :=
  match l with [] => [] | x :: t => (acc + x) :: cumsum_from (acc + x) t end.
Definition cumsum (l : list Qc) : list Qc := cumsum_from 0 l.
(* np.diff *)
Fixpoint diffs (l : list Qc) : list Qc :=
  match l with
  | x :: ((y :: _) as t) => (y - x) :: diffs t
  | _ => []
  end.
Inductive cum_factor := FNone | FNum (q : Qc) | FStr (s : string).
(* vector.py:517-524 the factor *)
Definition cum_factor_val (v : vector) (f : cum_factor) : result Qc :=
  match f with
  | FNone => Ok 1
  | FNum q => Ok q
  | FStr s =>
      if String.eqb (lower s) "de" then
        match v_E v with
        | x :: y :: _ =>
            if forallb (fun d => qeqb d (y - x)) (diffs (v_E v)) then Ok (y - x)
            else Raise RuntimeError
        | _ => Raise IndexError
        end
      else Raise ValueError
  end.

(* np.allclose with the default tolerances rtol=1e-5, atol=1e-8: asymmetric in a, b *)
Definition isclose (a b : Qc) : bool :=
  qleb (qabs (a - b)) (qn 1 100000000 + qn 1 100000 * qabs b).
Fixpoint allclose (l m : list Qc) : bool :=
  match l, m with
  | [], [] => true
  | x :: l', y :: m' => isclose x y && allclose l' m'
  | _, _ => false
  end.

(* vector.py:537-559 has_equal_binning for two vectors (shape is that of values) *)
Definition v_equal_binning (v w : vector) : result unit :=
  if negb (Nat.eqb (length (v_values v)) (length (v_values w))) then Raise ValueError
  else if allclose (v_E v) (v_E w) then Ok tt else Raise ValueError.

Section Oracles.
Variable sqrtf : Qc -> Qc.
Variable expf : Qc -> Qc.

(* vector.py:526-535 *)
Definition cumulative (v : vector) (f : cum_factor) : result vector :=
  do c <- cum_factor_val v f ;;
  Ok (mkV (map (fun x => x * c) (cumsum (v_values v))) (v_E v)
          (option_map (fun s => map (fun x => sqrtf x * c) (cumsum (map (fun x => x * x) s))) (v_std v))
          (v_units v)).

(* vector.py:264-297 transform(const, alpha); std/values with values 0 is nan in numpy and
   0 here (Qc division) - only used for the lengths, see TransformModel.v. *)
Definition map2 {A B C} (f : A -> B -> C) (l : list A) (m : list B) : list C :=
  map (fun p => f (fst p) (snd p)) (combine l m).
Definition v_transform (v : vector) (const alpha : Qc) : vector :=
  let t := map2 (fun x e => const * x * expf (alpha * e)) (v_values v) (v_E v) in
  mkV t (v_E v) (option_map (fun s => map2 Qcmult (map2 Qcdiv s (v_values v)) t) (v_std v)) (v_units v).

(* Public operations on one vector object, in place *)
Inductive vop :=
| VCut (Emin Emax : option Qc)
| VRebin (mids : option (list Qc)) (factor : option Qc)
| VToMeV | VToKeV
| VClosest (E_new : list Qc) (s : side_t)
| VCumulative (f : cum_factor)
| VTransform (const alpha : Qc).
(* result of an operation: the object afterwards and the outcome *)
Definition keep (v : vector) (r : result vector) : vector * result unit :=
  match r with Ok v' => (v', Ok tt) | Raise e => (v, Raise e) end.
Definition vrun (v : vector) (o : vop) : vector * result unit :=
  match o with
  | VCut a b => keep v (v_cut v a b)
  | VRebin ms f => v_rebin v ms f
  | VToMeV => keep v (to_MeV v)
  | VToKeV => keep v (to_keV v)
  | VClosest e s => keep v (closest v e s)
  | VCumulative f => keep v (cumulative v f)
  | VTransform c a => (v_transform v c a, Ok tt)
  end.
(* a history: operations are applied in turn; a raised exception does not stop the user
   from calling further operations on the object *)
Fixpoint vruns (v : vector) (os : list vop) : vector :=
  match os with [] => v | o :: t => vruns (fst (vrun v o)) t end.
End Oracles.

(* vector.py:299-333 error against another vector or a plain array of the same length.
   numpy broadcasting of other lengths is not modelled (ValueError here). *)
Inductive err_other := OtherVec (w : vector) | OtherArr (a : list Qc).
Definition v_error (v : vector) (other : err_other) (s : option (list Qc)) : result Qc :=
  do o <- match other with
          | OtherVec w => do _ <- v_equal_binning v w ;; Ok (v_values w)
          | OtherArr a => Ok a
          end ;;
  let n := length (v_values v) in
  let sq i := (vget (v_values v) i - vget o i) * (vget (v_values v) i - vget o i) in
  let sig i := match v_std v, s with
               | Some sd, Some s' => vget sd i * vget sd i + vget s' i * vget s' i
               | Some sd, None => vget sd i * vget sd i
               | None, Some s' => vget s' i * vget s' i
               | None, None => 1
               end in
  if Nat.eqb (length o) n
     && match v_std v with Some sd => Nat.eqb (length sd) n | None => true end
     && match s with Some s' => Nat.eqb (length s') n | None => true end
  then Ok (qsum (tab n (fun i => div0 (sq i) (sig i))))
  else Raise ValueError.
