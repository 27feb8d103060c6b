(* Histories of operations on one Matrix object (ompy/matrix.py). *)
From Verif Require Import PyBase Axis RebinModel MatrixModel FillModel.

Section Run.
Variable gauss : nat -> nat -> Qc.
Variable argsort : list Qc -> list nat.

(* The public methods that change the object.  MLoad: the contents of the file read
   (values, Eg, Ex). *)
Inductive mop :=
| MCut (ax : axis_arg) (Emin Emax : option Qc) (imin imax : bool)
| MCutLike (other : matrix)
| MRebin (ax : axis_arg) (mids : option (list Qc)) (factor : option Qc)
| MTrapezoid (Ex_min Ex_max Eg_min : Qc) (Eg_max : option Qc)
| MCutDiagonal (p q : option (Qc * Qc))
| MFill (eg ex c : Qc)
| MFillNegative
| MRemoveNegative
| MFillAndRemove
| MToLower
| MToMid
| MState (a : state_arg)
| MLoad (v : arr2) (eg ex : list Qc).

Definition mkeep (m : matrix) (r : result matrix) : matrix * result unit :=
  match r with Ok m' => (m', Ok tt) | Raise e => (m, Raise e) end.
(* the object left behind and the outcome *)
Definition mrun (m : matrix) (o : mop) : matrix * result unit :=
  match o with
  | MCut ax a b i j => mkeep m (cut_inplace m ax a b i j)
  | MCutLike w => cut_like_inplace m w
  | MRebin ax ms f => rebin_inplace m ax ms f
  | MTrapezoid a b c d => mkeep m (trapezoid_inplace m a b c d)
  | MCutDiagonal p q => mkeep m (cut_diagonal m p q)
  | MFill eg ex c => mkeep m (fill m eg ex c)
  | MFillNegative => (m_fill_negative gauss argsort m, Ok tt)
  | MRemoveNegative => (remove_negative m, Ok tt)
  | MFillAndRemove => (fill_and_remove_negative gauss argsort m, Ok tt)
  | MToLower => mkeep m (to_lower_bin m)
  | MToMid => mkeep m (to_mid_bin m)
  | MState a => match set_state a with
                | Ok s => (mkM (values m) (Eg m) (Ex m) (std m) s, Ok tt)
                | Raise e => (m, Raise e)
                end
  | MLoad v eg ex =>
      (* matrix.py:193-209: the arrays are assigned before verify_integrity *)
      let m' := mkM v eg ex (std m) (state m) in (m', verify_integrity m')
  end.
(* a sequence of operations, none of which raises *)
Fixpoint mruns (m : matrix) (os : list mop) : result matrix :=
  match os with
  | [] => Ok m
  | o :: t => match mrun m o with (m', Ok _) => mruns m' t | (_, Raise e) => Raise e end
  end.
End Run.

(* operations that cut the values without touching or checking std *)
Definition slices (o : mop) : bool :=
  match o with MCut _ _ _ _ _ | MCutLike _ | MTrapezoid _ _ _ _ => true | _ => false end.
(* numpy arrays are rectangular *)
Definition rectangular (a : arr2) : Prop := forall r, In r (a_rows a) -> length r = a_nc a.
Definition file_ok (o : mop) : Prop := match o with MLoad v _ _ => rectangular v | _ => True end.
