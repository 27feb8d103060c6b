(* Vocabulary for C74. *)
From Verif Require Import PyBase Axis MatrixModel MatrixRunModel VectorModel FillModel ArithModel AliasModel.

(* what a variable shows when its attributes are printed *)
Inductive shown := ShArr (l : list Qc) | ShArr2 (a : arr2) | ShVec (v : vector) | ShMat (m : matrix).
Definition show (h : memory) (o : obj) : shown :=
  match o with
  | HArr a => ShArr (get h a)
  | HArr2 a => ShArr2 (get2 h a)
  | HVec v => ShVec (look_vec h v)
  | HMat m => ShMat (look_mat h m)
  end.
(* variable number j of the program, None if it is not bound *)
Definition shows (s : heap) (j : nat) : option shown := option_map (show (mem s)) (nth_error (objs s) j).

(* the memory cells of an object *)
Definition ocells (a : option harr) : list nat := match a with Some a => a | None => [] end.
Definition cells2 (a : harr2) : list nat := concat (h_rows a).
Definition ocells2 (a : option harr2) : list nat := match a with Some a => cells2 a | None => [] end.
Definition vcells (v : hvec) : list nat := hv_values v ++ hv_E v ++ ocells (hv_std v).
Definition mcells (m : hmat) : list nat :=
  cells2 (hm_values m) ++ hm_Ex m ++ hm_Eg m ++ ocells2 (hm_std m).
Definition cells (o : obj) : list nat :=
  match o with
  | HArr a => a
  | HArr2 a => cells2 a
  | HVec v => vcells v
  | HMat m => mcells m
  end.
Definition var_cells (s : heap) (j : nat) : list nat :=
  match nth_error (objs s) j with Some o => cells o | None => [] end.
(* every cell in use exists in memory *)
Definition valid (s : heap) : Prop :=
  forall o c, In o (objs s) -> In c (cells o) -> (c < length (mem s))%nat.
(* no cell belongs to two arrays: neither of two objects nor of one object *)
Definition separate (s : heap) : Prop :=
  valid s /\ NoDup (concat (map cells (objs s))).

(* the variable a statement operates on *)
Definition operates_on (o : op) : option nat :=
  match o with
  | SetItem i _ _ | SetItem2 i _ _ _ | VecIn i _ | MatIn i _ => Some i
  | _ => None
  end.
(* Statements that make an existing array an attribute of another object, or hand out an
   attribute: rebin in place with the new bin centres taken from a variable, closest in
   place likewise, Matrix(..., std=array of a variable), the energies returned by
   projection, and a row of a matrix. *)
Definition from_variable (a : option src) : bool :=
  match a with Some (SAttr _ _) => true | _ => false end.
Definition shares (o : op) : bool :=
  match o with
  | VecIn _ (CRebin m _) => from_variable m
  | VecIn _ (CClosest e _) => from_variable (Some e)
  | MatIn _ (CMRebin _ m _) => from_variable m
  | MatNew _ _ _ (Some (SAttr2 _ _)) _ => true
  | Project _ _ _ _ _ | Row _ _ => true
  | _ => false
  end.

(* The contents of an array argument, read off what the variables show. *)
Definition shown_attr (x : shown) (a : attr) : option (list Qc) :=
  match x, a with
  | ShArr l, AWhole => Some l
  | ShVec v, AValues => Some (v_values v)
  | ShVec v, AE => Some (v_E v)
  | ShVec v, AStd => v_std v
  | ShMat m, AEx => Some (Ex m)
  | ShMat m, AEg => Some (Eg m)
  | _, _ => None
  end.
Definition argument (s : heap) (a : option src) : option (list Qc) :=
  match a with
  | None => Some []
  | Some (STemp xs) => Some xs
  | Some (SAttr i b) => match shows s i with Some x => shown_attr x b | None => None end
  end.

(* What the methods do to an object that shares nothing: the models of the methods, without
   any memory.  xs: the contents of the array argument. *)
Section Methods.
Variable expf : Qc -> Qc.
Variable sqrtf : Qc -> Qc.
Variable gauss : nat -> nat -> Qc.
Variable argsort : list Qc -> list nat.
Definition given {A B} (o : option A) (x : B) : option B := match o with Some _ => Some x | None => None end.
Definition vec_method (c : vcall) (xs : list Qc) (v : vector) : vector * result unit :=
  match c with
  | CCut a b => vrun sqrtf expf v (VCut a b)
  | CRebin m f => vrun sqrtf expf v (VRebin (given m xs) f)
  | CToMeV => vrun sqrtf expf v VToMeV
  | CToKeV => vrun sqrtf expf v VToKeV
  | CClosest _ sd => vrun sqrtf expf v (VClosest xs sd)
  | CCumulative f => vrun sqrtf expf v (VCumulative f)
  | CTransform c a => vrun sqrtf expf v (VTransform c a)
  | CCutNan => (v, Ok tt)
  | CVLoad vals E sd =>
      let v' := mkV vals E (match sd with Some _ => sd | None => v_std v end) (v_units v) in
      (v', v_verify v')
  end.
Definition mat_method (c : mcall) (xs : list Qc) (m : matrix) : matrix * result unit :=
  match c with
  | CMCut ax a b i j => mrun gauss argsort m (MCut ax a b i j)
  | CMRebin ex ms f => mrun gauss argsort m (MRebin (AInt (if ex then 1 else 0)%Z) (given ms xs) f)
  | CTrapezoid a b c d => mrun gauss argsort m (MTrapezoid a b c d)
  | CDiagonal p q => mrun gauss argsort m (MCutDiagonal p q)
  | CFill eg ex c => mrun gauss argsort m (MFill eg ex c)
  | CFillNegative => mrun gauss argsort m MFillNegative
  | CRemoveNegative => mrun gauss argsort m MRemoveNegative
  | CToLower => mrun gauss argsort m MToLower
  | CToMid => mrun gauss argsort m MToMid
  | CState a => mrun gauss argsort m (MState a)
  | CMLoad v eg ex => mrun gauss argsort m (MLoad v eg ex)
  end.
(* inplace=False *)
Definition vec_copy_method (c : vcall) (xs : list Qc) (v : vector) : result vector :=
  match c with
  | CCut a b => v_cut_copy v a b
  | CRebin m f => v_rebin_copy v (given m xs) f
  | CClosest _ sd => closest_copy v xs sd
  | CCumulative f => do w <- cumulative sqrtf v f ;; mk_vector (Some (v_values w)) (v_E w) (v_std w) (v_units w)
  | CTransform c a => let w := v_transform expf v c a in mk_vector (Some (v_values w)) (v_E w) (v_std w) (v_units w)
  | CCutNan => mk_vector (Some (v_values v)) (v_E v) (v_std v) (v_units v)
  | _ => Raise TypeError
  end.
Definition mat_copy_method (c : mcall) (xs : list Qc) (m : matrix) : result matrix :=
  match c with
  | CMCut ax a b i j => cut_copy m ax a b i j
  | CMRebin ex ms f => rebin_copy m ex (given ms xs) f
  | CTrapezoid a b c d => trapezoid_inplace m a b c d
  | CDiagonal p q => cut_diagonal m p q
  | _ => Raise TypeError
  end.
End Methods.
