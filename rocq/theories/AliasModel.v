(* Vectors, matrices and arrays as a program sees them: variables bound to objects whose
   numpy arrays live in a common memory.  A numpy array is the list of the memory cells of
   its elements, so a slice is a view (a part of the same cells), `x.copy()` and arithmetic
   allocate new cells, `x -= d` and `x[k] = y` write into existing cells, and `self.E = x`
   makes two names for the same cells.
   Numbers are exact and finite (a division by zero, which numpy turns into inf or nan, is
   given the outcome ZeroDivErr here).  The contents computed by each method are those of
   the models VectorModel, MatrixModel, FillModel and ArithModel. *)
From Coq Require Import String.
From Verif Require Import PyBase Axis RebinModel MatrixModel VectorModel FillModel ArithModel.

(* --- memory and arrays -------------------------------------------------------------- *)
Definition memory := list Qc.
Definition harr := list nat.
Record harr2 := mkH2 { h_nc : nat; h_rows : list harr }.
Definition get (h : memory) (a : harr) : list Qc := map (fun c => nth c h 0) a.
Definition get2 (h : memory) (a : harr2) : arr2 := mkArr (h_nc a) (map (get h) (h_rows a)).
Definition alloc (h : memory) (xs : list Qc) : memory * harr :=
  (h ++ xs, seq (length h) (length xs)).
Fixpoint alloc_rows (h : memory) (rows : list (list Qc)) : memory * list harr :=
  match rows with
  | [] => (h, [])
  | r :: t => let (h1, a) := alloc h r in let (h2, b) := alloc_rows h1 t in (h2, a :: b)
  end.
Definition alloc2 (h : memory) (x : arr2) : memory * harr2 :=
  let (h', rows) := alloc_rows h (a_rows x) in (h', mkH2 (a_nc x) rows).
(* a.copy() *)
Definition copy1 (h : memory) (a : harr) : memory * harr := alloc h (get h a).
Definition copy2 (h : memory) (a : harr2) : memory * harr2 := alloc2 h (get2 h a).
(* element-wise assignment in place: cell number k of the array gets f k (old content) *)
Fixpoint write_from (k : nat) (h : memory) (a : harr) (f : nat -> Qc -> Qc) : memory :=
  match a with
  | [] => h
  | c :: t => write_from (S k) (upd h c (f k (nth c h 0))) t f
  end.
Definition write (h : memory) (a : harr) (f : nat -> Qc -> Qc) : memory := write_from 0 h a f.
Fixpoint write_rows (r : nat) (h : memory) (rows : list harr) (f : nat -> nat -> Qc -> Qc) : memory :=
  match rows with
  | [] => h
  | a :: t => write_rows (S r) (write h a (f r)) t f
  end.
(* slices (views) *)
Definition hslice_rows (a : harr2) (lo hi : Z) : harr2 := mkH2 (h_nc a) (py_slice (h_rows a) lo hi).
Definition hslice_cols (a : harr2) (lo hi : Z) : harr2 :=
  mkH2 (length (py_slice (seq 0 (h_nc a)) lo hi)) (map (fun r => py_slice r lo hi) (h_rows a)).

(* --- objects ------------------------------------------------------------------------- *)
Record hvec := mkHV { hv_values : harr; hv_E : harr; hv_std : option harr; hv_units : units_t }.
Record hmat := mkHM { hm_values : harr2; hm_Eg : harr; hm_Ex : harr; hm_std : option harr2;
                      hm_state : option mstate }.
Inductive obj := HArr (a : harr) | HArr2 (a : harr2) | HVec (v : hvec) | HMat (m : hmat).
Record heap := mkHeap { mem : memory; objs : list obj }.

(* what an object looks like: its attributes as values *)
Definition look_vec (h : memory) (v : hvec) : vector :=
  mkV (get h (hv_values v)) (get h (hv_E v)) (option_map (get h) (hv_std v)) (hv_units v).
Definition look_mat (h : memory) (m : hmat) : matrix :=
  mkM (get2 h (hm_values m)) (get h (hm_Eg m)) (get h (hm_Ex m))
      (option_map (get2 h) (hm_std m)) (hm_state m).

(* An array argument: made on the spot (STemp) or an attribute of a variable's object. *)
Inductive attr := AWhole | AValues | AE | AStd | AEg | AEx.
Inductive src := STemp (xs : list Qc) | SAttr (i : nat) (a : attr).
Definition attr1 (o : obj) (a : attr) : option harr :=
  match o, a with
  | HArr x, AWhole => Some x
  | HVec v, AValues => Some (hv_values v)
  | HVec v, AE => Some (hv_E v)
  | HVec v, AStd => hv_std v
  | HMat m, AEg => Some (hm_Eg m)
  | HMat m, AEx => Some (hm_Ex m)
  | _, _ => None
  end.
Definition attr2 (o : obj) (a : attr) : option harr2 :=
  match o, a with
  | HArr2 x, AWhole => Some x
  | HMat m, AValues => Some (hm_values m)
  | HMat m, AStd => hm_std m
  | _, _ => None
  end.
Definition find_obj (s : heap) (i : nat) : result obj :=
  match nth_error (objs s) i with Some o => Ok o | None => Raise NameError end.
(* evaluate an argument: memory afterwards and the array *)
Definition eval (s : heap) (x : src) : result (memory * harr) :=
  match x with
  | STemp xs => Ok (alloc (mem s) xs)
  | SAttr i a =>
      do o <- find_obj s i ;;
      match attr1 o a with Some r => Ok (mem s, r) | None => Raise AttributeError end
  end.
(* the same for a 2-D argument *)
Inductive src2 := STemp2 (x : arr2) | SAttr2 (i : nat) (a : attr).
Definition eval2 (s : heap) (x : src2) : result (memory * harr2) :=
  match x with
  | STemp2 xs => Ok (alloc2 (mem s) xs)
  | SAttr2 i a =>
      do o <- find_obj s i ;;
      match attr2 o a with Some r => Ok (mem s, r) | None => Raise AttributeError end
  end.
Definition eval_opt {A B} (ev : heap -> A -> result (memory * B)) (s : heap) (x : option A)
  : result (memory * option B) :=
  match x with
  | None => Ok (mem s, None)
  | Some a => do (h, b) <- ev s a ;; Ok (h, Some b)
  end.

(* --- constructors and copies ----------------------------------------------------------- *)
Definition copy_opt {A} (cp : memory -> A -> memory * A) (h : memory) (x : option A)
  : memory * option A :=
  match x with None => (h, None) | Some a => let (h', b) := cp h a in (h', Some b) end.
(* vector.py:64-83 Vector(values, E, std, units): the three arrays are copied *)
Definition new_vec (h : memory) (vals E : harr) (sd : option harr) (u : units_t) : memory * hvec :=
  let (h1, a) := copy1 h vals in
  let (h2, b) := copy1 h1 E in
  let (h3, c) := copy_opt copy1 h2 sd in
  (h3, mkHV a b c u).
(* matrix.py:121-137 Matrix(values, Eg, Ex, std): values, Eg and Ex are copied, std is not *)
Definition new_mat (h : memory) (vals : harr2) (eg ex : harr) (sd : option harr2)
    (st : option mstate) : memory * hmat :=
  let (h1, a) := copy2 h vals in
  let (h2, b) := copy1 h1 eg in
  let (h3, c) := copy1 h2 ex in
  (h3, mkHM a b c sd st).
(* abstractarray.py:16 copy.deepcopy.  (Two attributes bound to one and the same array
   object stay bound to one array in a deep copy; here they get separate cells.) *)
Definition deep_vec (h : memory) (v : hvec) : memory * hvec :=
  new_vec h (hv_values v) (hv_E v) (hv_std v) (hv_units v).
Definition deep_mat (h : memory) (m : hmat) : memory * hmat :=
  let (h1, a) := copy2 h (hm_values m) in
  let (h2, b) := copy1 h1 (hm_Eg m) in
  let (h3, c) := copy1 h2 (hm_Ex m) in
  let (h4, d) := copy_opt copy2 h3 (hm_std m) in
  (h4, mkHM a b c d (hm_state m)).

(* --- what a method does to one attribute ---------------------------------------------- *)
Inductive eff1 :=
| Keep1                            (* not assigned *)
| Fresh1 (xs : list Qc)            (* self.x = a newly computed array *)
| Slice1 (lo hi : Z)               (* self.x = self.x[lo:hi] *)
| Bind1 (a : harr)                 (* self.x = an array that exists already *)
| Upd1 (f : nat -> Qc -> Qc).      (* written in place *)
Inductive eff2 :=
| Keep2 | Fresh2 (x : arr2) | Rows2 (lo hi : Z) | Cols2 (lo hi : Z)
| Upd2 (f : nat -> nat -> Qc -> Qc).
Definition do1 (h : memory) (a : harr) (e : eff1) : memory * harr :=
  match e with
  | Keep1 => (h, a)
  | Fresh1 xs => alloc h xs
  | Slice1 lo hi => (h, py_slice a lo hi)
  | Bind1 b => (h, b)
  | Upd1 f => (write h a f, a)
  end.
Definition do2 (h : memory) (a : harr2) (e : eff2) : memory * harr2 :=
  match e with
  | Keep2 => (h, a)
  | Fresh2 x => alloc2 h x
  | Rows2 lo hi => (h, hslice_rows a lo hi)
  | Cols2 lo hi => (h, hslice_cols a lo hi)
  | Upd2 f => (write_rows 0 h (h_rows a) f, a)
  end.
(* the std attribute: None stays None unless an array is assigned *)
Definition do1o (h : memory) (a : option harr) (e : eff1) : memory * option harr :=
  match a, e with
  | None, Fresh1 xs => let (h', b) := alloc h xs in (h', Some b)
  | None, _ => (h, None)
  | Some a, _ => let (h', b) := do1 h a e in (h', Some b)
  end.
Record veff := mkVE { ve_values : eff1; ve_E : eff1; ve_std : eff1; ve_units : units_t }.
Definition do_vec (h : memory) (v : hvec) (e : veff) : memory * hvec :=
  let (h1, a) := do1 h (hv_values v) (ve_values e) in
  let (h2, b) := do1 h1 (hv_E v) (ve_E e) in
  let (h3, c) := do1o h2 (hv_std v) (ve_std e) in
  (h3, mkHV a b c (ve_units e)).
(* no method of Matrix assigns std; the order Ex before Eg is that of lines 855-856 *)
Record meff := mkME { me_values : eff2; me_Ex : eff1; me_Eg : eff1; me_state : option mstate }.
Definition do_mat (h : memory) (m : hmat) (e : meff) : memory * hmat :=
  let (h1, a) := do2 h (hm_values m) (me_values e) in
  let (h2, b) := do1 h1 (hm_Ex m) (me_Ex e) in
  let (h3, c) := do1 h2 (hm_Eg m) (me_Eg e) in
  (h3, mkHM a c b (hm_std m) (me_state e)).

(* --- the methods of Vector -------------------------------------------------------------- *)
Section Oracles.
(* np.exp and np.sqrt as in VectorModel; the density and np.argsort as in FillModel *)
Variable expf : Qc -> Qc.
Variable sqrtf : Qc -> Qc.
Variable gauss : nat -> nat -> Qc.
Variable argsort : list Qc -> list nat.

Inductive vcall :=
| CCut (Emin Emax : option Qc)
| CRebin (mids : option src) (factor : option Qc)
| CToMeV | CToKeV
| CClosest (E_new : src) (s : side_t)
| CCumulative (f : cum_factor)
| CTransform (const alpha : Qc)
| CCutNan
| CVLoad (vals E : list Qc) (sd : option (list Qc)).

Definition fresho (x : option (list Qc)) : eff1 :=
  match x with Some l => Fresh1 l | None => Keep1 end.
(* The effect of a method on a vector that looks like v; A: the array argument, if any
   (the harr and its contents). *)
Definition veffect (c : vcall) (v : vector) (A : harr) (xs : list Qc) : result veff :=
  let u := v_units v in
  match c with
  | CCut Emin Emax =>
      (* vector.py:348-365: self.E = self.E[cut], ... *)
      do emin <- match Emin with Some e => Ok e | None => py_min (v_E v) end ;;
      do emax <- match Emax with Some e => Ok e | None => py_max (v_E v) end ;;
      let s := Slice1 (Z.of_nat (index (v_E v) emin)) (Z.of_nat (index (v_E v) emax) + 1) in
      Ok (mkVE s s s u)
  | CRebin mids factor =>
      (* vector.py:405-425: self.values = rebinned; self.E = mids (the argument itself) *)
      do (out, new) <- v_rebin_data v (match mids with Some _ => Some xs | None => None end) factor ;;
      Ok (mkVE (Fresh1 out) (match mids with Some _ => Bind1 A | None => Fresh1 new end) Keep1 u)
  | CToMeV =>
      (* vector.py:430-438: self.E /= 1e3 *)
      match u with
      | MeV => Ok (mkVE Keep1 Keep1 Keep1 MeV)
      | KeV => Ok (mkVE Keep1 (Upd1 (fun _ e => e / qz 1000)) Keep1 MeV)
      | OtherUnits _ => Raise NotImplementedErr
      end
  | CToKeV =>
      (* vector.py:440-448: self.E *= 1e3 *)
      match u with
      | KeV => Ok (mkVE Keep1 Keep1 Keep1 KeV)
      | MeV => Ok (mkVE Keep1 (Upd1 (fun _ e => e * qz 1000)) Keep1 KeV)
      | OtherUnits _ => Raise NotImplementedErr
      end
  | CClosest _ s =>
      (* vector.py:474-495: self.E = E_new (the argument itself) *)
      do (vals, sd) <- closest_data v xs s ;;
      Ok (mkVE (Fresh1 vals) (Bind1 A) (fresho sd) u)
  | CCumulative f =>
      (* vector.py:515-531 *)
      do w <- cumulative sqrtf v f ;;
      Ok (mkVE (Fresh1 (v_values w)) Keep1 (fresho (v_std w)) u)
  | CTransform c a =>
      (* vector.py:279-297 *)
      let w := v_transform expf v c a in
      Ok (mkVE (Fresh1 (v_values w)) Keep1 (fresho (v_std w)) u)
  | CCutNan =>
      (* vector.py:378-386 np.delete makes new arrays; there are no nan entries here *)
      Ok (mkVE (Fresh1 (v_values v)) (Fresh1 (v_E v)) (fresho (v_std v)) u)
  | CVLoad vals E sd =>
      (* vector.py:236-258; sd None: the two-column tar and mama formats, which keep std *)
      Ok (mkVE (Fresh1 vals) (Fresh1 E) (fresho sd) u)
  end.
(* vector.py:426, 260: rebin and load run verify_integrity after the assignments *)
Definition vchecks (c : vcall) : bool :=
  match c with CRebin _ _ | CVLoad _ _ _ => true | _ => false end.
(* the array argument of a call *)
Definition varg (c : vcall) : option src :=
  match c with CRebin m _ => m | CClosest e _ => Some e | _ => None end.

(* --- the methods of Matrix -------------------------------------------------------------- *)
Inductive mcall :=
| CMCut (ax : axis_arg) (Emin Emax : option Qc) (imin imax : bool)
| CMRebin (ex : bool) (mids : option src) (factor : option Qc)
| CTrapezoid (Ex_min Ex_max Eg_min : Qc) (Eg_max : option Qc)
| CDiagonal (p q : option (Qc * Qc))
| CFill (eg ex c : Qc)
| CFillNegative
| CRemoveNegative
| CToLower
| CToMid
| CState (a : state_arg)
| CMLoad (v : arr2) (eg ex : list Qc).

Definition meffect (c : mcall) (m : matrix) (A : harr) (xs : list Qc) : result meff :=
  let st := state m in
  match c with
  | CMCut ax Emin Emax imin imax =>
      (* matrix.py:512-551: slices of the own arrays *)
      do a <- to_plot_axis ax ;;
      do (lo, hi) <- cut_bounds (match a with AxEg => Eg m | _ => Ex m end) Emin Emax imin imax ;;
      match a with
      | AxEg => Ok (mkME (Cols2 lo hi) Keep1 (Slice1 lo hi) st)
      | AxEx => Ok (mkME (Rows2 lo hi) (Slice1 lo hi) Keep1 st)
      | AxBoth => Raise ValueError
      end
  | CMRebin ex mids factor =>
      (* matrix.py:728-747, one axis: self.Ex = mids or self.Eg = mids *)
      do (v, new) <- rebin_data m ex (match mids with Some _ => Some xs | None => None end) factor ;;
      let b := match mids with Some _ => Bind1 A | None => Fresh1 new end in
      Ok (if ex then mkME (Fresh2 v) b Keep1 st else mkME (Fresh2 v) Keep1 b st)
  | CTrapezoid a b c d =>
      (* matrix.py:660-687: the arrays of the local deep copy are assigned *)
      do t <- trapezoid_data m a b c d ;;
      Ok (mkME (Fresh2 (values t)) (Fresh1 (Ex t)) (Fresh1 (Eg t)) (state t))
  | CDiagonal p q =>
      (* matrix.py:590-598: self.values[mask] = 0.0 *)
      match p, q with
      | Some p, Some q =>
          do mask <- line_mask m p q ;;
          if pair_eqb (shape (values m)) (length (Ex m), length (Eg m))
          then Ok (mkME (Upd2 (fun r c x => if mask r c then 0 else x)) Keep1 Keep1 st)
          else Raise IndexError
      | _, _ => Raise ValueError
      end
  | CFill eg ex c =>
      (* matrix.py:774: self.values[i][j] += count *)
      let i := index (Ex m) ex in
      let j := index (Eg m) eg in
      if ((i <? a_nr (values m)) && (j <? a_nc (values m)))%nat
      then Ok (mkME (Upd2 (fun r k x => if (Nat.eqb r i && Nat.eqb k j)%bool then x + c else x)) Keep1 Keep1 st)
      else Raise IndexError
  | CFillNegative =>
      (* matrix.py:778: fill_negative_gauss works on np.copy(array) *)
      Ok (mkME (Fresh2 (fill_negative_gauss gauss argsort (values m))) Keep1 Keep1 st)
  | CRemoveNegative => Ok (mkME (Fresh2 (amap clip (values m))) Keep1 Keep1 st) (* 782 np.where *)
  | CToLower =>
      (* matrix.py:851-856: self.Ex -= dEx; self.Eg -= dEg *)
      match Ex m, Eg m with
      | _ :: _ :: _, _ :: _ :: _ =>
          Ok (mkME Keep2 (Upd1 (fun _ e => e - halfbin (Ex m))) (Upd1 (fun _ e => e - halfbin (Eg m))) st)
      | _, _ => Raise IndexError
      end
  | CToMid =>
      (* matrix.py:858-863 *)
      match Ex m, Eg m with
      | _ :: _ :: _, _ :: _ :: _ =>
          Ok (mkME Keep2 (Upd1 (fun _ e => e + halfbin (Ex m))) (Upd1 (fun _ e => e + halfbin (Eg m))) st)
      | _, _ => Raise IndexError
      end
  | CState a => do s <- set_state a ;; Ok (mkME Keep2 Keep1 Keep1 s)
  | CMLoad v eg ex => Ok (mkME (Fresh2 v) (Fresh1 ex) (Fresh1 eg) st) (* matrix.py:196-208 *)
  end.
(* matrix.py:748, 209 *)
Definition mchecks (c : mcall) : bool :=
  match c with CMRebin _ _ _ | CMLoad _ _ _ => true | _ => false end.
Definition marg (c : mcall) : option src :=
  match c with CMRebin _ m _ => m | _ => None end.

(* --- statements of a program ------------------------------------------------------------- *)
(* Variables are numbered in the order in which they are bound; a statement that creates
   objects binds new variables at the end. *)
Inductive op :=
| NewArr (xs : list Qc)                                          (* a = np.array(xs) *)
| NewArr2 (x : arr2)
| SetItem (i k : nat) (x : Qc)                                   (* a[k] = x, v[k] = x *)
| SetItem2 (i r c : nat) (x : Qc)                                (* a[r, c] = x, m[r, c] = x *)
| VecNew (vals : option src) (E : src) (sd : option src) (u : units_t)
| MatNew (vals : src2) (eg ex : option src) (sd : option src2) (st : state_arg)
| Deepcopy (i : nat)                                             (* x.copy() *)
| VecIn (i : nat) (c : vcall)                                    (* in place *)
| VecOut (i : nat) (c : vcall)                                   (* inplace=False *)
| MatIn (i : nat) (c : mcall)
| MatOut (i : nat) (c : mcall)
| Arith (o : aop) (i : nat) (y : operand nat)                    (* y: number or variable *)
| MatMul (i j : nat)
| Project (i : nat) (ax : axis_arg) (Emin Emax : option Qc) (norm : bool)  (* p, e = m.projection(..) *)
| Row (i r : nat).                                               (* row = m[r] *)

Definition outcome := (heap * result unit)%type.
Definition fail (s : heap) (e : exn) : outcome := (s, Raise e).
Definition bind_new (h : memory) (s : heap) (os : list obj) : outcome :=
  (mkHeap h (objs s ++ os), Ok tt).
Definition rebind (h : memory) (s : heap) (i : nat) (o : obj) (r : result unit) : outcome :=
  (mkHeap h (upd (objs s) i o), r).
Definition arg_of (s : heap) (a : option src) : result (memory * harr) :=
  match a with None => Ok (mem s, []) | Some x => eval s x end.

(* a method of a vector, in place: the arguments are evaluated, then the attributes change *)
Definition vec_in (s : heap) (i : nat) (c : vcall) : outcome :=
  match find_obj s i with
  | Ok (HVec v) =>
      match arg_of s (varg c) with
      | Raise e => fail s e
      | Ok (h, A) =>
          match veffect c (look_vec h v) A (get h A) with
          | Raise e => fail s e
          | Ok eff =>
              let (h', v') := do_vec h v eff in
              rebind h' s i (HVec v') (if vchecks c then v_verify (look_vec h' v') else Ok tt)
          end
      end
  | Ok _ => fail s AttributeError
  | Raise e => fail s e
  end.
(* inplace=False: the attributes computed are passed to Vector(...), which copies them.
   vector.py:288-291, 366-367, 387-388, 427-428, 496-497, 532-535.  rebin passes neither std
   nor units (default keV). *)
Definition vec_out (s : heap) (i : nat) (c : vcall) : outcome :=
  match find_obj s i with
  | Ok (HVec v) =>
      match arg_of s (varg c) with
      | Raise e => fail s e
      | Ok (h, A) =>
          match veffect c (look_vec h v) A (get h A) with
          | Raise e => fail s e
          | Ok eff =>
              let (h1, w) := do_vec h v eff in
              let (sd, u) := match c with CRebin _ _ => (None, KeV) | _ => (hv_std w, hv_units w) end in
              let (h2, w') := new_vec h1 (hv_values w) (hv_E w) sd u in
              match v_verify (look_vec h2 w') with
              | Ok _ => bind_new h2 s [HVec w']
              | Raise e => fail s e
              end
          end
      end
  | Ok _ => fail s AttributeError
  | Raise e => fail s e
  end.
(* the methods that have an inplace argument *)
Definition vec_has_inplace (c : vcall) : bool :=
  match c with CToMeV | CToKeV | CVLoad _ _ _ => false | _ => true end.

Definition mat_in (s : heap) (i : nat) (c : mcall) : outcome :=
  match find_obj s i with
  | Ok (HMat m) =>
      match arg_of s (marg c) with
      | Raise e => fail s e
      | Ok (h, A) =>
          match meffect c (look_mat h m) A (get h A) with
          | Raise e => fail s e
          | Ok eff =>
              let (h', m') := do_mat h m eff in
              rebind h' s i (HMat m') (if mchecks c then verify_integrity (look_mat h' m') else Ok tt)
          end
      end
  | Ok _ => fail s AttributeError
  | Raise e => fail s e
  end.
(* inplace=False.  cut and rebin (552-553, 749-753): Matrix(values, Eg, Ex) without std and
   state; cut_diagonal (599-602) and trapezoid (688-689): the method applied to a deep copy. *)
Definition mat_out (s : heap) (i : nat) (c : mcall) : outcome :=
  match find_obj s i with
  | Ok (HMat m) =>
      match arg_of s (marg c) with
      | Raise e => fail s e
      | Ok (h, A) =>
          match c with
          | CMCut _ _ _ _ _ | CMRebin _ _ _ =>
              match meffect c (look_mat h m) A (get h A) with
              | Raise e => fail s e
              | Ok eff =>
                  let (h1, w) := do_mat h m eff in
                  let (h2, w') := new_mat h1 (hm_values w) (hm_Eg w) (hm_Ex w) None None in
                  match verify_integrity (look_mat h2 w') with
                  | Ok _ => bind_new h2 s [HMat w']
                  | Raise e => fail s e
                  end
              end
          | _ =>
              let (h1, w) := deep_mat h m in
              match meffect c (look_mat h1 w) A (get h1 A) with
              | Raise e => fail s e
              | Ok eff => let (h2, w') := do_mat h1 w eff in bind_new h2 s [HMat w']
              end
          end
      end
  | Ok _ => fail s AttributeError
  | Raise e => fail s e
  end.
Definition mat_has_inplace (c : mcall) : bool :=
  match c with CMCut _ _ _ _ _ | CMRebin _ _ _ | CTrapezoid _ _ _ _ | CDiagonal _ _ => true | _ => false end.

(* abstractarray.py:65-123: result = self.copy(); then the values of the copy are changed in
   place (`result.values -= other`) or replaced (`result.values = other - result.values`) *)
Fixpoint all_some {A} (l : list (option A)) : option (list A) :=
  match l with
  | [] => Some []
  | Some x :: t => match all_some t with Some t' => Some (x :: t') | None => None end
  | None :: _ => None
  end.
Definition in_place_op (o : aop) : bool := match o with ORSub | ORDiv => false | _ => true end.
Definition arith (s : heap) (o : aop) (i : nat) (y : operand nat) : outcome :=
  match find_obj s i with
  | Ok (HVec v) =>
      let rhs := match y with
                 | OpNum q => Ok (OpNum q)
                 | OpObj j => do w <- find_obj s j ;;
                              match w with HVec w => Ok (OpObj (look_vec (mem s) w)) | _ => Ok OpOther end
                 | OpOther => Ok OpOther
                 end in
      match (do r <- rhs ;; v_arith o (look_vec (mem s) v) r) with
      | Raise e => fail s e
      | Ok x =>
          match all_some (xv_values x) with
          | None => fail s ZeroDivErr
          | Some vals =>
              let (h1, w) := deep_vec (mem s) v in
              let eff := mkVE (if in_place_op o then Upd1 (fun k _ => vget vals k) else Fresh1 vals)
                              Keep1 Keep1 (hv_units v) in
              let (h2, w') := do_vec h1 w eff in bind_new h2 s [HVec w']
          end
      end
  | Ok (HMat m) =>
      let rhs := match y with
                 | OpNum q => Ok (OpNum q)
                 | OpObj j => do w <- find_obj s j ;;
                              match w with HMat w => Ok (OpObj (look_mat (mem s) w)) | _ => Ok OpOther end
                 | OpOther => Ok OpOther
                 end in
      match (do r <- rhs ;; m_arith o (look_mat (mem s) m) r) with
      | Raise e => fail s e
      | Ok x =>
          match all_some (map (fun r => all_some r) (x_values x)) with
          | None => fail s ZeroDivErr
          | Some vals =>
              let (h1, w) := deep_mat (mem s) m in
              let eff := mkME (if in_place_op o then Upd2 (fun r k _ => mget vals r k)
                               else Fresh2 (mkArr (h_nc (hm_values m)) vals))
                              Keep1 Keep1 (hm_state m) in
              let (h2, w') := do_mat h1 w eff in bind_new h2 s [HMat w']
          end
      end
  | Ok _ => fail s AttributeError
  | Raise e => fail s e
  end.
(* matrix.py:894-907 *)
Definition matmul (s : heap) (i j : nat) : outcome :=
  match find_obj s i, find_obj s j with
  | Ok (HMat m), Ok (HMat w) =>
      match m_matmul (look_mat (mem s) m) (look_mat (mem s) w) with
      | Raise e => fail s e
      | Ok p =>
          let (h1, r) := deep_mat (mem s) m in
          let (h2, r') := do_mat h1 r (mkME (Fresh2 (values p)) Keep1 Keep1 (hm_state m)) in
          bind_new h2 s [HMat r']
      end
  | Ok _, Ok _ => fail s TypeError
  | Raise e, _ | _, Raise e => fail s e
  end.
(* the constructor calls, arguments from left to right *)
Definition with_mem (s : heap) (h : memory) : heap := mkHeap h (objs s).
Definition vec_new (s : heap) (vals : option src) (E : src) (sd : option src) (u : units_t) : outcome :=
  match (do (h1, e) <- eval s E ;;
         do (h2, w) <- eval_opt eval (with_mem s h1) vals ;;
         do (h3, d) <- eval_opt eval (with_mem s h2) sd ;;
         Ok (h3, e, w, d)) with
  | Raise x => fail s x
  | Ok (h, e, w, d) =>
      (* vector.py:68-70 np.zeros_like(E) *)
      let (h0, w) := match w with Some w => (h, w) | None => alloc h (map (fun _ => 0) e) end in
      let (h', v) := new_vec h0 w e d u in
      match v_verify (look_vec h' v) with
      | Ok _ => bind_new h' s [HVec v]
      | Raise x => fail s x
      end
  end.
Definition mat_new (s : heap) (vals : src2) (eg ex : option src) (sd : option src2) (st : state_arg) : outcome :=
  match (do (h1, w) <- eval2 s vals ;;
         do (h2, g) <- eval_opt eval (with_mem s h1) eg ;;
         do (h3, x) <- eval_opt eval (with_mem s h2) ex ;;
         do (h4, d) <- eval_opt eval2 (with_mem s h3) sd ;;
         Ok (h4, w, g, x, d)) with
  | Raise x => fail s x
  | Ok (h, w, g, x, d) =>
      (* matrix.py:123-128 default axes *)
      let (h1, x) := match x with Some x => (h, x) | None => alloc h (default_axis (length (h_rows w))) end in
      let (h2, g) := match g with Some g => (h1, g) | None => alloc h1 (default_axis (h_nc w)) end in
      let (h', m) := new_mat h2 w g x d None in
      match (do _ <- verify_integrity (look_mat h' m) ;; set_state st) with
      | Ok t => bind_new h' s [HMat (mkHM (hm_values m) (hm_Eg m) (hm_Ex m) (hm_std m) t)]
      | Raise x => fail s x
      end
  end.
(* matrix.py:417-453: the energies returned are the matrix's own axis array *)
Definition project (s : heap) (i : nat) ax Emin Emax norm : outcome :=
  match find_obj s i with
  | Ok (HMat m) =>
      match projection (look_mat (mem s) m) ax Emin Emax norm, to_plot_axis ax with
      | Ok (p, _), Ok a =>
          let (h, q) := alloc (mem s) p in
          bind_new h s [HArr q; HArr (match a with AxEx => hm_Ex m | _ => hm_Eg m end)]
      | Raise e, _ | _, Raise e => fail s e
      end
  | Ok _ => fail s AttributeError
  | Raise e => fail s e
  end.

Definition step (s : heap) (o : op) : outcome :=
  match o with
  | NewArr xs => let (h, a) := alloc (mem s) xs in bind_new h s [HArr a]
  | NewArr2 x => let (h, a) := alloc2 (mem s) x in bind_new h s [HArr2 a]
  | SetItem i k x =>
      let set a := if (k <? length a)%nat
                   then (with_mem s (write (mem s) a (fun n y => if Nat.eqb n k then x else y)), Ok tt)
                   else fail s IndexError in
      match find_obj s i with
      | Ok (HArr a) => set a
      | Ok (HVec v) => set (hv_values v)      (* abstractarray.py:138 *)
      | Ok _ => fail s TypeError
      | Raise e => fail s e
      end
  | SetItem2 i r c x =>
      let set a := if ((r <? length (h_rows a)) && (c <? h_nc a))%nat
                   then (with_mem s (write_rows 0 (mem s) (h_rows a)
                           (fun p q y => if (Nat.eqb p r && Nat.eqb q c)%bool then x else y)), Ok tt)
                   else fail s IndexError in
      match find_obj s i with
      | Ok (HArr2 a) => set a
      | Ok (HMat m) => set (hm_values m)
      | Ok _ => fail s TypeError
      | Raise e => fail s e
      end
  | VecNew vals E sd u => vec_new s vals E sd u
  | MatNew vals eg ex sd st => mat_new s vals eg ex sd st
  | Deepcopy i =>
      match find_obj s i with
      | Ok (HVec v) => let (h, w) := deep_vec (mem s) v in bind_new h s [HVec w]
      | Ok (HMat m) => let (h, w) := deep_mat (mem s) m in bind_new h s [HMat w]
      | Ok (HArr a) => let (h, b) := copy1 (mem s) a in bind_new h s [HArr b]
      | Ok (HArr2 a) => let (h, b) := copy2 (mem s) a in bind_new h s [HArr2 b]
      | Raise e => fail s e
      end
  | VecIn i c => vec_in s i c
  | VecOut i c => if vec_has_inplace c then vec_out s i c else fail s TypeError
  | MatIn i c => mat_in s i c
  | MatOut i c => if mat_has_inplace c then mat_out s i c else fail s TypeError
  | Arith o i y => arith s o i y
  | MatMul i j => matmul s i j
  | Project i ax a b n => project s i ax a b n
  | Row i r =>
      match find_obj s i with
      | Ok (HMat m) => match nth_error (h_rows (hm_values m)) r with
                       | Some a => bind_new (mem s) s [HArr a]
                       | None => fail s IndexError
                       end
      | Ok (HArr2 a) => match nth_error (h_rows a) r with
                        | Some a => bind_new (mem s) s [HArr a]
                        | None => fail s IndexError
                        end
      | Ok _ => fail s TypeError
      | Raise e => fail s e
      end
  end.
(* a program: exceptions are caught, the next statement runs in the state left behind *)
Fixpoint run (s : heap) (p : list op) : heap :=
  match p with [] => s | o :: t => run (fst (step s o)) t end.
Definition start : heap := mkHeap [] [].
End Oracles.
