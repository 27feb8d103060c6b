(* Model of ompy/matrix.py (class Matrix) and of the energy look-up `index` in
   ompy/decomposition.pyx. *)
From Verif Require Import PyBase Axis RebinModel.

(* decomposition.pyx:136-142 (and 99-105) the scan of index/_index: i is the index
   last looked at, prev its squared distance. *)
Fixpoint index_scan (e prev : Qc) (i : nat) (rest : list Qc) : nat :=
  match rest with
  | [] => i
  | x :: t =>
      let d := (x - e) * (x - e) in
      if qltb prev d then i else index_scan e d (S i) t
  end.
(* decomposition.pyx:119-142 index.  For an empty array the code reads array[0] out of
   bounds (bounds checks are off) and returns 0. *)
Definition index (l : list Qc) (e : Qc) : nat :=
  match l with
  | [] => 0%nat
  | x :: t => index_scan e ((x - e) * (x - e)) 0 t
  end.

(* 2-D numpy array with explicit number of columns (needed for zero rows). *)
Record arr2 := mkArr { a_nc : nat; a_rows : list (list Qc) }.
Definition a_nr (a : arr2) : nat := length (a_rows a).
Definition shape (a : arr2) : nat * nat := (a_nr a, a_nc a).
Definition amap (f : Qc -> Qc) (a : arr2) : arr2 := mkArr (a_nc a) (map (map f) (a_rows a)).
Definition aget (a : arr2) (i j : nat) : Qc := mget (a_rows a) i j.

(* matrix.py:29-138 the attributes of a Matrix. *)
Record matrix := mkM {
  values : arr2;
  Eg : list Qc;
  Ex : list Qc;
  std : option arr2;
  state : option mstate
}.

Definition pair_eqb (p q : nat * nat) : bool :=
  Nat.eqb (fst p) (fst q) && Nat.eqb (snd p) (snd q).

(* matrix.py:140-177 verify_integrity (check_equidistant=False).  Axes are 1-D in the
   model, so the ndim > 1 branches do not occur. *)
Definition verify_integrity (m : matrix) : result unit :=
  if negb (Nat.eqb (a_nr (values m)) (length (Ex m))) then Raise ValueError
  else if negb (Nat.eqb (a_nc (values m)) (length (Eg m))) then Raise ValueError
  else match std m with
       | Some s => if pair_eqb (shape (values m)) (shape s) then Ok tt else Raise ValueError
       | None => Ok tt
       end.

(* matrix.py:123-128 default axis: range(n) + 0.5 *)
Definition default_axis (n : nat) : list Qc := tab n (fun i => qnat i + qn 1 2).
(* matrix.py:81-138 __init__ with values given (no shape, no path).  np.asarray of
   values always yields a rectangular array; std is stored as given. *)
Definition mk_matrix (v : arr2) (eg ex : option (list Qc)) (s : option arr2) (st : state_arg)
  : result matrix :=
  let ex' := match ex with Some e => e | None => default_axis (a_nr v) end in
  let eg' := match eg with Some e => e | None => default_axis (a_nc v) end in
  let m := mkM v eg' ex' s None in
  do _ <- verify_integrity m ;;
  do t <- set_state st ;;
  Ok (mkM v eg' ex' s t).

(* matrix.py:261-273 calibration: (a0x, a1x, a0y, a1y); indices 0 and 1 of both axes *)
Definition calibration (m : matrix) : result (Qc * Qc * Qc * Qc) :=
  match Ex m, Eg m with
  | x0 :: x1 :: _, g0 :: g1 :: _ => Ok (x0, x1 - x0, g0, g1 - g0)
  | _, _ => Raise IndexError
  end.

Fixpoint list_min (x : Qc) (l : list Qc) : Qc :=
  match l with [] => x | y :: t => list_min (if qltb y x then y else x) t end.
Fixpoint list_max (x : Qc) (l : list Qc) : Qc :=
  match l with [] => x | y :: t => list_max (if qltb x y then y else x) t end.
(* builtin min(range)/max(range): ValueError on empty input *)
Definition py_min (l : list Qc) : result Qc :=
  match l with [] => Raise ValueError | x :: t => Ok (list_min x t) end.
Definition py_max (l : list Qc) : result Qc :=
  match l with [] => Raise ValueError | x :: t => Ok (list_max x t) end.

(* matrix.py:515-534: the slice bounds of cut.  The block "Fix for boundaries"
   (529-532) reassigns Emin/Emax, which are not used afterwards, and has no effect. *)
Definition cut_bounds (l : list Qc) (Emin Emax : option Qc) (imin imax : bool)
  : result (Z * Z) :=
  do emin <- match Emin with Some e => Ok e | None => py_min l end ;;
  do emax <- match Emax with Some e => Ok e | None => py_max l end ;;
  let i0 := Z.of_nat (index l emin) in
  do x0 <- py_index l i0 ;;
  let i1 := (if qltb x0 emin then i0 + 1 else i0)%Z in
  let i2 := (if imin then i1 else i1 + 1)%Z in
  let j0 := Z.of_nat (index l emax) in
  do y0 <- py_index l j0 ;;
  let j1 := (if qltb emax y0 then j0 - 1 else j0)%Z in
  let j2 := (if imax then j1 else j1 - 1)%Z in
  Ok (i2, (j2 + 1)%Z).

Definition slice_rows (a : arr2) (lo hi : Z) : arr2 := mkArr (a_nc a) (py_slice (a_rows a) lo hi).
Definition slice_cols (a : arr2) (lo hi : Z) : arr2 :=
  mkArr (length (py_slice (seq 0 (a_nc a)) lo hi)) (map (fun r => py_slice r lo hi) (a_rows a)).

(* matrix.py:512-546: the cut data (values, Eg, Ex) *)
Definition cut_data (m : matrix) (axis : axis_arg) (Emin Emax : option Qc) (imin imax : bool)
  : result (arr2 * list Qc * list Qc) :=
  do ax <- to_plot_axis axis ;;
  let range := match ax with AxEg => Eg m | _ => Ex m end in
  do (lo, hi) <- cut_bounds range Emin Emax imin imax ;;
  let Ecut := py_slice range lo hi in
  match ax with
  | AxEg => Ok (slice_cols (values m) lo hi, Ecut, Ex m)
  | AxEx => Ok (slice_rows (values m) lo hi, Eg m, Ecut)
  | AxBoth => Raise ValueError
  end.
(* matrix.py:548-551 cut(inplace=True): std and state are not touched *)
Definition cut_inplace (m : matrix) axis Emin Emax imin imax : result matrix :=
  do (v, eg, ex) <- cut_data m axis Emin Emax imin imax ;;
  Ok (mkM v eg ex (std m) (state m)).
(* matrix.py:552-553 cut(inplace=False): a fresh Matrix without std and state *)
Definition cut_copy (m : matrix) axis Emin Emax imin imax : result matrix :=
  do (v, eg, ex) <- cut_data m axis Emin Emax imin imax ;;
  mk_matrix v (Some eg) (Some ex) None SNone.

(* matrix.py:555-574 cut_like(inplace=True).  np .min()/.max() of an empty array raise
   ValueError.  If the second cut raises, the first one has already been applied:
   the pair is (object left behind, outcome). *)
Definition cut_like_inplace (m other : matrix) : matrix * result unit :=
  match (do lo <- py_min (Ex other) ;; do hi <- py_max (Ex other) ;;
         cut_inplace m (AInt 1) (Some lo) (Some hi) true true) with
  | Raise e => (m, Raise e)
  | Ok m1 =>
      match (do lo <- py_min (Eg other) ;; do hi <- py_max (Eg other) ;;
             cut_inplace m1 (AInt 0) (Some lo) (Some hi) true true) with
      | Raise e => (m1, Raise e)
      | Ok m2 => (m2, Ok tt)
      end
  end.

(* matrix.py:604-639 line_mask.  mask[r][c] (r: Ex index, c: Eg index) is True iff
   r < a*c + b. *)
Definition line_coeffs (m : matrix) (E1 E2 : Qc * Qc) : result (Qc * Qc) :=
  let ix0 := index (Eg m) (fst E1) in
  let ix1 := index (Eg m) (fst E2) in
  let iy0 := index (Ex m) (snd E1) in
  let iy1 := index (Ex m) (snd E2) in
  if Nat.eqb ix1 ix0 then Raise AssertionError
  else let a := (qnat iy1 - qnat iy0) / (qnat ix1 - qnat ix0) in
       Ok (a, qnat iy0 - a * qnat ix0).
Definition line_mask (m : matrix) (E1 E2 : Qc * Qc) : result (nat -> nat -> bool) :=
  do (a, b) <- line_coeffs m E1 E2 ;;
  Ok (fun r c => qltb (qnat r) (a * qnat c + b)).
Definition mask_zero (mask : nat -> nat -> bool) (a : arr2) : arr2 :=
  mkArr (a_nc a) (mtab (a_nr a) (a_nc a) (fun r c => if mask r c then 0 else aget a r c)).
Definition with_values (m : matrix) (v : arr2) : matrix :=
  mkM v (Eg m) (Ex m) (std m) (state m).
(* matrix.py:576-602 cut_diagonal (inplace).  The mask has shape (len Ex, len Eg); numpy
   raises IndexError if values has another shape. *)
Definition cut_diagonal (m : matrix) (E1 E2 : option (Qc * Qc)) : result matrix :=
  match E1, E2 with
  | Some p, Some q =>
      do mask <- line_mask m p q ;;
      if pair_eqb (shape (values m)) (length (Ex m), length (Eg m))
      then Ok (with_values m (mask_zero mask (values m)))
      else Raise IndexError
  | _, _ => Raise ValueError
  end.

(* index of the last non-zero element of a row, counted from the front *)
Fixpoint last_nonzero_from (i : nat) (r : list Qc) (acc : option nat) : option nat :=
  match r with
  | [] => acc
  | x :: t => last_nonzero_from (S i) t (if qeqb x 0 then acc else Some i)
  end.

(* matrix.py:660-681 trapezoid, computed on a deep copy.  For dEg > 0 the code divides
   by binwidth = Eg[1]-Eg[0] of the *meshgrid*, i.e. the difference of two equal rows:
   an array of zeros, so dEg becomes ceil(inf)*0 = nan and no entry satisfies
   Eg >= Ex + nan; with fewer than two rows Eg[1] raises IndexError.
   matrix.py:667 `except IndexError():` is not an exception class: when np.nonzero finds
   nothing, the IndexError surfaces as a TypeError. *)
Definition trapezoid_data (m : matrix) (Ex_min Ex_max Eg_min : Qc) (Eg_max : option Qc)
  : result matrix :=
  do m1 <- cut_inplace m (AInt 1) (Some Ex_min) (Some Ex_max) true true ;;
  do egmax <- match Eg_max with
              | Some e => Ok e
              | None =>
                  do lastEx <- py_index (a_rows (values m1)) (-1) ;;
                  match last_nonzero_from 0 lastEx None with
                  | None => Raise TypeError
                  | Some k => py_index (Eg m1) (Z.of_nat k)
                  end
              end ;;
  do m2 <- cut_inplace m1 (AInt 0) (Some Eg_min) (Some egmax) true true ;;
  let dEg := egmax - Ex_max in
  if qltb 0 dEg then
    if (2 <=? length (Ex m2))%nat then Ok m2 else Raise IndexError
  else
    if pair_eqb (shape (values m2)) (length (Ex m2), length (Eg m2)) then
      Ok (with_values m2
            (mask_zero (fun r c => qleb (vget (Ex m2) r + dEg) (vget (Eg m2) c)) (values m2)))
    else Raise IndexError.
(* matrix.py:683-689: inplace copies values, Ex, Eg and state; std stays *)
Definition trapezoid_inplace (m : matrix) Ex_min Ex_max Eg_min Eg_max : result matrix :=
  do t <- trapezoid_data m Ex_min Ex_max Eg_min Eg_max ;;
  Ok (mkM (values t) (Eg t) (Ex t) (std m) (state t)).

(* int(x) as a number of elements *)
Definition int_nat (x : Qc) : nat := Z.to_nat (qtrunc x).

(* matrix.py:728-738 / vector.py:410-420: the new bin centres for a factor *)
Definition factor_mids (old : list Qc) (factor : Qc) : result (list Qc) :=
  if qleb factor 0 then Raise ValueError
  else match old with
       | [] => Raise IndexError
       | [_] => Raise IndexError (* mids_old[1] in the debug message *)
       | x :: _ => Ok (linspace x (last old 0) (int_nat (qnat (length old) / factor)))
       end.

(* matrix.py:711-741: validation and data of rebin for one axis (0 or 1) *)
Definition rebin_data (m : matrix) (ex : bool) (mids : option (list Qc)) (factor : option Qc)
  : result (arr2 * list Qc) :=
  let old := if ex then Ex m else Eg m in
  do new <- match factor, mids with
            | Some f, None => factor_mids old f
            | None, Some ms => Ok ms
            | _, _ => Raise ValueError
            end ;;
  let naxis := (if ex then 0 else 1)%Z in
  do rows <- rebin_2D (a_nc (values m)) (a_rows (values m)) old new naxis ;;
  Ok (mkArr (if ex then a_nc (values m) else length new) rows, new).
(* matrix.py:742-748 inplace, one axis; verify_integrity runs after the assignment, so
   the modified object is left behind when it raises. *)
Definition rebin_axis (m : matrix) (ex : bool) mids factor : matrix * result unit :=
  match rebin_data m ex mids factor with
  | Raise e => (m, Raise e)
  | Ok (v, new) =>
      let m' := if ex then mkM v (Eg m) new (std m) (state m)
                else mkM v new (Ex m) (std m) (state m) in
      (m', verify_integrity m')
  end.
(* matrix.py:691-748 rebin(inplace=True) *)
Definition rebin_inplace (m : matrix) (axis : axis_arg) mids factor : matrix * result unit :=
  match to_plot_axis axis with
  | Raise e => (m, Raise e)
  | Ok ax =>
      match mids, factor with
      | Some _, Some _ | None, None => (m, Raise ValueError)
      | _, _ =>
          match ax with
          | AxEg => rebin_axis m false mids factor
          | AxEx => rebin_axis m true mids factor
          | AxBoth =>
              match rebin_axis m false mids factor with
              | (m1, Ok _) => rebin_axis m1 true mids factor
              | r => r
              end
          end
      end
  end.
(* matrix.py:749-753 rebin(inplace=False), one axis: fresh matrix, no std, no state *)
Definition rebin_copy (m : matrix) (ex : bool) mids factor : result matrix :=
  do (v, new) <- rebin_data m ex mids factor ;;
  if ex then mk_matrix v (Some (Eg m)) (Some new) None SNone
  else mk_matrix v (Some new) (Some (Ex m)) None SNone.

(* element update a[i][j] += c *)
Definition add_at (rows : list (list Qc)) (i j : nat) (c : Qc) : list (list Qc) :=
  upd rows i (upd (nth i rows []) j (vget (nth i rows []) j + c)).
(* matrix.py:767-774 fill.  numpy raises IndexError if an index exceeds the array. *)
Definition fill (m : matrix) (eg ex count : Qc) : result matrix :=
  let i := index (Ex m) ex in
  let j := index (Eg m) eg in
  if ((i <? a_nr (values m)) && (j <? a_nc (values m)))%nat
  then Ok (with_values m (mkArr (a_nc (values m)) (add_at (a_rows (values m)) i j count)))
  else Raise IndexError.

(* matrix.py:780-782 remove_negative: np.where(values > 0, values, 0) *)
Definition clip (x : Qc) : Qc := if qltb 0 x then x else 0.
Definition remove_negative (m : matrix) : matrix := with_values m (amap clip (values m)).

(* matrix.py:851-863 to_lower_bin / to_mid_bin: half of the first bin width of each axis *)
Definition halfbin (l : list Qc) : Qc := (nth 1 l 0 - nth 0 l 0) / qz 2.
Definition to_lower_bin (m : matrix) : result matrix :=
  match Ex m, Eg m with
  | _ :: _ :: _, _ :: _ :: _ =>
      Ok (mkM (values m) (map (fun e => e - halfbin (Eg m)) (Eg m))
              (map (fun e => e - halfbin (Ex m)) (Ex m)) (std m) (state m))
  | _, _ => Raise IndexError
  end.
Definition to_mid_bin (m : matrix) : result matrix :=
  match Ex m, Eg m with
  | _ :: _ :: _, _ :: _ :: _ =>
      Ok (mkM (values m) (map (fun e => e + halfbin (Eg m)) (Eg m))
              (map (fun e => e + halfbin (Ex m)) (Ex m)) (std m) (state m))
  | _, _ => Raise IndexError
  end.

(* library.py:10-23 div0 on finite operands (see Div0 for non-finite ones) *)
Definition div0 (a b : Qc) : Qc := if qeqb b 0 then 0 else a / b.

(* matrix.py:417-453 projection onto an axis.  rangeE[-1] of an empty axis raises
   IndexError.  (Emin given and Emax absent is allowed.) *)
Definition proj_bounds (other : list Qc) (Emin Emax : option Qc) : result (Z * Z) :=
  do imin <- match Emin with
             | Some e => Ok (Z.of_nat (index other e))
             | None => match other with [] => Raise IndexError | _ => Ok 0%Z end
             end ;;
  do imax <- match Emax with
             | Some e => Ok (Z.of_nat (index other e))
             | None => match other with
                       | [] => Raise IndexError
                       | _ => Ok (Z.of_nat (length other) - 1)%Z
                       end
             end ;;
  Ok (imin, imax).
Definition projection (m : matrix) (axis : axis_arg) (Emin Emax : option Qc) (normalize : bool)
  : result (list Qc * list Qc) :=
  do ax <- to_plot_axis axis ;;
  do p <- match ax with
          | AxBoth => Raise ValueError
          | AxEx =>
              do (lo, hi) <- proj_bounds (Eg m) Emin Emax ;;
              Ok (map qsum (a_rows (slice_cols (values m) lo (hi + 1))))
          | AxEg =>
              do (lo, hi) <- proj_bounds (Ex m) Emin Emax ;;
              let s := slice_rows (values m) lo (hi + 1) in
              Ok (tab (a_nc s) (fun j => qsum (col (a_rows s) j)))
          end ;;
  let e := match ax with AxEx => Ex m | _ => Eg m end in
  if normalize then Ok (map (fun x => div0 x (qsum p)) p, e) else Ok (p, e).

(* library.py:370-384 diagonal_elements: for each row the first non-zero element of the
   reversed row, at distance j from the end, yields (i, Ny-j) *)
Fixpoint first_nonzero (j : nat) (r : list Qc) : option nat :=
  match r with
  | [] => None
  | x :: t => if qeqb x 0 then first_nonzero (S j) t else Some j
  end.
Fixpoint diag_rows (ny i : nat) (rows : list (list Qc)) : list (nat * nat) :=
  match rows with
  | [] => []
  | r :: t => match first_nonzero 0 (rev r) with
              | Some j => (i, (ny - j)%nat) :: diag_rows ny (S i) t
              | None => diag_rows ny (S i) t
              end
  end.
Definition diagonal_elements (a : arr2) : list (nat * nat) := diag_rows (a_nc a) 0 (a_rows a).

(* library.py:26-29 i_from_E: np.argmin(np.abs(E_array - E)), the first minimum;
   ValueError for an empty array *)
Fixpoint argmin_from (best : Qc) (ibest i : nat) (l : list Qc) : nat :=
  match l with
  | [] => ibest
  | x :: t => if qltb x best then argmin_from x i (S i) t else argmin_from best ibest (S i) t
  end.
Definition i_from_E (E : Qc) (l : list Qc) : result nat :=
  match map (fun x => qabs (x - E)) l with
  | [] => Raise ValueError
  | x :: t => Ok (argmin_from x 0 1 t)
  end.
(* library.py:32-48, 218-235 the stand-alone cut_diagonal: keeps the entries with
   i > line(j).  The bin numbers are numpy integers: for a vertical line the slope is inf or
   nan (with a warning), line(j) is nan for every j, and nothing is kept.  (np.where would also
   broadcast arrays with a single row or column.) *)
Definition lib_cut_diagonal (v : arr2) (Exa Ega : list Qc) (E1 E2 : Qc * Qc) : result arr2 :=
  do x1 <- i_from_E (snd E1) Ega ;; do y1 <- i_from_E (fst E1) Exa ;;
  do x2 <- i_from_E (snd E2) Ega ;; do y2 <- i_from_E (fst E2) Exa ;;
  let a := (qnat y2 - qnat y1) / (qnat x2 - qnat x1) in
  let b := qnat y1 - a * qnat x1 in
  let kept r c := if Nat.eqb x1 x2 then false else qltb (a * qnat c + b) (qnat r) in
  if pair_eqb (shape v) (length Exa, length Ega)
  then Ok (mkArr (a_nc v) (mtab (a_nr v) (a_nc v) (fun r c => if kept r c then aget v r c else 0)))
  else Raise ValueError.
