(* Model of ompy/extractor.py: row normalisation with error propagation, energy grid of the
   level density, constrained bins, decompose, and the extraction loop with its files. *)
From Coq Require Import String.
From Verif Require Import PyBase Axis MatrixModel VectorModel ArithModel CalibModel DecompModel Conc.
Local Open Scope list_scope.
Local Notation length := List.length (only parsing).

(* A vector as the extractor returns it: values may be nan or inf.  Units are the default
   keV and there is no std, so Vector(values, E) only checks the lengths. *)
Record evec := mkEV { ev_E : list Qc; ev_v : list xnum }.
(* extractor.py:426, 429 and vector.py:60-82, 88-106: Vector(values, E) *)
Definition mk_evec (v : list xnum) (E : list Qc) : result evec :=
  if Nat.eqb (length v) (length E) then Ok (mkEV E v) else Raise ValueError.

Section Extractor.
Variable sqrtq : Qc -> Qc.                       (* np.sqrt *)
Variable twopi : Qc.                             (* 2*np.pi *)
Variable bsfg : list Qc -> list Qc.              (* x0_BSFG, 475-502 *)
Variable rng : Type.
Variable seeded : Z -> rng.                      (* np.random.seed *)
Variable uniform : rng -> list Qc -> list Qc -> list Qc * rng.   (* np.random.uniform(low, high) *)
(* scipy.optimize.minimize(errfun, x0).x with the method and options of the instance; a
   deterministic function of errfun and x0.  None is a nan value of errfun. *)
Variable minimize : (list Qc -> option Qc) -> list Qc -> list Qc.
Variables (randomize extend : bool).             (* self.randomize_initial_values, self.extend_fit_by_resolution *)
Variable resolution_Ex : Qc.                     (* self.resolution_Ex *)
Inductive x0_arg := XNone | XStr (s : string) | XArr (l : list Qc).
Variable self_x0 : x0_arg.                       (* self.x0 *)

(* --- normalize, 703-732 ---------------------------------------------------------- *)
(* uncertainties: the total of a row carries the errors of its entries; entry/total is
   propagated with the derivatives d(x_j/S)/dx_k = delta_jk/S - x_j/S^2.  total == 0 holds
   only if both value and error of the total are 0; 0/0 of Python floats raises. *)
Definition propagate (x s : list Qc) (S : Qc) (j : nat) : Qc :=
  sqrtq (qsum (tab (length x) (fun k =>
    let d := ((if Nat.eqb j k then 1 / S else 0) - vget x j / (S * S)) * vget s k in d * d))).
Definition norm_row (x s : list Qc) : result (list Qc * list Qc) :=
  let S := qsum x in
  if qeqb S 0 then
    if qeqb (qsum (map (fun y => y * y) s)) 0 then Ok (x, s) else Raise ZeroDivErr
  else Ok (map (fun y => y / S) x, tab (length x) (propagate x s S)).
Fixpoint norm_rows (v s : list (list Qc)) : result (list (list Qc) * list (list Qc)) :=
  match v, s with
  | x :: v', y :: s' =>
      do (a, b) <- norm_row x y ;; do (l, m) <- norm_rows v' s' ;; Ok (a :: l, b :: m)
  | _, _ => Ok ([], [])
  end.

(* --- energy grid, 362-373 ---------------------------------------------------------- *)
(* A zero bin width gives nan or inf, which int() refuses (ValueError resp. OverflowError,
   here always ValueError). *)
Definition nld_grid (Exa Ega : list Qc) : result (list Qc) :=
  do x1 <- py_index Exa 1 ;; do x0 <- py_index Exa 0 ;;
  do g1 <- py_index Ega 1 ;; do g0 <- py_index Ega 0 ;;
  if negb (isclose (x1 - x0) (g1 - g0)) then Raise AssertionError
  else
  do xmin <- py_min Exa ;; do gmax <- py_max Ega ;; do xmax <- py_max Exa ;; do gmin <- py_min Ega ;;
  if qeqb (x1 - x0) 0 then Raise ValueError
  else linspace (xmin - gmax) (xmax - gmin) (qceil ((xmax - gmin - (xmin - gmax)) / (x1 - x0)) + 1).

(* --- resolution, 576-609 ----------------------------------------------------------- *)
Definition fwhm_Eg (e : Qc) : Qc :=
  sqrtq (qn 732087 10000 + qn 50824 100000 * e + qn 962481 10000000000 * (e * e)).
Definition diagonal_resolution (Exa Ega : list Qc) : result (list Qc) :=
  do x1 <- py_index Exa 1 ;; do x0 <- py_index Exa 0 ;;
  do g1 <- py_index Ega 1 ;; do g0 <- py_index Ega 0 ;;
  if qeqb (x1 - x0) (g1 - g0)
  then Ok (map (fun e => sqrtq (resolution_Ex * resolution_Ex + fwhm_Eg e * fwhm_Eg e)) Exa)
  else Raise AssertionError.
Definition the_resolution (Exa Ega : list Qc) : result (list Qc) :=
  if extend then diagonal_resolution Exa Ega else Ok (map (fun _ => 0) Exa).

(* --- counts per bin, 542-574 -------------------------------------------------------- *)
(* masked (i,j): Eg_j > Ex_i + resolution_i + halfbin; masked bins count 0 in trace and sum *)
Definition kept (v : list (list Qc)) (Exa Ega res : list Qc) (i j : nat) : Qc :=
  if qltb (vget Exa i + vget res i + (vget Ega 1 - vget Ega 0) / qz 2) (vget Ega j) then 0 else mget v i j.
(* sum over the diagonal with offset d *)
Definition trace (nr nc : nat) (f : nat -> nat -> Qc) (d : Z) : Qc :=
  qsum (tab nr (fun i => let j := (Z.of_nat i + d)%Z in
    if ((0 <=? j) && (j <? Z.of_nat nc))%Z then f i (Z.to_nat j) else 0)).
Definition constraining_counts (a : arr2) (Exa Ega res : list Qc) : list Qc * list Qc :=
  let nr := a_nr a in let nc := a_nc a in
  let f := kept (a_rows a) Exa Ega res in
  (rev (map (trace nr nc f) (zrange (- (Z.of_nat nr - 1)) (Z.of_nat nc))),
   tab nc (fun j => qsum (tab nr (fun i => f i j)))).

(* --- initial values, 431-540 -------------------------------------------------------- *)
Definition x0_parabola (E : list Qc) : list Qc := map (fun e => (e - qz 4) * (e - qz 4) + qn 1 100) E.
Definition guess (E_nld : list Qc) (m : matrix) (method : option string) : result (list Qc) :=
  do e_last <- py_index E_nld (-1) ;;
  let E := if qltb (qz 100) e_last then map (fun e => e / qz 1000) E_nld else E_nld in
  do nld0 <- match method with
             | None => Ok (bsfg E)
             | Some s => if String.eqb s "BSFG-like" then Ok (bsfg E)
                         else if String.eqb s "CT-like" then Ok (map (fun _ => 1) E)
                         else if String.eqb s "parabola" then Ok (x0_parabola E)
                         else Raise NotImplementedErr
             end ;;
  do (T0, _) <- projection m (AStr "Eg") None None false ;;
  if Nat.eqb (length T0) (length (Eg m)) then Ok (T0 ++ nld0) else Raise AssertionError.

(* --- decompose, 310-429 -------------------------------------------------------------- *)
(* errfun, 387-401, with std.  A bin of the product that is nan makes chi square nan if it
   is compared (Eg <= Ex + resolution, std <> 0). *)
Definition compared (std : list (list Qc)) (Exa Ega res : list Qc) (i j : nat) : bool :=
  qleb (vget Ega j) (vget Exa i + vget res i) && negb (qeqb (mget std i j) 0).
Definition fin_or0 (x : xnum) : Qc := match x with Fin q => q | _ => 0 end.
Definition errfun (v std : list (list Qc)) (Exa Ega res E_nld : list Qc) (x : list Qc) : option Qc :=
  if existsb (fun y => qltb y 0) x then Some (qz 100000000000000000000)
  else
    let T := firstn (length Ega) x in
    let nld := skipn (length Ega) x in
    match nld_T_product (mkPin nld T res E_nld Ega Exa) with
    | None => None
    | Some fit =>
        if existsb (fun i => existsb (fun j =>
             compared std Exa Ega res i j && negb (finite (nth j (nth i fit []) NaN)))
             (seq 0 (length Ega))) (seq 0 (length Exa))
        then None
        else chisquare_diagonal v (map (map fin_or0) fit) std res Ega Exa
    end.
(* array[counts == 0] = nan: the mask must have the length of the array *)
Definition mask_nan (x counts : list Qc) : result (list xnum) :=
  if Nat.eqb (length x) (length counts)
  then Ok (map2 (fun y c => if qeqb c 0 then NaN else Fin y) x counts)
  else Raise IndexError.
Definition start_values (g : rng) (E_nld : list Qc) (m : matrix) (x0 : x0_arg) : result (list Qc * rng) :=
  let x0 := match x0 with XNone => self_x0 | _ => x0 end in
  do x <- match x0 with
          | XNone => guess E_nld m None
          | XStr s => guess E_nld m (Some s)
          | XArr l => Ok l
          end ;;
  if negb (Nat.eqb (length x) (length E_nld + length (Eg m))) then Raise AssertionError
  else if randomize
  then Ok (uniform g (map (fun y => y / qz 5) x) (map (fun y => y * qz 5) x))
  else Ok (x, g).
(* from the normalised matrix and std to the results *)
Definition fit_normalized (g : rng) (m : matrix) (std : list (list Qc)) (x0 : x0_arg)
  : result (evec * evec * rng) :=
  do E_nld <- nld_grid (Ex m) (Eg m) ;;
  do res <- the_resolution (Ex m) (Eg m) ;;
  do (x, g') <- start_values g E_nld m x0 ;;
  let sol := minimize (errfun (a_rows (values m)) std (Ex m) (Eg m) res E_nld) x in
  let T := firstn (length (Eg m)) sol in
  let nld := skipn (length (Eg m)) sol in
  let (nc, tc) := constraining_counts (values m) (Ex m) (Eg m) res in
  do T' <- mask_nan T tc ;;
  do nld' <- mask_nan nld nc ;;
  let gsf := map2 (fun t e => xdiv t (Fin (twopi * (e * e * e)))) T' (Eg m) in
  do vn <- mk_evec nld' E_nld ;;
  do vg <- mk_evec gsf (Eg m) ;;
  Ok (vn, vg, g').
(* decompose(matrix, std): the first component is the caller's matrix afterwards.
   normalize(matrix) without std misses an argument (TypeError, 358).  product=True is
   not modelled here. *)
Definition decompose (g : rng) (m : matrix) (std : option arr2) (x0 : x0_arg)
  : matrix * result (evec * evec * rng) :=
  if existsb (existsb (fun y => qltb y 0)) (a_rows (values m)) then (m, Raise ValueError)
  else match std with
  | None => (m, Raise TypeError)
  | Some s =>
      if existsb (existsb (fun y => qltb y 0)) (a_rows s) then (m, Raise ValueError)
      else if negb (pair_eqb (shape (values m)) (shape s)) then (m, Raise AssertionError)
      else match norm_rows (a_rows (values m)) (a_rows s) with
           | Raise e => (m, Raise e)
           | Ok (v, sv) =>
               let m' := with_values m (mkArr (a_nc (values m)) v) in
               (m', fit_normalized g m' sv x0)
           end
  end.

(* --- the extraction loop, 145-198 and 275-308 ---------------------------------------- *)
Inductive ekey := KNld (i : nat) | KGsf (i : nat).
Inductive efile := ETorn | EVec (v : evec).     (* a partly written file; nld_i.npy, gsf_i.npy *)
Variable fg : nat -> matrix.                     (* ensemble.get_firstgen(num) *)
Variable std_fg : matrix.                        (* ensemble.std_firstgen *)
(* self.trapezoid.act_on on a copy; the first argument is the Eg_max that has been curried
   into the action (None: as given by the user) *)
Variable trap : option Qc -> matrix -> result matrix.

(* _extract, 284-308: the state is the random generator and the curried Eg_max *)
Definition extract (i : nat) (st : rng * option Qc) : (rng * option Qc) * result (evec * evec) :=
  let (g, c) := st in
  match trap c (fg i) with
  | Raise e => (st, Raise e)
  | Ok m =>
      match (if Nat.eqb i 0 then rmap Some (py_index (Eg m) (-1)) else Ok c) with
      | Raise e => (st, Raise e)
      | Ok c' =>
          match trap c' std_fg with
          | Raise e => ((g, c'), Raise e)
          | Ok s =>
              match snd (decompose g m (Some (values s)) XNone) with
              | Raise e => ((g, c'), Raise e)
              | Ok (vn, vg, g') => ((g', c'), Ok (vn, vg))
              end
          end
      end
  end.
Definition read_vec (f : efile) : result evec :=
  match f with ETorn => Raise ValueError | EVec v => Ok v end.
Local Notation eprog := (prog ekey efile (option Qc * result (list (evec * evec)))).
Definition save_vec (k : ekey) (v : evec) (p : eprog) : eprog := PWrite k ETorn (PWrite k (EVec v) p).
(* 181-193: members in order; exists() and load are one read.  The result is the curried
   Eg_max afterwards and the list of (nld, gsf). *)
Fixpoint extract_members (regen : bool) (members : list nat) (st : rng * option Qc) (acc : list (evec * evec)) : eprog :=
  match members with
  | [] => PRet (snd st, Ok acc)
  | i :: t =>
      let compute :=
        match extract i st with
        | (st', Raise e) => PRet (snd st', Raise e)
        | (st', Ok (vn, vg)) =>
            save_vec (KNld i) vn (save_vec (KGsf i) vg (extract_members regen t st' (acc ++ [(vn, vg)])))
        end in
      PRead (KNld i) (fun a => match a with
        | None => compute
        | Some fa => PRead (KGsf i) (fun b => match b with
            | None => compute
            | Some fb =>
                if regen then compute
                else match read_vec fa, read_vec fb with
                     | Raise e, _ => PRet (snd st, Raise e)
                     | _, Raise e => PRet (snd st, Raise e)
                     | Ok vn, Ok vg => extract_members regen t st (acc ++ [(vn, vg)])
                     end
            end)
        end)
  end.
(* 145-198 standard with ensemble.size = size and the action curried with c *)
Definition standard (seed : Z) (regen : bool) (size : nat) (c : option Qc) : eprog :=
  extract_members regen (seq 0 size) (seeded seed, c) [].
End Extractor.
Definition ekey_eqb (a b : ekey) : bool :=
  match a, b with KNld i, KNld j | KGsf i, KGsf j => Nat.eqb i j | _, _ => false end.
