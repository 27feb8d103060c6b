(* Model of ompy/ensemble.py (class Ensemble): generate, step, generate_perturbed,
   subtract_bg, unfold, first_generation, load_matrix, load. *)
From Coq Require Import String.
From Verif Require Import PyBase Axis MatrixModel ArithModel Conc.
Local Open Scope list_scope.
Local Open Scope nat_scope.
Local Notation length := List.length (only parsing).

(* File names in the ensemble directory: {state}_{step}.npy (ensemble.py:294, 319, 341,
   362) and the five files of the whole ensemble (206, 208, 213, 218, 223). *)
Inductive kind := KRaw | KPrompt | KBg | KUnf | KFg.
Inductive topfile := TRaw | TFirstgen | TStdRaw | TStdUnf | TStdFg.
Inductive key := Member (k : kind) (step : nat) | Top (t : topfile).
Definition kind_eqb (a b : kind) : bool :=
  match a, b with KRaw, KRaw | KPrompt, KPrompt | KBg, KBg | KUnf, KUnf | KFg, KFg => true | _, _ => false end.
Definition top_eqb (a b : topfile) : bool :=
  match a, b with TRaw, TRaw | TFirstgen, TFirstgen | TStdRaw, TStdRaw | TStdUnf, TStdUnf | TStdFg, TStdFg => true | _, _ => false end.
Definition key_eqb (a b : key) : bool :=
  match a, b with
  | Member k i, Member l j => kind_eqb k l && Nat.eqb i j
  | Top s, Top t => top_eqb s t
  | _, _ => false
  end.
(* A .npy file: complete, holding a matrix (values, Eg, Ex; filehandling.py:247-259), or
   truncated because the writer was stopped. *)
Inductive file := FTorn | FMat (m : matrix).
Notation fprog A := (prog key file (result A)).
Notation fdir := (dir key file).

(* sequencing: an exception ends the program *)
Fixpoint pbind {A B} (p : fprog A) (f : A -> fprog B) : fprog B :=
  match p with
  | PRet (Ok a) => f a
  | PRet (Raise e) => PRet (Raise e)
  | PRead k c => PRead k (fun o => pbind (c o) f)
  | PWrite k g c => PWrite k g (pbind c f)
  end.
Definition pret {A} (r : result A) : fprog A := PRet r.

(* what a .npy file keeps of a matrix *)
Definition strip (m : matrix) : matrix := mkM (values m) (Eg m) (Ex m) None None.
(* matrix.py:211-244 save, filehandling.py:247-252 save_numpy_2D: the array
   (len(Ex)+1) x (len(Eg)+1) is assembled (ValueError when the values do not fit; numpy's
   broadcasting of single rows and columns is not modelled), the file is opened
   (truncated) and then filled. *)
Definition fits (m : matrix) : bool := pair_eqb (shape (values m)) (length (Ex m), length (Eg m)).
Definition save (k : key) (m : matrix) : fprog unit :=
  if fits m then PWrite k FTorn (PWrite k (FMat (strip m)) (pret (Ok tt))) else pret (Raise ValueError).
(* matrix.py:81-138, 179-209 Matrix(path=...): a truncated file cannot be read; the
   arrays are checked by verify_integrity *)
Definition read_file (f : file) : result matrix :=
  match f with
  | FTorn => Raise ValueError
  | FMat m => mk_matrix (values m) (Some (Eg m)) (Some (Ex m)) None SNone
  end.
Definition load_file (k : key) : fprog matrix :=
  PRead k (fun o => pret match o with Some f => read_file f | None => Raise OSErr end).

Inductive method := MGaussian | MPoisson | MUnknown.

(* ensemble.py:248 self.bg is not None *)
Definition has_bg (b : option matrix) : bool := match b with Some _ => true | None => false end.

Section Ensemble.
(* numpy's random generators.  rng_of seed i: the generator made from child i of
   SeedSequence(seed).spawn(number) (ensemble.py:194-196, 247); the child does not depend
   on number.  normal, poisson: the drawn array and the generator afterwards (the scale of
   normal is a function of the loc argument). *)
Variable rng : Type.
Variable rng_of : Z -> nat -> rng.
Variable normal : rng -> arr2 -> (nat -> nat -> Qc) * rng.
Variable poisson : rng -> arr2 -> (nat -> nat -> nat) * rng.
(* np.sqrt *)
Variable sqrtq : Qc -> Qc.
(* attributes of the Ensemble object *)
Variable raw0 : matrix.
Variable bg0 : option matrix.
Variable bg_ratio : Qc.
(* the actions and the user's unfolder and first-generation method: functions of the
   matrix (each task works on its own pickled copy of the object) *)
Variables act_prompt act_bg act_raw act_unf act_fg : matrix -> result matrix.
Variables unfolder fg_method : matrix -> result matrix.

(* ensemble.py:554-573 matrix_from_state; prompt_w_bg is raw (line 96).  bg is only asked
   for when it is set. *)
Definition matrix_of (k : kind) : matrix :=
  match k with KBg => match bg0 with Some b => b | None => raw0 end | _ => raw0 end.
Definition action_of (k : kind) : matrix -> result matrix :=
  match k with KPrompt => act_prompt | KBg => act_bg | _ => act_raw end.
Definition state_name (k : kind) : string :=
  match k with KPrompt => "prompt+bg" | KBg => "bg" | _ => "raw" end.

(* ensemble.py:423-441 generate_gaussian: negative draws are set to 0 *)
Definition gaussian (m : matrix) (g : rng) : arr2 * rng :=
  let (dr, g') := normal g (values m) in
  (mkArr (a_nc (values m))
     (tab (a_nr (values m)) (fun i => tab (a_nc (values m)) (fun j => if qltb (dr i j) 0 then 0%Qc else dr i j))), g').
(* ensemble.py:443-459 generate_poisson *)
Definition poissonian (m : matrix) (g : rng) : arr2 * rng :=
  let lam := amap (fun x => if qltb 0 x then x else 0%Qc) (values m) in
  let (dr, g') := poisson g lam in
  (mkArr (a_nc (values m)) (tab (a_nr (values m)) (fun i => tab (a_nc (values m)) (fun j => qnat (dr i j)))), g').

(* ensemble.py:461-471 load_matrix: None when there is no file or it is to be regenerated *)
Definition cached (regen : bool) (k : key) (make : fprog matrix) : fprog matrix :=
  if regen then make
  else PRead k (fun o => match o with Some f => pret (read_file f) | None => make end).
Definition made (k : key) (r : result matrix) : fprog matrix :=
  pbind (pret r) (fun m => pbind (save k m) (fun _ => pret (Ok m))).

(* ensemble.py:271-305 generate_perturbed.  The generator only advances when the matrix is
   drawn; the file is written before the action. *)
Definition draw (meth : method) (k : kind) (g : rng) : result (matrix * rng) :=
  let base := matrix_of k in
  do (v, g') <- match meth with
                | MGaussian => Ok (gaussian base g)
                | MPoisson => Ok (poissonian base g)
                | MUnknown => Raise ValueError
                end ;;
  do m <- mk_matrix v (Some (Eg base)) (Some (Ex base)) None (SStr (state_name k)) ;;
  Ok (m, g').
Definition perturbed (meth : method) (regen : bool) (step : nat) (k : kind) (g : rng) : fprog (matrix * rng) :=
  let fresh := pbind (pret (draw meth k g)) (fun mg => pbind (save (Member k step) (fst mg)) (fun _ => pret (Ok mg))) in
  let got := if regen then fresh
             else PRead (Member k step) (fun o => match o with
                    | Some f => pret (rmap (fun m => (m, g)) (read_file f))
                    | None => fresh end) in
  pbind got (fun mg => pret (rmap (fun m => (m, snd mg)) (action_of k (fst mg)))).

(* ensemble.py:307-328 subtract_bg.  matrix - bg_ratio*bg copies the left matrix (with std
   and state); has_equal_binning raises ValueError; then remove_negative. *)
Definition subtracted (m b : matrix) : result matrix :=
  do _ <- m_equal_binning m b ;;
  Ok (remove_negative (with_values m
    (mkArr (a_nc (values m)) (zip2 (fun x y => (x - bg_ratio * y)%Qc) (a_rows (values m)) (a_rows (values b)))))).
Definition subtract_bg (regen : bool) (step : nat) (m b : matrix) : fprog matrix :=
  pbind (cached regen (Member KRaw step) (made (Member KRaw step) (subtracted m b))) (fun r => pret (act_raw r)).
(* ensemble.py:330-349 unfold *)
Definition unfold (regen : bool) (step : nat) (m : matrix) : fprog matrix :=
  pbind (cached regen (Member KUnf step) (made (Member KUnf step) (unfolder m))) (fun r => pret (act_unf r)).
(* ensemble.py:351-370 first_generation *)
Definition first_generation (regen : bool) (step : nat) (m : matrix) : fprog matrix :=
  pbind (cached regen (Member KFg step) (made (Member KFg step) (fg_method m))) (fun r => pret (act_fg r)).

(* ensemble.py:233-269 step *)
Local Notation triple := (arr2 * arr2 * arr2)%type.
Definition raw_step (seed : Z) (meth : method) (regen : bool) (step : nat) : fprog matrix :=
  let g := rng_of seed step in
  if has_bg bg0
  then pbind (perturbed meth regen step KPrompt g) (fun pg =>
       pbind (perturbed meth regen step KBg (snd pg)) (fun bg =>
       subtract_bg regen step (fst pg) (fst bg)))
  else pbind (perturbed meth regen step KRaw g) (fun rg => pret (Ok (fst rg))).
Definition shapes_agree (r u f : matrix) : bool :=
  pair_eqb (shape (values r)) (shape (values u)) && pair_eqb (shape (values r)) (shape (values f)).
Definition ens_step (seed : Z) (meth : method) (regen : bool) (step : nat) : fprog triple :=
  pbind (raw_step seed meth regen step) (fun r =>
  pbind (unfold regen step r) (fun u =>
  pbind (first_generation regen step u) (fun f =>
  pbind (if Nat.eqb step 0 then save (Top TFirstgen) f else pret (Ok tt)) (fun _ =>
  pret (if shapes_agree r u f then Ok (values r, values u, values f) else Raise AssertionError))))).

(* ensemble.py:192-197: the tasks of the pool *)
Definition tasks (seed : Z) (meth : method) (regen : bool) (number : nat) : list (fprog triple) :=
  map (ens_step seed meth regen) (seq 0 number).

(* ensemble.py:197 np.array(list(...)), 202-204: the first exception in task order is
   raised; no members or members of different shape cannot be indexed [:, k, :, :] (the
   exception depends on the numpy version). *)
Fixpoint collect {A} (rs : list (result A)) : result (list A) :=
  match rs with
  | [] => Ok []
  | r :: t => do x <- r ;; do l <- collect t ;; Ok (x :: l)
  end.
Definition stack (ts : list triple) : result (list arr2 * list arr2 * list arr2) :=
  match ts with
  | [] => Raise IndexError
  | (a0, _, _) :: _ =>
      if forallb (fun t => pair_eqb (shape (fst (fst t))) (shape a0)) ts
      then Ok (map (fun t => fst (fst t)) ts, map (fun t => snd (fst t)) ts, map snd ts)
      else Raise IndexError
  end.
(* np.std(axis=0): root of the mean squared deviation, entry by entry *)
Definition mean (l : list Qc) : Qc := (qsum l / qnat (length l))%Qc.
Definition variance (l : list Qc) : Qc := mean (map (fun x => (x - mean l) * (x - mean l))%Qc l).
Definition ens_std (l : list arr2) : arr2 :=
  match l with
  | [] => mkArr 0 []
  | a :: _ => mkArr (a_nc a) (tab (a_nr a) (fun i => tab (a_nc a) (fun j => sqrtq (variance (map (fun x => aget x i j) l)))))
  end.

Record ensemble := mkEns {
  e_raws : list arr2; e_unfs : list arr2; e_fgs : list arr2;
  e_firstgen : matrix; e_std_raw : matrix; e_std_unf : matrix; e_std_fg : matrix }.
(* ensemble.py:202-231 the main process, after the pool *)
Definition finish (rs : list (result triple)) : fprog ensemble :=
  pbind (pret (collect rs)) (fun ts =>
  pbind (pret (stack ts)) (fun ens => let '(rws, us, fs) := ens in
  pbind (save (Top TRaw) raw0) (fun _ =>
  pbind (load_file (Top TFirstgen)) (fun fg =>
  pbind (pret (mk_matrix (ens_std rws) (Some (Eg raw0)) (Some (Ex raw0)) None (SStr "std"))) (fun sr =>
  pbind (save (Top TStdRaw) sr) (fun _ =>
  pbind (pret (mk_matrix (ens_std us) (Some (Eg raw0)) (Some (Ex raw0)) None (SStr "std"))) (fun su =>
  pbind (save (Top TStdUnf) su) (fun _ =>
  pbind (pret (mk_matrix (ens_std fs) (Some (Eg fg)) (Some (Ex fg)) None (SStr "std"))) (fun sf =>
  pbind (save (Top TStdFg) sf) (fun _ =>
  pret (Ok (mkEns rws us fs fg sr su sf)))))))))))).

(* ensemble.py:167-231 generate, for one schedule of the pool; the pool phase is complete
   when every task has returned *)
Definition pool (seed : Z) (meth : method) (regen : bool) (number : nat) (sched : list nat) (d : fdir)
  : sys key file (result triple) := srun key_eqb sched (d, tasks seed meth regen number).
Definition generates (seed : Z) (meth : method) (regen : bool) (number : nat) (sched : list nat) (d : fdir)
  (out : fdir * result ensemble) : Prop :=
  exists rs, finished (pool seed meth regen number sched d) rs /\
    out = run key_eqb (finish rs) (fst (pool seed meth regen number sched d)).
End Ensemble.

(* ensemble.py:126-165 load.  raws, unfs, fgs: the member numbers in the order in which
   glob lists the three kinds of member files ('raw_[0-9]*.*' does not match raw_std.npy
   nor prompt+bg_0.npy).  Assigning a matrix of another shape than raw.npy's raises
   ValueError. *)
Record loaded := mkLd {
  l_raw : matrix; l_firstgen : matrix; l_size : nat;
  l_raws : list arr2; l_unfs : list arr2; l_fgs : list arr2;
  l_std_raw : matrix; l_std_unf : matrix; l_std_fg : matrix }.
Fixpoint load_members (sh : nat * nat) (k : kind) (l : list nat) : fprog (list arr2) :=
  match l with
  | [] => pret (Ok [])
  | i :: t =>
      pbind (load_file (Member k i)) (fun m =>
      pbind (pret (if pair_eqb (shape (values m)) sh then Ok tt else Raise ValueError)) (fun _ =>
      pbind (load_members sh k t) (fun r => pret (Ok (values m :: r)))))
  end.
Definition ens_load (raws unfs fgs : list nat) : fprog loaded :=
  pbind (load_file (Top TRaw)) (fun rw =>
  pbind (load_file (Top TFirstgen)) (fun fg =>
  pbind (pret (if Nat.eqb (length raws) (length unfs) && Nat.eqb (length unfs) (length fgs)
               then Ok tt else Raise AssertionError)) (fun _ =>
  pbind (pret (if Nat.ltb 0 (length raws) then Ok tt else Raise AssertionError)) (fun _ =>
  let sh := shape (values rw) in
  pbind (load_members sh KRaw raws) (fun r =>
  pbind (load_members sh KUnf unfs) (fun u =>
  pbind (load_members sh KFg fgs) (fun f =>
  pbind (load_file (Top TStdRaw)) (fun sr =>
  pbind (load_file (Top TStdUnf)) (fun su =>
  pbind (load_file (Top TStdFg)) (fun sf =>
  pret (Ok (mkLd rw fg (length raws) r u f sr su sf)))))))))))).
