(* Model of ompy/firstgeneration.py (class FirstGeneration). *)
From Verif Require Import PyBase Axis RebinModel MatrixModel VectorModel ArithModel UnfoldModel.

(* firstgeneration.py:54-72 the attributes.  multiplicity_estimation can only take the two
   values (its setter, 308-318, checks); Ex_entry_total is never read.  valley_correction
   that is not a Vector raises TypeError (not modelled: the field is typed). *)
Inductive fg_method := Statistical | TotalMult.
Record fgen := mkFG {
  g_iter : nat; g_method : fg_method;
  g_upper : Qc; g_lower : Qc; g_ratio : Qc;
  g_shift : Qc; g_entry : Qc;
  g_valley : option vector; g_slide : bool }.

(* firstgeneration.py:221-230 the threshold of a row with excitation energy ex *)
Definition slide_of (g : fgen) (ex : Qc) : Qc :=
  if g_slide g then qmin (qmax (ex * g_ratio g) (g_lower g)) (g_upper g) else g_upper g.
(* firstgeneration.py:201-243 multiplicity_statistical, one row *)
Definition mult_stat_row (g : fgen) (eg : list Qc) (ex : Qc) (row : list Qc) : Qc :=
  let vals := map2 (fun e x => if qltb e (slide_of g ex) then 0 else x) eg row in
  let mean := div0 (dot eg vals) (qsum vals) in
  let entry := qmax (qmin (ex - g_shift g) (g_entry g)) 0 in
  div0 (ex - entry) mean.
(* firstgeneration.py:245-261 multiplicity_total, one row *)
Definition mult_total_row (eg : list Qc) (ex : Qc) (row : list Qc) : Qc :=
  let mean := div0 (dot eg row) (qsum row) in
  let m := div0 ex mean in
  if qltb m 0 then 0 else m.
(* firstgeneration.py:185-199 multiplicity *)
Definition multiplicity (g : fgen) (m : matrix) : list Qc :=
  map2 (match g_method g with
        | Statistical => mult_stat_row g (Eg m)
        | TotalMult => mult_total_row (Eg m)
        end) (Ex m) (a_rows (values m)).
(* firstgeneration.py:163-183 multiplicity_normalization *)
Definition mult_norm (g : fgen) (m : matrix) : result (list (list Qc)) :=
  let mu := multiplicity g m in
  if existsb (fun x => qltb x 0) mu then Raise AssertionError
  else do (s, _) <- projection m (AInt 1) None None false ;;
       Ok (map2 (fun si mi => map2 (fun sj mj => div0 (si * mj) (mi * sj)) s mu) s mu).

(* firstgeneration.py:263-276 row_normalized: H[i, :j] = 1/max(1, j) for the diagonal
   elements (i, j), on an array of zeros *)
Definition set_prefix (row : list Qc) (j : nat) (c : Qc) : list Qc :=
  tab (length row) (fun k => if (k <? j)%nat then c else vget row k).
Definition row_norm_step (H : list (list Qc)) (p : nat * nat) : list (list Qc) :=
  upd H (fst p) (set_prefix (nth (fst p) H []) (snd p) (1 / qnat (Nat.max 1 (snd p)))).
Definition row_normalized (a : arr2) : list (list Qc) :=
  fold_left row_norm_step (diagonal_elements a) (map (map (fun _ => 0)) (a_rows a)).

(* firstgeneration.py:382-384 normalize_rows *)
Definition normalize_rows (W : list (list Qc)) : list (list Qc) :=
  map (fun r => map (fun x => div0 x (qsum r)) r) W.
(* firstgeneration.py:142-146 W[i, :i] = H[i, i:0:-1] on zeros (H is square) *)
Definition flip_weights (n : nat) (H : list (list Qc)) : list (list Qc) :=
  tab (length H) (fun i => tab n (fun k => if (k <? i)%nat then mget H i (i - k) else 0)).
(* firstgeneration.py:121-161 step.  There is no nan in the model, nan_to_num is the
   identity.  Returns the new H and the new weights. *)
Definition fg_weights (k : nat) (n : nat) (Hr W_old : list (list Qc)) : list (list Qc) :=
  let W := flip_weights n Hr in
  let W := if (4 <? k)%nat then zip2 (fun a b => qn 7 10 * a + qn 3 10 * b) W W_old else W in
  normalize_rows (map (map (fun x => if qltb x 0 then 0 else x)) W).
(* numpy product of a row and an array; an array of length 1 is broadcast *)
Definition bmul (r c : list Qc) : list Qc :=
  match c with [x] => map (fun y => y * x) r | _ => map2 Qcmult r c end.
Definition fg_subtract (n : nat) (N W : list (list Qc)) (vc : option (list Qc)) (v : arr2) : list (list Qc) :=
  let NW := zip2 Qcmult N W in
  let NWv := match vc with None => NW | Some c => map (fun r => bmul r c) NW end in
  zip2 Qcminus (a_rows v) (a_rows (matprod (mkArr n NWv) v)).
Definition fg_step (k : nat) (H W_old N : list (list Qc)) (m : matrix) (vc : option (list Qc))
  : result (list (list Qc) * list (list Qc)) :=
  do Hr <- rebin_2D (a_nc (values m)) H (Eg m) (Ex m) 1 ;;
  let n := length (Ex m) in
  let W := fg_weights k n Hr W_old in
  Ok (fg_subtract n N W vc (values m), W).
(* firstgeneration.py:95-102 the loop; np.max of an empty array raises ValueError *)
Fixpoint fg_loop (fuel k : nat) (H W N : list (list Qc)) (m : matrix) (vc : option (list Qc))
  : result (list (list Qc) * list (list Qc)) :=
  match fuel with
  | O => Ok (H, W)
  | S f => do (H', W') <- fg_step k H W N m vc ;;
           if (Nat.eqb (a_nr (values m)) 0 || Nat.eqb (a_nc (values m)) 0)%bool then Raise ValueError
           else fg_loop f (S k) H' W' N m vc
  end.

(* firstgeneration.py:278-306 cut_valley_correction.  The copy made in line 299 is thrown
   away, so the vector of the object itself is cut.  Returns the object afterwards. *)
Definition set_valley (g : fgen) (v : vector) : fgen :=
  mkFG (g_iter g) (g_method g) (g_upper g) (g_lower g) (g_ratio g) (g_shift g) (g_entry g) (Some v) (g_slide g).
Definition cut_valley (g : fgen) (m : matrix) : fgen * result (option (list Qc)) :=
  match g_valley g with
  | None => (g, Ok None)
  | Some v =>
      match (do lo <- py_min (Ex m) ;; do hi <- py_max (Ex m) ;; v_cut v (Some lo) (Some hi)) with
      | Raise e => (g, Raise e)
      | Ok v' =>
          (set_valley g v',
           do c <- bcast_allclose (v_E v') (Ex m) ;;
           if negb c then Raise AssertionError
           else if existsb (fun x => qltb x 0) (v_values v') then Raise ValueError
           else Ok (Some (v_values v')))
      end
  end.
(* firstgeneration.py:77-109 apply, on the matrix after the action (lines 86-87) *)
Definition fg_core (g : fgen) (m : matrix) (vc : option (list Qc)) : result matrix :=
  let H := row_normalized (values m) in
  do N <- mult_norm g m ;;
  do (Hf, _) <- fg_loop (g_iter g) 0 H H N m vc ;;
  do f <- mk_matrix (mkArr (a_nc (values m)) Hf) (Some (Eg m)) (Some (Ex m)) None (SState FIRST_GENERATION) ;;
  Ok (remove_negative f).
Definition fg_apply_acted (g : fgen) (m : matrix) : fgen * result matrix :=
  if existsb (fun x => qltb x 0) (Ex m) then (g, Raise ValueError)
  else if negative_entry (values m) then (g, Raise ValueError)
  else let (g', r) := cut_valley g m in
       (g', do vc <- r ;; fg_core g m vc).
(* with the action: any change of a copy of the matrix that may fail *)
Definition fg_apply (act : matrix -> result matrix) (g : fgen) (unfolded : matrix) : fgen * result matrix :=
  match act unfolded with
  | Raise e => (g, Raise e)
  | Ok m => fg_apply_acted g m
  end.

(* firstgeneration.py:322-368 allgen_from_primary.  w[i, :i+1] = fg[i, i::-1]: the slice
   starts at min(i, ncols-1). *)
Definition ag_weights (a : arr2) : list (list Qc) :=
  normalize_rows (map (fun p => let '(i, r) := p in
    tab (a_nc a) (fun k => if (k <=? i)%nat then vget r (Nat.min i (a_nc a - 1) - k) else 0))
    (combine (seq 0 (a_nr a)) (a_rows a))).
(* the inner loop over j for row i: cur is ag[i, :] so far; ag holds the rows 0..i-1, the
   rows above i are still zero.  w[i, j] and xs[j] may be out of range. *)
Fixpoint ag_inner (i : nat) (xi : Qc) (wi : list Qc) (xs : list Qc) (nc : nat) (ag : list (list Qc)) (js : list nat) (cur : list Qc)
  : result (list Qc) :=
  match js with
  | [] => Ok cur
  | j :: t =>
      if negb (j <? length wi)%nat then Raise IndexError
      else if negb (j <? length xs)%nat then Raise IndexError
      else
      let agj := if (j <? i)%nat then nth j ag [] else if Nat.eqb j i then cur else map (fun _ => 0) (seq 0 nc) in
      ag_inner i xi wi xs nc ag t (map2 (fun c x => c + xi * vget wi j * div0 x (vget xs j)) cur agj)
  end.
Fixpoint ag_outer (n nc : nat) (W : list (list Qc)) (xs : list Qc) (i : nat) (rows : list (list Qc)) (ag : list (list Qc))
  : result (list (list Qc)) :=
  match rows with
  | [] => Ok ag
  | r :: t =>
      if negb (i <? length xs)%nat then Raise IndexError
      else
      let xi := vget xs i in
      let base := map (fun x => div0 x (qsum r) * xi) r in
      do row <- (if Nat.eqb i 0 then Ok base else ag_inner i xi (nth i W []) xs nc ag (seq 0 n) base) ;;
      ag_outer n nc W xs (S i) t (ag ++ [row])
  end.
Definition allgen (fg : matrix) (xs : option (list Qc)) : result matrix :=
  let v := values fg in
  let x := match xs with Some x => x | None => map qsum (a_rows v) end in
  do ag <- ag_outer (length (Ex fg)) (a_nc v) (ag_weights v) x 0 (a_rows v) [] ;;
  Ok (with_values fg (mkArr (a_nc v) ag)).
(* the object after a sequence of calls (exceptions included) *)
Definition fg_calls (act : matrix -> result matrix) (g : fgen) (us : list matrix) : fgen :=
  fold_left (fun g u => fst (fg_apply act g u)) us g.
