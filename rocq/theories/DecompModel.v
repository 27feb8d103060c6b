(* Model of ompy/decomposition.pyx: nld_T_product (sequential and parallel loop),
   normalize, chisquare, chisquare_diagonal.  The modules are compiled with
   boundscheck(False): a read outside an array is undefined behaviour, here `None`. *)
From Verif Require Import PyBase MatrixModel ArithModel.

Section Product.
(* The type of the level density/transmission values (Qc or R): only products are formed
   before the normalisation.  Energies are rationals. *)
Variable V : Type.
Variable v0 : V.
Variable vmul : V -> V -> V.

(* arguments of nld_T_product, decomposition.pyx:17-18 *)
Record pin := mkPin { p_nld : list V; p_T : list V; p_res : list Qc; p_E : list Qc; p_Eg : list Qc; p_Ex : list Qc }.

(* decomposition.pyx:46 halfbin *)
Definition halfbin (p : pin) : option Qc :=
  match p_Eg p with a :: b :: _ => Some ((b - a) / qz 2) | _ => None end.
(* decomposition.pyx:52-54 (65-67) Eg_max of row i *)
Definition eg_max (p : pin) (i : nat) : option Qc :=
  match nth_error (p_Ex p) i, nth_error (p_res p) i, halfbin p with
  | Some x, Some r, Some h => Some (x + r + h)
  | _, _, _ => None
  end.
(* decomposition.pyx:57-58 (70-71) E_f and i_E_nld; _index reads array[0] *)
Definition e_final (p : pin) (i j : nat) : option Qc :=
  match nth_error (p_Ex p) i, nth_error (p_Eg p) j with Some x, Some g => Some (x - g) | _, _ => None end.
Definition nld_index (p : pin) (e : Qc) : option nat :=
  match p_E p with [] => None | _ => Some (index (p_E p) e) end.
(* decomposition.pyx:59 (72) the stored value *)
Definition prod_at (p : pin) (k j : nat) : option V :=
  match nth_error (p_nld p) k, nth_error (p_T p) j with Some r, Some t => Some (vmul r t) | _, _ => None end.

(* Sequential version, decomposition.pyx:63-73.  The row is the i-th row of
   firstgen_view; fuel = num_Eg - i_Eg. *)
Fixpoint row_while (p : pin) (i : nat) (emax : Qc) (fuel j : nat) (row : list V) : option (list V) :=
  match fuel with
  | O => Some row
  | S f =>
      match nth_error (p_Eg p) j with
      | None => None
      | Some g =>
          if qleb g emax then
            match e_final p i j with
            | None => None
            | Some e =>
                match nld_index p e with
                | None => None
                | Some k =>
                    match prod_at p k j with
                    | None => None
                    | Some x => row_while p i emax f (S j) (upd row j x)
                    end
                end
            end
          else Some row
      end
  end.
Definition do_row (p : pin) (i : nat) (m : list (list V)) : option (list (list V)) :=
  match eg_max p i with
  | None => None
  | Some emax =>
      match row_while p i emax (length (p_Eg p)) 0 (nth i m []) with
      | None => None
      | Some r => Some (upd m i r)
      end
  end.
Fixpoint rows_loop (p : pin) (fuel i : nat) (m : list (list V)) : option (list (list V)) :=
  match fuel with
  | O => Some m
  | S f => match do_row p i m with None => None | Some m' => rows_loop p f (S i) m' end
  end.
(* decomposition.pyx:47 *)
Definition zeros_m (p : pin) : list (list V) := repeat (repeat v0 (length (p_Eg p))) (length (p_Ex p)).
(* decomposition.pyx:46-73 everything up to the normalisation.  halfbin is computed even
   if there are no rows. *)
Definition raw_product (p : pin) : option (list (list V)) :=
  match halfbin p with None => None | Some _ => rows_loop p (length (p_Ex p)) 0 (zeros_m p) end.

(* Parallel version, decomposition.pyx:50-60: one task per value of i_Ex; Eg_max, i_Eg, E_f
   and i_E_nld are assigned in the prange body and therefore private to the task (Cython
   makes them lastprivate).  Every line of the body is one step; the tasks are interleaved
   arbitrarily (the static schedule of OpenMP allows a subset of these interleavings).
   Memory is sequentially consistent; every cell is written by one task only. *)
Inductive pc :=
| PStart                              (* before line 53 *)
| PTest (emax : Qc) (j : nat)         (* line 56, loop condition *)
| PFinal (emax : Qc) (j : nat)        (* line 57 *)
| PIndex (emax : Qc) (j : nat) (e : Qc)   (* line 58 *)
| PStore (emax : Qc) (j : nat) (k : nat)  (* line 59, then 60 *)
| PDone
| PBad.                               (* undefined behaviour reached *)
(* shared memory: the matrix; private memory: the task's pc with its locals *)
Definition step_task (p : pin) (i : nat) (m : list (list V)) (c : pc) : list (list V) * pc :=
  match c with
  | PStart => match eg_max p i with Some e => (m, PTest e 0) | None => (m, PBad) end
  | PTest emax j =>
      if (j <? length (p_Eg p))%nat then
        match nth_error (p_Eg p) j with
        | Some g => (m, if qleb g emax then PFinal emax j else PDone)
        | None => (m, PBad)
        end
      else (m, PDone)
  | PFinal emax j => match e_final p i j with Some e => (m, PIndex emax j e) | None => (m, PBad) end
  | PIndex emax j e => match nld_index p e with Some k => (m, PStore emax j k) | None => (m, PBad) end
  | PStore emax j k =>
      match prod_at p k j with
      | Some x => (upd m i (upd (nth i m []) j x), PTest emax (S j))
      | None => (m, PBad)
      end
  | PDone => (m, PDone)
  | PBad => (m, PBad)
  end.
(* one step of the whole program: task i moves (if there is such a task) *)
Definition pstate : Type := list (list V) * list pc.
Definition pstep (p : pin) (s : pstate) (i : nat) : pstate :=
  match nth_error (snd s) i with
  | None => s
  | Some c => let (m, c') := step_task p i (fst s) c in (m, upd (snd s) i c')
  end.
Definition pinit (p : pin) : pstate := (zeros_m p, repeat PStart (length (p_Ex p))).
(* an execution: the sequence of tasks that move *)
Definition prun (p : pin) (sched : list nat) : pstate := fold_left (pstep p) sched (pinit p).
Definition all_done (s : pstate) : Prop := forall c, In c (snd s) -> c = PDone.
End Product.
Arguments mkPin {V}. Arguments p_nld {V}. Arguments p_T {V}. Arguments p_res {V}.
Arguments p_E {V}. Arguments p_Eg {V}. Arguments p_Ex {V}.
Arguments halfbin {V}. Arguments eg_max {V}. Arguments e_final {V}. Arguments nld_index {V}. Arguments all_done {V}.

(* decomposition.pyx:215-221 normalize: matrix /= matrix.sum(axis=1)[:, newaxis] with
   IEEE division *)
Definition normalize_rows (m : list (list Qc)) : list (list xnum) :=
  map (fun r => map (fun x => xdiv (Fin x) (Fin (qsum r))) r) m.
(* decomposition.pyx:17-77 nld_T_product *)
Definition nld_T_product (p : pin Qc) : option (list (list xnum)) :=
  match raw_product Qc 0 Qcmult p with None => None | Some m => Some (normalize_rows m) end.

(* decomposition.pyx:171-182 chisquare_diagonal.  Matrices as lists of rows; reads outside
   are undefined.  `jloop`: the inner loop with break/continue. *)
Definition rd2 (m : list (list Qc)) (i j : nat) : option Qc :=
  match nth_error m i with None => None | Some r => nth_error r j end.
Definition chi_term (fact fit std : list (list Qc)) (i j : nat) (chi : Qc) : option Qc :=
  match rd2 std i j with
  | None => None
  | Some s =>
      if qeqb s 0 then Some chi
      else match rd2 fact i j, rd2 fit i j with
           | Some a, Some b => Some (chi + (a - b) * (a - b) / (s * s))
           | _, _ => None
           end
  end.
Fixpoint chid_j (fact fit std : list (list Qc)) (Eg : list Qc) (emax : Qc) (i fuel j : nat) (chi : Qc) : option Qc :=
  match fuel with
  | O => Some chi
  | S f =>
      match nth_error Eg j with
      | None => None
      | Some g =>
          if qltb emax g then Some chi
          else match chi_term fact fit std i j chi with
               | None => None
               | Some c => chid_j fact fit std Eg emax i f (S j) c
               end
      end
  end.
Fixpoint chid_i (fact fit std : list (list Qc)) (res Eg Ex : list Qc) (fuel i : nat) (chi : Qc) : option Qc :=
  match fuel with
  | O => Some chi
  | S f =>
      match nth_error Ex i, nth_error res i with
      | Some x, Some r =>
          match chid_j fact fit std Eg (x + r) i (length Eg) 0 chi with
          | None => None
          | Some c => chid_i fact fit std res Eg Ex f (S i) c
          end
      | _, _ => None
      end
  end.
Definition chisquare_diagonal (fact fit std : list (list Qc)) (res Eg Ex : list Qc) : option Qc :=
  chid_i fact fit std res Eg Ex (length Ex) 0 0.

(* decomposition.pyx:188-210 chisquare; nr, nc = fact.shape *)
Fixpoint chi_j (fact fit std : list (list Qc)) (i fuel j : nat) (chi : Qc) : option Qc :=
  match fuel with
  | O => Some chi
  | S f => match chi_term fact fit std i j chi with
           | None => None
           | Some c => chi_j fact fit std i f (S j) c
           end
  end.
Fixpoint chi_i (fact fit std : list (list Qc)) (nc fuel i : nat) (chi : Qc) : option Qc :=
  match fuel with
  | O => Some chi
  | S f => match chi_j fact fit std i nc 0 chi with
           | None => None
           | Some c => chi_i fact fit std nc f (S i) c
           end
  end.
Definition chisquare (nr nc : nat) (fact fit std : list (list Qc)) : option Qc := chi_i fact fit std nc nr 0 0.
