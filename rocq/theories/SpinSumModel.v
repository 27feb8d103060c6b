(* Model of ompy/normalizer_gsf.py: SpinSum and its saved result. *)
From Coq Require Import String.
From Verif Require Import PyBase RebinModel ResponseModel.
Local Notation length := List.length (only parsing).

(* normalizer_gsf.py:386-390: the residual spins.  arange is np.arange with step one. *)
Definition res_min (J L : Qc) : Qc :=
  qmin (qmin (qabs (J - qn 1 2 - L)) (qabs (J + qn 1 2 - L))) (qabs (J - qn 1 2 + L)).
Definition res_max (J L : Qc) : Qc := J + qn 1 2 + L.
Definition res_spins (J L : Qc) : list Qc := arange (res_min J L) (res_max J L + 1) 1.
(* normalizer_gsf.py:392-396: the final spins; 0 -> 0 is skipped *)
Definition final_spins (Jres : Qc) : list Qc :=
  filter (fun Jf => negb (qeqb Jres Jf && qeqb Jf 0)) (arange (qmin (qabs (Jres - 1)) Jres) (Jres + 1 + 1) 1).
(* normalizer_gsf.py:391-397: the spins whose distributions are added *)
Definition summed_spins (J L : Qc) : list Qc := flat_map final_spins (res_spins J L).

(* an excitation energy or an array of them *)
Inductive nparr := Scal (x : Qc) | Arr (l : list Qc).
(* np.all(a == b): arrays of length one and numbers are broadcast; shapes that do not fit
   compare as False *)
Definition np_all_eq (a b : nparr) : bool :=
  match a, b with
  | Scal x, Scal y => qeqb x y
  | Scal x, Arr l | Arr l, Scal x => forallb (qeqb x) l
  | Arr l, Arr m =>
      if (length l =? length m)%nat then leqb l m
      else match l, m with
           | [x], _ => forallb (qeqb x) m
           | _, [x] => forallb (qeqb x) l
           | _, _ => false
           end
  end.

Section SpinSum.
(* the parameters of the spin-cut model (the dictionary spincutPars) and their == *)
Variable pars : Type.
Variable pars_eqb : pars -> pars -> bool.
(* spin_dist(Ex, J) for one energy (normalizer_gsf.py:437-443), given the model and its
   parameters; the spin-cut model may reject its parameters *)
Variable dist : string -> pars -> Qc -> result (Qc -> Qc).

(* normalizer_gsf.py:383-397: the sum computed anew.  (J of the wrong sign: AssertionError.) *)
Definition direct (model : string) (p : pars) (Ex : nparr) (J L : Qc) : result nparr :=
  if qleb 0 J && qleb 0 L then
    match Ex with
    | Scal e => do v <- dist model p e ;; Ok (Scal (qsum (map v (summed_spins J L))))
    | Arr l => do r <- rmapm (fun e => do v <- dist model p e ;; Ok (qsum (map v (summed_spins J L)))) l ;; Ok (Arr r)
    end
  else Raise AssertionError.

(* Dictionaries and arrays are objects: places in a heap.  Two heaps, one for parameter
   dictionaries and one for energy arrays. *)
Record heap := mkHeap { h_pars : nat -> pars; h_arr : nat -> nparr }.
(* normalizer_gsf.py:110-114 and 399-403: what is saved; the parameters and the energies are
   saved by reference, the model name (a string) is immutable *)
Record saved_t := mkSaved { sv_sum : nparr; sv_model : string; sv_pars : nat; sv_Ex : nat; sv_J : Qc; sv_L : Qc }.
Record state := mkState { st_heap : heap; st_model : string; st_pars : nat; st_saved : option saved_t }.
(* normalizer_gsf.py:407-435 SpinSum_save_reload *)
Definition reload (s : state) (Ex : nat) (J L : Qc) : option nparr :=
  match st_saved s with
  | None => None
  | Some sv =>
      let h := st_heap s in
      if String.eqb (sv_model sv) (st_model s) && pars_eqb (h_pars h (sv_pars sv)) (h_pars h (st_pars s))
         && np_all_eq (h_arr h (sv_Ex sv)) (h_arr h Ex) && qeqb (sv_J sv) J && qeqb (sv_L sv) L
      then Some (sv_sum sv) else None
  end.
(* normalizer_gsf.py:350-405 SpinSum *)
Definition SpinSum (s : state) (Ex : nat) (J L : Qc) : state * result nparr :=
  match reload s Ex J L with
  | Some v => (s, Ok v)
  | None =>
      match direct (st_model s) (h_pars (st_heap s) (st_pars s)) (h_arr (st_heap s) Ex) J L with
      | Ok v => (mkState (st_heap s) (st_model s) (st_pars s) (Some (mkSaved v (st_model s) (st_pars s) Ex J L)), Ok v)
      | Raise x => (s, Raise x)
      end
  end.
(* What a user can do between two calls: assign another model name or another dictionary to
   norm_pars, or change a dictionary or an array in place. *)
Inductive op :=
| Sum (Ex : nat) (J L : Qc)
| SetModel (m : string)
| SetPars (d : nat)
| MutPars (d : nat) (p : pars)
| MutArr (a : nat) (v : nparr).
Definition upd_fn {A} (f : nat -> A) (i : nat) (x : A) : nat -> A := fun k => if (k =? i)%nat then x else f k.
Definition step (s : state) (o : op) : state * option (result nparr) :=
  match o with
  | Sum Ex J L => let (s', r) := SpinSum s Ex J L in (s', Some r)
  | SetModel m => (mkState (st_heap s) m (st_pars s) (st_saved s), None)
  | SetPars d => (mkState (st_heap s) (st_model s) d (st_saved s), None)
  | MutPars d p => (mkState (mkHeap (upd_fn (h_pars (st_heap s)) d p) (h_arr (st_heap s))) (st_model s) (st_pars s) (st_saved s), None)
  | MutArr a v => (mkState (mkHeap (h_pars (st_heap s)) (upd_fn (h_arr (st_heap s)) a v)) (st_model s) (st_pars s) (st_saved s), None)
  end.
(* run a history; the list of results of the calls *)
Fixpoint history (s : state) (ops : list op) : state * list (result nparr) :=
  match ops with
  | [] => (s, [])
  | o :: t => let (s1, r) := step s o in
              let (s2, rs) := history s1 t in
              (s2, match r with Some v => v :: rs | None => rs end)
  end.
(* the same history on an object that saves nothing *)
Definition step_direct (s : state) (o : op) : state * option (result nparr) :=
  match o with
  | Sum Ex J L => (s, Some (direct (st_model s) (h_pars (st_heap s) (st_pars s)) (h_arr (st_heap s) Ex) J L))
  | _ => step s o
  end.
Fixpoint history_direct (s : state) (ops : list op) : list (result nparr) :=
  match ops with
  | [] => []
  | o :: t => let (s1, r) := step_direct s o in
              match r with Some v => v :: history_direct s1 t | None => history_direct s1 t end
  end.
End SpinSum.
