(* EnsembleNormalizer, ensembleNormalizer.py 98-205: normalisation of all members of
   an ensemble with a pool of processes and, if the pool fails, one after the other.
   The loading and saving around it is the common frame of NormStateModel. *)
From Verif Require Import PyBase NormStateModel.

(* A vector of the extractor: values may be NaN (None). *)
Record evec := mkEV {
  e_E : list Qc; e_val : list (option Qc); e_std : option (list Qc); e_MeV : bool }.

(* np.delete of the positions whose value is NaN *)
Fixpoint drop_nan {A} (vals : list (option Qc)) (l : list A) : list A :=
  match vals, l with
  | Some _ :: vs, x :: l' => x :: drop_nan vs l'
  | None :: vs, _ :: l' => drop_nan vs l'
  | _, _ => []
  end.

(* vector.py 369-388 cut_nan(inplace=True): the vector after the call. *)
Definition cut_nan (v : evec) : evec :=
  mkEV (drop_nan (e_val v) (e_E v)) (drop_nan (e_val v) (e_val v))
       (option_map (drop_nan (e_val v)) (e_std v)) (e_MeV v).

(* The same vector read as one without NaN *)
Fixpoint somes (l : list (option Qc)) : list Qc :=
  match l with [] => [] | Some x :: l' => x :: somes l' | None :: l' => somes l' end.
Definition vec_of (v : evec) : vec := mkVec (e_E v) (somes (e_val v)) (e_std v) (e_MeV v).

Section Ens.
  (* S: state of the normalisers held by the ensemble normaliser; D: result of one
     member without the samples of B *)
  Variables S D : Type.
  (* normalizeStagewise 191-197 or normalizeSimultan 174-177 *)
  Variable norm : S -> vec -> vec -> S * result D.
  (* B, its uncertainty and the number of samples of A if the samples of B are drawn
     (stagewise, 199-204), None if not (simultaneous) *)
  Variable draws : D -> option (Qc * Qc * nat).
  (* standard normal deviates of the global generator np.random, by position *)
  Variable z : nat -> Qc.

  Record mres := mkMR { m_det : D; m_B : option (list Qc) }.

  (* scipynorm.rvs(loc, scale, size=N) of a process whose generator is at position p *)
  Definition sample (p : nat) (d : D) : mres * nat :=
    match draws d with
    | None => (mkMR d None, p)
    | Some (b, u, n) => (mkMR d (Some (map (fun k => b + u * z (p + k)) (seq 0 n))), (p + n)%nat)
    end.

  (* ensembleNormalizer.py 137-160 step: `nld.copy()` discards the copy and cut_nan
     works on the vectors given. New state, new vectors, new position of the
     generator and result. *)
  Definition step (s : S) (p : nat) (m : evec * evec)
    : S * (evec * evec) * nat * result mres :=
    let m' := (cut_nan (fst m), cut_nan (snd m)) in
    match norm s (vec_of (fst m')) (vec_of (snd m')) with
    | (s', Raise e) => (s', m', p, Raise e)
    | (s', Ok d) => let (r, p') := sample p d in (s', m', p', Ok r)
    end.

  (* pool.imap(self.step, ...) 118-121: every task is sent with a pickled copy of
     self and of its two vectors, so the state and the vectors of the parent stay as
     they are. Processes are forked and start at the position of the parent's
     generator. `sched` gives the process that takes each task; the results come in
     order, the first exception ends the loop. *)
  Fixpoint pool_run (s : S) (pos : nat -> nat) (sched : list nat) (ms : list (evec * evec))
    : result (list mres) :=
    match ms, sched with
    | [], _ => Ok []
    | m :: ms', w :: sched' =>
        let '(_, _, p', r) := step s (pos w) m in
        do x <- r ;;
        do xs <- pool_run s (fun v => if Nat.eqb v w then p' else pos v) sched' ms' ;;
        Ok (x :: xs)
    | _ :: _, [] => Raise RuntimeError
    end.

  (* 131-133: one after the other in the own process. State, vectors, results so far
     and outcome *)
  Fixpoint seq_run (s : S) (p : nat) (ms : list (evec * evec))
    : S * list (evec * evec) * list mres * result unit :=
    match ms with
    | [] => (s, [], [], Ok tt)
    | m :: ms' =>
        match step s p m with
        | (s', m', _, Raise e) => (s', m' :: ms', [], Raise e)
        | (s', m', p', Ok x) =>
            let '(s2, ms2, xs, r) := seq_run s' p' ms' in (s2, m' :: ms2, x :: xs, r)
        end
    end.

  (* 113-133. pool = None: the pool cannot be started. Result: state of the
     normalisers, vectors of the extractor, self.res and outcome. *)
  Definition normalize (pool : option (list nat)) (s : S) (p : nat) (ms : list (evec * evec))
    : S * list (evec * evec) * list mres * result unit :=
    match match pool with Some sched => pool_run s (fun _ => p) sched ms
          | None => Raise RuntimeError end with
    | Ok xs => (s, ms, xs, Ok tt)
    | Raise _ => seq_run s p ms
    end.
End Ens.
Arguments mkMR {D}.
Arguments m_det {D}.
Arguments m_B {D}.

Section Stagewise.
  Variables L B P O : Type.
  Variable pars_set : P -> result unit.
  Variable fit : vec -> vec -> L -> L -> B -> P -> result (Qc * Qc * O).
  Variable transform : vec -> Qc -> Qc -> vec.
  (* extrapolation from the upper end of the low model, Gg and B = Gg/Gg_before_norm
     (normalizer_gsf.py 201-206) *)
  Variable gfit : vec -> Qc -> nres O -> result Qc.

  (* normalizeStagewise 191-197: state is the normaliser of the level density and
     model_low.Emax of the normaliser of the strength function, which autorange
     (models.py 300-305) sets only once. Efit (307-319) and the range of the high
     model are treated the same way by the code and left out. *)
  Definition stage_norm (s : nst L B P O * option Qc) (nld gsf : vec)
    : (nst L B P O * option Qc) * result (nres O * Qc) :=
    match nld_compute L B P O pars_set fit transform
            (mkA L B P None None (Some nld) None None None) (fst s) with
    | (s1, Raise e) => ((s1, snd s), Raise e)
    | (s1, Ok _) =>
        match n_res L B P O s1 with
        | None => ((s1, snd s), Raise TypeError)
        | Some r =>
            let g := transform (to_MeV gsf) 1 (r_alpha O r) in
            match match snd s with
                  | Some x => Ok x
                  | None => match v_E g with x :: _ => Ok x | [] => Raise IndexError end
                  end with
            | Raise e => ((s1, snd s), Raise e)
            | Ok x => ((s1, Some x), rmap (fun b => (r, b)) (gfit g x r))
            end
        end
    end.
End Stagewise.
