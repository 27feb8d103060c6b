(* What the statistics of samples are supposed to be, without the model. *)
From Coq Require Import Sorted.
From Verif Require Import Num PyBase CutSpec SampStatModel.

(* the number of entries of l not above / not below v *)
Definition n_le (l : list Qc) (v : Qc) : nat := length (filter (fun x => qleb x v) l).
Definition n_ge (l : list Qc) (v : Qc) : nat := length (filter (fun x => qleb v x) l).

(* the value a table of energies and values gives at an energy: the entry of
   the first line with that energy; None when there is none (or it is NaN) *)
Fixpoint value_at (E : list Qc) (vals : list (option Qc)) (e : Qc) : option Qc :=
  match E, vals with
  | x :: E', v :: vals' => if qeqb x e then v else value_at E' vals' e
  | _, _ => None
  end.
Definition sample_at (v : svec) (e : Qc) : option Qc := value_at (s_E v) (s_val v) e.

(* a vector as the extractor makes it: increasing energies, at least one, one
   value each *)
Definition sane (v : svec) : Prop :=
  s_E v <> [] /\ increasing (s_E v) /\ length (s_val v) = length (s_E v).

Definition first_E (v : svec) : Qc := vget (s_E v) 0.
Definition last_E (v : svec) : Qc := vget (s_E v) (length (s_E v) - 1).

(* v lives on a stretch of the energy grid G, without gaps *)
Definition on_grid (G : list Qc) (v : svec) : Prop :=
  forall e, In e (s_E v) <-> In e G /\ first_E v <= e /\ e <= last_E v.

(* all vectors start at the same energy and end at the same energy *)
Definition same_ends (df : list svec) : Prop :=
  forall v w, In v df -> In w df -> first_E v = first_E w /\ last_E v = last_E w.
