(* Programs that read and write files, run alone or interleaved, possibly stopped at any
   point.  Used for the multiprocessing parts of ompy (ensemble.py, ensembleNormalizer.py,
   extractor.py). *)
From Verif Require Import PyBase.

Section Conc.
Variables (K F R : Type).           (* file names, file contents, results *)
Variable keqb : K -> K -> bool.

(* A program is a tree of file operations ending with a result. *)
Inductive prog :=
| PRet (r : R)
| PRead (k : K) (c : option F -> prog)   (* None: no such file *)
| PWrite (k : K) (f : F) (c : prog).
Definition dir : Type := K -> option F.
Definition dset (d : dir) (k : K) (f : F) : dir := fun k' => if keqb k' k then Some f else d k'.

(* alone, to the end *)
Fixpoint run (p : prog) (d : dir) : dir * R :=
  match p with
  | PRet r => (d, r)
  | PRead k c => run (c (d k)) d
  | PWrite k f c => run c (dset d k f)
  end.
(* one operation *)
Definition move (p : prog) (d : dir) : dir * prog :=
  match p with
  | PRet r => (d, PRet r)
  | PRead k c => (d, c (d k))
  | PWrite k f c => (dset d k f, c)
  end.
(* several programs over one directory; a schedule is the sequence of the programs' turns *)
Definition sys : Type := dir * list prog.
Definition sstep (s : sys) (i : nat) : sys :=
  match nth_error (snd s) i with
  | None => s
  | Some p => let (d, p') := move p (fst s) in (d, upd (snd s) i p')
  end.
Definition srun (sched : list nat) (s : sys) : sys := fold_left sstep sched s.
Definition finished (s : sys) (rs : list R) : Prop := snd s = map PRet rs.
(* one after the other *)
Fixpoint run_all (ps : list prog) (d : dir) : dir * list R :=
  match ps with
  | [] => (d, [])
  | p :: t => let (d1, r) := run p d in let (d2, rs) := run_all t d1 in (d2, r :: rs)
  end.
End Conc.
Arguments PRet {K F R}. Arguments PRead {K F R}. Arguments PWrite {K F R}.
Arguments run {K F R}. Arguments move {K F R}. Arguments sstep {K F R}. Arguments srun {K F R}.
Arguments finished {K F R}. Arguments run_all {K F R}. Arguments dset {K F}.
