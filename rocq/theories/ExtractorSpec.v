(* Vocabulary for C55, C56, C76 and C77. *)
From Verif Require Import PyBase MatrixModel ArithModel ExtractorModel.

(* n bins of width d starting at a *)
Definition arith (a d : Qc) (n : nat) : list Qc := tab n (fun i => a + qnat i * d).
(* a matrix whose two axes have the same positive bin width, at least two bins each *)
Definition equal_width (m : matrix) (x0 g0 d : Qc) (nr nc : nat) : Prop :=
  Ex m = arith x0 d nr /\ Eg m = arith g0 d nc /\ rect (a_rows (values m)) nr nc /\ a_nc (values m) = nc /\
  0 < d /\ (2 <= nr)%nat /\ (2 <= nc)%nat.
(* matrix bin (i,j) is inside the limit Eg <= Ex + resolution + half a bin *)
Definition inside (m : matrix) (res : list Qc) (i j : nat) : Prop :=
  vget (Eg m) j <= vget (Ex m) i + vget res i + (vget (Eg m) 1 - vget (Eg m) 0) / qz 2.
Definition counts_nonneg (v : list (list Qc)) : Prop := forall r, In r v -> forall x, In x r -> 0 <= x.

From Verif Require Import Conc ConcProofs.
Section Runs.
Variable sqrtq : Qc -> Qc.
Variable twopi : Qc.
Variable bsfg : list Qc -> list Qc.
Variable rng : Type.
Variable seeded : Z -> rng.
Variable uniform : rng -> list Qc -> list Qc -> list Qc * rng.
Variable minimize : (list Qc -> option Qc) -> list Qc -> list Qc.
Variables (randomize extend : bool).
Variable resolution_Ex : Qc.
Variable self_x0 : x0_arg.
Variable fg : nat -> matrix.
Variable std_fg : matrix.
Variable trap : option Qc -> matrix -> result matrix.
Local Notation extract := (extract sqrtq twopi bsfg rng uniform minimize randomize extend resolution_Ex self_x0 fg std_fg trap).
Local Notation standard := (standard sqrtq twopi bsfg rng seeded uniform minimize randomize extend resolution_Ex self_x0 fg std_fg trap).

(* The results of an uninterrupted run that finds no files: the members one after the
   other, the random generator and the curried Eg_max handed on. *)
Fixpoint fresh (members : list nat) (st : rng * option Qc) : result (list (evec * evec)) :=
  match members with
  | [] => Ok []
  | i :: t => match extract i st with
              | (_, Raise e) => Raise e
              | (st', Ok p) => do l <- fresh t st' ;; Ok (p :: l)
              end
  end.
(* Directories left by any number of extractions, each stopped anywhere or finished. *)
Inductive runs (seed : Z) (c : option Qc) : dir ekey efile -> Prop :=
| R_empty d : (forall k, d k = None) -> runs seed c d
| R_run d regen size n : runs seed c d -> runs seed c (fst (moves ekey efile _ ekey_eqb n (standard seed regen size c) d)).
End Runs.
(* No pair of files of which one is truncated. *)
Definition readable (d : dir ekey efile) : Prop :=
  forall i f h, d (KNld i) = Some f -> d (KGsf i) = Some h -> f <> ETorn /\ h <> ETorn.
