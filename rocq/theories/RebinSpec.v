(* What rebinning should mean, independent of the implementation. *)
From Verif Require Import Num.

(* bin width of an axis given by its bin centres *)
Definition width (mids : list Qc) : Qc := nth 1 mids 0 - nth 0 mids 0.
(* at least two bins, positive constant bin width *)
Definition equidistant (mids : list Qc) : Prop :=
  (2 <= length mids)%nat /\ 0 < width mids /\
  forall i, (i < length mids)%nat -> nth i mids 0 = nth 0 mids 0 + qnat i * width mids.
(* lower and upper edge of bin i *)
Definition bin_lo (mids : list Qc) (i : nat) : Qc := nth i mids 0 - width mids / qz 2.
Definition bin_hi (mids : list Qc) (i : nat) : Qc := nth i mids 0 + width mids / qz 2.
(* range covered by all bins *)
Definition axis_lo (mids : list Qc) : Qc := bin_lo mids 0.
Definition axis_hi (mids : list Qc) : Qc := bin_hi mids (length mids - 1).

(* the point of [lo,hi] nearest to x *)
Definition clamp (lo hi x : Qc) : Qc := if qltb x lo then lo else if qltb hi x then hi else x.
(* length of the part of [a,b] that lies in [lo,hi] *)
Definition part_in (lo hi a b : Qc) : Qc := clamp lo hi b - clamp lo hi a.

(* what one output bin should contain: each input bin spread evenly over its width *)
Definition rebin_spec (counts mids_in mids_out : list Qc) (i : nat) : Qc :=
  sumn (length mids_in) (fun j =>
    vget counts j * part_in (bin_lo mids_out i) (bin_hi mids_out i)
                            (bin_lo mids_in j) (bin_hi mids_in j) / width mids_in).

(* what the counts inside an arbitrary interval [lo,hi] are, reading the
   spectrum as a density that is constant on every bin *)
Definition counts_in (counts mids : list Qc) (lo hi : Qc) : Qc :=
  sumn (length mids) (fun j =>
    vget counts j * part_in lo hi (bin_lo mids j) (bin_hi mids j) / width mids).
