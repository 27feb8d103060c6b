(* What the response interpolation should mean. *)
From Verif Require Import PyBase CutSpec ResponseModel.

(* a response table: at least two tabulated energies in increasing order, columns of equal
   length *)
Definition table_ok (r : resp_t) : Prop :=
  let n := length (r_Eg r) in
  (2 <= n)%nat /\ increasing (r_Eg r) /\ length (r_fwhm r) = n /\ length (r_eff r) = n /\
  length (r_FE r) = n /\ length (r_SE r) = n /\ length (r_DE r) = n /\ length (r_c511 r) = n /\
  length (r_cmp r) = n.
Definition nonneg (l : list Qc) : Prop := forall x, In x l -> 0 <= x.
(* counts are not negative *)
Definition counts_ok (r : resp_t) : Prop :=
  nonneg (r_FE r) /\ nonneg (r_SE r) /\ nonneg (r_DE r) /\ nonneg (r_c511 r) /\ forall c, In c (r_cmp r) -> nonneg c.
(* no tabulated row is empty *)
Definition rows_filled (r : resp_t) : Prop := forall i, (i < length (r_Eg r))%nat -> sum_spec r i <> 0.
Definition in_table (r : resp_t) (e : Qc) : Prop :=
  vget (r_Eg r) 0 <= e /\ e <= vget (r_Eg r) (length (r_Eg r) - 1).
(* sum of the energies weighted by the counts *)
Definition moment (counts E : list Qc) : Qc := sumn (length E) (fun k => vget counts k * vget E k).

(* a contribution that is present only if b holds *)
Definition when (b : bool) (x : Qc) : Qc := if b then x else 0.
(* an escape peak is drawn if it lies on the axis, the annihilation peak if in addition the
   full-energy peak lies above it *)
Definition has_escape (E : list Qc) (e_peak : Qc) : bool := qleb 0 e_peak && qleb (vget E 0) e_peak.
Definition has_511 (E : list Qc) (e : Qc) : bool := qltb (qz 511) e && qleb (vget E 0) (qz 511).
