(* Vocabulary for C46-C49. *)
From Verif Require Import PyBase CutSpec DecompModel.

(* arrays of matching sizes, at least two gamma-energy bins, a non-empty nld grid *)
Definition pin_ok {V} (p : pin V) : Prop :=
  (2 <= length (p_Eg p))%nat /\ p_E p <> [] /\ length (p_nld p) = length (p_E p) /\
  length (p_T p) = length (p_Eg p) /\ length (p_res p) = length (p_Ex p).
(* distance of the first two gamma-energy bins, halved *)
Definition half_width {V} (p : pin V) : Qc := (vget (p_Eg p) 1 - vget (p_Eg p) 0) / qz 2.
(* bin (i,j) is filled by the product: Eg <= Ex + resolution + half a bin *)
Definition allowed {V} (p : pin V) (i j : nat) : Prop :=
  vget (p_Eg p) j <= vget (p_Ex p) i + vget (p_res p) i + half_width p.
Definition nonneg_list (l : list Qc) : Prop := forall x, In x l -> 0 <= x.
(* bin (i,j) is compared by chisquare_diagonal: Eg <= Ex + resolution *)
Definition below (res Eg Ex : list Qc) (i j : nat) : bool := qleb (vget Eg j) (vget Ex i + vget res i).
(* contribution of a bin: zero-uncertainty bins do not count *)
Definition chi2_bin (fact fit std : list (list Qc)) (i j : nat) : Qc :=
  if qeqb (mget std i j) 0 then 0
  else (mget fact i j - mget fit i j) * (mget fact i j - mget fit i j) / (mget std i j * mget std i j).
