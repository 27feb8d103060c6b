(* C01-C06: rebinning.  The specification vocabulary (equidistant, axis_lo, rebin_spec, ...)
   is in RebinSpec.v; consistent and total are in MatrixSpec.v. *)
From Verif Require Import PyBase Axis RebinModel RebinSpec RebinProofs Rebin2DProofs RebinFactorProofs
  MatrixModel MatrixSpec MatrixRebinProofs.

(* C01: counts are conserved when the new bins cover the old ones. *)
Theorem rebin_conserves_counts : forall counts mids_in mids_out out,
  equidistant mids_in -> equidistant mids_out -> length counts = length mids_in ->
  axis_lo mids_out <= axis_lo mids_in -> axis_hi mids_in <= axis_hi mids_out ->
  rebin_1D counts mids_in mids_out = Ok out ->
  qsum out = qsum counts.
Proof. exact rebin_conserves_lemma. Qed.
Print Assumptions rebin_conserves_counts.

(* C01, any range: the new total is the part of the spectrum inside the new range. *)
Theorem rebin_total_is_counts_in_range : forall counts mids_in mids_out out,
  equidistant mids_in -> equidistant mids_out -> length counts = length mids_in ->
  rebin_1D counts mids_in mids_out = Ok out ->
  qsum out = counts_in counts mids_in (axis_lo mids_out) (axis_hi mids_out).
Proof. exact rebin_total_lemma. Qed.
Print Assumptions rebin_total_is_counts_in_range.

(* C01 for a matrix, either axis. *)
Theorem matrix_rebin_conserves_counts : forall m ax mids m',
  consistent m -> std m = None -> to_plot_axis ax <> Ok AxBoth ->
  let old := match to_plot_axis ax with Ok AxEg => Eg m | _ => Ex m end in
  equidistant old -> equidistant mids ->
  axis_lo mids <= axis_lo old -> axis_hi old <= axis_hi mids ->
  rebin_inplace m ax (Some mids) None = (m', Ok tt) ->
  total m' = total m.
Proof. exact rebin_total_conserved. Qed.
Print Assumptions matrix_rebin_conserves_counts.

(* C02: the windowed loop computes the sum over all input bins; no exception. *)
Theorem rebin_is_full_overlap_sum : forall counts mids_in mids_out,
  equidistant mids_in -> equidistant mids_out -> length counts = length mids_in ->
  exists out, rebin_1D counts mids_in mids_out = Ok out /\ length out = length mids_out /\
    forall i, (i < length mids_out)%nat -> vget out i = rebin_spec counts mids_in mids_out i.
Proof. exact rebin_full_sum_lemma. Qed.
Print Assumptions rebin_is_full_overlap_sum.

(* C03 *)
Theorem rebin_never_creates_counts : forall counts mids_in mids_out out,
  equidistant mids_in -> equidistant mids_out -> length counts = length mids_in ->
  (forall x, In x counts -> 0 <= x) ->
  rebin_1D counts mids_in mids_out = Ok out ->
  (forall x, In x out -> 0 <= x) /\ qsum out <= qsum counts.
Proof. exact rebin_nonneg_lemma. Qed.
Print Assumptions rebin_never_creates_counts.

(* C04 *)
Theorem rebin_same_binning_is_identity : forall counts mids,
  equidistant mids -> length counts = length mids -> rebin_1D counts mids mids = Ok counts.
Proof. exact rebin_identity_lemma. Qed.
Print Assumptions rebin_same_binning_is_identity.

Theorem rebin_is_linear : forall a b u v mids_in mids_out out_u out_v,
  equidistant mids_in -> equidistant mids_out ->
  length u = length mids_in -> length v = length mids_in ->
  rebin_1D u mids_in mids_out = Ok out_u -> rebin_1D v mids_in mids_out = Ok out_v ->
  rebin_1D (map (fun p => a * fst p + b * snd p) (combine u v)) mids_in mids_out
  = Ok (map (fun p => a * fst p + b * snd p) (combine out_u out_v)).
Proof. exact rebin_linear_lemma. Qed.
Print Assumptions rebin_is_linear.

(* C05: the full statement (all positive factors) fails, see below.  It holds whenever the
   number of bins does not grow and at least two bins remain, in particular for all f >= 1. *)
Theorem rebin_factor_conserves_partial : forall counts old f mids out,
  equidistant old -> length counts = length old -> 0 < f ->
  let n := Z.to_nat (qtrunc (qnat (length old) / f)) in
  (2 <= n)%nat -> (n <= length old)%nat ->
  factor_mids old f = Ok mids -> rebin_1D counts old mids = Ok out ->
  length out = n /\
  nth 0 mids 0 = nth 0 old 0 /\ nth (length mids - 1) mids 0 = nth (length old - 1) old 0 /\
  qsum out = qsum counts.
Proof. exact rebin_factor_conserves_lemma. Qed.
Print Assumptions rebin_factor_conserves_partial.

Theorem rebin_factor_ge_1_never_adds_bins : forall (old : list Qc) f, 0 < f -> 1 <= f ->
  (Z.to_nat (qtrunc (qnat (length old) / f)) <= length old)%nat.
Proof. exact factor_ge_1. Qed.
Print Assumptions rebin_factor_ge_1_never_adds_bins.

(* C05: when the number of bins grows, counts are lost, for every non-negative spectrum
   with counts in its first bin. *)
Theorem rebin_factor_growing_bins_loses_counts : forall counts old f mids out,
  equidistant old -> length counts = length old -> 0 < f ->
  (length old < Z.to_nat (qtrunc (qnat (length old) / f)))%nat ->
  (forall x, In x counts -> 0 <= x) -> 0 < vget counts 0 ->
  factor_mids old f = Ok mids -> rebin_1D counts old mids = Ok out ->
  qsum out < qsum counts.
Proof. exact rebin_factor_loses_lemma. Qed.
Print Assumptions rebin_factor_growing_bins_loses_counts.

Theorem rebin_factor_conserves_refuted : exists counts old f mids out,
  equidistant old /\ length counts = length old /\ 0 < f /\
  factor_mids old f = Ok mids /\ rebin_1D counts old mids = Ok out /\ qsum out <> qsum counts.
Proof.
  exists (ql [1; 2; 3]%Z), (ql [0; 1; 2]%Z), (qn 1 2). do 2 eexists.
  split; [split; [apply Nat.leb_le; reflexivity|split; [reflexivity|]]|].
  { intros [|[|[|i]]] Hi; [apply qeqb_eq; reflexivity..|cbn in Hi; lia]. }
  split; [reflexivity|]. split; [reflexivity|].
  split; [vm_compute; reflexivity|]. split; [vm_compute; reflexivity|].
  apply qeqb_neq. vm_compute. reflexivity.
Qed.
Print Assumptions rebin_factor_conserves_refuted.

(* C06 *)
Theorem rebin_Eg_rowwise : forall m ax mids,
  consistent m -> std m = None -> to_plot_axis ax = Ok AxEg ->
  equidistant (Eg m) -> equidistant mids ->
  exists m', rebin_inplace m ax (Some mids) None = (m', Ok tt) /\
    consistent m' /\ Eg m' = mids /\ Ex m' = Ex m /\ state m' = state m /\
    forall i, (i < length (Ex m))%nat ->
      rebin_1D (nth i (a_rows (values m)) []) (Eg m) mids = Ok (nth i (a_rows (values m')) []).
Proof. exact rebin_Eg_lemma. Qed.
Print Assumptions rebin_Eg_rowwise.

Theorem rebin_Ex_columnwise : forall m ax mids,
  consistent m -> std m = None -> to_plot_axis ax = Ok AxEx ->
  equidistant (Ex m) -> equidistant mids ->
  exists m', rebin_inplace m ax (Some mids) None = (m', Ok tt) /\
    consistent m' /\ Ex m' = mids /\ Eg m' = Eg m /\ state m' = state m /\
    forall j, (j < length (Eg m))%nat ->
      rebin_1D (col (a_rows (values m)) j) (Ex m) mids = Ok (col (a_rows (values m')) j).
Proof. exact rebin_Ex_lemma. Qed.
Print Assumptions rebin_Ex_columnwise.

Theorem rebin_axis_order_irrelevant : forall m eg ex ma mab mb mba,
  consistent m -> std m = None ->
  equidistant (Eg m) -> equidistant (Ex m) -> equidistant eg -> equidistant ex ->
  rebin_inplace m (AInt 0) (Some eg) None = (ma, Ok tt) ->
  rebin_inplace ma (AInt 1) (Some ex) None = (mab, Ok tt) ->
  rebin_inplace m (AInt 1) (Some ex) None = (mb, Ok tt) ->
  rebin_inplace mb (AInt 0) (Some eg) None = (mba, Ok tt) ->
  mab = mba.
Proof. exact rebin_orders_lemma. Qed.
Print Assumptions rebin_axis_order_irrelevant.

Theorem rebin_needs_exactly_one_of_mids_factor : forall m ax mids f,
  (exists x, to_plot_axis ax = Ok x) ->
  rebin_inplace m ax (Some mids) (Some f) = (m, Raise ValueError) /\
  rebin_inplace m ax None None = (m, Raise ValueError).
Proof. exact rebin_both_args. Qed.
Print Assumptions rebin_needs_exactly_one_of_mids_factor.

Theorem rebin_rejects_bad_axis : forall m ax mids f e,
  to_plot_axis ax = Raise e -> rebin_inplace m ax mids f = (m, Raise ValueError).
Proof. exact rebin_bad_axis. Qed.
Print Assumptions rebin_rejects_bad_axis.

Theorem rebin_rejects_nonpositive_factor : forall m ax f,
  f <= 0 -> (exists x, to_plot_axis ax = Ok x) ->
  rebin_inplace m ax None (Some f) = (m, Raise ValueError).
Proof. exact rebin_bad_factor. Qed.
Print Assumptions rebin_rejects_nonpositive_factor.

(* The in-place rebinning of a matrix that carries a std changes the matrix and then raises:
   a failing call does not leave the object unchanged. *)
Theorem rebin_with_std_not_atomic : exists m m' mids,
  consistent m /\ equidistant (Eg m) /\ equidistant mids /\
  rebin_inplace m (AInt 0) (Some mids) None = (m', Raise ValueError) /\
  Eg m' <> Eg m /\ ~ consistent m'.
Proof.
  exists (mkM (mkArr 3 [ql [1;2;3]%Z]) (ql [1;2;3]%Z) (ql [5]%Z) (Some (mkArr 3 [ql [1;1;1]%Z])) None).
  eexists. exists (ql [0;2;4;6]%Z).
  split. { split; (split; [reflexivity|split; [reflexivity|]]); intros r [<-|[]]; reflexivity. }
  split. { split; [apply Nat.leb_le; reflexivity|split; [reflexivity|]].
           intros [|[|[|i]]] Hi; [apply qeqb_eq; reflexivity..|cbn in Hi; lia]. }
  split. { split; [apply Nat.leb_le; reflexivity|split; [reflexivity|]].
           intros [|[|[|[|i]]]] Hi; [apply qeqb_eq; reflexivity..|cbn in Hi; lia]. }
  split; [vm_compute; reflexivity|]. split; [discriminate|].
  intros [_ (H & _)]. cbn in H. discriminate.
Qed.
Print Assumptions rebin_with_std_not_atomic.

(* Examples: the hypotheses are met and the outcome is not trivial. *)
Example ex_in : list Qc := ql [10; 12; 14; 16; 18]%Z.
Example ex_out : list Qc := ql [9; 12; 15; 18; 21]%Z.
Example ex_counts : list Qc := ql [4; 0; 6; 2; 8]%Z.
Example ex_equidistant_in : equidistant ex_in.
Proof.
  split; [apply Nat.leb_le; reflexivity|split; [reflexivity|]].
  intros [|[|[|[|[|i]]]]] Hi; [apply qeqb_eq; reflexivity..|cbn in Hi; lia].
Qed.
Example ex_equidistant_out : equidistant ex_out.
Proof.
  split; [apply Nat.leb_le; reflexivity|split; [reflexivity|]].
  intros [|[|[|[|[|i]]]]] Hi; [apply qeqb_eq; reflexivity..|cbn in Hi; lia].
Qed.
Example ex_covers : axis_lo ex_out <= axis_lo ex_in /\ axis_hi ex_in <= axis_hi ex_out.
Proof. split; apply qleb_le; vm_compute; reflexivity. Qed.
Example ex_rebin : match rebin_1D ex_counts ex_in ex_out with
  | Ok out => leqb out [qz 3; qn 5 2; qz 6; qn 17 2; 0] = true /\ qeqb (qsum out) (qsum ex_counts) = true
  | Raise _ => False end.
Proof. vm_compute. auto. Qed.
Example ex_factor : match factor_mids ex_in (qz 2) with
  | Ok mids => leqb mids (ql [10; 18]%Z) = true | Raise _ => False end.
Proof. vm_compute. reflexivity. Qed.
Example ex_matrix : matrix :=
  mkM (mkArr 5 [ex_counts; ql [1;1;1;1;1]%Z]) ex_in (ql [100; 200]%Z) None None.
Example ex_matrix_consistent : consistent ex_matrix.
Proof.
  split; [|exact I]. split; [reflexivity|split; [reflexivity|]]. intros r [<-|[<-|[]]]; reflexivity.
Qed.
