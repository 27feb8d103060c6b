(* Refusals and rounding, found by mutation testing. *)
From Coq Require Import Lia.
From Verif Require Import PyBase Axis MatrixModel VectorModel PlotModel.
Import ListNotations.
Local Open Scope list_scope.
Local Open Scope Qc_scope.

(* ------------------------------------------------------------------ matrix.py:728-738, vector.py:410-420 *)
Lemma few_mids old f : (length old <= 1)%nat -> 0 < f -> factor_mids old f = Raise IndexError.
Proof.
  intros H F. unfold factor_mids. destruct (qleb f 0) eqn:E; [apply qleb_le in E; exfalso; exact (Qclt_not_le _ _ F E)|].
  destruct old as [|x [|y r]]; [reflexivity|reflexivity|cbn in H; lia].
Qed.
(* Rebinning by a factor needs two bins: with fewer it raises IndexError and changes nothing. *)
Theorem rebin_few_bins_refused : forall m ax f, 0 < f ->
  match to_plot_axis ax with
  | Ok AxEx => (length (Ex m) <= 1)%nat
  | Ok _ => (length (Eg m) <= 1)%nat
  | Raise _ => False
  end -> rebin_inplace m ax None (Some f) = (m, Raise IndexError).
Proof.
  intros m ax f F. unfold rebin_inplace. destruct (to_plot_axis ax) as [[]|]; intros H; try contradiction;
    unfold rebin_axis, rebin_data; rewrite few_mids by assumption; reflexivity.
Qed.
Print Assumptions rebin_few_bins_refused.
Theorem rebin_vector_few_bins_refused : forall v f, 0 < f -> (length (v_E v) <= 1)%nat -> v_rebin v None (Some f) = (v, Raise IndexError).
Proof. intros v f F H. unfold v_rebin, v_rebin_data. rewrite few_mids by assumption. reflexivity. Qed.
Print Assumptions rebin_vector_few_bins_refused.
Example rebin_one_bin_case : rebin_inplace (mkM (mkArr 1 [[qz 7]]) [qz 5] [qz 5] None None) (AInt 0%Z) None (Some (qz 2))
  = (mkM (mkArr 1 [[qz 7]]) [qz 5] [qz 5] None None, Raise IndexError).
Proof. apply rebin_few_bins_refused; [reflexivity|cbn; lia]. Qed.

(* ------------------------------------------------------------------ matrix.py:973-975 *)
(* A tick half way between two multiples goes to the even one. *)
Theorem ticks_halves_even : forall z i, (0 <= i)%Z ->
  exists k, Z.even k = true /\ (k = z \/ k = z + 1)%Z /\ around i ((qz z + qn 1 2) * qz (10 ^ i)) = qz k * qz (10 ^ i).
Proof.
  intros z i Hi. assert (P : 0 < qz (10 ^ i)) by (apply (proj1 (qz_lt 0 (10 ^ i))), Z.pow_pos_nonneg; lia).
  unfold around. replace ((qz z + qn 1 2) * qz (10 ^ i) / qz (10 ^ i)) with (qz z + qn 1 2) by (field; intros Q; rewrite Q in P; discriminate P).
  assert (F : qfloor (qz z + qn 1 2) = z).
  { apply qfloor_unique; change (qn 1 2) with (Q2Qc (1 # 2)); [qlra|]. rewrite ?qz_add. change (qz 1) with (Q2Qc 1). qlra. }
  unfold round_even. rewrite F. replace (qz z + qn 1 2 - qz z) with (qn 1 2) by ring.
  assert (L : qltb (qn 1 2) (qn 1 2) = false) by reflexivity. rewrite !L.
  destruct (Z.even z) eqn:E; [exists z; auto|]. exists (z + 1)%Z. split; [|auto].
  rewrite Z.even_add. rewrite E. reflexivity.
Qed.
Print Assumptions ticks_halves_even.
Example ticks_halves_case : around 1 (qz 25) = qz 20 /\ around 1 (qz 35) = qz 40.
Proof. split; apply Qc_is_canon; reflexivity. Qed.
