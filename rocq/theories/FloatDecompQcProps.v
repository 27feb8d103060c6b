(* The double-precision product (FloatDecompModel) against the exact one (DecompModel), and cases. *)
From Coq Require Import Reals ZArith List Lra Lia QArith Qcanon Qreals Permutation.
From Flocq Require Import Core.
From Verif Require Import Num PyBase ArithModel CutSpec DecompModel DecompSpec DecompProps TextNumModel TextNumProps FloatRebinModel FloatRebinProps FloatRebinQcProps FloatDecompModel FloatDecompProps.
From Verif Require ComptonProps.
Import ListNotations.
Local Open Scope R_scope.

Lemma qr_le_iff x y : (x <= y)%Qc <-> qr x <= qr y.
Proof. split; [apply qr_le|]. intros L. apply Rle_Qle in L. exact L. Qed.
Lemma qr_abs x : qr (qabs x) = Rabs (qr x).
Proof.
  unfold qabs. destruct (qleb_spec 0 x) as [L|L].
  - apply qr_le in L. rewrite ComptonProps.qr_0 in L. rewrite Rabs_pos_eq; [reflexivity|exact L].
  - apply ComptonProps.qr_lt in L. rewrite ComptonProps.qr_0 in L. rewrite Rabs_left by exact L. replace (- x)%Qc with (0 - x)%Qc by ring. rewrite ComptonProps.qr_sub, ComptonProps.qr_0. ring.
Qed.
(* The same arguments, by the exact model and in double precision. *)
Theorem float_product_vs_exact (p : pin Qc) k M w i emax s : pin_ok p -> nondecreasing (p_Eg p) -> nondecreasing (p_E p) -> nonneg_list (p_nld p) -> nonneg_list (p_T p) -> (i < length (p_Ex p))%nat ->
  let n := length (p_Eg p) in let x := qr (vget (p_Ex p) i) in let r := qr (vget (p_res p) i) in
  let wt := weight (map qr (p_nld p)) (map qr (p_T p)) (map qr (p_Eg p)) x r k in
  let frow := f_row (map qr (p_nld p)) (map qr (p_T p)) (map qr (p_E p)) x emax (map qr (p_Eg p)) in
  grid_ok (map qr (p_E p)) (map qr (p_Eg p)) x r k M w -> (forall j, (j < n)%nat -> wt j = 0 \/ bpow radix2 (-1022) <= wt j) -> (exists j, (j < n)%nat /\ wt j <> 0) -> INR n * U <= 1 / 1000 ->
  f_egmax (map qr (p_Ex p)) (map qr (p_res p)) (map qr (p_Eg p)) i emax -> sums_to frow s ->
  exists m row, nld_T_product p = Some m /\ nth i m [] = map Fin row /\ length row = n /\
    forall j, (j < n)%nat -> Rabs (nth j (f_normalize frow s) 0 - qr (vget row j)) <= 4 * (INR n + 1) * U * qr (vget row j) + eta /\ 0 <= nth j (f_normalize frow s) 0 <= 1.
Proof.
  intros OK ND NE NN NT I n x r wt frow G WT SOME SIZE EM SU. destruct (product_is_probability p OK ND NE NN NT) as (w' & m & E & LM & H). destruct (H i I) as (LR & W & S1 & _). cbv zeta in *.
  assert (LG : length (map qr (p_Eg p)) = n) by apply map_length. unfold f_egmax in EM. rewrite !nth_qr in EM. change (qr (nth i (p_Ex p) 0%Qc)) with x in EM. change (qr (nth i (p_res p) 0%Qc)) with r in EM.
  assert (LIM : limit x r (map qr (p_Eg p)) = qr (vget (p_Ex p) i + vget (p_res p) i + half_width p)%Qc). { unfold limit, half_width. rewrite !nth_qr, !ComptonProps.qr_add, ComptonProps.qr_div, ComptonProps.qr_sub, qr_qz by discriminate. reflexivity. }
  assert (WE : forall j, (j < n)%nat -> qr (w' i j) = wt j).
  { intros j J. destruct (W j J) as (_ & W2 & W3). unfold wt, weight. rewrite LIM, nth_qr. destruct (Rle_dec (qr (nth j (p_Eg p) 0%Qc)) (qr (vget (p_Ex p) i + vget (p_res p) i + half_width p)%Qc)) as [A|A].
    - destruct (W3 (proj2 (qr_le_iff _ _) A)) as (k' & (K1 & K2 & _) & K3 & ->). rewrite ComptonProps.qr_mul, !nth_qr. f_equal. unfold vget. f_equal. f_equal.
      destruct G as (_ & _ & _ & _ & _ & _ & SP & WP & _ & _ & _ & _ & _ & GR & _). rewrite LG in GR. specialize (GR j J). rewrite LIM, !nth_qr, map_length in GR. destruct (GR A) as (K & C).
      assert (W0 : 0 < w) by (pose proof (bpow_gt_0 radix2 (-400)); Lra.lra). specialize (K2 (k j) K). apply qr_le in K2. rewrite !qr_abs, !ComptonProps.qr_sub in K2. change (qr (vget (p_Ex p) i)) with x in K2. unfold vget in K2. unfold vget in K2.
      destruct (Nat.eq_dec k' (k j)) as [D|D]; [exact D|exfalso]. assert (FAR : w <= Rabs (qr (nth k' (p_E p) 0%Qc) - qr (nth (k j) (p_E p) 0%Qc))).
      { rewrite <- !nth_qr. destruct (Nat.lt_ge_cases k' (k j)) as [L|L].
        - pose proof (spaced_far _ w k' (k j) W0 SP ltac:(rewrite map_length; lia)). rewrite Rabs_left1; Lra.lra.
        - pose proof (spaced_far _ w (k j) k' W0 SP ltac:(rewrite map_length; lia)). rewrite Rabs_pos_eq; Lra.lra. }
      set (e := x - qr (nth j (p_Eg p) 0%Qc)) in *. pose proof (Rabs_triang (qr (nth k' (p_E p) 0%Qc) - e) (e - qr (nth (k j) (p_E p) 0%Qc))) as T. replace (qr (nth k' (p_E p) 0%Qc) - e + (e - qr (nth (k j) (p_E p) 0%Qc))) with (qr (nth k' (p_E p) 0%Qc) - qr (nth (k j) (p_E p) 0%Qc)) in T by ring. rewrite (Rabs_minus_sym e) in T. Lra.lra.
    - rewrite W2; [apply ComptonProps.qr_0|]. intros B. apply A. apply qr_le in B. exact B. }
  set (s' := sumn n (w' i)) in *. assert (TE : qr s' = rsum wt (seq 0 n)). { unfold s'. rewrite qr_sumn. apply rsum_ext. intros j J. apply in_seq in J. apply WE. lia. }
  pose proof (tot_pos (map qr (p_nld p)) (map qr (p_T p)) (map qr (p_Eg p)) x r k) as TP. rewrite LG in TP. specialize (TP WT SOME). fold wt in TP. rewrite <- TE in TP.
  assert (SP : (0 < s')%Qc). { apply ComptonProps.qr_lt. now rewrite ComptonProps.qr_0. } assert (SN : s' <> 0%Qc) by (intros Z; rewrite Z, ComptonProps.qr_0 in TP; Lra.lra).
  exists m, (tab n (fun j => w' i j / s')%Qc). split; [exact E|]. split; [|split; [apply tab_length|]].
  - apply (list_eq_nth _ _ NaN); [now rewrite map_length, tab_length|]. intros j Hj. rewrite LR in Hj. rewrite (S1 SP j Hj). rewrite map_tab, nth_tab by exact Hj. reflexivity.
  - intros j J. unfold vget. rewrite nth_tab by exact J. rewrite ComptonProps.qr_div, WE, TE by assumption.
    pose proof (float_product_accurate (map qr (p_nld p)) (map qr (p_T p)) (map qr (p_E p)) (map qr (p_Eg p)) x r M w emax s k G EM SU) as Q. rewrite LG in Q. exact (Q WT SOME SIZE j J).
Qed.
Print Assumptions float_product_vs_exact.

(* ---------------------------------------------------------------- cases *)
Ltac dbl := apply double_IZR; cbn; lia.
Example grid_case : grid_ok [0; 100; 200] [100; 200; 300] 300 10 (fun j => 2 - j)%nat 1000 100 /\ f_egmax [300] [10] [100; 200; 300] 0 (fadd 300 (fadd 10 (f_halfbin [100; 200; 300]))).
Proof.
  split.
  - pose proof U_small as UP. assert (H4 : bpow radix2 (-400) <= 1) by (change 1 with (bpow radix2 0); apply bpow_le; lia). unfold grid_ok. cbn [length].
    split; [repeat (apply Forall_cons; [dbl|]); apply Forall_nil|]. split; [repeat (apply Forall_cons; [dbl|]); apply Forall_nil|]. split; [dbl|]. split; [dbl|].
    split; [intros [|[|[|a]]] [|[|[|b]]] (A & B); cbn in *; try lia; Lra.lra|]. split; [lia|]. split; [intros [|[|a]] A; cbn in *; try lia; Lra.lra|]. split; [Lra.lra|]. split; [Lra.lra|]. split; [Lra.lra|].
    split; [rewrite Rabs_pos_eq; Lra.lra|]. split; [rewrite Rabs_pos_eq; Lra.lra|]. split; [intros [|[|[|a]]] A; cbn in *; try lia; rewrite Rabs_pos_eq; Lra.lra|]. split.
    + intros [|[|[|a]]] A _; cbn in *; try lia; (split; [lia|]); apply Rabs_le; Lra.lra.
    + intros [|[|[|a]]] A; unfold limit; cbn in *; try lia; rewrite Rabs_left; Lra.lra.
  - exists (Node (Leaf 300) (Node (Leaf 10) (Leaf (f_halfbin [100; 200; 300])))). split; [apply Permutation_refl|reflexivity].
Qed.
Example weight_case : let wt := weight [1; 2; 4] [3; 5; 7] [100; 200; 300] 300 10 (fun j => 2 - j)%nat in wt 0%nat = 12 /\ wt 1%nat = 10 /\ wt 2%nat = 7.
Proof. unfold weight, limit. cbn. repeat split; match goal with |- context [Rle_dec ?a ?b] => destruct (Rle_dec a b) end; Lra.lra. Qed.
Example chi_case : bin_ok (3, 1, 2) /\ chi_exact (3, 1, 2) = 1 /\ bin_ok (5, 5, 1) /\ chi_exact (5, 5, 1) = 0.
Proof.
  assert (A : bpow radix2 (-250) <= 1) by (change 1 with (bpow radix2 0); apply bpow_le; lia). assert (B : 2 <= bpow radix2 250) by (change 2 with (bpow radix2 1); apply bpow_le; lia).
  unfold bin_ok, chi_exact. repeat split; try dbl; try (now left); try field.
  - right. rewrite Rabs_pos_eq; Lra.lra.
  - rewrite Rabs_pos_eq; Lra.lra.
  - rewrite Rabs_pos_eq; Lra.lra.
  - rewrite Rabs_pos_eq; Lra.lra.
  - rewrite Rabs_pos_eq; Lra.lra.
Qed.
