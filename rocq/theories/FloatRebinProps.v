(* Rebinning in double precision differs from exact rebinning by rounding errors only. *)
From Coq Require Import Reals ZArith List Lra Lia Psatz.
From Flocq Require Import Core.
From Verif Require Import TextNumModel TextNumProps FloatRebinModel.
Import ListNotations.
Local Open Scope bool_scope.
Local Open Scope R_scope.

(* ---------------------------------------------------------------- specification *)
(* bin k of an axis with first centre m and bin width D reaches from lo_edge k to lo_edge (k+1) *)
Definition lo_edge (m D : R) (k : Z) : R := m - D / 2 + IZR k * D.
(* the length that the intervals [a, b] and [c, d] have in common *)
Definition common (a b c d : R) : R := Rmax 0 (Rmin d b - Rmax c a).
Fixpoint rsum {A} (f : A -> R) (l : list A) : R := match l with [] => 0 | x :: t => f x + rsum f t end.
(* the share of input bin j that lies in output bin i *)
Definition share (m D o Do : R) (i j : Z) : R :=
  common (lo_edge m D j) (lo_edge m D (j + 1)) (lo_edge o Do i) (lo_edge o Do (i + 1)) / D.
(* what output bin i should contain *)
Definition exact_bin (counts : list R) (Nin : nat) (m D o Do : R) (i : Z) : R :=
  rsum (fun j => nth j counts 0 * share m D o Do i (Z.of_nat j)) (seq 0 Nin).
Definition total_abs (counts : list R) (Nin : nat) : R := rsum (fun j => Rabs (nth j counts 0)) (seq 0 Nin).
Definition U : R := / 9007199254740992.

(* ---------------------------------------------------------------- rounding *)
Lemma U52 : / 2 * bpow radix2 (-52) = U.
Proof. rewrite two52. unfold U. field. Qed.
Lemma U_small : 0 < U <= / 1000000000000000.
Proof. unfold U. lra. Qed.
Definition eta : R := / 2 * bpow radix2 (-1074).
Lemma eta_pos : 0 < eta.
Proof. unfold eta. pose proof (bpow_gt_0 radix2 (-1074)). lra. Qed.
Lemma add_err x y : double x -> double y -> Rabs (fadd x y - (x + y)) <= U * Rabs (x + y).
Proof. intros X Y. unfold fadd. rewrite <- U52. now apply near_sum. Qed.
Lemma sub_err x y : double x -> double y -> Rabs (fsub x y - (x - y)) <= U * Rabs (x - y).
Proof. intros X Y. unfold fsub. rewrite <- U52. unfold Rminus at 2 3 4. apply near_sum; [exact X|]. now apply generic_format_opp. Qed.
Lemma near_err x : Rabs (near x - x) <= U * Rabs x + eta.
Proof. rewrite <- U52. apply near_error. Qed.
Lemma near_big x : bpow radix2 (-1022) <= Rabs x -> Rabs (near x - x) <= U * Rabs x.
Proof. rewrite <- U52. apply near_normal. Qed.
Lemma double_min x y : double x -> double y -> double (Rmin x y).
Proof. intros X Y. unfold Rmin. now destruct (Rle_dec x y). Qed.
Lemma double_max x y : double x -> double y -> double (Rmax x y).
Proof. intros X Y. unfold Rmax. now destruct (Rle_dec x y). Qed.
Lemma min_err a b a' b' e : Rabs (a' - a) <= e -> Rabs (b' - b) <= e -> Rabs (Rmin a' b' - Rmin a b) <= e.
Proof. intros A B. apply Rabs_le_inv in A. apply Rabs_le_inv in B. apply Rabs_le. unfold Rmin. destruct (Rle_dec a' b'), (Rle_dec a b); lra. Qed.
Lemma max_err a b a' b' e : Rabs (a' - a) <= e -> Rabs (b' - b) <= e -> Rabs (Rmax a' b' - Rmax a b) <= e.
Proof. intros A B. apply Rabs_le_inv in A. apply Rabs_le_inv in B. apply Rabs_le. unfold Rmax. destruct (Rle_dec a' b'), (Rle_dec a b); lra. Qed.

(* ---------------------------------------------------------------- the edges *)
(* M: a bound for the energies of both axes, with a bin to spare *)
Definition axis_ok (m0 m1 : R) (n : nat) (M : R) : Prop :=
  double m0 /\ double m1 /\ bpow radix2 (-60) <= m1 - m0 /\ (2 <= n)%nat /\ Rabs m0 + (INR n + 1) * (m1 - m0) <= M.

Section Axis.
Variables (m0 m1 M : R) (n : nat).
Hypothesis OK : axis_ok m0 m1 n M.
Let D := m1 - m0.
Let a1 := f_a1 m0 m1.
Let a0 := f_a0 m0 m1.
Lemma D_pos : 0 < D. Proof. destruct OK as (_ & _ & L & _). pose proof (bpow_gt_0 radix2 (-60)). unfold D. lra. Qed.
Lemma n2 : 2 <= INR n. Proof. destruct OK as (_ & _ & _ & L & _). change 2 with (INR 2). now apply le_INR. Qed.
Lemma D_le : Rabs m0 + 3 * D <= M.
Proof. destruct OK as (_ & _ & _ & _ & L). pose proof n2. pose proof D_pos. fold D in L. nra. Qed.
Lemma M_pos : 0 < M. Proof. pose proof D_le. pose proof D_pos. pose proof (Rabs_pos m0). lra. Qed.
Lemma a1_err : Rabs (a1 - D) <= U * D.
Proof. destruct OK as (X & Y & _). unfold a1, f_a1. pose proof (sub_err m1 m0 Y X) as S. fold D in S. rewrite (Rabs_pos_eq D) in S; [exact S|]. pose proof D_pos. lra. Qed.
Lemma a1_bounds : D / 2 <= a1 <= 2 * D.
Proof. pose proof a1_err as A. pose proof D_pos. pose proof U_small. apply Rabs_le_inv in A. assert (U * D <= / 1000000000000000 * D) by (apply Rmult_le_compat_r; lra). lra. Qed.
Lemma a1_double : double a1. Proof. apply double_near. Qed.
Lemma a0_double : double a0. Proof. apply double_near. Qed.
Lemma normal x : D / 4 <= Rabs x -> bpow radix2 (-1022) <= Rabs x.
Proof.
  intros L. destruct OK as (_ & _ & B & _). fold D in B. eapply Rle_trans; [|exact L]. apply Rle_trans with (bpow radix2 (-60) / 4); [|lra].
  replace (bpow radix2 (-60) / 4) with (bpow radix2 (-62)); [apply bpow_le; lia|]. replace (-60)%Z with (2 + -62)%Z by lia. rewrite bpow_plus. change (bpow radix2 2) with 4. field.
Qed.
Lemma a0_err : Rabs (a0 - (m0 - D / 2)) <= U * M.
Proof.
  pose proof D_pos as DP. pose proof U_small as UP. pose proof a1_err as A1. apply Rabs_le_inv in A1. unfold a0, f_a0. fold a1. set (h := fdiv a1 2).
  assert (AP : D / 2 <= a1) by nra. assert (H : Rabs (h - a1 / 2) <= U * (a1 / 2)). { assert (N : D / 4 <= Rabs (a1 / 2)) by (rewrite Rabs_pos_eq by lra; lra). pose proof (near_big _ (normal _ N)) as Q. rewrite (Rabs_pos_eq (a1 / 2)) in Q by lra. exact Q. }
  apply Rabs_le_inv in H. assert (DH : double h) by apply double_near. destruct OK as (X & _).
  pose proof (sub_err m0 h X DH) as S. assert (T : Rabs (m0 - h) <= Rabs m0 + Rabs h) by (unfold Rminus; eapply Rle_trans; [apply Rabs_triang|]; rewrite Rabs_Ropp; lra).
  assert (HP : 0 <= h <= D) by nra. rewrite (Rabs_pos_eq h) in T by lra. pose proof D_le as DL.
  assert (S' : Rabs (fsub m0 h - (m0 - h)) <= U * (Rabs m0 + D)) by (eapply Rle_trans; [exact S|]; apply Rmult_le_compat_l; lra). apply Rabs_le_inv in S'.
  apply Rabs_le. pose proof (Rabs_pos m0). split; nra.
Qed.
Lemma edge_err k : Rabs m0 + (Rabs (IZR k) + 1) * D <= M -> Rabs (f_edge a0 a1 k - lo_edge m0 D k) <= 5 * U * M.
Proof.
  intros B. pose proof D_pos as DP. pose proof U_small as UP. pose proof a1_err as A1. pose proof a0_err as A0. pose proof M_pos as MP. pose proof D_le as DL. unfold f_edge, lo_edge. set (K := Rabs (IZR k)) in *. assert (KP : 0 <= K) by apply Rabs_pos.
  assert (P : Rabs (fmul a1 (IZR k) - a1 * IZR k) <= U * (Rabs a1 * K)).
  { unfold K. rewrite <- Rabs_mult. unfold fmul. destruct (Z.eq_dec k 0) as [->|N]. { rewrite Rmult_0_r, near_0. replace (0 - 0) with 0 by ring. rewrite Rabs_R0. lra. }
    apply near_big. apply normal. rewrite Rabs_mult. fold K. assert (1 <= K). { unfold K. rewrite <- abs_IZR. apply IZR_le. lia. } pose proof a1_bounds. rewrite Rabs_pos_eq by lra. nra. }
  apply Rabs_le_inv in A1. apply Rabs_le_inv in A0. pose proof a1_bounds. rewrite (Rabs_pos_eq a1) in P by lra.
  assert (KD : 0 <= K * D) by nra. assert (KA : a1 * K <= (1 + U) * (K * D)) by nra.
  assert (Q : Rabs (a1 * IZR k - IZR k * D) <= U * (K * D)). { replace (a1 * IZR k - IZR k * D) with ((a1 - D) * IZR k) by ring. rewrite Rabs_mult. fold K. assert (Rabs (a1 - D) <= U * D) by (apply Rabs_le; lra). nra. }
  assert (PK : U * (a1 * K) <= U * ((1 + U) * (K * D))) by (apply Rmult_le_compat_l; lra).
  assert (KM : K * D <= M) by (pose proof (Rabs_pos m0); nra).
  apply Rabs_le_inv in P. apply Rabs_le_inv in Q. set (p := fmul a1 (IZR k)) in *. set (kd := IZR k * D) in *.
  assert (PD : Rabs (p - kd) <= 21 / 10 * U * M) by (apply Rabs_le; nra).
  assert (KDK : Rabs kd = K * D) by (unfold kd, K; rewrite Rabs_mult, (Rabs_pos_eq D) by lra; reflexivity).
  assert (S := add_err a0 p a0_double (double_near _)).
  assert (T : Rabs (a0 + p) <= 11 / 10 * M).
  { replace (a0 + p) with ((a0 - (m0 - D / 2)) + (p - kd) + ((m0 - D / 2) + kd)) by ring. eapply Rle_trans; [apply Rabs_triang|].
    assert (Rabs (m0 - D / 2 + kd) <= Rabs m0 + D / 2 + K * D). { eapply Rle_trans; [apply Rabs_triang|]. rewrite KDK. assert (Rabs (m0 - D / 2) <= Rabs m0 + D / 2); [|lra]. unfold Rminus. eapply Rle_trans; [apply Rabs_triang|]. rewrite Rabs_Ropp, (Rabs_pos_eq (D / 2)) by lra. lra. }
    assert (Rabs (a0 - (m0 - D / 2) + (p - kd)) <= U * M + 21 / 10 * U * M) by (eapply Rle_trans; [apply Rabs_triang|]; apply Rplus_le_compat; [apply Rabs_le; lra|exact PD]). nra. }
  assert (S2 : U * Rabs (a0 + p) <= U * (11 / 10 * M)) by (apply Rmult_le_compat_l; lra). apply Rabs_le_inv in PD.
  assert (S3 : Rabs (fadd a0 p - (a0 + p)) <= 11 / 10 * U * M) by lra. apply Rabs_le_inv in S3. assert (0 <= U * M) by nra. apply Rabs_le. split; lra.
Qed.
Lemma upper_err k : Rabs m0 + (Rabs (IZR k) + 2) * D <= M -> Rabs (fadd (f_edge a0 a1 k) a1 - lo_edge m0 D (k + 1)) <= 7 * U * M.
Proof.
  intros B. pose proof D_pos as DP. pose proof U_small as UP. pose proof a1_err as A1. pose proof M_pos as MP. pose proof D_le as DL.
  assert (E : Rabs (f_edge a0 a1 k - lo_edge m0 D k) <= 5 * U * M) by (apply edge_err; lra).
  set (x := f_edge a0 a1 k) in *. assert (S := add_err x a1 (double_near _) a1_double).
  assert (L : lo_edge m0 D (k + 1) = lo_edge m0 D k + D) by (unfold lo_edge; rewrite plus_IZR; ring). rewrite L.
  assert (T : Rabs (x + a1) <= 11 / 10 * M).
  { replace (x + a1) with ((x - lo_edge m0 D k) + (a1 - D) + (lo_edge m0 D k + D)) by ring. eapply Rle_trans; [apply Rabs_triang|].
    assert (Rabs (lo_edge m0 D k + D) <= M).
    { unfold lo_edge. replace (m0 - D / 2 + IZR k * D + D) with (m0 + IZR k * D + D / 2) by field. eapply Rle_trans; [apply Rabs_triang|]. rewrite (Rabs_pos_eq (D / 2)) by lra. assert (Rabs (m0 + IZR k * D) <= Rabs m0 + Rabs (IZR k) * D) by (eapply Rle_trans; [apply Rabs_triang|]; rewrite Rabs_mult, (Rabs_pos_eq D) by lra; lra). lra. }
    assert (Rabs (x - lo_edge m0 D k + (a1 - D)) <= 5 * U * M + U * D) by (eapply Rle_trans; [apply Rabs_triang|]; lra).
    assert (U * M <= / 1000000 * M) by (apply Rmult_le_compat_r; lra). assert (U * D <= / 1000000 * D) by (apply Rmult_le_compat_r; lra). pose proof (Rabs_pos m0). lra. }
  assert (S2 : U * Rabs (x + a1) <= U * (11 / 10 * M)) by (apply Rmult_le_compat_l; lra).
  assert (S3 : Rabs (fadd x a1 - (x + a1)) <= 11 / 10 * U * M) by lra. apply Rabs_le_inv in S3. apply Rabs_le_inv in E. apply Rabs_le_inv in A1. assert (U * D <= U * (M / 3)) by (apply Rmult_le_compat_l; [lra|pose proof (Rabs_pos m0); lra]).
  assert (0 <= U * M) by nra. apply Rabs_le. split; lra.
Qed.
End Axis.

(* ---------------------------------------------------------------- one term *)
Lemma common_bounds a b c d : a <= b -> 0 <= common a b c d <= b - a.
Proof. intros L. unfold common, Rmax, Rmin. destruct (Rle_dec d b), (Rle_dec c a); match goal with |- context [Rle_dec 0 ?x] => destruct (Rle_dec 0 x) end; lra. Qed.

Definition tiny : R := bpow radix2 (-1010).
Lemma tiny_pos : 0 < tiny. Proof. apply bpow_gt_0. Qed.

Section Two.
Variables (m0 m1 o0 o1 M : R) (Nin Nout : nat).
Hypothesis OKi : axis_ok m0 m1 Nin M.
Hypothesis OKo : axis_ok o0 o1 Nout M.
Let D := m1 - m0.
Let Do := o1 - o0.
Hypothesis RATIO : M <= 536870912 * D.
Let a0i := f_a0 m0 m1. Let a1i := f_a1 m0 m1. Let a0o := f_a0 o0 o1. Let a1o := f_a1 o0 o1.
Let DP : 0 < D. Proof. exact (D_pos m0 m1 M Nin OKi). Qed.
Let DoP : 0 < Do. Proof. exact (D_pos o0 o1 M Nout OKo). Qed.
Let MP : 0 < M. Proof. exact (M_pos m0 m1 M Nin OKi). Qed.
Let UM : 0 < U * M <= / 1000000 * D.
Proof. pose proof U_small. split; [nra|]. apply Rle_trans with (U * (536870912 * D)); [apply Rmult_le_compat_l; lra|]. unfold U. lra. Qed.

Lemma i_bound i : (0 <= i < Z.of_nat Nout)%Z -> Rabs o0 + (Rabs (IZR i) + 2) * Do <= M.
Proof.
  intros I. destruct OKo as (_ & _ & _ & _ & B). fold Do in B. assert (Rabs (IZR i) + 2 <= INR Nout + 1); [|nra].
  rewrite <- abs_IZR, Z.abs_eq, INR_IZR_INZ by lia. rewrite <- !plus_IZR. apply IZR_le. lia.
Qed.
Lemma j_bound j : (0 <= j < Z.of_nat Nin)%Z -> Rabs m0 + (Rabs (IZR j) + 2) * D <= M.
Proof.
  intros I. destruct OKi as (_ & _ & _ & _ & B). fold D in B. assert (Rabs (IZR j) + 2 <= INR Nin + 1); [|nra].
  rewrite <- abs_IZR, Z.abs_eq, INR_IZR_INZ by lia. rewrite <- !plus_IZR. apply IZR_le. lia.
Qed.
Lemma k_bound k : (-1 <= k <= Z.of_nat Nout)%Z -> Rabs o0 + (Rabs (IZR k) + 1) * Do <= M.
Proof.
  intros I. destruct OKo as (_ & _ & _ & N2 & B). fold Do in B. assert (Rabs (IZR k) + 1 <= INR Nout + 1); [|nra].
  rewrite <- abs_IZR, INR_IZR_INZ. rewrite <- !plus_IZR. apply IZR_le. lia.
Qed.
Definition f_ov (i j : Z) : R :=
  f_overlap (f_edge a0i a1i j) (fadd (f_edge a0i a1i j) a1i) (f_edge a0o a1o i) (fadd (f_edge a0o a1o i) a1o).
Definition e_ov (i j : Z) : R := common (lo_edge m0 D j) (lo_edge m0 D (j + 1)) (lo_edge o0 Do i) (lo_edge o0 Do (i + 1)).
Lemma edge_size m d k : 0 < d -> Rabs (lo_edge m d k) <= Rabs m + (Rabs (IZR k) + 1) * d.
Proof.
  intros P. unfold lo_edge. eapply Rle_trans; [apply Rabs_triang|]. rewrite Rabs_mult, (Rabs_pos_eq d) by lra. assert (Rabs (m - d / 2) <= Rabs m + d / 2); [|lra].
  unfold Rminus. eapply Rle_trans; [apply Rabs_triang|]. rewrite Rabs_Ropp, (Rabs_pos_eq (d / 2)) by lra. lra.
Qed.
Lemma ov_err i j : (0 <= i < Z.of_nat Nout)%Z -> (0 <= j < Z.of_nat Nin)%Z -> Rabs (f_ov i j - e_ov i j) <= 15 * U * M.
Proof.
  intros I J. pose proof U_small as UP. pose proof (i_bound i I) as BI. pose proof (j_bound j J) as BJ.
  assert (E1 : Rabs (f_edge a0i a1i j - lo_edge m0 D j) <= 5 * U * M) by (apply (edge_err m0 m1 M Nin OKi); fold D; lra).
  assert (E2 : Rabs (f_edge a0o a1o i - lo_edge o0 Do i) <= 5 * U * M) by (apply (edge_err o0 o1 M Nout OKo); fold Do; lra).
  assert (E3 := upper_err m0 m1 M Nin OKi j BJ). assert (E4 := upper_err o0 o1 M Nout OKo i BI).
  fold D a0i a1i in E3. fold Do a0o a1o in E4. unfold f_ov, e_ov, f_overlap, common.
  set (il := f_edge a0i a1i j) in *. set (ol := f_edge a0o a1o i) in *. set (iu := fadd il a1i) in *. set (ou := fadd ol a1o) in *.
  assert (X := min_err _ _ _ _ _ E4 E3). assert (Y := max_err _ _ _ _ _ E2 E1).
  assert (SX : Rabs (Rmin (lo_edge o0 Do (i + 1)) (lo_edge m0 D (j + 1))) <= M).
  { assert (forall m d k, Rabs m + (Rabs (IZR k) + 2) * d <= M -> 0 < d -> Rabs (lo_edge m d (k + 1)) <= M).
    { intros m d k B P. replace (lo_edge m d (k + 1)) with (m + IZR k * d + d / 2) by (unfold lo_edge; rewrite plus_IZR; field). eapply Rle_trans; [apply Rabs_triang|]. rewrite (Rabs_pos_eq (d / 2)) by lra. assert (Rabs (m + IZR k * d) <= Rabs m + Rabs (IZR k) * d) by (eapply Rle_trans; [apply Rabs_triang|]; rewrite Rabs_mult, (Rabs_pos_eq d) by lra; lra). lra. }
    unfold Rmin. destruct (Rle_dec _ _); [now apply H|now apply H]. }
  assert (SY : Rabs (Rmax (lo_edge o0 Do i) (lo_edge m0 D j)) <= M).
  { unfold Rmax. destruct (Rle_dec _ _); (eapply Rle_trans; [apply edge_size; assumption|lra]). }
  assert (DX : double (Rmin ou iu)) by (apply double_min; apply double_near). assert (DY : double (Rmax ol il)) by (apply double_max; apply double_near).
  assert (S := sub_err _ _ DX DY). set (x := Rmin ou iu) in *. set (y := Rmax ol il) in *. set (x' := Rmin (lo_edge o0 Do (i + 1)) (lo_edge m0 D (j + 1))) in *. set (y' := Rmax (lo_edge o0 Do i) (lo_edge m0 D j)) in *.
  assert (T : Rabs (x - y) <= 21 / 10 * M).
  { replace (x - y) with ((x - x') + - (y - y') + (x' + - y')) by ring. eapply Rle_trans; [apply Rabs_triang|]. assert (Rabs (x' + - y') <= M + M) by (eapply Rle_trans; [apply Rabs_triang|]; rewrite Rabs_Ropp; lra).
    assert (Rabs (x - x' + - (y - y')) <= 7 * U * M + 5 * U * M) by (eapply Rle_trans; [apply Rabs_triang|]; rewrite Rabs_Ropp; lra). assert (U * M <= / 1000000 * M) by (apply Rmult_le_compat_r; lra). lra. }
  assert (S2 : U * Rabs (x - y) <= U * (21 / 10 * M)) by (apply Rmult_le_compat_l; lra). rewrite <- (Rminus_0_r (Rmax 0 (fsub x y) - Rmax 0 (x' - y'))). rewrite Rminus_0_r. apply max_err; [replace (0 - 0) with 0 by ring; rewrite Rabs_R0; lra|].
  assert (S3 : Rabs (fsub x y - (x - y)) <= 21 / 10 * U * M) by lra. apply Rabs_le_inv in S3. apply Rabs_le_inv in X. apply Rabs_le_inv in Y. apply Rabs_le. split; lra.
Qed.

(* ---------------------------------------------------------------- the window *)
Lemma eta_small : eta <= U * U * D.
Proof.
  destruct OKi as (_ & _ & B & _). fold D in B. apply Rle_trans with (U * U * bpow radix2 (-60)).
  - unfold eta. assert (HU : U = bpow radix2 (-53)) by (unfold U; now rewrite two53). rewrite HU. replace (/ 2) with (bpow radix2 (-1)) by reflexivity. rewrite <- !bpow_plus. apply bpow_le. lia.
  - apply Rmult_le_compat_l; [|exact B]. pose proof U_small. nra.
Qed.
Lemma quot_err k : (-1 <= k <= Z.of_nat Nout)%Z ->
  Rabs (f_quot a0i a1i a0o a1o k * D - (lo_edge o0 Do k - lo_edge m0 D 0)) <= 15 * U * M.
Proof.
  intros K. pose proof U_small as UP. pose proof (k_bound k K) as B. pose proof eta_small as ES. pose proof eta_pos as EP.
  assert (E1 : Rabs (f_edge a0o a1o k - lo_edge o0 Do k) <= 5 * U * M) by (apply (edge_err o0 o1 M Nout OKo); exact B).
  assert (E2 := a0_err m0 m1 M Nin OKi). fold D a0i in E2. assert (L0 : lo_edge m0 D 0 = m0 - D / 2) by (unfold lo_edge; ring). rewrite L0.
  assert (SZ : Rabs (lo_edge o0 Do k) <= M) by (eapply Rle_trans; [apply edge_size; exact DoP|exact B]). assert (DL := D_le m0 m1 M Nin OKi). fold D in DL.
  assert (S0 : Rabs (m0 - D / 2) <= M). { unfold Rminus. eapply Rle_trans; [apply Rabs_triang|]. rewrite Rabs_Ropp, (Rabs_pos_eq (D / 2)) by lra. lra. }
  unfold f_quot. set (x := f_edge a0o a1o k) in *. assert (S := sub_err x a0i (double_near _) (double_near _)). set (y := fsub x a0i) in *. set (lo := lo_edge o0 Do k) in *. set (l0 := m0 - D / 2) in *.
  assert (T : Rabs (x - a0i) <= 21 / 10 * M).
  { replace (x - a0i) with ((x - lo) + - (a0i - l0) + (lo + - l0)) by ring. eapply Rle_trans; [apply Rabs_triang|]. assert (Rabs (lo + - l0) <= M + M) by (eapply Rle_trans; [apply Rabs_triang|]; rewrite Rabs_Ropp; lra).
    assert (Rabs (x - lo + - (a0i - l0)) <= 5 * U * M + U * M) by (eapply Rle_trans; [apply Rabs_triang|]; rewrite Rabs_Ropp; lra). assert (U * M <= / 1000000 * M) by (apply Rmult_le_compat_r; lra). lra. }
  assert (S2 : U * Rabs (x - a0i) <= U * (21 / 10 * M)) by (apply Rmult_le_compat_l; lra). assert (S3 : Rabs (y - (x - a0i)) <= 21 / 10 * U * M) by lra.
  assert (YL : Rabs (y - (lo - l0)) <= 9 * U * M). { apply Rabs_le_inv in S3. apply Rabs_le_inv in E1. apply Rabs_le_inv in E2. apply Rabs_le. split; lra. }
  assert (YB : Rabs y <= 22 / 10 * M). { replace y with ((y - (x - a0i)) + (x - a0i)) by ring. eapply Rle_trans; [apply Rabs_triang|]. assert (U * M <= / 1000000 * M) by (apply Rmult_le_compat_r; lra). lra. }
  assert (A1 := a1_err m0 m1 M Nin OKi). fold D a1i in A1. assert (AB := a1_bounds m0 m1 M Nin OKi). fold D a1i in AB.
  assert (Q := near_err (y / a1i)). fold (fdiv y a1i) in Q. set (q := fdiv y a1i) in *. set (v := y / a1i) in *. assert (VY : v * a1i = y) by (unfold v; field; lra).
  assert (VB : Rabs v * D <= 23 / 10 * M).
  { assert (Rabs v * a1i <= 22 / 10 * M) by (rewrite <- (Rabs_pos_eq a1i) by lra; rewrite <- Rabs_mult, VY; exact YB). apply Rabs_le_inv in A1. pose proof (Rabs_pos v). assert (UD : U * D <= / 1000 * D) by (apply Rmult_le_compat_r; lra). pose proof (Rmult_le_compat_l (Rabs v) D (a1i + U * D) (Rabs_pos v) ltac:(lra)) as V1. pose proof (Rmult_le_compat_l (Rabs v) _ _ (Rabs_pos v) UD) as V2. lra. }
  assert (P1 : Rabs (q * D - v * D) <= 24 / 10 * U * M).
  { replace (q * D - v * D) with ((q - v) * D) by ring. rewrite Rabs_mult, (Rabs_pos_eq D) by lra. assert (Rabs (q - v) * D <= (U * Rabs v + eta) * D) by (apply Rmult_le_compat_r; lra). assert (U * (Rabs v * D) <= U * (23 / 10 * M)) by (apply Rmult_le_compat_l; lra).
    assert (EDM : eta * D <= / 10 * (U * M)).
    { assert (eta <= / 10 * U). { unfold eta. assert (HU : U = bpow radix2 (-53)) by (unfold U; now rewrite two53). assert (bpow radix2 (-1074) <= bpow radix2 (-57)) by (apply bpow_le; lia). assert (HB : bpow radix2 (-53) = 16 * bpow radix2 (-57)) by (replace (-53)%Z with (4 + -57)%Z by lia; rewrite bpow_plus; reflexivity). pose proof (bpow_gt_0 radix2 (-57)). rewrite HU, HB. lra. }
      assert (D <= M) by (pose proof (Rabs_pos m0); lra). nra. }
    lra. }
  assert (P2 : Rabs (v * D - y) <= 24 / 10 * U * M).
  { replace (v * D - y) with (- (v * (a1i - D))) by (rewrite <- VY; ring). rewrite Rabs_Ropp, Rabs_mult. assert (Rabs v * Rabs (a1i - D) <= Rabs v * (U * D)) by (apply Rmult_le_compat_l; [apply Rabs_pos|exact A1]). assert (U * (Rabs v * D) <= U * (23 / 10 * M)) by (apply Rmult_le_compat_l; lra). lra. }
  apply Rabs_le_inv in P1. apply Rabs_le_inv in P2. apply Rabs_le_inv in YL. apply Rabs_le. split; lra.
Qed.
(* the quotient fits in a C int *)
Lemma quot_int k : (-1 <= k <= Z.of_nat Nout)%Z -> Rabs (f_quot a0i a1i a0o a1o k) < 2147483647.
Proof.
  intros K. pose proof (quot_err k K) as Q. pose proof (k_bound k K) as B. pose proof (D_le m0 m1 M Nin OKi) as DL. fold D in DL.
  assert (SZ : Rabs (lo_edge o0 Do k) <= M) by (eapply Rle_trans; [apply edge_size; exact DoP|exact B]).
  assert (S0 : Rabs (lo_edge m0 D 0) <= M) by (eapply Rle_trans; [apply edge_size; exact DP|]; rewrite Rabs_R0; lra).
  set (q := f_quot a0i a1i a0o a1o k) in *. assert (Rabs q * D <= 3 * M).
  { rewrite <- (Rabs_pos_eq D) by lra. rewrite <- Rabs_mult. replace (q * D) with ((q * D - (lo_edge o0 Do k - lo_edge m0 D 0)) + (lo_edge o0 Do k + - lo_edge m0 D 0)) by ring. eapply Rle_trans; [apply Rabs_triang|].
    assert (Rabs (lo_edge o0 Do k + - lo_edge m0 D 0) <= M + M) by (eapply Rle_trans; [apply Rabs_triang|]; rewrite Rabs_Ropp; lra). assert (/ 1000000 * D <= / 1000000 * M) by (pose proof (Rabs_pos m0); lra). lra. }
  assert (Rabs q * D <= 3 * (536870912 * D)) by lra. apply Rmult_lt_reg_r with D; [exact DP|]. lra.
Qed.
(* what lies outside the window has practically no overlap *)
Lemma missed i j : (0 <= i < Z.of_nat Nout)%Z -> (0 <= j < Z.of_nat Nin)%Z ->
  (j < f_jmin a0i a1i a0o a1o i \/ f_jmax Nin a0i a1i a0o a1o i < j)%Z -> e_ov i j <= 15 * U * M.
Proof.
  intros I J [L|L].
  - unfold f_jmin in L. pose proof (quot_err (i - 1) ltac:(lia)) as Q. set (q := f_quot a0i a1i a0o a1o (i - 1)) in *.
    assert (L2 : (j + 1 <= Ztrunc q)%Z) by lia. assert (QP : 0 <= q). { destruct (Rle_lt_dec 0 q) as [|N]; [assumption|]. exfalso. rewrite Ztrunc_ceil in L2 by lra. assert (Zceil q <= 0)%Z by (apply Zceil_glb; cbn; lra). lia. }
    rewrite Ztrunc_floor in L2 by exact QP. assert (IZR (j + 1) <= q) by (eapply Rle_trans; [apply IZR_le; exact L2|apply Zfloor_lb]).
    assert (IZR (j + 1) * D <= q * D) by (apply Rmult_le_compat_r; lra). apply Rabs_le_inv in Q.
    assert (lo_edge o0 Do (i - 1) = lo_edge o0 Do i - Do) by (unfold lo_edge; rewrite minus_IZR; ring).
    assert (lo_edge m0 D (j + 1) = lo_edge m0 D 0 + IZR (j + 1) * D) by (unfold lo_edge; ring).
    assert (lo_edge m0 D (j + 1) <= lo_edge o0 Do i + 15 * U * M) by lra. unfold e_ov, common. pose proof (Rmin_r (lo_edge o0 Do (i + 1)) (lo_edge m0 D (j + 1))). pose proof (Rmax_l (lo_edge o0 Do i) (lo_edge m0 D j)).
    apply Rmax_lub; lra.
  - unfold f_jmax in L. pose proof (quot_err (i + 1) ltac:(lia)) as Q. set (q := f_quot a0i a1i a0o a1o (i + 1)) in *.
    assert (L2 : (Ztrunc q < j)%Z) by lia. assert (QJ : q <= IZR j).
    { destruct (Rle_lt_dec 0 q) as [P|P].
      - rewrite Ztrunc_floor in L2 by exact P. pose proof (Zfloor_ub q). assert (IZR (Zfloor q) + 1 <= IZR j) by (rewrite <- plus_IZR; apply IZR_le; lia). lra.
      - assert (0 <= IZR j) by (apply IZR_le; lia). lra. }
    assert (q * D <= IZR j * D) by (apply Rmult_le_compat_r; lra). apply Rabs_le_inv in Q.
    assert (lo_edge m0 D j = lo_edge m0 D 0 + IZR j * D) by (unfold lo_edge; ring).
    assert (lo_edge o0 Do (i + 1) <= lo_edge m0 D j + 15 * U * M) by lra. unfold e_ov, common. pose proof (Rmin_l (lo_edge o0 Do (i + 1)) (lo_edge m0 D (j + 1))). pose proof (Rmax_r (lo_edge o0 Do i) (lo_edge m0 D j)).
    apply Rmax_lub; lra.
Qed.

(* ---------------------------------------------------------------- one term *)
Lemma f_ov_pos i j : 0 <= f_ov i j.
Proof. apply Rmax_l. Qed.
Lemma e_ov_bounds i j : 0 <= e_ov i j <= D.
Proof.
  unfold e_ov. assert (L : lo_edge m0 D (j + 1) - lo_edge m0 D j = D) by (unfold lo_edge; rewrite plus_IZR; ring).
  pose proof (common_bounds (lo_edge m0 D j) (lo_edge m0 D (j + 1)) (lo_edge o0 Do i) (lo_edge o0 Do (i + 1)) ltac:(lra)). lra.
Qed.
Lemma tiny_room : eta * (1 + 3 * / D) <= tiny.
Proof.
  destruct OKi as (_ & _ & B & _). fold D in B. assert (Z : / D <= bpow radix2 60).
  { replace (bpow radix2 60) with (/ bpow radix2 (-60)) by (rewrite <- bpow_opp; reflexivity). apply Rinv_le_contravar; [apply bpow_gt_0|exact B]. }
  apply Rle_trans with (eta * bpow radix2 62).
  - apply Rmult_le_compat_l; [pose proof eta_pos; lra|]. assert (bpow radix2 62 = 4 * bpow radix2 60) by (replace 62%Z with (2 + 60)%Z by lia; rewrite bpow_plus; reflexivity). assert (1 <= bpow radix2 60) by (change 1 with (bpow radix2 0); apply bpow_le; lia). lra.
  - unfold eta, tiny. replace (/ 2) with (bpow radix2 (-1)) by reflexivity. rewrite <- !bpow_plus. apply bpow_le. lia.
Qed.
Lemma term_err c i j : (0 <= i < Z.of_nat Nout)%Z -> (0 <= j < Z.of_nat Nin)%Z ->
  Rabs (f_term c a0i a1i a0o a1o i j - c * (e_ov i j / D)) <= 17 * (U * M / D) * Rabs c + tiny.
Proof.
  intros I J. pose proof (ov_err i j I J) as OE. pose proof (f_ov_pos i j) as FP. pose proof (e_ov_bounds i j) as EB. unfold f_term. fold (f_ov i j).
  set (F := f_ov i j) in *. set (e := e_ov i j) in *. pose proof U_small as UP. pose proof tiny_room as TR. pose proof eta_pos as EP.
  assert (A1 := a1_err m0 m1 M Nin OKi). fold D a1i in A1. assert (AB := a1_bounds m0 m1 M Nin OKi). fold D a1i in AB. assert (DL := D_le m0 m1 M Nin OKi). fold D in DL.
  set (z := / D) in *. set (w := / a1i). assert (zD : z * D = 1) by (unfold z; field; lra). assert (zP : 0 < z) by (apply Rinv_0_lt_compat; exact DP).
  assert (wA : w * a1i = 1) by (unfold w; field; lra). assert (wP : 0 < w) by (apply Rinv_0_lt_compat; lra).
  assert (AL : (1 - / 1000) * D <= a1i). { apply Rabs_le_inv in A1. assert (U * D <= / 1000 * D) by (apply Rmult_le_compat_r; lra). lra. }
  assert (wz : w <= 11 / 10 * z).
  { pose proof (Rmult_le_compat_l (w * z) _ _ ltac:(nra) AL) as Q. replace (w * z * ((1 - / 1000) * D)) with ((1 - / 1000) * w * (z * D)) in Q by ring. replace (w * z * a1i) with (z * (w * a1i)) in Q by ring. rewrite zD, wA in Q. lra. }
  assert (wd : Rabs (w - z) <= U * w).
  { replace (w - z) with (w * z * (D - a1i)) by (replace (w * z * (D - a1i)) with (w * (z * D) - z * (w * a1i)) by ring; rewrite zD, wA; ring). rewrite Rabs_mult, (Rabs_pos_eq (w * z)) by nra. rewrite Rabs_minus_sym.
    pose proof (Rmult_le_compat_l (w * z) _ _ ltac:(nra) A1) as Q. replace (w * z * (U * D)) with (U * w * (z * D)) in Q by ring. rewrite zD in Q. lra. }
  set (A := Rabs c). assert (AP : 0 <= A) by apply Rabs_pos.
  assert (N1 := near_err (c * F)). fold (fmul c F) in N1. set (t1 := fmul c F) in *. rewrite Rabs_mult, (Rabs_pos_eq F) in N1 by exact FP. fold A in N1.
  assert (N2 := near_err (t1 / a1i)). fold (fdiv t1 a1i) in N2. set (t := fdiv t1 a1i) in *. replace (t1 / a1i) with (t1 * w) in N2 by (unfold w; field; lra). rewrite Rabs_mult, (Rabs_pos_eq w) in N2 by lra.
  assert (FD : F <= 11 / 10 * D). { apply Rabs_le_inv in OE. lra. }
  assert (Fw : F * w <= 121 / 100). { apply Rle_trans with (11 / 10 * D * w); [apply Rmult_le_compat_r; lra|]. pose proof (Rmult_le_compat_l D _ _ ltac:(lra) wz). lra. }
  assert (AF : 0 <= A * F) by nra. assert (AFw : A * F * w <= 121 / 100 * A). { pose proof (Rmult_le_compat_l A _ _ AP Fw). lra. }
  assert (T1 : Rabs t1 <= 11 / 10 * (A * F) + eta).
  { replace t1 with ((t1 - c * F) + c * F) by ring. eapply Rle_trans; [apply Rabs_triang|]. rewrite (Rabs_mult c F), (Rabs_pos_eq F) by exact FP. fold A. assert (U * (A * F) <= / 10 * (A * F)) by (apply Rmult_le_compat_r; lra). lra. }
  assert (P1 : U * (Rabs t1 * w) <= U * (14 / 10 * A) + / 10 * (eta * w)).
  { pose proof (Rmult_le_compat_r w _ _ ltac:(lra) T1) as Q. assert (Q2 : Rabs t1 * w <= 14 / 10 * A + eta * w) by lra. pose proof (Rmult_le_compat_l U _ _ ltac:(lra) Q2) as Q3. assert (0 <= eta * w) by nra. assert (U * (eta * w) <= / 10 * (eta * w)) by (apply Rmult_le_compat_r; lra). lra. }
  assert (P2 : Rabs (t1 - c * F) * w <= U * (121 / 100 * A) + eta * w).
  { pose proof (Rmult_le_compat_r w _ _ ltac:(lra) N1) as Q. pose proof (Rmult_le_compat_l U _ _ ltac:(lra) AFw). lra. }
  assert (P3 : Rabs (c * F * (w - z)) <= U * (121 / 100 * A)).
  { rewrite !Rabs_mult, (Rabs_pos_eq F) by exact FP. fold A. pose proof (Rmult_le_compat_l (A * F) _ _ AF wd) as Q. pose proof (Rmult_le_compat_l U _ _ ltac:(lra) AFw). lra. }
  assert (P4 : Rabs (c * (F - e) * z) <= 15 * (U * M * z) * A).
  { rewrite !Rabs_mult, (Rabs_pos_eq z) by lra. fold A. pose proof (Rmult_le_compat_l (A * z) _ _ ltac:(nra) OE) as Q. lra. }
  assert (UMz : 3 * U <= U * M * z). { pose proof (Rabs_pos m0). assert (3 * D * z <= M * z) by (apply Rmult_le_compat_r; lra). assert (3 <= M * z) by (replace 3 with (3 * (z * D)) by (rewrite zD; ring); lra). pose proof (Rmult_le_compat_l U _ _ ltac:(lra) H1). lra. }
  pose proof (Rmult_le_compat_r A _ _ AP UMz) as UA.
  replace (t - c * (e / D)) with ((t - t1 * w) + ((t1 - c * F) * w) + (c * F * (w - z)) + (c * (F - e) * z)) by (unfold z; field; lra).
  replace (U * M / D) with (U * M * z) by reflexivity. eapply Rle_trans; [apply Rabs_triang|]. eapply Rle_trans; [apply Rplus_le_compat_r, Rabs_triang|]. eapply Rle_trans; [apply Rplus_le_compat_r, Rplus_le_compat_r, Rabs_triang|].
  rewrite (Rabs_mult (t1 - c * F)), (Rabs_pos_eq w) by lra.
  assert (EW : eta * w <= 11 / 10 * (eta * z)). { pose proof (Rmult_le_compat_l eta _ _ ltac:(lra) wz). lra. }
  assert (0 <= eta * z) by nra. assert (0 <= U * A) by nra. lra.
Qed.
Lemma missed_err c i j : (0 <= i < Z.of_nat Nout)%Z -> (0 <= j < Z.of_nat Nin)%Z ->
  (j < f_jmin a0i a1i a0o a1o i \/ f_jmax Nin a0i a1i a0o a1o i < j)%Z -> Rabs (0 - c * (e_ov i j / D)) <= 17 * (U * M / D) * Rabs c + tiny.
Proof.
  intros I J O. pose proof (missed i j I J O) as Q. pose proof (e_ov_bounds i j) as EB. pose proof tiny_pos. replace (0 - c * (e_ov i j / D)) with (- (c * (e_ov i j / D))) by ring. rewrite Rabs_Ropp, Rabs_mult.
  assert (zP : 0 < / D) by (apply Rinv_0_lt_compat; exact DP). unfold Rdiv. rewrite (Rabs_pos_eq (e_ov i j * / D)) by nra. pose proof (Rabs_pos c). pose proof (Rmult_le_compat_r (Rabs c * / D) _ _ ltac:(nra) Q). assert (0 <= U * M * / D * Rabs c). { apply Rmult_le_pos; [|lra]. apply Rmult_le_pos; lra. } lra.
Qed.
End Two.

(* ---------------------------------------------------------------- sums *)
Lemma rsum_app {A} (f : A -> R) l1 l2 : rsum f (l1 ++ l2) = rsum f l1 + rsum f l2.
Proof. induction l1 as [|x l1 IH]; cbn; [ring|]. rewrite IH. ring. Qed.
Lemma rsum_le {A} (f g : A -> R) l : (forall x, In x l -> f x <= g x) -> rsum f l <= rsum g l.
Proof. induction l as [|x l IH]; cbn; intros H; [lra|]. pose proof (H x (or_introl eq_refl)). pose proof (IH (fun y I => H y (or_intror I))). lra. Qed.
Lemma rsum_diff {A} (f g h : A -> R) l : (forall x, In x l -> Rabs (f x - g x) <= h x) -> Rabs (rsum f l - rsum g l) <= rsum h l.
Proof.
  induction l as [|x l IH]; cbn; intros H. { replace (0 - 0) with 0 by ring. rewrite Rabs_R0. lra. }
  replace (f x + rsum f l - (g x + rsum g l)) with ((f x - g x) + (rsum f l - rsum g l)) by ring. eapply Rle_trans; [apply Rabs_triang|]. apply Rplus_le_compat; [apply H; now left|]. apply IH. intros y I. apply H. now right.
Qed.
Lemma rsum_lin {A} (f : A -> R) a b l : rsum (fun x => a * f x + b) l = a * rsum f l + INR (length l) * b.
Proof. induction l as [|x l IH]; [cbn; ring|]. cbn [rsum length]. rewrite IH, S_INR. ring. Qed.
Lemma rsum_ext {A} (f g : A -> R) l : (forall x, In x l -> f x = g x) -> rsum f l = rsum g l.
Proof. induction l as [|x l IH]; cbn; intros H; [reflexivity|]. rewrite (H x) by now left. rewrite IH; [reflexivity|]. intros y I. apply H. now right. Qed.
Lemma rsum_abs_pos {A} (f : A -> R) l : 0 <= rsum (fun x => Rabs (f x)) l.
Proof. induction l as [|x l IH]; cbn; [lra|]. pose proof (Rabs_pos (f x)). lra. Qed.

Lemma zr_snoc a c : (a <= c)%Z -> zr a (c + 1) = zr a c ++ [c].
Proof.
  intros L. unfold zr. replace (Z.to_nat (c + 1 - a)) with (S (Z.to_nat (c - a))) by lia. rewrite seq_S, map_app. cbn [map Nat.add]. do 2 f_equal. lia.
Qed.
Lemma zr_nil a b : (b <= a)%Z -> zr a b = [].
Proof. intros L. unfold zr. replace (Z.to_nat (b - a)) with 0%nat by lia. reflexivity. Qed.
Lemma zr_length a b : (0 <= a)%Z -> forall n, (b <= Z.of_nat n)%Z -> (length (zr a b) <= n)%nat.
Proof. intros A n B. unfold zr. rewrite map_length, seq_length. lia. Qed.
Lemma window_sum (g : Z -> R) a b n : (0 <= a)%Z -> (b <= Z.of_nat n)%Z ->
  rsum g (zr a b) = rsum (fun j => if ((a <=? Z.of_nat j) && (Z.of_nat j <? b))%Z then g (Z.of_nat j) else 0) (seq 0 n).
Proof.
  intros A B. assert (H : forall k, rsum (fun j => if ((a <=? Z.of_nat j) && (Z.of_nat j <? b))%Z then g (Z.of_nat j) else 0) (seq 0 k) = rsum g (zr a (Z.min b (Z.of_nat k)))).
  { induction k as [|k IH]; [rewrite zr_nil by lia; reflexivity|]. rewrite seq_S, rsum_app, IH. cbn [rsum Nat.add].
    destruct (Z.leb_spec a (Z.of_nat k)) as [L|L]; cbn [andb].
    - destruct (Z.ltb_spec (Z.of_nat k) b) as [L2|L2].
      + replace (Z.min b (Z.of_nat (S k))) with (Z.of_nat k + 1)%Z by lia. rewrite Z.min_r by lia. rewrite zr_snoc, rsum_app by exact L. cbn. ring.
      + rewrite !Z.min_l by lia. ring.
    - rewrite !zr_nil by lia. cbn. ring. }
  rewrite H. now rewrite Z.min_l by lia.
Qed.
Lemma acc_err {A} (t : A -> R) l : (forall x, double (t x)) -> forall acc, double acc ->
  Rabs (fold_left (fun s x => fadd s (t x)) l acc - (acc + rsum t l)) <= ((1 + U) ^ length l - 1) * (Rabs acc + rsum (fun x => Rabs (t x)) l).
Proof.
  intros T. pose proof U_small as UP. induction l as [|x l IH]; intros acc DA.
  - cbn. replace (acc - (acc + 0)) with 0 by ring. rewrite Rabs_R0. replace (1 - 1) with 0 by ring. lra.
  - cbn [fold_left rsum length pow]. pose proof (IH (fadd acc (t x)) (double_near _)) as Q. pose proof (add_err acc (t x) DA (T x)) as E. set (a' := fadd acc (t x)) in *.
    set (P := (1 + U) ^ length l) in *. assert (P1 : 1 <= P) by (apply pow_R1_Rle; lra). set (S := rsum (fun y => Rabs (t y)) l) in *. assert (SP : 0 <= S) by apply rsum_abs_pos.
    pose proof (Rabs_triang acc (t x)) as TR. pose proof (Rabs_pos acc). pose proof (Rabs_pos (t x)). set (G := Rabs acc + Rabs (t x)) in *.
    assert (E' : Rabs (a' - (acc + t x)) <= U * G) by (eapply Rle_trans; [exact E|]; apply Rmult_le_compat_l; lra).
    assert (B : Rabs a' <= (1 + U) * G). { replace a' with ((a' - (acc + t x)) + (acc + t x)) by ring. eapply Rle_trans; [apply Rabs_triang|]. lra. }
    replace (fold_left (fun s y => fadd s (t y)) l a' - (acc + (t x + rsum t l))) with ((fold_left (fun s y => fadd s (t y)) l a' - (a' + rsum t l)) + (a' - (acc + t x))) by ring.
    eapply Rle_trans; [apply Rabs_triang|]. replace (Rabs acc + (Rabs (t x) + S)) with (G + S) by (unfold G; ring).
    assert (Q2 : (P - 1) * (Rabs a' + S) <= (P - 1) * ((1 + U) * G + S)) by (apply Rmult_le_compat_l; lra). assert (0 <= G) by (unfold G; lra). assert (0 <= U * P * S) by (apply Rmult_le_pos; [nra|lra]). nra.
Qed.
Lemma pow_bound n : INR n * U <= 1 / 2 -> (1 + U) ^ n - 1 <= 2 * (INR n * U).
Proof.
  intros L. pose proof U_small as UP. assert (H : forall k, (k <= n)%nat -> (1 - INR k * U) * (1 + U) ^ k <= 1).
  { induction k as [|k IH]; intros K; [cbn; lra|]. rewrite S_INR. cbn [pow]. pose proof (IH ltac:(lia)) as Q. pose proof (pos_INR k). assert (1 <= (1 + U) ^ k) by (apply pow_R1_Rle; lra). set (P := (1 + U) ^ k) in *.
    assert ((1 - (INR k + 1) * U) * (1 + U) <= 1 - INR k * U) by nra. assert ((1 - (INR k + 1) * U) * ((1 + U) * P) <= (1 - INR k * U) * P) by (rewrite <- Rmult_assoc; apply Rmult_le_compat_r; lra). lra. }
  pose proof (H n (le_n n)) as Q. set (P := (1 + U) ^ n) in *. set (x := INR n * U) in *. assert (0 <= x) by (unfold x; pose proof (pos_INR n); nra). nra.
Qed.

Lemma nth_map_seq (f : nat -> R) n i : (i < n)%nat -> nth i (map f (seq 0 n)) 0 = f i.
Proof. intros L. rewrite (nth_indep _ 0 (f 0%nat)) by (now rewrite map_length, seq_length). rewrite map_nth. now rewrite seq_nth. Qed.

(* ---------------------------------------------------------------- theorems *)
(* Each bin of the result in double precision is the exact one up to
   20 * 2^-53 * (largest energy / bin width) of all counts together. *)
Theorem float_rebin_error counts m0 m1 o0 o1 M Nin Nout i : axis_ok m0 m1 Nin M -> axis_ok o0 o1 Nout M -> M <= 536870912 * (m1 - m0) -> (i < Nout)%nat ->
  Rabs (nth i (f_rebin counts Nin Nout m0 m1 o0 o1) 0 - exact_bin counts Nin m0 (m1 - m0) o0 (o1 - o0) (Z.of_nat i))
  <= 20 * U * (M / (m1 - m0)) * total_abs counts Nin + 2 * INR Nin * tiny.
Proof.
  intros OKi OKo RATIO I. unfold f_rebin.
  rewrite nth_map_seq by exact I.
  set (D := m1 - m0) in *. pose proof (D_pos _ _ _ _ OKi) as DP. fold D in DP. pose proof U_small as UP. pose proof (M_pos _ _ _ _ OKi) as MP.
  assert (IZ : (0 <= Z.of_nat i < Z.of_nat Nout)%Z) by lia. set (iz := Z.of_nat i) in *.
  set (K := U * M / D). assert (KP : 0 < K) by (unfold K, Rdiv; apply Rmult_lt_0_compat; [nra|now apply Rinv_0_lt_compat]).
  assert (KS : K <= / 1000000). { unfold K. apply Rmult_le_reg_r with D; [exact DP|]. replace (U * M / D * D) with (U * M) by (field; lra). apply Rle_trans with (U * (536870912 * D)); [apply Rmult_le_compat_l; lra|]. unfold U. lra. }
  assert (NK : INR Nin * U <= K). { unfold K. apply Rmult_le_reg_r with D; [exact DP|]. replace (U * M / D * D) with (U * M) by (field; lra). destruct OKi as (_ & _ & _ & _ & B). fold D in B. pose proof (Rabs_pos m0). assert (INR Nin * D <= M) by lra. pose proof (Rmult_le_compat_l U _ _ ltac:(lra) H0). lra. }
  unfold f_bin. set (a := f_jmin _ _ _ _ iz). set (b := (f_jmax Nin _ _ _ _ iz + 1)%Z).
  assert (A0 : (0 <= a)%Z) by apply Z.le_max_l. assert (B0 : (b <= Z.of_nat Nin)%Z) by (unfold b, f_jmax; lia).
  set (t := fun j : Z => f_term (nth (Z.to_nat j) counts 0) (f_a0 m0 m1) (f_a1 m0 m1) (f_a0 o0 o1) (f_a1 o0 o1) iz j).
  set (C := fun j : nat => nth j counts 0). set (S := total_abs counts Nin).
  assert (DT : forall j, double (t j)) by (intros j; apply double_near).
  pose proof (acc_err t (zr a b) DT 0 (generic_format_0 _ _)) as ACC. rewrite Rabs_R0, !Rplus_0_l in ACC. set (fl := fold_left _ _ 0) in *. change (fold_left _ _ 0) with fl.
  (* the terms against the exact shares *)
  set (win := fun j : nat => ((a <=? Z.of_nat j) && (Z.of_nat j <? b))%Z).
  assert (TE : forall j, In j (seq 0 Nin) -> Rabs ((if win j then t (Z.of_nat j) else 0) - C j * share m0 D o0 (o1 - o0) iz (Z.of_nat j)) <= 17 * K * Rabs (C j) + tiny).
  { intros j J. apply in_seq in J. assert (JZ : (0 <= Z.of_nat j < Z.of_nat Nin)%Z) by lia. destruct (win j) eqn:W.
    - unfold t. rewrite Nat2Z.id. fold (C j). apply (term_err m0 m1 o0 o1 M Nin Nout OKi OKo RATIO (C j) iz (Z.of_nat j) IZ JZ).
    - apply (missed_err m0 m1 o0 o1 M Nin Nout OKi OKo RATIO (C j) iz (Z.of_nat j) IZ JZ). unfold win in W. apply Bool.andb_false_iff in W as [W|W]; [left; apply Z.leb_gt in W; exact W|right; apply Z.ltb_ge in W; unfold b in W; lia]. }
  assert (W1 : Rabs (rsum t (zr a b) - exact_bin counts Nin m0 D o0 (o1 - o0) iz) <= 17 * K * S + INR Nin * tiny).
  { rewrite (window_sum t a b Nin A0 B0). unfold exact_bin. eapply Rle_trans; [apply rsum_diff; exact TE|]. rewrite (rsum_lin (fun j => Rabs (C j))). rewrite seq_length. change (rsum (fun j => Rabs (C j)) (seq 0 Nin)) with S. lra. }
  (* the size of the terms *)
  assert (W2 : rsum (fun j => Rabs (t j)) (zr a b) <= 11 / 10 * S + INR Nin * tiny).
  { rewrite (window_sum (fun j => Rabs (t j)) a b Nin A0 B0). apply Rle_trans with (rsum (fun j => 11 / 10 * Rabs (C j) + tiny) (seq 0 Nin)).
    - apply rsum_le. intros j J. pose proof (TE j J) as Q. apply in_seq in J. fold (win j). pose proof (Rabs_pos (C j)) as CP. pose proof tiny_pos. destruct (win j); [|lra].
      assert (SH : 0 <= share m0 D o0 (o1 - o0) iz (Z.of_nat j) <= 1).
      { unfold share. pose proof (e_ov_bounds m0 m1 o0 o1 M Nin OKi iz (Z.of_nat j)) as EB. unfold e_ov in EB. fold D in EB. split; [apply Rmult_le_pos; [lra|apply Rlt_le, Rinv_0_lt_compat; exact DP]|]. apply Rmult_le_reg_r with D; [exact DP|]. unfold Rdiv. rewrite Rmult_assoc, Rinv_l by lra. lra. }
      set (sh := share _ _ _ _ _ _) in *. replace (t (Z.of_nat j)) with ((t (Z.of_nat j) - C j * sh) + C j * sh) by ring. eapply Rle_trans; [apply Rabs_triang|]. rewrite Rabs_mult, (Rabs_pos_eq sh) by lra.
      assert (17 * K * Rabs (C j) <= / 10 * Rabs (C j)) by (apply Rmult_le_compat_r; lra). assert (Rabs (C j) * sh <= Rabs (C j) * 1) by (apply Rmult_le_compat_l; lra). lra.
    - rewrite (rsum_lin (fun j => Rabs (C j))). rewrite seq_length. change (rsum (fun j => Rabs (C j)) (seq 0 Nin)) with S. lra. }
  assert (LN : INR (length (zr a b)) <= INR Nin) by (apply le_INR, zr_length; assumption).
  assert (PB : (1 + U) ^ length (zr a b) - 1 <= 2 * K). { eapply Rle_trans; [apply pow_bound|]. - assert (INR (length (zr a b)) * U <= INR Nin * U) by (apply Rmult_le_compat_r; lra). lra. - assert (INR (length (zr a b)) * U <= INR Nin * U) by (apply Rmult_le_compat_r; lra). lra. }
  assert (SP : 0 <= S) by apply rsum_abs_pos. assert (NT : 0 <= INR Nin * tiny) by (apply Rmult_le_pos; [apply pos_INR|apply Rlt_le, tiny_pos]).
  set (T := rsum (fun j => Rabs (t j)) (zr a b)) in *. assert (TP : 0 <= T) by apply rsum_abs_pos.
  assert (Q : Rabs (fl - rsum t (zr a b)) <= 2 * K * (11 / 10 * S + INR Nin * tiny)).
  { eapply Rle_trans; [exact ACC|]. apply Rle_trans with (2 * K * T); [now apply Rmult_le_compat_r|]. apply Rmult_le_compat_l; lra. }
  replace (fl - exact_bin counts Nin m0 D o0 (o1 - o0) iz) with ((fl - rsum t (zr a b)) + (rsum t (zr a b) - exact_bin counts Nin m0 D o0 (o1 - o0) iz)) by ring.
  eapply Rle_trans; [apply Rabs_triang|]. replace (20 * U * (M / D)) with (20 * K) by (unfold K; field; lra).
  assert (2 * K * (INR Nin * tiny) <= 1 * (INR Nin * tiny)) by (apply Rmult_le_compat_r; lra). assert (0 <= K * S) by nra. lra.
Qed.
Print Assumptions float_rebin_error.

(* the indices of the window fit in a C int *)
Theorem float_rebin_no_int_overflow m0 m1 o0 o1 M Nin Nout k : axis_ok m0 m1 Nin M -> axis_ok o0 o1 Nout M -> M <= 536870912 * (m1 - m0) ->
  (-1 <= k <= Z.of_nat Nout)%Z -> Rabs (f_quot (f_a0 m0 m1) (f_a1 m0 m1) (f_a0 o0 o1) (f_a1 o0 o1) k) < 2147483647.
Proof. intros OKi OKo RATIO K. exact (quot_int m0 m1 o0 o1 M Nin Nout OKi OKo RATIO k K). Qed.
Print Assumptions float_rebin_no_int_overflow.

(* Counts that are not negative give a result that is not negative, in double precision too. *)
Lemma near_pos x : 0 <= x -> 0 <= near x.
Proof. intros P. rewrite <- near_0. apply round_le; [apply FLT_exp_valid; reflexivity|apply valid_rnd_N|exact P]. Qed.
Theorem float_rebin_nonneg counts m0 m1 o0 o1 Nin Nout i : m0 < m1 -> (forall c, In c counts -> 0 <= c) -> 0 <= nth i (f_rebin counts Nin Nout m0 m1 o0 o1) 0.
Proof.
  intros L C. assert (N : forall j, 0 <= nth j counts 0). { intros j. destruct (Nat.lt_ge_cases j (length counts)) as [I|I]; [apply C; now apply nth_In|rewrite nth_overflow by exact I; lra]. }
  destruct (Nat.lt_ge_cases i Nout) as [I|I]; [|rewrite nth_overflow by (unfold f_rebin; now rewrite map_length, seq_length); lra].
  unfold f_rebin. rewrite nth_map_seq by exact I. unfold f_bin.
  assert (F : forall l acc, 0 <= acc -> 0 <= fold_left (fun acc j => fadd acc (f_term (nth (Z.to_nat j) counts 0) (f_a0 m0 m1) (f_a1 m0 m1) (f_a0 o0 o1) (f_a1 o0 o1) (Z.of_nat i) j)) l acc); [|apply F; lra].
  induction l as [|j l IH]; intros acc A; [exact A|]. cbn [fold_left]. apply IH. apply near_pos. apply Rplus_le_le_0_compat; [exact A|]. unfold f_term, fdiv. apply near_pos.
  assert (P : 0 <= f_a1 m0 m1) by (apply near_pos; lra). assert (Q : 0 <= / f_a1 m0 m1). { destruct P as [P|P]; [apply Rlt_le, Rinv_0_lt_compat; exact P|rewrite <- P, Rinv_0; lra]. }
  apply Rmult_le_pos; [|exact Q]. apply near_pos. apply Rmult_le_pos; [apply N|apply Rmax_l].
Qed.
Print Assumptions float_rebin_nonneg.

(* ---------------------------------------------------------------- the total *)
Definition clip (a b x : R) : R := Rmax a (Rmin b x).
Lemma common_clip a b c d : a <= b -> c <= d -> common a b c d = clip a b d - clip a b c.
Proof. intros L K. unfold common, clip, Rmax, Rmin. destruct (Rle_dec d b), (Rle_dec c a), (Rle_dec b d), (Rle_dec b c); repeat match goal with |- context [Rle_dec ?x ?y] => destruct (Rle_dec x y) end; lra. Qed.
Lemma rsum_swap {A B} (f : A -> B -> R) l k : rsum (fun x => rsum (f x) k) l = rsum (fun y => rsum (fun x => f x y) l) k.
Proof.
  induction l as [|x l IH]; cbn. { induction k as [|y k IK]; cbn; [reflexivity|]. rewrite <- IK. ring. }
  rewrite IH. clear IH. induction k as [|y k IK]; cbn; [ring|]. rewrite <- IK. ring.
Qed.
Lemma rsum_scal {A} (f : A -> R) c l : rsum (fun x => c * f x) l = c * rsum f l.
Proof. induction l as [|x l IH]; cbn; [ring|]. rewrite IH. ring. Qed.
Lemma rsum_tele (f : nat -> R) n : rsum (fun i => f (S i) - f i) (seq 0 n) = f n - f 0%nat.
Proof. induction n as [|n IH]; [cbn; ring|]. rewrite seq_S, rsum_app, IH. cbn. ring. Qed.
(* all shares of one bin add up to one if the new axis covers the old one *)
Lemma shares_one m D o Do n Nin j : 0 < D -> 0 < Do -> (j < Nin)%nat -> lo_edge o Do 0 <= lo_edge m D 0 -> lo_edge m D (Z.of_nat Nin) <= lo_edge o Do (Z.of_nat n) ->
  rsum (fun i => share m D o Do (Z.of_nat i) (Z.of_nat j)) (seq 0 n) = 1.
Proof.
  intros DP DoP J L Hh. set (a := lo_edge m D (Z.of_nat j)). set (b := lo_edge m D (Z.of_nat j + 1)). assert (AB : b = a + D) by (unfold a, b, lo_edge; rewrite plus_IZR; ring).
  assert (A0 : lo_edge m D 0 <= a). { unfold a, lo_edge. assert (0 <= IZR (Z.of_nat j)) by (apply IZR_le; lia). nra. }
  assert (B1 : b <= lo_edge m D (Z.of_nat Nin)). { unfold b, lo_edge. assert (IZR (Z.of_nat j + 1) <= IZR (Z.of_nat Nin)) by (apply IZR_le; lia). nra. }
  rewrite (rsum_ext _ (fun i => clip a b (lo_edge o Do (Z.of_nat (S i))) * / D - clip a b (lo_edge o Do (Z.of_nat i)) * / D)).
  2:{ intros i _. unfold share. fold a b. rewrite common_clip; [|lra|unfold lo_edge; rewrite plus_IZR; lra]. replace (Z.of_nat (S i)) with (Z.of_nat i + 1)%Z by lia. unfold Rdiv. ring. }
  rewrite (rsum_tele (fun i => clip a b (lo_edge o Do (Z.of_nat i)) * / D)). assert (C1 : clip a b (lo_edge o Do (Z.of_nat n)) = b) by (unfold clip; rewrite Rmin_left by lra; apply Rmax_right; lra).
  assert (C0 : clip a b (lo_edge o Do (Z.of_nat 0)) = a) by (unfold clip; change (Z.of_nat 0) with 0%Z; rewrite Rmin_right by lra; apply Rmax_left; lra). rewrite C1, C0, AB. field. lra.
Qed.
Lemma exact_total counts Nin m D o Do n : 0 < D -> 0 < Do -> lo_edge o Do 0 <= lo_edge m D 0 -> lo_edge m D (Z.of_nat Nin) <= lo_edge o Do (Z.of_nat n) ->
  rsum (fun i => exact_bin counts Nin m D o Do (Z.of_nat i)) (seq 0 n) = rsum (fun j => nth j counts 0) (seq 0 Nin).
Proof.
  intros DP DoP L Hh. unfold exact_bin. rewrite rsum_swap. apply rsum_ext. intros j J. apply in_seq in J. rewrite rsum_scal, (shares_one m D o Do n Nin j) by (assumption || lia). ring.
Qed.
(* The total number of counts is kept up to rounding if the new axis covers the old one. *)
Theorem float_rebin_total counts m0 m1 o0 o1 M Nin Nout : axis_ok m0 m1 Nin M -> axis_ok o0 o1 Nout M -> M <= 536870912 * (m1 - m0) ->
  lo_edge o0 (o1 - o0) 0 <= lo_edge m0 (m1 - m0) 0 -> lo_edge m0 (m1 - m0) (Z.of_nat Nin) <= lo_edge o0 (o1 - o0) (Z.of_nat Nout) ->
  Rabs (rsum (fun i => nth i (f_rebin counts Nin Nout m0 m1 o0 o1) 0) (seq 0 Nout) - rsum (fun j => nth j counts 0) (seq 0 Nin))
  <= INR Nout * (20 * U * (M / (m1 - m0)) * total_abs counts Nin + 2 * INR Nin * tiny).
Proof.
  intros OKi OKo RATIO L Hh. rewrite <- (exact_total counts Nin m0 (m1 - m0) o0 (o1 - o0) Nout (D_pos _ _ _ _ OKi) (D_pos _ _ _ _ OKo) L Hh).
  set (e := 20 * U * (M / (m1 - m0)) * total_abs counts Nin + 2 * INR Nin * tiny). eapply Rle_trans; [apply (rsum_diff _ _ (fun _ : nat => 0 * 0 + e))|].
  - intros i I. apply in_seq in I. replace (0 * 0 + e) with e by ring. now apply float_rebin_error.
  - rewrite (rsum_lin (fun _ : nat => 0)). rewrite seq_length. lra.
Qed.
Print Assumptions float_rebin_total.
