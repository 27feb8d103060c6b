(* How far the quantiles of the code are from the exact ones (C69).  1 - ulp1 is the largest
   double below one; mass a b m: the normal distribution has the probability m between a and b
   (StatsSpec). *)
From Coq Require Import Reals Lra Psatz.
From Coquelicot Require Import Coquelicot.
From Verif Require Import StatsModel StatsSpec StatsProofs ErfinvProofs StatsCdf StatsProps ErfSeries ErfGrid ErfinvGrid.
Local Open Scope R_scope.

(* The inverse error function of the code is within 1.5e-7 of the exact one. *)
Theorem erfinv_accurate t : Rabs (erf t) <= 1 - ulp1 -> exists r, erfinv (erf t) = Finite r /\ Rabs (r - t) <= 15 / 100000000.
Proof.
  intros B. pose proof (Rle_abs (erf t)) as U. pose proof (Rle_abs (- erf t)) as L. rewrite Rabs_Ropp in L. destruct (Rle_lt_dec 0 t) as [T|T].
  - destruct (erfinv_accurate_pos t T ltac:(lra)) as (r & E & H). exists r. split; [exact E|]. apply Rabs_le. lra.
  - destruct (erfinv_accurate_pos (- t) ltac:(lra)) as (r & E & H). { rewrite erf_odd. lra. }
    exists (- r). rewrite erf_odd, erfinv_opp in E. split.
    + destruct (erfinv (erf t)) as [x| |]; cbn in E; try discriminate. injection E as E. f_equal. lra.
    + apply Rabs_le. lra.
Qed.
Print Assumptions erfinv_accurate.
Example erfinv_accurate_ex : exists r, erfinv (erf (1 / 2)) = Finite r /\ Rabs (r - 1 / 2) <= 15 / 100000000.
Proof.
  apply erfinv_accurate. pose proof (erf_tangent 0 (1 / 2) (Rle_refl 0)) as T. rewrite erf_0 in T. pose proof slope_0. pose proof ulp1_small.
  assert (0 <= erf (1 / 2)) by (rewrite <- erf_0; apply erf_increasing_le; lra). rewrite Rabs_pos_eq by assumption. lra.
Qed.

Lemma sqrt2_le : sqrt 2 <= 142 / 100.
Proof. apply Rsqr_incr_0_var; [|lra]. unfold Rsqr. rewrite sqrt_sqrt by lra. lra. Qed.
Lemma truncnorm_accurate_gen alpha beta p :
  let y := 2 * (p * (cdf beta - cdf alpha) + cdf alpha) - 1 in Rabs y <= 1 - ulp1 ->
  exists t e : R, truncnorm_ppf p alpha beta = Finite e /\ cdf t = p * (cdf beta - cdf alpha) + cdf alpha /\ Rabs (e - t) <= 22 / 100000000.
Proof.
  intros y Y. pose proof ulp1_pos as UP. pose proof (Rle_abs y) as Y1. pose proof (Rle_abs (- y)) as Y2. rewrite Rabs_Ropp in Y2.
  destruct (cdf_onto ((y + 1) / 2)) as (t & T); [lra|]. pose proof sqrt2_pos as S2. pose proof sqrt2_le as S3.
  assert (E : y = erf (t / sqrt 2)). { rewrite erf_cdf. replace (sqrt 2 * (t / sqrt 2)) with t by (field; lra). lra. }
  destruct (erfinv_accurate (t / sqrt 2)) as (r & ER & B); [now rewrite <- E|].
  exists t, (sqrt 2 * r). split; [|split].
  - unfold truncnorm_ppf, truncnorm_ppf_by. fold (cdf alpha) (cdf beta). fold y. now rewrite E, ER.
  - rewrite T. unfold y. field.
  - replace (sqrt 2 * r - t) with (sqrt 2 * (r - t / sqrt 2)) by (field; lra). rewrite Rabs_mult, (Rabs_pos_eq (sqrt 2)) by lra. pose proof (Rabs_pos (r - t / sqrt 2)). nra.
Qed.

(* For every p and all bounds, truncnorm_ppf is within 2.2e-7 of the point t between the
   bounds where the truncated distribution reaches p.  ml and mr are the probabilities left
   of alpha and right of beta; the hypothesis on y fails for a double only if erfinv gets 1
   or -1 (then the result is infinite, erfinv_range). *)
Theorem truncnorm_accurate alpha beta p ml mr :
  Rbar_le alpha beta -> 0 <= p <= 1 -> mass m_infty alpha ml -> mass beta p_infty mr ->
  let y := 2 * (p * (1 - mr) + (1 - p) * ml) - 1 in Rabs y <= 1 - ulp1 ->
  exists t m e : R, truncnorm_ppf p alpha beta = Finite e /\ Rabs (e - t) <= 22 / 100000000 /\
    Rbar_le alpha t /\ Rbar_le t beta /\ mass alpha beta m /\ mass alpha t (p * m).
Proof.
  intros L P ML MR y Y. apply mass_unique in ML. apply mass_unique in MR.
  assert (C0 : cdf m_infty = 0) by (unfold cdf; simpl; lra). assert (C1 : cdf p_infty = 1) by (unfold cdf; simpl; lra).
  destruct (truncnorm_accurate_gen alpha beta p) as (t & e & E & T & B).
  { replace (2 * (p * (cdf beta - cdf alpha) + cdf alpha) - 1) with y; [exact Y|]. unfold y. rewrite ML, MR, C0, C1. ring. }
  assert (AB : cdf alpha <= cdf beta). { apply Rbar_le_lt_or_eq_dec in L. destruct L as [L|L]; [left; now apply cdf_lt|rewrite L; lra]. }
  exists t, (cdf beta - cdf alpha), e. split; [exact E|]. split; [exact B|]. split; [apply cdf_le_inv; rewrite T; nra|]. split; [apply cdf_le_inv; rewrite T; nra|].
  split; [apply mass_cdf|]. replace (p * (cdf beta - cdf alpha)) with (cdf t - cdf alpha) by (rewrite T; ring). apply mass_cdf.
Qed.
Print Assumptions truncnorm_accurate.

(* The quantile of the normal distribution, for every double p not next to 0 or 1. *)
Theorem normal_accurate p : ulp1 / 2 <= p <= 1 - ulp1 / 2 ->
  exists t e : R, normal_ppf p = Finite e /\ mass m_infty t p /\ Rabs (e - t) <= 22 / 100000000.
Proof.
  intros P. assert (C0 : cdf m_infty = 0) by (unfold cdf; simpl; lra). assert (C1 : cdf p_infty = 1) by (unfold cdf; simpl; lra).
  destruct (truncnorm_accurate_gen m_infty p_infty p) as (t & e & E & T & B). { rewrite C0, C1. apply Rabs_le. lra. }
  exists t, e. unfold normal_ppf. rewrite normal_is_truncnorm. split; [exact E|]. split; [|exact B].
  replace p with (cdf t - cdf m_infty) at 1 by (rewrite T, C0, C1; ring). apply mass_cdf.
Qed.
Print Assumptions normal_accurate.

(* Quantiles further apart than 4.4e-7 are in the right order. *)
Theorem normal_order p q (s t : R) : ulp1 / 2 <= p -> q <= 1 - ulp1 / 2 -> ulp1 / 2 <= q -> p <= 1 - ulp1 / 2 ->
  mass m_infty s p -> mass m_infty t q -> s + 44 / 100000000 < t -> Rbar_lt (normal_ppf p) (normal_ppf q).
Proof.
  intros P1 Q2 Q1 P2 MS MT D.
  destruct (normal_accurate p (conj P1 P2)) as (s' & a & EA & MA & BA). destruct (normal_accurate q (conj Q1 Q2)) as (t' & b & EB & MB & BB).
  apply mass_unique in MS, MT, MA, MB.
  assert (I : forall u v, cdf (Finite u) = cdf (Finite v) -> u = v).
  { intros u v H. apply Rle_antisym; [assert (K : Rbar_le u v)|assert (K : Rbar_le v u)]; try (apply cdf_le_inv; lra); exact K. }
  assert (s' = s) as -> by (apply I; lra). assert (t' = t) as -> by (apply I; lra).
  rewrite EA, EB. simpl. apply Rabs_le_between in BA. apply Rabs_le_between in BB. lra.
Qed.
Print Assumptions normal_order.

(* the median, and bounds -1 and 1 *)
Example normal_accurate_ex : exists t e : R, normal_ppf (1 / 4) = Finite e /\ mass m_infty t (1 / 4) /\ Rabs (e - t) <= 22 / 100000000.
Proof. apply normal_accurate. pose proof ulp1_small. pose proof ulp1_pos. lra. Qed.
Example truncnorm_accurate_ex : exists t m e : R, truncnorm_ppf (1 / 3) m_infty 0 = Finite e /\ Rabs (e - t) <= 22 / 100000000 /\
    Rbar_le m_infty t /\ Rbar_le t 0 /\ mass m_infty 0 m /\ mass m_infty t (1 / 3 * m).
Proof.
  assert (C0 : cdf m_infty = 0) by (unfold cdf; simpl; lra). assert (C1 : cdf p_infty = 1) by (unfold cdf; simpl; lra).
  assert (CM : cdf 0 = 1 / 2). { unfold cdf; simpl. replace (0 / sqrt 2) with 0 by (unfold Rdiv; ring). rewrite erf_0. lra. }
  apply (truncnorm_accurate m_infty 0 (1 / 3) 0 (1 / 2)); try (simpl; tauto || lra).
  - replace 0 with (cdf m_infty - cdf m_infty) by lra. apply mass_cdf.
  - replace (1 / 2) with (cdf p_infty - cdf 0) by lra. apply mass_cdf.
  - pose proof ulp1_small. apply Rabs_le. lra.
Qed.

(* The prior of the energy shift: within 1.1e-6 MeV of the quantile of the normal distribution
   of width 5 truncated to [-5, 5]. *)
Theorem prior_shift_accurate u : 0 <= u <= 1 ->
  exists t m e : R, prior_shift erfinv u = Finite (5 * e) /\ -1 <= t <= 1 /\ Rabs (e - t) <= 22 / 100000000 /\
    mass (-1) 1 m /\ mass (-1) t (u * m).
Proof.
  intros U. unfold prior_shift. replace ((-5 - 0) / 5) with (-1) by field. replace ((5 - 0) / 5) with 1 by field.
  assert (S2 := sqrt2_pos). assert (SQ := sqrt2_sq). assert (S3 : 14 / 10 <= sqrt 2). { apply Rsqr_incr_0_var; [|lra]. unfold Rsqr. lra. }
  assert (T1 : 0 <= 1 / sqrt 2 <= 10 / 14).
  { split; [apply Rmult_le_pos; [lra|left; now apply Rinv_0_lt_compat]|]. unfold Rdiv. rewrite Rmult_1_l. replace (10 * / 14) with (/ (14 / 10)) by field. apply Rinv_le_contravar; lra. }
  assert (E1 : erf (1 / sqrt 2) <= 85 / 100) by (pose proof (erf_small (1 / sqrt 2)); lra).
  assert (E0 : 0 <= erf (1 / sqrt 2)) by (rewrite <- erf_0; now apply erf_increasing_le).
  assert (C1 : cdf 1 = 1 / 2 * (1 + erf (1 / sqrt 2))) by reflexivity.
  assert (C2 : cdf (-1) = 1 / 2 * (1 - erf (1 / sqrt 2))). { unfold cdf; simpl. replace (-1 / sqrt 2) with (- (1 / sqrt 2)) by (field; lra). rewrite erf_odd. ring. }
  destruct (truncnorm_accurate (-1) 1 u (cdf (-1) - cdf m_infty) (cdf p_infty - cdf 1)) as (t & m & e & E & B & L1 & L2 & M1 & M2).
  - simpl. lra.
  - exact U.
  - apply mass_cdf.
  - apply mass_cdf.
  - assert (cdf m_infty = 0) as -> by (unfold cdf; simpl; lra). assert (cdf p_infty = 1) as -> by (unfold cdf; simpl; lra). rewrite C1, C2. pose proof ulp1_small. apply Rabs_le. nra.
  - exists t, m, e. fold (truncnorm_ppf u (-1) 1). rewrite E. split; [f_equal; ring|]. simpl in L1, L2. split; [lra|]. split; [exact B|]. split; [exact M1|exact M2].
Qed.
Print Assumptions prior_shift_accurate.

(* ------------------------------------------------ not exactly *)
Lemma slope_strict a b : 0 <= a < b -> slope b < slope a.
Proof.
  intros L. unfold slope. apply Rmult_lt_compat_l; [apply Rdiv_lt_0_compat; [lra|apply sqrtPI_pos]|]. unfold gauss. apply exp_increasing. nra.
Qed.
Lemma tangent_strict r t : 0 <= r -> 0 <= t -> r <> t -> erf t < erf r + slope r * (t - r).
Proof.
  intros R0 T0 N. set (m := (r + t) / 2). pose proof (erf_tangent r m R0 ltac:(unfold m; lra)) as A. pose proof (erf_tangent m t ltac:(unfold m; lra) T0) as B.
  destruct (Rtotal_order r t) as [L|[L|L]]; [|contradiction|].
  - pose proof (slope_strict r m ltac:(unfold m; lra)) as S. assert (M : t - m = (t - r) / 2) by (unfold m; field). assert (M2 : m - r = (t - r) / 2) by (unfold m; field). rewrite M in B. rewrite M2 in A. nra.
  - pose proof (slope_strict m r ltac:(unfold m; lra)) as S. assert (M : t - m = (t - r) / 2) by (unfold m; field). assert (M2 : m - r = (t - r) / 2) by (unfold m; field). rewrite M in B. rewrite M2 in A. nra.
Qed.
Lemma newton_strict t r : 0 <= r -> 0 <= t -> r <> t -> newton (erf t) r < t.
Proof.
  intros R0 T0 N. pose proof (tangent_strict r t R0 T0 N) as S. rewrite newton_slope. pose proof (slope_pos r) as P.
  apply Rmult_lt_reg_r with (slope r); [exact P|]. unfold Rdiv. rewrite Rmult_minus_distr_r. rewrite Rmult_assoc, Rinv_l by lra. lra.
Qed.
(* an argument whose inverse is not met *)
Lemma inexact_point : exists t, 0 < t /\ erf t <= 1 - ulp1 /\ exists r, erfinv (erf t) = Finite r /\ r < t.
Proof.
  pose (x := 1 - 2 * exp (- (6 * 6))).
  assert (XU : exp (- (6 * 6)) <= 1 / 1000). { rewrite exp_Ropp. pose proof (exp_ge_1 (6 * 6 / 8)) as H. assert (E : exp (6 * 6) = exp (6 * 6 / 8) ^ 8). { cbn [pow]. rewrite Rmult_1_r, <- !exp_plus. f_equal. field. }
    assert (1000 <= exp (6 * 6)). { rewrite E. apply Rle_trans with (5 ^ 8); [lra|]. apply pow_incr. lra. } replace (1 / 1000) with (/ 1000) by field. apply Rinv_le_contravar; lra. }
  pose proof (exp_pos (- (6 * 6))) as XP.
  assert (XL : ulp1 <= 2 * exp (- (6 * 6))).
  { unfold ulp1. rewrite exp_Ropp. assert (H : exp (6 * 6) <= 2 * 2 ^ 53).
    { assert (E : exp (6 * 6) = exp 1 ^ 36). { cbn [pow]. rewrite Rmult_1_r, <- !exp_plus. f_equal. lra. }
      rewrite E. 
      apply Rle_trans with ((2719 / 1000) ^ 36); [apply pow_incr; split; [left; apply exp_pos|]|lra].
      destruct (exp_enclosed 100000000 ltac:(reflexivity)) as (A & _). assert (V : (36780000 <= hexp false 100000000 14 0)%Z) by (vm_compute; discriminate). apply IZR_le in V.
      replace (IZR 100000000 / IZR Sc) with 1 in A by (unfold Sc; field). rewrite exp_Ropp in A. pose proof (exp_pos 1) as P1. unfold Sc in A. assert (Q : / exp 1 * exp 1 = 1) by (field; lra). nra. }
    pose proof (exp_pos (6 * 6)). apply Rmult_le_reg_r with (exp (6 * 6) * 2 ^ 53); [apply Rmult_lt_0_compat; [lra|lra]|].
    replace (/ 2 ^ 53 * (exp (6 * 6) * 2 ^ 53)) with (exp (6 * 6)) by (field; lra). replace (2 * / exp (6 * 6) * (exp (6 * 6) * 2 ^ 53)) with (2 * 2 ^ 53) by (field; lra). exact H. }
  destruct (erf_onto x) as (t & T); [unfold x; lra|]. 
  assert (T0 : 0 < t) by (apply erf_lt_inv; rewrite erf_0, T; unfold x; lra).
  exists t. split; [exact T0|]. split; [rewrite T; unfold x; lra|].
  assert (X1 : 7 / 10 < erf t) by (rewrite T; unfold x; lra).
  assert (Y6 : sqrt (- ln ((1 - erf t) / 2)) = 6).
  { rewrite T. replace ((1 - x) / 2) with (exp (- (6 * 6))) by (unfold x; field). rewrite ln_exp. replace (- - (6 * 6)) with (6 * 6) by ring. apply sqrt_square. lra. }
  assert (NE : approx_high (erf t) <> t).
  { change (approx_high (erf t)) with (ry (sqrt (- ln ((1 - erf t) / 2)))). rewrite Y6. replace 6 with (IZR 6000 / 1000) by field. destruct (ry_Z 6000 ltac:(reflexivity)) as (RA & DA). rewrite RA.
    destruct (floor_bounds (rnh 6000) (rdh 6000) DA) as [FA _]. fold (rflh 6000) in FA.
    assert (C : (hcf true ((rflh 6000 - 1) * 10000) 8 0 * 10000000 <= 17724538 * hexp false (6000 * 6000 * 100 - (rflh 6000 - 1) * (rflh 6000 - 1)) 14 0)%Z) by (vm_compute; discriminate).
    pose proof (proj2 (erfc_compare 6000 (rflh 6000 - 1) 8 ltac:(vm_compute; reflexivity) ltac:(vm_compute; reflexivity)) C) as K. cbv zeta in K. replace (IZR 6000 / 1000) with 6 in K by field.
    assert (TL : t <= IZR (rflh 6000 - 1) / 10000) by (apply erf_le_inv; rewrite T; unfold x; lra). rewrite minus_IZR in TL. lra. }
  assert (X0 : 0 <= erf t) by lra. pose proof ulp1_pos as UP. destruct (approx_step (erf t) ltac:(rewrite T; unfold x; lra)) as [A0 N0].
  unfold erfinv. destruct (Rle_dec (erf t) (-1)); [lra|]. destruct (Rle_dec 1 (erf t)) as [G1|_]; [rewrite T in G1; unfold x in G1; lra|]. destruct (Rlt_dec (erf t) 0); [lra|].
  rewrite (Rabs_pos_eq (erf t) X0), !Rmult_1_r. eexists. split; [reflexivity|]. revert A0 N0. unfold approx. destruct (Rle_dec (erf t) (7 / 10)) as [L|L]; [lra|]. intros A0 N0.
  apply newton_strict; [exact N0|lra|]. pose proof (newton_strict t _ A0 ltac:(lra) NE). lra.
Qed.

(* The code is not exact: there is a lower bound alpha for which even p = 0 gives a point
   below it, although the argument of erfinv is away from 1. *)
Theorem truncnorm_inside_refuted : exists alpha beta ml mr e, Rbar_lt alpha beta /\ mass m_infty alpha ml /\ mass beta p_infty mr /\
  Rabs (2 * ml - 1) <= 1 - ulp1 /\ truncnorm_ppf 0 alpha beta = Finite e /\ Rbar_lt e alpha.
Proof.
  destruct inexact_point as (t & T0 & B & r & E & L). pose proof sqrt2_pos as S2. pose proof (erf_cdf t) as EC.
  exists (Finite (sqrt 2 * t)), p_infty, (cdf (sqrt 2 * t) - cdf m_infty), (cdf p_infty - cdf p_infty), (sqrt 2 * r).
  assert (C0 : cdf m_infty = 0) by (unfold cdf; simpl; lra).
  split; [exact I|]. split; [apply mass_cdf|]. split; [apply mass_cdf|]. assert (P : 0 <= erf t) by (rewrite <- erf_0; apply erf_increasing_le; lra).
  split; [rewrite C0, Rminus_0_r, <- EC, Rabs_pos_eq by exact P; exact B|]. split.
  - unfold truncnorm_ppf, truncnorm_ppf_by. fold (cdf (sqrt 2 * t)) (cdf p_infty). rewrite Rmult_0_l, Rplus_0_l, <- EC, E. reflexivity.
  - simpl. nra.
Qed.
Print Assumptions truncnorm_inside_refuted.
