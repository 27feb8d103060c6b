(* Quantiles of the normal and the truncated normal distribution (C69). *)
From Coq Require Import Reals Lra Psatz.
From Coquelicot Require Import Coquelicot.
From Verif Require Import StatsModel StatsSpec StatsProofs ErfinvProofs StatsCdf.
Local Open Scope R_scope.

(* inv undoes the error function *)
Definition exact_inverse (inv : R -> Rbar) : Prop :=
  (forall t, inv (erf t) = Finite t) /\ inv 1 = p_infty /\ inv (-1) = m_infty.

(* such a function exists *)
Example exact_inverse_exists : exists inv, exact_inverse inv.
Proof.
  exists (fun y => Lub_Rbar (fun t => erf t <= y)). repeat split.
  - intros t. apply is_lub_Rbar_unique. split.
    + intros x X. simpl. now apply erf_le_inv.
    + intros b B. apply (B t). lra.
  - apply is_lub_Rbar_unique. split.
    + intros x X. exact I.
    + intros b B. destruct b as [b| |]; simpl.
      * assert (K : Rbar_le (b + 1) b). { apply (B (b + 1)). pose proof (erf_bound (b + 1)). lra. }
        simpl in K. lra.
      * exact I.
      * apply (B 0). rewrite erf_0. lra.
  - apply is_lub_Rbar_unique. split.
    + intros x X. pose proof (erf_bound x). lra.
    + intros b B. exact I.
Qed.

(* The density is that of a probability distribution. *)
Theorem normal_total : mass m_infty p_infty 1.
Proof.
  replace 1 with (cdf p_infty - cdf m_infty) by (unfold cdf; simpl; lra). apply mass_cdf.
Qed.
Print Assumptions normal_total.

Lemma ppf_y p a b : 2 * (p * (b - a) + a) - 1 = (1 - p) * (2 * a - 1) + p * (2 * b - 1).
Proof. ring. Qed.

(* With an exact inverse error function truncnorm_ppf returns the point between the
   bounds where the distribution truncated to the bounds reaches p. *)
Theorem truncnorm_quantile_partial inv alpha beta p :
  exact_inverse inv -> Rbar_lt alpha beta -> 0 < p < 1 ->
  exists t m, truncnorm_ppf_by inv p alpha beta = Finite t /\
    Rbar_lt alpha t /\ Rbar_lt t beta /\
    mass alpha beta m /\ 0 < m /\ mass alpha t (p * m).
Proof.
  intros (I & _) L P. pose proof (cdf_lt _ _ L) as C.
  pose proof (cdf_bounds alpha) as BA. pose proof (cdf_bounds beta) as BB.
  set (q := p * (cdf beta - cdf alpha) + cdf alpha).
  assert (Q : cdf alpha < q < cdf beta) by (unfold q; nra).
  destruct (cdf_onto q) as (t & T); [lra|].
  exists t, (cdf beta - cdf alpha).
  assert (E : truncnorm_ppf_by inv p alpha beta = Finite t).
  { unfold truncnorm_ppf_by. fold (cdf alpha) (cdf beta). fold q.
    pose proof sqrt2_pos. assert (Y : 2 * q - 1 = erf (t / sqrt 2)).
    { rewrite erf_cdf. replace (sqrt 2 * (t / sqrt 2)) with t by (field; lra). lra. }
    rewrite Y, I. simpl. f_equal. field. lra. }
  split; [exact E|]. split; [apply cdf_lt_inv; lra|]. split; [apply cdf_lt_inv; lra|].
  split; [apply mass_cdf|]. split; [lra|].
  replace (p * (cdf beta - cdf alpha)) with (cdf t - cdf alpha) by (rewrite T; unfold q; ring).
  apply mass_cdf.
Qed.
Print Assumptions truncnorm_quantile_partial.

(* The quantile of the normal distribution is the one truncated nowhere, also for the
   inverse the code uses. *)
Theorem normal_is_truncnorm inv p : normal_ppf_by inv p = truncnorm_ppf_by inv p m_infty p_infty.
Proof.
  unfold normal_ppf_by, truncnorm_ppf_by; simpl. do 2 f_equal. lra.
Qed.
Print Assumptions normal_is_truncnorm.

Theorem normal_quantile_partial inv p :
  exact_inverse inv -> 0 < p < 1 ->
  exists t, normal_ppf_by inv p = Finite t /\ mass m_infty t p.
Proof.
  intros I P. rewrite normal_is_truncnorm.
  destruct (truncnorm_quantile_partial inv m_infty p_infty p I) as (t & m & E & _ & _ & M & _ & Q).
  - exact Logic.I.
  - exact P.
  - exists t. split; [exact E|]. apply mass_unique in M.
    assert (m = 1) as -> by (rewrite M; unfold cdf; simpl; lra). now rewrite Rmult_1_r in Q.
Qed.
Print Assumptions normal_quantile_partial.

(* At the ends it returns the bounds. *)
Theorem truncnorm_ends_partial inv alpha beta :
  exact_inverse inv ->
  truncnorm_ppf_by inv 0 alpha beta = alpha /\ truncnorm_ppf_by inv 1 alpha beta = beta.
Proof.
  intros (I & IP & IM). pose proof sqrt2_pos as S2.
  assert (K : forall x, times_sqrt2 (inv (2 * cdf x - 1)) = x).
  { intros x. unfold cdf.
    replace (2 * (1 / 2 * (1 + erf_x (over_sqrt2 x))) - 1) with (erf_x (over_sqrt2 x)) by field.
    destruct x as [r| |]; simpl.
    - rewrite I. simpl. f_equal. field. lra.
    - now rewrite IP.
    - now rewrite IM. }
  unfold truncnorm_ppf_by. fold (cdf alpha) (cdf beta).
  replace (0 * (cdf beta - cdf alpha) + cdf alpha) with (cdf alpha) by ring.
  replace (1 * (cdf beta - cdf alpha) + cdf alpha) with (cdf beta) by ring.
  now rewrite !K.
Qed.
Print Assumptions truncnorm_ends_partial.

(* It is increasing. *)
Theorem truncnorm_increasing_partial inv alpha beta p q :
  exact_inverse inv -> Rbar_lt alpha beta -> 0 <= p -> p < q -> q <= 1 ->
  Rbar_lt (truncnorm_ppf_by inv p alpha beta) (truncnorm_ppf_by inv q alpha beta).
Proof.
  intros I L P0 PQ Q1.
  pose proof (cdf_lt _ _ L) as C.
  assert (K : forall r, 0 <= r <= 1 ->
     cdf (truncnorm_ppf_by inv r alpha beta) = r * (cdf beta - cdf alpha) + cdf alpha).
  { intros r [R0 R1]. destruct (truncnorm_ends_partial inv alpha beta I) as [E0 E1].
    destruct R0 as [R0| <-]; [|rewrite E0; ring].
    destruct R1 as [R1| ->]; [|rewrite E1; ring].
    destruct (truncnorm_quantile_partial inv alpha beta r I L (conj R0 R1))
      as (t & m & E & _ & _ & M & _ & Q).
    apply mass_unique in M. apply mass_unique in Q. rewrite E. rewrite <- M. lra. }
  apply cdf_lt_inv. rewrite !K by lra. nra.
Qed.
Print Assumptions truncnorm_increasing_partial.

Example truncnorm_case inv : exact_inverse inv ->
  exists t, truncnorm_ppf_by inv (1 / 2) (Finite (-1)) (Finite 1) = Finite t /\ -1 < t < 1.
Proof.
  intros I. destruct (truncnorm_quantile_partial inv (Finite (-1)) (Finite 1) (1 / 2) I)
    as (t & m & E & A & B & _).
  - simpl. lra.
  - lra.
  - exists t. simpl in A, B. auto.
Qed.

(* ------------------------------------------------ an inexact inverse *)

(* If the inverse error function is off by at most eps, so is the reached probability
   (by half of it): the code's result is a quantile up to that error. *)
Theorem truncnorm_error inv alpha beta p eps t :
  truncnorm_ppf_by inv p alpha beta = Finite t ->
  (forall y r, inv y = Finite r -> Rabs (erf r - y) <= eps) ->
  exists m q, mass alpha beta m /\ mass alpha t q /\ Rabs (q - p * m) <= eps / 2.
Proof.
  intros E B. exists (cdf beta - cdf alpha), (cdf t - cdf alpha).
  split; [apply mass_cdf|]. split; [apply mass_cdf|].
  unfold truncnorm_ppf_by in E. fold (cdf alpha) (cdf beta) in E.
  set (y := 2 * (p * (cdf beta - cdf alpha) + cdf alpha) - 1) in E.
  destruct (inv y) as [r| |] eqn:EI; simpl in E; try discriminate E.
  assert (T : t = sqrt 2 * r) by (injection E; auto).
  specialize (B y r EI). rewrite erf_cdf, <- T in B.
  replace (cdf t - cdf alpha - p * (cdf beta - cdf alpha)) with ((2 * cdf t - 1 - y) / 2)
    by (unfold y; field).
  unfold Rdiv. rewrite Rabs_mult, (Rabs_pos_eq (/ 2)) by lra. lra.
Qed.
Print Assumptions truncnorm_error.

(* ------------------------------------------------ the inverse the code uses *)

(* 1 - ulp1 is the largest double below one. *)

(* Outside (-1, 1) it returns an infinity, inside a number; it is odd. *)
Theorem erfinv_range x :
  (x <= -1 -> erfinv x = m_infty) /\ (1 <= x -> erfinv x = p_infty) /\
  (-1 < x < 1 -> exists r, erfinv x = Finite r).
Proof.
  unfold erfinv. destruct (Rle_dec x (-1)), (Rle_dec 1 x); repeat split; intros; try reflexivity; try lra.
  eexists. reflexivity.
Qed.
Print Assumptions erfinv_range.

Theorem erfinv_odd x : erfinv (- x) = Rbar_opp (erfinv x).
Proof. apply erfinv_opp. Qed.
Print Assumptions erfinv_odd.

(* Its result lies between 0 and the exact inverse. *)
Theorem erfinv_no_overshoot t :
  0 <= t -> erf t <= 1 - ulp1 -> exists r, erfinv (erf t) = Finite r /\ 0 <= r <= t.
Proof.
  intros T B. assert (0 <= erf t) by (rewrite <- erf_0; now apply erf_increasing_le).
  destruct (erfinv_pos (erf t)) as (r & E & R0 & R1); [lra|].
  exists r. split; [exact E|]. split; [exact R0|now apply erf_le_inv].
Qed.
Print Assumptions erfinv_no_overshoot.
Example erfinv_case : exists r, erfinv (erf (1 / 2)) = Finite r /\ 0 <= r <= 1 / 2.
Proof.
  apply erfinv_no_overshoot; [lra|].
  pose proof (erf_tangent 0 (1 / 2) (Rle_refl 0)) as T. rewrite erf_0 in T.
  pose proof slope_0. pose proof ulp1_small. lra.
Qed.

(* A Newton step keeps an exact inverse. *)
Theorem newton_fixpoint t : newton (erf t) t = t.
Proof. now apply newton_fix. Qed.
Print Assumptions newton_fixpoint.

Lemma times_sqrt2_cdf r : cdf (times_sqrt2 (Finite r)) = 1 / 2 * (1 + erf r).
Proof. simpl. pose proof (erf_cdf r). lra. Qed.

(* If the bounds enclose 0, the code's result lies between them. *)
Lemma inside_gen alpha beta p :
  Rbar_le alpha 0 -> Rbar_le 0 beta -> 0 <= p <= 1 ->
  let y := 2 * (p * (cdf beta - cdf alpha) + cdf alpha) - 1 in
  Rabs y <= 1 - ulp1 \/ Rabs y = 1 ->
  Rbar_le alpha (truncnorm_ppf p alpha beta) /\ Rbar_le (truncnorm_ppf p alpha beta) beta.
Proof.
  intros A B P y Y. unfold truncnorm_ppf, truncnorm_ppf_by. fold (cdf alpha) (cdf beta). fold y.
  assert (C0 : cdf 0 = 1 / 2).
  { unfold cdf; simpl. replace (0 / sqrt 2) with 0 by (unfold Rdiv; ring). rewrite erf_0. lra. }
  assert (CA : cdf alpha <= 1 / 2).
  { rewrite <- C0. apply Rbar_le_lt_or_eq_dec in A. destruct A as [A|A].
    - left. now apply cdf_lt.
    - rewrite A. lra. }
  assert (CB : 1 / 2 <= cdf beta).
  { rewrite <- C0. apply Rbar_le_lt_or_eq_dec in B. destruct B as [B|B].
    - left. now apply cdf_lt.
    - rewrite <- B. lra. }
  pose proof (cdf_bounds alpha) as BA. pose proof (cdf_bounds beta) as BB.
  assert (YA : 2 * cdf alpha - 1 <= y <= 2 * cdf beta - 1) by (unfold y; nra).
  pose proof ulp1_pos as UP.
  destruct Y as [Y|Y].
  - destruct (Rle_lt_dec 0 y) as [S0|S0].
    + rewrite Rabs_pos_eq in Y by exact S0.
      destruct (erfinv_pos y) as (r & E & R0 & R1); [lra|]. rewrite E.
      split; apply cdf_le_inv; rewrite times_sqrt2_cdf.
      * assert (0 <= erf r) by (rewrite <- erf_0; now apply erf_increasing_le). lra.
      * lra.
    + rewrite Rabs_left in Y by exact S0.
      destruct (erfinv_pos (- y)) as (r & E & R0 & R1); [lra|].
      replace y with (- - y) by ring. rewrite erfinv_opp, E.
      change (Rbar_opp (Finite r)) with (Finite (- r)).
      split; apply cdf_le_inv; rewrite times_sqrt2_cdf, erf_odd.
      * lra.
      * assert (0 <= erf r) by (rewrite <- erf_0; now apply erf_increasing_le). lra.
  - destruct (Rle_lt_dec 0 y) as [S0|S0].
    + rewrite Rabs_pos_eq in Y by exact S0. rewrite Y.
      destruct (erfinv_range 1) as (_ & E & _). rewrite E by lra. simpl times_sqrt2.
      split; apply cdf_le_inv.
      * change (cdf p_infty) with (1 / 2 * (1 + 1)). lra.
      * change (cdf p_infty) with (1 / 2 * (1 + 1)). lra.
    + rewrite Rabs_left in Y by exact S0. replace y with (-1) by lra.
      destruct (erfinv_range (-1)) as (E & _ & _). rewrite E by lra. simpl times_sqrt2.
      split; apply cdf_le_inv.
      * change (cdf m_infty) with (1 / 2 * (1 + -1)). lra.
      * change (cdf m_infty) with (1 / 2 * (1 + -1)). lra.
Qed.

(* The probability is measured through the distribution itself: ml and mr are the
   probabilities left of alpha and right of beta. The last hypothesis holds in double
   arithmetic for every argument of erfinv. *)
Theorem truncnorm_inside alpha beta p ml mr :
  Rbar_le alpha 0 -> Rbar_le 0 beta -> 0 <= p <= 1 ->
  mass m_infty alpha ml -> mass beta p_infty mr ->
  let y := 2 * (p * (1 - mr) + (1 - p) * ml) - 1 in
  Rabs y <= 1 - ulp1 \/ Rabs y = 1 ->
  Rbar_le alpha (truncnorm_ppf p alpha beta) /\ Rbar_le (truncnorm_ppf p alpha beta) beta.
Proof.
  intros A B P ML MR y Y. apply mass_unique in ML. apply mass_unique in MR.
  assert (cdf m_infty = 0) by (unfold cdf; simpl; lra).
  assert (cdf p_infty = 1) by (unfold cdf; simpl; lra).
  apply inside_gen; try assumption.
  replace (2 * (p * (cdf beta - cdf alpha) + cdf alpha) - 1) with y; [exact Y|].
  unfold y. rewrite ML, MR, H, H0. ring.
Qed.
Print Assumptions truncnorm_inside.

Lemma erf_small t : 0 <= t -> erf t <= 116 / 100 * t.
Proof.
  intros T. pose proof (erf_tangent 0 t (Rle_refl 0) T) as K. rewrite erf_0 in K.
  pose proof slope_0. nra.
Qed.

(* The prior of the energy shift stays within its limits, for every u in [0, 1]. *)
Theorem prior_shift_range u : 0 <= u <= 1 ->
  exists e, prior_shift erfinv u = Finite e /\ -5 <= e <= 5.
Proof.
  intros U. unfold prior_shift.
  replace ((-5 - 0) / 5) with (-1) by field. replace ((5 - 0) / 5) with 1 by field.
  assert (S2 := sqrt2_pos). assert (SQ := sqrt2_sq).
  assert (S3 : 14 / 10 <= sqrt 2).
  { apply Rsqr_incr_0_var; [|lra]. unfold Rsqr. lra. }
  assert (T1 : 0 <= 1 / sqrt 2 <= 10 / 14).
  { split; [apply Rmult_le_pos; [lra|left; now apply Rinv_0_lt_compat]|].
    unfold Rdiv. rewrite Rmult_1_l. replace (10 * / 14) with (/ (14 / 10)) by field.
    apply Rinv_le_contravar; lra. }
  assert (E1 : erf (1 / sqrt 2) <= 85 / 100) by (pose proof (erf_small (1 / sqrt 2)); lra).
  assert (C1 : cdf 1 = 1 / 2 * (1 + erf (1 / sqrt 2))) by reflexivity.
  assert (C2 : cdf (-1) = 1 / 2 * (1 - erf (1 / sqrt 2))).
  { unfold cdf; simpl. replace (-1 / sqrt 2) with (- (1 / sqrt 2)) by (field; lra).
    rewrite erf_odd. ring. }
  assert (E0 : 0 <= erf (1 / sqrt 2)) by (rewrite <- erf_0; now apply erf_increasing_le).
  destruct (inside_gen (-1) 1 u) as [A B].
  - simpl. lra.
  - simpl. lra.
  - exact U.
  - left. rewrite C1, C2. pose proof ulp1_small. apply Rabs_le. nra.
  - fold (truncnorm_ppf u (-1) 1).
    destruct (truncnorm_ppf u (-1) 1) as [t| |]; simpl in A, B; try contradiction.
    exists (t * 5 + 0). split; [reflexivity|]. lra.
Qed.
Print Assumptions prior_shift_range.

(* The prior of the scale is not negative, for every double u in [0, 1]. *)
Theorem prior_scale_nonneg A u : 0 < A -> 0 <= u <= 1 - ulp1 \/ u = 1 ->
  Rbar_le 0 (prior_scale erfinv A u).
Proof.
  intros PA U. unfold prior_scale.
  replace ((0 - A) / (10 * A)) with (- (1 / 10)) by (field; lra).
  pose proof ulp1_pos as UP. pose proof ulp1_small as US.
  assert (U' : 0 <= u <= 1) by (destruct U; lra).
  assert (S2 := sqrt2_pos). assert (SQ := sqrt2_sq).
  assert (C1 : cdf p_infty = 1) by (unfold cdf; simpl; lra).
  assert (C2 : cdf (- (1 / 10)) = 1 / 2 * (1 - erf (1 / 10 / sqrt 2))).
  { unfold cdf; simpl. replace (- (1 / 10) / sqrt 2) with (- (1 / 10 / sqrt 2)) by (field; lra).
    rewrite erf_odd. ring. }
  assert (T0 : 0 <= 1 / 10 / sqrt 2 <= 1 / 10).
  { split; [apply Rmult_le_pos; [lra|left; now apply Rinv_0_lt_compat]|].
    assert (1 <= sqrt 2) by (apply Rsqr_incr_0_var; [unfold Rsqr; lra|lra]).
    apply Rmult_le_reg_r with (sqrt 2); [exact S2|].
    unfold Rdiv. rewrite !Rmult_assoc, Rinv_l by lra. lra. }
  assert (E0 : 0 <= erf (1 / 10 / sqrt 2)) by (rewrite <- erf_0; now apply erf_increasing_le).
  assert (E1 : erf (1 / 10 / sqrt 2) <= 2 / 10) by (pose proof (erf_small (1 / 10 / sqrt 2)); lra).
  destruct (inside_gen (- (1 / 10)) p_infty u) as [L _].
  - simpl. lra.
  - exact I.
  - exact U'.
  - rewrite C1, C2. destruct U as [U| ->].
    + left. apply Rabs_le. nra.
    + right. match goal with |- Rabs ?e = 1 => replace e with 1 by field end. apply Rabs_R1.
  - fold (truncnorm_ppf u (Finite (- (1 / 10))) p_infty).
    destruct (truncnorm_ppf u (Finite (- (1 / 10))) p_infty) as [t| |]; simpl in *; try contradiction.
    + nra.
    + exact I.
Qed.
Print Assumptions prior_scale_nonneg.

(* The log-uniform priors lie within a factor of ten of the guess. *)
Theorem prior_log_range guess u : 0 < guess -> 0 <= u <= 1 ->
  guess / 10 <= prior_log guess u <= 10 * guess.
Proof.
  intros G U. unfold prior_log, Rpower.
  assert (L10 : 0 < ln 10) by (rewrite <- ln_1; apply ln_increasing; lra).
  replace ((u * 2 + (ln guess / ln 10 - 1)) * ln 10)
    with (ln guess + (2 * u - 1) * ln 10) by (field; lra).
  assert (M : forall a b, a <= b -> exp a <= exp b).
  { intros a b [K| ->]; [left; now apply exp_increasing|lra]. }
  assert (E0 : guess / 10 = exp (ln guess - ln 10)).
  { unfold Rminus. rewrite exp_plus, exp_Ropp, !exp_ln by lra. reflexivity. }
  assert (E1 : 10 * guess = exp (ln guess + ln 10)).
  { rewrite exp_plus, !exp_ln by lra. ring. }
  rewrite E0, E1. split; apply M; nra.
Qed.
Print Assumptions prior_log_range.
