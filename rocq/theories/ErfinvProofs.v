(* The two Newton steps of erfinv.hpp: the first approximation is good enough for the
   steps to stay on the side where the error function is concave, so the result never
   passes the exact inverse. *)
From Coq Require Import Reals Lra Psatz.
From Coquelicot Require Import Coquelicot.
From Verif Require Import StatsModel StatsProofs.
Local Open Scope R_scope.

Definition slope (r : R) : R := 2 / sqrt PI * gauss r.

Lemma slope_pos r : 0 < slope r.
Proof. apply erf_slope_pos. Qed.
Lemma newton_slope x r : newton x r = r - (erf r - x) / slope r.
Proof. unfold newton, slope, gauss. replace (- r * r) with (- (r * r)) by ring. reflexivity. Qed.
Lemma newton_eq x r : x = erf r + slope r * (newton x r - r).
Proof. rewrite newton_slope. pose proof (slope_pos r). field. lra. Qed.

Lemma gauss_decr a b : 0 <= a <= b -> gauss b <= gauss a.
Proof.
  intros [A B]. unfold gauss.
  assert (L : - (b * b) <= - (a * a)) by nra.
  destruct L as [L|L]; [left; now apply exp_increasing|rewrite L; lra].
Qed.
Lemma slope_decr a b : 0 <= a <= b -> slope b <= slope a.
Proof.
  intros L. unfold slope. apply Rmult_le_compat_l; [|now apply gauss_decr].
  left. apply Rdiv_lt_0_compat; [lra|apply sqrtPI_pos].
Qed.

(* the error function lies below its tangents on [0, oo) *)
Lemma erf_tangent r s : 0 <= r -> 0 <= s -> erf s <= erf r + slope r * (s - r).
Proof.
  intros R0 S0. destruct (Rtotal_order r s) as [L|[->|L]].
  - destruct (erf_mvt r s L) as (c & C & E).
    assert (slope c <= slope r) by (apply slope_decr; lra). unfold slope in *. nra.
  - lra.
  - destruct (erf_mvt s r L) as (c & C & E).
    assert (slope r <= slope c) by (apply slope_decr; lra). unfold slope in *. nra.
Qed.

Lemma newton_below x r : 0 <= r -> 0 <= newton x r -> erf (newton x r) <= x.
Proof.
  intros R0 N0. pose proof (erf_tangent r (newton x r) R0 N0) as T.
  rewrite <- newton_eq in T. exact T.
Qed.
Lemma newton_up x r : erf r <= x -> r <= newton x r.
Proof.
  intros L. pose proof (newton_eq x r) as E. pose proof (slope_pos r) as S1. nra.
Qed.
Lemma newton_fix x r : erf r = x -> newton x r = r.
Proof. intros <-. rewrite newton_slope. unfold Rminus. rewrite Rplus_opp_r. unfold Rdiv. ring. Qed.
Lemma newton_odd x r : newton (- x) (- r) = - newton x r.
Proof.
  rewrite !newton_slope, erf_odd.
  replace (slope (- r)) with (slope r).
  2: { unfold slope, gauss. now replace (- r * - r) with (r * r) by ring. }
  pose proof (slope_pos r). field. lra.
Qed.

(* ------------------------------------------------ constants *)
Lemma PI_3 : 3 < PI.
Proof. pose proof PI2_3_2. lra. Qed.
Lemma sqrtPI_low : 173 / 100 <= sqrt PI.
Proof.
  apply Rsqr_incr_0_var; [|left; apply sqrtPI_pos]. unfold Rsqr.
  pose proof PI_3. rewrite sqrt_sqrt by lra. lra.
Qed.
Lemma sqrtPI_high : sqrt PI <= 2.
Proof.
  apply Rsqr_incr_0_var; [|lra]. unfold Rsqr.
  pose proof PI_3. pose proof PI_4. rewrite sqrt_sqrt by lra. lra.
Qed.
Lemma slope_0 : slope 0 <= 116 / 100.
Proof.
  unfold slope, gauss. replace (- (0 * 0)) with 0 by ring. rewrite exp_0, Rmult_1_r.
  pose proof sqrtPI_low. apply Rmult_le_reg_r with (sqrt PI); [lra|].
  unfold Rdiv. rewrite Rmult_assoc, Rinv_l by lra. lra.
Qed.
Lemma exp_ge_1 t : 1 + t <= exp t.
Proof.
  destruct (Req_dec t 0) as [->|N]; [rewrite exp_0; lra|left; now apply exp_ineq1].
Qed.
Lemma gauss_low r : 1 - r * r <= gauss r.
Proof. unfold gauss. pose proof (exp_ge_1 (- (r * r))). lra. Qed.

(* ------------------------------------------------ the first approximation, x <= 0.7 *)
Lemma low_bounds x : 0 <= x <= 7 / 10 -> 0 <= approx_low x <= 12 / 10 * x.
Proof.
  intros [X0 X1]. unfold approx_low, dec.
  set (z := x * x). assert (Z : 0 <= z <= 49 / 100) by (unfold z; nra).
  set (N := ((-140543331 / 1000000000 * z + 914624893 / 1000000000) * z
             + -1645349621 / 1000000000) * z + 886226899 / 1000000000).
  set (D := (((12229801 / 1000000000 * z + -329097515 / 1000000000) * z
              + 1442710462 / 1000000000) * z + -2118377725 / 1000000000) * z + 1).
  assert (Z2 : 0 <= z * z) by nra. assert (Z3 : 0 <= z * z * z) by nra.
  assert (Z4 : 0 <= z * z * z * z) by nra.
  assert (W : 0 <= 49 / 100 - z) by lra.
  assert (N0 : 0 <= N) by (unfold N; nra).
  assert (D0 : N <= 12 / 10 * D) by (unfold N, D; nra).
  assert (D1 : 0 < D) by (unfold D in *; nra).
  replace (x * N / D) with (x * (N / D)) by (field; lra).
  assert (Q : 0 <= N / D <= 12 / 10).
  { split; [apply Rmult_le_pos; [exact N0|left; now apply Rinv_0_lt_compat]|].
    apply Rmult_le_reg_r with D; [exact D1|].
    unfold Rdiv at 1. rewrite Rmult_assoc, Rinv_l by lra. lra. }
  nra.
Qed.

Lemma low_step x : 0 <= x <= 7 / 10 -> 0 <= newton x (approx_low x).
Proof.
  intros X. destruct (low_bounds x X) as [R0 R1]. set (r := approx_low x) in *.
  pose proof (newton_eq x r) as E. pose proof (slope_pos r) as SP.
  assert (T : erf r <= slope 0 * r).
  { pose proof (erf_tangent 0 r (Rle_refl 0) R0) as T. rewrite erf_0 in T. lra. }
  assert (SL : slope 0 * (1 - r * r) <= slope r).
  { unfold slope. replace (gauss 0) with 1.
    2: { unfold gauss. replace (- (0 * 0)) with 0 by ring. now rewrite exp_0. }
    rewrite Rmult_1_r. apply Rmult_le_compat_l; [|apply gauss_low].
    left. apply Rdiv_lt_0_compat; [lra|apply sqrtPI_pos]. }
  pose proof slope_0 as S0. pose proof (slope_pos 0) as S1.
  assert (C : slope 0 * (r * r * r) <= x).
  { assert (R3 : r * r * r <= 1728 / 1000 * (x * x * x)).
    { replace (1728 / 1000 * (x * x * x)) with ((12 / 10 * x) * (12 / 10 * x) * (12 / 10 * x)) by field.
      apply Rmult_le_compat; [nra|lra| |lra]. apply Rmult_le_compat; lra. }
    assert (X2 : x * x <= 49 / 100) by nra.
    assert (X3 : x * x * x <= 49 / 100 * x) by nra.
    assert (0 <= r * r * r) by (apply Rmult_le_pos; nra).
    nra. }
  nra.
Qed.

(* ------------------------------------------------ the first approximation, x > 0.7 *)
Lemma exp_pow2_64 t c0 c1 c2 c3 c4 c5 c6 :
  0 <= c0 <= 1 + t / 64 -> 0 <= c1 <= c0 * c0 -> 0 <= c2 <= c1 * c1 -> 0 <= c3 <= c2 * c2 ->
  0 <= c4 <= c3 * c3 -> 0 <= c5 <= c4 * c4 -> c6 <= c5 * c5 -> c6 <= exp t.
Proof.
  intros H0 H1 H2 H3 H4 H5 H6.
  assert (sq : forall a u, 0 <= a <= exp u -> a * a <= exp (2 * u)).
  { intros a u [A B]. replace (2 * u) with (u + u) by ring. rewrite exp_plus.
    apply Rmult_le_compat; lra. }
  assert (E0 : 0 <= c0 <= exp (t / 64)) by (pose proof (exp_ge_1 (t / 64)); lra).
  pose proof (sq _ _ E0) as E1.
  assert (E1' : 0 <= c1 <= exp (2 * (t / 64))) by lra. pose proof (sq _ _ E1') as E2.
  assert (E2' : 0 <= c2 <= exp (2 * (2 * (t / 64)))) by lra. pose proof (sq _ _ E2') as E3.
  assert (E3' : 0 <= c3 <= exp (2 * (2 * (2 * (t / 64))))) by lra. pose proof (sq _ _ E3') as E4.
  assert (E4' : 0 <= c4 <= exp (2 * (2 * (2 * (2 * (t / 64)))))) by lra. pose proof (sq _ _ E4') as E5.
  assert (E5' : 0 <= c5 <= exp (2 * (2 * (2 * (2 * (2 * (t / 64))))))) by lra. pose proof (sq _ _ E5') as E6.
  replace t with (2 * (2 * (2 * (2 * (2 * (2 * (t / 64))))))) by field. lra.
Qed.
Lemma exp_m18225 : 15 / 100 <= exp (- (135 / 100 * (135 / 100))).
Proof.
  apply (exp_pow2_64 _ (9715 / 10000) (9438 / 10000) (8907 / 10000) (7933 / 10000)
           (6293 / 10000) (3960 / 10000)); lra.
Qed.

Lemma exp_quadratic u : 0 <= u -> 1 + u + u * u / 2 <= exp u.
Proof.
  intros [L| <-].
  2: { rewrite exp_0. lra. }
  destruct (MVT_cor2 (fun t => exp t - (1 + t + t * t / 2)) (fun t => exp t - (1 + t)) 0 u L)
    as (c & E & C).
  - intros c _. apply is_derive_Reals.
    auto_derive; [trivial|field].
  - rewrite exp_0 in E. pose proof (exp_ge_1 c) as P.
    assert (0 <= (exp c - (1 + c)) * (u - 0)) by (apply Rmult_le_pos; lra). lra.
Qed.

Definition ulp1 : R := / 2 ^ 53.

Lemma high_y x : 7 / 10 < x <= 1 - ulp1 ->
  let y := sqrt (- ln ((1 - x) / 2)) in
  135 / 100 <= y <= 74 / 10 /\ 1 - x = 2 * exp (- (y * y)).
Proof.
  intros [X0 X1] y. unfold ulp1 in X1.
  assert (U : 0 < / 2 ^ 53) by (apply Rinv_0_lt_compat; apply pow_lt; lra).
  set (v := (1 - x) / 2) in *. assert (V0 : / 2 ^ 54 <= v).
  { unfold v. replace (2 ^ 54) with (2 ^ 53 * 2) by (simpl; ring).
    rewrite Rinv_mult. lra. }
  assert (V2 : 0 < / 2 ^ 54) by (apply Rinv_0_lt_compat; apply pow_lt; lra).
  assert (V : 0 < v) by lra. assert (V1 : v <= 15 / 100) by (unfold v; lra).
  assert (L0 : 135 / 100 * (135 / 100) <= - ln v).
  { assert (ln v <= - (135 / 100 * (135 / 100))); [|lra].
    rewrite <- (ln_exp (- (135 / 100 * (135 / 100)))).
    pose proof exp_m18225. apply ln_le; lra. }
  assert (L1 : - ln v <= 54).
  { assert (- 54 <= ln v); [|lra].
    apply Rle_trans with (ln (/ 2 ^ 54)); [|apply ln_le; lra].
    rewrite ln_Rinv by (apply pow_lt; lra). rewrite ln_pow by lra.
    assert (ln 2 <= 1).
    { rewrite <- (ln_exp 1). apply ln_le; [lra|]. pose proof (exp_ge_1 1). lra. }
    replace (INR 54) with 54 by (simpl; ring). lra. }
  assert (YY : y * y = - ln v) by (unfold y; apply sqrt_sqrt; lra).
  assert (Y0 : 0 <= y) by apply sqrt_pos.
  split; [split; nra|].
  rewrite YY, Ropp_involutive, exp_ln by exact V. unfold v. field.
Qed.

Lemma high_bounds x : 7 / 10 < x <= 1 - ulp1 ->
  let y := sqrt (- ln ((1 - x) / 2)) in
  69 / 100 <= approx_high x /\ 12 / 10 <= y * y - approx_high x * approx_high x.
Proof.
  intros X. destruct (high_y x X) as [[Y0 Y1] _]. intros y. fold y in Y0, Y1.
  unfold approx_high. fold y. unfold dec.
  set (P := ((1641345311 / 1000000000 * y + 3429567803 / 1000000000) * y
             + -162490649 / 100000000) * y + -1970840454 / 1000000000).
  set (Q := (1637067800 / 1000000000 * y + 3543889200 / 1000000000) * y + 1).
  assert (Q0 : 0 < Q) by (unfold Q; nra).
  set (w := y - 135 / 100). assert (W : 0 <= w <= 605 / 100) by (unfold w; lra).
  assert (P0 : 69 / 100 * Q <= P).
  { unfold P, Q. replace y with (w + 135 / 100) by (unfold w; ring).
    assert (0 <= w * w) by nra. assert (0 <= w * w * w) by nra. nra. }
  set (r := P / Q). assert (RQ : r * Q = P) by (unfold r; field; lra).
  assert (R0 : 69 / 100 <= r) by nra.
  split; [exact R0|].
  assert (D : 12 / 10 * Q <= (y * Q - P) * (y + 69 / 100)).
  { unfold P, Q. replace y with (w + 135 / 100) by (unfold w; ring).
    assert (0 <= 605 / 100 - w) by lra.
    assert (0 <= w * w) by nra. assert (0 <= w * w * w) by nra.
    assert (0 <= w * w * w * (605 / 100 - w)) by (apply Rmult_le_pos; lra).
    assert (0 <= w * w * (605 / 100 - w)) by (apply Rmult_le_pos; lra).
    nra. }
  assert (D0 : 0 < y * Q - P).
  { assert (0 < (y * Q - P) * (y + 69 / 100)) by nra.
    apply Rmult_lt_reg_r with (y + 69 / 100); lra. }
  assert (YR : y - r = (y * Q - P) / Q) by (unfold r; field; lra).
  assert (E : 12 / 10 <= (y - r) * (y + 69 / 100)).
  { rewrite YR. apply Rmult_le_reg_r with Q; [exact Q0|].
    replace ((y * Q - P) / Q * (y + 69 / 100) * Q) with ((y * Q - P) * (y + 69 / 100)) by (field; lra).
    exact D. }
  assert (0 < y - r) by (rewrite YR; apply Rdiv_lt_0_compat; lra).
  nra.
Qed.

Lemma high_step x : 7 / 10 < x <= 1 - ulp1 -> 0 <= newton x (approx_high x).
Proof.
  intros X. destruct (high_y x X) as [_ EX]. destruct (high_bounds x X) as [R0 U].
  set (y := sqrt (- ln ((1 - x) / 2))) in *. set (r := approx_high x) in *.
  set (u := y * y - r * r) in *.
  pose proof (newton_eq x r) as E. pose proof (slope_pos r) as SP.
  pose proof (erf_bound r) as [_ B].
  assert (Q : 2 * exp (- (y * y)) <= slope r * r).
  { assert (F : exp (- (y * y)) = gauss r * exp (- u)).
    { unfold gauss. rewrite <- exp_plus. f_equal. unfold u. ring. }
    assert (EU : exp (- u) <= 1 / 292 * 100).
    { rewrite exp_Ropp. replace (1 / 292 * 100) with (/ (292 / 100)) by field.
      apply Rinv_le_contravar; [lra|]. pose proof (exp_quadratic u). nra. }
    rewrite F. unfold slope. pose proof (gauss_pos r) as GP.
    replace (2 / sqrt PI * gauss r * r) with (gauss r * (2 * r / sqrt PI)).
    2: { field. pose proof sqrtPI_pos. lra. }
    replace (2 * (gauss r * exp (- u))) with (gauss r * (2 * exp (- u))) by ring.
    apply Rmult_le_compat_l; [lra|].
    apply Rle_trans with (2 * r / 2).
    - lra.
    - unfold Rdiv. apply Rmult_le_compat_l; [lra|].
      apply Rinv_le_contravar; [apply sqrtPI_pos|apply sqrtPI_high]. }
  nra.
Qed.

Lemma approx_step x : 0 <= x <= 1 - ulp1 -> 0 <= approx x /\ 0 <= newton x (approx x).
Proof.
  intros [X0 X1]. unfold approx. destruct (Rle_dec x (7 / 10)) as [L|L].
  - split; [apply low_bounds; lra|apply low_step; lra].
  - assert (X : 7 / 10 < x <= 1 - ulp1) by lra.
    split; [destruct (high_bounds x X); lra|now apply high_step].
Qed.

Lemma ulp1_pos : 0 < ulp1.
Proof. unfold ulp1. apply Rinv_0_lt_compat. apply pow_lt. lra. Qed.
Lemma ulp1_small : ulp1 <= 1 / 100.
Proof.
  unfold ulp1. replace (1 / 100) with (/ 100) by field. apply Rinv_le_contravar; [lra|].
  apply Rle_trans with (2 ^ 7); [simpl; lra|]. apply Rle_pow; [lra|repeat constructor].
Qed.

Lemma erfinv_pos x : 0 <= x <= 1 - ulp1 ->
  exists r, erfinv x = Finite r /\ 0 <= r /\ erf r <= x.
Proof.
  intros X. pose proof ulp1_pos. pose proof ulp1_small. destruct (approx_step x X) as [A N].
  unfold erfinv. destruct (Rle_dec x (-1)); [lra|]. destruct (Rle_dec 1 x); [lra|].
  destruct (Rlt_dec x 0); [lra|]. rewrite (Rabs_pos_eq x), !Rmult_1_r by lra.
  eexists. split; [reflexivity|].
  set (r1 := newton x (approx x)) in *.
  assert (B1 : erf r1 <= x) by (apply newton_below; assumption).
  pose proof (newton_up x r1 B1) as U.
  split; [lra|]. apply newton_below; lra.
Qed.

Lemma erfinv_opp x : erfinv (- x) = Rbar_opp (erfinv x).
Proof.
  unfold erfinv.
  destruct (Rle_dec (- x) (-1)), (Rle_dec x (-1)), (Rle_dec 1 (- x)), (Rle_dec 1 x);
    try (exfalso; Lra.lra); try reflexivity.
  rewrite Rabs_Ropp. simpl. f_equal.
  destruct (Rlt_dec (- x) 0), (Rlt_dec x 0); try (exfalso; Lra.lra).
  - rewrite !Rmult_1_r. rewrite <- newton_odd. 
    replace (Rabs x * -1) with (- Rabs x) by ring.
    replace (approx (Rabs x) * -1) with (- approx (Rabs x)) by ring.
    rewrite <- newton_odd. reflexivity.
  - rewrite !Rmult_1_r.
    replace (Rabs x * -1) with (- Rabs x) by ring.
    replace (approx (Rabs x) * -1) with (- approx (Rabs x)) by ring.
    now rewrite !newton_odd, Ropp_involutive.
  - replace x with 0 by Lra.lra. rewrite Rabs_R0, !Rmult_1_r.
    assert (A : approx 0 = 0).
    { unfold approx. destruct (Rle_dec 0 (7 / 10)); [|Lra.lra].
      unfold approx_low. unfold Rdiv. ring. }
    rewrite A, !(newton_fix 0 0 erf_0). ring.
Qed.
