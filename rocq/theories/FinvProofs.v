(* Finv ends and its result has the probability asked for, up to the tolerance. *)
From Coq Require Import Reals ZArith Lia Lra Psatz.
From Coquelicot Require Import Coquelicot.
From Verif Require Import StatsModel StatsSpec StatsProofs ErfinvProofs StatsCdf FinvModel.
Local Open Scope R_scope.

Lemma rootc_pos : 0 < rootc. Proof. unfold rootc; lra. Qed.

Lemma Fc_bound x : 0 < Fc x < 1.
Proof. unfold Fc. pose proof (erf_bound (x / rootc)). lra. Qed.
Lemma Fc_0 : Fc 0 = 5 / 10.
Proof. unfold Fc. replace (0 / rootc) with 0 by (unfold Rdiv; ring). rewrite erf_0. lra. Qed.
Lemma Fc_incr a b : a < b -> Fc a < Fc b.
Proof.
  intros L. unfold Fc. assert (erf (a / rootc) < erf (b / rootc)); [|lra].
  apply erf_increasing. unfold Rdiv. apply Rmult_lt_compat_r; [|exact L].
  apply Rinv_0_lt_compat, rootc_pos.
Qed.
Lemma Fc_lt_inv a b : Fc a < Fc b -> a < b.
Proof.
  intros L. destruct (Rlt_le_dec a b) as [A|A]; [exact A|].
  destruct (Rle_lt_or_eq_dec _ _ A) as [B|B]; [apply Fc_incr in B; lra|subst; lra].
Qed.
(* the slope is at most 1 *)
Lemma erf_lip a b : a <= b -> erf b - erf a <= 116 / 100 * (b - a).
Proof.
  intros L. destruct (Req_dec a b) as [->|N]; [lra|].
  destruct (erf_mvt a b) as (c & C & E); [lra|]. rewrite E.
  assert (2 / sqrt PI * gauss c <= 116 / 100).
  { eapply Rle_trans; [|apply slope_0]. unfold slope.
    apply Rmult_le_compat_l; [pose proof sqrtPI_pos; apply Rlt_le, Rdiv_lt_0_compat; lra|].
    unfold gauss. destruct (Req_dec c 0) as [->|NZ]; [lra|].
    left. apply exp_increasing. pose proof (Rsqr_pos_lt c NZ). unfold Rsqr in *. lra. }
  apply Rmult_le_compat_r; lra.
Qed.
Lemma Fc_lip a b : a <= b -> Fc b - Fc a <= b - a.
Proof.
  intros L. unfold Fc. pose proof rootc_pos as P.
  assert (D : a / rootc <= b / rootc).
  { unfold Rdiv. apply Rmult_le_compat_r; [left; now apply Rinv_0_lt_compat|exact L]. }
  pose proof (erf_lip _ _ D) as E.
  assert (b / rootc - a / rootc <= b - a).
  { replace (b / rootc - a / rootc) with ((b - a) * (1000000000 / 1414213562))
      by (unfold rootc; field). nra. }
  lra.
Qed.
Lemma Fc_high e : 0 < e -> exists X, forall x, Fc x < 1 - e -> x < X.
Proof.
  intros E. destruct (Rlt_le_dec e 1) as [L|L].
  - destruct (erf_onto (1 - 2 * e)) as (t & T); [lra|]. exists (t * rootc). intros x H.
    apply Fc_lt_inv. unfold Fc at 2. pose proof rootc_pos.
    replace (t * rootc / rootc) with t by (field; lra). rewrite T. lra.
  - exists 0. intros x H. pose proof (Fc_bound x). lra.
Qed.
Lemma Fc_low e : 0 < e -> exists X, forall x, e < Fc x -> X < x.
Proof.
  intros E. destruct (Rlt_le_dec e 1) as [L|L].
  - destruct (erf_onto (2 * e - 1)) as (t & T); [lra|]. exists (t * rootc). intros x H.
    apply Fc_lt_inv. unfold Fc at 1. pose proof rootc_pos.
    replace (t * rootc / rootc) with t by (field; lra). rewrite T. lra.
  - exists 0. intros x H. pose proof (Fc_bound x). lra.
Qed.

Lemma INR_above w : exists n, w < INR n.
Proof.
  exists (Z.to_nat (up w)). destruct (archimed w) as [A _].
  destruct (Z_le_gt_dec 0 (up w)) as [P|P].
  - rewrite INR_IZR_INZ, Z2Nat.id by exact P. lra.
  - assert (IZR (up w) < 0) by (apply IZR_lt; lia). pose proof (pos_INR (Z.to_nat (up w))). lra.
Qed.
Lemma enough w d : 0 < d -> exists n, w <= INR n * d.
Proof.
  intros D. destruct (INR_above (w / d)) as (n & N). exists n.
  apply Rmult_le_reg_r with (/ d); [now apply Rinv_0_lt_compat|].
  rewrite Rmult_assoc, Rinv_r, Rmult_1_r by lra. apply Rlt_le. exact N.
Qed.

Definition eps : R := 1 / 1000.
Definition ends (y0 : R) (s : fvars) : Prop := exists n x, finv_loop n y0 s = FVal x.

(* the loop ends where it is, or one more turn is taken *)
Lemma ends_now y0 s : Rabs (yy s - y0) <= eps -> ends y0 s.
Proof.
  intros H. exists O, (xx s). simpl. unfold eps in H. destruct (Rlt_dec _ _); [lra|reflexivity].
Qed.
Lemma ends_step y0 s : yh s - yl s <> 0 ->
  let x := xl s + (xh s - xl s) * (y0 - yl s) / (yh s - yl s) in
  (y0 < Fc x -> ends y0 (mkF x (xh s) x (Fc x) (yh s) (Fc x))) ->
  (Fc x <= y0 -> ends y0 (mkF (xl s) x x (yl s) (Fc x) (Fc x))) ->
  ends y0 s.
Proof.
  intros N x A B.
  destruct (Rlt_dec y0 (Fc x)) as [L|L].
  - destruct (A L) as (n & r & E). 
    destruct (Rlt_dec (1 / 1000) (Rabs (yy s - y0))) as [T|T].
    + exists (S n), r. simpl. destruct (Rlt_dec _ _); [|contradiction].
      destruct (Req_EM_T _ _); [contradiction|]. fold x. destruct (Rlt_dec y0 (Fc x)); [exact E|lra].
    + apply ends_now. unfold eps. lra.
  - destruct (B ltac:(lra)) as (n & r & E).
    destruct (Rlt_dec (1 / 1000) (Rabs (yy s - y0))) as [T|T].
    + exists (S n), r. simpl. destruct (Rlt_dec _ _); [|contradiction].
      destruct (Req_EM_T _ _); [contradiction|]. fold x. destruct (Rlt_dec y0 (Fc x)); [lra|exact E].
    + apply ends_now. unfold eps. lra.
Qed.
Lemma near_low y0 y : y <= y0 -> y0 - eps <= y -> Rabs (y - y0) <= eps.
Proof. intros A B. rewrite Rabs_left1 by lra. lra. Qed.
Lemma near_high y0 y : y0 < y -> y <= y0 + eps -> Rabs (y - y0) <= eps.
Proof. intros A B. rewrite Rabs_right by lra. lra. Qed.

(* the two points are on both sides of the solution *)
Lemma bracket_ends y0 n : forall a b u v,
  Fc b < y0 - eps -> y0 + eps < Fc a -> a - b <= INR n * (2 * eps * eps) ->
  ends y0 (mkF a b u (Fc a) (Fc b) v).
Proof.
  induction n as [|n IH]; intros a b u v B A W.
  - exfalso. simpl in W. assert (b < a) by (apply Fc_lt_inv; unfold eps in *; lra). lra.
  - assert (L : b < a) by (apply Fc_lt_inv; unfold eps in *; lra).
    pose proof (Fc_lip b a ltac:(lra)) as LIP.
    pose proof (Fc_bound a) as FA. pose proof (Fc_bound b) as FB.
    rewrite S_INR in W.
    assert (E3 : 0 < eps) by (unfold eps; lra).
    assert (D : Fc b - Fc a <> 0) by lra.
    apply ends_step; cbn [xl xh yl yh xx yy]; [exact D| |];
      set (x := a + (b - a) * (y0 - Fc a) / (Fc b - Fc a)); intros HX.
    + destruct (Rle_lt_dec (Fc x) (y0 + eps)) as [N|N];
        [apply ends_now; cbn [yy]; now apply near_high|].
      apply IH; [exact B|exact N|].
      assert (X : x - b = (a - b) - (a - b) * ((Fc a - y0) / (Fc a - Fc b)))
        by (unfold x; field; lra).
      assert (T : eps <= (Fc a - y0) / (Fc a - Fc b)).
      { apply Rmult_le_reg_r with (Fc a - Fc b); [lra|].
        unfold Rdiv. rewrite Rmult_assoc, Rinv_l, Rmult_1_r by lra. nra. }
      assert (2 * eps * eps <= (a - b) * ((Fc a - y0) / (Fc a - Fc b))).
      { apply Rmult_le_compat; lra. }
      lra.
    + destruct (Rle_lt_dec (y0 - eps) (Fc x)) as [N|N];
        [apply ends_now; cbn [yy]; now apply near_low|].
      apply IH; [exact N|exact A|].
      assert (X : a - x = (a - b) - (a - b) * ((y0 - Fc b) / (Fc a - Fc b)))
        by (unfold x; field; lra).
      assert (T : eps <= (y0 - Fc b) / (Fc a - Fc b)).
      { apply Rmult_le_reg_r with (Fc a - Fc b); [lra|].
        unfold Rdiv. rewrite Rmult_assoc, Rinv_l, Rmult_1_r by lra. nra. }
      assert (2 * eps * eps <= (a - b) * ((y0 - Fc b) / (Fc a - Fc b))).
      { apply Rmult_le_compat; lra. }
      lra.
Qed.
Lemma bracket_always y0 a b u v : Fc b < y0 - eps -> y0 + eps < Fc a ->
  ends y0 (mkF a b u (Fc a) (Fc b) v).
Proof.
  intros B A. assert (P : 0 < 2 * eps * eps) by (unfold eps; lra).
  destruct (enough (a - b) (2 * eps * eps) P) as (n & N).
  now apply bracket_ends with n.
Qed.

(* all points so far are below the solution *)
Lemma below_ends y0 X d n : y0 <= 1 -> 0 < d ->
  (forall x, Fc x < 1 - eps -> x < X) -> forall b u v,
  Fc b < y0 - eps -> d <= b + 3 -> X - b <= INR n * (eps * d) ->
  ends y0 (mkF (-3) b u 0 (Fc b) v).
Proof.
  intros Y D HX. induction n as [|n IH]; intros b u v B Q W.
  - exfalso. simpl in W. assert (b < X) by (apply HX; lra). lra.
  - pose proof (Fc_bound b) as FB. rewrite S_INR in W.
    assert (E3 : 0 < eps) by (unfold eps; lra).
    apply ends_step; cbn [xl xh yl yh xx yy]; [lra| |];
      set (x := -3 + (b - -3) * (y0 - 0) / (Fc b - 0)); intros H.
    + destruct (Rle_lt_dec (Fc x) (y0 + eps)) as [N|N];
        [apply ends_now; cbn [yy]; now apply near_high|].
      now apply bracket_always.
    + destruct (Rle_lt_dec (y0 - eps) (Fc x)) as [N|N];
        [apply ends_now; cbn [yy]; now apply near_low|].
      assert (Xe : x - b = (b + 3) * ((y0 - Fc b) / Fc b)) by (unfold x; field; lra).
      assert (T : eps <= (y0 - Fc b) / Fc b).
      { apply Rmult_le_reg_r with (Fc b); [lra|].
        unfold Rdiv. rewrite Rmult_assoc, Rinv_l, Rmult_1_r by lra. nra. }
      assert (d * eps <= (b + 3) * ((y0 - Fc b) / Fc b)) by (apply Rmult_le_compat; lra).
      assert (0 < d * eps) by (apply Rmult_lt_0_compat; lra).
      apply IH; [exact N|lra|lra].
Qed.
(* all points so far are above the solution *)
Lemma above_ends y0 X d n : 0 <= y0 -> 0 < d ->
  (forall x, eps < Fc x -> X < x) -> forall a u v,
  y0 + eps < Fc a -> d <= 3 - a -> a - X <= INR n * (eps * d) ->
  ends y0 (mkF a 3 u (Fc a) 1 v).
Proof.
  intros Y D HX. induction n as [|n IH]; intros a u v A Q W.
  - exfalso. simpl in W. assert (X < a) by (apply HX; lra). lra.
  - pose proof (Fc_bound a) as FA. rewrite S_INR in W.
    assert (E3 : 0 < eps) by (unfold eps; lra).
    apply ends_step; cbn [xl xh yl yh xx yy]; [lra| |];
      set (x := a + (3 - a) * (y0 - Fc a) / (1 - Fc a)); intros H.
    + destruct (Rle_lt_dec (Fc x) (y0 + eps)) as [N|N];
        [apply ends_now; cbn [yy]; now apply near_high|].
      assert (Xe : a - x = (3 - a) * ((Fc a - y0) / (1 - Fc a))) by (unfold x; field; lra).
      assert (T : eps <= (Fc a - y0) / (1 - Fc a)).
      { apply Rmult_le_reg_r with (1 - Fc a); [lra|].
        unfold Rdiv. rewrite Rmult_assoc, Rinv_l, Rmult_1_r by lra. nra. }
      assert (d * eps <= (3 - a) * ((Fc a - y0) / (1 - Fc a))) by (apply Rmult_le_compat; lra).
      assert (0 < d * eps) by (apply Rmult_lt_0_compat; lra).
      apply IH; [exact N|lra|lra].
    + destruct (Rle_lt_dec (y0 - eps) (Fc x)) as [N|N];
        [apply ends_now; cbn [yy]; now apply near_low|].
      now apply bracket_always.
Qed.
Lemma Finv_ends y0 : 0 <= y0 <= 1 -> ends y0 fstart.
Proof.
  intros Y. assert (E3 : 0 < eps) by (unfold eps; lra).
  apply ends_step; unfold fstart; cbn [xl xh yl yh xx yy]; [lra| |];
    set (x := -3 + (3 - -3) * (y0 - 0) / (1 - 0)); intros H;
    assert (Xe : x = -3 + 6 * y0) by (unfold x; field); pose proof (Fc_bound x) as FX.
  - destruct (Rle_lt_dec (Fc x) (y0 + eps)) as [N|N];
      [apply ends_now; cbn [yy]; now apply near_high|].
    destruct (Fc_low eps E3) as (X & HX).
    destruct (enough (x - X) (eps * (3 - x))) as (n & W);
      [apply Rmult_lt_0_compat; lra|].
    apply above_ends with X (3 - x) n; lra || exact HX || exact W.
  - destruct (Rle_lt_dec (y0 - eps) (Fc x)) as [N|N];
      [apply ends_now; cbn [yy]; now apply near_low|].
    destruct (Fc_high eps E3) as (X & HX).
    destruct (enough (X - x) (eps * (x + 3))) as (n & W);
      [apply Rmult_lt_0_compat; lra|].
    apply below_ends with X (x + 3) n; lra || exact HX || exact W.
Qed.

Lemma finv_loop_val n y0 : forall s x, yy s = Fc (xx s) -> finv_loop n y0 s = FVal x ->
  Rabs (Fc x - y0) <= eps.
Proof.
  induction n as [|n IH]; intros s x I E; simpl in E.
  - destruct (Rlt_dec _ _) as [L|L]; [discriminate|]. injection E as <-.
    rewrite <- I. unfold eps. lra.
  - destruct (Rlt_dec _ _) as [L|L].
    + destruct (Req_EM_T _ _); [discriminate|].
      destruct (Rlt_dec y0 _); apply IH in E; auto.
    + injection E as <-. rewrite <- I. unfold eps. lra.
Qed.
(* more fuel does not change the result *)
Lemma finv_loop_more n y0 : forall s x k, finv_loop n y0 s = FVal x -> finv_loop (n + k) y0 s = FVal x.
Proof.
  induction n as [|n IH]; intros s x k E; simpl in E.
  - destruct (Rlt_dec _ _) as [L|L]; [discriminate|]. destruct k; simpl; (destruct (Rlt_dec _ _); [lra|exact E]).
  - simpl. destruct (Rlt_dec _ _) as [L|L]; [|exact E].
    destruct (Req_EM_T _ _); [discriminate|]. destruct (Rlt_dec y0 _); now apply IH.
Qed.

(* the constant 1.414213562 in place of the square root of 2 *)
Lemma rootc_close : rootc <= sqrt 2 <= rootc * (1 + 1 / 1000000000).
Proof.
  unfold rootc. split.
  - apply Rsqr_incr_0_var; [|apply sqrt_pos]. unfold Rsqr. rewrite sqrt_sqrt by lra. lra.
  - apply Rsqr_incr_0_var; [|lra]. unfold Rsqr. rewrite sqrt_sqrt by lra. lra.
Qed.
Lemma slope_times r : 0 <= r -> slope r * r <= 58 / 100.
Proof.
  intros P. assert (G : gauss r * r <= 1 / 2).
  { unfold gauss. pose proof (exp_ge_1 (r * r)) as E. rewrite exp_Ropp.
    assert (0 < exp (r * r)) by apply exp_pos.
    apply Rmult_le_reg_l with (exp (r * r)); [lra|].
    replace (exp (r * r) * (/ exp (r * r) * r)) with r by (field; lra).
    pose proof (Rle_0_sqr (r - 1)) as Q. unfold Rsqr in Q. lra. }
  pose proof slope_0 as S0. unfold slope, gauss in S0. replace (- (0 * 0)) with 0 in S0 by ring.
  rewrite exp_0, Rmult_1_r in S0. unfold slope. rewrite Rmult_assoc.
  assert (0 <= gauss r * r) by (apply Rmult_le_pos; [left; apply gauss_pos|exact P]).
  assert (0 < 2 / sqrt PI) by (pose proof sqrtPI_pos; apply Rdiv_lt_0_compat; lra).
  assert (2 / sqrt PI * (gauss r * r) <= 116 / 100 * (1 / 2)) by (apply Rmult_le_compat; lra). lra.
Qed.
Lemma Fc_cdf_pos x : 0 <= x -> cdf x <= Fc x <= cdf x + 1 / 1000000000.
Proof.
  intros P. unfold cdf, Fc. simpl. pose proof rootc_close as C. pose proof rootc_pos as RP.
  pose proof sqrt2_pos as S2.
  assert (U : 0 <= x / sqrt 2) by (apply Rdiv_le_0_compat; lra).
  assert (E1 : x / rootc = x / sqrt 2 * (sqrt 2 / rootc)) by (field; lra).
  assert (E2 : 1 <= sqrt 2 / rootc <= 1 + 1 / 1000000000).
  { split; apply Rmult_le_reg_r with rootc; auto; unfold Rdiv at 1;
      rewrite Rmult_assoc, Rinv_l, Rmult_1_r by lra; lra. }
  set (u := x / sqrt 2) in *. set (k := sqrt 2 / rootc) in *. rewrite E1.
  assert (M : u <= u * k) by nra.
  split.
  - pose proof (erf_increasing_le _ _ M). lra.
  - pose proof (erf_tangent u (u * k) U ltac:(lra)) as T.
    pose proof (slope_times u U) as ST. pose proof (slope_pos u).
    assert (slope u * (u * k - u) <= 58 / 100 * (1 / 1000000000)).
    { replace (slope u * (u * k - u)) with (slope u * u * (k - 1)) by ring.
      apply Rmult_le_compat; try lra. apply Rmult_le_pos; lra. }
    lra.
Qed.
Lemma Fc_neg x : Fc (- x) = 1 - Fc x.
Proof.
  unfold Fc. replace (- x / rootc) with (- (x / rootc)) by (unfold Rdiv; ring). rewrite erf_odd. lra.
Qed.
Lemma cdf_neg x : cdf (Finite (- x)) = 1 - cdf (Finite x).
Proof.
  unfold cdf; simpl. replace (- x / sqrt 2) with (- (x / sqrt 2)) by (unfold Rdiv; ring).
  rewrite erf_odd. lra.
Qed.
Lemma Fc_cdf x : Rabs (Fc x - cdf x) <= 1 / 1000000000.
Proof.
  destruct (Rle_lt_dec 0 x) as [P|P].
  - pose proof (Fc_cdf_pos x P). rewrite Rabs_right; lra.
  - pose proof (Fc_cdf_pos (- x) ltac:(lra)) as Q. rewrite Fc_neg, cdf_neg in Q.
    rewrite Rabs_left1; lra.
Qed.
