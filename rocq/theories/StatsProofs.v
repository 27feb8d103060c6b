(* Error function: derivative, monotonicity, limits (the Gaussian integral), and
   Newton steps. *)
From Coq Require Import Reals Lra Psatz.
From Coquelicot Require Import Coquelicot.
From Verif Require Import StatsModel.
Local Open Scope R_scope.

Definition gauss (t : R) : R := exp (- (t * t)).
Definition G (x : R) : R := RInt gauss 0 x.

Lemma erf_G x : erf x = 2 / sqrt PI * G x.
Proof. reflexivity. Qed.

Lemma gauss_continuous t : continuous gauss t.
Proof.
  apply (ex_derive_continuous (V := R_NormedModule)). unfold gauss. auto_derive. trivial.
Qed.
Lemma gauss_pos t : 0 < gauss t.
Proof. apply exp_pos. Qed.
Lemma gauss_RInt a b : ex_RInt gauss a b.
Proof. apply (ex_RInt_continuous (V := R_CompleteNormedModule)). intros z _. apply gauss_continuous. Qed.

Lemma G_derive x : is_derive G x (gauss x).
Proof.
  unfold G. apply is_derive_RInt with (a := 0).
  - exists (mkposreal 1 Rlt_0_1). intros y _. apply (RInt_correct (V := R_CompleteNormedModule)). apply gauss_RInt.
  - apply gauss_continuous.
Qed.
Lemma sqrtPI_pos : 0 < sqrt PI.
Proof. apply sqrt_lt_R0. apply PI_RGT_0. Qed.
Lemma erf_derive x : is_derive erf x (2 / sqrt PI * gauss x).
Proof.
  apply is_derive_ext with (f := fun x => 2 / sqrt PI * G x); [reflexivity|].
  apply is_derive_scal. apply G_derive.
Qed.
Lemma erf_slope_pos x : 0 < 2 / sqrt PI * gauss x.
Proof.
  apply Rmult_lt_0_compat; [|apply gauss_pos].
  apply Rdiv_lt_0_compat; [lra|apply sqrtPI_pos].
Qed.

Lemma erf_mvt a b : a < b ->
  exists c, a < c < b /\ erf b - erf a = 2 / sqrt PI * gauss c * (b - a).
Proof.
  intros L. destruct (MVT_cor2 erf (fun x => 2 / sqrt PI * gauss x) a b L) as (c & E & K).
  - intros c _. apply is_derive_Reals. apply erf_derive.
  - exists c. split; [exact K|exact E].
Qed.
Lemma erf_increasing a b : a < b -> erf a < erf b.
Proof.
  intros L. destruct (erf_mvt a b L) as (c & K & E).
  pose proof (erf_slope_pos c). pose proof (Rmult_lt_0_compat _ (b - a) H). lra.
Qed.
Lemma erf_increasing_le a b : a <= b -> erf a <= erf b.
Proof. intros [L| ->]; [left; now apply erf_increasing|lra]. Qed.
Lemma erf_lt_inv a b : erf a < erf b -> a < b.
Proof.
  intros L. destruct (Rlt_le_dec a b) as [K|K]; [exact K|].
  apply erf_increasing_le in K. lra.
Qed.
Lemma erf_le_inv a b : erf a <= erf b -> a <= b.
Proof.
  intros L. destruct (Rle_lt_dec a b) as [K|K]; [exact K|].
  apply erf_increasing in K. lra.
Qed.
Lemma erf_inj a b : erf a = erf b -> a = b.
Proof. intros E. apply Rle_antisym; apply erf_le_inv; lra. Qed.
Lemma erf_0 : erf 0 = 0.
Proof. unfold erf. rewrite RInt_point. change zero with 0. ring. Qed.

Lemma erf_continuous x : continuity_pt erf x.
Proof.
  apply derivable_continuous_pt. exists (2 / sqrt PI * gauss x).
  apply is_derive_Reals. apply erf_derive.
Qed.

Lemma erf_ivt a b y : a <= b -> erf a <= y <= erf b -> exists t, a <= t <= b /\ erf t = y.
Proof.
  intros L [Y1 Y2].
  destruct (Rle_lt_or_eq_dec _ _ L) as [L'| ->].
  2: { exists b. split; [lra|]. lra. }
  destruct (Rle_lt_or_eq_dec _ _ Y1) as [Z1|Z1].
  2: { exists a. split; [lra|exact Z1]. }
  destruct (Rle_lt_or_eq_dec _ _ Y2) as [Z2|Z2].
  2: { exists b. split; [lra|now symmetry]. }
  destruct (IVT (fun x => erf x - y) a b) as (t & K & E).
  - intros x. apply continuity_pt_minus; [apply erf_continuous|].
    apply continuity_pt_const. intros u v. reflexivity.
  - exact L'.
  - simpl. lra.
  - simpl. lra.
  - exists t. split; [exact K|]. simpl in E. lra.
Qed.

(* odd *)
Lemma G_odd x : G (- x) = - G x.
Proof.
  unfold G.
  assert (E : RInt gauss 0 (- x) = RInt (fun t => - gauss t) 0 x).
  { assert (C : RInt (fun y => (-1) * gauss ((-1) * y + 0)) 0 x
                = RInt gauss ((-1) * 0 + 0) ((-1) * x + 0)).
    { apply (RInt_comp_lin gauss (-1) 0 0 x). apply gauss_RInt. }
    replace ((-1) * 0 + 0) with 0 in C by ring. replace ((-1) * x + 0) with (- x) in C by ring.
    rewrite <- C. apply RInt_ext. intros t _. unfold gauss.
    replace ((-1 * t + 0) * (-1 * t + 0)) with (t * t) by ring.
    change (-1 * exp (- (t * t)) = - exp (- (t * t))). ring. }
  rewrite E. exact (RInt_opp (V := R_CompleteNormedModule) gauss 0 x (gauss_RInt 0 x)).
Qed.
Lemma erf_odd x : erf (- x) = - erf x.
Proof. rewrite !erf_G, G_odd. ring. Qed.

(* ------------------------------------------------ Gaussian integral *)
Definition K (x t : R) : R := exp (- (x * x * (1 + t * t))) / (1 + t * t).
Definition H (x : R) : R := RInt (K x) 0 1.

Lemma one_t2 t : 0 < 1 + t * t.
Proof. pose proof (Rle_0_sqr t). unfold Rsqr in H0. lra. Qed.
Lemma K_derive x t : is_derive (fun u => K u t) x (- 2 * x * exp (- (x * x * (1 + t * t)))).
Proof.
  unfold K. pose proof (one_t2 t). auto_derive; [lra|]. field. lra.
Qed.
Lemma K_continuous x t : continuous (K x) t.
Proof.
  apply (ex_derive_continuous (V := R_NormedModule)). unfold K.
  pose proof (one_t2 t). auto_derive. lra.
Qed.
Lemma K_RInt x : ex_RInt (K x) 0 1.
Proof. apply (ex_RInt_continuous (V := R_CompleteNormedModule)). intros z _. apply K_continuous. Qed.

Lemma K_Derive x t : Derive (fun u => K u t) x = - 2 * x * exp (- (x * x * (1 + t * t))).
Proof. apply is_derive_unique. apply K_derive. Qed.

Lemma exp_continuity_pt u : continuity_pt exp u.
Proof. apply derivable_continuous_pt. apply derivable_pt_exp. Qed.

Lemma H_derive0 x :
  is_derive H x (RInt (fun t => Derive (fun u => K u t) x) 0 1).
Proof.
  apply (is_derive_RInt_param K 0 1 x).
  - exists (mkposreal 1 Rlt_0_1). intros y _ t _. eexists. apply K_derive.
  - intros t _.
    apply (continuity_2d_pt_ext (fun u v => (- 2) * u * exp (- (u * u * (1 + v * v))))).
    { intros u v. now rewrite K_Derive. }
    apply continuity_2d_pt_mult.
    + apply continuity_2d_pt_mult; [apply continuity_2d_pt_const|apply continuity_2d_pt_id1].
    + apply (continuity_1d_2d_pt_comp exp (fun u v => - (u * u * (1 + v * v)))).
      * apply exp_continuity_pt.
      * apply continuity_2d_pt_opp. apply continuity_2d_pt_mult.
        { apply continuity_2d_pt_mult; apply continuity_2d_pt_id1. }
        apply continuity_2d_pt_plus; [apply continuity_2d_pt_const|].
        apply continuity_2d_pt_mult; apply continuity_2d_pt_id2.
  - exists (mkposreal 1 Rlt_0_1). intros y _. apply K_RInt.
Qed.

Lemma H_derive x : is_derive H x (- 2 * gauss x * G x).
Proof.
  assert (E : RInt (fun t => Derive (fun u => K u t) x) 0 1 = - 2 * gauss x * G x).
  { assert (C : RInt (fun t => scal x (gauss (x * t + 0))) 0 1 = RInt gauss (x * 0 + 0) (x * 1 + 0)).
    { apply (RInt_comp_lin (V := R_CompleteNormedModule) gauss x 0 0 1). apply gauss_RInt. }
    rewrite Rmult_0_r, Rmult_1_r, !Rplus_0_r in C.
    unfold G. rewrite <- C.
    transitivity (RInt (fun t => scal (- 2 * gauss x) (scal x (gauss (x * t + 0)))) 0 1).
    - apply RInt_ext. intros t _. rewrite K_Derive. unfold scal; simpl. unfold mult; simpl.
      unfold gauss.
      replace (- (x * x * (1 + t * t))) with (- (x * x) + - ((x * t + 0) * (x * t + 0))) by ring.
      rewrite exp_plus. ring.
    - rewrite (RInt_scal (V := R_CompleteNormedModule)).
      + reflexivity.
      + apply (ex_RInt_continuous (V := R_CompleteNormedModule)). intros t _.
        apply (ex_derive_continuous (V := R_NormedModule)). unfold gauss, scal; simpl. unfold mult; simpl.
        auto_derive. trivial. }
  rewrite <- E. apply H_derive0.
Qed.

Lemma G_0 : G 0 = 0.
Proof. unfold G. rewrite RInt_point. reflexivity. Qed.

Lemma H_0 : H 0 = PI / 4.
Proof.
  unfold H.
  assert (E : RInt (K 0) 0 1 = atan 1 - atan 0).
  { apply is_RInt_unique. apply (is_RInt_derive (V := R_CompleteNormedModule) atan (K 0)).
    - intros t _. unfold K. replace (- (0 * 0 * (1 + t * t))) with 0 by ring. rewrite exp_0.
      apply is_derive_Reals.
      replace (1 / (1 + t * t)) with (/ (1 + t ^ 2)) by (pose proof (one_t2 t); field; simpl; lra).
      apply derivable_pt_lim_atan.
    - intros t _. apply K_continuous. }
  rewrite E, atan_1, atan_0. ring.
Qed.

Lemma G_H x : G x * G x + H x = PI / 4.
Proof.
  assert (D : forall t, is_derive (fun x => G x * G x + H x) t 0).
  { intros t.
    replace 0 with (plus (plus (mult (gauss t) (G t)) (mult (G t) (gauss t))) (- 2 * gauss t * G t)).
    2: { unfold plus, mult; simpl. ring. }
    apply (is_derive_plus (fun x => G x * G x) H).
    - apply (is_derive_mult G G t (gauss t) (gauss t)); [apply G_derive|apply G_derive|].
      intros n m. apply Rmult_comm.
    - apply H_derive. }
  assert (Z : G 0 * G 0 + H 0 = PI / 4) by (rewrite G_0, H_0; ring).
  destruct (Rtotal_order x 0) as [L|[->|L]].
  - rewrite <- Z. apply (eq_is_derive (V := R_NormedModule) (fun x => G x * G x + H x) x 0); [|exact L].
    intros t _. apply D.
  - exact Z.
  - rewrite <- Z. symmetry.
    apply (eq_is_derive (V := R_NormedModule) (fun x => G x * G x + H x) 0 x); [|exact L].
    intros t _. apply D.
Qed.

Lemma H_pos x : 0 < H x.
Proof.
  unfold H. apply RInt_gt_0; [lra| |].
  - intros t _. unfold K. apply Rdiv_lt_0_compat; [apply exp_pos|apply one_t2].
  - intros t _. apply K_continuous.
Qed.
Lemma H_le x : H x <= exp (- (x * x)).
Proof.
  unfold H. replace (exp (- (x * x))) with (RInt (fun _ => exp (- (x * x))) 0 1).
  2: { rewrite RInt_const. unfold scal; simpl. unfold mult; simpl. ring. }
  apply RInt_le; [lra|apply K_RInt| |].
  - apply (ex_RInt_const (V := R_NormedModule)).
  - intros t _. unfold K. pose proof (one_t2 t).
    assert (E : exp (- (x * x * (1 + t * t))) <= exp (- (x * x))).
    { assert (A : - (x * x * (1 + t * t)) <= - (x * x)).
      { pose proof (Rle_0_sqr (x * t)) as Q. unfold Rsqr in Q. nra. }
      destruct A as [A|A]; [left; now apply exp_increasing|rewrite A; lra]. }
    pose proof (exp_pos (- (x * x * (1 + t * t)))).
    apply Rle_trans with (exp (- (x * x * (1 + t * t)))); [|exact E].
    apply Rmult_le_reg_r with (1 + t * t); [lra|]. unfold Rdiv. rewrite Rmult_assoc, Rinv_l by lra.
    pose proof (Rle_0_sqr t) as Q. unfold Rsqr in Q. nra.
Qed.

Lemma erf_sq x : erf x * erf x = 1 - 4 / PI * H x.
Proof.
  pose proof PI_RGT_0 as P. pose proof sqrtPI_pos as S1.
  assert (SS : sqrt PI * sqrt PI = PI) by (apply sqrt_sqrt; lra).
  rewrite erf_G. pose proof (G_H x) as E.
  transitivity (4 / (sqrt PI * sqrt PI) * (G x * G x)); [field; lra|].
  rewrite SS. replace (G x * G x) with (PI / 4 - H x) by lra. field. lra.
Qed.
Lemma erf_bound x : -1 < erf x < 1.
Proof.
  pose proof (erf_sq x) as E. pose proof (H_pos x). pose proof PI_RGT_0.
  assert (0 < 4 / PI * H x).
  { apply Rmult_lt_0_compat; [apply Rdiv_lt_0_compat; lra|lra]. }
  nra.
Qed.

Lemma erf_onto y : -1 < y < 1 -> exists t, erf t = y.
Proof.
  assert (P : forall y, 0 <= y < 1 -> exists t, 0 <= t /\ y <= erf t).
  { clear y. intros y [Y0 Y1]. pose proof PI_RGT_0 as P.
    set (d := (1 - y * y) * PI / 4).
    assert (D : 0 < d) by (unfold d; apply Rdiv_lt_0_compat; [apply Rmult_lt_0_compat; nra|lra]).
    (* exp(-t^2) <= 1/(1+t^2) <= d for t = 1/d + 1 *)
    set (t := / d + 1). assert (ID : 0 < / d) by (apply Rinv_0_lt_compat; exact D).
    exists t. split; [unfold t; lra|].
    assert (T : exp (- (t * t)) <= d).
    { rewrite exp_Ropp. apply Rle_trans with (/ (1 + t * t)).
      - apply Rinv_le_contravar; [nra|]. left. apply exp_ineq1. unfold t. nra.
      - rewrite <- (Rinv_inv d). apply Rinv_le_contravar; [exact ID|]. unfold t. nra. }
    pose proof (H_le t) as HL. pose proof (erf_sq t) as E.
    assert (B : y * y <= erf t * erf t).
    { rewrite E. assert (Q : 4 / PI * H t <= 4 / PI * d).
      { apply Rmult_le_compat_l; [|lra]. left. apply Rdiv_lt_0_compat; lra. }
      replace (4 / PI * d) with (1 - y * y) in Q by (unfold d; field; lra). lra. }
    assert (0 < erf t). { rewrite <- erf_0. apply erf_increasing. unfold t. lra. }
    nra. }
  intros [Y1 Y2]. destruct (Rle_lt_dec 0 y) as [L|L].
  - destruct (P y (conj L Y2)) as (t & T0 & T1).
    destruct (erf_ivt 0 t y T0) as (u & _ & E); [rewrite erf_0; lra|]. now exists u.
  - destruct (P (- y)) as (t & T0 & T1); [lra|].
    destruct (erf_ivt 0 t (- y) T0) as (u & _ & E); [rewrite erf_0; lra|].
    exists (- u). rewrite erf_odd, E. ring.
Qed.
