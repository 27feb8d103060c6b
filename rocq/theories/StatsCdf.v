(* The distribution function of the normal distribution through the error function. *)
From Coq Require Import Reals Lra Psatz.
From Coquelicot Require Import Coquelicot.
From Verif Require Import StatsModel StatsSpec StatsProofs ErfinvProofs.
Local Open Scope R_scope.

Definition cdf (x : Rbar) : R := 1 / 2 * (1 + erf_x (over_sqrt2 x)).

Lemma sqrt2_pos : 0 < sqrt 2.
Proof. apply sqrt_lt_R0. lra. Qed.
Lemma sqrt2_sq : sqrt 2 * sqrt 2 = 2.
Proof. apply sqrt_sqrt. lra. Qed.

Lemma cdf_derive x : is_derive (fun x => cdf (Finite x)) x (density x).
Proof.
  unfold cdf; simpl.
  assert (D : is_derive (fun x => erf (x / sqrt 2)) x (/ sqrt 2 * (2 / sqrt PI * gauss (x / sqrt 2)))).
  { apply (is_derive_comp erf (fun x => x / sqrt 2)).
    - apply erf_derive.
    - pose proof sqrt2_pos. auto_derive; [trivial|field; lra]. }
  apply is_derive_ext with (f := fun x => 1 / 2 + 1 / 2 * erf (x / sqrt 2)).
  { intros t. simpl. lra. }
  assert (V : density x = 1 / 2 * (/ sqrt 2 * (2 / sqrt PI * gauss (x / sqrt 2)))).
  { unfold density, gauss. pose proof sqrt2_pos as S2. pose proof sqrtPI_pos as SP.
    pose proof PI_3. rewrite sqrt_mult by lra.
    replace (x / sqrt 2 * (x / sqrt 2)) with (x * x / 2).
    2: { rewrite <- sqrt2_sq at 1. field. lra. }
    replace (- (x * x) / 2) with (- (x * x / 2)) by field. field. lra. }
  rewrite V.
  replace (1 / 2 * (/ sqrt 2 * (2 / sqrt PI * gauss (x / sqrt 2))))
    with (plus 0 (1 / 2 * (/ sqrt 2 * (2 / sqrt PI * gauss (x / sqrt 2))))) by (unfold plus; simpl; ring).
  apply (is_derive_plus (V := R_NormedModule) (fun _ => 1 / 2) (fun x => 1 / 2 * erf (x / sqrt 2))).
  - apply (is_derive_const (V := R_NormedModule)).
  - apply is_derive_scal. exact D.
Qed.

Lemma density_continuous x : continuous density x.
Proof.
  apply (ex_derive_continuous (V := R_NormedModule)). unfold density. auto_derive. trivial.
Qed.
Lemma density_pos x : 0 < density x.
Proof.
  unfold density. apply Rmult_lt_0_compat; [|apply exp_pos].
  apply Rinv_0_lt_compat. apply sqrt_lt_R0. pose proof PI_3. lra.
Qed.

Lemma density_RInt a b : is_RInt density a b (cdf (Finite b) - cdf (Finite a)).
Proof.
  apply (is_RInt_derive (V := R_CompleteNormedModule) (fun x => cdf (Finite x)) density).
  - intros x _. apply cdf_derive.
  - intros x _. apply density_continuous.
Qed.

Lemma erf_lim_p : filterlim erf (Rbar_locally p_infty) (locally 1).
Proof.
  intros P [eps Q]. 
  assert (E : exists t, Rmax 0 (1 - eps / 2) <= erf t).
  { destruct (Rle_lt_dec 1 (1 - eps / 2)) as [L|L].
    - destruct eps as [e Pe]; simpl in *. lra.
    - assert (-1 < Rmax 0 (1 - eps / 2) < 1).
      { unfold Rmax. destruct (Rle_dec 0 (1 - eps / 2)); lra. }
      destruct (erf_onto _ H) as (t & T). exists t. lra. }
  destruct E as (t & T). exists t. intros x X. apply Q.
  apply erf_increasing in X. pose proof (erf_bound x) as B.
  change (Rabs (erf x - 1) < eps). pose proof (Rmax_r 0 (1 - eps / 2)).
  destruct eps as [e Pe]; simpl in *. unfold Rabs. destruct (Rcase_abs (erf x - 1)); lra.
Qed.
Lemma erf_lim_m : filterlim erf (Rbar_locally m_infty) (locally (-1)).
Proof.
  intros P [eps Q]. 
  destruct (erf_lim_p (fun y => ball 1 eps y)) as (t & T).
  { now exists eps. }
  exists (- t). intros x X. apply Q.
  assert (B : ball 1 eps (erf (- x))) by (apply T; lra).
  change (Rabs (erf (- x) - 1) < eps) in B. change (Rabs (erf x - -1) < eps).
  rewrite erf_odd in B. rewrite <- Rabs_Ropp. replace (- (erf x - -1)) with (- erf x - 1) by ring.
  exact B.
Qed.

Lemma cdf_lim a : filterlim (fun x => cdf (Finite x)) (edge a) (locally (cdf a)).
Proof.
  assert (S2 := sqrt2_pos).
  assert (aff : forall l, filterlim (fun y => 1 / 2 * (1 + y)) (locally l) (locally (1 / 2 * (1 + l)))).
  { intros l. apply (ex_derive_continuous (V := R_NormedModule) (fun y => 1 / 2 * (1 + y)) l).
    auto_derive. trivial. }
  destruct a as [r| |]; simpl edge.
  - intros P [eps Q]. unfold filtermap, at_point. apply Q. apply ball_center.
  - unfold cdf; simpl.
    apply (filterlim_comp _ _ _ (fun x => erf (x / sqrt 2)) (fun y => 1 / 2 * (1 + y)) _ (locally 1));
      [|apply aff].
    apply (filterlim_comp _ _ _ (fun x => x / sqrt 2) erf _ (Rbar_locally p_infty)); [|apply erf_lim_p].
    intros P [M HM]. exists (sqrt 2 * M). intros x X. apply HM.
    apply Rmult_lt_reg_r with (sqrt 2); [exact S2|].
    unfold Rdiv. rewrite Rmult_assoc, Rinv_l by lra. lra.
  - unfold cdf; simpl.
    apply (filterlim_comp _ _ _ (fun x => erf (x / sqrt 2)) (fun y => 1 / 2 * (1 + y)) _ (locally (-1)));
      [|apply aff].
    apply (filterlim_comp _ _ _ (fun x => x / sqrt 2) erf _ (Rbar_locally m_infty)); [|apply erf_lim_m].
    intros P [M HM]. exists (sqrt 2 * M). intros x X. apply HM.
    apply Rmult_lt_reg_r with (sqrt 2); [exact S2|].
    unfold Rdiv. rewrite Rmult_assoc, Rinv_l by lra. lra.
Qed.

#[export] Instance edge_filter a : ProperFilter (edge a).
Proof.
  destruct a; simpl; try apply Rbar_locally_filter. 
  unfold at_point. constructor; [intros P H; now exists r|].
  constructor; auto. 
Qed.

Lemma mass_cdf a b : mass a b (cdf b - cdf a).
Proof.
  unfold mass. intros P HP.
  assert (L : filterlim (fun ab : R * R => minus (cdf (Finite (snd ab))) (cdf (Finite (fst ab))))
                (filter_prod (edge a) (edge b)) (locally (minus (cdf b) (cdf a)))).
  { apply (filterlim_comp_2 (G := locally (cdf b)) (H := locally (opp (cdf a)))
             (fun ab : R * R => cdf (Finite (snd ab)))
             (fun ab : R * R => opp (cdf (Finite (fst ab)))) plus).
    - apply (filterlim_comp _ _ _ snd (fun x => cdf (Finite x)) _ (edge b)); [apply filterlim_snd|apply cdf_lim].
    - apply (filterlim_comp _ _ _ (fun ab : R * R => cdf (Finite (fst ab))) opp _ (locally (cdf a))).
      + apply (filterlim_comp _ _ _ fst (fun x => cdf (Finite x)) _ (edge a)); [apply filterlim_fst|apply cdf_lim].
      + apply (filterlim_opp (V := R_NormedModule)).
    - apply (filterlim_plus (V := R_NormedModule)). }
  specialize (L P HP). unfold filtermap in L.
  unfold filtermapi. revert L. apply filter_imp.
  intros [u v] E. simpl in E. exists (minus (cdf (Finite v)) (cdf (Finite u))). split; [|exact E].
  apply density_RInt.
Qed.

Lemma mass_unique a b m : mass a b m -> m = cdf b - cdf a.
Proof.
  intros M. unfold mass in M.
  rewrite <- (is_RInt_gen_unique (V := R_CompleteNormedModule) _ _ M).
  now rewrite (is_RInt_gen_unique (V := R_CompleteNormedModule) _ _ (mass_cdf a b)).
Qed.

Lemma cdf_bounds a : 0 <= cdf a <= 1.
Proof.
  unfold cdf. destruct a as [r| |]; simpl; try lra. pose proof (erf_bound (r / sqrt 2)). lra.
Qed.
Lemma cdf_lt a b : Rbar_lt a b -> cdf a < cdf b.
Proof.
  pose proof sqrt2_pos as S2.
  unfold cdf. destruct a as [r| |], b as [s| |]; simpl; intros L; try contradiction; try lra.
  - assert (r / sqrt 2 < s / sqrt 2).
    { unfold Rdiv. apply Rmult_lt_compat_r; [now apply Rinv_0_lt_compat|exact L]. }
    apply erf_increasing in H. lra.
  - pose proof (erf_bound (r / sqrt 2)). lra.
  - pose proof (erf_bound (s / sqrt 2)). lra.
Qed.
Lemma cdf_lt_inv a b : cdf a < cdf b -> Rbar_lt a b.
Proof.
  intros L. destruct (Rbar_lt_le_dec a b) as [K|K]; [exact K|].
  apply Rbar_le_lt_or_eq_dec in K. destruct K as [K|K].
  - apply cdf_lt in K. lra.
  - rewrite K in L. lra.
Qed.
Lemma cdf_le_inv a b : cdf a <= cdf b -> Rbar_le a b.
Proof.
  intros L. destruct (Rbar_lt_le_dec b a) as [K|K]; [|exact K].
  apply cdf_lt in K. lra.
Qed.
Lemma cdf_onto p : 0 < p < 1 -> exists t, cdf (Finite t) = p.
Proof.
  intros P. destruct (erf_onto (2 * p - 1)) as (t & T); [lra|].
  exists (sqrt 2 * t). unfold cdf; simpl. pose proof sqrt2_pos.
  replace (sqrt 2 * t / sqrt 2) with t by (field; lra). rewrite T. field.
Qed.
Lemma erf_cdf t : erf t = 2 * cdf (Finite (sqrt 2 * t)) - 1.
Proof.
  unfold cdf; simpl. pose proof sqrt2_pos.
  replace (sqrt 2 * t / sqrt 2) with t by (field; lra). field.
Qed.
