(* C111: what the normalisation makes of data that agree exactly with the known levels, the
   model and nld(Sn). *)
From Coq Require Import Reals List Lra Lia Psatz.
From Verif Require Import TransformModel TransformProps NormModel LikeModel LikeProps.
Import ListNotations.
Local Open Scope R_scope.

(* ------------------------------------------------------------------ specification *)
(* the data are the true level density: the known levels in the low region, the model with T
   and Eshift in the high region and at Sn *)
Definition noise_free (T Es : R) (l h : list bin) (Sn : R) (nldSn : R * R) : Prop :=
  (forall b, In b l -> b_v b = b_mu b) /\ (forall b, In b h -> b_v b = const_temperature T Es (b_E b)) /\
  fst nldSn = const_temperature T Es Sn.
Definition truth (T Es : R) : par4 := mkP4 1 0 T Es.
Definition scaled (A T Es : R) : par4 := mkP4 A 0 T Es.
(* the squared deviations of the transformed data in units of the transformed uncertainties *)
Definition deviations (x : par4) (l h : list bin) (Sn : R) (nldSn : R * R) : R :=
  rsum (map (chi (p_A x) (p_alpha x)) l) + rsum (map (chi (p_A x) (p_alpha x)) (high_bins x h))
  + ((fst nldSn - const_temperature (p_T x) (p_Eshift x) Sn) / snd nldSn) ^ 2.
(* the function that is maximised, on these data *)
Definition L (l h : list bin) (Sn : R) (nldSn : R * R) (x : par4) : outc :=
  lnlike ct x (vec_of l) (vec_of h) (mkRV (map b_mu l) (map b_E l) None) Sn nldSn.
(* the sum of the squared values in units of their uncertainties *)
Definition significance (bs : list bin) : R := rsum (map (fun b => (b_v b / b_s b) ^ 2) bs).

(* ------------------------------------------------------------------ the function *)
Lemma rsum_app a b : rsum (a ++ b) = rsum a + rsum b.
Proof. unfold rsum. induction a as [|x a IH]; cbn; [ring|]. rewrite IH. ring. Qed.
Lemma high_good x h : (forall b, In b h -> good b) -> forall b, In b (high_bins x h) -> good b.
Proof. intros H b Hb. unfold high_bins in Hb. apply in_map_iff in Hb. destruct Hb as (b0 & <- & Hb). exact (H b0 Hb). Qed.
Lemma high_map {X} (f : bin -> X) x h : (forall b mu, f (mkBin (b_E b) (b_v b) (b_s b) mu) = f b) -> map f (high_bins x h) = map f h.
Proof. intros H. unfold high_bins. rewrite map_map. apply map_ext. intros b. apply H. Qed.
(* -1/2 of: the deviations, ln A for every bin, alpha E of every bin, and a constant *)
Theorem lnlike_terms : forall l h Sn nldSn, (forall b, In b l -> good b) -> (forall b, In b h -> good b) -> 0 < snd nldSn ->
  exists K, forall x, 0 < p_A x -> p_T x <> 0 ->
  L l h Sn nldSn x = OVal (- / 2 * (deviations x l h Sn nldSn + INR (length (l ++ h)) * ln (p_A x) + p_alpha x * rsum (map b_E (l ++ h)) + K)).
Proof.
  intros l h Sn nldSn Gl Gh Hs. destruct (lnlike_value_partial l h Sn nldSn Gl Gh Hs) as [K HK].
  exists (2 * (rsum (map (fun b => ln (b_s b)) l) + rsum (map (fun b => ln (b_s b)) h) + INR (length l + length h) * ln (sqrt (2 * PI)) + ln (snd nldSn * sqrt (2 * PI)) - K)).
  intros x HA HT. unfold L. rewrite (HK x HA HT). f_equal. unfold log_likelihood, deviations.
  rewrite (ln_of_normal _ _ l HA Gl), (ln_of_normal _ _ (high_bins x h) HA (high_good x h Gh)).
  rewrite (high_map (fun b => ln (b_s b))), (high_map b_E) by reflexivity. unfold high_bins at 2 3. rewrite !map_length.
  unfold ln_normal. rewrite map_app, rsum_app, app_length, !plus_INR. field. lra.
Qed.
Print Assumptions lnlike_terms.

(* ------------------------------------------------------------------ the truth *)
Lemma chi_nonneg A al b : 0 <= chi A al b.
Proof. unfold chi. unfold Rdiv. apply Rmult_le_pos; [apply pow2_ge_0|]. rewrite <- pow_inv. apply pow2_ge_0. Qed.
Lemma rsum_map_nonneg {X} (f : X -> R) l : (forall b, In b l -> 0 <= f b) -> 0 <= rsum (map f l).
Proof.
  induction l as [|b l IH]; intros H; [cbn; lra|]. unfold rsum in *. cbn [map fold_right].
  pose proof (H b (or_introl eq_refl)). specialize (IH (fun b Hb => H b (or_intror Hb))). lra.
Qed.
Lemma rsum_map_zero {X} (f : X -> R) l : (forall b, In b l -> f b = 0) -> rsum (map f l) = 0.
Proof.
  induction l as [|b l IH]; intros H; [reflexivity|]. unfold rsum in *. cbn [map fold_right].
  rewrite (H b (or_introl eq_refl)), IH; [ring|]. intros; apply H; now right.
Qed.
(* on noise-free data no parameters deviate less than the true ones *)
Theorem truth_deviates_least : forall T Es l h Sn nldSn, noise_free T Es l h Sn nldSn ->
  deviations (truth T Es) l h Sn nldSn = 0 /\ forall x, 0 <= deviations x l h Sn nldSn.
Proof.
  intros T Es l h Sn nldSn (N1 & N2 & N3). split.
  - unfold deviations, truth. cbn [p_A p_alpha p_T p_Eshift]. rewrite !rsum_map_zero.
    + rewrite N3. unfold Rdiv. ring.
    + intros b Hb. unfold high_bins in Hb. apply in_map_iff in Hb. destruct Hb as (b0 & <- & Hb). unfold chi. cbn [b_v b_mu b_E b_s with_mu p_T p_Eshift].
      rewrite (N2 b0 Hb), Rmult_0_l, exp_0. unfold Rdiv. ring.
    + intros b Hb. unfold chi. rewrite (N1 b Hb), Rmult_0_l, exp_0. unfold Rdiv. ring.
  - intros x. unfold deviations. pose proof (rsum_map_nonneg (chi (p_A x) (p_alpha x)) l (fun b _ => chi_nonneg _ _ b)).
    pose proof (rsum_map_nonneg (chi (p_A x) (p_alpha x)) (high_bins x h) (fun b _ => chi_nonneg _ _ b)).
    pose proof (pow2_ge_0 ((fst nldSn - const_temperature (p_T x) (p_Eshift x) Sn) / snd nldSn)). lra.
Qed.
Print Assumptions truth_deviates_least.

(* the deviations if only the scale is wrong *)
Lemma chi_scaled A b : 0 < A -> 0 < b_s b -> b_v b = b_mu b -> chi A 0 b = (/ A - 1) ^ 2 * (b_v b / b_s b) ^ 2.
Proof. intros HA HS E. unfold chi. rewrite Rmult_0_l, exp_0, <- E. field. split; lra. Qed.
Lemma deviations_scaled A T Es l h Sn nldSn : 0 < A -> noise_free T Es l h Sn nldSn -> (forall b, In b l -> good b) -> (forall b, In b h -> good b) ->
  deviations (scaled A T Es) l h Sn nldSn = (/ A - 1) ^ 2 * significance (l ++ h).
Proof.
  intros HA (N1 & N2 & N3) Gl Gh. unfold deviations, scaled, significance. cbn [p_A p_alpha p_T p_Eshift]. rewrite N3.
  replace ((const_temperature T Es Sn - const_temperature T Es Sn) / snd nldSn) with 0 by (unfold Rdiv; ring).
  assert (M : forall bs, (forall b, In b bs -> 0 < b_s b /\ b_v b = b_mu b) -> rsum (map (chi A 0) bs) = (/ A - 1) ^ 2 * rsum (map (fun b => (b_v b / b_s b) ^ 2) bs)).
  { induction bs as [|b bs IH]; intros H; [cbn; ring|]. unfold rsum in *. cbn [map fold_right]. rewrite IH by (intros; apply H; now right).
    destruct (H b (or_introl eq_refl)). rewrite chi_scaled by assumption. ring. }
  rewrite map_app, rsum_app, (M l), (M (high_bins _ h)).
  - rewrite (high_map (fun b => (b_v b / b_s b) ^ 2)) by reflexivity. ring.
  - intros b Hb. split; [apply (high_good _ h Gh b Hb)|]. unfold high_bins in Hb. apply in_map_iff in Hb. destruct Hb as (b0 & <- & Hb). cbn. now apply N2.
  - intros b Hb. split; [apply (Gl b Hb)|now apply N1].
Qed.
Lemma significance_pos bs : bs <> [] -> (forall b, In b bs -> good b) -> 0 < significance bs.
Proof.
  destruct bs as [|b bs]; [contradiction|]. intros _ H. unfold significance, rsum. cbn [map fold_right].
  assert (0 <= rsum (map (fun b => (b_v b / b_s b) ^ 2) bs)) as P by (apply rsum_map_nonneg; intros; apply pow2_ge_0). unfold rsum in P.
  destruct (H b (or_introl eq_refl)) as [V S]. assert (b_v b / b_s b <> 0). { unfold Rdiv. apply Rmult_integral_contrapositive_currified; [assumption|]. apply Rinv_neq_0_compat. lra. }
  pose proof (Rsqr_pos_lt _ H0) as Q. rewrite Rsqr_pow2 in Q. lra.
Qed.
(* ln u <= ln w + (u - w)/w, with equality only at w *)
Lemma ln_tangent u w : 0 < u -> 0 < w -> ln u <= ln w + (u / w - 1) /\ (u <> w -> ln u < ln w + (u / w - 1)).
Proof.
  intros HU HW. assert (HQ : 0 < u / w) by now apply Rdiv_lt_0_compat.
  assert (E : ln u = ln w + ln (u / w)) by (rewrite <- ln_mult by assumption; f_equal; field; lra).
  assert (X : u / w <> 1 -> ln (u / w) < u / w - 1).
  { intros N. pose proof (exp_ineq1 (ln (u / w))) as I. rewrite exp_ln in I by assumption. assert (ln (u / w) <> 0). { intros C. apply N. rewrite <- (exp_ln (u / w)) by assumption. rewrite C. apply exp_0. } specialize (I H). lra. }
  split.
  - destruct (Req_EM_T (u / w) 1) as [C|C]; [rewrite E, C, ln_1; lra|]. specialize (X C). lra.
  - intros N. assert (C : u / w <> 1). { intros C. apply N. replace u with (u / w * w) by (field; lra). rewrite C. ring. } specialize (X C). lra.
Qed.

(* the scale with the largest likelihood, the other parameters being true *)
Definition best_scale (bs : list bin) : R := 2 / (1 + sqrt (1 + 2 * INR (length bs) / significance bs)).
(* On noise-free data the likelihood is not largest for the true scale 1 but, with the other
   parameters at their true values, for best_scale, which is less than one; for no other. *)
Theorem likelihood_scale_biased : forall T Es l h Sn nldSn, noise_free T Es l h Sn nldSn -> T <> 0 -> 0 < snd nldSn ->
  (forall b, In b (l ++ h) -> good b) -> l ++ h <> [] ->
  let A0 := best_scale (l ++ h) in
  0 < A0 < 1 /\
  exists m, L l h Sn nldSn (scaled A0 T Es) = OVal m /\
    forall A, 0 < A -> A <> A0 -> exists a, L l h Sn nldSn (scaled A T Es) = OVal a /\ a < m.
Proof.
  intros T Es l h Sn nldSn NF HT HS G NE A0.
  assert (Gl : forall b, In b l -> good b) by (intros; apply G, in_or_app; now left). assert (Gh : forall b, In b h -> good b) by (intros; apply G, in_or_app; now right).
  set (n := INR (length (l ++ h))) in *. set (S := significance (l ++ h)) in *.
  assert (HSP : 0 < S) by now apply significance_pos. assert (HN : 0 < n) by (unfold n; apply lt_0_INR; destruct (l ++ h); [contradiction|cbn; lia]).
  set (q := sqrt (1 + 2 * n / S)). assert (HR : 0 < 2 * n / S) by (apply Rdiv_lt_0_compat; lra).
  assert (Q2 : q * q = 1 + 2 * n / S) by (apply sqrt_sqrt; lra). assert (QP : 0 <= q) by apply sqrt_pos.
  assert (Q1 : 1 < q) by nra. set (w := (1 + q) / 2). assert (HW : 1 < w) by (unfold w; lra).
  assert (EW : 2 * S * (w - 1) * w = n). { unfold w. replace (2 * S * ((1 + q) / 2 - 1) * ((1 + q) / 2)) with (S / 2 * (q * q - 1)) by field. rewrite Q2. field. lra. }
  assert (EA : A0 = / w) by (unfold A0, best_scale; fold n S q; unfold w; field; lra).
  assert (HA0 : 0 < A0) by (rewrite EA; apply Rinv_0_lt_compat; lra).
  split. { split; [exact HA0|]. rewrite EA, <- Rinv_1. apply Rinv_lt_contravar; lra. }
  destruct (lnlike_terms l h Sn nldSn Gl Gh HS) as [K HK].
  assert (V : forall A, 0 < A -> L l h Sn nldSn (scaled A T Es) = OVal (- / 2 * ((/ A - 1) ^ 2 * S - n * ln (/ A) + K))).
  { intros A HA. rewrite HK by (cbn; assumption). rewrite deviations_scaled by assumption. fold S n. cbn [p_A p_alpha scaled]. rewrite ln_Rinv by assumption. do 2 f_equal. ring. }
  eexists. split; [now apply V|]. intros A HA NA. eexists. split; [now apply V|].
  assert (EU : / A0 = w) by (rewrite EA; apply Rinv_inv). rewrite EU. set (u := / A).
  assert (HU : 0 < u) by now apply Rinv_0_lt_compat. assert (NU : u <> w). { intros C. apply NA. rewrite EA, <- C. unfold u. symmetry. apply Rinv_inv. }
  destruct (ln_tangent u w HU ltac:(lra)) as [_ I]. specialize (I NU).
  assert (EX : (u - 1) ^ 2 = (w - 1) ^ 2 + 2 * (w - 1) * (u - w) + (u - w) ^ 2) by ring.
  assert (F : n * (u / w - 1) = 2 * S * (w - 1) * (u - w)) by (rewrite <- EW; field; lra).
  assert (P : 0 <= (u - w) ^ 2 * S) by (apply Rmult_le_pos; [apply pow2_ge_0|lra]).
  assert (NI : n * ln u < n * ln w + n * (u / w - 1)) by (rewrite <- Rmult_plus_distr_l; now apply Rmult_lt_compat_l).
  rewrite EX. rewrite F in NI. nra.
Qed.
Print Assumptions likelihood_scale_biased.

(* Hence the true parameters are never the best fit, for no data and no uncertainties; nor are
   they the best among parameters close to them. *)
Theorem truth_best_refuted : forall T Es l h Sn nldSn, noise_free T Es l h Sn nldSn -> T <> 0 -> 0 < snd nldSn ->
  (forall b, In b (l ++ h) -> good b) -> l ++ h <> [] ->
  ~ best (L l h Sn nldSn) (truth T Es) /\
  forall eps, 0 < eps -> exists A t m, 1 - eps < A < 1 /\ L l h Sn nldSn (truth T Es) = OVal t /\ L l h Sn nldSn (scaled A T Es) = OVal m /\ t < m.
Proof.
  intros T Es l h Sn nldSn NF HT HS G NE. destruct (likelihood_scale_biased T Es l h Sn nldSn NF HT HS G NE) as ([P0 P1] & m & M1 & M2). split.
  - intros (t & E & B). specialize (B _ _ M1). destruct (M2 1 ltac:(lra) ltac:(lra)) as (a & E' & LT). change (scaled 1 T Es) with (truth T Es) in E'.
    rewrite E in E'. injection E' as ->. lra.
  - intros eps HE. assert (Gl : forall b, In b l -> good b) by (intros; apply G, in_or_app; now left). assert (Gh : forall b, In b h -> good b) by (intros; apply G, in_or_app; now right).
    destruct (lnlike_terms l h Sn nldSn Gl Gh HS) as [K HK]. set (n := INR (length (l ++ h))) in *. set (S := significance (l ++ h)).
    assert (HSP : 0 < S) by now apply significance_pos. assert (HN : 0 < n) by (unfold n; apply lt_0_INR; destruct (l ++ h); [contradiction|cbn; lia]).
    assert (V : forall A, 0 < A -> L l h Sn nldSn (scaled A T Es) = OVal (- / 2 * ((/ A - 1) ^ 2 * S - n * ln (/ A) + K))).
    { intros A HA. rewrite HK by (cbn; assumption). rewrite deviations_scaled by assumption. fold S n. cbn [p_A p_alpha scaled]. rewrite ln_Rinv by assumption. do 2 f_equal. ring. }
    set (d := Rmin (Rmin eps (/ 2)) (n / (4 * S))). assert (D0 : 0 < n / (4 * S)) by (apply Rdiv_lt_0_compat; lra).
    assert (D1 : 0 < d) by (unfold d; repeat apply Rmin_glb_lt; lra). assert (D2 : d <= eps) by (unfold d; eapply Rle_trans; [apply Rmin_l|apply Rmin_l]).
    assert (D3 : d <= / 2) by (unfold d; eapply Rle_trans; [apply Rmin_l|apply Rmin_r]). assert (D4 : d <= n / (4 * S)) by (unfold d; apply Rmin_r).
    assert (D5 : d * (4 * S) <= n). { apply (Rmult_le_compat_r (4 * S)) in D4; [|lra]. replace (n / (4 * S) * (4 * S)) with n in D4 by (field; lra). exact D4. }
    set (A := / (1 + d)). assert (HA : 0 < A) by (apply Rinv_0_lt_compat; lra).
    assert (EA : 1 - A = d * A) by (unfold A; field; lra). assert (A < 1) by (unfold A; rewrite <- Rinv_1; apply Rinv_lt_contravar; lra).
    exists A. eexists _, _. split; [split; [nra|assumption]|]. split; [change (truth T Es) with (scaled 1 T Es); apply V; lra|]. split; [now apply V|].
    rewrite Rinv_1, ln_1. unfold A. rewrite Rinv_inv. replace (1 + d - 1) with d by ring.
    assert (LD : d / (1 + d) <= ln (1 + d)).
    { destruct (ln_tangent (/ (1 + d)) 1 HA ltac:(lra)) as [I _]. rewrite ln_1, ln_Rinv in I by lra. unfold A in EA. unfold Rdiv in *. rewrite Rinv_1, Rmult_1_r in I. lra. }
    assert (LD2 : d * (2 / 3) <= d / (1 + d)). { unfold Rdiv. apply Rmult_le_compat_l; [lra|]. replace (2 * / 3) with (/ (3 / 2)) by field. apply Rinv_le_contravar; lra. }
    assert (n * (d * (2 / 3)) <= n * ln (1 + d)) by (apply Rmult_le_compat_l; lra). nra.
Qed.
Print Assumptions truth_best_refuted.

(* equal relative uncertainties r (0.3 is assumed for data without uncertainties): the scale
   does not depend on the number of bins *)
Theorem best_scale_relative : forall r bs, 0 < r -> bs <> [] -> (forall b, In b bs -> 0 < b_v b /\ b_s b = r * b_v b) ->
  best_scale bs = 2 / (1 + sqrt (1 + 2 * r ^ 2)) /\ 1 - r ^ 2 / 2 < best_scale bs < 1 - r ^ 2 / 2 + r ^ 4 / 2.
Proof.
  intros r bs HR NE H. assert (S : significance bs = INR (length bs) / r ^ 2).
  { clear NE. unfold significance. induction bs as [|b bs IH]; [cbn; field; lra|]. unfold rsum in *. cbn [map fold_right length]. rewrite IH by (intros; apply H; now right).
    destruct (H b (or_introl eq_refl)) as [V E]. rewrite E, S_INR. field. split; lra. }
  assert (HN : 0 < INR (length bs)) by (apply lt_0_INR; destruct bs; [contradiction|cbn; lia]).
  assert (E : best_scale bs = 2 / (1 + sqrt (1 + 2 * r ^ 2))).
  { unfold best_scale. rewrite S. do 4 f_equal. field. split; [lra|]. lra. }
  split; [exact E|]. rewrite E. assert (R2 : 0 < r ^ 2) by now apply pow_lt. set (t := r ^ 2) in *.
  replace (r ^ 4) with (t ^ 2) by (unfold t; ring). assert (Q2 : sqrt (1 + 2 * t) * sqrt (1 + 2 * t) = 1 + 2 * t) by (apply sqrt_sqrt; lra).
  pose proof (sqrt_pos (1 + 2 * t)) as QP. set (q := sqrt (1 + 2 * t)) in *. assert (Q1 : 1 < q) by nra. assert (QU : q < 1 + t) by nra.
  assert (P : 0 < 1 + q) by lra. assert (ET : t = (q * q - 1) / 2) by lra. split.
  - apply (Rmult_lt_reg_r (1 + q)); [exact P|]. replace (2 / (1 + q) * (1 + q)) with 2 by (field; lra). rewrite ET.
    assert (0 < (q - 1) ^ 2 * (q + 3)) by (apply Rmult_lt_0_compat; [apply pow_lt; lra|lra]). nra.
  - apply (Rmult_lt_reg_r (1 + q)); [exact P|]. replace (2 / (1 + q) * (1 + q)) with 2 by (field; lra). rewrite ET.
    assert (K : (1 - (q * q - 1) / 2 / 2 + ((q * q - 1) / 2) ^ 2 / 2) * (1 + q) - 2 = (q - 1) ^ 2 * ((q + 1) ^ 3 - 2 * (q + 3)) / 8) by field.
    assert (0 < (q + 1) ^ 3 - 2 * (q + 3)). { replace ((q + 1) ^ 3 - 2 * (q + 3)) with ((q - 1) * (q * q + 4 * q + 5)) by ring. apply Rmult_lt_0_compat; nra. }
    assert (0 < (q - 1) ^ 2 * ((q + 1) ^ 3 - 2 * (q + 3)) / 8). { unfold Rdiv. repeat apply Rmult_lt_0_compat; try lra. } lra.
Qed.
Print Assumptions best_scale_relative.

(* the same for the truth known only up to c exp(b E): the parameters that give back the truth
   are not the best fit *)
Theorem truth_best_gauge_refuted : forall c b T Es l h Sn nldSn, c <> 0 -> noise_free T Es l h Sn nldSn -> T <> 0 -> 0 < snd nldSn ->
  (forall b, In b (l ++ h) -> good b) -> l ++ h <> [] ->
  let x := undo c b (truth T Es) in
  transform (p_A x) (p_alpha x) (transform c b (vec_of l)) = vec_of l /\ transform (p_A x) (p_alpha x) (transform c b (vec_of h)) = vec_of h /\
  ~ best (fun y => lnlike ct y (transform c b (vec_of l)) (transform c b (vec_of h)) (mkRV (map b_mu l) (map b_E l) None) Sn nldSn) x.
Proof.
  intros c b T Es l h Sn nldSn HC NF HT HS G NE x.
  assert (OK : forall bs, rv_ok (vec_of bs)). { intros bs. split; cbn; [now rewrite !map_length|]. intros s H. injection H as <-. now rewrite !map_length. }
  assert (BK : forall bs, (forall d, In d bs -> good d) -> transform (p_A x) (p_alpha x) (transform c b (vec_of bs)) = vec_of bs).
  { intros bs HG. rewrite transform_compose by (try apply OK; assumption). unfold x, undo, truth. cbn [p_A p_alpha].
    replace (c * (1 / c)) with 1 by (field; assumption). replace (b + (0 - b)) with 0 by ring. apply transform_identity; [apply OK|].
    intros v Hv. cbn in Hv. apply in_map_iff in Hv. destruct Hv as (d & <- & Hd). apply (HG d Hd). }
  split; [apply BK; intros; apply G, in_or_app; now left|]. split; [apply BK; intros; apply G, in_or_app; now right|].
  intros B. destruct (truth_best_refuted T Es l h Sn nldSn NF HT HS G NE) as [N _]. apply N.
  assert (GA : forall y, lnlike ct (undo c b y) (transform c b (vec_of l)) (transform c b (vec_of h)) (mkRV (map b_mu l) (map b_E l) None) Sn nldSn = L l h Sn nldSn y).
  { intros y. unfold L, lnlike. rewrite !transform_compose by (try apply OK; assumption). unfold undo. cbn [p_A p_alpha p_T p_Eshift].
    replace (c * (p_A y / c)) with (p_A y) by (field; assumption). replace (b + (p_alpha y - b)) with (p_alpha y) by ring. reflexivity. }
  destruct B as (m & E & M). exists m. split; [rewrite <- GA; exact E|]. intros y v Hy. apply (M (undo c b y)). rewrite GA. exact Hy.
Qed.
Print Assumptions truth_best_gauge_refuted.

(* levels 2 and 3 per MeV at 1 and 2 MeV, the model with T = 1 at 3 MeV, 30 % uncertainty: the
   likelihood is largest with all values reduced by more than 4 % *)
Definition tx_l : list bin := [mkBin 1 2 (3 / 10 * 2) 2; mkBin 2 3 (3 / 10 * 3) 3].
Definition tx_h : list bin := [mkBin 3 (const_temperature 1 0 3) (3 / 10 * const_temperature 1 0 3) 0].
Example truth_example : let Sn := (const_temperature 1 0 7, 1) in
  noise_free 1 0 tx_l tx_h 7 Sn /\ ~ best (L tx_l tx_h 7 Sn) (truth 1 0) /\ 9549 / 10000 < best_scale (tx_l ++ tx_h) < 9591 / 10000.
Proof.
  intros Sn. assert (CP : 0 < const_temperature 1 0 3). { unfold const_temperature. apply Rdiv_lt_0_compat; [apply exp_pos|lra]. }
  assert (NF : noise_free 1 0 tx_l tx_h 7 Sn).
  { split; [intros b [<-|[<-|[]]]; reflexivity|]. split; [intros b [<-|[]]; reflexivity|reflexivity]. }
  assert (H : forall b, In b (tx_l ++ tx_h) -> 0 < b_v b /\ b_s b = 3 / 10 * b_v b).
  { intros b Hb. cbn in Hb. destruct Hb as [<-|[<-|[<-|[]]]]; cbn; (split; [lra|reflexivity]). }
  split; [exact NF|]. split.
  - apply (truth_best_refuted 1 0 tx_l tx_h 7 Sn NF); [lra|cbn; lra| |discriminate]. intros b Hb. destruct (H b Hb) as [V E]. split; [lra|rewrite E; lra].
  - destruct (best_scale_relative (3 / 10) (tx_l ++ tx_h) ltac:(lra) ltac:(discriminate) H) as [_ B]. lra.
Qed.
