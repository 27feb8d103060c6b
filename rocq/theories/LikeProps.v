(* C78, C79: the likelihood of the normalisation. *)
From Coq Require Import Reals List Lra Lia.
From Verif Require Import TransformModel TransformProps NormModel LikeModel.
Import ListNotations.
Local Open Scope R_scope.

(* ------------------------------------------------------------------ specification *)
(* a maximum of a function that is not defined everywhere *)
Definition best {X} (L : X -> outc) (x : X) : Prop :=
  exists l, L x = OVal l /\ forall y m, L y = OVal m -> m <= l.
(* parameters that undo a transformation of the data by (c, b) *)
Definition undo (c b : R) (x : par4) : par4 := mkP4 (p_A x / c) (p_alpha x - b) (p_T x) (p_Eshift x).
Definition redo (c b : R) (x : par4) : par4 := mkP4 (c * p_A x) (b + p_alpha x) (p_T x) (p_Eshift x).
(* logarithm of the normal density *)
Definition ln_normal (mu s y : R) : R := - ln (s * sqrt (2 * PI)) - (y - mu) ^ 2 / (2 * s ^ 2).
Definition rsum (l : list R) : R := fold_right Rplus 0 l.
(* one bin: energy, value, standard deviation and expected value *)
Record bin := mkBin { b_E : R; b_v : R; b_s : R; b_mu : R }.
(* the log likelihood of the data, multiplied by A exp(alpha E), given the expected values *)
Definition ln_bin (A al : R) (b : bin) : R :=
  ln_normal (b_mu b) (A * exp (al * b_E b) * b_s b) (A * exp (al * b_E b) * b_v b).
Definition vec_of (l : list bin) : rvec := mkRV (map b_v l) (map b_E l) (Some (map (fun b => Some (b_s b)) l)).
Definition with_mu (f : R -> R) (b : bin) : bin := mkBin (b_E b) (b_v b) (b_s b) (f (b_E b)).
Definition good (b : bin) : Prop := b_v b <> 0 /\ 0 < b_s b.

(* ------------------------------------------------------------------ transformations *)
Theorem transform_compose : forall c a d b v, rv_ok v -> c <> 0 ->
  transform d b (transform c a v) = transform (c * d) (a + b) v.
Proof.
  intros c a d b [vs es st] [HE HS] HC. cbn [rv_values rv_E rv_std] in *. unfold transform. cbn [rv_values rv_E rv_std].
  assert (EB : forall v e, value_bin d b (value_bin c a v e) e = value_bin (c * d) (a + b) v e).
  { intros v e. unfold value_bin. rewrite Rmult_plus_distr_r, exp_plus. ring. }
  assert (ET : rmap2 (value_bin d b) (rmap2 (value_bin c a) vs es) es = rmap2 (value_bin (c * d) (a + b)) vs es).
  { clear HS HE. revert es. induction vs as [|v vs IH]; intros [|e es]; try reflexivity. cbn [rmap2]. now rewrite EB, IH. }
  rewrite ET. f_equal. destruct st as [s|]; [|reflexivity]. f_equal. clear ET. specialize (HS s eq_refl).
  revert es s HE HS. induction vs as [|v vs IH]; intros [|e es] [|x s] HE HS; cbn [length] in *; try lia; try reflexivity.
  cbn [rmap2 fst snd]. f_equal; [|apply IH; lia]. rewrite <- EB. set (w := value_bin c a v e).
  destruct x as [x|]; [|reflexivity]. unfold std_bin. destruct (Req_EM_T v 0) as [Z|Z]; [reflexivity|].
  assert (Z2 : w <> 0).
  { unfold w, value_bin. pose proof (exp_pos (a * e)). apply Rmult_integral_contrapositive_currified; [|lra].
    now apply Rmult_integral_contrapositive_currified. }
  destruct (Req_EM_T w 0); [contradiction|]. f_equal. field. split; assumption.
Qed.
Print Assumptions transform_compose.
(* ... also with empty bins, where the standard deviation becomes nan: *)
Example transform_compose_zero : transform 3 1 (transform 2 1 (mkRV [5; 0] [1; 2] (Some [Some 1; Some 1])))
  = transform (2 * 3) (1 + 1) (mkRV [5; 0] [1; 2] (Some [Some 1; Some 1])).
Proof. apply transform_compose; [|lra]. split; [reflexivity|]. intros s H. injection H as <-. reflexivity. Qed.

Lemma rmap2_skipn {A B C} (f : A -> B -> C) n : forall l m, skipn n (rmap2 f l m) = rmap2 f (skipn n l) (skipn n m).
Proof.
  induction n as [|n IH]; intros [|x l] [|y m]; cbn; try reflexivity; [|apply IH].
  destruct (skipn n l); reflexivity.
Qed.
Lemma rmap2_firstn {A B C} (f : A -> B -> C) n : forall l m, firstn n (rmap2 f l m) = rmap2 f (firstn n l) (firstn n m).
Proof. induction n as [|n IH]; intros [|x l] [|y m]; cbn; try reflexivity. now rewrite IH. Qed.
Lemma rmap2_rslice {A B C} (f : A -> B -> C) lo hi l m : rslice lo hi (rmap2 f l m) = rmap2 f (rslice lo hi l) (rslice lo hi m).
Proof. unfold rslice. now rewrite rmap2_skipn, rmap2_firstn. Qed.
(* cutting and transforming commute *)
Theorem cut_transform_commute : forall idx lim c a v, rcut idx lim (transform c a v) = transform c a (rcut idx lim v).
Proof.
  intros idx lim c a [vs es st]. unfold rcut, transform. cbn [rv_E rv_values rv_std]. rewrite rmap2_rslice. f_equal.
  destruct st as [s|]; [|reflexivity]. cbn [option_map]. f_equal. now rewrite !rmap2_rslice.
Qed.
Print Assumptions cut_transform_commute.
Lemma rslice_length {A B} lo hi (l : list A) (m : list B) : length l = length m -> length (rslice lo hi l) = length (rslice lo hi m).
Proof. intros H. unfold rslice. rewrite !firstn_length, !skipn_length. lia. Qed.
Lemma rcut_ok idx lim v : rv_ok v -> rv_ok (rcut idx lim v).
Proof.
  intros [HE HS]. split; cbn [rcut rv_E rv_values rv_std].
  - now apply rslice_length.
  - intros s Hs. destruct (rv_std v) as [s0|]; [|discriminate]. injection Hs as <-. apply rslice_length. now apply HS.
Qed.

(* ------------------------------------------------------------------ C78: gauge invariance *)
(* The likelihood of data multiplied by c exp(b E) is the likelihood of the data at the
   parameters that include the factor. *)
Theorem objective_gauge : forall idx model f c b nld x, rv_ok nld -> c <> 0 ->
  objective idx model f (transform c b nld) x = objective idx model f nld (redo c b x).
Proof.
  intros idx model f c b nld x OK HC. unfold objective. rewrite !cut_transform_commute. unfold lnlike.
  rewrite !transform_compose by (first [now apply rcut_ok | assumption]). reflexivity.
Qed.
Print Assumptions objective_gauge.
Lemma redo_undo c b x : c <> 0 -> redo c b (undo c b x) = x.
Proof. intros H. destruct x. unfold redo, undo. cbn. f_equal; [field; assumption|ring]. Qed.
(* The best fit of the multiplied data gives the same normalised level density as the best fit
   of the data; every best fit of the one is a best fit of the other. *)
Theorem best_fit_gauge : forall idx model f c b nld x, rv_ok nld -> c <> 0 ->
  (best (objective idx model f (transform c b nld)) x <-> best (objective idx model f nld) (redo c b x)) /\
  normalised (transform c b nld) x = normalised nld (redo c b x).
Proof.
  intros idx model f c b nld x OK HC. split.
  - split; intros (l & E & H); exists l.
    + split; [rewrite <- objective_gauge by assumption; exact E|]. intros y m Hy. apply (H (undo c b y)).
      rewrite objective_gauge by assumption. now rewrite redo_undo.
    + split; [rewrite objective_gauge by assumption; exact E|]. intros y m Hy. apply (H (redo c b y)).
      rewrite <- objective_gauge by assumption. exact Hy.
  - unfold normalised. now rewrite transform_compose.
Qed.
Print Assumptions best_fit_gauge.
(* the same for the simultaneous fit of both functions: the strength function may be
   multiplied by another constant, but by the same exponential *)
Theorem simultaneous_gauge : forall idx fitf g2 p sigma ss low high f c b d nld gsf x B,
  rv_ok nld -> rv_ok gsf -> c <> 0 -> d <> 0 ->
  sim_lnlike idx fitf g2 p sigma ss low high f (transform c b nld) (transform d b gsf) x B
  = sim_lnlike idx fitf g2 p sigma ss low high f nld gsf (redo c b x) (d * B).
Proof.
  intros. unfold sim_lnlike. rewrite objective_gauge by assumption. unfold simultan_curves.
  rewrite !transform_compose by assumption. reflexivity.
Qed.
Print Assumptions simultaneous_gauge.

(* ------------------------------------------------------------------ C79: log likelihood *)
Lemma all_near_refl l : all_near l l = true.
Proof.
  induction l as [|a l IH]; [reflexivity|]. cbn. destruct (near_dec a a) as [|n]; [exact IH|]. exfalso. apply n. unfold near.
  rewrite Rminus_diag_eq by reflexivity. rewrite Rabs_R0. pose proof (Rabs_pos a). lra.
Qed.
Definition chi (A al : R) (b : bin) : R :=
  (A * b_v b * exp (al * b_E b) - b_mu b) ^ 2 / (b_s b * (A * exp (al * b_E b))) ^ 2.
Lemma transform_vec A al l : (forall b, In b l -> good b) ->
  transform A al (vec_of l) = mkRV (map (fun b => A * b_v b * exp (al * b_E b)) l) (map b_E l)
    (Some (map (fun b => Some (b_s b * (A * exp (al * b_E b)))) l)).
Proof.
  intros H. unfold transform, vec_of. cbn [rv_values rv_E rv_std].
  induction l as [|b l IH]; [reflexivity|]. cbn [map rmap2].
  assert (H' : forall b, In b l -> good b) by (intros; apply H; now right).
  specialize (IH H'). injection IH as I1 I2. rewrite I1 in *. unfold value_bin at 1. f_equal. f_equal.
  f_equal; [|exact I2]. cbn [fst snd std_bin]. destruct (H b (or_introl eq_refl)) as [Z _].
  destruct (Req_EM_T (b_v b) 0); [contradiction|]. f_equal. unfold value_bin. field. exact Z.
Qed.
Lemma err_of_bins A al l (vs : list R) : 0 < A -> (forall b, In b l -> good b) ->
  err_bins (map (fun b => A * b_v b * exp (al * b_E b)) l) (map (fun b => Some (b_mu b)) l)
    (Some (map (fun b => Some (b_s b * (A * exp (al * b_E b)))) l)) = rsum (map (chi A al) l).
Proof.
  intros HA H. induction l as [|b l IH]; [reflexivity|]. cbn [map err_bins tl rsum fold_right]. rewrite IH by (intros; apply H; now right).
  f_equal. unfold err_bin. destruct (H b (or_introl eq_refl)) as [_ Hs]. pose proof (exp_pos (al * b_E b)) as He.
  destruct (Req_EM_T _ 0) as [Z|]; [|reflexivity]. exfalso. pose proof (Rmult_lt_0_compat _ _ HA He) as P.
  pose proof (Rmult_lt_0_compat _ _ Hs P). lra.
Qed.
Lemma ln_of_bins A al l E v : 0 < A -> (forall b, In b l -> good b) ->
  ln_std (mkRV v E (Some (map (fun b => Some (b_s b * (A * exp (al * b_E b)))) l)))
  = OVal (rsum (map (fun b => ln (b_s b)) l) + INR (length l) * ln A + al * rsum (map b_E l)).
Proof.
  intros HA H. unfold ln_std. cbn [rv_std]. induction l as [|b l IH].
  - cbn. f_equal. ring.
  - unfold osum in *. cbn [map fold_right length]. rewrite IH by (intros; apply H; now right). clear IH.
    destruct (H b (or_introl eq_refl)) as [_ Hs]. pose proof (exp_pos (al * b_E b)) as He.
    pose proof (Rmult_lt_0_compat _ _ HA He) as P. pose proof (Rmult_lt_0_compat _ _ Hs P) as P2.
    destruct (Rlt_dec 0 _) as [_|n]; [|contradiction]. cbn [omap2]. f_equal. rewrite !ln_mult, ln_exp by assumption.
    rewrite S_INR. cbn [rsum map fold_right]. unfold rsum. ring.
Qed.
Lemma ln_of_normal A al l : 0 < A -> (forall b, In b l -> good b) ->
  rsum (map (ln_bin A al) l) = - / 2 * rsum (map (chi A al) l)
    - (rsum (map (fun b => ln (b_s b)) l) + INR (length l) * ln A + al * rsum (map b_E l))
    - INR (length l) * ln (sqrt (2 * PI)).
Proof.
  intros HA H. induction l as [|b l IH]; [cbn; ring|]. cbn [map length]. rewrite S_INR. unfold rsum in *. cbn [fold_right].
  rewrite IH by (intros; apply H; now right). clear IH. destruct (H b (or_introl eq_refl)) as [_ Hs].
  pose proof (exp_pos (al * b_E b)) as He. pose proof PI_RGT_0 as Hpi.
  assert (Hq : 0 < sqrt (2 * PI)) by (apply sqrt_lt_R0; lra).
  unfold ln_bin, ln_normal, chi. pose proof (Rmult_lt_0_compat _ _ HA He) as P. pose proof (Rmult_lt_0_compat _ _ P Hs) as P2.
  rewrite (ln_mult _ (sqrt (2 * PI))), (ln_mult _ (b_s b)), (ln_mult A), ln_exp by assumption.
  replace ((A * exp (al * b_E b) * b_v b - b_mu b) ^ 2 / (2 * (A * exp (al * b_E b) * b_s b) ^ 2))
    with (/ 2 * ((A * b_v b * exp (al * b_E b) - b_mu b) ^ 2 / (b_s b * (A * exp (al * b_E b))) ^ 2)) by (field; repeat split; lra).
  ring.
Qed.

(* data and expectations of the fit for parameters x *)
Definition high_bins (x : par4) (h : list bin) : list bin := map (with_mu (const_temperature (p_T x) (p_Eshift x))) h.
(* the log likelihood of all data: levels at low energies, model at high energies, nld(Sn) *)
Definition log_likelihood (x : par4) (l h : list bin) (Sn : R) (nldSn : R * R) : R :=
  rsum (map (ln_bin (p_A x) (p_alpha x)) l) + rsum (map (ln_bin (p_A x) (p_alpha x)) (high_bins x h))
  + ln_normal (const_temperature (p_T x) (p_Eshift x) Sn) (snd nldSn) (fst nldSn).

(* What lnlike returns: the log likelihood plus a constant, plus half the sum of the
   logarithms of the factors A exp(alpha E) of all bins. *)
Theorem lnlike_value_partial : forall l h Sn nldSn, (forall b, In b l -> good b) -> (forall b, In b h -> good b) -> 0 < snd nldSn ->
  exists K, forall x, 0 < p_A x -> p_T x <> 0 ->
  lnlike ct x (vec_of l) (vec_of h) (mkRV (map b_mu l) (map b_E l) None) Sn nldSn
  = OVal (log_likelihood x l h Sn nldSn + K
          + / 2 * (INR (length l + length h) * ln (p_A x) + p_alpha x * rsum (map b_E (l ++ h)))).
Proof.
  intros l h Sn nldSn Gl Gh Hs.
  exists (INR (length l + length h) * ln (sqrt (2 * PI)) + ln (snd nldSn * sqrt (2 * PI))
          + / 2 * rsum (map (fun b => ln (b_s b)) (l ++ h))).
  intros x HA HT. unfold lnlike. rewrite !transform_vec by assumption. cbn [rv_values rv_E].
  assert (Ect : forall e, ct (p_T x) (p_Eshift x) e = Some (const_temperature (p_T x) (p_Eshift x) e)).
  { intros e. unfold ct. destruct (Req_EM_T _ 0); [contradiction|reflexivity]. }
  rewrite Ect. unfold rerror. cbn [rv_values rv_E rv_std]. rewrite !map_length, !Nat.eqb_refl, !all_near_refl. cbn [andb].
  set (hb := high_bins x h).
  assert (Gh' : forall b, In b hb -> good b).
  { intros b Hb. unfold hb, high_bins in Hb. apply in_map_iff in Hb. destruct Hb as (b0 & <- & Hb0). exact (Gh b0 Hb0). }
  rewrite (map_map b_mu Some). rewrite (err_of_bins _ _ l []) by assumption.
  replace (map (ct (p_T x) (p_Eshift x)) (map b_E h)) with (map (fun b => Some (b_mu b)) hb)
    by (unfold hb, high_bins; rewrite !map_map; apply map_ext; intros; cbn; now rewrite Ect).
  replace (map (fun b => p_A x * b_v b * exp (p_alpha x * b_E b)) h) with (map (fun b => p_A x * b_v b * exp (p_alpha x * b_E b)) hb)
    by (unfold hb, high_bins; rewrite map_map; reflexivity).
  replace (map (fun b => Some (b_s b * (p_A x * exp (p_alpha x * b_E b)))) h) with (map (fun b => Some (b_s b * (p_A x * exp (p_alpha x * b_E b)))) hb)
    by (unfold hb, high_bins; rewrite map_map; reflexivity).
  rewrite (err_of_bins _ _ hb []) by assumption. rewrite !ln_of_bins by assumption.
  destruct (Req_EM_T (snd nldSn) 0); [lra|]. unfold oscale. cbn [omap2]. f_equal. unfold log_likelihood. fold hb.
  rewrite !ln_of_normal by assumption. unfold ln_normal.
  assert (E1 : length hb = length h) by (unfold hb, high_bins; apply map_length).
  assert (E2 : map (fun b => ln (b_s b)) hb = map (fun b => ln (b_s b)) h) by (unfold hb, high_bins; rewrite map_map; reflexivity).
  assert (E3 : map b_E hb = map b_E h) by (unfold hb, high_bins; rewrite map_map; reflexivity).
  rewrite E1, E2, E3. rewrite !map_app.
  assert (RS : forall a b, rsum (a ++ b) = rsum a + rsum b).
  { intros a b. unfold rsum. induction a as [|y a IH]; cbn; [ring|]. rewrite IH. ring. }
  rewrite !RS, plus_INR.
  replace ((fst nldSn - const_temperature (p_T x) (p_Eshift x) Sn) ^ 2 / (2 * snd nldSn ^ 2))
    with (/ 2 * ((fst nldSn - const_temperature (p_T x) (p_Eshift x) Sn) / snd nldSn) ^ 2) by (field; lra).
  field. lra.
Qed.
Print Assumptions lnlike_value_partial.

(* C79 refuted: lnlike is not the log likelihood up to a constant that does not matter for the
   maximisation.  Here, with one bin of levels and one bin of the model and all parameters
   within the bounds of the fit, it prefers the less likely of two parameter sets. *)
Theorem lnlike_order_refuted : exists l h Sn nldSn x y,
  (forall b, In b l -> good b) /\ (forall b, In b h -> good b) /\ 0 < snd nldSn /\
  p_A x = 1 /\ p_A y = exp 1 /\ p_alpha x = p_alpha y /\ p_T x = p_T y /\ p_T x = 1 /\ p_Eshift x = p_Eshift y /\
  log_likelihood y l h Sn nldSn < log_likelihood x l h Sn nldSn /\
  exists a b, lnlike ct x (vec_of l) (vec_of h) (mkRV (map b_mu l) (map b_E l) None) Sn nldSn = OVal a /\
              lnlike ct y (vec_of l) (vec_of h) (mkRV (map b_mu l) (map b_E l) None) Sn nldSn = OVal b /\ a < b.
Proof.
  pose proof (exp_pos 1) as He. assert (H1 : 1 < exp 1) by (rewrite <- exp_0 at 1; apply exp_increasing; lra).
  set (e := exp 1) in *. assert (Hi : / e < 1) by (rewrite <- Rinv_1; apply Rinv_lt_contravar; lra).
  assert (Hip : 0 < / e) by (now apply Rinv_0_lt_compat).
  set (s := (1 - / e) * sqrt (2 / 3)).
  assert (Hq : 0 < sqrt (2 / 3)) by (apply sqrt_lt_R0; lra).
  assert (Hs : 0 < s) by (apply Rmult_lt_0_compat; lra).
  assert (Hs2 : s ^ 2 = (1 - / e) ^ 2 * (2 / 3)).
  { unfold s. rewrite Rpow_mult_distr. f_equal. rewrite <- Rsqr_pow2. apply Rsqr_sqrt. lra. }
  set (bn := mkBin 0 (/ e) s 1). exists [bn], [bn], 7, (3, 1), (mkP4 1 1 1 0), (mkP4 e 1 1 0). cbn [p_A p_alpha p_T p_Eshift snd fst].
  assert (G : forall b, In b [bn] -> good b) by (intros b [<- | []]; split; cbn; [lra|exact Hs]).
  assert (CT : const_temperature 1 0 0 = 1).
  { unfold const_temperature. replace ((0 - 0) / 1) with 0 by field. rewrite exp_0. field. }
  assert (L1 : ln_bin 1 1 bn = - ln (s * sqrt (2 * PI)) - 3 / 4).
  { unfold ln_bin, ln_normal. cbn [b_E b_v b_s b_mu bn]. rewrite Rmult_0_r, exp_0, !Rmult_1_l. rewrite Hs2. field. repeat split; lra. }
  assert (Le : ln_bin e 1 bn = - ln (s * sqrt (2 * PI)) - 1).
  { unfold ln_bin, ln_normal. cbn [b_E b_v b_s b_mu bn]. rewrite Rmult_0_r, exp_0, !Rmult_1_r.
    pose proof PI_RGT_0. assert (0 < sqrt (2 * PI)) by (apply sqrt_lt_R0; lra).
    replace (e * s * sqrt (2 * PI)) with (e * (s * sqrt (2 * PI))) by ring. rewrite ln_mult; [|assumption|now apply Rmult_lt_0_compat].
    unfold e at 1. rewrite ln_exp. replace (e * / e - 1) with 0 by (field; lra). field. split; lra. }
  assert (WM : with_mu (const_temperature 1 0) bn = bn) by (unfold with_mu, bn; cbn; now rewrite CT).
  assert (V : forall A, log_likelihood (mkP4 A 1 1 0) [bn] [bn] 7 (3, 1)
     = 2 * ln_bin A 1 bn + ln_normal (const_temperature 1 0 7) 1 3).
  { intros A. unfold log_likelihood, high_bins. cbn [p_A p_alpha p_T p_Eshift map rsum fold_right fst snd]. rewrite WM. ring. }
  repeat (split; [first [exact G | lra | reflexivity]|]).
  split. { rewrite !V, L1, Le. lra. }
  destruct (lnlike_value_partial [bn] [bn] 7 (3, 1) G G) as [K HK]; [cbn; lra|].
  eexists _, _. split; [apply HK; cbn; lra|]. split; [apply HK; cbn; lra|]. rewrite !V, L1, Le. cbn [p_A p_alpha app map rsum fold_right length Nat.add b_E bn].
  rewrite ln_1. unfold e at 1. rewrite ln_exp. replace (INR 2) with 2 by (cbn; lra). unfold e. lra.
Qed.
Print Assumptions lnlike_order_refuted.

(* An empty bin within the limits of the fit leaves no parameters with a likelihood. *)
Lemma osum_nan l : In ONan l -> forall y, osum l <> OVal y.
Proof.
  unfold osum. induction l as [|a l IH]; intros H y; [destruct H|]. cbn [fold_right]. destruct H as [-> | H].
  - destruct (fold_right _ _ l); discriminate.
  - specialize (IH H). destruct a, (fold_right _ _ l) as [z| |]; cbn; try discriminate. exfalso. now apply (IH z).
Qed.
Lemma transform_zero_nan c a : forall vs es s s', length es = length vs -> length s = length vs -> In 0 vs ->
  rv_std (transform c a (mkRV vs es (Some s))) = Some s' -> In None s'.
Proof.
  intros vs es s s' HE HS HZ H. cbn in H. injection H as <-. revert es s HE HS.
  induction vs as [|v vs IH]; intros [|e es] [|x s] HE HS; cbn [length] in *; try lia; [destruct HZ|].
  cbn [rmap2 fst snd]. destruct HZ as [-> | HZ].
  - left. destruct x; [|reflexivity]. unfold std_bin. destruct (Req_EM_T 0 0); [reflexivity|congruence].
  - right. apply IH; [assumption|lia|lia].
Qed.
Lemma ln_std_zero c a v y : rv_ok v -> In 0 (rv_values v) -> ln_std (transform c a v) <> OVal y.
Proof.
  intros [HE HS] HZ. destruct v as [vs es [s|]]; cbn [rv_values rv_E rv_std] in *; [|discriminate].
  unfold ln_std. destruct (rv_std (transform c a (mkRV vs es (Some s)))) as [s'|] eqn:E; [|discriminate].
  apply osum_nan. change ONan with ((fun x : rnan => match x with Some y => if Rlt_dec 0 y then OVal (ln y) else ONan | None => ONan end) None).
  apply in_map. eapply transform_zero_nan with (vs := vs); eauto.
Qed.
Lemma omap2_val f a b m : omap2 f a b = OVal m -> (exists x, a = OVal x) /\ exists y, b = OVal y.
Proof. destruct a, b; cbn; try discriminate. intros _. split; eexists; reflexivity. Qed.
Theorem zero_bin_no_likelihood : forall idx model f nld x m, rv_ok nld ->
  In 0 (rv_values (rcut idx (f_low f) nld)) \/ In 0 (rv_values (rcut idx (f_high f) nld)) ->
  objective idx model f nld x <> OVal m.
Proof.
  intros idx model f nld x m OK HZ E. unfold objective, lnlike, oscale in E.
  apply omap2_val in E. destruct E as [_ [y E]]. apply omap2_val in E. destruct E as [_ [z E]].
  apply omap2_val in E. destruct E as [[z1 E1] [z2 E2]]. destruct HZ as [HZ | HZ].
  - exact (ln_std_zero _ _ _ _ (rcut_ok idx (f_low f) nld OK) HZ E1).
  - exact (ln_std_zero _ _ _ _ (rcut_ok idx (f_high f) nld OK) HZ E2).
Qed.
Print Assumptions zero_bin_no_likelihood.
(* a level density with an empty bin in the lower limits *)
Example zero_bin_example : forall x m,
  objective (fun E e => length (filter (fun y => if Rlt_dec y e then true else false) E)) ct
    (mkFit (1, 2) (3, 4) (mkRV [3; 2] [1; 2] None) 7 (1000, 100)) (mkRV [2; 0; 5; 9] [1; 2; 3; 4] (Some [Some 1; Some 1; Some 1; Some 1])) x <> OVal m.
Proof.
  intros x m. apply zero_bin_no_likelihood.
  - split; [reflexivity|]. intros s H. injection H as <-. reflexivity.
  - left. unfold rcut. cbn [f_low fst snd rv_E rv_values filter].
    repeat match goal with |- context [Rlt_dec ?a ?b] => destruct (Rlt_dec a b); [exfalso; Lra.lra|] || (destruct (Rlt_dec a b); [|exfalso; Lra.lra]) end.
    cbn. tauto.
Qed.

(* The hypotheses of C78 hold for data with an empty bin outside the limits of the fit, and
   the likelihood exists for data without empty bins. *)
Example gauge_example : forall idx f x, let nld := mkRV [2; 4; 0; 9] [1; 2; 3; 4] (Some [Some 1; Some 1; Some 1; Some 2]) in
  objective idx ct f (transform 1000 (/ 2) nld) x = objective idx ct f nld (mkP4 (1000 * p_A x) (/ 2 + p_alpha x) (p_T x) (p_Eshift x)).
Proof. intros idx f x nld. apply objective_gauge; [|Lra.lra]. split; [reflexivity|]. intros s H. injection H as <-. reflexivity. Qed.
Example likelihood_exists : exists K, forall x, 0 < p_A x -> p_T x <> 0 ->
  let l := [mkBin 1 2 1 3; mkBin 2 4 1 5] in let h := [mkBin 3 5 1 0; mkBin 4 9 2 0] in
  lnlike ct x (mkRV [2; 4] [1; 2] (Some [Some 1; Some 1])) (mkRV [5; 9] [3; 4] (Some [Some 1; Some 2])) (mkRV [3; 5] [1; 2] None) 7 (1000, 100)
  = OVal (log_likelihood x l h 7 (1000, 100) + K + / 2 * (INR 4 * ln (p_A x) + p_alpha x * (1 + (2 + (3 + (4 + 0)))))).
Proof.
  destruct (lnlike_value_partial [mkBin 1 2 1 3; mkBin 2 4 1 5] [mkBin 3 5 1 0; mkBin 4 9 2 0] 7 (1000, 100)) as [K HK].
  - intros b [<- | [<- | []]]; split; cbn; Lra.lra.
  - intros b [<- | [<- | []]]; split; cbn; Lra.lra.
  - cbn. Lra.lra.
  - exists K. intros x HA HT. exact (HK x HA HT).
Qed.
