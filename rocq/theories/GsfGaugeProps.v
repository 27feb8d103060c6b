(* C110: the normalised strength function does not depend on the arbitrary scale and slope of
   the extracted functions. *)
From Coq Require Import Reals List Lra Lia.
From Verif Require Import TransformModel TransformProps NormModel NormSpec NormProofs NormProps ExtrapProps LikeModel LikeProps.
Import ListNotations.
Local Open Scope R_scope.

(* ------------------------------------------------------------------ specification *)
(* two results that a user cannot tell apart except for the factor: the strength function with
   its uncertainties, both extrapolations, and the factor times d *)
Definition same_result (d : R) (r r' : gres) : Prop :=
  gr_gsf r = gr_gsf r' /\
  extrapolate true (gr_low r) = extrapolate true (gr_low r') /\ extrapolate true (gr_high r) = extrapolate true (gr_high r') /\
  em_scale (gr_low r) = em_scale (gr_low r') /\ em_scale (gr_high r) = em_scale (gr_high r') /\
  shift_after (gr_low r) = shift_after (gr_low r') /\ shift_after (gr_high r) = shift_after (gr_high r') /\
  d * gr_B r = gr_B r' /\ d * gr_Bu r = gr_Bu r' /\ gr_before r = d * gr_before r'.
(* both fail, or both give the same *)
Definition agree (d : R) (o o' : option gres) : Prop :=
  match o, o' with
  | Some r, Some r' => same_result d r r'
  | None, None => True
  | _, _ => False
  end.
(* the fit of data multiplied by d: the same slope, ln d added to the shift *)
Definition follows (fitf : rvec -> emodel -> R * R) (d : R) (v : rvec) (m : emodel) : Prop :=
  fitf (transform d 0 v) m = (fst (fitf v m), snd (fitf v m) + ln d).

(* ------------------------------------------------------------------ the strength function *)
Lemma transform_id_scale d a v : rv_ok v -> d <> 0 -> transform d a v = transform d 0 (transform 1 a v).
Proof. intros OK H. rewrite transform_compose by (try assumption; lra). f_equal; ring. Qed.
Lemma ln_div B d : 0 < B -> 0 < d -> ln (B / d) = ln B - ln d.
Proof. intros HB HD. unfold Rdiv. rewrite ln_mult by (try assumption; now apply Rinv_0_lt_compat). rewrite ln_Rinv by assumption. ring. Qed.
Lemma extrapolate_fit_scaled d f m c : 0 < d -> extrapolate false (set_fit f m) = Some c ->
  exists c', extrapolate false (set_fit (fst f, snd f + ln d) m) = Some c' /\ scaled_curve d 0 c c'.
Proof.
  intros HD E. destruct (extrapolation_transform d 0 (set_fit f m) c HD E) as (c' & E' & S). exists c'. split; [|exact S].
  rewrite <- E'. f_equal. unfold set_fit, transform_model. cbn. now rewrite Rplus_0_r.
Qed.
Lemma extrapolate_fit_none d f m : extrapolate false (set_fit f m) = None -> extrapolate false (set_fit (fst f, snd f + ln d) m) = None.
Proof. unfold extrapolate, set_fit. cbn. destruct (em_Emin m), (em_Emax m); congruence. Qed.

Theorem gsf_normalize_gauge : forall fitf p ss nld model alpha low high gsf d b,
  rv_ok gsf -> 0 < d -> em_fit low = true ->
  (forall e0 t, rv_E gsf = e0 :: t -> follows fitf d (transform 1 alpha gsf) (autorange e0 low) /\
                                      follows fitf d (transform 1 alpha gsf) (autorange e0 high)) ->
  agree d (gsf_normalize fitf p ss nld model (alpha - b) low high (transform d b gsf))
          (gsf_normalize fitf p ss nld model alpha low high gsf).
Proof.
  intros fitf p ss nld model alpha low high gsf d b OK HD HF FO. unfold gsf_normalize.
  rewrite transform_compose by (try assumption; lra). replace (d * 1) with d by ring. replace (b + (alpha - b)) with alpha by ring.
  rewrite (transform_id_scale d alpha gsf) by (try assumption; lra). set (v := transform 1 alpha gsf) in *.
  assert (OKv : rv_ok v) by apply (transform_bins 1 alpha gsf OK).
  change (rv_E (transform d 0 v)) with (rv_E v). destruct (rv_E v) as [|e0 t] eqn:EE; [exact I|].
  set (ml := autorange e0 low). set (mh := autorange e0 high). unfold fit_models. change (em_fit ml) with (em_fit low). rewrite HF.
  destruct (FO e0 t EE) as [F1 F2]. fold ml in F1. fold mh in F2. unfold follows in F1, F2. rewrite F1, F2. clear F1 F2. set (fl := fitf v ml). set (fh := fitf v mh).
  destruct (extrapolate false (set_fit fl ml)) as [cl|] eqn:XL; [|rewrite (extrapolate_fit_none d _ _ XL); exact I].
  destruct (extrapolate_fit_scaled d fl ml cl HD XL) as (cl' & XL' & SL). rewrite XL'.
  destruct (extrapolate false (set_fit fh mh)) as [ch|] eqn:XH; [|rewrite (extrapolate_fit_none d _ _ XH); exact I].
  destruct (extrapolate_fit_scaled d fh mh ch HD XH) as (ch' & XH' & SH). rewrite XH'.
  rewrite (Gg_proportional d p ss (rv_curve v) cl ch (rv_curve (transform d 0 v)) cl' ch' nld model HD (transform_curve _ _ _) SL SH).
  destruct (Gg_standard p ss (rv_curve v) cl ch nld model) as [g| |]; cbn [oscale omap2]; try exact I.
  destruct (Req_EM_T g 0) as [Z|Z].
  { destruct (Req_EM_T (d * g) 0) as [|N]; [exact I|]. exfalso. apply N. rewrite Z. ring. }
  destruct (Req_EM_T (d * g) 0) as [N|N].
  { apply Rmult_integral in N. destruct N; [lra|contradiction]. }
  assert (EB : np_Gg p / (d * g) = np_Gg p / g / d) by (field; split; try assumption; lra). rewrite EB. set (B := np_Gg p / g). clearbody B. clear EB.
  unfold norm_to_shift_after. destruct (Rlt_dec 0 B) as [HB|HB].
  2:{ destruct (Rlt_dec 0 (B / d)) as [C|C]; [|exact I]. exfalso. apply HB. replace B with (B / d * d) by (field; lra). apply Rmult_lt_0_compat; assumption. }
  destruct (Rlt_dec 0 (B / d)) as [C|C]; [|exfalso; apply C; now apply Rdiv_lt_0_compat].
  assert (SH1 : forall s, s + ln d + ln (B / d) = s + ln B) by (intros s; rewrite ln_div by assumption; ring).
  unfold agree, same_result. cbn [gr_gsf gr_low gr_high gr_B gr_Bu gr_before em_scale set_fit fst snd em_shift em_high em_Emin em_Emax em_steps em_fit em_after shift_after].
  split. { rewrite transform_compose by (try assumption; lra). f_equal; [field; lra|ring]. }
  split. { unfold extrapolate, shift_after. cbn [em_high em_scale em_shift em_after em_Emin em_Emax em_steps set_fit fst snd]. now rewrite SH1. }
  split. { unfold extrapolate, shift_after. cbn [em_high em_scale em_shift em_after em_Emin em_Emax em_steps set_fit fst snd]. now rewrite SH1. }
  split; [reflexivity|]. split; [reflexivity|]. split; [apply SH1|]. split; [apply SH1|].
  split; [field; lra|]. split; [unfold Rdiv; generalize (/ np_D0 p); intros w; field; lra|]. reflexivity.
Qed.
Print Assumptions gsf_normalize_gauge.

(* ------------------------------------------------------------------ both functions together *)
(* First the level density, then the strength function with the slope found there: extracted
   functions multiplied by c exp(b E) and d exp(b E) give the same normalised level density,
   strength function and extrapolations. *)
Theorem oslo_gauge : forall idx model nmodel f fitf p ss low high nld gsf c d b x,
  rv_ok nld -> rv_ok gsf -> c <> 0 -> 0 < d -> em_fit low = true ->
  (forall e0 t, rv_E gsf = e0 :: t -> follows fitf d (transform 1 (b + p_alpha x) gsf) (autorange e0 low) /\
                                      follows fitf d (transform 1 (b + p_alpha x) gsf) (autorange e0 high)) ->
  let x' := redo c b x in
  (best (objective idx model f (transform c b nld)) x <-> best (objective idx model f nld) x') /\
  normalised (transform c b nld) x = normalised nld x' /\
  agree d
    (gsf_normalize fitf p ss (rv_curve (normalised (transform c b nld) x)) (nmodel (p_T x) (p_Eshift x)) (p_alpha x) low high (transform d b gsf))
    (gsf_normalize fitf p ss (rv_curve (normalised nld x')) (nmodel (p_T x') (p_Eshift x')) (p_alpha x') low high gsf).
Proof.
  intros idx model nmodel f fitf p ss low high nld gsf c d b x ON OG HC HD HF FO x'.
  destruct (best_fit_gauge idx model f c b nld x ON HC) as [H1 H2]. split; [exact H1|]. split; [exact H2|]. rewrite H2.
  change (p_T x') with (p_T x). change (p_Eshift x') with (p_Eshift x). change (p_alpha x') with (b + p_alpha x).
  replace (p_alpha x) with (b + p_alpha x - b) at 1 by ring. now apply gsf_normalize_gauge.
Qed.
Print Assumptions oslo_gauge.

(* ------------------------------------------------------------------ the fit *)
(* models.py:250-262: the points of the fit range idx1..idx2, sigma = 1 without uncertainties;
   curve_fit refuses NaN *)
Fixpoint all_some (l : list rnan) : option (list R) :=
  match l with
  | [] => Some []
  | None :: _ => None
  | Some x :: t => option_map (cons x) (all_some t)
  end.
Definition fit_points (i j : nat) (v : rvec) : option (list (R * R * R)) :=
  let x := rslice i j (rv_E v) in
  let y := rslice i j (rv_values v) in
  match rv_std v with
  | None => Some (combine (combine x y) (map (fun _ => 1) x))
  | Some s => option_map (combine (combine x y)) (all_some (rslice i j s))
  end.
(* the fit finds the one pair of parameters that makes chi square least *)
Definition least_squares (i j : nat) (fitf : rvec -> emodel -> R * R) (v : rvec) (m : emodel) : Prop :=
  exists pts, fit_points i j v = Some pts /\ Forall (fun q => snd q <> 0 /\ fst (fst q) <> 0) pts /\
    forall sc sh, (forall sc' sh', chi2 (em_high m) sc sh pts <= chi2 (em_high m) sc' sh' pts) <-> fitf v m = (sc, sh).
(* y times d, sigma times k *)
Definition scale_pts (d k : R) (pts : list (R * R * R)) : list (R * R * R) := map (fun q => let '(e, y, s) := q in (e, d * y, k * s)) pts.
Lemma chi2_scale h sc sh d k pts : 0 < d -> k <> 0 -> Forall (fun q => snd q <> 0 /\ fst (fst q) <> 0) pts ->
  chi2 h sc (sh + ln d) (scale_pts d k pts) = (d / k) ^ 2 * chi2 h sc sh pts.
Proof.
  intros HD HK H. unfold chi2, scale_pts. induction pts as [|[[e y] s] t IH]; [cbn; ring|].
  inversion H as [|? ? [H1 H2] H3]; subst. cbn [fst snd] in H1, H2. cbn [map fold_right]. rewrite IH by assumption. rewrite Rmult_plus_distr_l. f_equal.
  replace (sc * e + (sh + ln d)) with (ln d + (sc * e + sh)) by ring. rewrite exp_plus, exp_ln by assumption. set (w := exp (sc * e + sh)).
  destruct h; field; repeat split; assumption.
Qed.
Lemma all_some_map (f : R -> R) l l' : all_some l = Some l' -> all_some (map (option_map f) l) = Some (map f l').
Proof.
  revert l'. induction l as [|[x|] l IH]; intros l' H; try discriminate; [injection H as <-; reflexivity|]. cbn in *.
  destruct (all_some l) as [t|]; [|discriminate]. injection H as <-. now rewrite (IH t eq_refl).
Qed.
Lemma value_bin_0 d v e : value_bin d 0 v e = d * v.
Proof. unfold value_bin. rewrite Rmult_0_l, exp_0. ring. Qed.
Lemma transform_values_0 d v : rv_ok v -> rv_values (transform d 0 v) = map (Rmult d) (rv_values v).
Proof.
  intros [H _]. unfold transform. cbn [rv_values]. revert H. generalize (rv_values v) (rv_E v). induction l as [|y l IH]; intros [|e t] H; cbn [length] in *; try lia; [reflexivity|].
  cbn [rmap2 map]. now rewrite value_bin_0, IH by lia.
Qed.
Lemma transform_std_0 d v s : rv_ok v -> nonzero v -> rv_std v = Some s -> rv_std (transform d 0 v) = Some (map (option_map (Rmult d)) s).
Proof.
  intros [H1 H2] NZ E. unfold transform. cbn [rv_std]. rewrite E. f_equal. specialize (H2 s E). unfold nonzero in NZ. clear E. revert s H2 H1 NZ. generalize (rv_values v) (rv_E v).
  induction l as [|y l IH]; intros [|e t] [|x s] H2 H1 NZ; cbn [length] in *; try lia; [reflexivity|].
  cbn [rmap2 map fst snd]. rewrite value_bin_0. f_equal; [|apply IH; try lia; intros z Hz; apply NZ; now right].
  destruct x as [x|]; [|reflexivity]. unfold std_bin. cbn [option_map]. destruct (Req_EM_T y 0) as [Z|Z]; [exfalso; apply (NZ y); [now left|assumption]|].
  f_equal. field. assumption.
Qed.
Lemma rslice_map {A B} (f : A -> B) i j l : rslice i j (map f l) = map f (rslice i j l).
Proof. unfold rslice. now rewrite skipn_map, firstn_map. Qed.
Lemma combine_scale d k x y s : combine (combine x (map (Rmult d) y)) (map (Rmult k) s) = scale_pts d k (combine (combine x y) s).
Proof. revert y s. induction x as [|a x IH]; intros [|b y] [|c s]; cbn; try reflexivity. f_equal. apply IH. Qed.
Lemma fit_points_transform i j d v pts : rv_ok v -> nonzero v -> 0 < d -> fit_points i j v = Some pts ->
  exists k, k <> 0 /\ fit_points i j (transform d 0 v) = Some (scale_pts d k pts).
Proof.
  intros OK NZ HD H. unfold fit_points in *. change (rv_E (transform d 0 v)) with (rv_E v). rewrite transform_values_0 by assumption.
  destruct (rv_std v) as [s|] eqn:ES.
  - exists d. split; [lra|]. rewrite (transform_std_0 d v s) by assumption. rewrite !rslice_map. destruct (all_some _) as [t|] eqn:AS; [|discriminate].
    rewrite (all_some_map _ _ _ AS). cbn [option_map] in *. injection H as <-. now rewrite combine_scale.
  - exists 1. split; [lra|]. unfold transform at 1. cbn [rv_std]. rewrite ES. injection H as <-. rewrite rslice_map, <- combine_scale, map_map. do 2 f_equal.
    apply map_ext. intros _. ring.
Qed.
(* A least-squares fit follows the data, with and without uncertainties. *)
Theorem least_squares_follows : forall i j fitf d v m, rv_ok v -> nonzero v -> 0 < d ->
  least_squares i j fitf v m -> least_squares i j fitf (transform d 0 v) m -> follows fitf d v m.
Proof.
  intros i j fitf d v m OK NZ HD (pts & P & G & M) (pts' & P' & G' & M'). destruct (fit_points_transform i j d v pts OK NZ HD P) as (k & HK & Q).
  rewrite Q in P'. injection P' as <-. unfold follows. apply M'. intros sc' sh'. rewrite chi2_scale by assumption.
  replace sh' with (sh' - ln d + ln d) by ring. rewrite chi2_scale by assumption. apply Rmult_le_compat_l; [apply pow2_ge_0|].
  apply M. apply surjective_pairing.
Qed.
Print Assumptions least_squares_follows.

(* the two together: normalisation with least-squares fits of both extrapolations *)
Theorem gsf_normalize_gauge_least_squares : forall il jl ih jh fitf p ss nld model alpha low high gsf d b,
  rv_ok gsf -> nonzero gsf -> 0 < d -> em_fit low = true ->
  (forall e0 t c, rv_E gsf = e0 :: t -> c = 1 \/ c = d ->
     least_squares il jl fitf (transform c alpha gsf) (autorange e0 low) /\ least_squares ih jh fitf (transform c alpha gsf) (autorange e0 high)) ->
  agree d (gsf_normalize fitf p ss nld model (alpha - b) low high (transform d b gsf))
          (gsf_normalize fitf p ss nld model alpha low high gsf).
Proof.
  intros il jl ih jh fitf p ss nld model alpha low high gsf d b OK NZ HD HF LS. apply gsf_normalize_gauge; try assumption.
  intros e0 t EE. assert (OK1 : rv_ok (transform 1 alpha gsf)) by apply (transform_bins 1 alpha gsf OK).
  assert (NZ1 : nonzero (transform 1 alpha gsf)).
  { intros x Hx. unfold transform in Hx. cbn [rv_values] in Hx. revert Hx NZ. unfold nonzero. clear. generalize (rv_values gsf) (rv_E gsf).
    induction l as [|y l IH]; intros [|e t] []; intros NZ.
    - subst. unfold value_bin. specialize (NZ y (or_introl eq_refl)). pose proof (exp_pos (alpha * e)). repeat apply Rmult_integral_contrapositive_currified; try assumption; lra.
    - apply (IH t); [assumption|]. intros z Hz. apply NZ. now right. }
  destruct (LS e0 t 1 EE (or_introl eq_refl)) as [A1 A2]. destruct (LS e0 t d EE (or_intror eq_refl)) as [B1 B2].
  rewrite (transform_id_scale d alpha gsf) in B1, B2 by (try assumption; lra).
  split; [apply (least_squares_follows il jl)|apply (least_squares_follows ih jh)]; assumption.
Qed.
Print Assumptions gsf_normalize_gauge_least_squares.

(* ------------------------------------------------------------------ a case *)
(* two data points: the least-squares fit goes through both *)
Definition two_fit (v : rvec) (m : emodel) : R * R :=
  match rv_E v, rv_values v with
  | [e1; e2], [y1; y2] =>
      let w (e y : R) := ln (if em_high m then y * e ^ 3 else y) in
      let sc := (w e2 y2 - w e1 y1) / (e2 - e1) in (sc, w e1 y1 - sc * e1)
  | _, _ => (0, 0)
  end.
Lemma model_hits (h : bool) (sc sh e y : R) : 0 < e -> 0 < y ->
  (y = exp (sc * e + sh) / (if h then e ^ 3 else 1) <-> sc * e + sh = ln (if h then y * e ^ 3 else y)).
Proof.
  intros He Hy. assert (0 < e ^ 3) by now apply pow_lt. destruct h; split; intros H1.
  - rewrite H1. unfold Rdiv. rewrite Rmult_assoc, Rinv_l, Rmult_1_r by lra. now rewrite ln_exp.
  - rewrite H1, exp_ln by now apply Rmult_lt_0_compat. field. lra.
  - rewrite H1. unfold Rdiv. rewrite Rinv_1, Rmult_1_r. now rewrite ln_exp.
  - rewrite H1, exp_ln by assumption. field.
Qed.
Lemma two_fit_least (e1 e2 y1 y2 : R) m : 0 < e1 < e2 -> 0 < y1 -> 0 < y2 -> least_squares 0 1 two_fit (mkRV [y1; y2] [e1; e2] None) m.
Proof.
  intros HE H1 H2. exists ((e1, y1, 1) :: (e2, y2, 1) :: nil). split; [reflexivity|]. split; [repeat constructor; cbn; lra|].
  pose proof (model_hits (em_high m)) as MH. unfold two_fit. cbn [rv_E rv_values]. unfold chi2. cbn [map fold_right].
  set (w1 := ln (if em_high m then y1 * e1 ^ 3 else y1)) in *. set (w2 := ln (if em_high m then y2 * e2 ^ 3 else y2)) in *.
  assert (Z : forall sc sh, (let q (e y : R) := (y - exp (sc * e + sh) / (if em_high m then e ^ 3 else 1)) / 1 in (q e1 y1) ^ 2 + ((q e2 y2) ^ 2 + 0) = 0) <-> sc * e1 + sh = w1 /\ sc * e2 + sh = w2).
  { intros sc sh. cbn zeta. pose proof (MH sc sh e1 y1 ltac:(lra) H1) as M1. pose proof (MH sc sh e2 y2 ltac:(lra) H2) as M2. fold w1 in M1. fold w2 in M2. rewrite <- M1, <- M2. clear M1 M2.
    set (q1 := exp (sc * e1 + sh) / _). set (q2 := exp (sc * e2 + sh) / _). split.
    - intros H. pose proof (pow2_ge_0 ((y1 - q1) / 1)). pose proof (pow2_ge_0 ((y2 - q2) / 1)).
      assert (A1 : ((y1 - q1) / 1) ^ 2 = 0) by lra. assert (A2 : ((y2 - q2) / 1) ^ 2 = 0) by lra.
      rewrite <- Rsqr_pow2 in A1, A2. apply Rsqr_0_uniq in A1. apply Rsqr_0_uniq in A2. unfold Rdiv in A1, A2. rewrite Rinv_1 in A1, A2. lra.
    - intros [<- <-]. unfold Rdiv. rewrite Rinv_1. ring. }
  set (sc0 := (w2 - w1) / (e2 - e1)). assert (S1 : sc0 * e1 + (w1 - sc0 * e1) = w1) by ring. assert (S2 : sc0 * e2 + (w1 - sc0 * e1) = w2) by (unfold sc0; field; lra).
  pose proof (proj2 (Z _ _) (conj S1 S2)) as Z0. cbn zeta in Z0. intros sc sh. split.
  - intros M. specialize (M sc0 (w1 - sc0 * e1)). rewrite Z0 in M.
    assert (E0 : let q (e y : R) := (y - exp (sc * e + sh) / (if em_high m then e ^ 3 else 1)) / 1 in (q e1 y1) ^ 2 + ((q e2 y2) ^ 2 + 0) = 0).
    { cbn zeta in *. apply Rle_antisym; [exact M|]. apply Rplus_le_le_0_compat; [apply pow2_ge_0|]. apply Rplus_le_le_0_compat; [apply pow2_ge_0|lra]. }
    apply Z in E0. destruct E0 as [E1 E2]. assert (sc0 = sc) by (unfold sc0; rewrite <- E1, <- E2; field; lra). subst sc. f_equal. lra.
  - intros H sc' sh'. injection H as <- <-. rewrite Z0. apply Rplus_le_le_0_compat; [apply pow2_ge_0|]. apply Rplus_le_le_0_compat; [apply pow2_ge_0|lra].
Qed.
Definition gx_gsf : rvec := mkRV [3; 5] [1; 2] None.
Definition gx_low (fit : bool) : emodel := mkEM false 0 0 None None None 3 fit.
Definition gx_high (fit : bool) : emodel := mkEM true 0 0 None (Some 1) (Some 4) 4 fit.
Definition gx_nld : curve := mkCurve [0; 5] [Some 1; Some 1].
Definition gx_p : npars := mkPars 1 (/ 10) 2 3 0 0 None 2.
Lemma gx_defined fit alpha : exists r, gsf_normalize two_fit gx_p (fun _ => 1) gx_nld (fun _ => 1) alpha (gx_low fit) (gx_high fit) gx_gsf = Some r.
Proof.
  apply (gsf_normalize_defined two_fit gx_p (fun _ => 1) gx_nld (fun _ => 1) alpha (gx_low fit) (gx_high fit) gx_gsf 1 2 [] 0 5 []);
    cbn; try lra; try lia; try reflexivity; try (intros; lra).
  - repeat constructor; lra.
  - split; [reflexivity|]. repeat constructor; eexists; (split; [reflexivity|lra]).
Qed.
(* strength function and slope as extracted, or multiplied by 7 exp(2 E): the same normalised
   strength function *)
Example gsf_gauge_example : exists r r',
  gsf_normalize two_fit gx_p (fun _ => 1) gx_nld (fun _ => 1) 1 (gx_low true) (gx_high true) gx_gsf = Some r /\
  gsf_normalize two_fit gx_p (fun _ => 1) gx_nld (fun _ => 1) (1 - 2) (gx_low true) (gx_high true) (transform 7 2 gx_gsf) = Some r' /\
  gr_gsf r' = gr_gsf r /\ 7 * gr_B r' = gr_B r.
Proof.
  destruct (gx_defined true 1) as (r & Hr). exists r.
  assert (A : agree 7 (gsf_normalize two_fit gx_p (fun _ => 1) gx_nld (fun _ => 1) (1 - 2) (gx_low true) (gx_high true) (transform 7 2 gx_gsf))
                      (gsf_normalize two_fit gx_p (fun _ => 1) gx_nld (fun _ => 1) 1 (gx_low true) (gx_high true) gx_gsf)).
  { apply (gsf_normalize_gauge_least_squares 0 1 0 1).
    - split; [reflexivity|]. intros s H. discriminate.
    - intros x Hx. cbn in Hx. destruct Hx as [<-|[<-|[]]]; lra.
    - lra.
    - reflexivity.
    - intros e0 t c _ HC. assert (0 < c) by lra. assert (L : forall m, least_squares 0 1 two_fit (transform c 1 gx_gsf) m).
      { intros m. unfold transform, gx_gsf. cbn [rv_values rv_E rv_std rmap2]. apply two_fit_least; try lra; unfold value_bin; repeat apply Rmult_lt_0_compat; try assumption; try lra; apply exp_pos. }
      split; apply L. }
  rewrite Hr in A. unfold agree in A. destruct (gsf_normalize _ _ _ _ _ (1 - 2) _ _ _) as [r'|]; [|contradiction]. exists r'.
  unfold same_result in A. repeat split; tauto.
Qed.

(* With extrapolations that are not fitted (method "fix") the arbitrary scale of the input stays
   in the result: here the width depends on the extrapolation alone, so the input multiplied by
   7 is returned multiplied by 7. *)
Lemma gx_width d cl ch : Gg_standard gx_p (fun _ => 1) (rv_curve (transform d 0 gx_gsf)) cl ch gx_nld (fun _ => 1)
  = Gg_standard gx_p (fun _ => 1) (rv_curve gx_gsf) cl ch gx_nld (fun _ => 1).
Proof.
  unfold Gg_standard. assert (G : E_grid gx_p = [0; 3]).
  { unfold E_grid, rlinspace. cbn. f_equal; [ring|]. f_equal. field. }
  rewrite G. cbn [map]. replace (integrand gx_p (fun _ => 1) (rv_curve (transform d 0 gx_gsf)) cl ch gx_nld (fun _ => 1) 0)
    with (integrand gx_p (fun _ => 1) (rv_curve gx_gsf) cl ch gx_nld (fun _ => 1) 0).
  2:{ unfold integrand, fgsf. cbn [rv_curve transform gx_gsf rv_E c_E]. destruct (Rlt_dec 0 1); [reflexivity|lra]. }
  replace (integrand gx_p (fun _ => 1) (rv_curve (transform d 0 gx_gsf)) cl ch gx_nld (fun _ => 1) 3)
    with (integrand gx_p (fun _ => 1) (rv_curve gx_gsf) cl ch gx_nld (fun _ => 1) 3); [reflexivity|].
  unfold integrand, fgsf. cbn [rv_curve transform gx_gsf rv_E c_E last]. destruct (Rlt_dec 3 1); [lra|]. destruct (Rle_dec 3 2); [lra|reflexivity].
Qed.
Theorem gsf_normalize_gauge_fixed_refuted : exists fitf p ss nld model low high gsf d r r',
  rv_ok gsf /\ 0 < d /\ em_fit low = false /\
  gsf_normalize fitf p ss nld model 0 low high gsf = Some r /\
  gsf_normalize fitf p ss nld model 0 low high (transform d 0 gsf) = Some r' /\
  gr_gsf r' = transform d 0 (gr_gsf r) /\ gr_gsf r' <> gr_gsf r.
Proof.
  destruct (gx_defined false 0) as (r & Hr).
  assert (OK : rv_ok gx_gsf) by (split; [reflexivity|]; intros s H; discriminate).
  assert (T1 : transform 1 0 gx_gsf = gx_gsf) by (apply transform_identity; [exact OK|]; intros x Hx; cbn in Hx; destruct Hx as [<-|[<-|[]]]; lra).
  assert (T7 : transform 1 0 (transform 7 0 gx_gsf) = transform 7 0 gx_gsf) by (rewrite transform_compose by (try exact OK; lra); f_equal; ring).
  exists two_fit, gx_p, (fun _ => 1), gx_nld, (fun _ => 1), (gx_low false), (gx_high false), gx_gsf, 7, r.
  exists (mkRes (transform 7 0 (gr_gsf r)) (gr_low r) (gr_high r) (gr_B r) (gr_Bu r) (gr_before r)).
  split; [exact OK|]. split; [lra|]. split; [reflexivity|]. split; [exact Hr|].
  assert (X : gr_gsf r = transform (gr_B r) 0 gx_gsf /\ 0 < gr_B r /\ gsf_normalize two_fit gx_p (fun _ => 1) gx_nld (fun _ => 1) 0 (gx_low false) (gx_high false) (transform 7 0 gx_gsf)
     = Some (mkRes (transform (gr_B r) 0 (transform 7 0 gx_gsf)) (gr_low r) (gr_high r) (gr_B r) (gr_Bu r) (gr_before r))).
  { revert Hr. unfold gsf_normalize. rewrite T1, T7. change (rv_E (transform 7 0 gx_gsf)) with (rv_E gx_gsf). change (rv_E gx_gsf) with [1; 2].
    unfold fit_models. change (em_fit (autorange 1 (gx_low false))) with false. cbv iota beta.
    destruct (extrapolate false _) as [cl|]; [|discriminate]. destruct (extrapolate false _) as [ch|]; [|discriminate]. rewrite gx_width.
    destruct (Gg_standard _ _ _ _ _ _ _) as [g| |]; try discriminate. destruct (Req_EM_T g 0); [discriminate|].
    unfold norm_to_shift_after. destruct (Rlt_dec 0 (np_Gg gx_p / g)); [|discriminate]. intros H. injection H as <-. cbn [gr_gsf gr_B gr_low gr_high gr_Bu gr_before].
    split; [reflexivity|]. split; [assumption|reflexivity]. }
  destruct X as (X1 & X2 & X3). split.
  - rewrite X3. do 2 f_equal. rewrite X1, !transform_compose by (try exact OK; lra). f_equal; ring.
  - split; [reflexivity|]. cbn [gr_gsf]. rewrite X1. intros E. apply (f_equal (fun v => nth 0 (rv_values v) 0)) in E. cbn in E. unfold value_bin in E.
    rewrite !Rmult_0_l, exp_0 in E. nra.
Qed.
Print Assumptions gsf_normalize_gauge_fixed_refuted.
