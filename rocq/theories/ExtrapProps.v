(* C61: extrapolation models under the transformation A exp(alpha E). *)
From Coq Require Import Reals List Lra Lia.
From Verif Require Import TransformModel NormModel NormSpec NormProofs NormProps.
Import ListNotations.
Local Open Scope R_scope.

(* the extrapolation parameters transformed by (A, alpha) *)
Definition transform_model (A a : R) (m : emodel) : emodel :=
  mkEM (em_high m) (em_scale m + a) (em_shift m + ln A) (em_after m) (em_Emin m) (em_Emax m) (em_steps m) (em_fit m).

(* The extrapolation with transformed parameters is A exp(alpha E) times the extrapolation,
   at every energy and for both models. *)
Theorem extrapolation_transform A a m c : 0 < A -> extrapolate false m = Some c ->
  exists c', extrapolate false (transform_model A a m) = Some c' /\ scaled_curve A a c c'.
Proof.
  intros HA. unfold extrapolate, transform_model. cbn. destruct (em_Emin m), (em_Emax m); try discriminate. intros [= <-].
  eexists. split; [reflexivity|]. split; [reflexivity|]. cbn [c_E c_v]. rewrite rmap2_map. apply map_ext. intros E. now apply model_value_times.
Qed.
Print Assumptions extrapolation_transform.

(* Hence the strength function composed of data and extrapolations, with data and parameters
   transformed, is A exp(alpha E) times the one before: at every energy, on the data, below
   and above, and between the points of the grids. *)
Theorem composite_transform A a gsf low high cl ch : 0 < A -> extrapolate false low = Some cl -> extrapolate false high = Some ch ->
  exists cl' ch', extrapolate false (transform_model A a low) = Some cl' /\ extrapolate false (transform_model A a high) = Some ch' /\
    forall E, fgsf (rv_curve (transform A a gsf)) cl' ch' E = oscale (A * exp (a * E)) (fgsf (rv_curve gsf) cl ch E).
Proof.
  intros HA EL EH. destruct (extrapolation_transform A a low cl HA EL) as (cl' & XL & SL). destruct (extrapolation_transform A a high ch HA EH) as (ch' & XH & SH).
  exists cl', ch'. split; [exact XL|]. split; [exact XH|]. intros E. apply fgsf_times; try assumption. apply transform_curve.
Qed.
Print Assumptions composite_transform.

(* norm_to_shift_after(B): the scaled extrapolation is B times the unscaled one; a second call
   replaces the first; without a call the scaled extrapolation is the unscaled one. *)
Theorem norm_to_shift_scaled B m m' c : norm_to_shift_after B m = Some m' -> extrapolate false m = Some c ->
  extrapolate false m' = Some c /\ exists c', extrapolate true m' = Some c' /\ scaled_curve B 0 c c'.
Proof.
  intros H E. split; [|now apply (extrapolate_shift m B m' c)]. unfold norm_to_shift_after in H. destruct (Rlt_dec 0 B); [|discriminate]. injection H as <-. exact E.
Qed.
Print Assumptions norm_to_shift_scaled.
Theorem norm_to_shift_repeat B1 B2 m m1 : norm_to_shift_after B1 m = Some m1 -> norm_to_shift_after B2 m1 = norm_to_shift_after B2 m.
Proof. unfold norm_to_shift_after. destruct (Rlt_dec 0 B1); [|discriminate]. intros [= <-]. reflexivity. Qed.
Print Assumptions norm_to_shift_repeat.
Theorem extrapolate_unscaled m : em_after m = None -> extrapolate true m = extrapolate false m.
Proof. intros H. unfold extrapolate, shift_after. rewrite H. reflexivity. Qed.
Print Assumptions extrapolate_unscaled.

(* Between the points of its grid the low extrapolation is reproduced exactly by the
   logarithmic interpolation used in the integral. *)
Theorem low_extrapolation_exact m c a b E : em_high m = false -> em_Emin m = Some a -> em_Emax m = Some b -> (2 <= em_steps m)%nat ->
  extrapolate false m = Some c -> a < b -> a <= E <= b ->
  log_interp (c_E c) (c_v c) E = OVal (exp (em_scale m * E + em_shift m)).
Proof.
  intros H1 H2 H3 H4 H5 H6 H7. unfold extrapolate in H5. rewrite H1, H2, H3 in H5. injection H5 as <-. cbn [c_E c_v].
  pose proof (ascending_rlinspace a b (em_steps m) H4 H6) as ASC. pose proof (last_rlinspace a b (em_steps m)) as LST.
  destruct (em_steps m) as [|[|k]] eqn:EK; try lia.
  set (f := fun i => a + INR i * ((b - a) / INR (S (S k) - 1))) in *.
  assert (X : rlinspace a b (S (S k)) = f 0%nat :: f 1%nat :: map f (seq 2 k)) by reflexivity. rewrite X in *.
  assert (F0 : f 0%nat = a) by (unfold f; change (INR 0) with 0; ring).
  apply log_interp_exp; [exact ASC|lra|]. specialize (LST (f 0%nat) ltac:(lia)). change (last (f 0%nat :: f 1%nat :: map f (seq 2 k)) (f 0%nat)) with (last (f 1%nat :: map f (seq 2 k)) (f 0%nat)) in LST. rewrite LST. lra.
Qed.
Print Assumptions low_extrapolation_exact.

(* The least-squares fit (models.py:261): with uncertainties scaled along, transformed data
   and transformed parameters have the same chi-square, so the best parameters transform with
   the data. *)
Definition transform_pts (A a : R) (pts : list (R * R * R)) : list (R * R * R) :=
  map (fun q => let '(e, y, s) := q in (e, A * exp (a * e) * y, A * exp (a * e) * s)) pts.
Lemma chi2_transform h sc sh A a pts : 0 < A -> Forall (fun q => snd q <> 0 /\ fst (fst q) <> 0) pts ->
  chi2 h (sc + a) (sh + ln A) (transform_pts A a pts) = chi2 h sc sh pts.
Proof.
  intros HA H. unfold chi2, transform_pts. rewrite map_map. f_equal. apply map_ext_in. intros [[e y] s] HI.
  rewrite Forall_forall in H. destruct (H _ HI) as [HS HE]. cbn in HS, HE. clear H HI.
  replace (exp ((sc + a) * e + (sh + ln A))) with (A * exp (a * e) * exp (sc * e + sh)).
  2:{ replace ((sc + a) * e + (sh + ln A)) with (ln A + a * e + (sc * e + sh)) by ring. rewrite !exp_plus, exp_ln by assumption. ring. }
  f_equal. pose proof (exp_pos (a * e)). set (k := exp (a * e)) in *. set (v := exp (sc * e + sh)). destruct h; field; repeat split; try lra; try assumption.
Qed.
Theorem fit_transform h sc sh A a pts : 0 < A -> Forall (fun q => snd q <> 0 /\ fst (fst q) <> 0) pts ->
  (forall sc' sh', chi2 h sc sh pts <= chi2 h sc' sh' pts) <->
  (forall sc' sh', chi2 h (sc + a) (sh + ln A) (transform_pts A a pts) <= chi2 h sc' sh' (transform_pts A a pts)).
Proof.
  intros HA H. split; intros M sc' sh'.
  - rewrite chi2_transform by assumption. replace sc' with ((sc' - a) + a) by ring. replace sh' with ((sh' - ln A) + ln A) by ring. rewrite chi2_transform by assumption. apply M.
  - specialize (M (sc' + a) (sh' + ln A)). rewrite !chi2_transform in M by assumption. exact M.
Qed.
Print Assumptions fit_transform.
(* data that are an exponential have that exponential as a fit *)
Example fit_transform_x : let pts := [(1, exp (2 * 1 + 3), 1); (2, exp (2 * 2 + 3), 2)] in
  Forall (fun q => snd q <> 0 /\ fst (fst q) <> 0) pts /\ (forall sc sh, chi2 false 2 3 pts <= chi2 false sc sh pts).
Proof.
  cbn zeta. split; [repeat constructor; cbn; lra|]. intros sc sh. replace (chi2 false 2 3 _) with 0 by (unfold chi2; cbn; field).
  unfold chi2. cbn [map fold_right]. repeat (apply Rplus_le_le_0_compat; [rewrite <- Rsqr_pow2; apply Rle_0_sqr|]). lra.
Qed.

(* --- the simultaneous normalisation --- *)
(* With fixed extrapolation parameters the simultaneous normalisation transforms the data but
   not the extrapolations (normalizer_simultan.py:378-381): the composite function is not
   B exp(alpha E) times the one before, and the results (lines 176-182) carry the shift
   without ln B. *)
Theorem simultan_fixed_refuted : exists fitf B a low high gsf g1 l1 h1 g2 l2 h2 E,
  em_fit low = false /\ em_fit high = false /\ 0 < B /\
  simultan_curves fitf 1 0 low high gsf = Some (g1, l1, h1) /\ simultan_curves fitf B a low high gsf = Some (g2, l2, h2) /\
  fgsf g1 l1 h1 E = OVal 1 /\ fgsf g2 l2 h2 E <> oscale (B * exp (a * E)) (OVal 1).
Proof.
  set (low := mkEM false 0 0 None (Some 0) (Some 2) 2 false). set (high := mkEM true 0 0 None (Some 4) (Some 20) 2 false). set (gsf := mkRV [1; 1] [2; 4] None).
  assert (EL : extrapolate false low = Some (mkCurve (rlinspace 0 2 2) (map (model_value false 0 0) (rlinspace 0 2 2)))) by reflexivity.
  exists (fun _ _ => (0, 0)), 2, 0, low, high, gsf. do 6 eexists. exists 1.
  split; [reflexivity|]. split; [reflexivity|]. split; [lra|]. split; [reflexivity|]. split; [reflexivity|].
  assert (V : forall e0 t y c, 1 < e0 -> fgsf (mkCurve (e0 :: t) y) (mkCurve (rlinspace 0 2 2) (map (model_value false 0 0) (rlinspace 0 2 2))) c 1 = OVal 1).
  { intros e0 t y c H. unfold fgsf. cbn [c_E]. destruct (Rlt_dec 1 e0); [|lra].
    pose proof (low_extrapolation_exact low _ 0 2 1 eq_refl eq_refl eq_refl (le_n 2) EL ltac:(lra) ltac:(lra)) as X. cbn [c_E c_v] in X |- *. rewrite X.
    cbn [em_scale em_shift low]. f_equal. rewrite Rmult_0_l, Rplus_0_r. apply exp_0. }
  split; [apply V; lra|]. unfold rv_curve at 1. cbn [rv_E gsf transform]. rewrite V by lra. rewrite Rmult_0_l, exp_0. cbn. intros [= X]. lra.
Qed.
Print Assumptions simultan_fixed_refuted.
(* The method of the upper extrapolation is ignored (normalizer_gsf.py:243): with a fitted low
   model a fixed high model is refitted, and the other way round it is not fitted. *)
Theorem high_method_refuted : exists fitf gsf low high,
  em_fit low = true /\ em_fit high = false /\ em_scale (snd (fit_models fitf gsf low high)) <> em_scale high.
Proof.
  exists (fun _ _ => (1, 1)), (mkRV [] [] None), (mkEM false 0 0 None None None 2 true), (mkEM true 0 0 None None None 2 false).
  split; [reflexivity|]. split; [reflexivity|]. cbn. lra.
Qed.
Print Assumptions high_method_refuted.
Theorem high_method_fit_refuted : exists fitf gsf low high,
  em_fit low = false /\ em_fit high = true /\ em_scale (snd (fit_models fitf gsf low high)) <> fst (fitf gsf high).
Proof.
  exists (fun _ _ => (1, 1)), (mkRV [] [] None), (mkEM false 0 0 None None None 2 false), (mkEM true 0 0 None None None 2 true).
  split; [reflexivity|]. split; [reflexivity|]. cbn. lra.
Qed.
Print Assumptions high_method_fit_refuted.
(* With fitted parameters (both models) and a fit that transforms with the data the
   simultaneous normalisation has the property. *)
Theorem simultan_fitted fitf B a low high gsf g1 l1 h1 : 0 < B ->
  em_fit low = true ->
  (forall m, fitf (transform B a gsf) m = (fst (fitf (transform 1 0 gsf) m) + a, snd (fitf (transform 1 0 gsf) m) + ln B)) ->
  simultan_curves fitf 1 0 low high gsf = Some (g1, l1, h1) ->
  exists g2 l2 h2, simultan_curves fitf B a low high gsf = Some (g2, l2, h2) /\
    forall E, fgsf g2 l2 h2 E = oscale (B * exp (a * E)) (fgsf g1 l1 h1 E).
Proof.
  intros HB HF HT. unfold simultan_curves, fit_models. rewrite HF.
  destruct (extrapolate false (set_fit (fitf (transform 1 0 gsf) low) low)) as [cl|] eqn:EL; [|discriminate].
  destruct (extrapolate false (set_fit (fitf (transform 1 0 gsf) high) high)) as [ch|] eqn:EH; [|discriminate]. intros [= <- <- <-].
  destruct (extrapolation_transform B a _ cl HB EL) as (cl' & XL & SL). destruct (extrapolation_transform B a _ ch HB EH) as (ch' & XH & SH).
  change (transform_model B a (set_fit (fitf (transform 1 0 gsf) low) low)) with (set_fit (fst (fitf (transform 1 0 gsf) low) + a, snd (fitf (transform 1 0 gsf) low) + ln B) low) in XL.
  change (transform_model B a (set_fit (fitf (transform 1 0 gsf) high) high)) with (set_fit (fst (fitf (transform 1 0 gsf) high) + a, snd (fitf (transform 1 0 gsf) high) + ln B) high) in XH.
  rewrite !HT, XL, XH. exists (rv_curve (transform B a gsf)), cl', ch'. split; [reflexivity|]. intros E. apply fgsf_times; try assumption.
  split; [reflexivity|]. cbn [rv_curve c_E c_v transform rv_E rv_values]. generalize (rv_values gsf) (rv_E gsf). clear.
  induction l as [|y l IH]; intros [|e m]; try reflexivity. cbn. f_equal; [|apply IH]. unfold value_bin. f_equal. rewrite Rmult_0_l, exp_0. ring.
Qed.
Print Assumptions simultan_fitted.
