(* Properties of the Compton kinematics used by the response interpolation. *)
From Coq Require Import Reals Lra QArith Qreals Qcanon.
From Coquelicot Require Import Coquelicot.
From Verif Require Import Num ResponseModel ComptonModel.
Local Open Scope R_scope.

Lemma denom_pos Eg theta : 0 < Eg -> 1 <= 1 + Eg / 511 * (1 - cos theta).
Proof.
  intros H. pose proof (COS_bound theta) as [_ C].
  assert (0 <= Eg / 511 * (1 - cos theta)) by (apply Rmult_le_pos; Lra.lra). Lra.lra.
Qed.

(* C65. The electron energy lies between 0 (forward scattering) and the photon energy, which it
   never reaches. *)
Theorem compton_range Eg theta : / 10 < Eg -> 0 <= E_compton_R Eg theta < Eg.
Proof.
  intros H. unfold E_compton_R. destruct (Rlt_dec (/ 10) Eg) as [_|N]; [|contradiction].
  assert (P : 0 < Eg) by Lra.lra. pose proof (denom_pos Eg theta P) as D.
  set (d := 1 + Eg / 511 * (1 - cos theta)) in *.
  assert (0 < Eg / d) by (apply Rdiv_lt_0_compat; Lra.lra).
  assert (Eg / d <= Eg). { apply (Rmult_le_reg_r d); [Lra.lra|]. unfold Rdiv. rewrite Rmult_assoc, Rinv_l by Lra.lra. Lra.nra. }
  Lra.lra.
Qed.
Print Assumptions compton_range.

(* C65. It grows with the scattering angle. *)
Theorem compton_increasing Eg t1 t2 : / 10 < Eg -> 0 <= t1 -> t1 < t2 -> t2 <= PI ->
  E_compton_R Eg t1 < E_compton_R Eg t2.
Proof.
  intros H A B C. assert (K : cos t2 < cos t1) by (apply cos_decreasing_1; Lra.lra).
  unfold E_compton_R. destruct (Rlt_dec (/ 10) Eg) as [_|N]; [|contradiction].
  assert (P : 0 < Eg) by Lra.lra. pose proof (denom_pos Eg t1 P) as D1. pose proof (denom_pos Eg t2 P) as D2.
  apply Rplus_lt_compat_l, Ropp_lt_contravar. unfold Rdiv at 1 3. apply Rmult_lt_compat_l; [assumption|].
  apply Rinv_lt_contravar; [apply Rmult_lt_0_compat; Lra.lra|].
  apply Rplus_lt_compat_l, Rmult_lt_compat_l; Lra.lra.
Qed.
Print Assumptions compton_increasing.

(* C65. It grows with the photon energy (above the threshold of 0.1 keV). *)
Theorem compton_increasing_energy E1 E2 t : / 10 < E1 -> E1 < E2 -> 0 < t <= PI ->
  E_compton_R E1 t < E_compton_R E2 t.
Proof.
  intros A B [T1 T2]. assert (K : cos t < 1) by (rewrite <- cos_0; apply cos_decreasing_1; Lra.lra).
  unfold E_compton_R. destruct (Rlt_dec (/ 10) E1) as [_|N]; [|contradiction]. destruct (Rlt_dec (/ 10) E2) as [_|N]; [|Lra.lra].
  set (k := (1 - cos t) / 511). assert (Kp : 0 < k) by (unfold k; Lra.lra).
  assert (F : forall E, 0 < E -> E - E / (1 + E / 511 * (1 - cos t)) = k * E ^ 2 / (1 + k * E)).
  { intros E P. unfold k. field. assert (0 < (1 - cos t) * E) by (apply Rmult_lt_0_compat; Lra.lra). Lra.lra. }
  rewrite !F by Lra.lra. assert (P1 : 0 < 1 + k * E1) by Lra.nra. assert (P2 : 0 < 1 + k * E2) by Lra.nra.
  apply (Rmult_lt_reg_r ((1 + k * E1) * (1 + k * E2))); [apply Rmult_lt_0_compat; assumption|].
  replace (k * E1 ^ 2 / (1 + k * E1) * ((1 + k * E1) * (1 + k * E2))) with (k * (E1 ^ 2 * (1 + k * E2))) by (field; Lra.lra).
  replace (k * E2 ^ 2 / (1 + k * E2) * ((1 + k * E1) * (1 + k * E2))) with (k * (E2 ^ 2 * (1 + k * E1))) by (field; Lra.lra).
  apply Rmult_lt_compat_l; [assumption|].
  assert (0 < (E2 - E1) * (E2 + E1 + k * (E1 * E2))). { apply Rmult_lt_0_compat; [Lra.lra|]. assert (0 < k * (E1 * E2)) by (repeat apply Rmult_lt_0_compat; Lra.lra). Lra.lra. }
  Lra.nra.
Qed.
Print Assumptions compton_increasing_energy.

(* The value returned below the threshold breaks the monotony in the energy. *)
Theorem compton_threshold_refuted : exists E1 E2 t, 0 < E1 /\ E1 < E2 /\ 0 < t <= PI /\ E_compton_R E2 t < E_compton_R E1 t.
Proof.
  exists (/ 10), (2 / 10), PI. pose proof PI_RGT_0. repeat split; try Lra.lra.
  unfold E_compton_R. destruct (Rlt_dec (/ 10) (/ 10)); [Lra.lra|]. destruct (Rlt_dec (/ 10) (2 / 10)) as [_|]; [|Lra.lra].
  rewrite cos_PI. Lra.lra.
Qed.
Print Assumptions compton_threshold_refuted.

(* C65. dE_dtheta is the derivative of the electron energy with respect to the angle. *)
Theorem compton_derivative Eg theta : / 10 < Eg -> derivable_pt_lim (E_compton_R Eg) theta (dE_dtheta_R Eg theta).
Proof.
  intros H. assert (P : 0 < Eg) by Lra.lra. pose proof (denom_pos Eg theta P) as D.
  apply is_derive_Reals.
  apply (is_derive_ext (fun t => Eg - Eg / (1 + Eg / 511 * (1 - cos t)))).
  { intros t. unfold E_compton_R. destruct (Rlt_dec (/ 10) Eg); [reflexivity|contradiction]. }
  unfold dE_dtheta_R. auto_derive.
  - Lra.lra.
  - field. Lra.lra.
Qed.
Print Assumptions compton_derivative.

(* The Compton edge and the energy of the backscattered photon. *)
Theorem compton_edge Eg : / 10 < Eg ->
  E_compton_R Eg PI = 2 * Eg ^ 2 / (511 + 2 * Eg) /\ Eg - E_compton_R Eg PI < 511 / 2 /\
  forall theta, 0 <= theta <= PI -> E_compton_R Eg theta <= E_compton_R Eg PI.
Proof.
  intros H. assert (F : E_compton_R Eg PI = 2 * Eg ^ 2 / (511 + 2 * Eg)).
  { unfold E_compton_R. destruct (Rlt_dec (/ 10) Eg) as [_|]; [|contradiction]. rewrite cos_PI. field. Lra.lra. }
  split; [assumption|]. split.
  - rewrite F. replace (Eg - 2 * Eg ^ 2 / (511 + 2 * Eg)) with (511 * Eg / (511 + 2 * Eg)) by (field; Lra.lra).
    apply (Rmult_lt_reg_r (511 + 2 * Eg)); [Lra.lra|]. unfold Rdiv. rewrite Rmult_assoc, Rinv_l by Lra.lra. Lra.lra.
  - intros t [A [B| ->]]; [|apply Rle_refl]. apply Rlt_le, compton_increasing; try assumption. apply Rle_refl.
Qed.
Print Assumptions compton_edge.

(* C65. The angle computed from an electron energy up to the Compton edge is an angle of
   [0, pi] and gives that energy back; it is strictly inside for energies strictly inside. *)
Theorem compton_inverse E Ei : / 10 < E -> 0 <= Ei <= E_compton_R E PI ->
  0 <= theta_of E Ei <= PI /\ E_compton_R E (theta_of E Ei) = Ei /\
  (0 < Ei < E_compton_R E PI -> 0 < theta_of E Ei < PI).
Proof.
  intros H [A B]. destruct (compton_edge E H) as (F & _ & _). pose proof (compton_range E PI H) as [_ L].
  assert (D : 0 < E / 511 * (E - Ei)) by (apply Rmult_lt_0_compat; Lra.lra).
  assert (Z : z_of E Ei = Ei / (E / 511 * (E - Ei))). { unfold z_of. destruct (Req_EM_T _ 0) as [Q|_]; [Lra.lra|reflexivity]. }
  assert (G : forall x, x <= E_compton_R E PI -> x * (511 + 2 * E) <= 2 * E ^ 2).
  { intros x Hx. rewrite F in Hx. apply (Rmult_le_compat_r (511 + 2 * E)) in Hx; [|Lra.lra].
    unfold Rdiv in Hx. rewrite Rmult_assoc, Rinv_l in Hx by Lra.lra. Lra.lra. }
  assert (Z0 : 0 <= z_of E Ei). { rewrite Z. apply Rmult_le_pos; [assumption|]. apply Rlt_le, Rinv_0_lt_compat; assumption. }
  assert (Z2 : z_of E Ei <= 2).
  { rewrite Z. apply (Rmult_le_reg_r (E / 511 * (E - Ei))); [assumption|]. unfold Rdiv at 1. rewrite Rmult_assoc, Rinv_l by Lra.lra. specialize (G Ei B). Lra.nra. }
  split; [apply acos_bound|]. split.
  - unfold E_compton_R. destruct (Rlt_dec (/ 10) E) as [_|]; [|contradiction].
    unfold theta_of. rewrite cos_acos by Lra.lra. rewrite Z.
    replace (1 + E / 511 * (1 - (1 - Ei / (E / 511 * (E - Ei))))) with (E / (E - Ei)) by (field; Lra.lra). field. Lra.lra.
  - intros [C1 C2]. pose proof (acos_bound (1 - z_of E Ei)) as [P1 P2]. fold (theta_of E Ei) in *.
    assert (CO : cos (theta_of E Ei) = 1 - z_of E Ei) by (apply cos_acos; Lra.lra).
    assert (Zp : 0 < z_of E Ei). { rewrite Z. apply Rdiv_lt_0_compat; assumption. }
    assert (Zl : z_of E Ei < 2).
    { rewrite Z. apply (Rmult_lt_reg_r (E / 511 * (E - Ei))); [assumption|]. unfold Rdiv at 1. rewrite Rmult_assoc, Rinv_l by Lra.lra.
      rewrite F in C2. apply (Rmult_lt_compat_r (511 + 2 * E)) in C2; [|Lra.lra]. unfold Rdiv in C2. rewrite Rmult_assoc, Rinv_l in C2 by Lra.lra. Lra.nra. }
    split; [destruct P1 as [?|Q]; [assumption|rewrite <- Q, cos_0 in CO; Lra.lra]|destruct P2 as [?|Q]; [assumption|rewrite Q, cos_PI in CO; Lra.lra]].
Qed.
Print Assumptions compton_inverse.

(* C65. Two angles of [0, pi] with the same electron energy are equal, so that the angle
   above is the only one. *)
Theorem compton_angle_unique E t1 t2 : / 10 < E -> 0 <= t1 <= PI -> 0 <= t2 <= PI -> E_compton_R E t1 = E_compton_R E t2 -> t1 = t2.
Proof.
  intros H A B Q. destruct (Rtotal_order t1 t2) as [L|[L|L]]; [|assumption|].
  - pose proof (compton_increasing E t1 t2 H). Lra.lra.
  - pose proof (compton_increasing E t2 t1 H). Lra.lra.
Qed.
Print Assumptions compton_angle_unique.

(* The model of fan_method_compton over the rationals (ResponseModel.v) represents an angle by
   its cosine.  This is the same function: the factors sin(theta) cancel, and E_compton and
   dE_dtheta depend on the cosine only. *)
Definition qr (q : Qc) : R := Q2R (this q).
Lemma qr_add x y : qr (x + y)%Qc = qr x + qr y.
Proof. unfold qr. rewrite <- Q2R_plus. apply Qeq_eqR. apply (tq_add _ _ _ _ (tq_refl x) (tq_refl y)). Qed.
Lemma qr_sub x y : qr (x - y)%Qc = qr x - qr y.
Proof. unfold qr. rewrite <- Q2R_minus. apply Qeq_eqR. apply (tq_sub _ _ _ _ (tq_refl x) (tq_refl y)). Qed.
Lemma qr_mul x y : qr (x * y)%Qc = qr x * qr y.
Proof. unfold qr. rewrite <- Q2R_mult. apply Qeq_eqR. apply (tq_mul _ _ _ _ (tq_refl x) (tq_refl y)). Qed.
Lemma qr_0 : qr 0%Qc = 0. Proof. unfold qr. change (this 0%Qc) with 0%Q. unfold Q2R. cbn [Qnum Qden]. Lra.lra. Qed.
Lemma qr_1 : qr 1%Qc = 1. Proof. unfold qr. change (this 1%Qc) with 1%Q. unfold Q2R. cbn [Qnum Qden]. Lra.lra. Qed.
Lemma qr_neq x : x <> 0%Qc -> qr x <> 0.
Proof. intros H Q. apply H. apply Qc_is_canon. apply eqR_Qeq. change (qr x = qr 0%Qc). rewrite qr_0. exact Q. Qed.
Lemma qr_div x y : y <> 0%Qc -> qr (x / y)%Qc = qr x / qr y.
Proof.
  intros H. pose proof (qr_neq y H) as N. apply (Rmult_eq_reg_r (qr y)); [|assumption]. rewrite <- qr_mul.
  replace (x / y * y)%Qc with x by (field; assumption). field. assumption.
Qed.
Lemma qr_lt x y : (x < y)%Qc <-> qr x < qr y.
Proof. unfold qr, Qclt. split; [apply Qlt_Rlt|apply Rlt_Qlt]. Qed.
Lemma qr_511 : qr (qz 511) = 511. Proof. unfold qr. change (this (qz 511)) with (511#1)%Q. unfold Q2R. cbn [Qnum Qden]. Lra.lra. Qed.
Lemma qr_tenth : qr (qn 1 10) = / 10. Proof. unfold qr. change (this (qn 1 10)) with (1#10)%Q. unfold Q2R. cbn [Qnum Qden]. Lra.lra. Qed.
Theorem compton_cosine_form Eg c theta : (0 < Eg)%Qc -> cos theta = qr c ->
  qr (E_compton Eg c) = E_compton_R (qr Eg) theta /\ sin theta * qr (dE_dtheta Eg c) = dE_dtheta_R (qr Eg) theta.
Proof.
  intros P C. assert (PR : 0 < qr Eg) by (rewrite <- qr_0; now apply qr_lt).
  pose proof (denom_pos (qr Eg) theta PR) as D. rewrite C in D.
  assert (N511 : qz 511 <> 0%Qc) by (apply qeqb_neq; reflexivity).
  assert (B : qr (1 + Eg / qz 511 * (1 - c))%Qc = 1 + qr Eg / 511 * (1 - qr c)).
  { rewrite qr_add, qr_mul, qr_sub, qr_1, qr_div, qr_511 by assumption. reflexivity. }
  assert (NB : (1 + Eg / qz 511 * (1 - c) <> 0)%Qc). { intros Q. rewrite Q, qr_0 in B. Lra.lra. }
  split.
  - unfold E_compton, E_compton_R. rewrite C. destruct (qltb_spec (qn 1 10) Eg) as [L|L]; destruct (Rlt_dec (/ 10) (qr Eg)) as [L'|L'].
    + rewrite qr_sub, qr_div, B by assumption. reflexivity.
    + exfalso. apply qr_lt in L. rewrite qr_tenth in L. contradiction.
    + exfalso. rewrite <- qr_tenth in L'. apply qr_lt in L'. apply (Qcle_not_lt _ _ L). assumption.
    + reflexivity.
  - unfold dE_dtheta, dE_dtheta_R. rewrite C. set (b := (1 + Eg / qz 511 * (1 - c))%Qc) in *.
    assert (NB2 : (b * b <> 0)%Qc). { intros Q. assert (X : qr (b * b)%Qc = 0) by (rewrite Q; apply qr_0). rewrite qr_mul, B in X. Lra.nra. }
    rewrite qr_div, qr_div, !qr_mul, qr_511, B by assumption. field. Lra.lra.
Qed.
Print Assumptions compton_cosine_form.
Theorem fan_sine_cancels E E1 E2 c1 c2 c theta : (0 < E)%Qc -> (0 < E1)%Qc -> (0 < E2)%Qc -> E1 <> E2 ->
  cos theta = qr c -> 0 < theta < PI ->
  fan_value (qr E) (qr E1) (qr c1) (qr E2) (qr c2) theta =
  qr (lin E E1 (c1 * dE_dtheta E1 c) E2 (c2 * dE_dtheta E2 c) / dE_dtheta E c)%Qc.
Proof.
  intros P P1 P2 N C T. assert (S : 0 < sin theta) by (apply sin_gt_0; Lra.lra).
  destruct (compton_cosine_form E c theta P C) as [_ D]. destruct (compton_cosine_form E1 c theta P1 C) as [_ D1]. destruct (compton_cosine_form E2 c theta P2 C) as [_ D2].
  unfold fan_value. rewrite <- D, <- D1, <- D2.
  assert (PR : 0 < qr E) by (rewrite <- qr_0; now apply qr_lt).
  assert (K : 0 < dE_dtheta_R (qr E) theta).
  { unfold dE_dtheta_R. pose proof (denom_pos (qr E) theta PR). apply Rdiv_lt_0_compat; [|apply pow_lt; Lra.lra].
    apply Rmult_lt_0_compat; [|assumption]. apply Rdiv_lt_0_compat; [Lra.nra|Lra.lra]. }
  rewrite <- D in K. assert (KQ : qr (dE_dtheta E c) <> 0) by (intros Q; rewrite Q in K; Lra.lra).
  assert (NQ : dE_dtheta E c <> 0%Qc) by (intros Q; apply KQ; rewrite Q; apply qr_0).
  assert (NE : (E2 - E1 <> 0)%Qc). { intros Q. apply N. replace E2 with (E2 - E1 + E1)%Qc by ring. rewrite Q. ring. }
  pose proof (qr_neq _ NE) as NE'. rewrite qr_sub in NE'.
  rewrite qr_div by assumption. unfold lin, lin_R. rewrite qr_add, qr_div by assumption. rewrite !qr_mul, !qr_sub, !qr_mul. field.
  repeat split; try assumption. Lra.lra.
Qed.
Print Assumptions fan_sine_cancels.
Example fan_sine_run : exists theta c, cos theta = qr c /\ 0 < theta < PI.
Proof. exists (PI / 2), 0%Qc. rewrite cos_PI2, qr_0. pose proof PI_RGT_0. split; [reflexivity|Lra.lra]. Qed.
Example compton_inverse_run : / 10 < 1330 /\ 0 <= 500 <= E_compton_R 1330 PI.
Proof.
  split; [Lra.lra|]. unfold E_compton_R. destruct (Rlt_dec (/ 10) 1330) as [_|]; [|Lra.lra]. rewrite cos_PI. Lra.lra.
Qed.
