(* The tolerance of comparisons on reals is that on rationals; weights of the smoothed level scheme. *)
From Coq Require Import QArith Qcanon Reals Qreals.
From Verif Require Import PyBase ArithModel ArithSpec.
From Verif Require TextNumModel LevelsModel LevelsProps.
From Coq Require Import Lra.
Local Open Scope R_scope.

Definition real (q : Qc) : R := Q2R (this q).
Lemma real_le a b : (a <= b)%Qc <-> real a <= real b.
Proof. unfold Qcle, real. split; [apply Qle_Rle|apply Rle_Qle]. Qed.
Lemma real_red q : real (Q2Qc q) = Q2R q.
Proof. unfold real. apply Qeq_eqR. apply Qred_correct. Qed.
Lemma real_plus a b : real (a + b)%Qc = real a + real b.
Proof. unfold Qcplus. rewrite real_red. apply Q2R_plus. Qed.
Lemma real_mult a b : real (a * b)%Qc = real a * real b.
Proof. unfold Qcmult. rewrite real_red. apply Q2R_mult. Qed.
Lemma real_opp a : real (- a)%Qc = - real a.
Proof. unfold Qcopp. rewrite real_red. apply Q2R_opp. Qed.
Lemma real_minus a b : real (a - b)%Qc = real a - real b.
Proof. unfold Qcminus. rewrite real_plus, real_opp. reflexivity. Qed.
Lemma real_abs a : real (qabs a) = Rabs (real a).
Proof.
  assert (Z : real 0%Qc = 0) by (unfold real; change (this 0%Qc) with (0#1)%Q; unfold Q2R; cbn; lra).
  destruct (qabs_spec a) as [[A B]|[A B]]; rewrite B.
  - apply real_le in A. rewrite Z in A. symmetry. now apply Rabs_pos_eq.
  - rewrite real_opp. assert (A' : (a <= 0)%Qc) by (try exact A; now apply Qclt_le_weak). apply real_le in A'. rewrite Z in A'. symmetry. now apply Rabs_left1.
Qed.
(* np.allclose for one pair *)
Theorem close_same : forall a b, ArithSpec.close a b <-> TextNumModel.close (real a) (real b).
Proof.
  intros a b. unfold ArithSpec.close, TextNumModel.close. rewrite real_le, real_plus, real_mult, !real_abs, real_minus.
  replace (real (qn 1 100000000)) with (1 / 100000000) by (unfold qn; rewrite real_red; unfold Q2R; cbn; field).
  replace (real (qn 1 100000)) with (1 / 100000) by (unfold qn; rewrite real_red; unfold Q2R; cbn; field). reflexivity.
Qed.
Print Assumptions close_same.
(* the weights of two offsets have the ratio of a normal distribution of width sigma *)
Theorem weights_gaussian : forall sigma r j k, 0 < sigma ->
  LevelsModel.weight sigma r k * exp (IZR k ^ 2 / (2 * sigma ^ 2)) = LevelsModel.weight sigma r j * exp (IZR j ^ 2 / (2 * sigma ^ 2)).
Proof.
  intros s r j k S. unfold LevelsModel.weight, Rdiv at 1 3. set (T := / _).
  assert (B : forall z, LevelsModel.bell s z * exp (IZR z ^ 2 / (2 * s ^ 2)) = 1).
  { intros z. unfold LevelsModel.bell. rewrite <- exp_plus. rewrite <- exp_0. f_equal. field. lra. }
  replace (LevelsModel.bell s k * T * exp (IZR k ^ 2 / (2 * s ^ 2))) with (T * (LevelsModel.bell s k * exp (IZR k ^ 2 / (2 * s ^ 2)))) by ring.
  replace (LevelsModel.bell s j * T * exp (IZR j ^ 2 / (2 * s ^ 2))) with (T * (LevelsModel.bell s j * exp (IZR j ^ 2 / (2 * s ^ 2)))) by ring. now rewrite !B.
Qed.
Print Assumptions weights_gaussian.
(* one step from the centre is smaller by exp(-1/18) for a width of three bins *)
Example weight_step : LevelsModel.weight 3 12 1 * exp (1 / 18) = LevelsModel.weight 3 12 0.
Proof.
  pose proof (weights_gaussian 3 12 0 1 ltac:(lra)) as H. replace (IZR 1 ^ 2 / (2 * 3 ^ 2)) with (1 / 18) in H by field.
  replace (IZR 0 ^ 2 / (2 * 3 ^ 2)) with 0 in H by field. rewrite exp_0, Rmult_1_r in H. exact H.
Qed.
Example close_pair : TextNumModel.close (real (qz 1000001)) (real (qz 1000000)) /\ ~ TextNumModel.close (real (qz 1000011)) (real (qz 1000000)).
Proof. rewrite <- !close_same. split; [|intros H]; unfold ArithSpec.close in *; vm_compute in *; congruence. Qed.
