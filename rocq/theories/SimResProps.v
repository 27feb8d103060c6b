(* C106: the results of the simultaneous normalisation. *)
From Coq Require Import Reals Lra List.
From Verif Require Import PyBase TransformModel NormModel.
Import ListNotations.
Local Open Scope R_scope.

(* the range of an extrapolation model has been set *)
Definition ranged (m : emodel) : Prop := em_Emin m <> None /\ em_Emax m <> None.

Lemma autorange_ranged e0 m : ranged m -> autorange e0 m = m.
Proof. destruct m as [h sc sh af [a|] [b|] st ft]; intros (A & B); try (now destruct A); try (now destruct B). reflexivity. Qed.
(* The extrapolations stored with the results, scaled or not, are those that the likelihood of the
   best parameters was calculated with, and belong to the strength function that is stored. *)
Theorem simultan_result_is_likelihood : forall fitf B alpha low high gsf cg cl ch, rv_E gsf <> [] -> ranged low -> ranged high ->
  simultan_curves fitf B alpha low high gsf = Some (cg, cl, ch) ->
  exists g l h, simultan_result fitf B alpha low high gsf = Some (g, l, h) /\ rv_curve g = cg /\
    extrapolate true l = Some cl /\ extrapolate false l = Some cl /\ extrapolate true h = Some ch /\ extrapolate false h = Some ch.
Proof.
  intros fitf B alpha low high gsf cg cl ch NE RL RH. unfold simultan_curves, simultan_result.
  assert (E : rv_E (transform B alpha gsf) = rv_E gsf) by reflexivity. rewrite E. destruct (rv_E gsf) as [|e0 es]; [congruence|].
  rewrite !autorange_ranged by assumption. destruct (fit_models fitf (transform B alpha gsf) low high) as [l h].
  destruct (extrapolate false l) as [c1|] eqn:E1; [|discriminate]. destruct (extrapolate false h) as [c2|] eqn:E2; [|discriminate].
  intros [= <- <- <-]. do 3 eexists. split; [reflexivity|]. split; [reflexivity|].
  unfold extrapolate in *. cbn [em_Emin em_Emax em_high em_scale em_shift em_steps shift_after em_after]. auto.
Qed.
Print Assumptions simultan_result_is_likelihood.
(* Before any range is set: the likelihood cannot be calculated, while the result gets default ranges *)
Theorem simultan_result_default_ranges : forall fitf B alpha low high gsf e0 es, rv_E gsf = e0 :: es -> em_Emin low = None -> em_Emax low = None ->
  em_Emin high = None -> em_Emax high = None ->
  simultan_curves fitf B alpha low high gsf = None /\
  exists g l h, simultan_result fitf B alpha low high gsf = Some (g, l, h) /\
    em_Emin l = Some 0 /\ em_Emax l = Some (if em_high low then 20 else e0) /\ em_Emin h = Some 0 /\ em_Emax h = Some (if em_high high then 20 else e0).
Proof.
  intros fitf B alpha low high gsf e0 es E A1 A2 A3 A4. split.
  - unfold simultan_curves, fit_models. destruct (em_fit low); unfold extrapolate; cbn [set_fit em_Emin em_Emax]; now rewrite A1.
  - unfold simultan_result. assert (E' : rv_E (transform B alpha gsf) = rv_E gsf) by reflexivity. rewrite E', E.
    destruct (fit_models fitf (transform B alpha gsf) (autorange e0 low) (autorange e0 high)) as [l h] eqn:F.
    do 3 eexists. split; [reflexivity|]. cbn [em_Emin em_Emax].
    unfold fit_models in F. destruct (em_fit (autorange e0 low)); injection F as <- <-; cbn [autorange set_fit em_Emin em_Emax em_high]; rewrite A1, A2, A3, A4; auto.
Qed.
Print Assumptions simultan_result_default_ranges.
(* without data there is no result *)
Theorem simultan_result_empty : forall fitf B alpha low high gsf, rv_E gsf = [] -> simultan_result fitf B alpha low high gsf = None.
Proof. intros fitf B alpha low high gsf E. unfold simultan_result. assert (E' : rv_E (transform B alpha gsf) = rv_E gsf) by reflexivity. now rewrite E', E. Qed.
Print Assumptions simultan_result_empty.

Example sr_low : emodel := mkEM false 1 2 (Some 9) (Some 0) (Some 2) 3 true.
Example sr_high : emodel := mkEM true 1 2 (Some 9) (Some 4) (Some 8) 3 true.
(* the shift of an earlier normalisation (9) is replaced by that of the new fit *)
Example sr_result : exists g l h, simultan_result (fun _ _ => (3, 5)) 2 0 sr_low sr_high (mkRV [1; 1] [2; 4] None) = Some (g, l, h) /\
  shift_after l = 5 /\ em_scale h = 3 /\ ranged sr_low /\ ranged sr_high.
Proof. do 3 eexists. split; [reflexivity|]. split; [reflexivity|]. split; [reflexivity|]. split; split; discriminate. Qed.
