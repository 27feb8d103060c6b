(* C70: E_array_from_calibration. *)
From Verif Require Import PyBase CalibModel.

(* specification: the calibration E_i = a0 + a1*i *)
Definition calibrated (a0 a1 : Qc) (l : list Qc) : Prop := forall i, (i < length l)%nat -> nth i l 0 = a0 + a1 * qnat i.

Lemma round_even_spec x : qabs (qz (round_even x) - x) <= qn 1 2.
Proof.
  unfold round_even. cbv zeta. destruct (qfloor_spec x) as [H1 H2]. set (f := qz (qfloor x)) in *.
  assert (H : qn 1 2 = 1 / qz 2) by (apply qeqb_eq; reflexivity).
  assert (U : qz (qfloor x + 1) = f + 1) by (rewrite qz_add, qz_1; reflexivity).
  destruct (qltb_spec (x - f) (qn 1 2)) as [A|A]; [q_minmax; unfold f in *; qlra|].
  destruct (qltb_spec (qn 1 2) (x - f)) as [B|B]; [rewrite U; q_minmax; qlra|].
  destruct (Z.even _); [fold f|rewrite U]; q_minmax; qlra.
Qed.
Lemma linspace_calibrated a0 a1 n : (0 <= n)%Z ->
  exists l, linspace a0 (a0 + a1 * qz (n - 1)) n = Ok l /\ length l = Z.to_nat n /\ calibrated a0 a1 l.
Proof.
  intros Hn. unfold linspace. destruct (Z.ltb_spec n 0); [lia|]. eexists. split; [reflexivity|]. split; [apply tab_length|].
  intros i Hi. rewrite tab_length in Hi. rewrite nth_tab by exact Hi. destruct (Z.eq_dec n 1) as [->|N1].
  - assert (i = 0)%nat as -> by lia. rewrite qnat_0. ring.
  - assert (D : qz (n - 1) <> 0). { intros C. rewrite <- qz_0 in C. apply qz_inj in C. lia. } field. exact D.
Qed.

Theorem calibration_by_number : forall a0 a1 n, (0 <= n)%Z ->
  exists l, E_array_from_calibration a0 a1 (Some n) None = Ok l /\ length l = Z.to_nat n /\ calibrated a0 a1 l.
Proof. intros. now apply linspace_calibrated. Qed.
Print Assumptions calibration_by_number.
(* last energy within half a bin of E_max (in particular >= E_max - a1), whenever E_max is
   not more than half a bin below the first energy *)
Theorem calibration_by_energy : forall a0 a1 em, a1 <> 0 -> - qn 1 2 < (em - a0) / a1 ->
  exists l, E_array_from_calibration a0 a1 None (Some em) = Ok l /\ l <> [] /\ calibrated a0 a1 l /\
  qabs (nth (length l - 1) l 0 - em) <= qabs a1 / qz 2.
Proof.
  intros a0 a1 em HA HB. unfold E_array_from_calibration. rewrite (proj2 (qeqb_neq _ _) HA). cbv zeta.
  set (x := (em - a0) / a1) in *. pose proof (round_even_spec x) as RS. set (r := round_even x) in *.
  assert (R0 : (0 <= r)%Z).
  { destruct (Z_le_gt_dec 0 r) as [H|H]; [exact H|]. exfalso.
    assert (Q : qz r <= qz (-1)) by (apply (proj1 (qz_le _ _)); lia).
    assert (M : qz (-1) = - (1)) by (apply qeqb_eq; reflexivity). rewrite M in Q.
    assert (H2 : qn 1 2 + qn 1 2 = 1) by (apply qeqb_eq; reflexivity). revert RS.
    destruct (qabs_spec (qz r - x)) as [[? ->]|[? ->]]; intros; qlra. }
  destruct (linspace_calibrated a0 a1 (r + 1) ltac:(lia)) as (l & E & L & CL).
  exists l. rewrite E. split; [reflexivity|]. assert (LN : length l <> 0%nat) by lia. split; [destruct l; [contradiction LN; reflexivity|discriminate]|].
  split; [exact CL|]. rewrite CL by lia. replace (qnat (length l - 1)) with (qz r) by (unfold qnat; f_equal; lia).
  assert (X : em = a0 + a1 * x) by (unfold x; field; exact HA). rewrite X.
  replace (a0 + a1 * qz r - (a0 + a1 * x)) with (a1 * (qz r - x)) by ring.
  assert (AM : qabs (a1 * (qz r - x)) = qabs a1 * qabs (qz r - x)).
  { clear. set (d := qz r - x). clearbody d. destruct (qabs_spec a1) as [[? ->]|[? ->]], (qabs_spec d) as [[? ->]|[? ->]], (qabs_spec (a1 * d)) as [[? ->]|[? ->]]; qnra. }
  rewrite AM. assert (AP : 0 <= qabs a1) by (q_minmax; qlra). assert (H2 : qabs a1 / qz 2 = qabs a1 * qn 1 2).
  { rewrite qz_2. replace (qn 1 2) with (/ (1 + 1)) by (apply qeqb_eq; reflexivity). reflexivity. }
  rewrite H2. clearbody r. clear - RS AP. set (u := qabs a1) in *. set (v := qabs (qz r - x)) in *. clearbody u v. qnra.
Qed.
Print Assumptions calibration_by_energy.
(* both or neither, a negative number of bins, a zero slope and an E_max more than one and a
   half bins below a0 raise *)
Theorem calibration_rejects : forall a0 a1,
  (forall n em, E_array_from_calibration a0 a1 (Some n) (Some em) = Raise ValueError) /\
  E_array_from_calibration a0 a1 None None = Raise ValueError /\
  (forall n, (n < 0)%Z -> E_array_from_calibration a0 a1 (Some n) None = Raise ValueError) /\
  (forall em, a1 = 0 -> E_array_from_calibration a0 a1 None (Some em) = Raise ZeroDivErr) /\
  (forall em, a1 <> 0 -> (em - a0) / a1 < - qn 3 2 -> E_array_from_calibration a0 a1 None (Some em) = Raise ValueError).
Proof.
  intros a0 a1. split; [reflexivity|]. split; [reflexivity|]. split; [|split].
  - intros n Hn. cbn [E_array_from_calibration]. unfold linspace. destruct (Z.ltb_spec n 0); [reflexivity|lia].
  - intros em ->. reflexivity.
  - intros em HA HB. unfold E_array_from_calibration. rewrite (proj2 (qeqb_neq _ _) HA). cbv zeta.
    set (x := (em - a0) / a1) in *. pose proof (round_even_spec x) as RS. set (r := round_even x) in *. unfold linspace.
    destruct (Z.ltb_spec (r + 1) 0) as [H|H]; [reflexivity|exfalso].
    assert (Q : qz (-1) <= qz r) by (apply (proj1 (qz_le _ _)); lia).
    assert (M : qz (-1) = - (1)) by (apply qeqb_eq; reflexivity). rewrite M in Q.
    assert (H2 : qn 3 2 = qn 1 2 + 1) by (apply qeqb_eq; reflexivity). rewrite H2 in HB. revert RS.
    destruct (qabs_spec (qz r - x)) as [[? ->]|[? ->]]; intros; qlra.
Qed.
Print Assumptions calibration_rejects.
Example cal_run : match E_array_from_calibration (qz 10) (qz 20) None (Some (qz 61)) with Ok l => leqb l (ql [10; 30; 50; 70]%Z) | Raise _ => false end = true.
Proof. vm_compute. reflexivity. Qed.
(* documented: E_array[-1] >= E_max - a1 *)
Example cal_tie : match E_array_from_calibration 0 (qz 2) None (Some (qz 5)) with Ok l => leqb l (ql [0; 2; 4]%Z) | Raise _ => false end = true.
Proof. vm_compute. reflexivity. Qed.
(* and a range ending between half and one and a half bins below a0 gives an empty array *)
Example cal_empty : E_array_from_calibration (qz 10) (qz 2) None (Some (qz 8)) = Ok [].
Proof. reflexivity. Qed.
