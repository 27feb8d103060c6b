(* Looking at a matrix in double precision: what plot does to the axes. *)
From Coq Require Import Reals ZArith List Lra Lia Psatz.
From Flocq Require Import Core.
From Verif Require Import TextNumModel TextNumProps FloatRebinModel FloatRebinProps FloatShiftModel.
Import ListNotations.
Local Open Scope R_scope.

(* ------------------------------------------------------------------ specification *)
(* all energies are multiples of 2^k, and not too large *)
Definition dyadic (k : Z) (l : list R) : Prop :=
  (-1073 <= k)%Z /\ Forall (fun e => exists m, (Z.abs m < 2 ^ 50)%Z /\ e = IZR m * bpow radix2 k) l.
Definition within (M : R) (l : list R) : Prop := Forall (fun e => double e /\ Rabs e <= M) l.
(* the energies differ by at most d *)
Definition close (d : R) (l l' : list R) : Prop := Forall2 (fun e e' => Rabs (e' - e) <= d) l l'.

(* ------------------------------------------------------------------ exact cases *)
Lemma near_dyadic m e : (Z.abs m < 2 ^ 53)%Z -> (-1074 <= e)%Z -> near (IZR m * bpow radix2 e) = IZR m * bpow radix2 e.
Proof. intros A B. now apply near_double, double_dyadic. Qed.
Lemma bpow_half k : bpow radix2 k = 2 * bpow radix2 (k - 1).
Proof. replace k with (1 + (k - 1))%Z at 1 by ring. rewrite bpow_plus. reflexivity. Qed.
Lemma fhalf_dyadic k m0 m1 : (-1074 <= k)%Z -> (Z.abs m0 < 2 ^ 52)%Z -> (Z.abs m1 < 2 ^ 52)%Z -> Z.even (m1 - m0) = true ->
  fhalf (IZR m0 * bpow radix2 k) (IZR m1 * bpow radix2 k) = IZR ((m1 - m0) / 2) * bpow radix2 k.
Proof.
  intros K A B EV. unfold fhalf. replace (IZR m1 * bpow radix2 k - IZR m0 * bpow radix2 k) with (IZR (m1 - m0) * bpow radix2 k) by (rewrite minus_IZR; ring).
  rewrite near_dyadic by lia. apply Z.even_spec in EV as [d D]. rewrite D. rewrite (Z.mul_comm 2 d), Z.div_mul by lia.
  replace (IZR (d * 2) * bpow radix2 k / 2) with (IZR d * bpow radix2 k) by (rewrite mult_IZR; field). apply near_dyadic; lia.
Qed.
(* Axes whose energies are multiples of a power of two (whole numbers of keV, say) stay as they are. *)
Theorem plot_exact_dyadic : forall k l, (2 <= length l)%nat -> dyadic k l -> fplot l = Some l.
Proof.
  intros k l L [K F]. destruct l as [|E0 [|E1 l]]; [cbn in L; lia..|]. unfold fplot, flower.
  assert (H0 := Forall_inv F). assert (H1 := Forall_inv (Forall_inv_tail F)). cbn beta in H0, H1. destruct H0 as (m0 & A0 & Q0). destruct H1 as (m1 & A1 & Q1).
  assert (HF : fhalf E0 E1 = IZR (m1 - m0) * bpow radix2 (k - 1)).
  { rewrite Q0, Q1, (bpow_half k). replace (IZR m0 * (2 * bpow radix2 (k - 1))) with (IZR (m0 * 2) * bpow radix2 (k - 1)) by (rewrite mult_IZR; ring).
    replace (IZR m1 * (2 * bpow radix2 (k - 1))) with (IZR (m1 * 2) * bpow radix2 (k - 1)) by (rewrite mult_IZR; ring).
    rewrite fhalf_dyadic; [|lia|lia|lia|]; replace (m1 * 2 - m0 * 2)%Z with ((m1 - m0) * 2)%Z by ring; [rewrite Z.div_mul by lia; reflexivity|]. rewrite Z.even_mul. apply Bool.orb_true_r. }
  assert (DN : forall m, (Z.abs m < 2 ^ 50)%Z -> near (IZR m * bpow radix2 k - fhalf E0 E1) = IZR (2 * m - (m1 - m0)) * bpow radix2 (k - 1)).
  { intros m A. rewrite HF, (bpow_half k). replace (IZR m * (2 * bpow radix2 (k - 1)) - IZR (m1 - m0) * bpow radix2 (k - 1)) with (IZR (2 * m - (m1 - m0)) * bpow radix2 (k - 1)) by (rewrite !minus_IZR, mult_IZR; ring).
    apply near_dyadic; lia. }
  assert (HF2 : fhalf (near (E0 - fhalf E0 E1)) (near (E1 - fhalf E0 E1)) = IZR (m1 - m0) * bpow radix2 (k - 1)).
  { rewrite Q0 at 1. rewrite DN by exact A0. rewrite Q1 at 1. rewrite DN by exact A1. rewrite fhalf_dyadic; [|lia|lia|lia|]; replace (2 * m1 - (m1 - m0) - (2 * m0 - (m1 - m0)))%Z with ((m1 - m0) * 2)%Z by ring;
    [rewrite Z.div_mul by lia; reflexivity|]. rewrite Z.even_mul. apply Bool.orb_true_r. }
  cbn [map fmid]. rewrite HF2. set (u := fun e => near (near (e - fhalf E0 E1) + IZR (m1 - m0) * bpow radix2 (k - 1))).
  assert (UE : forall e, (exists m, (Z.abs m < 2 ^ 50)%Z /\ e = IZR m * bpow radix2 k) -> u e = e).
  { intros e (m & A & ->). unfold u. rewrite DN by exact A. replace (IZR (2 * m - (m1 - m0)) * bpow radix2 (k - 1) + IZR (m1 - m0) * bpow radix2 (k - 1)) with (IZR (2 * m) * bpow radix2 (k - 1)) by (rewrite minus_IZR; ring).
    rewrite near_dyadic by lia. rewrite (bpow_half k), mult_IZR. ring. }
  f_equal. cbn [map]. change (u E0 :: u E1 :: map (fun e => near (e + IZR (m1 - m0) * bpow radix2 (k - 1))) (map (fun e => near (e - fhalf E0 E1)) l) = E0 :: E1 :: l).
  rewrite map_map. change (u E0 :: u E1 :: map u l = E0 :: E1 :: l). rewrite (UE E0), (UE E1) by eauto. do 2 f_equal.
  rewrite <- (map_id l) at 2. apply map_ext_in. intros e I. apply UE. rewrite Forall_forall in F. apply F. now right; right.
Qed.
Print Assumptions plot_exact_dyadic.
Example plot_exact_case : dyadic 0 [0; 40; 80; 120] /\ fplot [0; 40; 80; 120] = Some [0; 40; 80; 120].
Proof.
  assert (D : dyadic 0 [0; 40; 80; 120]).
  { split; [lia|]. change (bpow radix2 0) with 1. repeat (constructor; [eexists; split; [|rewrite Rmult_1_r; reflexivity]; cbn; lia|]). constructor. }
  split; [exact D|]. apply (plot_exact_dyadic 0); [cbn; lia|exact D].
Qed.

(* ------------------------------------------------------------------ rounding errors *)
Lemma fhalf_err M E0 E1 : double E0 -> double E1 -> Rabs E0 <= M -> Rabs E1 <= M -> Rabs (fhalf E0 E1 - (E1 - E0) / 2) <= 3 * (U * M) + 2 * eta.
Proof.
  intros D0 D1 A0 A1. unfold fhalf. pose proof (sub_err E1 E0 D1 D0) as H1. unfold fsub in H1. pose proof (near_err (near (E1 - E0) / 2)) as H2.
  pose proof U_small as [UP US]. pose proof eta_pos as EP. assert (MP : 0 <= M) by (pose proof (Rabs_pos E0); lra).
  set (d := near (E1 - E0)) in *. clearbody d. set (h := near (d / 2)) in *. clearbody h.
  assert (B : Rabs (E1 - E0) <= 2 * M) by (unfold Rabs in *; repeat destruct Rcase_abs; lra).
  assert (C : U * Rabs (E1 - E0) <= 2 * (U * M)) by nra.
  assert (B2 : Rabs (d / 2) <= M + U * M) by (unfold Rabs in *; repeat destruct Rcase_abs; lra).
  assert (C2 : U * Rabs (d / 2) <= 2 * (U * M)) by (assert (U * M <= M) by nra; nra).
  unfold Rabs in *; repeat destruct Rcase_abs; lra.
Qed.
Lemma lower_err M h e : double h -> double e -> Rabs e <= M -> Rabs h <= 2 * M + 2 * eta -> Rabs (near (e - h) - (e - h)) <= 3 * (U * M) + eta.
Proof.
  intros DH D A H. pose proof (sub_err e h D DH) as H1. unfold fsub in H1. pose proof U_small as [UP US]. pose proof eta_pos as EP. assert (MP : 0 <= M) by (pose proof (Rabs_pos e); lra).
  assert (B : Rabs (e - h) <= 3 * M + 2 * eta) by (unfold Rabs in *; repeat destruct Rcase_abs; lra).
  assert (C : U * Rabs (e - h) <= 3 * (U * M) + eta) by nra. lra.
Qed.
Lemma trip_err M E0 E1 e : double E0 -> double E1 -> double e -> Rabs E0 <= M -> Rabs E1 <= M -> Rabs e <= M ->
  let h := fhalf E0 E1 in let h' := fhalf (near (E0 - h)) (near (E1 - h)) in
  Rabs (near (near (e - h) + h') - e) <= 24 * (U * M) + 8 * eta.
Proof.
  intros D0 D1 D A0 A1 A h h'. pose proof U_small as [UP US]. pose proof eta_pos as EP. assert (MP : 0 <= M) by (pose proof (Rabs_pos e); lra).
  assert (UM : 0 <= U * M <= M / 1000) by nra. assert (UE : 0 <= U * eta <= eta / 1000) by nra.
  assert (DH : double h) by apply double_near. pose proof (fhalf_err M E0 E1 D0 D1 A0 A1) as HE. fold h in HE.
  assert (HB : Rabs h <= 2 * M + 2 * eta) by (clear - HE A0 A1 UM EP; unfold Rabs in *; repeat destruct Rcase_abs; lra).
  pose proof (lower_err M h E0 DH D0 A0 HB) as L0. pose proof (lower_err M h E1 DH D1 A1 HB) as L1. pose proof (lower_err M h e DH D A HB) as L.
  assert (DL0 : double (near (E0 - h))) by apply double_near. assert (DL1 : double (near (E1 - h))) by apply double_near. assert (DL : double (near (e - h))) by apply double_near.
  assert (B0 : Rabs (near (E0 - h)) <= 4 * M + 3 * eta) by (clear - L0 HB A0 UM EP; unfold Rabs in *; repeat destruct Rcase_abs; lra).
  assert (B1 : Rabs (near (E1 - h)) <= 4 * M + 3 * eta) by (clear - L1 HB A1 UM EP; unfold Rabs in *; repeat destruct Rcase_abs; lra).
  pose proof (fhalf_err (4 * M + 3 * eta) _ _ DL0 DL1 B0 B1) as HE'. fold h' in HE'. assert (DH' : double h') by apply double_near.
  set (a := near (E0 - h)) in *. set (b := near (E1 - h)) in *. set (c := near (e - h)) in *.
  replace (3 * (U * (4 * M + 3 * eta)) + 2 * eta) with (12 * (U * M) + 9 * (U * eta) + 2 * eta) in HE' by ring.
  pose proof (add_err c h' DL DH') as S. unfold fadd in S. set (w := near (c + h')) in *.
  assert (P : Rabs (c + h' - e) <= 21 * (U * M) + 7 * eta).
  { apply Rabs_le_inv in HE, HE', L0, L1, L. apply Rabs_le. lra. }
  assert (Q : Rabs (c + h') <= M + 21 * (U * M) + 7 * eta) by (clear - P A; unfold Rabs in *; repeat destruct Rcase_abs; lra).
  assert (T : U * Rabs (c + h') <= 2 * (U * M) + eta).
  { apply Rle_trans with (U * (M + 21 * (U * M) + 7 * eta)); [apply Rmult_le_compat_l; lra|]. clear - UM UE UP US EP MP. nra. }
  apply Rabs_le_inv in S, P. apply Rabs_le. lra.
Qed.
(* One plot moves no energy by more than 24 rounding errors of the largest energy. *)
Theorem plot_drift_bound : forall M l, (2 <= length l)%nat -> within M l ->
  exists l', fplot l = Some l' /\ close (24 * (U * M) + 8 * eta) l l' /\ Forall double l'.
Proof.
  intros M l L W. destruct l as [|E0 [|E1 l]]; [cbn in L; lia..|]. set (h := fhalf E0 E1). set (h' := fhalf (near (E0 - h)) (near (E1 - h))).
  exists (map (fun e => near (near (e - h) + h')) (E0 :: E1 :: l)). split; [|split].
  - unfold fplot, flower. cbn [map fmid]. fold h. fold h'. now rewrite map_map.
  - destruct (Forall_inv W) as [D0 A0]. destruct (Forall_inv (Forall_inv_tail W)) as [D1 A1].
    assert (H : forall k, within M k -> close (24 * (U * M) + 8 * eta) k (map (fun e => near (near (e - h) + h')) k)).
    { induction k as [|e k IH]; intros K; [constructor|]. cbn [map]. inversion K as [|? ? [D A] K2]; subst. constructor; [|now apply IH]. now apply trip_err. }
    now apply H.
  - apply Forall_forall. intros x I. apply in_map_iff in I as (e & <- & _). apply double_near.
Qed.
Print Assumptions plot_drift_bound.
(* n plots: n times as much, as long as that is less than the energies themselves *)
Theorem plots_drift_bound : forall n M l, (2 <= length l)%nat -> within M l -> bpow radix2 (-1022) <= M -> INR n * (64 * U) <= 1 ->
  exists l', fplots n l = Some l' /\ close (INR n * (64 * U * M)) l l' /\ Forall double l'.
Proof.
  intros n M l L W MB. pose proof U_small as [UP US]. pose proof eta_pos as EP. assert (MP : 0 < M) by (eapply Rlt_le_trans; [apply bpow_gt_0|exact MB]).
  assert (EU : eta <= U * M).
  { unfold eta. apply Rle_trans with (U * bpow radix2 (-1022)); [|apply Rmult_le_compat_l; lra]. rewrite <- U52. rewrite Rmult_assoc, <- bpow_plus. apply Rle_refl. }
  induction n as [|n IH]; intros N.
  - exists l. split; [reflexivity|]. split; [|eapply Forall_impl; [|exact W]; now intros e [D _]]. cbn [INR]. unfold close. clear L W. induction l as [|e l IH]; constructor; [|exact IH].
    rewrite Rmult_0_l. replace (e - e) with 0 by ring. rewrite Rabs_R0. apply Rle_refl.
  - rewrite S_INR in N |- *. destruct IH as (k & FK & CK & DK); [lra|]. pose proof (pos_INR n) as NP.
    assert (S : INR n * (64 * U * M) <= M) by (replace (INR n * (64 * U * M)) with (INR n * (64 * U) * M) by ring; nra).
    assert (WK : within (2 * M) k).
    { clear FK. revert DK W. unfold close in CK. generalize dependent (INR n * (64 * U * M)). intros d CK S. clear - CK S MP. induction CK as [|e e' l k C _ IH]; intros DK W; constructor.
      - inversion DK; inversion W as [|? ? [DE AE] ?]; subst. split; [assumption|]. unfold Rabs in *; repeat destruct Rcase_abs; lra.
      - inversion DK; inversion W; subst. now apply IH. }
    assert (LK : length k = length l) by (clear - CK; unfold close in CK; induction CK as [|e e' l k _ _ IH]; [reflexivity|cbn [length]; now rewrite IH]).
    destruct (plot_drift_bound (2 * M) k ltac:(lia) WK) as (l' & F & C & D). exists l'. cbn [fplots]. rewrite FK. split; [exact F|]. split; [|exact D].
    assert (B : 24 * (U * (2 * M)) + 8 * eta <= 64 * U * M) by nra.
    replace ((INR n + 1) * (64 * U * M)) with (INR n * (64 * U * M) + 64 * U * M) by ring.
    generalize dependent (INR n * (64 * U * M)). generalize dependent (24 * (U * (2 * M)) + 8 * eta). generalize (64 * U * M). intros t u C B s CK _.
    clear - CK C B. revert l' C. induction CK as [|e e' l k X _ IH]; intros l' C; inversion C as [|? e'' ? l'' Y C2]; subst; constructor; [|now apply IH].
    replace (e'' - e) with ((e'' - e') + (e' - e)) by ring. eapply Rle_trans; [apply Rabs_triang|]. lra.
Qed.
Print Assumptions plots_drift_bound.

(* ------------------------------------------------------------------ but it moves *)
Lemma near_tie m e : (2 ^ 52 <= m)%Z -> (m < 2 ^ 53 - 1)%Z -> (-1074 <= e)%Z -> Z.even m = false ->
  near (IZR (2 * m + 1) * bpow radix2 (e - 1)) = IZR (m + 1) * bpow radix2 e.
Proof.
  intros A B C EV. unfold near, round, scaled_mantissa.
  assert (X : IZR (2 * m + 1) * bpow radix2 (e - 1) = (IZR m + / 2) * bpow radix2 e) by (rewrite (bpow_half e), plus_IZR, mult_IZR; field).
  rewrite X. assert (CE : cexp radix2 fdouble ((IZR m + / 2) * bpow radix2 e) = e).
  { unfold cexp. assert (MG : (mag radix2 ((IZR m + / 2) * bpow radix2 e) = 53 + e :> Z)%Z).
    { apply mag_unique. pose proof (bpow_gt_0 radix2 e) as P. apply IZR_le in A. apply IZR_lt in B. rewrite minus_IZR in B. rewrite Rabs_pos_eq by nra.
      replace (53 + e - 1)%Z with (52 + e)%Z by ring. rewrite !bpow_plus. change (bpow radix2 52) with (IZR (2 ^ 52)). change (bpow radix2 53) with (IZR (2 ^ 53)). split; [nra|]. apply Rmult_lt_compat_r; lra. }
    rewrite MG. unfold fdouble, FLT_exp. lia. }
  rewrite CE. rewrite Rmult_assoc, <- bpow_plus, Z.add_opp_diag_r, Rmult_1_r. unfold F2R. cbn [Fnum Fexp]. f_equal. f_equal.
  unfold Znearest. assert (ZF : Zfloor (IZR m + / 2) = m) by (apply Zfloor_imp; rewrite plus_IZR; lra). rewrite ZF.
  rewrite Rcompare_Eq by lra. rewrite EV. cbn [negb]. rewrite Zceil_floor_neq by (rewrite ZF; lra). now rewrite ZF.
Qed.
(* The bins at 0.1 and 0.3: after a plot the first lies at 0.10000000000000002. *)
Lemma near_round m e x : (2 ^ 52 <= m)%Z -> (m < 2 ^ 53)%Z -> (-1074 <= e)%Z -> bpow radix2 (52 + e) <= x -> x < bpow radix2 (53 + e) ->
  Rabs (x - IZR m * bpow radix2 e) < bpow radix2 e / 2 -> near x = IZR m * bpow radix2 e.
Proof.
  intros A B C L H N. unfold near, round, scaled_mantissa. pose proof (bpow_gt_0 radix2 e) as P.
  assert (CE : cexp radix2 fdouble x = e).
  { unfold cexp. assert (MG : (mag radix2 x = 53 + e :> Z)%Z).
    { apply mag_unique. rewrite Rabs_pos_eq by (eapply Rle_trans; [apply Rlt_le, bpow_gt_0|exact L]). replace (53 + e - 1)%Z with (52 + e)%Z by ring. now split. }
    rewrite MG. unfold fdouble, FLT_exp. lia. }
  rewrite CE. unfold F2R. cbn [Fnum Fexp]. f_equal. f_equal. apply Znearest_imp. rewrite bpow_opp.
  replace (x * / bpow radix2 e - IZR m) with ((x - IZR m * bpow radix2 e) * / bpow radix2 e) by (field; lra).
  rewrite Rabs_mult, (Rabs_pos_eq (/ bpow radix2 e)) by (apply Rlt_le, Rinv_0_lt_compat; exact P).
  apply Rmult_lt_reg_r with (bpow radix2 e); [exact P|]. rewrite Rmult_assoc, Rinv_l by lra. lra.
Qed.
Theorem plot_drift_refuted : exists E0 E1 E0' E1', near (1 / 10) = E0 /\ near (3 / 10) = E1 /\
  fplot [E0; E1] = Some [E0'; E1'] /\ E0 < E0' /\ E1 < E1'.
Proof.
  assert (B56 : bpow radix2 (-56) = / 72057594037927936) by reflexivity. assert (B55 : bpow radix2 (-55) = / 36028797018963968) by reflexivity. assert (B54 : bpow radix2 (-54) = / 18014398509481984) by reflexivity.
  assert (B4 : bpow radix2 (-4) = / 16) by reflexivity. assert (B3 : bpow radix2 (-3) = / 8) by reflexivity. assert (B2 : bpow radix2 (-2) = / 4) by reflexivity. assert (B1 : bpow radix2 (-1) = / 2) by reflexivity.
  exists (IZR 7205759403792794 * bpow radix2 (-56)), (IZR 5404319552844595 * bpow radix2 (-54)), (IZR 7205759403792795 * bpow radix2 (-56)), (IZR 5404319552844596 * bpow radix2 (-54)).
  split; [|split; [|split]].
  - apply near_round; [cbn; lia|cbn; lia|lia| | |]; cbn [Z.add Z.pos_sub Z.succ_double Z.pred_double Z.double Pos.pred_double]; rewrite ?B4, ?B3, ?B56; [lra|lra|]. apply Rabs_def1; lra.
  - apply near_round; [cbn; lia|cbn; lia|lia| | |]; cbn [Z.add Z.pos_sub Z.succ_double Z.pred_double Z.double Pos.pred_double]; rewrite ?B2, ?B1, ?B54; [lra|lra|]. apply Rabs_def1; lra.
  - assert (H : fhalf (IZR 7205759403792794 * bpow radix2 (-56)) (IZR 5404319552844595 * bpow radix2 (-54)) = IZR 7205759403792793 * bpow radix2 (-56)).
    { unfold fhalf. replace (IZR 5404319552844595 * bpow radix2 (-54) - IZR 7205759403792794 * bpow radix2 (-56)) with (IZR 7205759403792793 * bpow radix2 (-55)) by (rewrite B54, B55, B56; lra).
      rewrite near_dyadic by (cbn; lia). replace (IZR 7205759403792793 * bpow radix2 (-55) / 2) with (IZR 7205759403792793 * bpow radix2 (-56)) by (rewrite B55, B56; lra). apply near_dyadic; cbn; lia. }
    assert (T1 : near (IZR 14411518807585587 * bpow radix2 (-56)) = IZR 7205759403792794 * bpow radix2 (-55)) by (apply (near_tie 7205759403792793 (-55)); [cbn; lia|cbn; lia|lia|reflexivity]).
    unfold fplot, flower. rewrite H. cbn [map].
    replace (IZR 7205759403792794 * bpow radix2 (-56) - IZR 7205759403792793 * bpow radix2 (-56)) with (IZR 1 * bpow radix2 (-56)) by (rewrite B56; lra).
    replace (IZR 5404319552844595 * bpow radix2 (-54) - IZR 7205759403792793 * bpow radix2 (-56)) with (IZR 14411518807585587 * bpow radix2 (-56)) by (rewrite B56, B54; lra).
    rewrite T1. rewrite near_dyadic by (cbn; lia). unfold fmid.
    assert (H2 : fhalf (IZR 1 * bpow radix2 (-56)) (IZR 7205759403792794 * bpow radix2 (-55)) = IZR 7205759403792794 * bpow radix2 (-56)).
    { unfold fhalf. replace (IZR 7205759403792794 * bpow radix2 (-55) - IZR 1 * bpow radix2 (-56)) with (IZR 14411518807585587 * bpow radix2 (-56)) by (rewrite B56, B55; lra). rewrite T1.
      replace (IZR 7205759403792794 * bpow radix2 (-55) / 2) with (IZR 7205759403792794 * bpow radix2 (-56)) by (rewrite B55, B56; lra). apply near_dyadic; cbn; lia. }
    rewrite H2. cbn [map].
    replace (IZR 1 * bpow radix2 (-56) + IZR 7205759403792794 * bpow radix2 (-56)) with (IZR 7205759403792795 * bpow radix2 (-56)) by (rewrite B56; lra). rewrite near_dyadic by (cbn; lia).
    replace (IZR 7205759403792794 * bpow radix2 (-55) + IZR 7205759403792794 * bpow radix2 (-56)) with (IZR 10808639105689191 * bpow radix2 (-54 - 1)) by (change (-54 - 1)%Z with (-55)%Z; rewrite B56, B55; lra).
    change 10808639105689191%Z with (2 * 5404319552844595 + 1)%Z. rewrite near_tie; [reflexivity|cbn; lia|cbn; lia|lia|reflexivity].
  - rewrite B56, B54. split; lra.
Qed.
Print Assumptions plot_drift_refuted.
(* 1000 plots of an axis up to 10: the bound is less than 10^-10 *)
Example plots_drift_case : let l := [near (1 / 10); near (3 / 10)] in
  (2 <= length l)%nat /\ within 10 l /\ bpow radix2 (-1022) <= 10 /\ INR 1000 * (64 * U) <= 1 /\ INR 1000 * (64 * U * 10) < / 10000000000.
Proof.
  assert (I : INR 1000 = 1000) by (rewrite INR_IZR_INZ; reflexivity).
  split; [cbn; lia|]. split; [|split; [|split]].
  - pose proof U_small as [UP US]. pose proof (near_err (1 / 10)) as H1. pose proof (near_err (3 / 10)) as H2.
    assert (E : eta <= 1) by (unfold eta; assert (bpow radix2 (-1074) <= bpow radix2 0) by (apply bpow_le; lia); change (bpow radix2 0) with 1 in *; lra).
    repeat constructor; try apply double_near; [clear H2|clear H1]; unfold Rabs in *; repeat destruct Rcase_abs; nra.
  - apply Rle_trans with (bpow radix2 0); [apply bpow_le; lia|change (bpow radix2 0) with 1; lra].
  - rewrite I. pose proof U_small as [UP US]. lra.
  - rewrite I. pose proof U_small as [UP US]. unfold U. lra.
Qed.
