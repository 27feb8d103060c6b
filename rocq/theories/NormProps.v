(* C58 and C59: level density at Sn from D0, and the normalisation to the average total
   radiative width. *)
From Coq Require Import Reals List Lra Lia.
From Coquelicot Require Import Coquelicot.
From Verif Require Import TransformModel NormModel NormSpec NormProofs.
Import ListNotations.
Local Open Scope R_scope.

(* ------------------------------------------------------------------ C58 *)
Lemma spin_dist_pos s2 J : 0 < s2 -> - / 2 < J -> 0 < spin_dist s2 J.
Proof. intros H HJ. unfold spin_dist. apply Rmult_lt_0_compat; [|apply exp_pos]. apply Rdiv_lt_0_compat; lra. Qed.
Lemma spin_dist_m12 s2 : 0 < s2 -> spin_dist s2 (0 - / 2) = 0.
Proof. intros H. unfold spin_dist. replace (2 * (0 - / 2) + 1) with 0 by lra. unfold Rdiv. ring. Qed.
Lemma summe_both s2 Jt : 0 < s2 -> summe s2 Jt = / 2 * (spin_dist s2 (Jt - / 2) + spin_dist s2 (Jt + / 2)).
Proof. intros H. unfold summe. destruct (Req_EM_T Jt 0) as [->|]; [|reflexivity]. rewrite spin_dist_m12 by assumption. f_equal. ring. Qed.
Lemma summe_pos s2 Jt : 0 < s2 -> 0 <= Jt -> 0 < summe s2 Jt.
Proof.
  intros H HJ. rewrite summe_both by assumption. assert (0 < spin_dist s2 (Jt + / 2)) by (apply spin_dist_pos; lra).
  destruct (Req_EM_T Jt 0) as [->|]; [rewrite spin_dist_m12 by assumption; lra|]. assert (0 < spin_dist s2 (Jt - / 2)) by (apply spin_dist_pos; lra). lra.
Qed.
Lemma mega_pos : 0 < mega. Proof. unfold mega. lra. Qed.

(* The level density returned for D0 (in eV) is the one in the defining relation
   1/D0 = rho(Sn) * 1/2 (g(Jt - 1/2) + g(Jt + 1/2)), D0 in MeV; it is positive. *)
Theorem nldSn_defining g2 D0 Sn Jt : 0 < g2 (first Sn) -> 0 < first D0 -> 0 <= Jt ->
  let rho := snd (nldSn_from_D0 g2 D0 Sn Jt) in
  fst (nldSn_from_D0 g2 D0 Sn Jt) = first Sn /\ 0 < rho /\
  1 / (first D0 / 10 ^ 6) = rho * (/ 2 * (spin_dist (g2 (first Sn)) (Jt - / 2) + spin_dist (g2 (first Sn)) (Jt + / 2))).
Proof.
  intros H HD HJ. cbn zeta. unfold nldSn_from_D0. cbn [fst snd]. split; [reflexivity|].
  pose proof (summe_pos _ _ H HJ) as SP. pose proof mega_pos. rewrite <- summe_both by assumption.
  split; [apply Rdiv_lt_0_compat; [lra|]; repeat apply Rmult_lt_0_compat; assumption|].
  unfold mega. field. split; lra.
Qed.
Print Assumptions nldSn_defining.

(* D0 -> rho(Sn) -> D0: any level-density model that takes at Sn the value calculated from D0
   gives D0 back; and rho -> D0 -> rho. *)
Theorem D0_round_trip g2 D0 Sn Jt model : 0 < g2 (first Sn) -> first D0 <> 0 -> 0 <= Jt ->
  model (fst (nldSn_from_D0 g2 D0 Sn Jt)) = snd (nldSn_from_D0 g2 D0 Sn Jt) ->
  D0_from_nldSn g2 model Sn Jt = first D0.
Proof.
  intros H HD HJ HM. unfold D0_from_nldSn, nldSn_from_D0 in *. cbn [fst snd] in HM. rewrite HM.
  pose proof (summe_pos _ _ H HJ) as SP. pose proof mega_pos. field. repeat split; lra.
Qed.
Print Assumptions D0_round_trip.
Theorem nldSn_round_trip g2 Sn Jt model : 0 < g2 (first Sn) -> model (first Sn) <> 0 -> 0 <= Jt ->
  snd (nldSn_from_D0 g2 (Val (D0_from_nldSn g2 model Sn Jt)) Sn Jt) = model (first Sn).
Proof.
  intros H HD HJ. unfold D0_from_nldSn, nldSn_from_D0. cbn [fst snd first].
  pose proof (summe_pos _ _ H HJ) as SP. pose proof mega_pos. field. repeat split; lra.
Qed.
Print Assumptions nldSn_round_trip.

(* rho decreases with D0, and in inverse proportion to it. *)
Theorem nldSn_decreasing g2 D D' Sn Jt : 0 < g2 (first Sn) -> 0 <= Jt -> 0 < first D -> first D < first D' ->
  snd (nldSn_from_D0 g2 D' Sn Jt) < snd (nldSn_from_D0 g2 D Sn Jt).
Proof.
  intros H HJ HD HL. unfold nldSn_from_D0. cbn [snd]. pose proof (summe_pos _ _ H HJ) as SP. pose proof mega_pos as M.
  unfold Rdiv. rewrite !Rmult_1_l. apply Rinv_lt_contravar.
  - repeat apply Rmult_lt_0_compat; try assumption. lra.
  - apply Rmult_lt_compat_r; [assumption|]. now apply Rmult_lt_compat_l.
Qed.
Print Assumptions nldSn_decreasing.
Theorem nldSn_inverse g2 D c Sn Jt u : 0 < g2 (first Sn) -> 0 <= Jt -> D <> 0 -> c <> 0 ->
  snd (nldSn_from_D0 g2 (Val (c * D)) Sn Jt) = snd (nldSn_from_D0 g2 (Meas D u) Sn Jt) / c.
Proof.
  intros H HJ HD HC. unfold nldSn_from_D0. cbn [snd first]. pose proof (summe_pos _ _ H HJ) as SP. pose proof mega_pos. field. repeat split; lra.
Qed.
Print Assumptions nldSn_inverse.
(* sigma = 2, target spin 7/2, D0 = 10 eV, Sn = 8 MeV *)
Example D0_round_trip_x : D0_from_nldSn (fun _ => 4) (fun E => snd (nldSn_from_D0 (fun _ => 4) (Meas 10 1) (Meas 8 1) (7 / 2))) (Val 8) (7 / 2) = 10.
Proof. apply (D0_round_trip _ (Meas 10 1) (Val 8)); cbn; lra || reflexivity. Qed.

(* The spin distribution: its cumulative sum from -1/2 is 1 - exp(-(J+1/2)^2/(2 sigma^2)), so
   it is normalised; it rises to a maximum at J + 1/2 = sigma and falls beyond. *)
Theorem spin_dist_cumulative s2 J : 0 < s2 -> is_RInt (spin_dist s2) (- / 2) J (1 - exp (- (J + / 2) ^ 2 / (2 * s2))).
Proof.
  intros H. set (F := fun x => - exp (- (x + / 2) ^ 2 / (2 * s2))).
  replace (1 - exp (- (J + / 2) ^ 2 / (2 * s2))) with (minus (F J) (F (- / 2))).
  2:{ unfold minus, plus, opp, F. cbn. replace (- ((- / 2 + / 2) * ((- / 2 + / 2) * 1)) / (2 * s2)) with 0 by (field; lra). rewrite exp_0. ring. }
  apply (is_RInt_derive F (spin_dist s2)).
  - intros x _. replace (spin_dist s2 x) with (- (- (2 * (x + / 2)) / (2 * s2) * exp (- (x + / 2) ^ 2 / (2 * s2)))).
    2:{ unfold spin_dist. set (e := exp _). field. lra. }
    unfold F. auto_derive; [lra|]. unfold pow. set (e := exp _). field. lra.
  - intros x _. apply (ex_derive_continuous (spin_dist s2)). unfold spin_dist. auto_derive. lra.
Qed.
Print Assumptions spin_dist_cumulative.
Lemma spin_dist_mvt s2 a b : 0 < s2 -> a < b -> exists c, a < c < b /\
  spin_dist s2 b - spin_dist s2 a = / s2 * (1 - (c + / 2) ^ 2 / s2) * exp (- (c + / 2) ^ 2 / (2 * s2)) * (b - a).
Proof.
  intros H HL. destruct (MVT_cor2 (spin_dist s2) (fun c => / s2 * (1 - (c + / 2) ^ 2 / s2) * exp (- (c + / 2) ^ 2 / (2 * s2))) a b HL) as (c & E & C).
  - intros c _. apply is_derive_Reals. unfold spin_dist. auto_derive; [lra|]. unfold pow. set (e := exp _). field. lra.
  - exists c. split; assumption.
Qed.
Theorem spin_dist_mode s2 a b : 0 < s2 -> - / 2 <= a -> a < b ->
  ((b + / 2) ^ 2 <= s2 -> spin_dist s2 a < spin_dist s2 b) /\ (s2 <= (a + / 2) ^ 2 -> spin_dist s2 b < spin_dist s2 a).
Proof.
  intros H HA HL. destruct (spin_dist_mvt s2 a b H HL) as (c & C & E).
  pose proof (exp_pos (- (c + / 2) ^ 2 / (2 * s2))) as EP. set (e := exp (- (c + / 2) ^ 2 / (2 * s2))) in *.
  assert (HI : 0 < / s2) by now apply Rinv_0_lt_compat.
  assert (D : / s2 * (1 - (c + / 2) ^ 2 / s2) * e * (b - a) = (/ s2 * / s2 * e * (b - a)) * (s2 - (c + / 2) ^ 2)) by (field; lra).
  assert (DP : 0 < / s2 * / s2 * e * (b - a)) by (repeat apply Rmult_lt_0_compat; lra). rewrite D in E. split; intros M.
  - assert (0 < s2 - (c + / 2) ^ 2).
    { assert (0 < (b - c) * (b + c + 1)) by (apply Rmult_lt_0_compat; lra). replace ((c + / 2) ^ 2) with ((b + / 2) ^ 2 - (b - c) * (b + c + 1)) by field. lra. }
    pose proof (Rmult_lt_0_compat _ _ DP H0) as X. lra.
  - assert (0 < (c + / 2) ^ 2 - s2).
    { assert (0 < (c - a) * (c + a + 1)) by (apply Rmult_lt_0_compat; lra). replace ((c + / 2) ^ 2) with ((a + / 2) ^ 2 + (c - a) * (c + a + 1)) by field. lra. }
    pose proof (Rmult_lt_0_compat _ _ DP H0) as X. rewrite Rmult_minus_distr_l in X. rewrite Rmult_minus_distr_l in E. lra.
Qed.
Print Assumptions spin_dist_mode.
Example spin_dist_mode_x : spin_dist 9 (/ 2) < spin_dist 9 (3 / 2) /\ spin_dist 9 (9 / 2) < spin_dist 9 (7 / 2).
Proof. split; [apply (proj1 (spin_dist_mode 9 (/ 2) (3 / 2) ltac:(lra) ltac:(lra) ltac:(lra)))|apply (proj2 (spin_dist_mode 9 (7 / 2) (9 / 2) ltac:(lra) ltac:(lra) ltac:(lra)))]; simpl; lra. Qed.

(* ------------------------------------------------------------------ C59 *)
(* Multiplying the strength function and both extrapolations by B > 0 multiplies the
   calculated width by B: exactly, for every grid, every level density, and also when the
   result is not a number or an exception. *)
Theorem Gg_proportional B p ss gsf low high gsf' low' high' nld model : 0 < B ->
  scaled_curve B 0 gsf gsf' -> scaled_curve B 0 low low' -> scaled_curve B 0 high high' ->
  Gg_standard p ss gsf' low' high' nld model = oscale B (Gg_standard p ss gsf low high nld model).
Proof. apply Gg_times. Qed.
Print Assumptions Gg_proportional.

Lemma extrapolate_shift m B m' c : norm_to_shift_after B m = Some m' -> extrapolate false m = Some c ->
  exists c', extrapolate true m' = Some c' /\ scaled_curve B 0 c c'.
Proof.
  unfold norm_to_shift_after. destruct (Rlt_dec 0 B) as [HB|]; [|discriminate]. intros [= <-]. unfold extrapolate. cbn.
  destruct (em_Emin m), (em_Emax m); try discriminate. intros [= <-]. eexists. split; [reflexivity|]. split; [reflexivity|]. cbn [c_E c_v].
  rewrite rmap2_map. apply map_ext. intros E. unfold shift_after. cbn [em_after].
  rewrite <- model_value_times by assumption. f_equal. ring.
Qed.
(* After normalize, the width calculated from the normalised strength function and the
   scaled extrapolations is the experimental one; B is the ratio of the two widths, and its
   relative uncertainty is that of D0.  For every fit, grid, level density and spin sum. *)
Theorem gsf_normalize_Gg fitf p ss nld model alpha low high gsf r :
  gsf_normalize fitf p ss nld model alpha low high gsf = Some r ->
  exists cl ch, extrapolate true (gr_low r) = Some cl /\ extrapolate true (gr_high r) = Some ch /\
    Gg_standard p ss (rv_curve (gr_gsf r)) cl ch nld model = OVal (np_Gg p) /\
    gr_B r * gr_before r = np_Gg p /\ gr_Bu r = gr_B r * (np_D0u p / np_D0 p).
Proof.
  unfold gsf_normalize. destruct (rv_E _) as [|e0 t]; [discriminate|]. destruct (fit_models _ _ _ _) as [lo hi].
  destruct (extrapolate false lo) as [cl|] eqn:EL; [|discriminate]. destruct (extrapolate false hi) as [ch|] eqn:EH; [|discriminate].
  destruct (Gg_standard _ _ _ _ _ _ _) as [g| |] eqn:G; try discriminate. destruct (Req_EM_T g 0) as [|NZ]; [discriminate|].
  destruct (norm_to_shift_after _ lo) as [lo'|] eqn:NL; [|discriminate]. destruct (norm_to_shift_after _ hi) as [hi'|] eqn:NH; [|discriminate].
  intros [= <-]. cbn [gr_low gr_high gr_gsf gr_B gr_before gr_Bu].
  destruct (extrapolate_shift _ _ _ _ NL EL) as (cl' & XL & SL). destruct (extrapolate_shift _ _ _ _ NH EH) as (ch' & XH & SH).
  exists cl', ch'. split; [exact XL|]. split; [exact XH|].
  assert (HB : 0 < np_Gg p / g). { unfold norm_to_shift_after in NL. destruct (Rlt_dec 0 (np_Gg p / g)); [assumption|discriminate]. }
  split.
  - rewrite (Gg_times (np_Gg p / g) p ss _ _ _ _ _ _ nld model HB (transform_curve _ _ _) SL SH). rewrite G. rewrite oscale_val. f_equal. field. assumption.
  - split; [field; assumption|]. unfold Rdiv. ring.
Qed.
Print Assumptions gsf_normalize_Gg.

(* A positive strength function, level density and spin sum give a positive width, provided
   the extrapolations and the level density reach over the grid from Emin to Sn.  The first
   entry of the upper extrapolation (inf at 0 by default) is not used. *)
Theorem Gg_positive p ss gsf low high nld model e0 e1 et l0 l1 lt h0 h1 h2 ht v0 vs n0 n1 nt :
  0 < np_D0 p -> 0 <= np_Emin p < np_Sn p -> (2 <= np_steps p)%nat -> (forall E, 0 <= E -> 0 < ss E) ->
  (* the data *)
  positive_curve gsf -> ascending (c_E gsf) -> c_E gsf = e0 :: e1 :: et ->
  (* the lower extrapolation reaches from Emin to the data *)
  positive_curve low -> ascending (c_E low) -> c_E low = l0 :: l1 :: lt -> l0 <= np_Emin p -> e0 <= last (c_E low) l0 ->
  (* the upper extrapolation from the data to Sn, its second energy not above the data *)
  c_E high = h0 :: h1 :: h2 :: ht -> c_v high = v0 :: vs -> positive_curve (mkCurve (h1 :: h2 :: ht) vs) -> ascending (c_E high) ->
  h1 <= last (c_E gsf) e0 -> np_Sn p <= last (c_E high) h0 ->
  (* the level density from 0 on *)
  positive_curve nld -> ascending (c_E nld) -> c_E nld = n0 :: n1 :: nt -> n0 <= 0 -> (forall E, 0 <= E -> 0 < model E) ->
  exists g, Gg_standard p ss gsf low high nld model = OVal g /\ 0 < g.
Proof.
  intros HD HE HS HSS PG AG EG PL AL EL L0 L1 EH VH PH AH H1 H2 PN AN EN N0 HM.
  assert (PI : forall E, In E (E_grid p) -> exists v, integrand p ss gsf low high nld model E = OVal (E ^ 3 * v) /\ 0 < v).
  { intros E HI. apply in_rlinspace in HI; [|assumption|lra].
    assert (X1 : exists v, fgsf gsf low high E = OVal v /\ 0 < v).
    { unfold fgsf. rewrite EG. destruct (Rlt_dec E e0).
      - apply (log_interp_pos low E l0 l1 lt PL AL EL); lra.
      - rewrite <- EG. destruct (Rle_dec E (last (c_E gsf) e0)).
        + apply (log_interp_pos gsf E e0 e1 et PG AG EG); lra.
        + rewrite EH, VH. destruct PH as [LH FH]. destruct vs as [|w1 [|w2 vs]]; try discriminate LH.
          rewrite EH in AH. cbn [ascending] in AH. destruct AH as [A1 A2].
          rewrite log_interp_tail by (try assumption; lra).
          apply (log_interp_pos (mkCurve (h1 :: h2 :: ht) (w1 :: w2 :: vs)) E h1 h2 ht); [split; assumption|exact A2|reflexivity|lra|].
          cbn [c_E]. rewrite EH in H2. change (last (h0 :: h1 :: h2 :: ht) h0) with (last (h1 :: h2 :: ht) h0) in H2. rewrite (last_indep _ h1 h0) by discriminate. lra. }
    assert (X2 : exists v, fnld nld model (np_Sn p - E) = OVal v /\ 0 < v).
    { unfold fnld. rewrite EN. rewrite <- EN. destruct (Rle_dec (np_Sn p - E) (last (c_E nld) n0)).
      - apply (log_interp_pos nld _ n0 n1 nt PN AN EN); lra.
      - eexists. split; [reflexivity|]. apply HM. lra. }
    destruct X1 as (a & A1 & A2). destruct X2 as (b & B1 & B2). unfold integrand. rewrite A1, B1. cbn [omap2].
    exists (a * b * ss (np_Sn p - E)). split; [f_equal; ring|]. repeat apply Rmult_lt_0_compat; try assumption. apply HSS. lra. }
  assert (PS : exists s, osum (map (integrand p ss gsf low high nld model) (E_grid p)) = OVal s /\ 0 < s).
  { destruct (osum_pos (map (integrand p ss gsf low high nld model) (E_grid p))) as (s & S1 & S2 & S3).
    - intros x Hx. apply in_map_iff in Hx. destruct Hx as (E & <- & HI). destruct (PI E HI) as (v & V1 & V2). exists (E ^ 3 * v). split; [exact V1|].
      apply in_rlinspace in HI; [|assumption|lra]. apply Rmult_le_pos; [apply pow_le; lra|lra].
    - exists s. split; [exact S1|].
      assert (HI : In (np_Sn p) (E_grid p)).
      { unfold E_grid. rewrite <- (last_rlinspace (np_Emin p) (np_Sn p) (np_steps p) 0 HS) at 1. pose proof (rlinspace_length (np_Emin p) (np_Sn p) (np_steps p)) as LL.
        destruct (rlinspace _ _ _) as [|x l]; [cbn in LL; lia|]. clear. revert x. induction l as [|y l IH]; intros x; [now left|]. right. apply IH. }
      destruct (PI _ HI) as (v & V1 & V2). assert (In (OVal (np_Sn p ^ 3 * v)) (map (integrand p ss gsf low high nld model) (E_grid p))) as IM by (apply in_map_iff; exists (np_Sn p); split; assumption).
      apply S3 in IM. assert (0 < np_Sn p ^ 3 * v) by (apply Rmult_lt_0_compat; [apply pow_lt; lra|assumption]). lra. }
  destruct PS as (s & S1 & S2). unfold Gg_standard. rewrite S1. destruct (Nat.leb_spec (np_steps p) 1); [lia|]. cbn [omap2].
  eexists. split; [reflexivity|]. assert (0 < INR (np_steps p - 1)) by (apply lt_0_INR; lia).
  repeat apply Rmult_lt_0_compat; try lra. now apply Rinv_0_lt_compat.
Qed.
Print Assumptions Gg_positive.

(* With data that start below Sn the integral needs the level density down to zero: if its
   first energy is above zero, the last point of the grid (Eg = Sn) is outside and the
   ValueError of normalizer_gsf.py:612 is raised. *)
Lemma osum_err l : In OErr l -> osum l = OErr.
Proof.
  induction l as [|x l IH]; intros []; [subst; reflexivity|]. cbn. change (fold_right (omap2 Rplus) (OVal 0) l) with (osum l). rewrite IH by assumption. now destruct x.
Qed.
Theorem Gg_needs_nld_at_zero p ss gsf low high nld model n0 nt : (2 <= np_steps p)%nat ->
  c_E nld = n0 :: nt -> ascending (c_E nld) -> length (c_v nld) = length (c_E nld) -> 0 < n0 ->
  Gg_standard p ss gsf low high nld model = OErr.
Proof.
  intros HS EN AN LN N0. unfold Gg_standard. rewrite osum_err; [destruct (np_steps p <=? 1)%nat; reflexivity|].
  apply in_map_iff. exists (np_Sn p). split.
  - unfold integrand, fnld. replace (np_Sn p - np_Sn p) with 0 by ring.
    assert (FE : match c_E nld with [] => OErr | e0 :: _ => if Rle_dec 0 (last (c_E nld) e0) then log_interp (c_E nld) (c_v nld) 0 else OVal (model 0) end = OErr).
    { rewrite EN in *. assert (LB : n0 <= last (n0 :: nt) n0).
      { clear -AN. revert n0 AN. induction nt as [|y l IH]; intros n0 AN; [cbn; lra|]. cbn [ascending] in AN. destruct AN as [A B].
        change (last (n0 :: y :: l) n0) with (last (y :: l) n0). rewrite (last_indep _ n0 y) by discriminate. specialize (IH y B). lra. }
      destruct (Rle_dec 0 _); [|lra]. unfold log_interp. destruct (c_v nld) as [|v vs]; [discriminate LN|]. cbn [map combine]. destruct (Rlt_dec 0 n0); [reflexivity|contradiction]. }
    rewrite FE. destruct (omap2 _ _ (fgsf _ _ _ _)); reflexivity.
  - unfold E_grid. rewrite <- (last_rlinspace (np_Emin p) (np_Sn p) (np_steps p) 0 HS) at 1. pose proof (rlinspace_length (np_Emin p) (np_Sn p) (np_steps p)) as LL.
    destruct (rlinspace _ _ _) as [|x l]; [cbn in LL; lia|]. clear. revert x. induction l as [|y l IH]; intros x; [now left|]. right. apply IH.
Qed.
Print Assumptions Gg_needs_nld_at_zero.

(* The upper limit Emax of the parameters does not enter: the grid always ends at Sn. *)
Theorem E_grid_Emax_refuted : exists p, (2 <= np_steps p)%nat /\ np_Emin p < Emax p /\ last (E_grid p) 0 <> Emax p.
Proof.
  exists (mkPars 1 0 1 8 0 0 (Some 5) 2). cbn [np_steps np_Emin]. unfold Emax, E_grid. cbn [np_Emax np_Emin np_Sn np_steps].
  split; [lia|]. split; [lra|]. rewrite last_rlinspace by lia. lra.
Qed.
Print Assumptions E_grid_Emax_refuted.

(* normalize succeeds: positive data on ascending energies, a low extrapolation from Emin (or
   below) to the first data point, a high one from below the last data point to Sn (or above),
   a positive level density from 0 on. *)
Definition dflt (d : R) (o : option R) : R := match o with None => d | Some x => x end.
Lemma positive_map high sc sh l : (forall E, In E l -> high = false \/ 0 < E) -> positive_curve (mkCurve l (map (model_value high sc sh) l)).
Proof.
  intros H. split; [cbn; now rewrite map_length|]. cbn [c_v]. apply List.Forall_forall. intros v Hv. apply in_map_iff in Hv. destruct Hv as (E & <- & HE).
  unfold model_value. destruct high.
  - destruct (H E HE) as [|P]; [discriminate|]. destruct (Req_EM_T E 0); [lra|]. eexists. split; [reflexivity|]. apply Rdiv_lt_0_compat; [apply exp_pos|]. now apply pow_lt.
  - eexists. split; [reflexivity|apply exp_pos].
Qed.
Lemma positive_transform a v : length (rv_values v) = length (rv_E v) -> List.Forall (fun y => 0 < y) (rv_values v) -> positive_curve (rv_curve (transform 1 a v)).
Proof.
  unfold positive_curve, rv_curve, transform. cbn [c_v c_E rv_values rv_E]. rewrite map_length. generalize (rv_values v) (rv_E v).
  induction l as [|y l IH]; intros [|e m] LN FP; try discriminate; [split; [reflexivity|constructor]|].
  inversion FP as [|? ? FY FP2]; subst. destruct (IH m (f_equal Nat.pred LN) FP2) as [L F]. split; [cbn; f_equal; exact L|]. cbn [rmap2 map]. constructor; [|exact F].
  eexists. split; [reflexivity|]. unfold value_bin. repeat apply Rmult_lt_0_compat; try lra. apply exp_pos.
Qed.
Theorem gsf_normalize_defined fitf p ss nld model alpha low high gsf e0 e1 et n0 n1 nt :
  0 < np_D0 p -> 0 < np_Gg p -> 0 <= np_Emin p < np_Sn p -> (2 <= np_steps p)%nat -> (forall E, 0 <= E -> 0 < ss E) ->
  length (rv_values gsf) = length (rv_E gsf) -> List.Forall (fun y => 0 < y) (rv_values gsf) -> ascending (rv_E gsf) -> rv_E gsf = e0 :: e1 :: et ->
  em_high low = false -> (2 <= em_steps low)%nat -> dflt 0 (em_Emin low) <= np_Emin p ->
  dflt 0 (em_Emin low) < dflt e0 (em_Emax low) -> e0 <= dflt e0 (em_Emax low) ->
  em_high high = true -> (3 <= em_steps high)%nat -> 0 <= dflt 0 (em_Emin high) < dflt 20 (em_Emax high) -> np_Sn p <= dflt 20 (em_Emax high) ->
  dflt 0 (em_Emin high) + (dflt 20 (em_Emax high) - dflt 0 (em_Emin high)) / INR (em_steps high - 1) <= last (rv_E gsf) e0 ->
  positive_curve nld -> ascending (c_E nld) -> c_E nld = n0 :: n1 :: nt -> n0 <= 0 -> (forall E, 0 <= E -> 0 < model E) ->
  exists r, gsf_normalize fitf p ss nld model alpha low high gsf = Some r.
Proof.
  intros HD HG HE HS HSS LG PG AG EG KL SL L0 LL L1 KH SH H0 H1 H2 PN AN EN N0 HM.
  assert (FM : exists s1 t1 s2 t2, fit_models fitf (transform 1 alpha gsf) (autorange e0 low) (autorange e0 high) =
     (mkEM false s1 t1 (em_after low) (Some (dflt 0 (em_Emin low))) (Some (dflt e0 (em_Emax low))) (em_steps low) (em_fit low),
      mkEM true s2 t2 (em_after high) (Some (dflt 0 (em_Emin high))) (Some (dflt 20 (em_Emax high))) (em_steps high) (em_fit high))).
  { unfold fit_models, autorange, set_fit. cbn [em_fit em_high em_scale em_shift em_after em_Emin em_Emax em_steps]. rewrite KL, KH.
    destruct (em_fit low); do 4 eexists; reflexivity. }
  destruct FM as (s1 & t1 & s2 & t2 & FM).
  assert (TE : rv_E (transform 1 alpha gsf) = e0 :: e1 :: et) by exact EG. unfold gsf_normalize. rewrite TE, FM. unfold extrapolate.
  cbn [em_Emin em_Emax em_steps em_high em_scale em_shift].
  set (la := dflt 0 (em_Emin low)) in *. set (lb := dflt e0 (em_Emax low)) in *. set (ha := dflt 0 (em_Emin high)) in *. set (hb := dflt 20 (em_Emax high)) in *.
  assert (GP : exists g, Gg_standard p ss (rv_curve (transform 1 alpha gsf))
      (mkCurve (rlinspace la lb (em_steps low)) (map (model_value false s1 t1) (rlinspace la lb (em_steps low))))
      (mkCurve (rlinspace ha hb (em_steps high)) (map (model_value true s2 t2) (rlinspace ha hb (em_steps high)))) nld model = OVal g /\ 0 < g).
  { pose proof (ascending_rlinspace ha hb (em_steps high) ltac:(lia) ltac:(lra)) as AH.
    pose proof (last_rlinspace ha hb (em_steps high)) as LH.
    assert (GE : forall E, In E (rlinspace ha hb (em_steps high)) -> ha <= E <= hb) by (intros E; apply in_rlinspace; [lia|lra]).
    destruct (em_steps high) as [|[|[|m]]] eqn:MH; try lia.
    pose proof (ascending_rlinspace la lb (em_steps low) SL ltac:(lra)) as AL.
    pose proof (last_rlinspace la lb (em_steps low)) as LLow.
    destruct (em_steps low) as [|[|k]] eqn:ML; try lia.
    set (f := fun i => ha + INR i * ((hb - ha) / INR (S (S (S m)) - 1))) in *.
    assert (XH : rlinspace ha hb (S (S (S m))) = f 0%nat :: f 1%nat :: f 2%nat :: map f (seq 3 m)) by reflexivity.
    set (h := fun i => la + INR i * ((lb - la) / INR (S (S k) - 1))) in *.
    assert (XL : rlinspace la lb (S (S k)) = h 0%nat :: h 1%nat :: map h (seq 2 k)) by reflexivity.
    assert (F1 : f 1%nat = ha + (hb - ha) / INR (S (S (S m)) - 1)) by (unfold f; change (INR 1) with 1; ring).
    assert (F0 : f 0%nat = ha) by (unfold f; change (INR 0) with 0; ring). assert (H00 : h 0%nat = la) by (unfold h; change (INR 0) with 0; ring).
    apply (Gg_positive p ss _ _ _ nld model e0 e1 et (h 0%nat) (h 1%nat) (map h (seq 2 k)) (f 0%nat) (f 1%nat) (f 2%nat) (map f (seq 3 m))
       (model_value true s2 t2 (f 0%nat)) (map (model_value true s2 t2) (f 1%nat :: f 2%nat :: map f (seq 3 m))) n0 n1 nt); try assumption.
    - now apply positive_transform.
    - apply positive_map. intros; now left.
    - rewrite H00. exact L0.
    - cbn [c_E]. rewrite LLow by lia. exact L1.
    - rewrite XH. reflexivity.
    - apply positive_map. intros E IE. right. rewrite XH in AH. cbn [ascending] in AH. destruct AH as [A1 A2].
      assert (forall x l, ascending (x :: l) -> forall y, In y (x :: l) -> x <= y) as AM.
      { clear. intros x l. revert x. induction l as [|z l IH]; intros x A y [<-|Hy]; try lra; [destruct Hy|]. cbn [ascending] in A. destruct A as [A1 A2]. specialize (IH z A2 y Hy). lra. }
      specialize (AM (f 1%nat) (f 2%nat :: map f (seq 3 m)) A2 E IE). lra.
    - rewrite F1. exact H2.
    - cbn [c_E]. rewrite LH by lia. exact H1. }
  destruct GP as (g & G1 & G2). rewrite G1. destruct (Req_EM_T g 0); [lra|]. assert (BP : 0 < np_Gg p / g) by now apply Rdiv_lt_0_compat.
  unfold norm_to_shift_after. destruct (Rlt_dec 0 (np_Gg p / g)); [|contradiction]. eexists. reflexivity.
Qed.
Print Assumptions gsf_normalize_defined.
(* two data points at 2 and 4 MeV, defaults for the extrapolations, Sn = 8 MeV *)
Example gsf_normalize_x : exists r cl ch,
  let p := mkPars 10 1 100 8 0 0 None 101 in let nld := mkCurve [0; 1; 2] [Some 1; Some 3; Some 9] in let model := fun E => exp E in
  gsf_normalize (fun _ _ => (1, -20)) p (fun _ => 1) nld model (/ 2) (mkEM false 1 25 None None None 1001 true) (mkEM true 1 25 None None None 1001 true)
    (mkRV [1; 2] [2; 4] None) = Some r /\ extrapolate true (gr_low r) = Some cl /\ extrapolate true (gr_high r) = Some ch /\
  Gg_standard p (fun _ => 1) (rv_curve (gr_gsf r)) cl ch nld model = OVal 100.
Proof.
  assert (1000 = INR (1001 - 1)) as I by (rewrite INR_IZR_INZ; reflexivity).
  assert (DEF : exists r, gsf_normalize (fun _ _ => (1, -20)) (mkPars 10 1 100 8 0 0 None 101) (fun _ => 1) (mkCurve [0; 1; 2] [Some 1; Some 3; Some 9]) (fun E => exp E) (/ 2)
     (mkEM false 1 25 None None None 1001 true) (mkEM true 1 25 None None None 1001 true) (mkRV [1; 2] [2; 4] None) = Some r).
  { apply (gsf_normalize_defined _ _ _ _ _ _ _ _ _ 2 4 [] 0 1 [2]); cbn [np_D0 np_Gg np_Emin np_Sn np_steps rv_values rv_E em_high em_steps em_Emin em_Emax dflt c_E ascending last]; try lra; try lia; try reflexivity.
    - intros. lra.
    - repeat constructor; lra.
    - rewrite <- I. lra.
    - split; [reflexivity|]. repeat constructor; eexists; (split; [reflexivity|lra]).
    - intros. apply exp_pos. }
  destruct DEF as [r DEF]. destruct (gsf_normalize_Gg _ _ _ _ _ _ _ _ _ _ DEF) as (cl & ch & A & B & C & _).
  exists r, cl, ch. cbn zeta. split; [exact DEF|]. split; [exact A|]. split; [exact B|]. exact C.
Qed.
