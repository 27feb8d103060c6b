(* C95. Numbers written to a text file and read again. *)
From Coq Require Import Reals ZArith List Lra Lia Psatz.
From Flocq Require Import Core Relative Plus_error.
From Verif Require Import TextNumModel.
Import ListNotations.
Local Open Scope R_scope.

Local Instance prec10 n : (0 <= n)%Z -> Prec_gt_0 (n + 1).
Proof. unfold Prec_gt_0. lia. Qed.
Local Instance prec53 : Prec_gt_0 53.
Proof. reflexivity. Qed.
Local Instance valid_double : Valid_exp fdouble.
Proof. unfold fdouble. apply FLT_exp_valid. reflexivity. Qed.

(* A number of a format is the nearest to everything within a quarter of its last place. *)
Section Snap.
Variables (b : radix) (p : Z) (fexp : Z -> Z).
Context {V : Valid_exp fexp} {M : Monotone_exp fexp}.
Hypothesis F : forall e, (e - p <= fexp e)%Z.
Lemma ulp_rel x : Rabs x * bpow b (- p) <= ulp b fexp x.
Proof.
  destruct (Req_dec x 0) as [->|N]. { rewrite Rabs_R0, Rmult_0_l. apply ulp_ge_0. }
  rewrite ulp_neq_0 by exact N. unfold cexp. pose proof (bpow_mag_gt b x) as G.
  apply Rle_trans with (bpow b (mag b x) * bpow b (- p)).
  - apply Rmult_le_compat_r; [apply bpow_ge_0|lra].
  - rewrite <- bpow_plus. apply bpow_le. pose proof (F (mag b x)). lia.
Qed.
Hypothesis p1 : (1 <= p)%Z.
Lemma half : bpow b (- p) <= 1 / 2.
Proof.
  apply Rle_trans with (bpow b (-1)); [apply bpow_le; lia|]. cbn. rewrite Zpower_pos_powerRZ || idtac. unfold Z.pow_pos, Pos.iter.
  rewrite Z.mul_1_r. pose proof (radix_gt_1 b) as R1. assert (2 <= IZR b) by (apply IZR_le; lia).
  replace (1 / 2) with (/ 2) by field. apply Rinv_le_contravar; lra.
Qed.
Lemma snap_pos u v : generic_format b fexp u -> 0 < u -> Rabs (v - u) < u * bpow b (- p) / 4 -> round b fexp ZnearestE v = u.
Proof.
  intros G P C. apply Rabs_def2 in C. pose proof half as Hf. pose proof (bpow_gt_0 b (- p)) as BP. apply Rle_antisym.
  - apply round_N_le_midp; [exact V|exact G|]. rewrite succ_eq_pos by lra. pose proof (ulp_rel u) as U. rewrite Rabs_pos_eq in U by lra. nra.
  - apply round_N_ge_midp; [exact V|exact G|].
    assert (W0 : 0 <= pred b fexp u) by (apply pred_ge_0; assumption).
    assert (GW : generic_format b fexp (pred b fexp u)) by (now apply generic_format_pred).
    assert (S : succ b fexp (pred b fexp u) = u) by (now apply succ_pred). rewrite succ_eq_pos in S by exact W0.
    pose proof (ulp_rel (pred b fexp u)) as U. rewrite Rabs_pos_eq in U by exact W0. set (w := pred b fexp u) in *.
    (* u - w >= w * B, so u - w >= u * B / 2 *)
    assert (K : u * bpow b (- p) / 2 <= u - w). { assert (u = w + (u - w)) by ring. set (B := bpow b (- p)) in *. assert (w * B <= u - w) by lra. nra. }
    nra.
Qed.
Lemma snap u v : generic_format b fexp u -> u <> 0 -> Rabs (v - u) < Rabs u * bpow b (- p) / 4 -> round b fexp ZnearestE v = u.
Proof.
  intros G N C. destruct (Rlt_le_dec 0 u) as [P|P].
  - rewrite (Rabs_pos_eq u) in C by lra. now apply snap_pos.
  - assert (PN : u < 0) by (destruct P; [assumption|contradiction]). assert (Q : round b fexp ZnearestE (- v) = - u).
    { apply snap_pos; [now apply generic_format_opp|lra|]. rewrite (Rabs_left u) in C by lra. replace (- v - - u) with (- (v - u)) by ring. now rewrite Rabs_Ropp. }
    rewrite round_NE_opp in Q. lra.
Qed.
End Snap.


Lemma fmt_error n x : (0 <= n)%Z -> Rabs (fmt_e n x - x) <= / 2 * bpow radix10 (- n) * Rabs x.
Proof.
  intros N. unfold fmt_e. pose proof (relative_error_N_FLX radix10 (n + 1) (prec10 n N) (fun t => negb (Z.even t)) x) as H.
  replace (- n)%Z with (- (n + 1) + 1)%Z by lia. exact H.
Qed.
Lemma shrink u : 0 < u -> u / (1 + u) <= u.
Proof. intros P. apply Rmult_le_reg_r with (1 + u); [lra|]. unfold Rdiv. rewrite Rmult_assoc, Rinv_l by lra. nra. Qed.
Lemma near_error x : Rabs (near x - x) <= / 2 * bpow radix2 (-52) * Rabs x + / 2 * bpow radix2 (-1074).
Proof.
  destruct (relative_error_N_FLT'_ex radix2 (-1074) 53 eq_refl (fun t => negb (Z.even t)) x) as (e & h & E & A & _ & Q).
  unfold near, fdouble. rewrite Q. replace (x * (1 + e) + h - x) with (x * e + h) by ring.
  eapply Rle_trans; [apply Rabs_triang|]. apply Rplus_le_compat; [|exact A]. rewrite Rabs_mult, Rmult_comm. apply Rmult_le_compat_r; [apply Rabs_pos|].
  eapply Rle_trans; [exact E|]. apply shrink. unfold u_ro. apply Rmult_lt_0_compat; [lra|apply bpow_gt_0].
Qed.
Lemma near_normal x : bpow radix2 (-1022) <= Rabs x -> Rabs (near x - x) <= / 2 * bpow radix2 (-52) * Rabs x.
Proof. intros H. exact (relative_error_N_FLT radix2 (-1074) 53 eq_refl (fun t => negb (Z.even t)) x H). Qed.
Lemma near_double x : double x -> near x = x.
Proof. intros D. unfold near. apply round_generic; [apply valid_rnd_N|exact D]. Qed.
Lemma double_near x : double (near x).
Proof. apply generic_format_round; [apply valid_double|apply valid_rnd_N]. Qed.
Lemma near_0 : near 0 = 0.
Proof. apply round_0. apply valid_rnd_N. Qed.
Lemma fmt_0 n : fmt_e n 0 = 0.
Proof. apply round_0. apply valid_rnd_N. Qed.
Lemma near_snap u v : double u -> u <> 0 -> Rabs (v - u) < Rabs u * bpow radix2 (-53) / 4 -> near v = u.
Proof.
  intros D N C. unfold near. apply (snap radix2 53 fdouble); [|lia|exact D|exact N|exact C]. intros e. unfold fdouble, FLT_exp. lia.
Qed.
Lemma fmt_snap n u v : (0 <= n)%Z -> generic_format radix10 (FLX_exp (n + 1)) u -> u <> 0 -> Rabs (v - u) < Rabs u * bpow radix10 (- (n + 1)) / 4 -> fmt_e n v = u.
Proof.
  intros P D N C. unfold fmt_e. pose proof (prec10 n P) as PP. apply (snap radix10 (n + 1) (FLX_exp (n + 1))); [|lia|exact D|exact N|exact C]. intros e. unfold FLX_exp. lia.
Qed.
Lemma dig18 : bpow radix10 (-17) = / 100000000000000000.
Proof. reflexivity. Qed.
Lemma two53 : bpow radix2 (-53) = / 9007199254740992.
Proof. reflexivity. Qed.
Lemma two52 : bpow radix2 (-52) = / 4503599627370496.
Proof. reflexivity. Qed.

(* ------------------------------------------------------------------ txt *)
(* With 17 or more digits after the point every double is read back as it was. *)
Theorem digits_suffice n x : (17 <= n)%Z -> double x -> near (fmt_e n x) = x.
Proof.
  intros N D. destruct (Req_dec x 0) as [->|Z]; [now rewrite fmt_0, near_0|]. apply near_snap; [exact D|exact Z|].
  eapply Rle_lt_trans; [apply fmt_error; lia|]. assert (P : 0 < Rabs x) by (now apply Rabs_pos_lt).
  assert (B : bpow radix10 (- n) <= bpow radix10 (-17)) by (apply bpow_le; lia). rewrite dig18 in B. rewrite two53. nra.
Qed.
Print Assumptions digits_suffice.
(* So text files of np.savetxt keep every number. *)
Theorem txt_exact t : Forall (Forall double) t -> txt_again t = t.
Proof.
  intros A. unfold txt_again. induction A as [|r t R _ IH]; [reflexivity|]. cbn [map]. f_equal; [|exact IH].
  induction R as [|x r X _ IR]; [reflexivity|]. cbn [map]. f_equal; [|exact IR]. apply digits_suffice; [lia|exact X].
Qed.
Print Assumptions txt_exact.

(* ------------------------------------------------------------------ mama *)
(* Numbers of a mama file are kept to nine digits *)
Theorem mama_number_error x : Rabs x = 0 \/ bpow radix2 (-1021) <= Rabs x ->
  Rabs (near (mama_number x) - x) <= 6 / 1000000000 * Rabs x.
Proof.
  intros [Z|N].
  - assert (x = 0) as -> by (destruct (Req_dec x 0) as [E|E]; [exact E|]; apply Rabs_pos_lt in E; lra). unfold mama_number. rewrite fmt_0, near_0. replace (0 - 0) with 0 by ring. rewrite Rabs_R0. lra.
  - pose proof (fmt_error 8 x ltac:(lia)) as E1. change (bpow radix10 (-(8))) with (/ 100000000) in E1. fold (mama_number x) in E1. set (d := mama_number x) in *.
    assert (T : Rabs d <= Rabs (d - x) + Rabs x) by (replace d with ((d - x) + x) at 1 by ring; apply Rabs_triang).
    assert (T2 : Rabs x <= Rabs (d - x) + Rabs d) by (replace x with (- (d - x) + d) at 1 by ring; eapply Rle_trans; [apply Rabs_triang|]; rewrite Rabs_Ropp; lra).
    assert (L : bpow radix2 (-1022) <= Rabs d). { change (bpow radix2 (-1021)) with (bpow radix2 (1 + -1022)) in N. rewrite bpow_plus in N. change (bpow radix2 1) with 2 in N. pose proof (bpow_gt_0 radix2 (-1022)). nra. }
    pose proof (near_normal d L) as E2. rewrite two52 in E2.
    replace (near d - x) with ((near d - d) + (d - x)) by ring. eapply Rle_trans; [apply Rabs_triang|]. pose proof (Rabs_pos x). nra.
Qed.
Print Assumptions mama_number_error.
(* and not more *)
Lemma double_dyadic m e : (Z.abs m < 2 ^ 53)%Z -> (-1074 <= e)%Z -> double (IZR m * bpow radix2 e).
Proof. intros A B. apply generic_format_FLT. exists (Float radix2 m e); [reflexivity|exact A|exact B]. Qed.
Lemma decimal n m e : (Z.abs m < 10 ^ (n + 1))%Z -> (0 <= n)%Z -> generic_format radix10 (FLX_exp (n + 1)) (IZR m * bpow radix10 e).
Proof. intros A P. pose proof (prec10 n P). apply generic_format_FLX. exists (Float radix10 m e); [reflexivity|exact A]. Qed.
Theorem mama_exact_refuted : exists x, double x /\ near (mama_number x) <> x.
Proof.
  exists (IZR 1099511627777 * bpow radix2 (-40)). split; [apply double_dyadic; cbn; lia|].
  assert (E : IZR 1099511627777 * bpow radix2 (-40) = 1 + / 1099511627776) by (change (bpow radix2 (-40)) with (/ 1099511627776); field). rewrite E.
  assert (F : mama_number (1 + / 1099511627776) = 1).
  { apply fmt_snap; [lia| |lra|].
    - replace 1 with (IZR 1 * bpow radix10 0) by (cbn; ring). apply decimal; cbn; lia.
    - rewrite Rabs_R1. replace (1 + / 1099511627776 - 1) with (/ 1099511627776) by ring. rewrite Rabs_pos_eq by lra. change (bpow radix10 (- (8 + 1))) with (/ 1000000000). lra. }
  rewrite F, near_double; [lra|]. replace 1 with (IZR 1 * bpow radix2 0) by (cbn; ring). apply double_dyadic; cbn; lia.
Qed.
Print Assumptions mama_exact_refuted.
(* A file that has been read is written again as the same file: saving and loading a second
   time changes nothing more. *)
Theorem mama_stable x : Rabs x = 0 \/ bpow radix2 (-1021) <= Rabs x -> mama_number (near (mama_number x)) = mama_number x.
Proof.
  intros [Z|N].
  - assert (x = 0) as -> by (destruct (Req_dec x 0) as [E|E]; [exact E|]; apply Rabs_pos_lt in E; lra). unfold mama_number. now rewrite !fmt_0, near_0, fmt_0.
  - pose proof (fmt_error 8 x ltac:(lia)) as E1. change (bpow radix10 (-(8))) with (/ 100000000) in E1. fold (mama_number x) in E1. set (d := mama_number x) in *.
    assert (T2 : Rabs x <= Rabs (d - x) + Rabs d) by (replace x with (- (d - x) + d) at 1 by ring; eapply Rle_trans; [apply Rabs_triang|]; rewrite Rabs_Ropp; lra).
    pose proof (bpow_gt_0 radix2 (-1022)) as BP.
    assert (L : bpow radix2 (-1022) <= Rabs d). { change (bpow radix2 (-1021)) with (bpow radix2 (1 + -1022)) in N. rewrite bpow_plus in N. change (bpow radix2 1) with 2 in N. nra. }
    pose proof (near_normal d L) as E2. rewrite two52 in E2. apply fmt_snap; [lia| | |].
    + apply generic_format_round; [apply FLX_exp_valid; reflexivity|apply valid_rnd_N].
    + intros Q. rewrite Q, Rabs_R0 in L. lra.
    + change (bpow radix10 (- (8 + 1))) with (/ 1000000000). lra.
Qed.
Print Assumptions mama_stable.

(* ------------------------------------------------------------------ the axis of a mama file *)
(* not so small that doubles lose digits *)
Definition ordinary (x : R) : Prop := bpow radix2 (-1000) <= Rabs x.
Lemma near_sum x y : double x -> double y -> Rabs (near (x + y) - (x + y)) <= / 2 * bpow radix2 (-52) * Rabs (x + y).
Proof.
  intros X Y. destruct (Rle_lt_dec (Rabs (x + y)) (bpow radix2 (53 + -1074))) as [L|L].
  - rewrite near_double. { replace (x + y - (x + y)) with 0 by ring. rewrite Rabs_R0. pose proof (bpow_gt_0 radix2 (-52)). pose proof (Rabs_pos (x + y)). nra. }
    apply FLT_format_plus_small; [reflexivity|exact X|exact Y|exact L].
  - apply near_normal. left. eapply Rlt_trans; [|exact L]. apply bpow_lt. lia.
Qed.
Lemma pow_split a b : bpow radix2 (a + b) = bpow radix2 a * bpow radix2 b.
Proof. apply bpow_plus. Qed.
Lemma coefficient_error x : x = 0 \/ bpow radix2 (-1010) <= Rabs x -> Rabs (near (mama_coefficient x) - x) <= 501 / 1000000000 * Rabs x.
Proof.
  intros [->|N].
  - unfold mama_coefficient. rewrite fmt_0, near_0. replace (0 - 0) with 0 by ring. rewrite Rabs_R0. lra.
  - pose proof (fmt_error 6 x ltac:(lia)) as E1. change (bpow radix10 (-(6))) with (/ 1000000) in E1. fold (mama_coefficient x) in E1. set (d := mama_coefficient x) in *.
    assert (T : Rabs d <= Rabs (d - x) + Rabs x) by (replace d with ((d - x) + x) at 1 by ring; apply Rabs_triang).
    assert (T2 : Rabs x <= Rabs (d - x) + Rabs d) by (replace x with (- (d - x) + d) at 1 by ring; eapply Rle_trans; [apply Rabs_triang|]; rewrite Rabs_Ropp; lra).
    assert (L : bpow radix2 (-1022) <= Rabs d). { replace (-1010)%Z with (12 + -1022)%Z in N by lia. rewrite pow_split in N. change (bpow radix2 12) with 4096 in N. pose proof (bpow_gt_0 radix2 (-1022)). nra. }
    pose proof (near_normal d L) as E2. rewrite two52 in E2.
    replace (near d - x) with ((near d - d) + (d - x)) by ring. eapply Rle_trans; [apply Rabs_triang|]. pose proof (Rabs_pos x). nra.
Qed.
Lemma rel_up e x y : Rabs (y - x) <= e * Rabs x -> Rabs y <= (1 + e) * Rabs x.
Proof. intros H. replace y with ((y - x) + x) by ring. eapply Rle_trans; [apply Rabs_triang|]. lra. Qed.
Lemma rel_down e x y : Rabs (y - x) <= e * Rabs x -> (1 - e) * Rabs x <= Rabs y.
Proof. intros H. assert (Rabs x <= Rabs (y - x) + Rabs y). { replace x with (- (y - x) + y) at 1 by ring. eapply Rle_trans; [apply Rabs_triang|]. rewrite Rabs_Ropp. lra. } lra. Qed.

(* The axis read from a mama file: each bin is off by at most 5.4e-7 of |E0| + i |E1 - E0|. *)
Theorem mama_axis_error E0 E1 i : double E0 -> double E1 -> E0 = 0 \/ ordinary E0 -> ordinary (E1 - E0) ->
  Rabs (mama_axis E0 E1 i - (E0 + INR i * (E1 - E0))) <= 54 / 100000000 * (Rabs E0 + INR i * Rabs (E1 - E0)).
Proof.
  intros D0 D1 O0 OD. unfold ordinary in *. unfold mama_axis. set (D := E1 - E0) in *. pose proof two52 as U.
  assert (HN : forall k, bpow radix2 (-1000) <= k -> bpow radix2 (-1010) <= k / 2).
  { intros k K. replace (-1000)%Z with (10 + -1010)%Z in K by lia. rewrite pow_split in K. change (bpow radix2 10) with 1024 in K. pose proof (bpow_gt_0 radix2 (-1010)). nra. }
  assert (A0 : Rabs (near (mama_coefficient E0) - E0) <= 501 / 1000000000 * Rabs E0).
  { apply coefficient_error. destruct O0 as [O0|O0]; [now left|right]. apply HN in O0. pose proof (Rabs_pos E0). lra. }
  assert (DE : Rabs (near D - D) <= / 2 * bpow radix2 (-52) * Rabs D).
  { unfold D. replace (E1 - E0) with (E1 + - E0) by ring. apply near_sum; [exact D1|]. now apply generic_format_opp. }
  rewrite U in DE. assert (DU := rel_up _ _ _ DE). assert (DL := rel_down _ _ _ DE). set (d := near D) in *. pose proof (Rabs_pos D) as DP.
  assert (A1 : Rabs (near (mama_coefficient d) - d) <= 501 / 1000000000 * Rabs d). { apply coefficient_error. right. apply HN in OD. lra. }
  set (a0 := near (mama_coefficient E0)) in *. set (a1 := near (mama_coefficient d)) in *.
  assert (AD : Rabs (a1 - D) <= 502 / 1000000000 * Rabs D). { replace (a1 - D) with ((a1 - d) + (d - D)) by ring. eapply Rle_trans; [apply Rabs_triang|]. lra. }
  pose proof (pos_INR i) as IP. assert (AIL := rel_down _ _ _ AD).
  assert (P : Rabs (near (a1 * INR i) - INR i * D) <= 503 / 1000000000 * (INR i * Rabs D)).
  { assert (Q : Rabs (near (a1 * INR i) - a1 * INR i) <= / 2 * bpow radix2 (-52) * Rabs (a1 * INR i)).
    { destruct i as [|i]. { cbn [INR]. rewrite Rmult_0_r, near_0. replace (0 - 0) with 0 by ring. rewrite Rabs_R0. lra. }
      apply near_normal. rewrite Rabs_mult, (Rabs_pos_eq (INR (S i))) by exact IP. assert (1 <= INR (S i)) by (change 1 with (INR 1); apply le_INR; lia).
      apply HN in OD. replace (-1010)%Z with (12 + -1022)%Z in OD by lia. rewrite pow_split in OD. change (bpow radix2 12) with 4096 in OD. pose proof (bpow_gt_0 radix2 (-1022)). assert (bpow radix2 (-1022) <= Rabs a1) by lra. nra. }
    rewrite U in Q. replace (near (a1 * INR i) - INR i * D) with ((near (a1 * INR i) - a1 * INR i) + (a1 - D) * INR i) by ring. eapply Rle_trans; [apply Rabs_triang|].
    rewrite Rabs_mult, (Rabs_pos_eq (INR i)) in Q by exact IP. rewrite (Rabs_mult (a1 - D)), (Rabs_pos_eq (INR i)) by exact IP. pose proof (rel_up _ _ _ AD) as AU.
    pose proof (Rmult_le_compat_r (INR i) _ _ IP AU) as M1. pose proof (Rmult_le_compat_r (INR i) _ _ IP AD) as M2. assert (0 <= INR i * Rabs D) by nra. lra. }
  set (p := near (a1 * INR i)) in *. set (T := Rabs E0 + INR i * Rabs D).
  assert (S : Rabs (near (a0 + p) - (a0 + p)) <= / 2 * bpow radix2 (-52) * Rabs (a0 + p)) by (apply near_sum; apply double_near).
  rewrite U in S. rewrite (near_double (near (a0 + p) + 0)) by (rewrite Rplus_0_r; apply double_near). rewrite Rplus_0_r.
  assert (B : Rabs (a0 + p - (E0 + INR i * D)) <= 503 / 1000000000 * T). { replace (a0 + p - (E0 + INR i * D)) with ((a0 - E0) + (p - INR i * D)) by ring. eapply Rle_trans; [apply Rabs_triang|]. unfold T. pose proof (Rabs_pos E0). nra. }
  assert (M : Rabs (E0 + INR i * D) <= T). { unfold T. eapply Rle_trans; [apply Rabs_triang|]. rewrite Rabs_mult, (Rabs_pos_eq (INR i)) by exact IP. lra. }
  assert (N : Rabs (a0 + p) <= Rabs (a0 + p - (E0 + INR i * D)) + Rabs (E0 + INR i * D)) by (replace (a0 + p) with ((a0 + p - (E0 + INR i * D)) + (E0 + INR i * D)) at 1 by ring; apply Rabs_triang).
  assert (TP : 0 <= T). { unfold T. pose proof (Rabs_pos E0). nra. }
  replace (near (a0 + p) - (E0 + INR i * D)) with ((near (a0 + p) - (a0 + p)) + (a0 + p - (E0 + INR i * D))) by ring. eapply Rle_trans; [apply Rabs_triang|]. lra.
Qed.
Print Assumptions mama_axis_error.

(* A linear axis that starts at or above zero still has equal binning afterwards, both ways
   round; x is the energy of bin i, up to 1e-6. *)
Theorem mama_binning_kept E0 E1 i x : double E0 -> double E1 -> E0 = 0 \/ ordinary E0 -> ordinary (E1 - E0) ->
  0 <= E0 < E1 -> Rabs (x - (E0 + INR i * (E1 - E0))) <= 1 / 1000000 * (E0 + INR i * (E1 - E0)) ->
  close x (mama_axis E0 E1 i) /\ close (mama_axis E0 E1 i) x.
Proof.
  intros D0 D1 O0 OD L X. pose proof (mama_axis_error E0 E1 i D0 D1 O0 OD) as A. pose proof (pos_INR i) as IP.
  rewrite (Rabs_pos_eq E0), (Rabs_pos_eq (E1 - E0)) in A by lra. set (T := E0 + INR i * (E1 - E0)) in *. assert (TP : 0 <= T) by (unfold T; nra). set (m := mama_axis E0 E1 i) in *.
  apply Rabs_le_inv in A. apply Rabs_le_inv in X. unfold close. split.
  - pose proof (Rle_abs m). assert (Rabs (x - m) <= 2 / 1000000 * T) by (apply Rabs_le; lra). lra.
  - pose proof (Rle_abs x). assert (Rabs (m - x) <= 2 / 1000000 * T) by (apply Rabs_le; lra). lra.
Qed.
Print Assumptions mama_binning_kept.

(* If it starts below zero it may not: bin 1000 of the axis -1000.0000153, -999.0000153, ... *)
Theorem mama_binning_refuted : exists E0 E1 i x, double E0 /\ double E1 /\ double x /\ ordinary E0 /\ ordinary (E1 - E0) /\ E0 < E1 /\
  x = E0 + INR i * (E1 - E0) /\ ~ close x (mama_axis E0 E1 i).
Proof.
  set (h := bpow radix2 (-16)). assert (HE : h = / 65536) by reflexivity.
  exists (IZR (-65536001) * h), (IZR (-65470465) * h), 1000%nat, (IZR (-1) * h).
  assert (I1 : INR 1000 = 1000) by (rewrite INR_IZR_INZ; reflexivity).
  assert (E0 : IZR (-65536001) * h = -1000 - / 65536) by (rewrite HE; field). assert (E1 : IZR (-65470465) * h = -999 - / 65536) by (rewrite HE; field).
  assert (OO : bpow radix2 (-1000) <= 1). { change 1 with (bpow radix2 0). apply bpow_le. lia. }
  assert (D : forall z, (Z.abs z < 2 ^ 53)%Z -> double (IZR z)). { intros z Hz. replace (IZR z) with (IZR z * bpow radix2 0) by (cbn; ring). apply double_dyadic; [exact Hz|lia]. }
  assert (F0 : mama_coefficient (IZR (-65536001) * h) = -1000).
  { apply fmt_snap; [lia| |lra|].
    - replace (-1000) with (IZR (-1) * bpow radix10 3) by (cbn; ring). apply decimal; cbn; lia.
    - rewrite E0. replace (-1000 - / 65536 - -1000) with (- / 65536) by ring. rewrite Rabs_Ropp, Rabs_pos_eq by lra. rewrite Rabs_left by lra. change (bpow radix10 (- (6 + 1))) with (/ 10000000). lra. }
  assert (ED : IZR (-65470465) * h - IZR (-65536001) * h = 1) by (rewrite E0, E1; ring).
  assert (F1 : mama_coefficient 1 = 1).
  { unfold mama_coefficient, fmt_e. apply round_generic; [apply valid_rnd_N|]. change 1 with (IZR 1). replace (IZR 1) with (IZR 1 * bpow radix10 0) by (cbn; ring). apply decimal; cbn; lia. }
  split; [apply double_dyadic; cbn; lia|]. split; [apply double_dyadic; cbn; lia|]. split; [apply double_dyadic; cbn; lia|].
  split; [unfold ordinary; rewrite E0, Rabs_left by lra; lra|]. split; [unfold ordinary; rewrite ED, Rabs_R1; exact OO|]. split; [lra|]. split; [rewrite ED, E0, I1, HE; lra|].
  unfold mama_axis. rewrite ED, F0, I1. rewrite (near_double 1) by (apply D; cbn; lia). rewrite F1, (near_double 1) by (apply D; cbn; lia). rewrite Rmult_1_l.
  rewrite (near_double 1000), (near_double (-1000)) by (apply D; cbn; lia). replace (-1000 + 1000) with 0 by ring. rewrite near_0, Rplus_0_r, near_0. unfold close. rewrite HE.
  replace (IZR (-1) * / 65536 - 0) with (- / 65536) by lra. rewrite Rabs_Ropp, Rabs_R0, Rabs_pos_eq by lra. lra.
Qed.
Print Assumptions mama_binning_refuted.

(* a text file and a mama axis of ordinary numbers *)
Example txt_exact_ex : txt_again [[IZR 3 * bpow radix2 (-2); IZR 12345]] = [[IZR 3 * bpow radix2 (-2); IZR 12345]].
Proof.
  apply txt_exact. repeat constructor; [apply double_dyadic; cbn; lia|]. change (double (IZR 12345)). replace (IZR 12345) with (IZR 12345 * bpow radix2 0) by (cbn; ring). apply double_dyadic; cbn; lia.
Qed.
Example mama_binning_ex : close 200 (mama_axis 0 100 2) /\ close (mama_axis 0 100 2) 200.
Proof.
  assert (D : forall z, (Z.abs z < 2 ^ 53)%Z -> double (IZR z)). { intros z Hz. replace (IZR z) with (IZR z * bpow radix2 0) by (cbn; ring). apply double_dyadic; [exact Hz|lia]. }
  apply mama_binning_kept; [apply D; cbn; lia|apply D; cbn; lia|now left| |lra|].
  - unfold ordinary. rewrite Rabs_pos_eq by lra. assert (bpow radix2 (-1000) <= 1) by (change 1 with (bpow radix2 0); apply bpow_le; lia). lra.
  - cbn [INR]. replace (200 - (0 + (1 + 1) * (100 - 0))) with 0 by ring. rewrite Rabs_R0. lra.
Qed.

(* The counts of a whole mama file: each one to 6e-9 of itself, and a file written from what was
   read has the same digits. *)
Definition tame (x : R) : Prop := Rabs x = 0 \/ bpow radix2 (-1021) <= Rabs x.
Theorem mama_counts_error t : Forall (Forall tame) t ->
  Forall2 (Forall2 (fun x y => Rabs (y - x) <= 6 / 1000000000 * Rabs x)) t (mama_counts t).
Proof.
  intros A. unfold mama_counts. induction A as [|r t R _ IH]; constructor; [|exact IH].
  induction R as [|x r X _ IR]; constructor; [|exact IR]. now apply mama_number_error.
Qed.
Theorem mama_counts_stable t : Forall (Forall tame) t -> mama_counts (mama_counts t) = mama_counts t.
Proof.
  intros A. unfold mama_counts. induction A as [|r t R _ IH]; [reflexivity|]. cbn [map]. f_equal; [|exact IH].
  induction R as [|x r X _ IR]; [reflexivity|]. cbn [map]. f_equal; [|exact IR]. now rewrite mama_stable.
Qed.
Print Assumptions mama_counts_error.
Print Assumptions mama_counts_stable.
Example tame_ex : Forall (Forall tame) [[0; 7]; [-3; 1]].
Proof.
  assert (O : bpow radix2 (-1021) <= 1) by (change 1 with (bpow radix2 0); apply bpow_le; lia).
  assert (T : forall x, 1 <= Rabs x -> tame x) by (intros x X; right; lra).
  assert (tame 0) by (left; apply Rabs_R0). assert (tame 7) by (apply T; rewrite Rabs_pos_eq; lra). assert (tame (-3)) by (apply T; rewrite Rabs_left; lra). assert (tame 1) by (apply T; rewrite Rabs_R1; lra).
  apply Forall_cons; [now apply Forall_cons; [|apply Forall_cons]|]. apply Forall_cons; [now apply Forall_cons; [|apply Forall_cons]|apply Forall_nil].
Qed.
