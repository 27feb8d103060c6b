(* The double-precision rebinning (FloatRebinModel) against the exact one (RebinModel). *)
From Coq Require Import Reals ZArith List Lra Lia QArith Qcanon Qreals.
From Flocq Require Import Core.
From Verif Require Import Num PyBase RebinModel RebinSpec RebinProps TextNumModel TextNumProps FloatRebinModel FloatRebinProps.
From Verif Require ComptonProps.
Import ListNotations.
Local Open Scope R_scope.
Notation qr := ComptonProps.qr.

Lemma qr_le x y : (x <= y)%Qc -> qr x <= qr y.
Proof. intros L. apply Qle_Rle. exact L. Qed.
Lemma qr_qz n : qr (qz n) = IZR n.
Proof. unfold qr. rewrite (Qeq_eqR _ (inject_Z n)) by apply Qred_correct. unfold Q2R, inject_Z. cbn [Qnum Qden]. Lra.lra. Qed.
Lemma qr_sumn n f : qr (sumn n f) = rsum (fun i => qr (f i)) (seq 0 n).
Proof. induction n as [|n IH]; [apply ComptonProps.qr_0|]. rewrite seq_S, rsum_app. cbn [sumn rsum]. rewrite ComptonProps.qr_add, IH. cbn. ring. Qed.
Lemma qr_clamp lo hi x : (lo <= hi)%Qc -> qr (clamp lo hi x) = clip (qr lo) (qr hi) (qr x).
Proof.
  intros L. apply qr_le in L. unfold clamp, clip. destruct (qltb_spec x lo) as [A|A].
  - apply ComptonProps.qr_lt in A. rewrite (Rmin_right (qr hi)) by Lra.lra. rewrite Rmax_left; Lra.lra.
  - apply qr_le in A. destruct (qltb_spec hi x) as [B|B].
    + apply ComptonProps.qr_lt in B. rewrite Rmin_left by Lra.lra. rewrite Rmax_right; Lra.lra.
    + apply qr_le in B. rewrite Rmin_right by Lra.lra. rewrite Rmax_right; Lra.lra.
Qed.
Lemma common_sym a b c d : common a b c d = common c d a b.
Proof. unfold common. now rewrite (Rmin_comm d b), (Rmax_comm c a). Qed.
Lemma qr_width l : qr (width l) = qr (nth 1 l 0%Qc) - qr (nth 0 l 0%Qc).
Proof. apply ComptonProps.qr_sub. Qed.
Lemma two_nz : qz 2 <> 0%Qc.
Proof. discriminate. Qed.
Lemma qr_lo l i : equidistant l -> (i < length l)%nat -> qr (bin_lo l i) = lo_edge (qr (nth 0 l 0%Qc)) (qr (width l)) (Z.of_nat i).
Proof.
  intros (_ & _ & E) I. unfold bin_lo, lo_edge. rewrite ComptonProps.qr_sub, ComptonProps.qr_div, qr_qz, (E i I), ComptonProps.qr_add, ComptonProps.qr_mul by apply two_nz. unfold qnat. rewrite qr_qz. Lra.lra.
Qed.
Lemma qr_hi l i : equidistant l -> (i < length l)%nat -> qr (bin_hi l i) = lo_edge (qr (nth 0 l 0%Qc)) (qr (width l)) (Z.of_nat i + 1).
Proof.
  intros (_ & _ & E) I. unfold bin_hi, lo_edge. rewrite ComptonProps.qr_add, ComptonProps.qr_div, qr_qz, (E i I), ComptonProps.qr_add, ComptonProps.qr_mul by apply two_nz. unfold qnat. rewrite qr_qz, plus_IZR. Lra.lra.
Qed.
Lemma width_pos l : equidistant l -> 0 < qr (width l).
Proof. intros (_ & W & _). apply ComptonProps.qr_lt in W. now rewrite ComptonProps.qr_0 in W. Qed.
Lemma nth_qr l j : nth j (map qr l) 0 = qr (nth j l 0%Qc).
Proof. rewrite <- ComptonProps.qr_0. apply map_nth. Qed.
Lemma spec_is_exact counts mi mo i : equidistant mi -> equidistant mo -> (i < length mo)%nat ->
  qr (rebin_spec counts mi mo i) = exact_bin (map qr counts) (length mi) (qr (nth 0 mi 0%Qc)) (qr (width mi)) (qr (nth 0 mo 0%Qc)) (qr (width mo)) (Z.of_nat i).
Proof.
  intros Ei Eo I. unfold rebin_spec, exact_bin. rewrite qr_sumn. apply rsum_ext. intros j J. apply in_seq in J. pose proof (width_pos _ Ei) as WI. pose proof (width_pos _ Eo) as WO.
  rewrite ComptonProps.qr_div, ComptonProps.qr_mul. 2:{ intros Z. rewrite Z, ComptonProps.qr_0 in WI. Lra.lra. }
  rewrite nth_qr. unfold vget, share. unfold Rdiv. rewrite Rmult_assoc. f_equal. f_equal.
  assert (LH : (bin_lo mo i <= bin_hi mo i)%Qc). { destruct Eo as (_ & W & _). assert (0 < width mo / qz 2)%Qc by (apply (Qcmult_lt_compat_r 0 (width mo) (/ qz 2)) in W; [|reflexivity]; rewrite Qcmult_0_l in W; exact W). unfold bin_lo, bin_hi. qlra. }
  unfold part_in. rewrite ComptonProps.qr_sub, !qr_clamp by exact LH. rewrite common_sym. rewrite !qr_lo, !qr_hi by (assumption || lia).
  symmetry. apply common_clip; unfold lo_edge; rewrite !plus_IZR; Lra.lra.
Qed.

(* The same axes and counts, rebinned by the exact model and in double precision. *)
Theorem float_rebin_vs_exact counts mi mo M : equidistant mi -> equidistant mo -> length counts = length mi ->
  let m0 := qr (nth 0 mi 0%Qc) in let m1 := qr (nth 1 mi 0%Qc) in let o0 := qr (nth 0 mo 0%Qc) in let o1 := qr (nth 1 mo 0%Qc) in
  axis_ok m0 m1 (length mi) M -> axis_ok o0 o1 (length mo) M -> M <= 536870912 * (m1 - m0) ->
  exists out, rebin_1D counts mi mo = Ok out /\ length out = length mo /\
    forall i, (i < length mo)%nat ->
      Rabs (nth i (f_rebin (map qr counts) (length mi) (length mo) m0 m1 o0 o1) 0 - qr (nth i out 0%Qc))
      <= 20 * U * (M / (m1 - m0)) * rsum (fun c => Rabs (qr c)) counts + 2 * INR (length mi) * tiny.
Proof.
  intros Ei Eo LC m0 m1 o0 o1 OKi OKo RATIO. destruct (rebin_is_full_overlap_sum counts mi mo Ei Eo LC) as (out & R1 & L & SP).
  exists out. split; [exact R1|]. split; [exact L|]. intros i I. specialize (SP i I). unfold vget in SP. rewrite SP, (spec_is_exact counts mi mo i Ei Eo I), !qr_width. fold m0 m1 o0 o1.
  assert (T : total_abs (map qr counts) (length mi) = rsum (fun c => Rabs (qr c)) counts).
  { unfold total_abs. rewrite <- LC. clear. induction counts as [|c l IH]; [reflexivity|]. cbn [length seq rsum map nth]. f_equal. rewrite <- seq_shift. rewrite <- IH. generalize (seq 0 (length l)). induction l0 as [|k t IT]; [reflexivity|]. cbn [map rsum nth]. now rewrite IT. }
  rewrite <- T. now apply float_rebin_error.
Qed.
Print Assumptions float_rebin_vs_exact.

(* ---------------------------------------------------------------- a case: 100 keV bins to 150 keV bins *)
Definition ex_in : list Qc := map qz [50; 150; 250]%Z.
Definition ex_out : list Qc := map qz [75; 225]%Z.
Lemma double_IZR n : (Z.abs n <= 9007199254740992)%Z -> double (IZR n).
Proof.
  intros L. unfold double. rewrite <- (Rmult_1_r (IZR n)). destruct (Z.eq_dec (Z.abs n) 9007199254740992) as [E|E].
  - assert (C : n = 9007199254740992%Z \/ n = (-9007199254740992)%Z) by lia. assert (B : generic_format radix2 fdouble (bpow radix2 53)) by (apply generic_format_bpow; cbv; discriminate).
    destruct C as [-> | ->]; rewrite Rmult_1_r; [exact B|]. change (-9007199254740992)%Z with (- (9007199254740992))%Z. rewrite opp_IZR. now apply generic_format_opp.
  - change 1 with (bpow radix2 0). change (IZR n * bpow radix2 0) with (F2R (Float radix2 n 0)). apply generic_format_FLT. apply (FLT_spec radix2 (-1074) 53 _ (Float radix2 n 0)); cbn [Fnum Fexp]; [reflexivity|change (radix_val radix2 ^ 53)%Z with 9007199254740992%Z; lia|lia].
Qed.
Lemma small60 : bpow radix2 (-60) <= 1.
Proof. change 1 with (bpow radix2 0). apply bpow_le. lia. Qed.
Example float_rebin_case :
  equidistant ex_in /\ equidistant ex_out /\ axis_ok (qr (nth 0 ex_in 0%Qc)) (qr (nth 1 ex_in 0%Qc)) (length ex_in) 600 /\
  axis_ok (qr (nth 0 ex_out 0%Qc)) (qr (nth 1 ex_out 0%Qc)) (length ex_out) 600 /\
  lo_edge 75 150 0 <= lo_edge 50 100 0 /\ lo_edge 50 100 3 <= lo_edge 75 150 2.
Proof.
  split; [|split; [|split; [|split; [|split]]]].
  - split; [cbn; lia|]. split; [reflexivity|]. intros [|[|[|i]]] I; try reflexivity. cbn in I. lia.
  - split; [cbn; lia|]. split; [reflexivity|]. intros [|[|i]] I; try reflexivity. cbn in I. lia.
  - unfold axis_ok. cbn [nth ex_in map length]. rewrite !qr_qz. pose proof small60. repeat split; try (apply double_IZR; cbn; lia); try (cbn; lia); try Lra.lra. rewrite Rabs_pos_eq by Lra.lra. cbn. Lra.lra.
  - unfold axis_ok. cbn [nth ex_out map length]. rewrite !qr_qz. pose proof small60. repeat split; try (apply double_IZR; cbn; lia); try (cbn; lia); try Lra.lra. rewrite Rabs_pos_eq by Lra.lra. cbn. Lra.lra.
  - unfold lo_edge. Lra.lra.
  - unfold lo_edge. Lra.lra.
Qed.
