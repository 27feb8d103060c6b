(* Rebinning by a factor (Vector.rebin / Matrix.rebin with factor=...). *)
From Verif Require Import PyBase RebinModel RebinSpec RebinProofs MatrixModel.

Lemma sumn_lt n f g k :
  (forall i, (i < n)%nat -> f i <= g i) -> (k < n)%nat -> f k < g k -> sumn n f < sumn n g.
Proof.
  induction n as [|n IH]; intros H Hk Hlt; [lia|]. cbn.
  destruct (Nat.eq_dec k n) as [->|Hne].
  - assert (sumn n f <= sumn n g) by (apply sumn_le; intros; apply H; lia). qlra.
  - assert (sumn n f < sumn n g) by (apply IH; [intros; apply H; lia|lia|assumption]).
    assert (f n <= g n) by (apply H; lia). qlra.
Qed.

Lemma last_nth (l : list Qc) : last l 0 = nth (length l - 1) l 0.
Proof.
  induction l as [|x l IH]; [reflexivity|]. destruct l as [|y l]; [reflexivity|].
  change (last (x :: y :: l) 0) with (last (y :: l) 0). rewrite IH. cbn [length].
  replace (S (S (length l)) - 1)%nat with (S (S (length l) - 1)) by lia. reflexivity.
Qed.

Lemma linspace_length a b n : length (linspace a b n) = n.
Proof. destruct n as [|[|n]]; try reflexivity. apply tab_length. Qed.
Lemma linspace_nth a b n i : (2 <= n)%nat -> (i < n)%nat ->
  nth i (linspace a b n) 0 = a + (b - a) * qnat i / qnat (n - 1).
Proof.
  intros Hn Hi. destruct n as [|[|n]]; try lia. unfold linspace. rewrite nth_tab by assumption.
  now replace (S (S n) - 1)%nat with (S n) by lia.
Qed.
Lemma linspace_first a b n : (1 <= n)%nat -> nth 0 (linspace a b n) 0 = a.
Proof.
  intros Hn. destruct n as [|[|n]]; try lia; [reflexivity|].
  rewrite linspace_nth by lia. rewrite qnat_0. unfold Qcdiv. ring.
Qed.
Lemma linspace_last a b n : (2 <= n)%nat -> nth (n - 1) (linspace a b n) 0 = b.
Proof.
  intros Hn. rewrite linspace_nth by lia. field. apply Qclt_neq, qnat_pos. lia.
Qed.
Lemma linspace_width a b n : (2 <= n)%nat -> width (linspace a b n) = (b - a) / qnat (n - 1).
Proof.
  intros Hn. unfold width. rewrite linspace_first by lia. rewrite linspace_nth by lia.
  rewrite qnat_1. field. apply Qclt_neq, qnat_pos. lia.
Qed.
Lemma linspace_equidistant a b n : (2 <= n)%nat -> a < b -> equidistant (linspace a b n).
Proof.
  intros Hn Hab. assert (0 < qnat (n - 1)) by (apply qnat_pos; lia).
  split; [rewrite linspace_length; assumption|]. rewrite linspace_width by assumption. split.
  - apply Qcdiv_pos; [qlra|assumption].
  - intros i Hi. rewrite linspace_length in Hi. rewrite linspace_first by lia.
    rewrite linspace_nth by assumption. field. now apply Qclt_neq.
Qed.

Lemma equidistant_first_last l : equidistant l -> nth 0 l 0 < nth (length l - 1) l 0.
Proof.
  intros (Hn & Hw & He). rewrite (He (length l - 1)%nat) by lia.
  assert (0 < qnat (length l - 1)) by (apply qnat_pos; lia). qnra.
Qed.

Definition nbins_new (old : list Qc) (f : Qc) : nat := int_nat (qnat (length old) / f).

Lemma factor_mids_eq old f : equidistant old -> 0 < f ->
  factor_mids old f = Ok (linspace (nth 0 old 0) (nth (length old - 1) old 0) (nbins_new old f)).
Proof.
  intros (Hn & _) Hf. unfold factor_mids. rewrite <- last_nth.
  destruct (qleb_spec f 0) as [H|H]; [qlra|].
  destruct old as [|x [|y t]]; cbn [length] in Hn; try lia. reflexivity.
Qed.

(* when do the new bins cover the old ones *)
Lemma factor_edges old f mids : equidistant old -> 0 < f -> factor_mids old f = Ok mids ->
  (2 <= nbins_new old f)%nat ->
  equidistant mids /\ length mids = nbins_new old f /\
  nth 0 mids 0 = nth 0 old 0 /\ nth (length mids - 1) mids 0 = nth (length old - 1) old 0 /\
  width mids * qnat (nbins_new old f - 1) = width old * qnat (length old - 1).
Proof.
  intros Ho Hf E Hn. rewrite factor_mids_eq in E by assumption. injection E as <-.
  pose proof (equidistant_first_last _ Ho) as Hlt.
  rewrite linspace_length.
  repeat split; try (now apply linspace_equidistant);
    try (now apply linspace_first; lia); try (now apply linspace_last).
  - rewrite linspace_width by assumption. destruct Ho as (Hl & Hw & He).
    rewrite (He (length old - 1)%nat) by lia. field. apply Qclt_neq, qnat_pos. lia.
Qed.

Lemma factor_ge_1 old f : 0 < f -> 1 <= f -> (nbins_new old f <= length old)%nat.
Proof.
  intros Hf H1. unfold nbins_new, int_nat.
  assert (0 <= qnat (length old) / f) by (apply Qcdiv_nonneg; [apply qnat_nonneg|qlra]).
  rewrite qtrunc_nonneg by assumption.
  assert (qz (qfloor (qnat (length old) / f)) <= qz (Z.of_nat (length old))).
  { destruct (qfloor_spec (qnat (length old) / f)) as [H2 _].
    apply (Qcle_trans _ _ _ H2). change (qz (Z.of_nat (length old))) with (qnat (length old)).
    apply Qcdiv_le_l; [assumption|]. pose proof (qnat_nonneg (length old)). qnra. }
  apply (proj2 (qz_le _ _)) in H0. lia.
Qed.

Lemma factor_covers old f mids : equidistant old -> 0 < f -> factor_mids old f = Ok mids ->
  (2 <= nbins_new old f)%nat -> (nbins_new old f <= length old)%nat ->
  axis_lo mids <= axis_lo old /\ axis_hi old <= axis_hi mids.
Proof.
  intros Ho Hf E Hn Hle.
  destruct (factor_edges _ _ _ Ho Hf E Hn) as (Hm & Hlen & H0 & H1 & Hw).
  unfold axis_lo, axis_hi, bin_lo, bin_hi. rewrite H0, H1.
  assert (width old <= width mids).
  { assert (qnat (nbins_new old f - 1) <= qnat (length old - 1)) by (apply (proj1 (qnat_le _ _)); lia).
    assert (0 < qnat (nbins_new old f - 1)) by (apply qnat_pos; lia).
    destruct Ho as (_ & Hwo & _). destruct Hm as (_ & Hwm & _).
    destruct (qleb_spec (width old) (width mids)) as [Hq|Hq]; [assumption|]. exfalso. qnra. }
  unfold Qcdiv. pose proof (Qcinv_nonneg (qz 2)).
  assert (0 <= / qz 2) by (apply H2; apply qleb_le; reflexivity). split; qnra.
Qed.

Lemma rebin_factor_conserves_lemma counts old f mids out :
  equidistant old -> length counts = length old -> 0 < f ->
  (2 <= nbins_new old f)%nat -> (nbins_new old f <= length old)%nat ->
  factor_mids old f = Ok mids -> rebin_1D counts old mids = Ok out ->
  length out = nbins_new old f /\
  nth 0 mids 0 = nth 0 old 0 /\ nth (length mids - 1) mids 0 = nth (length old - 1) old 0 /\
  qsum out = qsum counts.
Proof.
  intros Ho Hl Hf Hn Hle E Er.
  destruct (factor_edges _ _ _ Ho Hf E Hn) as (Hm & Hlen & H0 & H1 & Hw).
  destruct (factor_covers _ _ _ Ho Hf E Hn Hle) as [H2 H3].
  split; [|split; [assumption|split; [assumption|]]].
  - rewrite rebin_1D_ok in Er by assumption. injection Er as <-. now rewrite tab_length.
  - exact (rebin_conserves_lemma _ _ _ _ Ho Hm Hl H2 H3 Er).
Qed.

Lemma rebin_factor_loses_lemma counts old f mids out :
  equidistant old -> length counts = length old -> 0 < f ->
  (length old < nbins_new old f)%nat ->
  (forall x, In x counts -> 0 <= x) -> 0 < vget counts 0 ->
  factor_mids old f = Ok mids -> rebin_1D counts old mids = Ok out ->
  qsum out < qsum counts.
Proof.
  intros Ho Hl Hf Hn Hc Hpos E Er. pose proof Ho as (Hlo & Hwo & _).
  assert (Hn2 : (2 <= nbins_new old f)%nat) by lia.
  destruct (factor_edges _ _ _ Ho Hf E Hn2) as (Hm & Hlen & H0 & H1 & Hw).
  rewrite (rebin_total_lemma _ _ _ _ Ho Hm Hl Er). rewrite qsum_nth, Hl. unfold counts_in.
  pose proof Hm as (_ & Hwm & _).
  assert (Hww : width mids < width old).
  { assert (qnat (length old - 1) < qnat (nbins_new old f - 1)) by (apply (proj1 (qnat_lt _ _)); lia).
    assert (0 < qnat (length old - 1)) by (apply qnat_pos; lia).
    destruct (qltb_spec (width mids) (width old)) as [Hq|Hq]; [assumption|]. exfalso. qnra. }
  pose proof (axis_lo_hi _ Hm) as Hlh.
  assert (Hh : 0 < / qz 2) by (apply Qcinv_pos; reflexivity).
  apply (sumn_lt _ _ _ 0).
  - intros j Hj. apply Qcdiv_le_l; [assumption|].
    assert (part_in (axis_lo mids) (axis_hi mids) (bin_lo old j) (bin_hi old j) <= width old).
    { assert (Hb : bin_hi old j = bin_lo old j + width old) by apply bin_hi_lo.
      assert (bin_lo old j <= bin_hi old j) by qlra.
      pose proof (part_in_le (axis_lo mids) (axis_hi mids) _ _ H Hlh). qlra. }
    assert (0 <= vget counts j) by (now apply vget_nonneg). qnra.
  - lia.
  - apply Qcdiv_lt_l; [assumption|].
    assert (part_in (axis_lo mids) (axis_hi mids) (bin_lo old 0) (bin_hi old 0) < width old).
    { assert (bin_lo old 0 < axis_lo mids).
      { unfold axis_lo, bin_lo. rewrite H0. unfold Qcdiv. qnra. }
      assert (bin_hi old 0 = bin_lo old 0 + width old) by apply bin_hi_lo.
      unfold part_in, clamp.
      destruct (qltb_spec (bin_hi old 0) (axis_lo mids));
      destruct (qltb_spec (bin_lo old 0) (axis_lo mids));
      destruct (qltb_spec (axis_hi mids) (bin_hi old 0));
      destruct (qltb_spec (axis_hi mids) (bin_lo old 0)); qlra. }
    qnra.
Qed.
