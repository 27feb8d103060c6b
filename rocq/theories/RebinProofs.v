From Verif Require Import PyBase RebinModel RebinSpec.

Lemma fold_left_qsum {A} (f : A -> Qc) l a :
  fold_left (fun acc j => acc + f j) l a = a + qsum (map f l).
Proof.
  revert a. induction l as [|x l IH]; intros a; cbn; [ring|].
  rewrite IH. ring.
Qed.

Lemma zrange_sum n a b (f : Z -> Qc) :
  (0 <= a)%Z -> (b <= Z.of_nat n)%Z ->
  (forall j, (j < n)%nat -> (Z.of_nat j < a \/ b <= Z.of_nat j)%Z -> f (Z.of_nat j) = 0) ->
  qsum (map f (zrange a b)) = sumn n (fun j => f (Z.of_nat j)).
Proof.
  intros Ha Hb H. unfold zrange. rewrite map_map.
  change (map _ (seq 0 ?k)) with (tab k (fun x => f (a + Z.of_nat x)%Z)).
  rewrite qsum_tab.
  destruct (Z.le_gt_cases b a) as [Hba|Hab].
  - replace (Z.to_nat (b - a)) with O by lia. symmetry. apply sumn_0.
    intros i Hi. apply H; lia.
  - rewrite (sumn_range n (Z.to_nat a) (Z.to_nat (b - a))).
    + apply sumn_ext. intros i Hi. f_equal. lia.
    + lia.
    + intros i Hi Hr. apply H; lia.
Qed.

Lemma qtrunc_lt_ge u (j : Z) : (0 <= j)%Z -> (qtrunc u < j)%Z -> u <= qz j.
Proof.
  intros Hj H. destruct (qleb_spec 0 u) as [Hu|Hu].
  - rewrite qtrunc_nonneg in H by assumption.
    destruct (qfloor_spec u) as [_ H2].
    assert (qz (qfloor u + 1) <= qz j) by (apply (proj1 (qz_le _ _)); lia).
    rewrite qz_add, qz_1 in H0. qlra.
  - assert (qz 0 <= qz j) by (apply (proj1 (qz_le _ _)); lia). rewrite qz_0 in H0. qlra.
Qed.
Lemma lt_qtrunc_le v (j : Z) : (0 <= j)%Z -> (j < qtrunc v)%Z -> qz j + 1 <= v.
Proof.
  intros Hj H. destruct (qleb_spec 0 v) as [Hu|Hu].
  - rewrite qtrunc_nonneg in H by assumption.
    destruct (qfloor_spec v) as [H2 _].
    assert (qz (j + 1) <= qz (qfloor v)) by (apply (proj1 (qz_le _ _)); lia).
    rewrite qz_add, qz_1 in H0. qlra.
  - exfalso. rewrite qtrunc_neg in H by qlra. destruct (qceil_spec v) as [H3 _].
    assert (qz 1 <= qz (qceil v)) by (apply (proj1 (qz_le _ _)); lia).
    rewrite qz_1 in H0. qlra.
Qed.

Lemma overlap_0_l a b c d : b <= c -> a <= b -> c <= d -> overlap a b c d = 0.
Proof. intros. unfold overlap. q_minmax; qlra. Qed.
Lemma overlap_0_r a b c d : d <= a -> a <= b -> c <= d -> overlap a b c d = 0.
Proof. intros. unfold overlap. q_minmax; qlra. Qed.
Lemma overlap_part a b c d : a <= b -> c <= d -> overlap a b c d = part_in c d a b.
Proof.
  intros. unfold overlap, part_in, clamp.
  destruct (qltb_spec b c), (qltb_spec a c), (qltb_spec d b), (qltb_spec d a);
    q_minmax; qlra.
Qed.
Lemma part_in_sym a b c d : a <= b -> c <= d -> part_in c d a b = part_in a b c d.
Proof.
  intros. unfold part_in, clamp.
  destruct (qltb_spec b c), (qltb_spec a c), (qltb_spec d b), (qltb_spec d a),
   (qltb_spec c a), (qltb_spec b d), (qltb_spec d a), (qltb_spec b c); qlra.
Qed.
Lemma part_in_nonneg c d a b : a <= b -> c <= d -> 0 <= part_in c d a b.
Proof.
  intros. unfold part_in, clamp.
  destruct (qltb_spec b c), (qltb_spec a c), (qltb_spec d b), (qltb_spec d a); qlra.
Qed.
Lemma part_in_le c d a b : a <= b -> c <= d -> part_in c d a b <= b - a.
Proof.
  intros. unfold part_in, clamp.
  destruct (qltb_spec b c), (qltb_spec a c), (qltb_spec d b), (qltb_spec d a); qlra.
Qed.
Lemma part_in_full c d a b : c <= a -> a <= b -> b <= d -> part_in c d a b = b - a.
Proof.
  intros. unfold part_in, clamp.
  destruct (qltb_spec b c), (qltb_spec a c), (qltb_spec d b), (qltb_spec d a); qlra.
Qed.
Lemma part_in_none_l c d a b : b <= c -> a <= b -> c <= d -> part_in c d a b = 0.
Proof.
  intros. unfold part_in, clamp.
  destruct (qltb_spec b c), (qltb_spec a c), (qltb_spec d b), (qltb_spec d a); qlra.
Qed.
Lemma part_in_none_r c d a b : d <= a -> a <= b -> c <= d -> part_in c d a b = 0.
Proof.
  intros. unfold part_in, clamp.
  destruct (qltb_spec b c), (qltb_spec a c), (qltb_spec d b), (qltb_spec d a); qlra.
Qed.

(* the implementation's bin equals the full sum *)
Lemma rb_bin_full counts n a0i a1i a0o a1o i :
  0 < a1i -> 0 < a1o ->
  rb_bin counts n a0i a1i a0o a1o i =
  sumn n (fun j => vget counts j *
    part_in (a0o + a1o * qnat i) (a0o + a1o * qnat i + a1o)
            (a0i + a1i * qnat j) (a0i + a1i * qnat j + a1i) / a1i).
Proof.
  intros Hi Ho. unfold rb_bin. rewrite fold_left_qsum.
  rewrite (zrange_sum n).
  - rewrite Qcplus_0_l. apply sumn_ext. intros j Hj. unfold rb_term.
    rewrite Nat2Z.id. change (qz (Z.of_nat j)) with (qnat j).
    rewrite overlap_part by qlra. reflexivity.
  - unfold rb_jmin. lia.
  - unfold rb_jmax. lia.
  - intros j Hj Hr. unfold rb_term. rewrite Nat2Z.id.
    change (qz (Z.of_nat j)) with (qnat j).
    destruct Hr as [Hr|Hr].
    + unfold rb_jmin in Hr.
      assert (Hr' : (Z.of_nat j < qtrunc ((a0o + a1o * (qnat i - 1) - a0i) / a1i))%Z) by lia.
      apply lt_qtrunc_le in Hr'; [|lia]. change (qz (Z.of_nat j)) with (qnat j) in Hr'.
      assert (H : (qnat j + 1) * a1i <= a0o + a1o * (qnat i - 1) - a0i).
      { replace (a0o + a1o * (qnat i - 1) - a0i)
          with ((a0o + a1o * (qnat i - 1) - a0i) / a1i * a1i)
          by (field; now apply Qclt_neq). qnra. }
      rewrite overlap_0_l; [unfold Qcdiv; ring | | qlra | qlra].
      clear Hr Hr'. qnra.
    + unfold rb_jmax in Hr.
      assert (Hr' : (qtrunc ((a0o + a1o * (qnat i + 1) - a0i) / a1i) < Z.of_nat j)%Z) by lia.
      apply qtrunc_lt_ge in Hr'; [|lia]. change (qz (Z.of_nat j)) with (qnat j) in Hr'.
      assert (H : a0o + a1o * (qnat i + 1) - a0i <= qnat j * a1i).
      { replace (a0o + a1o * (qnat i + 1) - a0i)
          with ((a0o + a1o * (qnat i + 1) - a0i) / a1i * a1i)
          by (field; now apply Qclt_neq). qnra. }
      rewrite overlap_0_r; [unfold Qcdiv; ring | | qlra | qlra].
      clear Hr Hr'. qnra.
Qed.

Lemma equidistant_cons2 l : equidistant l -> exists a b t, l = a :: b :: t.
Proof.
  intros [H _]. destruct l as [|a [|b t]]; cbn in H; try lia. now exists a, b, t.
Qed.

Lemma qz2_half x : x / qz 2 + x / qz 2 = x.
Proof. rewrite qz_2. field. apply Qc_2_0. Qed.

Lemma bin_hi_lo l i : bin_hi l i = bin_lo l i + width l.
Proof. unfold bin_hi, bin_lo. pose proof (qz2_half (width l)). qlra. Qed.
Lemma bin_lo_eq l i : equidistant l -> (i < length l)%nat ->
  bin_lo l i = axis_lo l + width l * qnat i.
Proof.
  intros (H1 & H2 & H3) Hi. unfold axis_lo, bin_lo. rewrite (H3 i) by assumption. ring.
Qed.
Lemma bin_lo_S l i : equidistant l -> (S i < length l)%nat -> bin_lo l (S i) = bin_hi l i.
Proof.
  intros He Hi. rewrite bin_hi_lo, !bin_lo_eq by (assumption || lia). rewrite qnat_S. ring.
Qed.
Lemma axis_hi_eq l : equidistant l -> axis_hi l = axis_lo l + width l * qnat (length l).
Proof.
  intros He. unfold axis_hi. rewrite bin_hi_lo, bin_lo_eq; [|assumption|destruct He; lia].
  replace (length l) with (S (length l - 1)) at 2 by (destruct He; lia).
  rewrite qnat_S. ring.
Qed.

Lemma rebin_1D_ok counts mi mo :
  equidistant mi -> equidistant mo -> length counts = length mi ->
  rebin_1D counts mi mo = Ok (tab (length mo) (rebin_spec counts mi mo)).
Proof.
  intros Hi Ho Hl. destruct (equidistant_cons2 _ Hi) as (m0 & m1 & tm & Emi).
  destruct (equidistant_cons2 _ Ho) as (o0 & o1 & tmo & Emo).
  unfold rebin_1D. rewrite Emi at 1. rewrite Emo at 1.
  rewrite Hl, Nat.leb_refl. f_equal. apply tab_ext. intros i Hilt.
  assert (Wi : m1 - m0 = width mi) by (rewrite Emi; reflexivity).
  assert (Wo : o1 - o0 = width mo) by (rewrite Emo; reflexivity).
  assert (Ai : m0 - (m1 - m0) / qz 2 = axis_lo mi) by (rewrite Emi; reflexivity).
  assert (Ao : o0 - (o1 - o0) / qz 2 = axis_lo mo) by (rewrite Emo; reflexivity).
  rewrite Ai, Ao, Wi, Wo.
  rewrite rb_bin_full; [| apply Hi | apply Ho].
  unfold rebin_spec. apply sumn_ext. intros j Hj.
  rewrite !bin_hi_lo, !bin_lo_eq by assumption. reflexivity.
Qed.

(* telescoping *)
Lemma part_tele lo hi (g : nat -> Qc) n :
  sumn n (fun i => part_in lo hi (g i) (g (S i))) = part_in lo hi (g O) (g n).
Proof. unfold part_in. apply (sumn_tele n (fun i => clamp lo hi (g i))). Qed.

Lemma sum_part_out a b mo :
  a <= b -> equidistant mo ->
  sumn (length mo) (fun i => part_in (bin_lo mo i) (bin_hi mo i) a b)
  = part_in (axis_lo mo) (axis_hi mo) a b.
Proof.
  intros Hab Ho. pose proof Ho as (Hn & Hw & _).
  set (g := fun i => axis_lo mo + width mo * qnat i).
  rewrite (sumn_ext _ _ (fun i => part_in a b (g i) (g (S i)))).
  - rewrite part_tele. unfold g. rewrite qnat_0, <- axis_hi_eq by assumption.
    replace (axis_lo mo + width mo * 0) with (axis_lo mo) by ring.
    apply part_in_sym; [|assumption]. rewrite axis_hi_eq by assumption.
    pose proof (qnat_nonneg (length mo)). qnra.
  - intros i Hi. rewrite part_in_sym; [|assumption|rewrite bin_hi_lo; qlra].
    rewrite bin_hi_lo, bin_lo_eq by assumption. unfold g. f_equal. rewrite qnat_S. ring.
Qed.

(* total counts after rebinning = counts inside the new axis range *)
Lemma rebin_total counts mi mo :
  equidistant mi -> equidistant mo ->
  sumn (length mo) (rebin_spec counts mi mo) = counts_in counts mi (axis_lo mo) (axis_hi mo).
Proof.
  intros Hi Ho. unfold rebin_spec, counts_in. rewrite sumn_swap. apply sumn_ext. intros j Hj.
  rewrite sumn_div, sumn_scal, sum_part_out; auto.
  rewrite bin_hi_lo. destruct Hi as (_ & Hw & _). qlra.
Qed.

Lemma bins_inside mi j : equidistant mi -> (j < length mi)%nat ->
  axis_lo mi <= bin_lo mi j /\ bin_hi mi j <= axis_hi mi.
Proof.
  intros Hi Hj. rewrite bin_hi_lo, bin_lo_eq, axis_hi_eq by assumption.
  destruct Hi as (_ & Hw & _).
  assert (qnat (S j) <= qnat (length mi)) by (apply (proj1 (qnat_le _ _)); lia).
  rewrite qnat_S in H. pose proof (qnat_nonneg j). split; qnra.
Qed.

Lemma counts_in_all counts mi lo hi :
  equidistant mi -> length counts = length mi -> lo <= axis_lo mi -> axis_hi mi <= hi ->
  counts_in counts mi lo hi = qsum counts.
Proof.
  intros Hi Hl Hlo Hhi. rewrite qsum_nth, Hl. apply sumn_ext. intros j Hj.
  destruct (bins_inside _ _ Hi Hj) as [H1 H2]. pose proof Hi as (_ & Hw & _).
  assert (bin_hi mi j = bin_lo mi j + width mi) by apply bin_hi_lo.
  rewrite part_in_full by qlra. rewrite H.
  field. now apply Qclt_neq.
Qed.

Lemma rebin_conserves_lemma counts mi mo out :
  equidistant mi -> equidistant mo -> length counts = length mi ->
  axis_lo mo <= axis_lo mi -> axis_hi mi <= axis_hi mo ->
  rebin_1D counts mi mo = Ok out -> qsum out = qsum counts.
Proof.
  intros Hi Ho Hl H1 H2 E. rewrite rebin_1D_ok in E by assumption. injection E as <-.
  rewrite qsum_tab, rebin_total by assumption. now apply counts_in_all.
Qed.

Lemma rebin_total_lemma counts mi mo out :
  equidistant mi -> equidistant mo -> length counts = length mi ->
  rebin_1D counts mi mo = Ok out -> qsum out = counts_in counts mi (axis_lo mo) (axis_hi mo).
Proof.
  intros Hi Ho Hl E. rewrite rebin_1D_ok in E by assumption. injection E as <-.
  now rewrite qsum_tab, rebin_total.
Qed.

Lemma rebin_full_sum_lemma counts mi mo :
  equidistant mi -> equidistant mo -> length counts = length mi ->
  exists out, rebin_1D counts mi mo = Ok out /\ length out = length mo /\
    forall i, (i < length mo)%nat -> vget out i = rebin_spec counts mi mo i.
Proof.
  intros Hi Ho Hl. exists (tab (length mo) (rebin_spec counts mi mo)).
  split; [now apply rebin_1D_ok|]. split; [apply tab_length|].
  intros i Hlt. unfold vget. now rewrite nth_tab.
Qed.

Lemma rebin_spec_nonneg counts mi mo i :
  equidistant mi -> equidistant mo -> (forall x, In x counts -> 0 <= x) ->
  0 <= rebin_spec counts mi mo i.
Proof.
  intros Hi Ho Hc. apply sumn_nonneg. intros j Hj.
  destruct Hi as (_ & Hw & _), Ho as (_ & Hw' & _).
  apply Qcdiv_nonneg; [|qlra]. apply Qcmult_nonneg.
  - unfold vget. destruct (Nat.lt_ge_cases j (length counts)) as [Hlt|Hge].
    + apply Hc. now apply nth_In.
    + rewrite nth_overflow by assumption. auto.
  - apply part_in_nonneg; rewrite bin_hi_lo; qlra.
Qed.

Lemma vget_nonneg l j : (forall x, In x l -> 0 <= x) -> 0 <= vget l j.
Proof.
  intros Hc. unfold vget. destruct (Nat.lt_ge_cases j (length l)) as [Hlt|Hge].
  - apply Hc. now apply nth_In.
  - rewrite nth_overflow by assumption. auto.
Qed.

Lemma counts_in_le counts mi lo hi :
  equidistant mi -> length counts = length mi -> lo <= hi ->
  (forall x, In x counts -> 0 <= x) -> counts_in counts mi lo hi <= qsum counts.
Proof.
  intros Hi Hl Hle Hc. rewrite qsum_nth, Hl. apply sumn_le. intros j Hj.
  pose proof Hi as (_ & Hw & _).
  pose proof (vget_nonneg counts j Hc) as Hv. pose proof (bin_hi_lo mi j) as E.
  assert (H1 : bin_lo mi j <= bin_hi mi j) by qlra.
  pose proof (part_in_le lo hi (bin_lo mi j) (bin_hi mi j) H1 Hle) as H2.
  apply Qcdiv_le_l; [assumption|]. rewrite E in *. clear E. qnra.
Qed.

Lemma axis_lo_hi mo : equidistant mo -> axis_lo mo <= axis_hi mo.
Proof.
  intros Ho. rewrite axis_hi_eq by assumption. destruct Ho as (_ & Hw & _).
  pose proof (qnat_nonneg (length mo)). qnra.
Qed.

Lemma rebin_nonneg_lemma counts mi mo out :
  equidistant mi -> equidistant mo -> length counts = length mi ->
  (forall x, In x counts -> 0 <= x) ->
  rebin_1D counts mi mo = Ok out ->
  (forall x, In x out -> 0 <= x) /\ qsum out <= qsum counts.
Proof.
  intros Hi Ho Hl Hc E. split.
  - rewrite rebin_1D_ok in E by assumption. injection E as <-.
    intros x Hx. apply in_tab in Hx as (i & _ & ->). now apply rebin_spec_nonneg.
  - rewrite (rebin_total_lemma _ _ _ _ Hi Ho Hl E). apply counts_in_le; auto.
    now apply axis_lo_hi.
Qed.

Lemma rebin_spec_id counts mi i :
  equidistant mi -> (i < length mi)%nat -> rebin_spec counts mi mi i = vget counts i.
Proof.
  intros Hi Hlt. unfold rebin_spec. pose proof Hi as (_ & Hw & _).
  rewrite (sumn_single _ _ i); [|assumption|].
  - rewrite part_in_full; auto; rewrite ?bin_hi_lo; [|qlra].
    field. now apply Qclt_neq.
  - intros j Hj Hne.
    assert (E : part_in (bin_lo mi i) (bin_hi mi i) (bin_lo mi j) (bin_hi mi j) = 0).
    { rewrite !bin_hi_lo, !bin_lo_eq by assumption.
      destruct (Nat.lt_ge_cases i j) as [Hij|Hij].
      - assert (qnat (S i) <= qnat j) by (apply (proj1 (qnat_le _ _)); lia).
        rewrite qnat_S in H. apply part_in_none_r; [qnra|qlra|qlra].
      - assert (qnat (S j) <= qnat i) by (apply (proj1 (qnat_le _ _)); lia).
        rewrite qnat_S in H. apply part_in_none_l; [qnra|qlra|qlra]. }
    rewrite E. unfold Qcdiv. ring.
Qed.

Lemma rebin_identity_lemma counts mi :
  equidistant mi -> length counts = length mi -> rebin_1D counts mi mi = Ok counts.
Proof.
  intros Hi Hl. rewrite rebin_1D_ok by assumption. f_equal.
  rewrite <- (tab_nth counts 0) at 2. rewrite Hl. apply tab_ext. intros i Hlt.
  now apply rebin_spec_id.
Qed.

(* element-wise linear combination *)
Definition lincomb (a b : Qc) (u v : list Qc) : list Qc :=
  map (fun p => a * fst p + b * snd p) (combine u v).
Lemma lincomb_length a b u v : length u = length v -> length (lincomb a b u v) = length u.
Proof. intros H. unfold lincomb. rewrite map_length, combine_length. lia. Qed.
Lemma lincomb_get a b u v i : length u = length v ->
  vget (lincomb a b u v) i = a * vget u i + b * vget v i.
Proof.
  intros H. unfold vget, lincomb. revert v i H.
  induction u as [|x u IH]; intros [|y v] i H; try discriminate H.
  - destruct i; cbn; ring.
  - destruct i; cbn; [reflexivity|]. apply IH. now injection H.
Qed.
Lemma rebin_linear_lemma a b u v mi mo ou ov :
  equidistant mi -> equidistant mo -> length u = length mi -> length v = length mi ->
  rebin_1D u mi mo = Ok ou -> rebin_1D v mi mo = Ok ov ->
  rebin_1D (lincomb a b u v) mi mo = Ok (lincomb a b ou ov).
Proof.
  intros Hi Ho Hu Hv Eu Ev.
  rewrite rebin_1D_ok in Eu by assumption. injection Eu as <-.
  rewrite rebin_1D_ok in Ev by assumption. injection Ev as <-.
  rewrite rebin_1D_ok by (try assumption; rewrite lincomb_length; congruence).
  f_equal. apply (list_eq_nth _ _ 0).
  - rewrite lincomb_length; rewrite !tab_length; reflexivity.
  - intros i Hlt. rewrite tab_length in Hlt. rewrite nth_tab by assumption.
    change (nth i (lincomb a b ?x ?y) 0) with (vget (lincomb a b x y) i).
    rewrite lincomb_get by (rewrite !tab_length; reflexivity).
    unfold vget at 1 2. rewrite !nth_tab by assumption.
    unfold rebin_spec. rewrite <- !sumn_scal, <- sumn_add. apply sumn_ext. intros j Hj.
    rewrite lincomb_get by congruence. unfold Qcdiv. ring.
Qed.
