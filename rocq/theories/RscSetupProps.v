(* The preparation of rhosigchi: extended axes, limits, energies of the results and the
   loop over the members of an ensemble (C88, C89). *)
From Coq Require Import String.
From Verif Require Import PyBase Axis MatrixModel MatrixSpec RebinModel RebinSpec RebinProofs
  Rebin2DProofs MatrixRebinProofs VectorModel ArithModel RhosigchiModel RhosigchiSpec
  RhosigchiProofs ExtractorProofs RscSetupModel RscSetupSpec RscSetupProofs.
Local Open Scope Qc_scope.

Lemma qtrunc_pos x : 0 <= x -> (0 <= qtrunc x)%Z.
Proof.
  intros P. rewrite qtrunc_nonneg by exact P. destruct (qfloor_spec x) as [_ B].
  assert (qz (-1) < qz (qfloor x)) by (change (qz (-1)) with (- (1)); qlra).
  apply (proj2 (qz_lt _ _)) in H. lia.
Qed.
Lemma steps_nonneg e ext : equidistant e -> 0 <= nth 0 e 0 -> 0 <= ext -> (0 <= steps e ext)%Z.
Proof.
  intros (_ & W & _) A B. unfold steps.
  assert (H1 : 0 <= nth 0 e 0 / width e) by (apply Qcdiv_nonneg; qlra).
  assert (H2 : 0 <= ext / width e + qn 1 2).
  { assert (0 <= ext / width e) by (apply Qcdiv_nonneg; qlra).
    assert (0 <= qn 1 2) by (apply qleb_le; reflexivity). qlra. }
  apply qtrunc_pos in H1. apply qtrunc_pos in H2. lia.
Qed.
Lemma longer_more e k : equidistant e -> more_bins e (longer e k) k.
Proof.
  intros E. destruct (longer_equidistant e k E) as (A & B). split; [apply tab_length|].
  split; [exact A|]. split; [exact B|]. intros i Hi. now apply longer_nth.
Qed.
Lemma moved_total k m m' e : on_axis m e -> consistent m' -> length (Ex m') = (k + length e)%nat ->
  length (Eg m') = (k + length e)%nat -> moved k m m' -> total m' = total m.
Proof.
  intros (C & _ & X & G) C' LX LG MV. destruct C as [SH _], C' as [SH' _].
  destruct (shaped_rect _ _ _ SH) as (R & _). destruct (shaped_rect _ _ _ SH') as (R' & _).
  unfold total. rewrite (msum_mget _ _ _ R), (msum_mget _ _ _ R'). rewrite LX, LG, X, G.
  unfold moved in MV. rewrite X, G in MV.
  rewrite (sumn_range _ k (length e)); [|lia|].
  - apply sumn_ext. intros i Hi. rewrite (sumn_range _ k (length e)); [|lia|].
    + apply sumn_ext. intros j Hj. rewrite MV by lia.
      replace (k + i <? k)%nat with false by (symmetry; apply Nat.ltb_ge; lia).
      replace (k + j <? k)%nat with false by (symmetry; apply Nat.ltb_ge; lia). cbn [orb].
      now replace (k + i - k)%nat with i by lia; replace (k + j - k)%nat with j by lia.
    + intros j Hj D. rewrite MV by lia.
      replace (j <? k)%nat with true by (symmetry; apply Nat.ltb_lt; lia). now rewrite orb_true_r.
  - intros i Hi D. apply sumn_0. intros j Hj. rewrite MV by lia.
    now replace (i <? k)%nat with true by (symmetry; apply Nat.ltb_lt; lia).
Qed.

(* Both matrices keep every count at its energy: the axes only get more bins of the same
   width below the first one. *)
Theorem extension_keeps_counts fg sd e Ex_min Ex_max Eg_min ext :
  on_axis fg e -> on_axis sd e -> equidistant e -> 0 <= nth 0 e 0 -> 0 <= ext ->
  exists k fg' sd' r, prepare fg sd Ex_min Ex_max Eg_min ext = ((fg', sd'), r) /\
    exists e', more_bins e e' k /\ on_axis fg' e' /\ on_axis sd' e' /\
      moved k fg fg' /\ moved k sd sd' /\ total fg' = total fg /\ total sd' = total sd.
Proof.
  intros O1 O2 E P Q. pose proof O1 as (C1 & S1 & X1 & G1). pose proof O2 as (C2 & S2 & X2 & G2).
  pose proof (steps_nonneg e ext E P Q) as K.
  exists (Z.to_nat (steps e ext)). set (k := Z.to_nat (steps e ext)).
  assert (KE : steps e ext = Z.of_nat k) by (unfold k; lia).
  destruct (prepare_ok fg sd e k Ex_min Ex_max Eg_min ext C1 S1 X1 G1 C2 S2 X2 G2 E KE)
    as (fg' & sd' & r & F1 & F2 & PR & _).
  destruct (extend_ok fg e k C1 S1 X1 G1 E) as (m1 & F1' & C1' & S1' & X1' & G1' & _ & V1).
  destruct (extend_ok sd e k C2 S2 X2 G2 E) as (m2 & F2' & C2' & S2' & X2' & G2' & _ & V2).
  assert (m1 = fg') by congruence. assert (m2 = sd') by congruence. subst m1 m2.
  exists fg', sd', r. split; [exact PR|]. exists (longer e k).
  assert (LL : length (longer e k) = (k + length e)%nat) by apply tab_length.
  assert (M1 : moved k fg fg') by (unfold moved; rewrite X1, G1; exact V1).
  assert (M2 : moved k sd sd') by (unfold moved; rewrite X2, G2; exact V2).
  split; [now apply longer_more|]. split; [exact (conj C1' (conj S1' (conj X1' G1')))|].
  split; [exact (conj C2' (conj S2' (conj X2' G2')))|].
  split; [exact M1|]. split; [exact M2|].
  split; [apply (moved_total k _ _ e)|apply (moved_total k _ _ e)]; try assumption;
    rewrite ?X1', ?X2', ?G1', ?G2'; exact LL.
Qed.
Print Assumptions extension_keeps_counts.

(* ------------------------------------------------ limits *)
Lemma bin_of_in g E : equidistant g -> axis_lo g <= E -> E < axis_hi g ->
  in_bin g (bin_of (nth 0 g 0) (width g) E) E.
Proof.
  intros EG LO HI. pose proof EG as (L & W & N). rewrite (axis_hi_eq _ EG) in HI.
  set (x := (E - nth 0 g 0) / width g).
  assert (XE : E = nth 0 g 0 + x * width g).
  { unfold x. field. now apply Qclt_neq. }
  assert (H2 : width g / qz 2 = qn 1 2 * width g) by (rewrite half_inv; unfold Qcdiv; ring).
  assert (LO' : 0 <= x + qn 1 2).
  { unfold axis_lo, bin_lo in LO. rewrite H2, XE in LO.
    destruct (qleb_spec 0 (x + qn 1 2)) as [A|A]; [exact A|]. exfalso. clearbody x. clear - LO A W. qnra. }
  unfold bin_of. fold x. rewrite qtrunc_nonneg by exact LO'.
  destruct (qfloor_spec (x + qn 1 2)) as [A B]. set (z := qfloor (x + qn 1 2)) in *. clearbody z.
  assert (Z0 : (0 <= z)%Z).
  { assert (qz (-1) < qz z) by (change (qz (-1)) with (- (1)); qlra). apply (proj2 (qz_lt _ _)) in H. lia. }
  assert (HX : x + qn 1 2 < qnat (length g)).
  { unfold axis_lo, bin_lo in HI. rewrite H2, XE in HI.
    destruct (qltb_spec (x + qn 1 2) (qnat (length g))) as [C|C]; [exact C|]. exfalso. clearbody x.
    clear - HI C W. qnra. }
  assert (Z1 : (z < Z.of_nat (length g))%Z) by (apply (proj2 (qz_lt _ _)); unfold qnat in HX; qlra).
  split; [lia|]. unfold bin_lo, bin_hi. rewrite (N (Z.to_nat z)) by lia.
  replace (qnat (Z.to_nat z)) with (qz z) by (unfold qnat; now rewrite Z2Nat.id by exact Z0).
  rewrite H2, XE. clearbody x. clear - A B W. split.
  - qnra.
  - qnra.
Qed.

Lemma zrange_S lo n : zrange lo (lo + Z.of_nat (S n)) = zrange lo (lo + Z.of_nat n) ++ [lo + Z.of_nat n]%Z.
Proof.
  unfold zrange. replace (Z.to_nat (lo + Z.of_nat (S n) - lo)) with (S n) by lia.
  replace (Z.to_nat (lo + Z.of_nat n - lo)) with n by lia.
  rewrite seq_S, map_app. reflexivity.
Qed.
Lemma zrange_empty lo hi : (hi <= lo)%Z -> zrange lo hi = [].
Proof. intros H. unfold zrange. now replace (Z.to_nat (hi - lo)) with 0%nat by lia. Qed.

Lemma last_positive_spec row lo : (0 <= lo)%Z ->
  one_past (fun j => 0 < entry row j) lo (Z.of_nat (length row)) 0 (last_positive row lo).
Proof.
  intros L. unfold last_positive.
  assert (G : forall n, (lo + Z.of_nat n <= Z.of_nat (length row))%Z ->
    one_past (fun j => 0 < entry row j) lo (lo + Z.of_nat n) 0
      (fold_left (fun acc ig => match at_ true row ig with
         | Ok x => if qltb 0 x && (acc <? ig + 1)%Z then (ig + 1)%Z else acc
         | Raise _ => acc end) (zrange lo (lo + Z.of_nat n)) 0%Z)).
  { induction n as [|n IH]; intros B.
    - rewrite zrange_empty by lia. left. split; [reflexivity|]. intros j Hj. lia.
    - rewrite zrange_S, fold_left_app. cbn [fold_left].
      specialize (IH ltac:(lia)). set (acc := fold_left _ _ _) in *. clearbody acc.
      set (g := (lo + Z.of_nat n)%Z) in *.
      assert (A : at_ true row g = Ok (entry row g)).
      { apply at_zget; [lia|]. unfold zget, entry. replace (g <? 0)%Z with false by lia.
        apply nth_error_nth'. lia. }
      rewrite A. replace (lo + Z.of_nat (S n))%Z with (g + 1)%Z by lia.
      destruct (qltb_spec 0 (entry row g)) as [P|P].
      + assert (H : (acc < g + 1)%Z).
        { destruct IH as [(-> & _)|(j & J & _ & -> & _)]; lia. }
        replace (acc <? g + 1)%Z with true by lia. cbn [andb].
        right. exists g. repeat split; try lia. exact P.
      + cbn [andb]. assert (NP : ~ 0 < entry row g) by qlra.
        destruct IH as [(-> & H)|(j & J & PJ & -> & H)].
        * left. split; [reflexivity|]. intros j Hj. destruct (Z.eq_dec j g) as [->|]; [exact NP|apply H; lia].
        * right. exists j. repeat split; try lia; [exact PJ|]. intros j' Hj'.
          destruct (Z.eq_dec j' g) as [->|]; [exact NP|apply H; lia]. }
  destruct (Z_le_gt_dec lo (Z.of_nat (length row))) as [C|C].
  - specialize (G (Z.to_nat (Z.of_nat (length row) - lo)) ltac:(lia)).
    now replace (lo + Z.of_nat (Z.to_nat (Z.of_nat (length row) - lo)))%Z with (Z.of_nat (length row)) in G by lia.
  - rewrite zrange_empty by lia. left. split; [reflexivity|]. intros j Hj. lia.
Qed.

(* With energies on the extended axes the preparation succeeds; the limits are the bins
   these energies lie in, and each row ends after its last bin with counts. *)
Theorem limits_contain_energies fg sd e Ex_min Ex_max Eg_min ext fg' sd' r e' :
  on_axis fg e -> on_axis sd e -> equidistant e -> 0 <= nth 0 e 0 -> 0 <= ext ->
  prepare fg sd Ex_min Ex_max Eg_min ext = ((fg', sd'), r) -> Ex fg' = e' ->
  axis_lo e' <= Ex_min -> axis_lo e' <= Ex_max -> axis_lo e' <= Eg_min ->
  Ex_min < axis_hi e' -> Ex_max < axis_hi e' -> Eg_min < axis_hi e' ->
  exists s, r = Ok s /\ let L := su_lim s in
    in_bin e' (jmin L) Ex_min /\ in_bin e' (jmax L - 1) Ex_max /\ in_bin e' (igmin L) Eg_min /\
    length (igmax L) = Z.to_nat (jmax L) /\
    forall ix, (jmin L <= ix < jmax L)%Z ->
      one_past (fun ig => 0 < entry2 (a_rows (values fg')) ix ig) (igmin L) (Z.of_nat (length e')) 0
        (gmax L ix).
Proof.
  intros O1 O2 E P Q PR XE A1 A2 A3 B1 B2 B3.
  pose proof O1 as (C1 & S1 & X1 & G1). pose proof O2 as (C2 & S2 & X2 & G2).
  pose proof (steps_nonneg e ext E P Q) as K. set (k := Z.to_nat (steps e ext)).
  assert (KE : steps e ext = Z.of_nat k) by (unfold k; lia).
  destruct (prepare_ok fg sd e k Ex_min Ex_max Eg_min ext C1 S1 X1 G1 C2 S2 X2 G2 E KE)
    as (f1 & s1 & r1 & F1 & F2 & PR' & _ & OKr).
  assert (f1 = fg' /\ r1 = r) as [-> ->] by (split; congruence).
  destruct (extend_ok fg e k C1 S1 X1 G1 E) as (m1 & F1' & C1' & S1' & X1' & G1' & _ & V1).
  assert (m1 = fg') by congruence. subst m1.
  assert (EE : e' = longer e k) by congruence. clear XE. subst e'.
  destruct (longer_equidistant e k E) as (E' & W').
  pose proof (bin_of_in _ _ E' A1 B1) as I1. pose proof (bin_of_in _ _ E' A2 B2) as I2.
  pose proof (bin_of_in _ _ E' A3 B3) as I3. rewrite W' in I1, I2, I3.
  eexists. split; [apply OKr; assumption|]. unfold su_of. cbn [su_lim jmin jmax igmin igmax].
  split; [exact I1|]. split; [rewrite Z.add_simpl_r; exact I2|].
  split; [exact I3|]. split; [apply tab_length|].
  intros ix HI. unfold gmax. cbn [igmax].
  unfold find_igmax. destruct I1 as ((I1 & _) & _). destruct I3 as ((I3 & _) & _).
  destruct I2 as ((_ & I2) & _).
  rewrite nth_tab by lia. rewrite Z2Nat.id by lia.
  match goal with |- context [if ?b then _ else _] => replace b with true by (symmetry; lia) end.
  assert (LR : length (nth (Z.to_nat ix) (a_rows (values fg')) []) = length (longer e k)).
  { destruct C1' as [SH _]. rewrite X1', G1' in SH. destruct (shaped_rect _ _ _ SH) as (R & _).
    apply (rect_row _ (length (longer e k))); [exact R|lia]. }
  pose proof (last_positive_spec (nth (Z.to_nat ix) (a_rows (values fg')) []) _ I3) as LP.
  rewrite LR in LP. unfold entry2. replace (ix <? 0)%Z with false by lia. exact LP.
Qed.
Print Assumptions limits_contain_energies.

(* ------------------------------------------------ energies of the results *)
Lemma setup_is fg sd e Ex_min Ex_max Eg_min ext fg' sd' s :
  on_axis fg e -> on_axis sd e -> equidistant e -> 0 <= nth 0 e 0 -> 0 <= ext ->
  prepare fg sd Ex_min Ex_max Eg_min ext = ((fg', sd'), Ok s) ->
  exists k, steps e ext = Z.of_nat k /\ Ex fg' = longer e k /\ Eg fg' = longer e k /\
    consistent fg' /\ s = su_of e k fg' Ex_min Ex_max Eg_min.
Proof.
  intros O1 O2 E P Q PR.
  pose proof O1 as (C1 & S1 & X1 & G1). pose proof O2 as (C2 & S2 & X2 & G2).
  pose proof (steps_nonneg e ext E P Q) as K. exists (Z.to_nat (steps e ext)).
  set (k := Z.to_nat (steps e ext)).
  assert (KE : steps e ext = Z.of_nat k) by (unfold k; lia).
  destruct (prepare_ok fg sd e k Ex_min Ex_max Eg_min ext C1 S1 X1 G1 C2 S2 X2 G2 E KE)
    as (f1 & s1 & r1 & F1 & F2 & PR' & HS & _).
  assert (f1 = fg' /\ r1 = Ok s) as [-> ->] by (split; congruence).
  destruct (extend_ok fg e k C1 S1 X1 G1 E) as (m1 & F1' & C1' & S1' & X1' & G1' & _ & V1).
  assert (m1 = fg') by congruence. subst m1. repeat split; auto; apply C1'.
Qed.

(* Each gamma-ray strength is reported at the centre of its bin. *)
Theorem gsf_energies_exact fg sd e Ex_min Ex_max Eg_min ext fg' sd' s ig :
  on_axis fg e -> on_axis sd e -> equidistant e -> 0 <= nth 0 e 0 -> 0 <= ext ->
  prepare fg sd Ex_min Ex_max Eg_min ext = ((fg', sd'), Ok s) ->
  (ig < length (gsf_energies s))%nat -> (ig < length (Eg fg'))%nat ->
  nth ig (gsf_energies s) 0 = nth ig (Eg fg') 0.
Proof.
  intros O1 O2 E P Q PR I1 I2.
  destruct (setup_is _ _ _ _ _ _ _ _ _ _ O1 O2 E P Q PR) as (k & _ & _ & G & _ & ->).
  rewrite G in *. unfold gsf_energies in *. rewrite tab_length in I1. rewrite nth_tab by exact I1.
  destruct (longer_equidistant e k E) as ((_ & _ & N) & W). rewrite (N ig I2), W.
  unfold su_of. cbn [su_a0 su_a1]. ring.
Qed.
Print Assumptions gsf_energies_exact.

Lemma frac_bounds x : 0 <= x -> 0 <= x - qz (qtrunc x) /\ x - qz (qtrunc x) < 1.
Proof. intros H. rewrite qtrunc_nonneg by exact H. destruct (qfloor_spec x). split; qlra. Qed.

(* The level density belonging to the transition from bin ix to gamma bin ig is reported
   at the final energy Ex - Eg, up to one constant of at most half a bin. *)
Theorem nld_energies_partial fg sd e Ex_min Ex_max Eg_min ext fg' sd' s :
  on_axis fg e -> on_axis sd e -> equidistant e -> 0 <= nth 0 e 0 -> width e <= qz 2 * ext ->
  prepare fg sd Ex_min Ex_max Eg_min ext = ((fg', sd'), Ok s) ->
  exists d, qabs d <= width e / qz 2 /\
    forall ix ig, (ix < length (Ex fg'))%nat -> (ig < length (Eg fg'))%nat ->
      let u := (Z.of_nat ix - Z.of_nat ig + iu0 (su_lim s))%Z in
      (0 <= u < Z.of_nat (length (nld_energies s)))%Z ->
      nth (Z.to_nat u) (nld_energies s) 0 = nth ix (Ex fg') 0 - nth ig (Eg fg') 0 + d.
Proof.
  intros O1 O2 E P Q PR. pose proof E as (L & W & _).
  assert (Q0 : 0 <= ext) by (clear - W Q; change (qz 2) with (1+1) in Q; qlra).
  destruct (setup_is _ _ _ _ _ _ _ _ _ _ O1 O2 E P Q0 PR) as (k & KE & X & G & _ & ->).
  destruct (longer_equidistant e k E) as ((_ & _ & N) & W').
  set (a0 := nth 0 (longer e k) 0) in *. set (w := width e) in *.
  assert (WN : w <> 0) by (now apply Qclt_neq).
  exists (a0 + qz (offset_of a0 w) * w). split.
  - (* a0 is not positive *)
    assert (A0 : a0 = nth 0 e 0 - qz (steps e ext) * w).
    { unfold a0, longer. rewrite nth_tab by lia. rewrite qnat_0, KE. fold w (qnat k). ring. }
    set (f := nth 0 e 0 / w). set (g := ext / w + qn 1 2).
    assert (F0 : 0 <= f) by (apply Qcdiv_nonneg; qlra).
    assert (G1 : 1 <= g).
    { unfold g. assert (qn 1 2 <= ext / w).
      { apply Qcdiv_le_r; [exact W|]. rewrite half_inv. clear - Q. change (qz 2) with (1+1) in *.
        assert (HH : / (1+1) * w * (1+1) = w) by (field; discriminate). qnra. }
      rewrite half_inv in *. assert (HH : / qz 2 + / qz 2 = 1) by (apply Qc_is_canon; reflexivity). qlra. }
    destruct (frac_bounds f F0) as (F1 & F2).
    assert (TG : (1 <= qtrunc g)%Z).
    { rewrite qtrunc_nonneg by qlra. destruct (qfloor_spec g) as [_ B].
      assert (qz 0 < qz (qfloor g)) by (rewrite qz_0; qlra).
      apply (proj2 (qz_lt _ _)) in H. lia. }
    assert (A1 : a0 = (f - qz (qtrunc f) - qz (qtrunc g)) * w).
    { rewrite A0. unfold steps. fold w f g. rewrite qz_add. unfold f. field. exact WN. }
    set (x := f - qz (qtrunc f) - qz (qtrunc g)) in *.
    assert (XN : x < 0).
    { assert (qz 1 <= qz (qtrunc g)) by (apply (proj1 (qz_le _ _)); exact TG). rewrite qz_1 in H. unfold x. qlra. }
    assert (AX : a0 / w = x) by (rewrite A1; field; exact WN).
    unfold offset_of. rewrite AX. assert (AB : qabs x = - x) by (destruct (qabs_spec x) as [[? ?]|[? ->]]; [qlra|reflexivity]).
    rewrite AB. clear AB.
    assert (H0 : 0 < qn 1 2) by (apply qltb_lt; reflexivity).
    rewrite qtrunc_nonneg by qlra. destruct (qfloor_spec (- x + qn 1 2)) as [B1 B2].
    set (z := qz (qfloor (- x + qn 1 2))) in *.
    assert (HW : w / qz 2 = qn 1 2 * w) by (rewrite half_inv; unfold Qcdiv; ring). rewrite HW.
    rewrite A1. assert (HH : qn 1 2 + qn 1 2 = 1) by (apply Qc_is_canon; reflexivity).
    clearbody x z w. clear - B1 B2 W HH H0. set (h := qn 1 2) in *. clearbody h.
    replace (x * w + z * w) with ((x + z) * w) by ring.
    destruct (qabs_spec ((x + z) * w)) as [[? ->]|[? ->]]; qnra.
  - intros ix ig I1 I2 u HU. rewrite X, G in *. rewrite (N ix I1), (N ig I2), W'.
    unfold nld_energies in *. rewrite tab_length in HU. rewrite nth_tab by lia.
    unfold su_of in *. cbn [su_a0 su_a1 su_lim iu0] in *. fold a0 w in HU |- *. unfold qnat.
    rewrite Z2Nat.id by lia. unfold u. fold a0 w. rewrite qz_add, qz_sub. ring.
Qed.
Print Assumptions nld_energies_partial.

(* The energies are not always exact: with bins at 1, 3 and 5 keV the level density of
   the ground state is reported at 1 keV instead of 0, half a bin too high. *)
Definition ex_e : list Qc := [qz 1; qz 3; qz 5].
Definition ex_fg : matrix :=
  mkM (mkArr 3 [[qz 4; 0; 0]; [qz 1; qz 2; 0]; [qz 1; qz 3; qz 5]]) ex_e ex_e None None.
Definition ex_sd : matrix :=
  mkM (mkArr 3 [[qz 1; 0; 0]; [qz 1; qz 1; 0]; [qz 1; qz 1; qz 1]]) ex_e ex_e None None.
Lemma ex_equi : equidistant ex_e.
Proof.
  split; [cbn; lia|]. split; [apply qltb_lt; reflexivity|].
  intros [|[|[|i]]] Hi; try (apply Qc_is_canon; reflexivity). cbn in Hi. lia.
Qed.
Lemma ex_shaped r : map (@length Qc) r = [3; 3; 3]%nat -> shaped (mkArr 3 r) 3 3.
Proof.
  intros H. split; [reflexivity|]. split; [cbn; rewrite <- (map_length (@length Qc) r), H; reflexivity|].
  cbn [a_rows]. intros x I. apply (in_map (@length Qc)) in I. rewrite H in I.
  cbn in I. intuition congruence.
Qed.
Lemma ex_on_fg : on_axis ex_fg ex_e.
Proof. split; [|now repeat split]. split; [|exact I]. now apply ex_shaped. Qed.
Lemma ex_on_sd : on_axis ex_sd ex_e.
Proof. split; [|now repeat split]. split; [|exact I]. now apply ex_shaped. Qed.

Theorem nld_energies_exact_refuted :
  exists fg sd e Ex_min Ex_max Eg_min ext fg' sd' s,
    on_axis fg e /\ on_axis sd e /\ equidistant e /\ 0 <= nth 0 e 0 /\ width e <= qz 2 * ext /\
    prepare fg sd Ex_min Ex_max Eg_min ext = ((fg', sd'), Ok s) /\
    exists ix ig, (ix < length (Ex fg'))%nat /\ (ig < length (Eg fg'))%nat /\
      let u := (Z.of_nat ix - Z.of_nat ig + iu0 (su_lim s))%Z in
      (0 <= u < Z.of_nat (length (nld_energies s)))%Z /\
      nth (Z.to_nat u) (nld_energies s) 0 = nth ix (Ex fg') 0 - nth ig (Eg fg') 0 + width e / qz 2.
Proof.
  exists ex_fg, ex_sd, ex_e, (qz 1), (qz 5), (qz 1), (qz 2).
  assert (P0 : 0 <= nth 0 ex_e 0) by (apply qleb_le; reflexivity).
  assert (Q0 : 0 <= qz 2) by (apply qleb_le; reflexivity).
  pose proof ex_on_fg as (C1 & S1 & X1 & G1). pose proof ex_on_sd as (C2 & S2 & X2 & G2).
  destruct (prepare_ok ex_fg ex_sd ex_e 1 (qz 1) (qz 5) (qz 1) (qz 2) C1 S1 X1 G1 C2 S2 X2 G2 ex_equi eq_refl)
    as (f1 & s1 & r1 & F1 & F2 & PR & _ & HS).
  destruct (extend_ok ex_fg ex_e 1 C1 S1 X1 G1 ex_equi) as (m1 & F1' & _ & _ & X1' & G1' & _).
  assert (m1 = f1) by congruence. subst m1.
  rewrite HS in PR; [|apply qleb_le; reflexivity|apply qltb_lt; reflexivity].
  exists f1, s1, (su_of ex_e 1 f1 (qz 1) (qz 5) (qz 1)).
  split; [apply ex_on_fg|]. split; [apply ex_on_sd|]. split; [apply ex_equi|]. split; [exact P0|].
  split; [apply qleb_le; reflexivity|]. split; [exact PR|]. exists 2%nat, 2%nat. rewrite X1', G1'.
  split; [cbn; lia|]. split; [cbn; lia|]. unfold su_of, nld_energies. cbv zeta.
  cbn [su_lim iu0 igmin jmax su_a0 su_a1]. rewrite tab_length.
  set (off := offset_of _ _). assert (OF : off = 1%Z) by reflexivity. rewrite OF. clear off OF.
  match goal with |- context [(bin_of ?a ?b (qz 5) + 1 - bin_of ?a ?b (qz 1) + 1)%Z] =>
    assert (BB : (bin_of a b (qz 5) + 1 - bin_of a b (qz 1) + 1)%Z = 4%Z) by reflexivity; rewrite BB; clear BB end.
  split; [cbn; lia|]. apply Qc_is_canon. reflexivity.
Qed.
Print Assumptions nld_energies_exact_refuted.

(* the hypotheses hold, and the limits of the example *)
Example limits_example :
  match prepare ex_fg ex_sd (qz 1) (qz 5) (qz 1) (qz 2) with
  | ((f, _), Ok s) =>
      map (fun x => qeqb (fst x) (snd x)) (combine (Ex f) [- qz 1; qz 1; qz 3; qz 5]) = [true; true; true; true] /\
      jmin (su_lim s) = 1%Z /\ jmax (su_lim s) = 4%Z /\ igmin (su_lim s) = 1%Z /\
      igmax (su_lim s) = [0; 2; 3; 4]%Z /\ iu0 (su_lim s) = 1%Z
  | _ => False end.
Proof. vm_compute. repeat split. Qed.

(* ------------------------------------------------ the members of an ensemble *)
Section Loop.
Context {V : Type}.
Variable finish : matrix -> matrix -> setup -> result V.

Lemma mk_shape v eg ex m : mk_matrix v (Some eg) (Some ex) None SNone = Ok m ->
  shape (values m) = (length ex, length eg) /\ Ex m = ex /\ Eg m = eg.
Proof.
  unfold mk_matrix. cbv zeta. unfold verify_integrity. cbn [values Ex Eg std].
  destruct (Nat.eqb_spec (a_nr v) (length ex)) as [A|]; [|discriminate].
  destruct (Nat.eqb_spec (a_nc v) (length eg)) as [B|]; [|discriminate].
  cbn [negb rbind set_state]. intros H. injection H as <-. cbn [values Ex Eg]. unfold shape.
  now rewrite A, B.
Qed.
Lemma pair_eqb_eq a b : pair_eqb a b = true -> a = b.
Proof.
  destruct a as [a1 a2], b as [b1 b2]. unfold pair_eqb. cbn. intros H.
  apply andb_prop in H as [H1 H2]. apply Nat.eqb_eq in H1, H2. congruence.
Qed.
(* once the uncertainties have another shape, no member can be computed *)
Lemma other_shape e members std Ex_min Ex_max Eg_min ext rs :
  shape (values std) <> (length e, length e) ->
  extract_members finish (e, e) members std Ex_min Ex_max Eg_min ext = Ok rs -> fresh members = 0%nat.
Proof.
  intros NS. revert rs. induction members as [|[r|v] ms IH]; intros rs; cbn [extract_members fresh fst snd].
  - reflexivity.
  - destruct (extract_members _ _ ms _ _ _ _ _) as [t|]; cbn [rbind]; [|discriminate].
    intros _. exact (IH t eq_refl).
  - destruct (mk_matrix v (Some e) (Some e) None SNone) as [fg|] eqn:M; cbn [rbind]; [|discriminate].
    destruct (mk_shape _ _ _ _ M) as (SH & _). unfold pyrhosigchi, prepare.
    destruct (pair_eqb (shape (values fg)) (shape (values std))) eqn:PE.
    + apply pair_eqb_eq in PE. congruence.
    + cbn [negb]. discriminate.
Qed.
Lemma prepare_shape fg sd e Ex_min Ex_max Eg_min ext fg' sd' s : Ex fg = e -> equidistant e ->
  (0 <= steps e ext)%Z ->
  prepare fg sd Ex_min Ex_max Eg_min ext = ((fg', sd'), Ok s) ->
  let n := Z.to_nat (Z.of_nat (length e) + steps e ext) in
  shape (values sd') = (n, n).
Proof.
  intros X E K. unfold prepare.
  destruct (pair_eqb _ _); cbn [negb]; [|discriminate].
  destruct (bcast_allclose (Ex fg) (Eg fg)) as [[|]|]; try discriminate.
  destruct (bcast_allclose (Ex fg) (Ex sd)) as [[|]|]; try discriminate.
  rewrite X, (extended_start_ok e ext E). cbv zeta beta. rewrite ?X, (last_equidistant e E). cbn [rbind].
  rewrite (arange_ok e (steps e ext) E). set (g := tab _ _).
  destruct (extend fg (Ok g)) as [f1 [u|]] eqn:F1; [|discriminate].
  destruct (extend_shape _ _ _ _ F1) as (_ & X1 & _). rewrite X1.
  assert (GL : g = longer e (Z.to_nat (steps e ext))) by (apply longer_Z; [exact E|lia]).
  destruct (longer_equidistant e (Z.to_nat (steps e ext)) E) as (E' & W').
  rewrite GL, (last_equidistant _ E'). cbn [rbind].
  rewrite (longer_longer e _ E). rewrite (arange_ok e (steps e ext) E). fold g.
  destruct (extend sd (Ok g)) as [s1 [u'|]] eqn:F2; [|discriminate].
  destruct (extend_shape _ _ _ _ F2) as (SH & _). intros H.
  repeat match type of H with context [if ?b then _ else _] => destruct b end; try discriminate.
  injection H as _ <- _. rewrite SH. unfold g. now rewrite tab_length.
Qed.

(* The loop over an ensemble computes at most one member: if the axes are extended at
   all, a run that ends normally has read every other member from files. *)
Theorem second_member_refused e members std Ex_min Ex_max Eg_min ext rs :
  equidistant e -> 0 <= nth 0 e 0 -> width e <= qz 2 * ext ->
  extract_members finish (e, e) members std Ex_min Ex_max Eg_min ext = Ok rs ->
  (fresh members <= 1)%nat.
Proof.
  intros E P Q. pose proof E as (L & W & _).
  assert (Q0 : 0 <= ext) by (clear - W Q; change (qz 2) with (1+1) in Q; qlra).
  assert (K : (1 <= steps e ext)%Z).
  { unfold steps.
    assert (H1 : 0 <= nth 0 e 0 / width e) by (apply Qcdiv_nonneg; qlra). apply qtrunc_pos in H1.
    assert (H2 : 1 <= ext / width e + qn 1 2).
    { assert (qn 1 2 <= ext / width e).
      { apply Qcdiv_le_r; [exact W|]. rewrite half_inv. clear - Q. set (w := width e) in *. clearbody w.
        change (qz 2) with (1+1) in *.
        assert (HH : / (1+1) * w * (1+1) = w) by (field; discriminate). qnra. }
      rewrite half_inv in *. assert (HH : / qz 2 + / qz 2 = 1) by (apply Qc_is_canon; reflexivity). qlra. }
    set (y := ext / width e + qn 1 2) in *.
    rewrite (qtrunc_nonneg y) by qlra. destruct (qfloor_spec y) as [_ B].
    assert (qz 0 < qz (qfloor y)) by (rewrite qz_0; qlra). apply (proj2 (qz_lt _ _)) in H. lia. }
  revert std rs. induction members as [|[r|v] ms IH]; intros std rs; cbn [extract_members fresh fst snd].
  - lia.
  - destruct (extract_members _ _ ms _ _ _ _ _) as [t|] eqn:R; cbn [rbind]; [|discriminate].
    intros _. exact (IH _ _ R).
  - destruct (mk_matrix v (Some e) (Some e) None SNone) as [fg|] eqn:M; cbn [rbind]; [|discriminate].
    destruct (mk_shape _ _ _ _ M) as (_ & X & _). unfold pyrhosigchi.
    destruct (prepare fg std Ex_min Ex_max Eg_min ext) as [[f1 s1] [s|]] eqn:PR; [|discriminate].
    destruct (finish f1 s1 s); [|discriminate].
    destruct (extract_members _ _ ms _ _ _ _ _) as [t|] eqn:R; cbn [rbind]; [|discriminate].
    intros _. apply other_shape in R; [lia|].
    assert (K0 : (0 <= steps e ext)%Z) by lia.
    rewrite (prepare_shape _ _ _ _ _ _ _ _ _ _ X E K0 PR). cbv zeta. intros H. apply (f_equal fst) in H. cbn [fst] in H. lia.
Qed.
(* members read from files do not need the uncertainties *)
Theorem saved_members axes rs std Ex_min Ex_max Eg_min ext :
  extract_members finish axes (map Saved rs) std Ex_min Ex_max Eg_min ext = Ok rs.
Proof. induction rs as [|r rs IH]; cbn [map extract_members]; [reflexivity|]. rewrite IH. reflexivity. Qed.
End Loop.
Print Assumptions second_member_refused.
Print Assumptions saved_members.

(* the first member can be computed, the second one is refused *)
Example one_member_works :
  extract_members (fun _ _ s => Ok (jmax (su_lim s))) (ex_e, ex_e) [Saved 7%Z; Fresh (values ex_fg)] ex_sd
    (qz 1) (qz 5) (qz 1) (qz 2) = Ok [7; 4]%Z.
Proof. vm_compute. reflexivity. Qed.
Example second_member_raises :
  extract_members (fun _ _ s => Ok (jmax (su_lim s))) (ex_e, ex_e) [Fresh (values ex_fg); Fresh (values ex_fg)] ex_sd
    (qz 1) (qz 5) (qz 1) (qz 2) = Raise ValueError.
Proof. vm_compute. reflexivity. Qed.
