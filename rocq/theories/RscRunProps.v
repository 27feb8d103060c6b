(* The whole of pyrhosigchi up to the iterations runs through if no counts lie too far
   above the diagonal (C88). *)
From Coq Require Import String.
From Verif Require Import PyBase Axis MatrixModel MatrixSpec RebinModel RebinSpec RebinProofs
  Rebin2DProofs MatrixRebinProofs VectorModel ArithModel RhosigchiModel RhosigchiSpec
  RhosigchiProofs RhosigchiProps ExtractorProofs RscSetupModel RscSetupSpec RscSetupProofs RscSetupProps RscHelpersProps.
Local Open Scope Qc_scope.

Lemma normalize_row_length lo hi row r : normalize_row lo hi row = Some r -> length r = length row.
Proof.
  unfold normalize_row. destruct (_ && _); [discriminate|]. intros E. injection E as <-. apply tab_length.
Qed.
Lemma entry_in row j : (0 <= j < Z.of_nat (length row))%Z -> In (entry row j) row.
Proof. intros H. unfold entry. replace (j <? 0)%Z with false by lia. apply nth_In. lia. Qed.
Lemma py_slice_entry row lo hi j : (0 <= lo)%Z -> (lo <= j < hi)%Z -> (hi <= Z.of_nat (length row))%Z ->
  In (entry row j) (py_slice row lo hi).
Proof.
  intros A B C. unfold py_slice, slice_bound.
  replace (lo <? 0)%Z with false by lia. replace (hi <? 0)%Z with false by lia.
  cbv zeta. rewrite !Z.min_r by lia.
  unfold entry. replace (j <? 0)%Z with false by lia.
  set (l := firstn _ _). replace (nth (Z.to_nat j) row 0) with (nth (Z.to_nat (j - lo)) l 0).
  - apply nth_In. unfold l. rewrite firstn_length, skipn_length. lia.
  - unfold l. rewrite nth_firstn_lt by lia. rewrite nth_skipn. f_equal. lia.
Qed.
Lemma normalize_row_ok lo row g : (0 <= lo)%Z -> nonneg row ->
  one_past (fun j => 0 < entry row j) lo (Z.of_nat (length row)) 0 g ->
  exists r, normalize_row lo g row = Some r.
Proof.
  intros L N [(-> & H)|(j & J & P & -> & H)].
  - unfold normalize_row. assert (E : py_slice row lo 0 = []).
    { unfold py_slice, slice_bound. cbn [Z.ltb Z.compare]. replace (lo <? 0)%Z with false by lia.
      match goal with |- firstn ?n _ = _ => replace n with 0%nat by lia end. reflexivity. }
    rewrite E. cbn [length Nat.eqb negb]. rewrite andb_false_r. eauto.
  - destruct (normalize_row_nonneg lo (j + 1) row N) as (r & E & _); [|eauto].
    exists (entry row j). split; [apply py_slice_entry; lia|exact P].
Qed.
Lemma normalize_rows_ok L m : forall i, (0 <= i)%Z ->
  (forall k, (k < length m)%nat -> (jmin L <= i + Z.of_nat k < jmax L)%Z ->
     exists gm r, zget (igmax L) (i + Z.of_nat k) = Some gm /\ normalize_row (igmin L) gm (nth k m []) = Some r) ->
  exists out, normalize_rows L i m = Ok (Some out) /\ map (@length Qc) out = map (@length Qc) m.
Proof.
  induction m as [|row m IH]; intros i I H; cbn [normalize_rows].
  - now exists [].
  - destruct (IH (i + 1)%Z ltac:(lia)) as (out & E & LO).
    { intros k K R. replace (i + 1 + Z.of_nat k)%Z with (i + Z.of_nat (S k))%Z in * by lia.
      apply (H (S k)); [cbn; lia|exact R]. }
    rewrite E. cbn [rbind]. destruct ((jmin L <=? i)%Z && (i <? jmax L)%Z) eqn:B.
    + destruct (H 0%nat) as (gm & r & Z0 & NR); [cbn; lia|lia|]. cbn [nth] in NR.
      replace (i + Z.of_nat 0)%Z with i in Z0 by lia.
      rewrite (proj2 (at_zget true _ _ _ I) Z0). cbn [rbind]. rewrite NR.
      eexists. split; [reflexivity|]. cbn [map]. rewrite LO, (normalize_row_length _ _ _ _ NR). reflexivity.
    + cbn [option_map]. eexists. split; [reflexivity|]. cbn [map]. now rewrite LO, repeat_length.
Qed.

Lemma gsf_start_ok L F nc n : (0 <= jmin L)%Z -> (0 <= igmin L)%Z ->
  (forall ix, (jmin L <= ix < jmax L)%Z -> exists gm row, zget (igmax L) ix = Some gm /\ zget F ix = Some row /\
     length row = nc /\ (gm <= Z.of_nat nc)%Z /\ (gm <= Z.of_nat n)%Z) ->
  exists g, gsf_start L F n = Ok g /\ length g = n.
Proof.
  intros J G H. unfold gsf_start. apply (loop_ok (fun l => length l = n)); [apply repeat_length|].
  intros ix acc IX LA. apply in_zrange in IX. destruct (H ix IX) as (gm & row & Z1 & Z2 & LR & G1 & G2).
  assert (X0 : (0 <= ix)%Z) by lia. rewrite (proj2 (at_zget true _ _ _ X0) Z1). cbn [rbind].
  apply (loop_ok (fun l => length l = n)); [exact LA|].
  intros ig a IG A. apply in_zrange in IG. unfold at2.
  rewrite (proj2 (at_zget true F ix row X0) Z2). cbn [rbind].
  destruct (zget_some row ig) as (x & Z3); [lia|].
  rewrite (proj2 (at_zget true row ig x ltac:(lia)) Z3). cbn [rbind].
  destruct (zget_some a ig) as (y & Z4); [lia|].
  rewrite (proj2 (at_zget true a ig y ltac:(lia)) Z4). cbn [rbind].
  rewrite set_ok by lia. eexists. split; [reflexivity|]. now rewrite upd_length.
Qed.

Lemma fold_max_bound l b : forall a, (a <= b)%Z -> (forall x, In x l -> (x <= b)%Z) -> (fold_left Z.max l a <= b)%Z.
Proof.
  induction l as [|y l IH]; intros a A H; [exact A|]. cbn [fold_left]. apply IH.
  - specialize (H y (or_introl eq_refl)). lia.
  - intros x I. apply H. now right.
Qed.
Lemma zmax_bound l b : (0 <= b)%Z -> (forall x, In x l -> (x <= b)%Z) -> (zmax l <= b)%Z.
Proof.
  intros B H. unfold zmax. apply fold_max_bound; [|exact H]. destruct l as [|x l]; [exact B|]. apply H. now left.
Qed.

(* a prepared matrix: nothing more than u0 bins above the diagonal *)
Lemma run_ok m n sm imin imax lo u0 nit :
  rect m n n -> rect sm n n -> (forall r, In r m -> nonneg r) ->
  (0 <= imin)%Z -> (0 <= lo)%Z -> (0 <= u0)%Z -> (0 <= imax <= Z.of_nat n)%Z -> (lo <= imax + u0)%Z ->
  (forall ix ig, (imin <= ix < imax)%Z -> (lo <= ig < Z.of_nat n)%Z -> 0 < entry2 m ix ig -> (ig <= ix + u0)%Z) ->
  exists rows, run m sm imin imax lo u0 nit = Ok (Some rows).
Proof.
  intros R RS NN I0 L0 U0 IM LI DG. unfold run. set (L := mkLim imin imax lo (find_igmax m imin imax lo) u0).
  pose proof R as (RL & RR). pose proof RS as (SL & SR).
  assert (GL : length (igmax L) = Z.to_nat imax) by apply tab_length.
  assert (OP : forall ix, (imin <= ix < imax)%Z -> exists gm, zget (igmax L) ix = Some gm /\
    one_past (fun j => 0 < entry (nth (Z.to_nat ix) m []) j) lo (Z.of_nat n) 0 gm).
  { intros ix H. exists (last_positive (nth (Z.to_nat ix) m []) lo). split.
    - unfold zget. replace (ix <? 0)%Z with false by lia.
      rewrite (nth_error_nth' _ 0%Z) by (rewrite GL; lia). f_equal. cbn [igmax L]. unfold find_igmax. rewrite nth_tab by lia.
      replace (imin <=? Z.of_nat (Z.to_nat ix))%Z with true by (symmetry; apply Z.leb_le; lia). reflexivity.
    - pose proof (last_positive_spec (nth (Z.to_nat ix) m []) lo L0) as LP.
      rewrite (rect_row m n n) in LP; [exact LP|exact R|lia]. }
  assert (GB : forall ix gm, (imin <= ix < imax)%Z -> zget (igmax L) ix = Some gm ->
    (gm <= ix + u0 + 1)%Z /\ (gm <= Z.of_nat n)%Z).
  { intros ix gm H Z0. destruct (OP ix H) as (gm' & Z1 & O). assert (gm' = gm) by congruence. subst gm'.
    destruct O as [(-> & _)|(j & J & P & -> & _)]; [lia|].
    assert (D : (j <= ix + u0)%Z).
    { apply DG; [exact H|exact J|]. unfold entry2. now replace (ix <? 0)%Z with false by lia. }
    lia. }
  destruct (normalize_rows_ok L m 0 ltac:(lia)) as (F & NF & LF).
  { intros k K H. replace (0 + Z.of_nat k)%Z with (Z.of_nat k) in * by lia.
    destruct (OP (Z.of_nat k) H) as (gm & Z0 & O). exists gm. rewrite Nat2Z.id in O.
    destruct (normalize_row_ok lo (nth k m []) gm L0) as (r & E).
    - apply NN, nth_In, K.
    - rewrite (rect_row m n n); [exact O|exact R|lia].
    - exists r. split; [exact Z0|exact E]. }
  unfold normalize. rewrite NF. cbn [rbind fst snd].
  assert (LFF : length F = n) by (rewrite <- (map_length (@length Qc) F), LF, map_length; exact RL).
  assert (FR : forall ix, (0 <= ix < Z.of_nat n)%Z -> exists row, zget F ix = Some row /\ length row = n).
  { intros ix H. destruct (zget_some F ix) as (row & Z0); [lia|]. exists row. split; [exact Z0|].
    unfold zget in Z0. replace (ix <? 0)%Z with false in Z0 by lia.
    apply (map_nth_error (@length Qc)) in Z0. rewrite LF in Z0.
    rewrite (nth_error_nth' _ 0%nat) in Z0 by (rewrite map_length; lia). injection Z0 as <-.
    change 0%nat with (length (@nil Qc)). rewrite map_nth. apply (rect_row m n n); [exact R|lia]. }
  destruct (gsf_start_ok L F n (Z.to_nat (imax + u0))) as (g0 & GS & LG).
  { exact I0. } { exact L0. }
  { intros ix H. cbn [jmin jmax L] in H. destruct (OP ix H) as (gm & Z0 & _). destruct (GB ix gm H Z0) as (B1 & B2).
    destruct (FR ix ltac:(lia)) as (row & Z1 & LR). exists gm, row. repeat split; auto; lia. }
  rewrite GS. cbn [rbind].
  set (nr := Z.to_nat (imax - lo + u0)).
  assert (MX : (maxig L <= imax + u0)%Z /\ (maxig L <= Z.of_nat n)%Z).
  { assert (B : forall x, In x (igmax L) -> (x <= Z.min (imax + u0) (Z.of_nat n))%Z).
    { intros x I. apply (In_nth _ _ 0%Z) in I as (i & HI & E). rewrite GL in HI.
      destruct (Z_le_gt_dec imin (Z.of_nat i)) as [C|C].
      - assert (Z0 : zget (igmax L) (Z.of_nat i) = Some x).
        { unfold zget. replace (Z.of_nat i <? 0)%Z with false by lia. rewrite Nat2Z.id.
          rewrite (nth_error_nth' _ 0%Z) by (rewrite GL; lia). now rewrite E. }
        destruct (GB (Z.of_nat i) x ltac:(lia) Z0). lia.
      - assert (x = 0%Z); [|lia]. rewrite <- E. cbn [igmax L]. unfold find_igmax. rewrite nth_tab by lia.
        replace (imin <=? Z.of_nat i)%Z with false by (symmetry; apply Z.leb_gt; lia). reflexivity. }
    unfold maxig. pose proof (zmax_bound (igmax L) (Z.min (imax + u0) (Z.of_nat n)) ltac:(lia) B). lia. }
  destruct (iterate_safe false F sm L (repeat 1 nr) g0 (Nat.pred nit)) as (out & E).
  { unfold fits. cbn [jmin jmax igmin iu0 L]. rewrite repeat_length. unfold nr. rewrite LG.
    assert (GL' : (imax <= Z.of_nat (length (igmax L)))%Z) by (rewrite GL; lia).
    split; [exact I0|]. split; [exact L0|]. split; [exact U0|]. split; [exact GL'|].
    split; [lia|]. split; [lia|]. split; [lia|]. split.
    - intros ix gm H Z0. apply (GB ix gm H Z0).
    - intros ix H. destruct (FR ix ltac:(lia)) as (row & Z1 & LR).
      destruct (zget_some sm ix) as (sr & Z2); [lia|]. exists row, sr.
      assert (length sr = n).
      { apply SR. eapply zget_In; exact Z2. }
      repeat split; auto; lia. }
  rewrite repeat_length, LG in E. rewrite E. cbn [rmap]. eauto.
Qed.

Lemma entry2_mget m i j : (0 <= i)%Z -> (0 <= j)%Z -> entry2 m i j = mget m (Z.to_nat i) (Z.to_nat j).
Proof.
  intros A B. unfold entry2, entry, mget, vget. now replace (i <? 0)%Z with false by lia; replace (j <? 0)%Z with false by lia.
Qed.

(* the number of bins below zero covers the extension up to one bin *)
Lemma offset_enough e ext x ix ig : 0 < width e -> 0 <= x -> width e <= ext -> nth 0 e 0 = x ->
  (qz ig - qz ix) * width e <= ext - width e ->
  Z.le ig (ix + offset_of (x - qz (steps e ext) * width e) (width e)).
Proof.
  intros W P Q XE DG. unfold steps. rewrite XE. set (w := width e) in *. clearbody w. clear XE e.
  assert (WN : w <> 0) by (now apply Qclt_neq).
  set (f := x / w). assert (F0 : 0 <= f) by (apply Qcdiv_nonneg; [exact P|now apply Qclt_le_weak]).
  set (q := ext / w). assert (EW : 1 <= q) by (apply Qcdiv_le_r; [exact W|qlra]).
  assert (D1 : qz ig - qz ix <= q - 1).
  { assert (E1 : ext = q * w) by (unfold q; field; exact WN). clearbody q f. subst ext.
    clear - DG W. destruct (qleb_spec (qz ig - qz ix) (q - 1)) as [T|T]; [exact T|]. exfalso.
    set (a := qz ig) in *. set (b := qz ix) in *. clearbody a b. qnra. }
  assert (AX : (x - qz (qtrunc f + qtrunc (q + qn 1 2)) * w) / w = f - qz (qtrunc f) - qz (qtrunc (q + qn 1 2))).
  { rewrite qz_add. unfold f. field. exact WN. }
  unfold offset_of. rewrite AX. clear AX. destruct (frac_bounds f F0) as (B1 & B2).
  set (d := f - qz (qtrunc f)) in *. clearbody d q. clear - B1 B2 D1 EW.
  assert (H0 : 0 < qn 1 2) by (apply qltb_lt; reflexivity).
  assert (HH : qn 1 2 + qn 1 2 = 1) by (apply Qc_is_canon; reflexivity).
  set (h := qn 1 2) in *. clearbody h.
  rewrite (qtrunc_nonneg (q + h)) by qlra. destruct (qfloor_spec (q + h)) as [B3 B4].
  set (t := qfloor (q + h)) in *. clearbody t.
  assert (T1 : qz 0 < qz t) by (rewrite qz_0; qlra).
  assert (T2 : 1 <= qz t).
  { rewrite <- qz_1. apply (proj1 (qz_le _ _)). apply (proj2 (qz_lt _ _)) in T1. lia. }
  assert (AB : qabs (d - qz t) = qz t - d).
  { destruct (qabs_spec (d - qz t)) as [[? ?]|[? ->]]; [qlra|ring]. }
  rewrite AB. rewrite qtrunc_nonneg by qlra. destruct (qfloor_spec (qz t - d + h)) as [_ B5].
  set (u := qfloor (qz t - d + h)) in *. clearbody u.
  assert (D2 : qz (ig - ix) < qz t) by (rewrite qz_sub; qlra).
  assert (D3 : qz (t - 1) < qz (u + 1)) by (rewrite qz_sub, qz_add, qz_1; qlra).
  apply (proj2 (qz_lt _ _)) in D2, D3. lia.
Qed.

(* The counts are not negative and lie at most ext minus one bin width above the diagonal:
   then nothing fails, nothing is nan. *)
Theorem pyrhosigchi_runs fg sd e Ex_min Ex_max Eg_min ext nit :
  on_axis fg e -> on_axis sd e -> equidistant e -> 0 <= nth 0 e 0 -> width e <= ext ->
  (forall i j, 0 <= mget (a_rows (values fg)) i j) ->
  (forall i j, (i < length e)%nat -> (j < length e)%nat -> 0 < mget (a_rows (values fg)) i j ->
     nth j e 0 <= nth i e 0 + ext - width e) ->
  0 <= Ex_min -> 0 <= Eg_min -> Ex_min <= Ex_max -> Eg_min <= Ex_max -> Ex_max < axis_hi e ->
  exists fg' sd' s, prepare fg sd Ex_min Ex_max Eg_min ext = ((fg', sd'), Ok s) /\
    let L := su_lim s in
    exists rows, run (a_rows (values fg')) (a_rows (values sd')) (jmin L) (jmax L) (igmin L) (iu0 L) nit
      = Ok (Some rows).
Proof.
  intros O1 O2 E P Q NN DG X0 G0 XX GX HX. pose proof E as (LE & W & NE).
  assert (Q0 : 0 <= ext) by qlra.
  destruct (extension_keeps_counts fg sd e Ex_min Ex_max Eg_min ext O1 O2 E P Q0)
    as (k & fg' & sd' & r & PR & e' & (ML & ME & MW & MN) & A1 & A2 & M1 & _).
  pose proof A1 as (C1 & _ & EX & EG).
  pose proof A2 as (C2 & _ & EX2 & EG2).
  assert (LO : axis_lo e' <= 0 /\ axis_hi e' = axis_hi e /\
          (forall s, r = Ok s -> iu0 (su_lim s) = offset_of (nth 0 e' 0) (width e)) /\
          nth 0 e' 0 = nth 0 e 0 - qz (steps e ext) * width e).
  { pose proof O1 as (C1' & S1 & X1 & G1). pose proof O2 as (C2' & S2 & X2 & G2).
    pose proof (steps_nonneg e ext E P Q0) as K.
    assert (KE : steps e ext = Z.of_nat (Z.to_nat (steps e ext))) by lia.
    destruct (prepare_ok fg sd e _ Ex_min Ex_max Eg_min ext C1' S1 X1 G1 C2' S2 X2 G2 E KE)
      as (f1 & s1 & r1 & F1 & F2 & PR' & HS & _).
    destruct (extend_ok fg e (Z.to_nat (steps e ext)) C1' S1 X1 G1 E) as (m1 & F1' & _ & _ & XL & _).
    assert (f1 = fg' /\ r1 = r) as [-> ->] by (split; congruence).
    assert (m1 = fg') by congruence. subst m1.
    assert (e' = longer e (Z.to_nat (steps e ext))) by congruence.
    assert (N0 : nth 0 e' 0 = nth 0 e 0 - qz (steps e ext) * width e).
    { rewrite H. unfold longer. rewrite nth_tab by lia. rewrite qnat_0. unfold qnat. rewrite Z2Nat.id by lia. ring. }
    assert (KL : length e' = (Z.to_nat (steps e ext) + length e)%nat) by (rewrite H; apply tab_length).
    split; [|split; [|split]].
    - unfold axis_lo, bin_lo. rewrite MW, N0.
      (* first energy of the new axis is below half a bin *)
      unfold steps. rewrite qz_add. set (w := width e) in *.
      assert (WN : w <> 0) by (now apply Qclt_neq).
      set (f := nth 0 e 0 / w). assert (F0 : 0 <= f) by (apply Qcdiv_nonneg; qlra).
      destruct (frac_bounds f F0) as (B1 & B2).
      set (g := ext / w + qn 1 2).
      assert (HH : qn 1 2 + qn 1 2 = 1) by (apply Qc_is_canon; reflexivity).
      assert (G1' : 1 <= g).
      { unfold g. assert (1 <= ext / w) by (apply Qcdiv_le_r; [exact W|qlra]).
        assert (0 <= qn 1 2) by (apply qleb_le; reflexivity). qlra. }
      destruct (qfloor_spec g) as [_ B3]. rewrite (qtrunc_nonneg g) by qlra.
      assert (qz 1 <= qz (qfloor g)).
      { apply (proj1 (qz_le _ _)). assert (qz 0 < qz (qfloor g)) by (rewrite qz_0; qlra).
        apply (proj2 (qz_lt _ _)) in H0. lia. }
      rewrite qz_1 in H0. assert (FE : nth 0 e 0 = f * w) by (unfold f; field; exact WN).
      rewrite FE. assert (HW : w / qz 2 = qn 1 2 * w) by (rewrite half_inv; unfold Qcdiv; ring). rewrite HW.
      set (a := qz (qtrunc f)) in *. set (b := qz (qfloor g)) in *. clearbody a b f w. clear - B1 B2 H0 HH W.
      set (h := qn 1 2) in *. assert (0 < h) by qlra. clearbody h. qnra.
    - rewrite (axis_hi_eq e' ME), (axis_hi_eq e E). unfold axis_lo, bin_lo. rewrite MW, N0, KL, qnat_add.
      unfold qnat at 1. rewrite Z2Nat.id by lia. ring.
    - intros s RS. rewrite (HS s RS). unfold su_of. cbn [su_lim iu0]. now rewrite <- H.
    - exact N0. }
  destruct LO as (LO & HI & HU & N0).
  destruct (limits_contain_energies fg sd e Ex_min Ex_max Eg_min ext fg' sd' r e' O1 O2 E P Q0 PR EX)
    as (s & RS & IX0 & IX1 & IG & GLEN & OPs); try (rewrite ?HI; qlra).
  exists fg', sd', s. split; [now rewrite PR, RS|]. cbv zeta. set (L := su_lim s) in *.
  destruct IX0 as ((J0 & J1) & _). destruct IX1 as ((K0 & K1) & K2 & K3). destruct IG as ((I0 & I1) & I2 & I3).
  assert (U0 : (0 <= iu0 L)%Z).
  { unfold L. rewrite (HU s RS). unfold offset_of. apply qtrunc_pos.
    assert (0 <= qabs (nth 0 e' 0 / width e)) by (destruct (qabs_spec (nth 0 e' 0 / width e)) as [[? ->]|[? ->]]; qlra).
    assert (0 <= qn 1 2) by (apply qleb_le; reflexivity). qlra. }
  assert (RM : rect (a_rows (values fg')) (length e') (length e')).
  { destruct C1 as [SH _]. rewrite EX, EG in SH. apply (shaped_rect _ _ _ SH). }
  assert (RM2 : rect (a_rows (values sd')) (length e') (length e')).
  { destruct C2 as [SH _]. rewrite EX2, EG2 in SH. apply (shaped_rect _ _ _ SH). }
  unfold moved in M1. destruct O1 as (_ & _ & OX & OG). rewrite OX, OG in M1.
  assert (GE : (igmin L <= jmax L + iu0 L)%Z).
  { (* both bins contain their energy *)
    destruct (Z_le_gt_dec (igmin L) (jmax L)) as [C|C]; [lia|].
    destruct ME as (_ & W' & N'). exfalso. unfold bin_lo, bin_hi in *.
    rewrite (N' (Z.to_nat (jmax L - 1))) in K3 by lia. rewrite (N' (Z.to_nat (igmin L))) in I2 by lia.
    unfold qnat in K3, I2. rewrite Z2Nat.id in K3, I2 by lia.
    assert (D : qz (jmax L - 1 + 1) < qz (igmin L)) by (apply (proj1 (qz_lt _ _)); lia).
    rewrite qz_add, qz_1 in D. rewrite MW in *.
    set (a := nth 0 e' 0) in *. set (w := width e) in *. set (x := qz (jmax L - 1)) in *. set (y := qz (igmin L)) in *.
    assert (HW : w / qz 2 = qn 1 2 * w) by (rewrite half_inv; unfold Qcdiv; ring). rewrite HW in *.
    assert (HH : qn 1 2 + qn 1 2 = 1) by (apply Qc_is_canon; reflexivity).
    set (h := qn 1 2) in *. clearbody a w x y h. clear - K3 I2 D W GX HH.
    assert (y * w - h * w < x * w + h * w) by qlra.
    assert (x * w + w < y * w) by qnra. assert (h * w + h * w = w) by (replace (h * w + h * w) with ((h + h) * w) by ring; rewrite HH; ring). qlra. }
  apply (run_ok _ (length e')); auto; try lia.
  - intros row HR x IN. apply (In_nth _ _ []) in HR as (i & HI' & <-). apply (In_nth _ _ 0) in IN as (j & HJ & <-).
    destruct RM as (RM & RR). rewrite RM in HI'. rewrite (RR (nth i _ [])) in HJ by (apply nth_In; lia).
    specialize (M1 i j ltac:(lia) ltac:(lia)). unfold mget, vget in M1 |- *. rewrite M1.
    destruct (_ || _); [apply Qcle_refl|]. apply NN.
  - intros ix ig HI' HJ PP. rewrite entry2_mget in PP by lia. rewrite M1 in PP by lia.
    destruct (Nat.ltb_spec (Z.to_nat ix) k) as [C|C]; cbn [orb] in PP; [exfalso; exact (Qclt_not_le _ _ PP (Qcle_refl _))|].
    destruct (Nat.ltb_spec (Z.to_nat ig) k) as [D|D]; [exfalso; exact (Qclt_not_le _ _ PP (Qcle_refl _))|].
    specialize (DG (Z.to_nat ix - k)%nat (Z.to_nat ig - k)%nat ltac:(lia) ltac:(lia) PP).
    rewrite (NE (Z.to_nat ix - k)%nat), (NE (Z.to_nat ig - k)%nat) in DG by lia. rewrite !qnat_sub in DG by lia. unfold qnat in DG. rewrite !Z2Nat.id in DG by lia.
    unfold L. rewrite (HU s RS).
    rewrite N0. apply (offset_enough e ext (nth 0 e 0)); [exact W|exact P|exact Q|reflexivity|].
    clear - DG. set (x := nth 0 e 0) in *. set (w := width e) in *. clearbody x w. qlra.
Qed.
Print Assumptions pyrhosigchi_runs.

(* the matrix of the examples meets the hypotheses *)
Example runs_ex :
  (forall i j, 0 <= mget (a_rows (values ex_fg)) i j) /\
  (forall i j, (i < length ex_e)%nat -> (j < length ex_e)%nat -> 0 < mget (a_rows (values ex_fg)) i j ->
     nth j ex_e 0 <= nth i ex_e 0 + qz 2 - width ex_e) /\
  width ex_e <= qz 2 /\ qz 5 < axis_hi ex_e.
Proof.
  split; [|split; [|split; [apply qleb_le; reflexivity|apply qltb_lt; reflexivity]]].
  - intros [|[|[|[|i]]]] [|[|[|[|j]]]]; apply qleb_le; reflexivity.
  - intros [|[|[|i]]] [|[|[|j]]] I J; cbn [length ex_e] in I, J; try lia; intros H; apply qltb_lt in H;
      try (apply qleb_le; reflexivity); vm_compute in H; discriminate H.
Qed.
Example runs_ex_result :
  match prepare ex_fg ex_sd (qz 1) (qz 5) (qz 1) (qz 2) with
  | ((f, g), Ok s) =>
      match run (a_rows (values f)) (a_rows (values g)) (jmin (su_lim s)) (jmax (su_lim s)) (igmin (su_lim s)) (iu0 (su_lim s)) 2 with
      | Ok (Some rows) => Nat.eqb (length rows) 2 | _ => false end
  | _ => false end = true.
Proof. vm_compute. reflexivity. Qed.
