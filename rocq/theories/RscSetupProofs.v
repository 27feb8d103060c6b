(* Lemmas about the preparation of rhosigchi. *)
From Coq Require Import String.
From Verif Require Import PyBase Axis MatrixModel MatrixSpec RebinModel RebinSpec RebinProofs
  Rebin2DProofs MatrixRebinProofs VectorModel ArithModel RhosigchiModel RhosigchiSpec
  RhosigchiProofs ExtractorProofs RscSetupModel.
Local Open Scope Qc_scope.

Lemma qfloor_qz z : qfloor (qz z) = z.
Proof. apply qfloor_unique; [apply Qcle_refl|]. qlra. Qed.

(* ------------------------------------------------ the extended axis *)
Definition steps (e : list Qc) (ext : Qc) : Z :=
  Z.add (qtrunc (nth 0 e 0 / width e)) (qtrunc (ext / width e + qn 1 2)).
(* the axis with k more bins below *)
Definition longer (e : list Qc) (k : nat) : list Qc :=
  tab (k + length e) (fun i => nth 0 e 0 - qnat k * width e + qnat i * width e).

Lemma extended_start_ok e ext : equidistant e ->
  extended_start e ext = Ok (nth 0 e 0 - qz (steps e ext) * width e, width e).
Proof.
  intros E. pose proof E as (_ & W & _). destruct (equidistant_cons2 _ E) as (a & b & t & ->).
  unfold extended_start. cbn [first_two rbind fst snd].
  change (b - a) with (width (a :: b :: t)). set (w := width (a :: b :: t)) in *.
  assert (N : w <> 0) by (now apply Qclt_neq).
  destruct (qeqb_spec w 0); [contradiction|].
  unfold steps. fold w. cbn [nth]. rewrite qz_add. f_equal. f_equal.
  field. exact N.
Qed.
Lemma last_nth (l : list Qc) d d' : l <> [] -> last l d = nth (length l - 1) l d'.
Proof.
  induction l as [|x l IH]; intros N; [contradiction|].
  destruct l as [|y l]; [reflexivity|].
  change (last (x :: y :: l) d) with (last (y :: l) d). rewrite IH by discriminate.
  cbn [length]. replace (S (S (length l)) - 1)%nat with (S (S (length l) - 1)) by lia. reflexivity.
Qed.
Lemma last_equidistant e : equidistant e ->
  last_of e = Ok (nth 0 e 0 + qnat (length e - 1) * width e).
Proof.
  intros E. pose proof E as (L & _ & N). rewrite <- N by lia.
  unfold last_of. destruct e as [|a t]; [cbn in L; lia|]. f_equal. now apply last_nth.
Qed.
Lemma arange_ok e k : equidistant e ->
  arange (nth 0 e 0 - qz k * width e) (nth 0 e 0 + qnat (length e - 1) * width e + width e) (width e)
  = Ok (tab (Z.to_nat (Z.of_nat (length e) + k))
         (fun i => nth 0 e 0 - qz k * width e + qnat i * width e)).
Proof.
  intros (L & W & _). assert (N : width e <> 0) by (now apply Qclt_neq). unfold arange.
  destruct (qeqb_spec (width e) 0); [contradiction|]. do 3 f_equal.
  match goal with |- qceil ?x = _ => replace x with (qz (Z.of_nat (length e) + k)) end.
  - apply qceil_qz.
  - rewrite qz_add. fold (qnat (length e)). rewrite qnat_sub by lia. rewrite qnat_1. field. exact N.
Qed.
Lemma longer_equidistant e k : equidistant e -> equidistant (longer e k) /\
  width (longer e k) = width e.
Proof.
  intros (L & W & _). unfold longer.
  assert (V : width (tab (k + length e) (fun i => nth 0 e 0 - qnat k * width e + qnat i * width e)) = width e).
  { unfold width at 1. rewrite !nth_tab by lia. rewrite qnat_0, qnat_1. ring. }
  split; [|exact V]. split; [rewrite tab_length; lia|]. rewrite V. split; [exact W|].
  intros i Hi. rewrite tab_length in Hi. rewrite !nth_tab by lia. rewrite qnat_0. ring.
Qed.
Lemma longer_nth e k i : equidistant e -> (i < length e)%nat ->
  nth (k + i) (longer e k) 0 = nth i e 0.
Proof.
  intros (L & W & N) Hi. unfold longer. rewrite nth_tab by lia. rewrite (N i Hi), qnat_add. ring.
Qed.

Lemma width_pos_shift (w x y : Qc) : 0 < w -> x < y -> w * x < w * y.
Proof. intros. qnra. Qed.

(* spreading over the longer axis moves the counts up by k bins *)
Lemma rebin_longer counts e k i : equidistant e -> length counts = length e ->
  (i < k + length e)%nat ->
  rebin_spec counts e (longer e k) i = if (i <? k)%nat then 0 else vget counts (i - k).
Proof.
  intros E C Hi. destruct (longer_equidistant e k E) as (E' & W').
  pose proof E as (L & W & _).
  assert (LL : length (longer e k) = (k + length e)%nat) by apply tab_length.
  assert (AL : axis_lo (longer e k) = axis_lo e - qnat k * width e).
  { unfold axis_lo, bin_lo. rewrite W'. unfold longer. rewrite nth_tab by lia. rewrite qnat_0. ring. }
  assert (B : forall j, (j < length e)%nat ->
    vget counts j * part_in (bin_lo (longer e k) i) (bin_hi (longer e k) i) (bin_lo e j) (bin_hi e j) / width e
    = if (i =? k + j)%nat then vget counts j else 0).
  { intros j Hj. rewrite !bin_hi_lo, W'. rewrite !bin_lo_eq by (assumption || lia). rewrite W', AL.
    assert (N : width e <> 0) by (now apply Qclt_neq).
    destruct (Nat.eqb_spec i (k + j)) as [->|D].
    - rewrite part_in_full.
      + field. exact N.
      + rewrite qnat_add. qlra.
      + qlra.
      + rewrite qnat_add. qlra.
    - destruct (Nat.lt_ge_cases i (k + j)) as [H|H].
      + rewrite part_in_none_r; [unfold Qcdiv; ring| |qlra|qlra].
        assert (G : qnat (S i) <= qnat (k + j)) by (apply (proj1 (qnat_le _ _)); lia).
        rewrite qnat_S, qnat_add in G. revert G W. clear. intros. qnra.
      + rewrite part_in_none_l; [unfold Qcdiv; ring| |qlra|qlra].
        assert (G : qnat (S (k + j)) <= qnat i) by (apply (proj1 (qnat_le _ _)); lia).
        rewrite qnat_S, qnat_add in G. revert G W. clear. intros. qnra. }
  unfold rebin_spec. rewrite (sumn_ext _ _ (fun j => if (i =? k + j)%nat then vget counts j else 0)) by exact B.
  destruct (Nat.ltb_spec i k) as [H|H].
  - apply sumn_0. intros j Hj. destruct (Nat.eqb_spec i (k + j)); [lia|reflexivity].
  - rewrite (sumn_single _ _ (i - k)).
    + destruct (Nat.eqb_spec i (k + (i - k))); [reflexivity|lia].
    + lia.
    + intros j Hj D. destruct (Nat.eqb_spec i (k + j)); [lia|reflexivity].
Qed.

(* ------------------------------------------------ matrices *)
Lemma both_axis : to_plot_axis (AStr "both") = Ok AxBoth.
Proof. reflexivity. Qed.

(* whatever the counts: a matrix that could be rebinned has as many rows and columns as
   the new axis has bins *)
Lemma extend_shape m g m' u : extend m (Ok g) = (m', Ok u) ->
  shape (values m') = (length g, length g) /\ Ex m' = g /\ Eg m' = g.
Proof.
  unfold extend, rebin_inplace. rewrite both_axis. unfold rebin_axis, rebin_data. cbn [rbind].
  destruct (rebin_2D (a_nc (values m)) (a_rows (values m)) (Eg m) g 1) as [r1|]; cbn [rbind]; [|discriminate].
  set (m1 := mkM _ _ _ _ _). destruct (verify_integrity m1); [|discriminate].
  unfold m1. cbn [values Ex Eg a_nc a_rows std state].
  destruct (rebin_2D (length g) r1 (Ex m) g 0) as [r2|] eqn:R; cbn [rbind]; [|discriminate].
  intros H. injection H as <- _. cbn [values Ex Eg]. unfold shape, a_nr. cbn [a_rows a_nc].
  unfold rebin_2D in R. cbn [Z.eqb] in R.
  destruct (rmapm _ _) as [cols|]; cbn [rbind] in R; [|discriminate]. injection R as <-.
  now rewrite tab_length.
Qed.

(* the extended matrix *)
Lemma extend_ok m e k : consistent m -> std m = None -> Ex m = e -> Eg m = e -> equidistant e ->
  exists m', extend m (Ok (longer e k)) = (m', Ok tt) /\
    consistent m' /\ std m' = None /\ Ex m' = longer e k /\ Eg m' = longer e k /\ state m' = state m /\
    forall i j, (i < k + length e)%nat -> (j < k + length e)%nat ->
      mget (a_rows (values m')) i j =
      if (i <? k)%nat || (j <? k)%nat then 0 else mget (a_rows (values m)) (i - k) (j - k).
Proof.
  intros C S X G E. destruct (longer_equidistant e k E) as (E' & _).
  assert (LL : length (longer e k) = (k + length e)%nat) by apply tab_length.
  destruct C as [SH _]. rewrite X, G in SH. destruct (shaped_rect _ _ _ SH) as (R & NC).
  unfold extend, rebin_inplace. rewrite both_axis. unfold rebin_axis at 1, rebin_data. cbn [rbind].
  rewrite G, NC. rewrite (rebin_2D_rows _ (length e) (length e) e (longer e k) R eq_refl E E').
  cbn [rbind]. set (rows1 := mtab _ _ _).
  assert (R1 : rect rows1 (length e) (length (longer e k))) by apply mtab_rect.
  set (m1 := mkM (mkArr (length (longer e k)) rows1) (longer e k) (Ex m) (std m) (state m)).
  assert (C1 : consistent m1).
  { split; [|unfold m1; cbn; rewrite S; exact I]. cbn. rewrite X. now apply shaped_mk. }
  rewrite (verify_ok _ C1). unfold rebin_axis, rebin_data. cbn [rbind].
  unfold m1 at 1 2 3. cbn [values a_nc a_rows Ex]. rewrite X.
  rewrite (rebin_2D_cols rows1 (length e) (length (longer e k)) e (longer e k) R1 eq_refl E E').
  cbn [rbind]. set (rows2 := mtab _ _ _).
  assert (R2 : rect rows2 (length (longer e k)) (length (longer e k))) by apply mtab_rect.
  set (m2 := mkM _ _ _ _ _).
  assert (C2 : consistent m2).
  { split; [|unfold m2, m1; cbn; rewrite S; exact I]. cbn. now apply shaped_mk. }
  exists m2. rewrite (verify_ok _ C2). split; [reflexivity|]. split; [exact C2|].
  split; [unfold m2, m1; cbn; exact S|]. split; [reflexivity|]. split; [reflexivity|]. split; [reflexivity|].
  intros i j Hi Hj. unfold m2. cbn [values a_rows]. unfold rows2.
  rewrite mget_mtab by lia.
  assert (CL : length (col rows1 j) = length e) by (rewrite col_length; apply R1).
  rewrite rebin_longer by assumption.
  destruct (Nat.ltb_spec i k) as [A|A]; [reflexivity|]. cbn [orb].
  rewrite col_get. unfold rows1. rewrite mget_mtab by lia.
  rewrite rebin_longer; [reflexivity|exact E| |exact Hj].
  apply (rect_row _ (length e)); [exact R|lia].
Qed.

Lemma allclose_refl l : allclose l l = true.
Proof. induction l as [|x l IH]; [reflexivity|]. cbn [allclose]. now rewrite isclose_refl, IH. Qed.
Lemma bcast_refl l : bcast_allclose l l = Ok true.
Proof. unfold bcast_allclose. rewrite Nat.eqb_refl. now rewrite allclose_refl. Qed.
Lemma longer_Z e k K : equidistant e -> K = Z.of_nat k ->
  tab (Z.to_nat (Z.of_nat (length e) + K)) (fun i => nth 0 e 0 - qz K * width e + qnat i * width e)
  = longer e k.
Proof.
  intros _ ->. unfold longer. replace (Z.to_nat _) with (k + length e)%nat by lia. reflexivity.
Qed.
Lemma longer_longer e k : equidistant e ->
  nth 0 (longer e k) 0 + qnat (length (longer e k) - 1) * width (longer e k)
  = nth 0 e 0 + qnat (length e - 1) * width e.
Proof.
  intros E. pose proof E as (L & _). destruct (longer_equidistant e k E) as (_ & ->).
  unfold longer. rewrite tab_length, nth_tab by lia. rewrite !qnat_sub by lia.
  rewrite qnat_add, qnat_0. ring.
Qed.

(* the two rebinned matrices and the limits *)
Definition su_of (e : list Qc) (k : nat) (fg' : matrix) (Ex_min Ex_max Eg_min : Qc) : setup :=
  let a0 := nth 0 (longer e k) 0 in
  let a1 := width e in
  let imin := bin_of a0 a1 Ex_min in
  let imax := Z.add (bin_of a0 a1 Ex_max) 1 in
  let igmin := bin_of a0 a1 Eg_min in
  mkSetup a0 a1 (mkLim imin imax igmin (find_igmax (a_rows (values fg')) imin imax igmin)
                   (offset_of a0 a1)).
Lemma half_inv : qn 1 2 = / qz 2.
Proof. apply qeqb_eq. reflexivity. Qed.
Lemma prepare_ok fg sd e k Ex_min Ex_max Eg_min ext :
  consistent fg -> std fg = None -> Ex fg = e -> Eg fg = e ->
  consistent sd -> std sd = None -> Ex sd = e -> Eg sd = e ->
  equidistant e -> steps e ext = Z.of_nat k ->
  exists fg' sd' r,
    extend fg (Ok (longer e k)) = (fg', Ok tt) /\ extend sd (Ok (longer e k)) = (sd', Ok tt) /\
    prepare fg sd Ex_min Ex_max Eg_min ext = ((fg', sd'), r) /\
    (forall s, r = Ok s -> s = su_of e k fg' Ex_min Ex_max Eg_min) /\
    (axis_lo (longer e k) <= Ex_max -> Ex_max < axis_hi (longer e k) ->
      r = Ok (su_of e k fg' Ex_min Ex_max Eg_min)).
Proof.
  intros C1 S1 X1 G1 C2 S2 X2 G2 E K.
  destruct (extend_ok fg e k C1 S1 X1 G1 E) as (fg' & F1 & C1' & _ & X1' & G1' & _).
  destruct (extend_ok sd e k C2 S2 X2 G2 E) as (sd' & F2 & _).
  exists fg', sd'. unfold prepare.
  assert (SH : pair_eqb (shape (values fg)) (shape (values sd)) = true).
  { destruct C1 as [(A1 & A2 & _) _], C2 as [(B1 & B2 & _) _]. unfold pair_eqb, shape, a_nr. cbn.
    rewrite A1, A2, B1, B2, X1, X2, G1, G2, !Nat.eqb_refl. reflexivity. }
  rewrite SH. cbn [negb]. rewrite X1, G1, X2, bcast_refl, (extended_start_ok e ext E).
  cbv zeta beta. rewrite ?X1, (last_equidistant e E). cbn [rbind].
  rewrite (arange_ok e (steps e ext) E), (longer_Z e k _ E K), F1, X1'.
  pose proof (longer_equidistant e k E) as (E' & W').
  rewrite (last_equidistant _ E'). cbn [rbind]. rewrite (longer_longer e k E).
  rewrite (arange_ok e (steps e ext) E), (longer_Z e k _ E K), F2.
  assert (A0 : nth 0 e 0 - qz (steps e ext) * width e = nth 0 (longer e k) 0).
  { rewrite K. unfold longer. rewrite nth_tab by (destruct E; lia). rewrite qnat_0. fold (qnat k). ring. }
  rewrite A0. eexists. split; [reflexivity|]. split; [reflexivity|]. split; [reflexivity|]. split.
  - intros s. destruct (_ <? 0)%Z; [discriminate|]. destruct (_ && _); [discriminate|].
    intros H. injection H as <-. reflexivity.
  - intros LO HI.
    set (b := bin_of (nth 0 (longer e k) 0) (width e) Ex_max).
    assert (B : (0 <= b < Z.of_nat (length (longer e k)))%Z).
    { unfold b. pose proof E as (_ & W & _). unfold bin_of. rewrite (axis_hi_eq _ E') in HI. 
      unfold axis_lo, bin_lo in LO, HI. rewrite W' in LO, HI.
      assert (P : 0 <= (Ex_max - nth 0 (longer e k) 0) / width e + qn 1 2).
      { assert (- qn 1 2 <= (Ex_max - nth 0 (longer e k) 0) / width e); [|qlra].
        apply Qcdiv_le_r; [exact W|]. revert LO.
        replace (width e / qz 2) with (qn 1 2 * width e) by (rewrite half_inv; unfold Qcdiv; ring).
        intros. qlra. }
      assert (Q : (Ex_max - nth 0 (longer e k) 0) / width e + qn 1 2 < qnat (length (longer e k))).
      { assert ((Ex_max - nth 0 (longer e k) 0) / width e < qnat (length (longer e k)) - qn 1 2); [|qlra].
        apply Qcdiv_lt_l; [exact W|]. revert HI.
        replace (width e / qz 2) with (qn 1 2 * width e) by (rewrite half_inv; unfold Qcdiv; ring).
        intros. qlra. }
      rewrite qtrunc_nonneg by exact P. destruct (qfloor_spec ((Ex_max - nth 0 (longer e k) 0) / width e + qn 1 2)) as [U V].
      split.
      - assert (qz (-1) < qz (qfloor ((Ex_max - nth 0 (longer e k) 0) / width e + qn 1 2))).
        { change (qz (-1)) with (- (1)). qlra. }
        apply (proj2 (qz_lt _ _)) in H. lia.
      - apply (proj2 (qz_lt _ _)). unfold qnat in Q. qlra. }
    destruct (Z.ltb_spec (b + 1) 0) as [H|_]; [lia|].
    assert (NR : a_nr (values fg') = length (longer e k)).
    { destruct C1' as [(A1 & A2 & _) _]. unfold a_nr. congruence. }
    rewrite NR.
    destruct (Z.ltb_spec (Z.of_nat (length (longer e k))) (b + 1)) as [H|_]; [lia|].
    reflexivity.
Qed.
