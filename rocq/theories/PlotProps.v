(* What a plot of a matrix shows: cells, value under the pointer, scale, blocks and ticks. *)
From Coq Require Import Lia Permutation.
From Verif Require Import PyBase Axis CutSpec MatrixModel MatrixSpec VectorModel IndexProofs CutProofs MatrixOpsProps LibCutProps
  SampStatModel SampStatProofs SampUnifyProofs PlotModel.
Import ListNotations.
Local Open Scope list_scope.
Local Open Scope Qc_scope.

(* ------------------------------------------------------------------ specification *)
(* an axis of n equal bins: centres a, a + d, a + 2d, ... *)
Definition regular (l : list Qc) (a d : Qc) : Prop := 0 < d /\ forall i, (i < length l)%nat -> nth i l 0 = a + qnat i * d.
(* the energy e lies in bin j of width d (the lower end belongs to the bin below) *)
Definition in_bin (l : list Qc) (d : Qc) (j : nat) (e : Qc) : Prop :=
  (j < length l)%nat /\ nth j l 0 - d / qz 2 < e /\ e <= nth j l 0 + d / qz 2.

(* ------------------------------------------------------------------ helper lemmas *)
Lemma qz2_half d : d / qz 2 + d / qz 2 = d.
Proof. replace (qz 2) with (1 + 1) by (now rewrite qz_2). field. apply Qc_2_0. Qed.
Lemma count_below n (f : nat -> Qc) x m : (m <= n)%nat -> (forall k, (k < m)%nat -> f k < x) -> (forall k, (m <= k < n)%nat -> x <= f k) ->
  searchsorted (tab n f) x SideLeft = m.
Proof.
  unfold searchsorted. revert m. induction n as [|n IH]; intros m M L H; [cbn; lia|]. rewrite tab_S, filter_app, app_length. cbn [filter].
  destruct (Nat.eq_dec m (S n)) as [-> | NE].
  - rewrite (proj2 (qltb_lt _ _) (L n ltac:(lia))). cbn [length]. rewrite (IH n); [lia|lia|intros; apply L; lia|intros; lia].
  - rewrite (proj2 (qltb_ge _ _) (H n ltac:(lia))). cbn [length]. rewrite (IH m); [lia|lia|exact L|intros; apply H; lia].
Qed.
Lemma ends_min_spec l : l <> [] -> In (ends_min l) l /\ forall y, In y l -> ends_min l <= y.
Proof.
  destruct l as [|x l]; [congruence|]. intros _. unfold ends_min. cbn [hd tl]. destruct (list_min_spec l x) as (A & B & C).
  split; [destruct C as [->|C]; [now left|now right]|]. intros y [<-|I]; [exact A|now apply B].
Qed.
Lemma ends_max_spec l : l <> [] -> In (ends_max l) l /\ forall y, In y l -> y <= ends_max l.
Proof.
  destruct l as [|x l]; [congruence|]. intros _. unfold ends_max. cbn [hd tl]. destruct (list_max_spec l x) as (A & B & C).
  split; [destruct C as [->|C]; [now left|now right]|]. intros y [<-|I]; [exact A|now apply B].
Qed.
(* the ends of the cells of a regular axis *)
Definition lower (a d : Qc) (k : nat) : Qc := a - d / qz 2 + qnat k * d.
Lemma ends_regular l a d : regular l a d -> (2 <= length l)%nat ->
  with_end (map (fun e => e - halfbin l) l) = tab (S (length l)) (lower a d).
Proof.
  intros [D R] N. assert (HB : halfbin l = d / qz 2).
  { unfold halfbin. rewrite (R 1%nat), (R 0%nat) by lia. f_equal. rewrite qnat_1, qnat_0. ring. }
  assert (M : map (fun e => e - halfbin l) l = tab (length l) (lower a d)).
  { rewrite HB. rewrite <- (tab_nth l 0) at 1. rewrite map_tab. apply tab_ext. intros i I. rewrite R by exact I. unfold lower. ring. }
  rewrite M. unfold with_end. rewrite tab_length. rewrite !nth_tab by lia. rewrite tab_S. f_equal. f_equal. unfold lower.
  rewrite !qnat_sub by lia. replace (qnat 2) with (1 + 1) by (now rewrite <- qz_2). rewrite qnat_1. ring.
Qed.
Lemma cell_in_bin l a d j e : regular l a d -> in_bin l d j e -> lower a d j < e /\ e <= lower a d (S j).
Proof.
  intros [D R] (J & A & B). rewrite R in A, B by exact J. unfold lower. rewrite qnat_S. pose proof (qz2_half d). split; [qlra|].
  replace (a - d / qz 2 + (qnat j + 1) * d) with (a + qnat j * d + (d - d / qz 2)) by ring. qlra.
Qed.
Lemma lower_mono a d i j : 0 < d -> (i <= j)%nat -> lower a d i <= lower a d j.
Proof. intros D IJ. unfold lower. apply qnat_le in IJ. assert (0 <= (qnat j - qnat i) * d) by (apply Qcmult_nonneg; qlra). qlra. Qed.
(* the position found and the test of the range *)
Lemma look_up l a d j e : regular l a d -> (2 <= length l)%nat -> in_bin l d j e ->
  let s := tab (S (length l)) (lower a d) in (searchsorted s e SideLeft - 1 = j)%nat /\ qltb (ends_min s) e = true /\ qleb e (ends_max s) = true.
Proof.
  intros R N I s. pose proof I as [J _]. destruct (cell_in_bin _ _ _ _ _ R I) as [A B]. pose proof (proj1 R) as D.
  assert (NE : s <> []) by (unfold s; rewrite tab_S; destruct (tab (length l) (lower a d)); discriminate).
  split; [|split].
  - unfold s. rewrite (count_below _ _ _ (S j)); [lia|lia| |].
    + intros k K. eapply Qcle_lt_trans; [apply (lower_mono a d k j D); lia|exact A].
    + intros k K. eapply Qcle_trans; [exact B|apply lower_mono; [exact D|lia]].
  - apply qltb_lt. eapply Qcle_lt_trans; [apply (proj2 (ends_min_spec s NE) (lower a d j))|exact A]. apply in_tab. exists j. split; [lia|reflexivity].
  - apply qleb_le. eapply Qcle_trans; [exact B|]. apply (proj2 (ends_max_spec s NE)). apply in_tab. exists (S j). split; [lia|reflexivity].
Qed.
Lemma look_out l a d e : regular l a d -> (2 <= length l)%nat -> e <= nth 0 l 0 - d / qz 2 \/ nth (length l - 1) l 0 + d / qz 2 < e ->
  let s := tab (S (length l)) (lower a d) in qltb (ends_min s) e && qleb e (ends_max s) = false.
Proof.
  intros R N O s. pose proof R as [D R']. rewrite !R' in O by lia.
  assert (NE : s <> []) by (unfold s; rewrite tab_S; destruct (tab (length l) (lower a d)); discriminate).
  apply Bool.andb_false_iff. destruct O as [O|O]; [left|right].
  - apply qltb_ge. destruct (ends_min_spec s NE) as [I _]. apply in_tab in I as (k & K & ->). eapply Qcle_trans; [|apply (lower_mono a d 0 k D); lia].
    unfold lower. rewrite qnat_0 in *. qlra.
  - apply qleb_gt. destruct (ends_max_spec s NE) as [I _]. apply in_tab in I as (k & K & ->). eapply Qcle_lt_trans; [apply (lower_mono a d k (length l) D); lia|].
    eapply Qcle_lt_trans; [|exact O]. unfold lower. replace (qnat (length l)) with (qnat (length l - 1) + 1) by (rewrite qnat_sub, qnat_1 by lia; ring).
    pose proof (qz2_half d). replace (a - d / qz 2 + (qnat (length l - 1) + 1) * d) with (a + qnat (length l - 1) * d + (d - d / qz 2)) by ring. qlra.
Qed.
Lemma plot_ok m s vmin m' p : plot m s vmin = (m', Ok p) ->
  m' = m /\ (2 <= length (Ex m))%nat /\ (2 <= length (Eg m))%nat /\ choose_scale s vmin (m_counts m) = Ok (p_scale p) /\
  p_Eg p = with_end (map (fun e => e - halfbin (Eg m)) (Eg m)) /\ p_Ex p = with_end (map (fun e => e - halfbin (Ex m)) (Ex m)) /\
  p_cells p = map (map masked) (a_rows (values m)).
Proof.
  unfold plot. destruct (Nat.leb_spec (length (Ex m)) 1); [discriminate|]. destruct (Nat.leb_spec (length (Eg m)) 1); [discriminate|]. cbn [orb].
  destruct (choose_scale s vmin (m_counts m)) as [sc|]; [|discriminate].
  destruct (lower_mid_bin_inverse m ltac:(lia) ltac:(lia)) as (l & u & L & U & _). rewrite L, U. intros Q. injection Q as <- <-.
  cbn [p_scale p_Eg p_Ex p_cells]. unfold to_lower_bin in L. destruct (Ex m) as [|x0 [|x1 xs]] eqn:EX; [discriminate..|]. destruct (Eg m) as [|g0 [|g1 gs]] eqn:EG; [discriminate..|].
  injection L as <-. cbn [Ex Eg]. repeat match goal with |- _ /\ _ => split end; try reflexivity; cbn [length] in *; lia.
Qed.

(* ------------------------------------------------------------------ plot *)
(* Plotting changes nothing, also when it fails. *)
Theorem plot_keeps_matrix : forall m s vmin, fst (plot m s vmin) = m.
Proof.
  intros m s vmin. destruct (plot m s vmin) as [m' [p|e]] eqn:E; cbn [fst]; [now apply plot_ok in E|].
  revert E. unfold plot. destruct (Nat.leb_spec (length (Ex m)) 1); [now intros Q; injection Q|]. destruct (Nat.leb_spec (length (Eg m)) 1); [now intros Q; injection Q|]. cbn [orb].
  destruct (choose_scale s vmin (m_counts m)) as [sc|]; [|now intros Q; injection Q].
  destruct (lower_mid_bin_inverse m ltac:(lia) ltac:(lia)) as (l & u & L & U & _). rewrite L, U. discriminate.
Qed.
Print Assumptions plot_keeps_matrix.

(* On axes of equal bins each entry is drawn over exactly its bin; the pointer shows the entry of
   the bin it is in (nothing for an entry of 0, which is white), and no entry outside. *)
Theorem plot_shows_bins : forall m s vmin m' p ag dg ax dx, consistent m ->
  regular (Eg m) ag dg -> regular (Ex m) ax dx -> plot m s vmin = (m', Ok p) ->
  (forall j, (j < length (Eg m))%nat -> nth j (p_Eg p) 0 = nth j (Eg m) 0 - dg / qz 2 /\ nth (S j) (p_Eg p) 0 = nth j (Eg m) 0 + dg / qz 2) /\
  (forall i, (i < length (Ex m))%nat -> nth i (p_Ex p) 0 = nth i (Ex m) 0 - dx / qz 2 /\ nth (S i) (p_Ex p) 0 = nth i (Ex m) 0 + dx / qz 2) /\
  (forall i j x y, in_bin (Eg m) dg j x -> in_bin (Ex m) dx i y ->
     (aget (values m) i j = 0 -> pointer p x y = Some None) /\ (aget (values m) i j <> 0 -> pointer p x y = Some (Some (aget (values m) i j)))) /\
  (forall x y, (x <= nth 0 (Eg m) 0 - dg / qz 2 \/ nth (length (Eg m) - 1) (Eg m) 0 + dg / qz 2 < x) \/
               (y <= nth 0 (Ex m) 0 - dx / qz 2 \/ nth (length (Ex m) - 1) (Ex m) 0 + dx / qz 2 < y) -> pointer p x y = None).
Proof.
  intros m s vmin m' p ag dg ax dx [(SC1 & SC2 & SC3) _] RG RX P. apply plot_ok in P as (_ & NX & NG & _ & PG & PX & PC).
  rewrite (ends_regular _ _ _ RG NG) in PG. rewrite (ends_regular _ _ _ RX NX) in PX.
  assert (CELL : forall l a d, regular l a d -> forall j, (j < length l)%nat -> nth j (tab (S (length l)) (lower a d)) 0 = nth j l 0 - d / qz 2 /\
     nth (S j) (tab (S (length l)) (lower a d)) 0 = nth j l 0 + d / qz 2).
  { intros l a d [D R] j J. rewrite !nth_tab by lia. rewrite R by exact J. unfold lower. pose proof (qz2_half d) as H. rewrite qnat_S. split; [ring|].
    replace (a - d / qz 2 + (qnat j + 1) * d) with (a + qnat j * d + (d - d / qz 2)) by ring. replace (d - d / qz 2) with (d / qz 2) by qlra. reflexivity. }
  rewrite PG, PX. split; [now apply CELL|]. split; [now apply CELL|]. unfold pointer. rewrite PG, PX, PC. split.
  - intros i j x y BG BX. destruct (look_up _ _ _ _ _ RG NG BG) as (S1 & S2 & S3). destruct (look_up _ _ _ _ _ RX NX BX) as (T1 & T2 & T3).
    cbv zeta in *. rewrite S1, S2, S3, T1, T2, T3. cbn [andb]. destruct BG as [J _], BX as [I _].
    assert (V : nth j (nth i (map (map masked) (a_rows (values m))) []) None = masked (aget (values m) i j)).
    { rewrite (nth_indep _ [] (map masked [])) by (rewrite map_length; lia). rewrite map_nth.
      assert (LR : length (nth i (a_rows (values m)) []) = length (Eg m)) by (apply SC3, nth_In; lia).
      rewrite (nth_indep _ None (masked 0)) by (rewrite map_length; lia). rewrite map_nth. reflexivity. }
    rewrite V. unfold masked. destruct (qeqb_spec (aget (values m) i j) 0) as [Z|Z]; split; intros H; try congruence; reflexivity.
  - intros x y [O|O].
    + rewrite (look_out _ _ _ _ RG NG O). reflexivity.
    + rewrite (look_out _ _ _ _ RX NX O). now rewrite Bool.andb_false_r.
Qed.
Print Assumptions plot_shows_bins.

(* When a plot is refused, and which scale it has otherwise. *)
Theorem plot_scale : forall m s vmin,
  ((length (Ex m) < 2 \/ length (Eg m) < 2)%nat \/ s = SOther \/
   (exists v, vmin = Some v /\ v <= 0) /\ (s = SLog \/ s = SAuto /\ qz 1000 < m_counts m) ->
     snd (plot m s vmin) = Raise ValueError) /\
  ((2 <= length (Ex m))%nat -> (2 <= length (Eg m))%nat -> s <> SOther -> (forall v, vmin = Some v -> 0 < v) ->
     exists p, snd (plot m s vmin) = Ok p /\ (p_scale p = Log <-> s = SLog \/ s = SAuto /\ qz 1000 < m_counts m)).
Proof.
  intros m s vmin. split.
  - intros H. unfold plot. destruct (Nat.leb_spec (length (Ex m)) 1) as [|NX]; [reflexivity|]. destruct (Nat.leb_spec (length (Eg m)) 1) as [|NG]; [reflexivity|]. cbn [orb].
    destruct H as [[H|H]|H]; [lia|lia|]. assert (R : choose_scale s vmin (m_counts m) = Raise ValueError); [|now rewrite R].
    unfold choose_scale. destruct H as [-> | ((v & -> & V) & [-> | [-> C]])]; [reflexivity| |].
    + now rewrite (proj2 (qleb_le _ _) V).
    + rewrite (proj2 (qltb_lt _ _) C). now rewrite (proj2 (qleb_le _ _) V).
  - intros NX NG NO V. assert (R : exists sc, choose_scale s vmin (m_counts m) = Ok sc /\ (sc = Log <-> s = SLog \/ s = SAuto /\ qz 1000 < m_counts m)).
    { assert (LG : match vmin with Some v => if qleb v 0 then Raise ValueError else Ok Log | None => Ok Log end = Ok Log).
      { destruct vmin as [v|]; [|reflexivity]. now rewrite (proj2 (qleb_gt _ _) (V v eq_refl)). }
      unfold choose_scale. destruct s; [destruct (qltb_spec (qz 1000) (m_counts m)) as [C|C]| | |congruence].
      - exists Log. split; [exact LG|]. split; [intros _; right; now split|reflexivity].
      - exists Linear. split; [reflexivity|]. split; [discriminate|]. intros [Q|[_ Q]]; [discriminate|]. exfalso. qlra.
      - exists Log. split; [exact LG|]. split; [now left|reflexivity].
      - exists Linear. split; [reflexivity|]. split; [discriminate|]. intros [Q|[Q _]]; discriminate. }
    destruct R as (sc & R & RI). unfold plot. destruct (Nat.leb_spec (length (Ex m)) 1); [lia|]. destruct (Nat.leb_spec (length (Eg m)) 1); [lia|]. cbn [orb]. rewrite R.
    destruct (lower_mid_bin_inverse m ltac:(lia) ltac:(lia)) as (l & u & L & U & _). rewrite L, U. cbn [snd]. eexists. split; [reflexivity|exact RI].
Qed.
Print Assumptions plot_scale.

(* On other axes the half of the first bin is taken off every energy, and an entry may be drawn
   away from its own energy: here over 5 .. 6 for the energy 10, where no cell is. *)
Theorem plot_unequal_refuted : exists m p, consistent m /\ increasing (Eg m) /\ increasing (Ex m) /\ snd (plot m SLinear None) = Ok p /\
  (nth 2 (p_Eg p) 0 < nth 1 (Eg m) 0 /\ pointer p (nth 1 (Eg m) 0) (nth 1 (Ex m) 0) = None) /\
  exists x, pointer p x (nth 1 (Ex m) 0) = Some (Some (aget (values m) 1 1)) /\ x + qz 4 <= nth 1 (Eg m) 0.
Proof.
  set (m := mkM (mkArr 4 [ql [1; 2; 3; 4]; ql [5; 6; 7; 8]]%Z) (ql [0; 10; 11; 12]%Z) (ql [1; 2]%Z) None None).
  destruct (proj2 (plot_scale m SLinear None) ltac:(cbn; lia) ltac:(cbn; lia) ltac:(discriminate) ltac:(intros ? Q; discriminate Q)) as (p & P & _).
  exists m, p. split; [split; [split; [reflexivity|split; [reflexivity|]]; cbn; intros r [<-|[<-|[]]]; reflexivity|exact I]|].
  split; [unfold m; cbn [Eg]; repeat constructor|]. split; [unfold m; cbn [Ex]; repeat constructor|]. split; [exact P|].

  assert (Q : p = match snd (plot m SLinear None) with Ok q => q | Raise _ => mkPic Log [] [] [] end) by (now rewrite P). rewrite Q.
  split; [split; [apply qltb_lt; vm_compute; reflexivity|vm_compute; reflexivity]|].
  exists (qz 6). split; [vm_compute; reflexivity|apply qleb_le; vm_compute; reflexivity].
Qed.
Print Assumptions plot_unequal_refuted.

(* ------------------------------------------------------------------ ascii_plot *)
Lemma increasing_filter (p : Qc -> bool) l : increasing l -> increasing (filter p l).
Proof.
  intros H. induction H as [|x l H IH F]; [constructor|]. cbn [filter]. destruct (p x); [|exact IH]. constructor; [exact IH|].
  apply Forall_forall. intros y Y. apply filter_In in Y as [Y _]. rewrite Forall_forall in F. now apply F.
Qed.
Lemma levels_increasing m : increasing (levels m).
Proof. apply increasing_filter, dedup_increasing, isort_sorted. Qed.
Lemma levels_In m x : In x (levels m) <-> 0 < x /\ In x (concat (a_rows (values m))).
Proof.
  unfold levels. rewrite filter_In, dedup_In, qltb_lt. split; intros [A B]; split.
  - exact B.
  - eapply Permutation_in; [|exact A]. first [apply isort_perm | symmetry; apply isort_perm].
  - eapply Permutation_in; [|exact B]. first [apply isort_perm | symmetry; apply isort_perm].
  - exact A.
Qed.
Lemma levels_In' m x : 0 < x -> In x (concat (a_rows (values m))) -> In x (levels m).
Proof. intros P I. apply levels_In. now split. Qed.
Lemma increasing_lt l i j : increasing l -> (i < j < length l)%nat -> nth i l 0 < nth j l 0.
Proof.
  intros H. revert i j. induction H as [|x l H IH F]; intros i j IJ; [cbn in IJ; lia|]. destruct j as [|j]; [lia|]. cbn [length] in IJ. destruct i as [|i]; cbn [nth].
  - rewrite Forall_forall in F. apply F, nth_In. lia.
  - apply IH. lia.
Qed.
Lemma four_fits i n : (i < n)%nat -> (4 * i / n < 4)%nat.
Proof. intros H. apply Nat.div_lt_upper_bound; lia. Qed.
Lemma shade_index b : (b < 4)%nat -> py_index [0; 1; 2; 3]%nat (Z.of_nat b) = Ok b.
Proof. intros H. destruct b as [|[|[|[|b]]]]; [reflexivity..|lia]. Qed.
Lemma block_level ls k : increasing ls -> (k < length ls)%nat -> block ls (nth k ls 0) = Ok (4 * k / length ls)%nat.
Proof.
  intros H K. unfold block. rewrite (i_from_E_is ls (nth k ls 0) k).
  - cbn [rbind]. apply shade_index, four_fits, K.
  - split; [exact K|]. assert (Z : qabs (nth k ls 0 - nth k ls 0) = 0) by (replace (nth k ls 0 - nth k ls 0) with 0 by ring; reflexivity). rewrite Z. split.
    + intros j _. destruct (qabs_spec (nth j ls 0 - nth k ls 0)) as [[? ->]|[? ->]]; qlra.
    + intros j J. pose proof (increasing_lt ls j k H ltac:(lia)). destruct (qabs_spec (nth j ls 0 - nth k ls 0)) as [[? ->]|[? ->]]; qlra.
Qed.
Lemma block_negative ls x : increasing ls -> ls <> [] -> (forall y, In y ls -> 0 < y) -> x < 0 -> block ls x = Ok 0%nat.
Proof.
  intros H N P X. assert (L : (0 < length ls)%nat) by (destruct ls; [congruence|cbn; lia]). unfold block. rewrite (i_from_E_is ls x 0).
  - cbn [rbind]. rewrite Nat.mul_0_r, Nat.div_0_l by lia. reflexivity.
  - split; [exact L|]. split; [|intros k K; lia]. intros k K. pose proof (P _ (nth_In ls 0 L)). pose proof (P _ (nth_In ls 0 K)).
    assert (nth 0 ls 0 <= nth k ls 0). { destruct k as [|k]; [apply Qcle_refl|]. apply Qclt_le_weak, increasing_lt; [exact H|lia]. }
    destruct (qabs_spec (nth 0 ls 0 - x)) as [[? ->]|[? ->]], (qabs_spec (nth k ls 0 - x)) as [[? ->]|[? ->]]; qlra.
Qed.
Lemma rmapl_total {A B} (f : A -> result B) g l : (forall x, In x l -> f x = Ok (g x)) -> rmapl f l = Ok (map g l).
Proof.
  induction l as [|x l IH]; intros H; [reflexivity|]. cbn [rmapl map]. rewrite (H x) by now left. cbn [rbind]. rewrite IH by (intros; apply H; now right). reflexivity.
Qed.
Lemma rmapl_fails {A B} (f : A -> result B) e l x : (forall y, In y l -> f y = Raise e \/ exists z, f y = Ok z) -> In x l -> f x = Raise e -> rmapl f l = Raise e.
Proof.
  induction l as [|y l IH]; intros H I F; [destruct I|]. cbn [rmapl]. destruct (H y (or_introl eq_refl)) as [E|[z E]]; rewrite E; [reflexivity|]. cbn [rbind].
  destruct I as [-> | I]; [congruence|]. rewrite IH; [reflexivity|intros; apply H; now right|exact I|exact F].
Qed.

(* The picture has one sign per bin, the first row of the matrix at the bottom.  Zero is blank; the
   distinct positive entries, in ascending order, are divided into four shades of equal numbers; a
   negative entry has the lightest shade. *)
Theorem ascii_shades : forall m shape, consistent m ->
  (exists x, In x (concat (a_rows (values m))) /\ 0 < x) \/ (forall x, In x (concat (a_rows (values m))) -> x = 0) ->
  exists pic ls, ascii_plot m shape = Ok pic /\ increasing ls /\ (forall x, In x ls <-> 0 < x /\ In x (concat (a_rows (values m)))) /\
    length pic = length (Ex m) /\ forall i j, (i < length (Ex m))%nat -> (j < length (Eg m))%nat ->
      exists c, nth_error (nth (length (Ex m) - 1 - i) pic []) j = Some c /\
        (aget (values m) i j = 0 -> c = None) /\ (aget (values m) i j < 0 -> c = Some 0%nat) /\
        forall k, (k < length ls)%nat -> aget (values m) i j = nth k ls 0 -> c = Some (4 * k / length ls)%nat /\ (4 * k / length ls < 4)%nat.
Proof.
  intros m shape [(SC1 & SC2 & SC3) _] H. set (ls := levels m). set (g := fun x => if qeqb x 0 then None else Some (match block ls x with Ok b => b | Raise _ => 0%nat end)).
  assert (PI : forall y, In y ls -> 0 < y) by (intros y Y; now apply levels_In in Y).
  assert (T : forall x, In x (concat (a_rows (values m))) -> (if qeqb x 0 then Ok None else rmap Some (block ls x)) = Ok (g x)).
  { intros x I. unfold g. destruct (qeqb_spec x 0) as [Z|Z]; [reflexivity|]. destruct H as [(p & IP & PP)|H]; [|exfalso; now apply Z, H].
    assert (NE : ls <> []) by (pose proof (levels_In' m p PP IP) as Q; fold ls in Q; destruct ls; [destruct Q|discriminate]).
    destruct (Qclt_le_dec x 0) as [N|N]; [now rewrite (block_negative ls x (levels_increasing m) NE PI N)|].
    assert (X : 0 < x) by (apply Qcle_lt_or_eq in N as [N|N]; [exact N|now subst x]).
    pose proof (levels_In' m x X I) as Q. fold ls in Q. apply In_nth with (d := 0) in Q as (k & K & <-). now rewrite (block_level ls k (levels_increasing m) K). }
  exists (map (map g) (rev (a_rows (values m)))), ls. split; [|split; [apply levels_increasing|split; [apply levels_In|split; [rewrite map_length, rev_length; exact SC2|]]]].
  - unfold ascii_plot. apply rmapl_total. intros r R. apply in_rev in R. apply rmapl_total. intros x X. fold ls. apply T. apply in_concat. eauto.
  - intros i j I J. exists (g (aget (values m) i j)).
    assert (LR : length (nth i (a_rows (values m)) []) = length (Eg m)) by (apply SC3, nth_In; lia).
    assert (IN : In (aget (values m) i j) (concat (a_rows (values m)))).
    { apply in_concat. exists (nth i (a_rows (values m)) []). split; [apply nth_In; lia|]. unfold aget, mget. apply nth_In. rewrite LR. exact J. }
    split; [|split; [|split]].
    + rewrite (nth_indep _ [] (map g [])) by (rewrite map_length, rev_length; lia). rewrite map_nth, rev_nth by lia.
      replace (length (a_rows (values m)) - S (length (Ex m) - 1 - i))%nat with i by lia.
      rewrite nth_error_map. rewrite (nth_error_nth' _ 0) by lia. reflexivity.
    + intros Z. unfold g. now rewrite Z.
    + intros N. unfold g. destruct (qeqb_spec (aget (values m) i j) 0) as [Z|Z]; [exfalso; qlra|].
      destruct H as [(p & IP & PP)|H]; [|exfalso; now apply Z, H].
      assert (NE : ls <> []) by (pose proof (levels_In' m p PP IP) as Q; fold ls in Q; destruct ls; [destruct Q|discriminate]).
      now rewrite (block_negative ls _ (levels_increasing m) NE PI N).
    + intros k K E. split; [|now apply four_fits]. unfold g. destruct (qeqb_spec (aget (values m) i j) 0) as [Z|Z]; [exfalso; pose proof (PI _ (nth_In ls 0 K)); rewrite <- E, Z in *; now apply Qclt_not_eq in H0|].
      now rewrite E, (block_level ls k (levels_increasing m) K).
Qed.
Print Assumptions ascii_shades.
(* Larger counts never have a lighter shade. *)
Corollary ascii_monotone : forall ls x y bx by_, increasing ls -> In x ls -> In y ls -> x <= y -> block ls x = Ok bx -> block ls y = Ok by_ -> (bx <= by_)%nat.
Proof.
  intros ls x y bx by_ H IX IY L. apply In_nth with (d := 0) in IX as (i & I & <-). apply In_nth with (d := 0) in IY as (j & J & <-).
  rewrite !block_level by assumption. intros Q1 Q2. injection Q1 as <-. injection Q2 as <-. apply Nat.div_le_mono; [lia|].
  destruct (Nat.le_gt_cases i j) as [IJ|IJ]; [lia|]. pose proof (increasing_lt ls j i H ltac:(lia)). exfalso. qlra.
Qed.
Print Assumptions ascii_monotone.
(* A matrix with negative but no positive entries cannot be printed. *)
Theorem ascii_refuses : forall m shape, (exists x, In x (concat (a_rows (values m))) /\ x < 0) -> (forall x, In x (concat (a_rows (values m))) -> x <= 0) ->
  ascii_plot m shape = Raise ValueError.
Proof.
  intros m shape (x & I & N) H. unfold ascii_plot.
  assert (E : levels m = []). { destruct (levels m) as [|y l] eqn:E; [reflexivity|]. assert (Y : In y (levels m)) by (rewrite E; now left). apply levels_In in Y as [P Y]. specialize (H y Y). exfalso. qlra. }
  rewrite E. apply in_concat in I as (r & R & I).
  assert (C : forall y, (if qeqb y 0 then Ok None else rmap Some (block [] y)) = Raise ValueError \/ exists z : option nat, (if qeqb y 0 then Ok None else rmap Some (block [] y)) = Ok z).
  { intros y. destruct (qeqb y 0); [right; eauto|left; reflexivity]. }
  apply rmapl_fails with (x := r); [|now apply -> in_rev|].
  - intros r' _. induction r' as [|y r' IH]; [right; exists []; reflexivity|]. cbn [rmapl]. destruct (C y) as [-> | [z ->]]; [now left|]. cbn [rbind].
    destruct IH as [-> | [w ->]]; [now left|right]. cbn [rbind]. eauto.
  - apply rmapl_fails with (x := x); [intros; apply C|exact I|]. destruct (qeqb_spec x 0) as [Z|Z]; [exfalso; qlra|reflexivity].
Qed.
Print Assumptions ascii_refuses.
(* The picture does not have the shape asked for. *)
Theorem ascii_shape_refuted : exists m pic, consistent m /\ ascii_plot m (5, 5)%nat = Ok pic /\ length pic = 2%nat /\ (forall r, In r pic -> length r = 3%nat) /\
  forall shape, ascii_plot m shape = ascii_plot m (5, 5)%nat.
Proof.
  exists (mkM (mkArr 3 [ql [1; 2; 0]; ql [3; 4; 5]]%Z) (ql [10; 20; 30]%Z) (ql [1; 2]%Z) None None). eexists.
  split; [split; [split; [reflexivity|split; [reflexivity|]]; cbn; intros r [<-|[<-|[]]]; reflexivity|exact I]|].
  split; [vm_compute; reflexivity|]. split; [reflexivity|]. split; [|reflexivity]. intros r [<-|[<-|[]]]; reflexivity.
Qed.
Print Assumptions ascii_shape_refuted.
Example ascii_case : ascii_plot mx (5, 5)%nat = Ok [[Some 2; None; Some 3]; [None; None; None]; [Some 1; Some 1; Some 2]; [Some 0; Some 0; None]]%nat.
Proof. vm_compute. reflexivity. Qed.

(* ------------------------------------------------------------------ MeshLocator *)
Lemma every_In step l : forall k x, In x (every_from step k l) -> In x l.
Proof. induction l as [|y l IH]; intros k x I; [destruct I|]. cbn [every_from] in I. destruct k as [|k]; [destruct I as [->|I]; [now left|right; eauto]|right; eauto]. Qed.
Lemma every_length step l : (1 <= step)%nat -> forall k, (k < step)%nat -> (length (every_from step k l) * step + k <= length l + step - 1)%nat.
Proof.
  intros S. induction l as [|y l IH]; intros k K; cbn [every_from length]; [lia|]. destruct k as [|k].
  - cbn [length]. pose proof (IH (step - 1)%nat ltac:(lia)). lia.
  - pose proof (IH k ltac:(lia)). lia.
Qed.
Lemma dedup_length l : (length (dedup l) <= length l)%nat.
Proof.
  induction l as [|x l IH]; [reflexivity|]. cbn [dedup]. destruct l as [|y l]; [reflexivity|]. destruct (qeqb x y); cbn [length] in *; lia.
Qed.
Lemma firstn_skipn_In {A} (x : A) a b l : In x (firstn a (skipn b l)) -> In x l.
Proof.
  intros I. assert (J : In x (skipn b l)) by (rewrite <- (firstn_skipn a (skipn b l)); apply in_app_iff; now left).
  rewrite <- (firstn_skipn b l). apply in_app_iff. now right.
Qed.
Lemma round_even_near x : qabs (qz (round_even x) - x) <= qn 1 2.
Proof.
  unfold round_even. destruct (qfloor_spec x) as [L U]. cbv zeta.
  assert (P : qz (qfloor x + 1) = qz (qfloor x) + 1) by (rewrite qz_add; reflexivity).
  assert (H2 : qn 1 2 + qn 1 2 = 1) by (apply qeqb_eq; reflexivity).
  destruct (qltb_spec (x - qz (qfloor x)) (qn 1 2)) as [A|A]; [|destruct (qltb_spec (qn 1 2) (x - qz (qfloor x))) as [B|B]; [|destruct (Z.even (qfloor x))]]; rewrite ?P;
  generalize dependent (qz (qfloor x)); intros f; generalize dependent (qn 1 2); intros h; intros;
  match goal with |- qabs ?t <= _ => destruct (qabs_spec t) as [[? ->]|[? ->]] end; qlra.
Qed.
Lemma around_near i x : (0 <= i)%Z -> qabs (around i x - x) <= qz (10 ^ i) / qz 2.
Proof.
  intros I. unfold around. pose proof (round_even_near (x / qz (10 ^ i))) as H. assert (P : 0 < qz (10 ^ i)) by (apply (proj1 (qz_lt 0 (10 ^ i))), Z.pow_pos_nonneg; lia).
  set (p := qz (10 ^ i)) in *. set (r := qz (round_even (x / p))) in *. clearbody r. assert (E : x = (x / p) * p) by (field; intros Q; rewrite Q in P; discriminate P).
  set (y := x / p) in *. clearbody y. rewrite E. replace (r * p - y * p) with ((r - y) * p) by ring.
  assert (H2 : p / qz 2 = qn 1 2 * p) by (unfold Qcdiv; rewrite Qcmult_comm; f_equal; apply qeqb_eq; reflexivity). rewrite H2. clear E H2. clearbody p. set (h := qn 1 2) in *. clearbody h.
  assert (B : r - y <= h /\ - (r - y) <= h) by (destruct (qabs_spec (r - y)) as [[A1 A2]|[A1 A2]]; rewrite A2 in H; split; qlra). destruct B as [B1 B2].
  destruct (qabs_spec ((r - y) * p)) as [[? ->]|[? ->]].
  - apply Qcmult_le_compat_r; [exact B1|now apply Qclt_le_weak].
  - replace (- ((r - y) * p)) with (- (r - y) * p) by ring. apply Qcmult_le_compat_r; [exact B2|now apply Qclt_le_weak].
Qed.
Lemma i_from_E_first l e i : i_from_E e l = Ok i -> first_nearest l e i.
Proof. intros H. destruct (i_from_E_nearest l e) as [(_ & E)|(_ & j & E & F)]; congruence. Qed.
Lemma nearest_mono locs u v a b : increasing locs -> u < v -> i_from_E u locs = Ok a -> i_from_E v locs = Ok b -> (a <= b)%nat.
Proof.
  intros H UV A B. apply i_from_E_first in A as (A1 & A2 & A3). apply i_from_E_first in B as (B1 & B2 & B3).
  destruct (Nat.le_gt_cases a b) as [L|L]; [exact L|exfalso]. pose proof (A3 b L) as X. pose proof (B2 a A1) as Y. pose proof (increasing_lt locs b a H ltac:(lia)) as Z.
  destruct (qabs_spec (nth a locs 0 - u)) as [[? P1]|[? P1]], (qabs_spec (nth b locs 0 - u)) as [[? P2]|[? P2]], (qabs_spec (nth a locs 0 - v)) as [[? P3]|[? P3]], (qabs_spec (nth b locs 0 - v)) as [[? P4]|[? P4]];
    rewrite ?P1, ?P2, ?P3, ?P4 in *; qlra.
Qed.
Lemma increasing_skipn n l : increasing l -> increasing (skipn n l).
Proof. revert n. induction l as [|x l IH]; intros [|n] H; [exact H..|]. cbn [skipn]. apply IH. now inversion H. Qed.
Lemma increasing_firstn n l : increasing l -> increasing (firstn n l).
Proof.
  intros H. revert n. induction H as [|x l H IH F]; intros [|n]; [constructor..|]. cbn [firstn]. constructor; [apply IH|].
  apply Forall_forall. intros y Y. rewrite Forall_forall in F. apply F. rewrite <- (firstn_skipn n l). apply in_app_iff. now left.
Qed.
Lemma every_increasing step k l : increasing l -> increasing (every_from step k l).
Proof.
  intros H. revert k. induction H as [|x l H IH F]; intros k; [constructor|]. cbn [every_from]. destruct k as [|k]; [|apply IH]. constructor; [apply IH|].
  apply Forall_forall. intros y Y. rewrite Forall_forall in F. apply F. eapply every_In; exact Y.
Qed.
(* The ticks of an axis of the plot: at most one more than asked for, none further than 50 from the
   centre of a bin. *)
Theorem ticks_near : forall locs nbins dmin dmax vmin vmax l, (1 <= nbins)%nat -> tick_values locs nbins dmin dmax vmin vmax = Ticks l ->
  (length l <= nbins + 1)%nat /\ forall t, In t l -> exists e, In e locs /\ qabs (t - e) <= qz 50.
Proof.
  intros locs nbins dmin dmax vmin vmax l NB. unfold tick_values. destruct (if qltb vmax vmin then _ else _) as [u0 u1]. destruct (if qeqb u0 u1 then _ else _) as [v0 v1].
  destruct (i_from_E v0 locs) as [a|]; [|destruct (i_from_E v1 locs); discriminate]. destruct (i_from_E v1 locs) as [b|]; [|discriminate].
  set (step := Nat.max _ 1). set (ts := every_from _ _ _). intros H.
  assert (LT : (length ts <= nbins + 1)%nat).
  { pose proof (every_length step (firstn (b + 1 - a) (skipn a locs)) ltac:(unfold step; lia) 0 ltac:(unfold step; lia)) as L. fold ts in L. rewrite firstn_length in L.
    assert (D : (b - a <= nbins * step)%nat).
    { unfold step. pose proof (Nat.div_mod (b - a + nbins - 1) nbins ltac:(lia)) as DM. pose proof (Nat.mod_upper_bound (b - a + nbins - 1) nbins ltac:(lia)) as MB.
      set (q := ((b - a + nbins - 1) / nbins)%nat) in *. assert (b - a <= nbins * q)%nat by nia. nia. }
    assert (length ts * step <= (nbins + 1) * step)%nat by nia. apply Nat.mul_le_mono_pos_r with (p := step); [unfold step; lia|assumption]. }
  assert (IT : forall t, In t ts -> In t locs) by (intros t I; eapply firstn_skipn_In, every_In; exact I).
  destruct (_ && _); [destruct (qeqb _ 0); [discriminate|]|]; injection H as <-.
  - split.
    + pose proof (dedup_length (isort (map (around (if qleb (qz 100) (qabs (nth b locs 0)) then 2 else 1)) ts))) as D.
      rewrite (Permutation_length (Permutation_sym (isort_perm _))), map_length in D || rewrite (Permutation_length (isort_perm _)), map_length in D. lia.
    + intros t I. rewrite dedup_In in I.
      assert (J : In t (map (around (if qleb (qz 100) (qabs (nth b locs 0)) then 2 else 1)) ts)) by (eapply Permutation_in; [|exact I]; first [apply isort_perm|symmetry; apply isort_perm]).
      apply in_map_iff in J as (e & <- & E). exists e. split; [now apply IT|]. eapply Qcle_trans; [apply around_near; destruct (qleb _ _); lia|].
      destruct (qleb _ _); vm_compute; discriminate.
  - split; [exact LT|]. intros t I. exists t. split; [now apply IT|]. replace (t - t) with 0 by ring. vm_compute. discriminate.
Qed.
Print Assumptions ticks_near.
(* With at most 21 bins, or if not more than 80 percent of the data are in view, the ticks are centres
   of bins, in ascending order of the bins, beginning with the bin nearest to the lower end. *)
Theorem ticks_are_bins : forall locs nbins dmin dmax vmin vmax l, increasing locs -> (1 <= nbins)%nat -> vmin < vmax ->
  (length locs <= 21)%nat \/ vmax - vmin <= qn 8 10 * (dmax - dmin) -> tick_values locs nbins dmin dmax vmin vmax = Ticks l ->
  increasing l /\ (forall t, In t l -> In t locs) /\ exists k r, l = nth k locs 0 :: r /\ first_nearest locs vmin k.
Proof.
  intros locs nbins dmin dmax vmin vmax l INC NB V C H. unfold tick_values in H. rewrite (proj2 (qltb_ge vmax vmin)) in H by now apply Qclt_le_weak.
  destruct (qeqb_spec vmin vmax) as [Q|_]; [exfalso; qlra|].
  destruct (i_from_E vmin locs) as [a|] eqn:A; [|destruct (i_from_E vmax locs); discriminate]. destruct (i_from_E vmax locs) as [b|] eqn:B; [|discriminate].
  pose proof (nearest_mono locs vmin vmax a b INC V A B) as AB. pose proof (i_from_E_first _ _ _ A) as NA. pose proof (i_from_E_first _ _ _ B) as NBB.
  replace (qltb (qn 8 10 * (dmax - dmin)) (vmax - vmin) && (20 <? b - a)%nat) with false in H.
  2:{ symmetry. apply andb_false_iff. destruct C as [C|C]; [right|left; now apply qltb_ge]. apply Nat.ltb_ge. destruct NBB as [? _]. lia. }
  injection H as <-. split; [now apply every_increasing, increasing_firstn, increasing_skipn|]. split; [intros t I; eapply firstn_skipn_In, every_In; exact I|].
  exists a. destruct NA as [LA NA]. destruct (skipn a locs) as [|x r] eqn:SK; [apply (f_equal (@length Qc)) in SK; rewrite skipn_length in SK; cbn in SK; lia|].
  assert (X : x = nth a locs 0) by (rewrite <- (firstn_skipn a locs) at 1; rewrite SK, app_nth2; rewrite firstn_length_le by lia; [now rewrite Nat.sub_diag|lia]).
  replace (b + 1 - a)%nat with (S (b - a)) by lia. cbn [firstn every_from]. rewrite X. eexists. split; [reflexivity|]. split; [exact LA|exact NA].
Qed.
Print Assumptions ticks_are_bins.
(* The whole of an axis of 25 bins from 0 to 9.6 MeV: the ticks are rounded to multiples of 10,
   so that two ticks remain, one of them outside of the data. *)
Definition mev_axis : list Qc := tab 25 (fun k => qz (Z.of_nat k) * qn 4 10).
Theorem ticks_mev_refuted : exists locs dmin dmax, increasing locs /\ length locs = 25%nat /\
  tick_values locs 10 dmin dmax dmin dmax = Ticks (ql [0; 10]%Z) /\ (forall e, In e locs -> e < qz 10) /\ dmax < qz 10.
Proof.
  exists mev_axis, (qn (-2) 10), (qn 98 10). split; [|split; [reflexivity|split; [|split; [|reflexivity]]]].
  - change mev_axis with (map (fun k => qz (Z.of_nat k) * qn 4 10) (seq 0 25)). cbn [seq map]. unfold increasing. repeat constructor.
  - unfold tick_values, mev_axis. apply f_equal. apply leqb_eq. vm_compute. reflexivity.
  - intros e I. unfold mev_axis in I. cbn in I. repeat (destruct I as [<-|I]; [reflexivity|]). destruct I.
Qed.
Print Assumptions ticks_mev_refuted.
(* If the last bin in view lies at 0 there are no ticks at all: int(log10(0)) raises OverflowError *)
Theorem ticks_overflow_refuted : exists locs dmin dmax, increasing locs /\ tick_values locs 10 dmin dmax dmin dmax = TicksOverflow.
Proof.
  exists (ql [-24; -23; -22; -21; -20; -19; -18; -17; -16; -15; -14; -13; -12; -11; -10; -9; -8; -7; -6; -5; -4; -3; -2; -1; 0]%Z), (qz (-24)), (qz 0).
  split; [|vm_compute; reflexivity]. unfold increasing. cbn. repeat constructor.
Qed.
Print Assumptions ticks_overflow_refuted.

(* ------------------------------------------------------------------ cases *)
Definition pm : matrix := mkM (mkArr 3 [ql [0; 2; 3]; ql [5; -6; 7]]%Z) (ql [100; 200; 300]%Z) (ql [10; 20]%Z) None None.
Example plot_case : consistent pm /\ regular (Eg pm) (qz 100) (qz 100) /\ regular (Ex pm) (qz 10) (qz 10) /\
  exists p, plot pm SAuto None = (pm, Ok p) /\ p_scale p = Linear /\ p_Eg p = ql [50; 150; 250; 350]%Z /\ p_Ex p = ql [5; 15; 25]%Z /\
    pointer p (qz 210) (qz 16) = Some (Some (qz (-6))) /\ pointer p (qz 100) (qz 10) = Some None /\ pointer p (qz 351) (qz 10) = None.
Proof.
  split; [split; [split; [reflexivity|split; [reflexivity|]]; cbn; intros r [<-|[<-|[]]]; reflexivity|exact I]|].
  split; [split; [reflexivity|]; intros i L; cbn in L; destruct i as [|[|[|i]]]; try lia; apply qeqb_eq; reflexivity|].
  split; [split; [reflexivity|]; intros i L; cbn in L; destruct i as [|[|i]]; try lia; apply qeqb_eq; reflexivity|].
  destruct (proj2 (plot_scale pm SAuto None) ltac:(cbn; lia) ltac:(cbn; lia) ltac:(discriminate) ltac:(intros ? Q; discriminate Q)) as (p & P & S).
  exists p. pose proof (plot_keeps_matrix pm SAuto None) as K. split; [rewrite (surjective_pairing (plot pm SAuto None)), K, P; reflexivity|].
  assert (Q : p = match snd (plot pm SAuto None) with Ok q => q | Raise _ => mkPic Log [] [] [] end) by (now rewrite P). rewrite Q.
  split; [vm_compute; reflexivity|]. split; [apply leqb_eq; vm_compute; reflexivity|]. split; [apply leqb_eq; vm_compute; reflexivity|].
  split; [vm_compute; do 2 f_equal; apply Qc_is_canon; reflexivity|]. split; vm_compute; reflexivity.
Qed.
(* every second of 13 bins when 6 ticks are asked for; a tick of the rounded kind *)
Example ticks_case : tick_values (ql [0; 10; 20; 30; 40; 50; 60; 70; 80; 90; 100; 110; 120]%Z) 6 (qz (-5)) (qz 125) (qz (-5)) (qz 125) = Ticks (ql [0; 20; 40; 60; 80; 100; 120]%Z).
Proof. vm_compute. reflexivity. Qed.
Example ticks_rounded_case : tick_values (tab 30 (fun k => qz (Z.of_nat k) * qz 77)) 3 (qz (-38)) (qz 2271) (qz (-38)) (qz 2271) = Ticks (ql [0; 800; 1500]%Z).
Proof. vm_compute. reflexivity. Qed.
