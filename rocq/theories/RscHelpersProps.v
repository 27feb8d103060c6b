(* find_limits and pad_matrix (C90). *)
From Coq Require Import String.
From Verif Require Import PyBase Axis MatrixModel MatrixSpec RebinModel RebinSpec RebinProofs
  Rebin2DProofs MatrixRebinProofs VectorModel ArithModel RhosigchiModel RhosigchiSpec
  RhosigchiProofs ExtractorProofs RscSetupModel RscSetupSpec RscSetupProofs RscSetupProps.
Local Open Scope Qc_scope.

Lemma loop_app {S} (body : S -> Z -> result S) l1 l2 s :
  loop body s (l1 ++ l2) = do s' <- loop body s l1 ;; loop body s' l2.
Proof.
  revert s. induction l1 as [|i l1 IH]; intros s; cbn [app loop rbind]; [reflexivity|].
  destruct (body s i); cbn [rbind]; [apply IH|reflexivity].
Qed.
Lemma at2_entry m nr nc i j : rect m nr nc -> (0 <= i < Z.of_nat nr)%Z -> (0 <= j < Z.of_nat nc)%Z ->
  at2 true m i j = Ok (entry2 m i j).
Proof.
  intros R HI HJ. pose proof R as (LR & _). unfold at2.
  rewrite (proj2 (at_zget true m i (nth (Z.to_nat i) m []) (proj1 HI))).
  2: { unfold zget. replace (i <? 0)%Z with false by lia. apply nth_error_nth'. lia. }
  cbn [rbind]. unfold entry2. replace (i <? 0)%Z with false by lia.
  set (row := nth (Z.to_nat i) m []).
  assert (L : length row = nc) by (unfold row; apply (rect_row m nr); [exact R|lia]).
  apply at_zget; [lia|]. unfold zget, entry. replace (j <? 0)%Z with false by lia.
  apply nth_error_nth'. lia.
Qed.

Lemma scan_row_ok m nr nc i ig lo n : rect m nr nc -> (0 <= i < Z.of_nat nr)%Z -> length ig = nr ->
  (0 <= lo)%Z -> (lo + Z.of_nat n <= Z.of_nat nc)%Z -> zget ig i = Some lo ->
  exists ig' r, scan_row m i ig (zrange lo (lo + Z.of_nat n)) = Ok ig' /\ length ig' = nr /\
    zget ig' i = Some r /\ one_past (fun j => 0 < entry2 m i j) lo (lo + Z.of_nat n) lo r /\
    forall i', i' <> i -> zget ig' i' = zget ig i'.
Proof.
  intros R HI LI HL. induction n as [|n IH]; intros B Z0.
  - exists ig, lo. rewrite zrange_empty by lia. cbn [scan_row loop]. repeat split; auto.
    left. split; [reflexivity|]. intros j Hj. lia.
  - destruct (IH ltac:(lia) Z0) as (ig' & r & S & L & G & OP & OT). clear IH.
    unfold scan_row in *. rewrite zrange_S, loop_app, S. cbn [rbind loop].
    set (g := (lo + Z.of_nat n)%Z) in *. rewrite (at2_entry m nr nc) by (auto; lia). cbn [rbind].
    replace (lo + Z.of_nat (Datatypes.S n))%Z with (g + 1)%Z by lia.
    destruct (qltb_spec 0 (entry2 m i g)) as [P|P].
    + rewrite set_ok by (rewrite L; lia). cbn [rbind]. eexists. exists (g + 1)%Z.
      split; [reflexivity|]. split; [now rewrite upd_length|].
      split; [rewrite zget_upd by (rewrite L; lia); now rewrite Z.eqb_refl|]. split.
      * right. exists g. repeat split; try lia. exact P.
      * intros i' N. rewrite zget_upd by (rewrite L; lia).
        destruct (Z.eqb_spec i i'); [congruence|now apply OT].
    + cbn [rbind]. exists ig', r. split; [reflexivity|]. split; [exact L|]. split; [exact G|].
      split; [|exact OT]. assert (NP : ~ 0 < entry2 m i g) by qlra.
      destruct OP as [(-> & H)|(j & J & PJ & -> & H)].
      * left. split; [reflexivity|]. intros j Hj. destruct (Z.eq_dec j g) as [->|]; [exact NP|apply H; lia].
      * right. exists j. repeat split; try lia; [exact PJ|]. intros j' Hj'.
        destruct (Z.eq_dec j' g) as [->|]; [exact NP|apply H; lia].
Qed.

Lemma rows_ok m nr nc lo rows : rect m nr nc -> (0 <= lo <= Z.of_nat nc)%Z -> NoDup rows ->
  (forall i, In i rows -> (0 <= i < Z.of_nat nr)%Z) ->
  forall ig, length ig = nr -> (forall i, In i rows -> zget ig i = Some lo) ->
  exists ig', loop (fun acc i => scan_row m i acc (zrange lo (Z.of_nat nc))) ig rows = Ok ig' /\
    length ig' = nr /\
    (forall i, In i rows -> exists r, zget ig' i = Some r /\
       one_past (fun j => 0 < entry2 m i j) lo (Z.of_nat nc) lo r) /\
    (forall i, ~ In i rows -> zget ig' i = zget ig i).
Proof.
  intros R HL. induction rows as [|i rows IH]; intros ND RG ig L Z0.
  - exists ig. cbn [loop]. repeat split; auto. intros i [].
  - apply NoDup_cons_iff in ND as [N1 N2].
    destruct (scan_row_ok m nr nc i ig lo (Z.to_nat (Z.of_nat nc - lo)) R (RG i (or_introl eq_refl)) L
                (proj1 HL) ltac:(lia) (Z0 i (or_introl eq_refl))) as (ig1 & r & S & L1 & G & OP & OT).
    replace (lo + Z.of_nat (Z.to_nat (Z.of_nat nc - lo)))%Z with (Z.of_nat nc) in * by lia.
    cbn [loop]. rewrite S. cbn [rbind].
    destruct (IH N2 (fun i' H => RG i' (or_intror H)) ig1 L1) as (ig2 & E & L2 & H1 & H2).
    + intros i' H. rewrite OT; [apply Z0; now right|]. intros ->. contradiction.
    + exists ig2. split; [exact E|]. split; [exact L2|]. split.
      * intros i' [<-|H]; [|now apply H1]. exists r. split; [|exact OP]. now rewrite H2.
      * intros i' H. rewrite H2 by (intros K; apply H; now right). apply OT.
        intros ->. apply H. now left.
Qed.

Lemma ceil_le x z : (qceil x <= z)%Z <-> x <= qz z.
Proof.
  destruct (qceil_spec x) as [A B]. split; intros H.
  - apply (proj1 (qz_le _ _)) in H. qlra.
  - assert (C : qz (qceil x) < qz (z + 1)) by (rewrite qz_add, qz_1; qlra).
    apply (proj2 (qz_lt _ _)) in C. lia.
Qed.
Lemma floor_ge x z : (z <= qfloor x)%Z <-> qz z <= x.
Proof.
  destruct (qfloor_spec x) as [A B]. split; intros H.
  - apply (proj1 (qz_le _ _)) in H. qlra.
  - assert (C : qz z < qz (qfloor x + 1)) by (rewrite qz_add, qz_1; qlra).
    apply (proj2 (qz_lt _ _)) in C. lia.
Qed.
Lemma energy_le e i E : equidistant e -> (i < length e)%nat ->
  (E <= nth i e 0 <-> (E - nth 0 e 0) / width e <= qz (Z.of_nat i)).
Proof.
  intros (_ & W & N) Hi. rewrite (N i Hi). fold (qnat i). set (w := width e) in *. clearbody w.
  assert (X : (E - nth 0 e 0) / w * w = E - nth 0 e 0) by (field; now apply Qclt_neq).
  set (y := (E - nth 0 e 0) / w) in *. clearbody y. set (n := qnat i). clearbody n. split; intros H.
  - destruct (qleb_spec y n) as [C|C]; [exact C|]. exfalso. qnra.
  - qnra.
Qed.
Lemma energy_ge e i E : equidistant e -> (i < length e)%nat ->
  (nth i e 0 <= E <-> qz (Z.of_nat i) <= (E - nth 0 e 0) / width e).
Proof.
  intros (_ & W & N) Hi. rewrite (N i Hi). fold (qnat i). set (w := width e) in *. clearbody w.
  assert (X : (E - nth 0 e 0) / w * w = E - nth 0 e 0) by (field; now apply Qclt_neq).
  set (y := (E - nth 0 e 0) / w) in *. clearbody y. set (n := qnat i). clearbody n. split; intros H.
  - destruct (qleb_spec n y) as [C|C]; [exact C|]. exfalso. qnra.
  - qnra.
Qed.

Lemma find_limits_unfold m e Ex_min Ex_max Eg_min : Ex m = e -> equidistant e ->
  find_limits m Ex_min Ex_max Eg_min =
    (let shift := nth 0 e 0 in
     let gain := width e in
     let imin := qceil ((Ex_min - shift) / gain) in
     let imax := (qfloor ((Ex_max - shift) / gain) + 1)%Z in
     let igmin := qceil ((Eg_min - shift) / gain) in
     do ig <- loop (fun acc i => scan_row (a_rows (values m)) i acc
                                   (zrange igmin (Z.of_nat (a_nc (values m)))))
                   (repeat igmin (a_nr (values m))) (zrange imin imax) ;;
     Ok (mkLim imin imax igmin ig (qtrunc (qabs (shift / gain) + qn 1 2)))).
Proof.
  intros X E. unfold find_limits. rewrite X. pose proof E as (_ & W & _).
  destruct (equidistant_cons2 _ E) as (a & b & t & EQ). rewrite EQ in W |- *. cbn [first_two rbind fst snd].
  change (b - a) with (width (a :: b :: t)).
  destruct (qeqb_spec (width (a :: b :: t)) 0) as [C|C]; [rewrite C in W; qlra|]. reflexivity.
Qed.

(* Rows: exactly those with Ex_min <= Ex <= Ex_max. First column: the first one not below
   Eg_min. Each of these rows ends after its last positive entry, all others are empty. *)
Theorem find_limits_select m e Ex_min Ex_max Eg_min :
  consistent m -> Ex m = e -> Eg m = e -> equidistant e ->
  nth 0 e 0 <= Ex_min -> Ex_max < nth 0 e 0 + qnat (length e) * width e ->
  nth 0 e 0 <= Eg_min -> Eg_min <= last e 0 ->
  exists L, find_limits m Ex_min Ex_max Eg_min = Ok L /\
    (forall i, (i < length e)%nat -> (jmin L <= Z.of_nat i < jmax L)%Z <-> Ex_min <= nth i e 0 /\ nth i e 0 <= Ex_max) /\
    (forall j, (j < length e)%nat -> (igmin L <= Z.of_nat j)%Z <-> Eg_min <= nth j e 0) /\
    length (igmax L) = length e /\
    (forall i, (jmin L <= i < jmax L)%Z ->
      one_past (fun j => 0 < entry2 (a_rows (values m)) i j) (igmin L) (Z.of_nat (length e)) (igmin L) (gmax L i)) /\
    (forall i, (i < length e)%nat -> ~ (jmin L <= Z.of_nat i < jmax L)%Z -> gmax L (Z.of_nat i) = igmin L).
Proof.
  intros [SH _] X G E A1 A2 A3 A4. rewrite (find_limits_unfold m e _ _ _ X E). cbv zeta.
  rewrite X, G in SH. destruct (shaped_rect _ _ _ SH) as (R & NC). destruct SH as (_ & NR & _).
  set (lo := qceil ((Eg_min - nth 0 e 0) / width e)). set (i0 := qceil ((Ex_min - nth 0 e 0) / width e)).
  set (i1 := Z.add (qfloor ((Ex_max - nth 0 e 0) / width e)) 1). pose proof E as (LE & W & N).
  assert (WN : width e <> 0) by (now apply Qclt_neq).
  assert (NN : forall y, 0 <= y -> (0 <= qceil y)%Z).
  { intros y Hy. destruct (qceil_spec y) as [_ B]. assert (C : qz (-1) < qz (qceil y)) by (change (qz (-1)) with (- (1)); qlra).
    apply (proj2 (qz_lt _ _)) in C. lia. }
  assert (I0 : (0 <= i0)%Z) by (apply NN, Qcdiv_nonneg; qlra).
  assert (L0 : (0 <= lo)%Z) by (apply NN, Qcdiv_nonneg; qlra).
  assert (L1 : (lo <= Z.of_nat (length e - 1))%Z).
  { apply ceil_le, energy_le; [exact E|lia|]. rewrite <- (last_nth e 0); [exact A4|].
    intros ->. cbn in LE. lia. }
  assert (I1 : (i1 <= Z.of_nat (length e))%Z).
  { unfold i1. destruct (qfloor_spec ((Ex_max - nth 0 e 0) / width e)) as [B _].
    assert (C : (Ex_max - nth 0 e 0) / width e < qz (Z.of_nat (length e))).
    { apply Qcdiv_lt_l; [exact W|]. fold (qnat (length e)). qlra. }
    assert (D : qz (qfloor ((Ex_max - nth 0 e 0) / width e)) < qz (Z.of_nat (length e))) by qlra.
    apply (proj2 (qz_lt _ _)) in D. lia. }
  rewrite NC. unfold a_nr. rewrite NR.
  destruct (rows_ok (a_rows (values m)) (length e) (length e) lo (zrange i0 i1) R ltac:(lia) (NoDup_zrange _ _)) with (ig := repeat lo (length e))
    as (ig & EQ & LI & H1 & H2).
  { intros i Hi. apply in_zrange in Hi. lia. }
  { apply repeat_length. }
  { intros i Hi. apply in_zrange in Hi. unfold zget. replace (i <? 0)%Z with false by lia.
    rewrite (nth_error_nth' _ lo) by (rewrite repeat_length; lia). now rewrite nth_repeat. }
  rewrite EQ. cbn [rbind]. eexists. split; [reflexivity|]. cbn [jmin jmax igmin igmax].
  split; [|split; [|split; [exact LI|split]]].
  - intros i Hi. rewrite (energy_le e i Ex_min E Hi), (energy_ge e i Ex_max E Hi), <- ceil_le, <- floor_ge.
    fold i0. unfold i1. lia.
  - intros j Hj. rewrite (energy_le e j Eg_min E Hj), <- ceil_le. fold lo. lia.
  - intros i Hi. destruct (H1 i) as (r & Z0 & OP); [apply in_zrange; lia|].
    unfold gmax. cbn [igmax]. unfold zget in Z0. replace (i <? 0)%Z with false in Z0 by lia.
    rewrite (nth_error_nth _ _ 0%Z Z0). exact OP.
  - intros i Hi Hn. assert (Z0 : zget ig (Z.of_nat i) = Some lo).
    { rewrite H2 by (intros K; apply in_zrange in K; lia). unfold zget.
      replace (Z.of_nat i <? 0)%Z with false by lia. rewrite Nat2Z.id.
      rewrite (nth_error_nth' _ lo) by (rewrite repeat_length; lia). now rewrite nth_repeat. }
    unfold gmax. cbn [igmax]. unfold zget in Z0. replace (Z.of_nat i <? 0)%Z with false in Z0 by lia.
    now rewrite (nth_error_nth _ _ 0%Z Z0).
Qed.
Print Assumptions find_limits_select.

Lemma zrange_split lo k hi : (lo <= k <= hi)%Z -> zrange lo hi = zrange lo k ++ zrange k hi.
Proof.
  intros H. unfold zrange. replace (Z.to_nat (hi - lo)) with (Z.to_nat (k - lo) + Z.to_nat (hi - k))%nat by lia.
  rewrite seq_app, map_app. f_equal. cbn [Nat.add].
  apply (nth_ext _ _ 0%Z 0%Z); [now rewrite !map_length, !seq_length|].
  intros i Hi. rewrite map_length, seq_length in Hi.
  rewrite (nth_indep _ 0%Z (lo + Z.of_nat 0)%Z) by (rewrite map_length, seq_length; lia).
  rewrite (map_nth (fun n => (lo + Z.of_nat n)%Z)).
  rewrite (nth_indep (map _ (seq 0 _)) 0%Z (k + Z.of_nat 0)%Z) by (rewrite map_length, seq_length; lia).
  rewrite (map_nth (fun n => (k + Z.of_nat n)%Z)). rewrite !seq_nth by lia. lia.
Qed.
(* An Ex_max beyond the last bin is refused, not truncated. *)
Theorem find_limits_beyond m e Ex_min Ex_max Eg_min :
  consistent m -> Ex m = e -> Eg m = e -> equidistant e ->
  nth 0 e 0 <= Ex_min -> Ex_min <= last e 0 -> nth 0 e 0 + qnat (length e) * width e <= Ex_max ->
  nth 0 e 0 <= Eg_min -> Eg_min <= last e 0 ->
  find_limits m Ex_min Ex_max Eg_min = Raise IndexError.
Proof.
  intros [SH _] X G E A1 A2 A3 A4 A5. rewrite (find_limits_unfold m e _ _ _ X E). cbv zeta.
  rewrite X, G in SH. destruct (shaped_rect _ _ _ SH) as (R & NC). destruct SH as (_ & NR & _).
  set (lo := qceil ((Eg_min - nth 0 e 0) / width e)). set (i0 := qceil ((Ex_min - nth 0 e 0) / width e)).
  set (i1 := Z.add (qfloor ((Ex_max - nth 0 e 0) / width e)) 1). pose proof E as (LE & W & N).
  assert (WN : width e <> 0) by (now apply Qclt_neq).
  assert (NN : forall y, 0 <= y -> (0 <= qceil y)%Z).
  { intros y Hy. destruct (qceil_spec y) as [_ B]. assert (C : qz (-1) < qz (qceil y)) by (change (qz (-1)) with (- (1)); qlra).
    apply (proj2 (qz_lt _ _)) in C. lia. }
  assert (I0 : (0 <= i0)%Z) by (apply NN, Qcdiv_nonneg; qlra).
  assert (L0 : (0 <= lo)%Z) by (apply NN, Qcdiv_nonneg; qlra).
  assert (LN : last e 0 = nth (length e - 1) e 0) by (apply last_nth; intros ->; cbn in LE; lia).
  assert (L1 : (lo <= Z.of_nat (length e - 1))%Z) by (apply ceil_le, energy_le; [exact E|lia|qlra]).
  assert (L2 : (i0 <= Z.of_nat (length e - 1))%Z) by (apply ceil_le, energy_le; [exact E|lia|qlra]).
  assert (I1 : Z.le (Z.of_nat (length e)) (qfloor ((Ex_max - nth 0 e 0) / width e))).
  { apply floor_ge. apply Qcdiv_le_r; [exact W|]. fold (qnat (length e)). qlra. }
  rewrite NC. unfold a_nr. rewrite NR.
  destruct (rows_ok (a_rows (values m)) (length e) (length e) lo (zrange i0 (Z.of_nat (length e))) R ltac:(lia) (NoDup_zrange _ _)) with (ig := repeat lo (length e))
    as (ig & EQ & LI & H1 & H2).
  { intros i Hi. apply in_zrange in Hi. lia. }
  { apply repeat_length. }
  { intros i Hi. apply in_zrange in Hi. unfold zget. replace (i <? 0)%Z with false by lia.
    rewrite (nth_error_nth' _ lo) by (rewrite repeat_length; lia). now rewrite nth_repeat. }
  rewrite (zrange_split i0 (Z.of_nat (length e)) i1) by (unfold i1; lia).
  rewrite loop_app, EQ. cbn [rbind].
  rewrite (zrange_split (Z.of_nat (length e)) (Z.of_nat (length e) + Z.of_nat 1) i1) by (unfold i1; lia).
  rewrite (zrange_S (Z.of_nat (length e)) 0), (zrange_empty (Z.of_nat (length e)) (Z.of_nat (length e) + Z.of_nat 0)) by lia.
  rewrite Z.add_0_r. cbn [app loop].
  rewrite (zrange_split lo (lo + Z.of_nat 1) (Z.of_nat (length e))) by lia.
  rewrite (zrange_S lo 0), (zrange_empty lo (lo + Z.of_nat 0)) by lia.
  unfold scan_row. cbn [app loop]. unfold at2, at_ at 1.
  replace (true && (Z.of_nat (length e) <? 0)%Z) with false by (cbn; lia).
  replace (Z.of_nat (length e) <? 0)%Z with false by lia.
  rewrite Nat2Z.id. rewrite (proj2 (nth_error_None _ _)) by lia. reflexivity.
Qed.
Print Assumptions find_limits_beyond.

Example find_limits_example :
  match find_limits ex_fg (qz 2) (qz 5) (qz 1) with
  | Ok L => jmin L = 1%Z /\ jmax L = 3%Z /\ igmin L = 0%Z /\ igmax L = [0; 2; 3]%Z
  | Raise _ => False end.
Proof. vm_compute. repeat split. Qed.

(* Below the first energy the row numbers are negative and wrap around: the last row,
   far above Ex_max, gets an upper limit as well. *)
Theorem find_limits_wraps_refuted : exists m e Ex_min Ex_max Eg_min L,
  consistent m /\ Ex m = e /\ Eg m = e /\ equidistant e /\
  find_limits m Ex_min Ex_max Eg_min = Ok L /\
  exists i, (i < length e)%nat /\ Ex_max < nth i e 0 /\ gmax L (Z.of_nat i) <> igmin L.
Proof.
  exists ex_fg, ex_e, (- qz 1), (qz 1), (qz 1).
  destruct (find_limits ex_fg (- qz 1) (qz 1) (qz 1)) as [L|] eqn:F; [|vm_compute in F; discriminate].
  exists L. pose proof ex_on_fg as (C & _ & X & G).
  split; [exact C|]. split; [exact X|]. split; [exact G|]. split; [apply ex_equi|]. split; [reflexivity|].
  exists 2%nat. split; [cbn; lia|]. split; [apply qltb_lt; reflexivity|].
  assert (H : match find_limits ex_fg (- qz 1) (qz 1) (qz 1) with Ok L => gmax L 2 = 3%Z /\ igmin L = 0%Z | Raise _ => False end)
    by (vm_compute; split; reflexivity).
  rewrite F in H. destruct H as [H1 H2]. change (Z.of_nat 2) with 2%Z. rewrite H1, H2. discriminate.
Qed.
Print Assumptions find_limits_wraps_refuted.

(* ------------------------------------------------ pad_matrix *)
Lemma pad_axis e N : equidistant e ->
  tab N (fun i => - qnat (N - i) * width e + nth 0 e 0) ++ e = longer e N.
Proof.
  intros E. apply (nth_ext _ _ 0 0).
  - rewrite app_length, tab_length. unfold longer. now rewrite tab_length.
  - intros i Hi. rewrite app_length, tab_length in Hi. destruct (Nat.lt_ge_cases i N) as [C|C].
    + rewrite app_nth1 by (rewrite tab_length; lia). unfold longer. rewrite !nth_tab by lia.
      rewrite qnat_sub by lia. ring.
    + rewrite app_nth2 by (rewrite tab_length; lia). rewrite tab_length.
      rewrite <- (longer_nth e N (i - N) E) by lia. f_equal. lia.
Qed.

(* Padding keeps every count at its energy and adds N empty rows and columns below. *)
Theorem pad_matrix_keeps_counts m e N : consistent m -> Ex m = e -> Eg m = e -> equidistant e ->
  exists m' e', pad_matrix m N = Ok m' /\ more_bins e e' N /\ on_axis m' e' /\
    moved N m m' /\ total m' = total m.
Proof.
  intros C X G E. destruct (longer_equidistant e N E) as (E' & W'). pose proof C as [SH _].
  rewrite X, G in SH. destruct (shaped_rect _ _ _ SH) as (R & NC). pose proof SH as (_ & NR & _).
  assert (LL : length (longer e N) = (N + length e)%nat) by apply tab_length.
  assert (RP : rect (a_rows (pad N (values m))) (N + length e) (N + length e)).
  { destruct R as (R1 & R2). unfold pad. cbn [a_rows]. rewrite NC. split.
    - rewrite app_length, repeat_length, map_length. lia.
    - intros r Hr. apply in_app_or in Hr as [Hr|Hr].
      + apply repeat_spec in Hr. subst r. apply repeat_length.
      + apply in_map_iff in Hr as (r' & <- & Hr'). rewrite app_length, repeat_length. f_equal. now apply R2. }
  unfold pad_matrix. rewrite X, G, bcast_refl. cbn [rbind negb].
  destruct (equidistant_cons2 _ E) as (a & b & t & EQ).
  assert (FT : first_two e = Ok (nth 0 e 0, nth 1 e 0)) by (rewrite EQ; reflexivity).
  rewrite FT. cbn [rbind fst snd]. change (nth 1 e 0 - nth 0 e 0) with (width e).
  rewrite (pad_axis e N E). unfold mk_matrix. cbv zeta.
  set (m0 := mkM (pad N (values m)) (longer e N) (longer e N) None None).
  assert (C0 : consistent m0).
  { split; [|exact I]. cbn [values Ex Eg m0]. rewrite LL. split; [|exact RP].
    unfold pad. cbn [a_nc]. now rewrite NC. }
  rewrite (verify_ok m0 C0). cbn [rbind set_state]. exists m0, (longer e N). split; [reflexivity|].
  assert (O : on_axis m0 (longer e N)) by (split; [exact C0|now repeat split]).
  assert (M : moved N m m0).
  { intros i j Hi Hj. rewrite X in Hi. rewrite G in Hj. cbn [values m0]. unfold pad, mget, vget. cbn [a_rows]. rewrite NC.
    destruct (Nat.ltb_spec i N) as [A|A]; cbn [orb].
    - rewrite app_nth1 by (rewrite repeat_length; lia). rewrite (nth_indep _ [] (repeat 0 (N + length e))) by (rewrite repeat_length; lia).
      rewrite !nth_repeat. reflexivity.
    - rewrite app_nth2 by (rewrite repeat_length; lia). rewrite repeat_length.
      rewrite (nth_indep _ [] (repeat 0 N ++ [])) by (rewrite map_length; lia).
      rewrite (map_nth (fun r => repeat 0 N ++ r)).
      destruct (Nat.ltb_spec j N) as [B|B].
      + rewrite app_nth1 by (rewrite repeat_length; lia). apply nth_repeat.
      + rewrite app_nth2 by (rewrite repeat_length; lia). now rewrite repeat_length. }
  split; [now apply longer_more|]. split; [exact O|]. split; [exact M|].
  unfold total.
  destruct (shaped_rect _ _ _ (proj1 C0)) as (R' & _).
  rewrite (msum_mget _ _ _ R), (msum_mget _ _ _ R'). cbn [Ex Eg m0]. rewrite LL.
  unfold moved in M. rewrite X, G in M.
  rewrite (sumn_range _ N (length e)); [|lia|].
  - apply sumn_ext. intros i Hi. rewrite (sumn_range _ N (length e)); [|lia|].
    + apply sumn_ext. intros j Hj. rewrite M by lia.
      replace (N + i <? N)%nat with false by (symmetry; apply Nat.ltb_ge; lia).
      replace (N + j <? N)%nat with false by (symmetry; apply Nat.ltb_ge; lia). cbn [orb].
      now replace (N + i - N)%nat with i by lia; replace (N + j - N)%nat with j by lia.
    + intros j Hj D. rewrite M by lia.
      replace (j <? N)%nat with true by (symmetry; apply Nat.ltb_lt; lia). now rewrite orb_true_r.
  - intros i Hi D. apply sumn_0. intros j Hj. rewrite M by lia.
    now replace (i <? N)%nat with true by (symmetry; apply Nat.ltb_lt; lia).
Qed.
Print Assumptions pad_matrix_keeps_counts.

Example pad_example :
  match pad_matrix ex_fg 2 with
  | Ok m => map (fun x => qeqb (fst x) (snd x)) (combine (Ex m) [- qz 3; - qz 1; qz 1; qz 3; qz 5]) = repeat true 5 /\
            qeqb (mget (a_rows (values m)) 4 3) (qz 3) = true /\ qeqb (mget (a_rows (values m)) 4 1) 0 = true
  | Raise _ => False end.
Proof. vm_compute. repeat split. Qed.

(* different axes are refused *)
Theorem pad_matrix_axes m N : length (Ex m) = length (Eg m) -> (2 <= length (Ex m))%nat ->
  allclose (Ex m) (Eg m) = false -> pad_matrix m N = Raise ValueError.
Proof.
  intros L L2 A. unfold pad_matrix, bcast_allclose. rewrite L, Nat.eqb_refl. rewrite A. reflexivity.
Qed.
Print Assumptions pad_matrix_axes.
Example pad_matrix_axes_ex : match mk_matrix (mkArr 2 [ql [1;2]%Z; ql [3;4]%Z]) (Some (ql [0;1]%Z)) (Some (ql [0;2]%Z)) None SNone with
  | Ok m => allclose (Ex m) (Eg m) = false /\ pad_matrix m 3 = Raise ValueError | Raise _ => False end.
Proof. vm_compute. split; reflexivity. Qed.
