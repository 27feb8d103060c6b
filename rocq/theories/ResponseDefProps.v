(* C64. On which axes the interpolation of the response is defined. *)
From Verif Require Import PyBase Axis CutSpec CutProofs IndexProofs RebinModel RebinSpec Rebin2DProofs MatrixModel MatrixOpsProofs VectorModel SmoothModel SmoothProofs InterpModel InterpProofs ResponseModel ResponseSpec ResponseProofs ResponseFanProofs ResponseProps.

(* ---------------------------------------------------------------- specification *)
(* the Compton spectra of the table: a common energy axis with at least two channels and a
   value for every channel *)
Definition compton_table_ok (r : resp_t) : Prop :=
  (2 <= length (r_Ecmp r))%nat /\ forall c, In c (r_cmp r) -> length c = length (r_Ecmp r).

(* ------------------------------------------------------------------------ proofs *)
Lemma eq_increasing E : equidistant E -> increasing E.
Proof.
  intros (L & W & H). assert (forall n l, (forall i, (i < length l)%nat -> nth i l 0 = nth 0 E 0 + qnat (n + i) * width E) -> increasing l) as G.
  { intros n l. revert n. induction l as [|x l IH]; intros n Q; constructor.
    - apply (IH (S n)). intros i Hi. specialize (Q (S i) ltac:(cbn; lia)). cbn [nth] in Q. rewrite Q. f_equal. f_equal. f_equal. lia.
    - apply Forall_forall. intros y Hy. apply (In_nth _ _ 0) in Hy. destruct Hy as (i & Hi & <-).
      pose proof (Q 0%nat ltac:(cbn; lia)) as Q0. pose proof (Q (S i) ltac:(cbn; lia)) as Q1. cbn [nth] in Q0, Q1. rewrite Q0, Q1.
      assert (qnat (n + 0) < qnat (n + S i)) by (apply qnat_lt; lia).
      assert (0 < (qnat (n + S i) - qnat (n + 0)) * width E) by (apply Qcmult_pos; qlra).
      assert (Q2 : (qnat (n + S i) - qnat (n + 0)) * width E = qnat (n + S i) * width E - qnat (n + 0) * width E) by ring. rewrite Q2 in *. qlra. }
  apply (G 0%nat). intros i Hi. now apply H.
Qed.
Lemma incr_nondecr E : increasing E -> nondecreasing E.
Proof. intros SX. induction SX as [|x l Hs IH Hf]; constructor; [assumption|]. revert Hf. apply Forall_impl. intros a Ha. now apply Qclt_le_weak. Qed.
Lemma eq_ne E : equidistant E -> E <> [].
Proof. intros (L & _) ->. cbn in L. lia. Qed.
Lemma index_in E e : equidistant E -> (index E e < length E)%nat /\ nearest E e (index E e).
Proof. intros EQ. pose proof (index_nearest_lemma E e (eq_ne E EQ) (incr_nondecr E (eq_increasing E EQ))) as N. split; [apply N|exact N]. Qed.
Lemma py_get {A} (l : list A) i d : (0 <= i)%Z -> (i < Z.of_nat (length l))%Z -> exists x, py_index l i = Ok x /\ x = nth (Z.to_nat i) l d.
Proof.
  intros H1 H2. exists (nth (Z.to_nat i) l d). split; [|reflexivity]. rewrite <- (Z2Nat.id i H1) at 1. apply py_index_nat. lia.
Qed.
Lemma py_get_nat {A} (l : list A) i : (i < length l)%nat -> exists x, py_index l (Z.of_nat i) = Ok x.
Proof. intros H. destruct l as [|d l]; [cbn in H; lia|]. exists (nth i (d :: l) d). now apply py_index_nat. Qed.

(* the axis onto which the tabulated Compton spectra are rebinned covers the requested one *)
Lemma arange_covers E top : equidistant E -> vget E (length E - 1) < top -> (length E <= length (arange (vget E 0) top (width E)))%nat.
Proof.
  intros EQ H. change (vget E 0) with (nth 0 E 0). pose proof EQ as (L & W & _). rewrite vget_equidistant in H by (assumption || lia). unfold arange. rewrite tab_length.
  destruct (qceil_spec ((top - nth 0 E 0) / width E)) as [_ Q].
  assert (P : qnat (length E - 1) < (top - nth 0 E 0) / width E).
  { apply Qcdiv_lt_r; [exact W|]. unfold vget in H. qlra. }
  assert (K : (Z.of_nat (length E - 1) < qceil ((top - nth 0%nat E 0%Qc) / width E)%Qc)%Z).
  { apply (proj2 (qz_lt _ _)). change (qz (Z.of_nat (length E - 1))) with (qnat (length E - 1)). qlra. }
  lia.
Qed.

Lemma filter_len {A} (p : A -> bool) l : (length (filter p l) <= length l)%nat.
Proof. induction l as [|x l IH]; cbn; [lia|]. destruct (p x); cbn; lia. Qed.
Lemma closest_ok r E e : table_ok r -> compton_table_ok r -> 0 < vget (r_Eg r) 0 -> equidistant E -> vget E (length E - 1) < last (r_Ecmp r) 0 ->
  exists c, get_closest_compton r E e = Ok c /\ (length E <= length (c_low c))%nat /\ (length E <= length (c_high c))%nat.
Proof.
  intros T (L2 & CL) P0 EQ TOP. unfold get_closest_compton. destruct T as (N2 & SX & _ & _ & _ & _ & _ & _ & LC).
  pose proof (filter_len (fun x => qleb x e) (r_Eg r)) as KL. unfold searchsorted. fold (nE r) in *.
  set (k := length (filter (fun x => qleb x e) (r_Eg r))) in *. cbv zeta.
  set (ih := if (Z.of_nat k =? Z.of_nat (nE r))%Z then (Z.of_nat k - 1)%Z else Z.of_nat k).
  assert (IH : (0 <= ih < Z.of_nat (nE r))%Z). { unfold ih. destruct (Z.eqb_spec (Z.of_nat k) (Z.of_nat (nE r))); unfold nE in *; lia. }
  assert (CM : length (cmp_matrix r) = nE r) by (apply tab_length).
  assert (CR : forall i, (i < nE r)%nat -> length (nth i (cmp_matrix r) []) = length (r_Ecmp r)).
  { intros i Hi. rewrite cmp_matrix_nth by exact Hi. rewrite map_length. apply CL, nth_In. unfold nE in *. lia. }
  destruct (py_get (r_Eg r) ih 0 (proj1 IH) (proj2 IH)) as (Eh & -> & HE). cbn [rbind].
  destruct (py_get (cmp_matrix r) ih [] (proj1 IH) ltac:(rewrite CM; apply IH)) as (hi & -> & HH). cbn [rbind].
  assert (Lhi : length hi = length (r_Ecmp r)) by (subst hi; apply CR; lia).
  assert (RB : forall s, length s = length (r_Ecmp r) -> exists l, rebin_1D s (r_Ecmp r) (arange (nth 0 E 0) (last (r_Ecmp r) 0) (width E)) = Ok l /\ (length E <= length l)%nat).
  { intros s Ls. pose proof (arange_covers E (last (r_Ecmp r) 0) EQ TOP) as AC. change (vget E 0) with (nth 0 E 0) in AC. destruct EQ as (LE & _).
    unfold rebin_1D. destruct (arange (nth 0 E 0) (last (r_Ecmp r) 0) (width E)) as [|o0 [|o1 os]]; cbn [length] in AC; [lia|lia|].
    destruct (r_Ecmp r) as [|m0 [|m1 ms]]; cbn [length] in L2; [lia|lia|]. rewrite (proj2 (Nat.leb_le _ _)) by lia. eexists. split; [reflexivity|]. rewrite tab_length. exact AC. }
  assert (LO : exists p, (if (ih - 1 <? 0)%Z then Ok (0, map (fun _ => 0) hi)
      else do x <- py_index (r_Eg r) (ih - 1) ;; do l <- py_index (cmp_matrix r) (ih - 1) ;; Ok (x, l)) = Ok p /\ fst p < Eh /\ length (snd p) = length (r_Ecmp r)).
  { destruct (Z.ltb_spec (ih - 1) 0) as [B|B].
    - eexists. split; [reflexivity|]. cbn [fst snd]. rewrite map_length. split; [|exact Lhi]. replace ih with 0%Z in HE by lia. subst Eh. exact P0.
    - destruct (py_get (r_Eg r) (ih - 1) 0 B ltac:(unfold nE in *; lia)) as (El & -> & HEl). cbn [rbind].
      destruct (py_get (cmp_matrix r) (ih - 1) [] B ltac:(lia)) as (lo & -> & HL). cbn [rbind]. eexists. split; [reflexivity|]. cbn [fst snd].
      split; [|subst lo; apply CR; lia]. subst El Eh. apply (SSorted_nth _ _ 0 SX); unfold nE in *; lia. }
  destruct LO as (p & -> & LT & LP). cbn [rbind].
  destruct (RB (snd p) LP) as (l & R1 & L1). destruct (RB hi Lhi) as (h & R2 & L2').
  destruct EQ as (LE & _). unfold width in *. destruct E as [|e0 [|e1 es]]; cbn [length] in LE; [lia|lia|]. cbn [nth] in R1, R2. rewrite R1, R2. cbn [rbind].
  destruct (qeqb_spec (fst p) Eh) as [Q|_]; [exfalso; qlra|]. eexists. split; [reflexivity|]. cbn [c_low c_high]. split; assumption.
Qed.

Lemma assign_ok n lo hi l : (hi <= n)%nat -> (hi <= length l)%nat -> exists R, assign_slice (zeros n) lo hi (slice l lo hi) = Ok R.
Proof.
  intros H1 H2. unfold assign_slice, slice. rewrite zeros_length, firstn_length, skipn_length.
  destruct (Nat.eqb_spec (Nat.min (hi - lo) (length l - lo)) (Nat.max (Nat.min lo n) (Nat.min hi n) - Nat.min lo n)) as [_|N]; [eauto|]. exfalso. lia.
Qed.
Lemma linear_length E c : length (linear_cmp E c) = length (c_low c). Proof. apply tab_length. Qed.

Lemma fan_loop_ok Eout E Ece c : equidistant Eout -> (length Eout <= length (c_low c))%nat -> (length Eout <= length (c_high c))%nat ->
  forall is_ R i0, exists R' k, fan_loop Eout E Ece c is_ R i0 = Ok (R', k) /\
    (k = i0 \/ (In k is_ /\ qn 1 10 <= vget Eout k /\ vget Eout k <= Ece /\ div0 (vget Eout k) (E / qz 511 * (E - vget Eout k)) <> 0)).
Proof.
  intros EQ L1 L2. induction is_ as [|i rest IH]; intros R i0; cbn [fan_loop].
  - exists R, i0. split; [reflexivity|now left].
  - assert (SK : exists R' k, fan_loop Eout E Ece c rest R i0 = Ok (R', k) /\
      (k = i0 \/ (In k (i :: rest) /\ qn 1 10 <= vget Eout k /\ vget Eout k <= Ece /\ div0 (vget Eout k) (E / qz 511 * (E - vget Eout k)) <> 0))).
    { destruct (IH R i0) as (R' & k & H & K). exists R', k. split; [exact H|]. destruct K as [K|(K & K')]; [now left|right]. split; [now right|exact K']. }
    destruct (qltb_spec (vget Eout i) (qn 1 10)) as [B|B]; [exact SK|]. destruct (qltb_spec Ece (vget Eout i)) as [B2|B2]; [exact SK|]. cbn [orb]. cbv zeta.
    destruct (qltb_spec 0 (div0 (vget Eout i) (E / qz 511 * (E - vget Eout i)))) as [Z1|Z1]; [|exact SK].
    destruct (qltb_spec (div0 (vget Eout i) (E / qz 511 * (E - vget Eout i))) (qz 2)) as [Z2|Z2]; [|exact SK]. cbn [andb].
    destruct (py_get_nat (c_low c) (index Eout (E_compton (c_Elow c) (1 - div0 (vget Eout i) (E / qz 511 * (E - vget Eout i)))))) as (c1 & ->);
      [eapply Nat.lt_le_trans; [apply index_in, EQ|exact L1]|]. cbn [rbind].
    destruct (py_get_nat (c_high c) (index Eout (E_compton (c_Ehigh c) (1 - div0 (vget Eout i) (E / qz 511 * (E - vget Eout i)))))) as (c2 & ->);
      [eapply Nat.lt_le_trans; [apply index_in, EQ|exact L2]|]. cbn [rbind].
    match goal with |- context [fan_loop Eout E Ece c rest ?R1 i] => destruct (IH R1 i) as (R' & k & H & K) end. exists R', k. split; [exact H|].
    right. destruct K as [-> |(K & K')]; [split; [now left|]|split; [now right|exact K']].
    split; [exact B|]. split; [exact B2|]. intros Q; rewrite Q in Z1; qlra.
Qed.

Lemma compton_edge_le E : E_compton E (- (1)) <= E.
Proof.
  destruct (qltb_spec (qn 1 10) E) as [H|H]; [apply Qclt_le_weak, compton_edge_lt, H|]. unfold E_compton.
  destruct (qltb_spec (qn 1 10) E); [exfalso; qlra|]. apply Qcle_refl.
Qed.
(* the distance between the full-energy peak and the Compton edge *)
Lemma backscatter_energy E : qn 1 10 < E -> (E - E_compton E (- (1))) * (qz 511 + qz 2 * E) = qz 511 * E.
Proof.
  intros H. unfold E_compton. destruct (qltb_spec (qn 1 10) E) as [_|]; [|exfalso; qlra].
  assert (P : 0 < E) by (assert (0 < qn 1 10) by reflexivity; qlra). assert (Z : qz 511 <> 0) by (apply qeqb_neq; reflexivity).
  assert (D : 0 < qz 511 + qz 2 * E). { assert (0 < qz 2 * E) by (apply Qcmult_pos; [reflexivity|exact P]). assert (0 < qz 511) by reflexivity. qlra. }
  replace (1 + E / qz 511 * (1 - - (1))) with ((qz 511 + qz 2 * E) / qz 511) by (rewrite qz_2; field; exact Z).
  field. split; [exact Z|now apply Qclt_neq].
Qed.
(* channels of at most 438 keV: the fan ends below the channel of the full-energy peak *)
Lemma fan_below_peak E j i_bsc : equidistant E -> width E <= qz 438 -> (j < length E)%nat -> qn 1 10 < vget E j ->
  i_bsc = index E (vget E j - E_compton (vget E j) (- (1))) ->
  (i_bsc + 3 < index E (E_compton (vget E j) (- (1))))%nat -> (index E (E_compton (vget E j) (- (1))) < j)%nat.
Proof.
  intros EQ WD Hj PE -> GAP. set (e := vget E j) in *. set (ce := E_compton e (- (1))) in *. set (b := e - ce) in *.
  pose proof EQ as (L2 & W & _). destruct (index_in E ce EQ) as (C1 & _ & C2 & C3). destruct (index_in E b EQ) as (B1 & _ & B2 & B3).
  set (ic := index E ce) in *. set (ib := index E b) in *.
  destruct (Nat.lt_ge_cases ic j) as [|GE]; [assumption|exfalso].
  pose proof (compton_edge_lt e PE) as LT. fold ce in LT.
  fold (vget E ic) in C2, C3. fold (vget E ib) in B2, B3.
  assert (EV : forall i, (i < length E)%nat -> vget E i = vget E 0 + qnat i * width E) by (intros; now apply vget_equidistant).
  assert (ST : forall i k, (i < length E)%nat -> (k < length E)%nat -> (i + 1 <= k)%nat -> vget E i + width E <= vget E k).
  { intros i k Hi Hk Q. rewrite (EV i Hi), (EV k Hk). assert (qnat (i + 1) <= qnat k) by (apply qnat_le; exact Q). rewrite qnat_add in *. change (qnat 1) with 1 in *.
    assert (0 <= (qnat k - (qnat i + 1)) * width E) by (apply Qcmult_nonneg; qlra).
    assert (Q2 : (qnat k - (qnat i + 1)) * width E = qnat k * width E - qnat i * width E - width E) by ring. rewrite Q2 in *. qlra. }
  assert (JC : ic = j).
  { destruct (Nat.eq_dec ic j) as [|N]; [assumption|exfalso]. specialize (C2 j Hj). fold (vget E j) in C2. fold e in C2.
    pose proof (ST j ic Hj C1 ltac:(lia)) as SL. fold e in SL.
    destruct (qabs_spec (vget E ic - ce)) as [[A Q]|[A Q]]; rewrite Q in C2; destruct (qabs_spec (e - ce)) as [[A' Q']|[A' Q']]; rewrite Q' in C2; qlra. }
  (* the edge is at most half a channel below the peak *)
  assert (HB : b + b <= width E).
  { assert (Hp : (j - 1 < length E)%nat) by lia. specialize (C2 (j - 1)%nat Hp). fold (vget E (j - 1)) in C2. rewrite JC in C2. fold e in C2.
    assert (S1 : vget E (j - 1) + width E = e). { unfold e. rewrite (EV _ Hp), (EV _ Hj). replace j with (S (j - 1)) at 2 by lia. rewrite qnat_S. ring. }
    unfold b. destruct (qabs_spec (e - ce)) as [[A Q]|[A Q]]; rewrite Q in C2; destruct (qabs_spec (vget E (j - 1) - ce)) as [[A' Q']|[A' Q']]; rewrite Q' in C2; qlra. }
  (* the backscatter energy lies less than half a channel above its channel *)
  assert (HL : b < vget E ib + width E / qz 2).
  { assert (Hp : (ib + 1 < length E)%nat) by lia. specialize (B3 (ib + 1)%nat ltac:(lia)). fold (vget E (ib + 1)) in B3.
    assert (S1 : vget E (ib + 1) = vget E ib + width E). { rewrite (EV _ Hp), (EV _ B1). rewrite qnat_add. change (qnat 1) with 1. ring. }
    rewrite S1 in B3. assert (HH : width E / qz 2 + width E / qz 2 = width E) by (rewrite qz_2; field; discriminate).
    destruct (qabs_spec (vget E ib - b)) as [[A Q]|[A Q]]; rewrite Q in B3; destruct (qabs_spec (vget E ib + width E - b)) as [[A' Q']|[A' Q']]; rewrite Q' in B3; qlra. }
  assert (HJ : vget E ib + qz 4 * width E <= e).
  { unfold e. rewrite (EV _ Hj), (EV _ B1). assert (qnat (ib + 4) <= qnat j) by (apply qnat_le; lia). rewrite qnat_add in *. change (qnat 4) with (qz 4) in *.
    assert (0 <= (qnat j - (qnat ib + qz 4)) * width E) by (apply Qcmult_nonneg; qlra).
    assert (Q2 : (qnat j - (qnat ib + qz 4)) * width E = qnat j * width E - qnat ib * width E - qz 4 * width E) by ring. rewrite Q2 in *. qlra. }
  pose proof (backscatter_energy e PE) as BE. fold ce in BE. fold b in BE.
  set (w := width E) in *.
  assert (PB : 0 < b) by (unfold b; qlra).
  assert (HH : w / qz 2 + w / qz 2 = w) by (rewrite qz_2; field; discriminate).
  (* e > 3.5 w + b and 2 b <= w: contradiction for w <= 438 *)
  assert (X1 : qz 7 * w < qz 2 * e). { assert (qz 4 * w = w + w + w + w) by (change (qz 4) with (1 + 1 + 1 + 1); ring). assert (qz 2 * e = e + e) by (rewrite qz_2; ring). assert (qz 7 * w = w + w + w + w + w + w + w) by (change (qz 7) with (1 + 1 + 1 + 1 + 1 + 1 + 1); ring). qlra. }
  assert (P2 : 0 < qz 511 + qz 2 * e). { assert (0 < qz 2 * e) by (apply Qcmult_pos; [reflexivity|assert (0 < qn 1 10) by reflexivity; qlra]). assert (0 < qz 511) by reflexivity. qlra. }
  assert (X2 : 0 <= (w - (b + b)) * (qz 511 + qz 2 * e)) by (apply Qcmult_nonneg; [qlra|now apply Qclt_le_weak]).
  assert (X3 : (w - (b + b)) * (qz 511 + qz 2 * e) = w * qz 511 + w * (qz 2 * e) - qz 1022 * e).
  { replace ((w - (b + b)) * (qz 511 + qz 2 * e)) with (w * qz 511 + w * (qz 2 * e) - (1 + 1) * (b * (qz 511 + qz 2 * e))) by ring. rewrite BE.
    replace (qz 1022) with ((1 + 1) * qz 511) by (apply Qc_is_canon; reflexivity). ring. }
  rewrite X3 in X2.
  (* 1022 e - 2 w e <= 511 w; (1022 - 2w) e > (1022 - 2w) 3.5 w = (3577 - 7w) w >= 511 w *)
  assert (X4 : 0 < (qz 511 - w) * (qz 2 * e - qz 7 * w)). { apply Qcmult_pos; [|qlra]. assert (qz 438 < qz 511) by reflexivity. qlra. }
  assert (X5 : 0 <= w * (qz 7 * (qz 438 - w))). { apply Qcmult_nonneg; [now apply Qclt_le_weak|]. apply Qcmult_nonneg; [discriminate|qlra]. }
  assert (X6 : (qz 511 - w) * (qz 2 * e - qz 7 * w) = qz 1022 * e - w * (qz 2 * e) - w * qz 3577 + w * (qz 7 * w)).
  { replace (qz 1022) with (qz 511 * qz 2) by (apply Qc_is_canon; reflexivity). replace (qz 3577) with (qz 511 * qz 7) by (apply Qc_is_canon; reflexivity). ring. }
  assert (X7 : w * (qz 7 * (qz 438 - w)) = w * qz 3577 - w * qz 511 - w * (qz 7 * w)).
  { replace (qz 3577) with (qz 511 + qz 7 * qz 438) by (apply Qc_is_canon; reflexivity). ring. }
  rewrite X6 in X4. rewrite X7 in X5. qlra.
Qed.

Lemma qfloor_ge0 x : 0 <= x -> (0 <= qfloor x)%Z.
Proof.
  intros H. destruct (qfloor_spec x) as [_ Q]. destruct (Z.le_gt_cases 0 (qfloor x)) as [|G]; [assumption|exfalso].
  assert (qz (qfloor x + 1) <= qz 0) by (apply (proj1 (qz_le _ _)); lia). rewrite qz_add in *. change (qz 0) with 0 in *. change (qz 1) with 1 in *. qlra.
Qed.
Lemma fan_to_end_ok Eout E c i_start i_stop fwhm : equidistant Eout -> length fwhm = length Eout -> nonneg fwhm ->
  (length Eout <= length (c_low c))%nat -> (length Eout <= length (c_high c))%nat -> (i_start < i_stop)%nat -> (i_stop < length Eout)%nat ->
  exists R, fan_to_end Eout E c i_start i_stop fwhm = Ok R.
Proof.
  intros EQ LF NF L1 L2 LT HS. unfold fan_to_end. pose proof EQ as (LE & W & _).
  rewrite !(py_index_nat fwhm _ 0) by (rewrite LF; apply index_in, EQ). cbn [rbind].
  rewrite !(py_index_nat Eout _ 0) by lia. cbn [rbind].
  assert (D : nth i_start Eout 0 < nth i_stop Eout 0) by (apply (SSorted_nth _ _ 0 (eq_increasing Eout EQ)); lia).
  set (d := nth i_stop Eout 0 - nth i_start Eout 0) in *. assert (PD : 0 < d) by (unfold d; qlra).
  destruct (qeqb_spec d 0) as [Q|_]; [exfalso; qlra|].
  assert (SC : forall el k, 0 <= (el + qz 6 * (nth k fwhm 0 / qn 235 100) - E_compton el (- (1))) / d).
  { intros el k. apply Qcdiv_nonneg; [|now apply Qclt_le_weak]. pose proof (compton_edge_le el). pose proof (nonneg_vget fwhm k NF) as N. unfold vget in N.
    assert (0 <= qz 6 * (nth k fwhm 0 / qn 235 100)) by (apply Qcmult_nonneg; [discriminate|apply Qcdiv_nonneg; [exact N|discriminate]]). qlra. }
  assert (TR : forall (l : list Qc) k s n, 0 <= s -> (1 <= length l)%nat -> (i_start <= n)%nat ->
    exists x, py_index l (Z.min (qtrunc (qnat k + s * (qnat n - (qnat i_start - 1)))) (Z.of_nat (length l) - 1)) = Ok x).
  { intros l k s n Ps Ll Hn. assert (P : 0 <= qnat k + s * (qnat n - (qnat i_start - 1))).
    { assert (qnat i_start <= qnat n) by (apply qnat_le; exact Hn). assert (0 <= s * (qnat n - (qnat i_start - 1))) by (apply Qcmult_nonneg; [exact Ps|qlra]). pose proof (qnat_nonneg k). qlra. }
    assert (T : (0 <= qtrunc (qnat k + s * (qnat n - (qnat i_start - 1))))%Z). { rewrite qtrunc_nonneg by exact P. apply qfloor_ge0, P. }
    destruct (py_get l (Z.min (qtrunc (qnat k + s * (qnat n - (qnat i_start - 1)))) (Z.of_nat (length l) - 1)) 0 ltac:(lia) ltac:(lia)) as (x & Hx & _). eauto. }
  match goal with |- context [rmapm ?f ?l] => destruct (rmapm_forall2 f (fun _ _ => True) l) as (vals & -> & _) end.
  - intros i Hi. apply in_seq in Hi. cbv zeta.
    destruct (TR (c_low c) (index Eout (E_compton (c_Elow c) (- (1)))) _ i (SC (c_Elow c) (index Eout (c_Elow c))) ltac:(lia) ltac:(lia)) as (x & ->). cbn [rbind].
    destruct (TR (c_high c) (index Eout (E_compton (c_Ehigh c) (- (1)))) _ i (SC (c_Ehigh c) (index Eout (c_Ehigh c))) ltac:(lia) ltac:(lia)) as (y & ->). cbn [rbind]. eauto.
  - cbn [rbind]. eauto.
Qed.

Lemma index_ge E e j : equidistant E -> (j < length E)%nat -> vget E j <= e -> (j <= index E e)%nat.
Proof.
  intros EQ Hj H. destruct (Nat.le_gt_cases j (index E e)) as [|G]; [assumption|exfalso].
  destruct (index_in E e EQ) as (I1 & _ & _ & I3). specialize (I3 j ltac:(lia)). pose proof (SSorted_nth _ _ 0 (eq_increasing E EQ) (index E e) j ltac:(lia)) as Q. unfold vget in H.
  cbv beta in Q. destruct (qabs_spec (nth (index E e) E 0 - e)) as [[A Q1]|[A Q1]]; rewrite Q1 in I3; destruct (qabs_spec (nth j E 0 - e)) as [[A' Q2]|[A' Q2]]; rewrite Q2 in I3; qlra.
Qed.

Lemma compton_part_ok r E fwhm j : table_ok r -> compton_table_ok r -> 0 < vget (r_Eg r) 0 -> equidistant E -> width E <= qz 438 ->
  vget E (length E - 1) < last (r_Ecmp r) 0 -> length fwhm = length E -> nonneg fwhm -> (j < length E)%nat ->
  exists R, compton_part r E fwhm j (vget E j) = Ok R.
Proof.
  intros T CT P0 EQ WD TOP LF NF Hj. unfold compton_part. cbv zeta.
  destruct (closest_ok r E (vget E j) T CT P0 EQ TOP) as (c & -> & L1 & L2). cbn [rbind].
  set (e := vget E j) in *. unfold linear_backscatter. set (ib := index E (e - E_compton e (- (1)))).
  assert (Hb : (ib < length E)%nat) by (apply index_in, EQ).
  destruct (assign_ok (length E) 0 (ib + 1) (linear_cmp e c) ltac:(lia) ltac:(rewrite linear_length; lia)) as (R1 & ->). cbn [rbind].
  set (mx := e + qz 6 * (vget fwhm j / qn 235 100)). set (im := Nat.min (index E mx) (length E - 1)).
  assert (Him : (im < length E)%nat) by (unfold im; lia).
  assert (JM : (j <= im)%nat).
  { unfold im. apply Nat.min_glb; [|lia]. apply index_ge; [exact EQ|exact Hj|]. unfold mx. fold e.
    assert (0 <= qz 6 * (vget fwhm j / qn 235 100)) by (apply Qcmult_nonneg; [discriminate|apply Qcdiv_nonneg; [now apply nonneg_vget|discriminate]]). qlra. }
  unfold fan_method. set (ic := Nat.min (index E (E_compton e (- (1)))) (Nat.min im (length E))).
  destruct (fan_loop_ok E e (E_compton e (- (1))) c EQ L1 L2 (seq (ib + 1) (ic - (ib + 1))) (zeros (length E)) (ib + 1)) as (R' & k & -> & K). cbn [rbind fst snd].
  destruct (Nat.leb_spec k (ib + 2)) as [B|B].
  - unfold linear_to_end. destruct (assign_ok (length E) (ib + 1) (im + 1) (linear_cmp e c) ltac:(lia) ltac:(rewrite linear_length; lia)) as (R2 & ->). cbn [rbind]. eauto.
  - destruct K as [-> |(K1 & K2 & K3 & K4)]; [lia|]. apply in_seq in K1.
    assert (PE : qn 1 10 < e).
    { destruct (qltb_spec (qn 1 10) e) as [|G]; [assumption|exfalso]. pose proof (compton_edge_le e).
      assert (Q : e = vget E k) by (apply Qcle_antisym; qlra). apply K4. rewrite <- Q. unfold div0.
      replace (e / qz 511 * (e - e)) with 0 by (unfold Qcdiv; ring). reflexivity. }
    assert (FB : (index E (E_compton e (- (1))) < j)%nat) by (apply (fan_below_peak E j ib EQ WD Hj PE eq_refl); fold e; unfold ic in K1; lia).
    destruct (fan_to_end_ok E e c (k + 1) im fwhm EQ LF NF L1 L2) as (R2 & ->); [unfold ic in K1; lia|exact Him|]. cbn [rbind]. eauto.
Qed.

(* ------------------------------------------------------------------- the property *)
(* C64. The interpolation is defined on every equidistant axis whose channels are at most
   438 keV wide and which ends below the last energy of the tabulated Compton spectra, provided
   the checks of iterpolate_checks pass; its rows are then as in response_rows_partial. *)
Theorem response_defined gaussian smooth_compton truncate r E fw :
  (forall e mu s, 0 <= s -> 0 <= gaussian e mu s) -> (forall mu s, 0 <= s -> 0 < gaussian mu mu s) -> 0 <= truncate ->
  table_ok r -> compton_table_ok r -> 0 < vget (r_Eg r) 0 ->
  equidistant E -> width E <= qz 438 -> vget E (length E - 1) < last (r_Ecmp r) 0 ->
  (forall e, In e E -> exists f, f_fwhm_rel r fw e = Ok f /\ 0 <= e * f) ->
  interpolate_checks r E fw = Ok tt ->
  exists m, interpolate gaussian smooth_compton truncate r E fw = Ok m /\
    Eg m = E /\ Ex m = E /\ rect (a_rows (values m)) (length E) (length E) /\
    (forall row, In row (a_rows (values m)) -> nonneg row /\ (qsum row = 1 \/ forall x, In x row -> x = 0)) /\
    (counts_ok r -> forall j p, (j < length E)%nat -> f_pFE r (vget E j) = Ok p -> 0 < p -> qsum (nth j (a_rows (values m)) []) = 1).
Proof.
  intros G0 G1 TR T CT P0 EQ WD TOP HF CK.
  assert (D : exists m, interpolate gaussian smooth_compton truncate r E fw = Ok m).
  2:{ destruct D as (m & H). exists m. split; [exact H|]. eapply response_rows_partial; eassumption. }
  unfold interpolate. rewrite CK. cbn [rbind].
  destruct (rmapm_forall2 (fun e => do f <- f_fwhm_rel r fw e ;; Ok (e * f / qz 100)) (fun _ y => 0 <= y) E) as (fwhm & -> & F2).
  { intros e He. destruct (HF e He) as (f & -> & P). cbn [rbind]. eexists. split; [reflexivity|]. apply Qcdiv_nonneg; [exact P|discriminate]. }
  cbn [rbind]. assert (LF : length fwhm = length E) by (clear - F2; induction F2; cbn; congruence).
  assert (NF : nonneg fwhm). { clear - F2. induction F2 as [|x y l m H _ IH]; intros z Hz; [contradiction|]. destruct Hz as [<-|Hz]; [exact H|now apply IH]. }
  destruct (rmapm_forall2 (row gaussian smooth_compton truncate r E fwhm) (fun _ _ => True) (seq 0 (length E))) as (R & RR & _).
  { intros j Hj. apply in_seq in Hj. unfold row.
    destruct (compton_part_ok r E fwhm j T CT P0 EQ WD TOP LF NF ltac:(lia)) as (C & CP). rewrite CP. cbn [rbind].
    destruct (compton_part_lemma r E fwhm j (vget E j) C CP ltac:(lia)) as [LC NC].
    destruct (raw_peaks_lemma r E j T EQ ltac:(lia)) as (l & pFE & pSE & pDE & p511 & RP & _ & _ & _ & _ & LL & _). rewrite RP. cbn [rbind].
    destruct smooth_compton.
    - destruct (gauss_smoothing_total gaussian G0 G1 (vadd C l) E fwhm truncate EQ) as (out & -> & _); [rewrite vadd_length; exact LC|exact LF|exact NF|exact TR|].
      cbn [rbind]. eauto.
    - destruct (gauss_smoothing_total gaussian G0 G1 l E fwhm truncate EQ) as (out & -> & _); [exact LL|exact LF|exact NF|exact TR|]. cbn [rbind]. eauto. }
  rewrite RR. cbn [rbind]. apply rmapm_length in RR. rewrite seq_length in RR.
  unfold mk_matrix, verify_integrity, a_nr. cbn [values Ex Eg std a_rows a_nc]. rewrite map_length, RR, !Nat.eqb_refl. cbn [negb rbind set_state]. eauto.
Qed.
Print Assumptions response_defined.
Example response_defined_ex : compton_table_ok ex_r /\ 0 < vget (r_Eg ex_r) 0 /\ width ex_axis <= qz 438 /\ vget ex_axis (length ex_axis - 1) < last (r_Ecmp ex_r) 0 /\
  interpolate_checks ex_r ex_axis (qz 60) = Ok tt.
Proof.
  split; [|split; [reflexivity|split; [discriminate|split; vm_compute; reflexivity]]]. split; [vm_compute; lia|]. intros c Hc. cbn in Hc. repeat destruct Hc as [<-|Hc]; try contradiction; reflexivity.
Qed.

(* The axis has to end below the last energy of the tabulated Compton spectra: otherwise these
   are rebinned onto an axis that is too short. *)
Definition ex_short : resp_t := mkResp (r_Eg ex_r) (r_fwhm ex_r) (r_eff ex_r) (r_FE ex_r) (r_SE ex_r) (r_DE ex_r) (r_c511 ex_r)
  (map (firstn 5) (r_cmp ex_r)) (ql [0;500;1000;1500;2000]%Z).
Theorem response_defined_range_refuted : exists gaussian r E fw,
  (forall e mu s, 0 <= s -> 0 <= gaussian e mu s) /\ (forall mu s, 0 <= s -> 0 < gaussian mu mu s) /\
  table_ok r /\ compton_table_ok r /\ counts_ok r /\ rows_filled r /\ 0 < vget (r_Eg r) 0 /\
  equidistant E /\ width E <= qz 438 /\ (forall e, In e E -> e <= vget (r_Eg r) (length (r_Eg r) - 1)) /\
  interpolate_checks r E fw = Ok tt /\ interpolate gaussian true (qz 3) r E fw = Raise IndexError.
Proof.
  exists ex_g, ex_short, (tab 15 (fun k => qz 200 * qnat k)), (qz 60). destruct ex_g_bell as [G0 G1].
  split; [exact G0|]. split; [exact G1|]. split; [|split; [|split; [|split; [|split; [|split; [|split; [|split; [|split]]]]]]]].
  - repeat split; try reflexivity; [vm_compute; lia|]. repeat constructor.
  - split; [vm_compute; lia|]. intros c Hc. cbn in Hc. repeat destruct Hc as [<-|Hc]; try contradiction; reflexivity.
  - repeat split; try (intros x Hx; cbn in Hx; repeat destruct Hx as [<-|Hx]; discriminate || contradiction).
    intros c Hc. cbn in Hc. repeat destruct Hc as [<-|Hc]; try contradiction; intros x Hx; cbn in Hx; repeat destruct Hx as [<-|Hx]; discriminate || contradiction.
  - intros i Hi. cbn in Hi. destruct i as [|[|[|i]]]; [..|lia]; apply qeqb_neq; reflexivity.
  - reflexivity.
  - split; [vm_compute; lia|]. split; [reflexivity|]. intros i Hi. rewrite tab_length in Hi.
    do 15 (destruct i as [|i]; [apply qeqb_eq; vm_compute; reflexivity|]). lia.
  - discriminate.
  - intros e He. apply in_tab in He. destruct He as (k & Hk & ->). do 15 (destruct k as [|k]; [vm_compute; discriminate|]). lia.
  - vm_compute. reflexivity.
  - vm_compute. reflexivity.
Qed.
Print Assumptions response_defined_range_refuted.
