(* Lemmas on the interpolation of the response. *)
From Verif Require Import PyBase Axis RebinModel RebinSpec RebinProofs Rebin2DProofs MatrixModel MatrixSpec VectorModel CutSpec IndexProofs CutProofs
  MatrixOpsProofs DecompProofs SmoothModel SmoothSpec SmoothProofs FirstGenProofs InterpModel InterpProofs EnsembleProofs ResponseModel ResponseSpec.

Lemma nonneg_vget l k : nonneg l -> 0 <= vget l k.
Proof. intros H. unfold vget. destruct (nth_in_or_default k l 0) as [I|E]; [now apply H|rewrite E; apply Qcle_refl]. Qed.
Lemma nonneg_tab n f : (forall i, (i < n)%nat -> 0 <= f i) -> nonneg (tab n f).
Proof. intros H x Hx. apply in_tab in Hx. destruct Hx as (i & Hi & ->). now apply H. Qed.
Lemma div0_nonneg a b : 0 <= a -> 0 <= b -> 0 <= div0 a b.
Proof. intros H1 H2. unfold div0. destruct (qeqb_spec b 0); [apply Qcle_refl|]. now apply Qcdiv_nonneg. Qed.
Lemma nonneg_app l m : nonneg l -> nonneg m -> nonneg (l ++ m).
Proof. intros H1 H2 x Hx. apply in_app_or in Hx. destruct Hx; auto. Qed.
Lemma nonneg_zeros n : nonneg (zeros n).
Proof. intros x Hx. apply repeat_spec in Hx. subst. apply Qcle_refl. Qed.
Lemma nonneg_firstn l n : nonneg l -> nonneg (firstn n l).
Proof. intros H x Hx. apply H. rewrite <- (firstn_skipn n l). apply in_or_app. now left. Qed.
Lemma nonneg_clip0 l : nonneg (clip0 l).
Proof.
  intros x Hx. apply in_map_iff in Hx. destruct Hx as (y & <- & _). destruct (qltb_spec y 0) as [|G]; [apply Qcle_refl|exact G].
Qed.
Lemma clip0_length l : length (clip0 l) = length l. Proof. apply map_length. Qed.
Lemma clip0_id l : nonneg l -> clip0 l = l.
Proof.
  intros H. induction l as [|x l IH]; [reflexivity|]. unfold clip0 in *. cbn [map]. rewrite IH by (intros y Hy; apply H; now right).
  destruct (qltb_spec x 0) as [G|]; [|reflexivity]. exfalso. specialize (H x (or_introl eq_refl)). qlra.
Qed.
Lemma nonneg_vadd a b : nonneg a -> nonneg b -> nonneg (vadd a b).
Proof. intros H1 H2. apply nonneg_tab. intros i _. pose proof (nonneg_vget a i H1). pose proof (nonneg_vget b i H2). qlra. Qed.
Lemma vadd_length a b : length (vadd a b) = length a. Proof. apply tab_length. Qed.
Lemma zeros_length n : length (zeros n) = n. Proof. apply repeat_length. Qed.
Lemma qsum_vadd a b : length a = length b -> qsum (vadd a b) = qsum a + qsum b.
Proof. intros H. unfold vadd. rewrite qsum_tab, sumn_add, !qsum_nth, H. reflexivity. Qed.

Lemma assign_slice_length R lo hi rhs R' : assign_slice R lo hi rhs = Ok R' -> length R' = length R.
Proof.
  unfold assign_slice. set (a := Nat.min lo (length R)). set (b := Nat.max a (Nat.min hi (length R))).
  destruct (Nat.eqb_spec (length rhs) (b - a)) as [E|N]; intros H.
  - injection H as <-. rewrite !app_length, E, firstn_length, skipn_length. subst a b. lia.
  - destruct rhs as [|x [|y t]]; try discriminate. injection H as <-. rewrite !app_length, repeat_length, firstn_length, skipn_length. subst a b. lia.
Qed.

(* the Compton part of a row has the length of the grid and no negative entry *)
Lemma fan_loop_length Eout E Ece c is_ : forall R i_last R' k, fan_loop Eout E Ece c is_ R i_last = Ok (R', k) -> length R' = length R.
Proof.
  induction is_ as [|i rest IH]; intros R i_last R' k H; cbn [fan_loop] in H; [now injection H as <- _|].
  destruct (qltb (vget Eout i) (qn 1 10) || qltb Ece (vget Eout i)); [now apply IH in H|].
  destruct (qltb 0 _ && qltb _ (qz 2)); [|now apply IH in H].
  destruct (py_index (c_low c) _) as [c1|]; [|discriminate]. cbn [rbind] in H.
  destruct (py_index (c_high c) _) as [c2|]; [|discriminate]. cbn [rbind] in H. apply IH in H. now rewrite upd_length in H.
Qed.
Lemma compton_part_lemma r Eout fwhm j E R : compton_part r Eout fwhm j E = Ok R -> (j < length Eout)%nat ->
  length R = length Eout /\ nonneg R.
Proof.
  unfold compton_part. intros H Hj. destruct (get_closest_compton r Eout E) as [c|]; [|discriminate]. cbn [rbind] in H.
  destruct (linear_backscatter Eout E c) as [[R_low i_bsc]|] eqn:LB; [|discriminate]. cbn [rbind] in H.
  destruct (fan_method Eout E c _ _) as [[R_fan i_last]|] eqn:FM; [|discriminate]. cbn [rbind] in H.
  assert (L1 : length R_low = length Eout /\ nonneg R_low).
  { unfold linear_backscatter in LB. destruct (assign_slice _ _ _ _) as [X|] eqn:AS; [|discriminate]. cbn [rbind] in LB. injection LB as <- _.
    apply assign_slice_length in AS. rewrite zeros_length in AS. rewrite clip0_length. split; [assumption|apply nonneg_clip0]. }
  assert (L2 : length R_fan = length Eout /\ nonneg R_fan).
  { unfold fan_method in FM. destruct (fan_loop _ _ _ _ _ _ _) as [[X k]|] eqn:FL; [|discriminate]. cbn [rbind fst snd] in FM. injection FM as <- _.
    apply fan_loop_length in FL. rewrite zeros_length in FL. rewrite clip0_length. split; [assumption|apply nonneg_clip0]. }
  destruct (i_last <=? i_bsc + 2)%nat.
  - destruct (linear_to_end _ _ _ _ _) as [R_high|] eqn:LT; [|discriminate]. cbn [rbind] in H.
    assert (L3 : nonneg R_high).
    { unfold linear_to_end in LT. destruct (assign_slice _ _ _ _) as [X|]; [|discriminate]. cbn [rbind] in LT. injection LT as <-. apply nonneg_clip0. }
    injection H as <-. destruct (qltb E _).
    + split; [|apply nonneg_app; [apply nonneg_firstn, nonneg_vadd; tauto|apply nonneg_zeros]].
      rewrite app_length, firstn_length, zeros_length, vadd_length. destruct L1 as [-> _]. lia.
    + rewrite vadd_length. split; [tauto|]. apply nonneg_vadd; tauto.
  - destruct (fan_to_end _ _ _ _ _ _) as [R_high|] eqn:LT; [|discriminate]. cbn [rbind] in H.
    assert (L3 : nonneg R_high).
    { unfold fan_to_end in LT. do 4 (destruct (py_index _ _); [|discriminate]; cbn [rbind] in LT).
      destruct (qeqb _ 0); [discriminate|]. destruct (rmapm _ _) as [X|]; [|discriminate]. cbn [rbind] in LT. injection LT as <-. apply nonneg_clip0. }
    assert (N : nonneg (vadd (vadd R_low R_fan) R_high)) by (apply nonneg_vadd; [apply nonneg_vadd; tauto|assumption]).
    injection H as <-. destruct (qltb E _).
    + split; [|apply nonneg_app; [apply nonneg_firstn; assumption|apply nonneg_zeros]].
      rewrite app_length, firstn_length, zeros_length, !vadd_length. destruct L1 as [-> _]. lia.
    + rewrite !vadd_length. split; [tauto|assumption].
Qed.

(* --- peaks --- *)
Lemma wsum_upd l i y (w : nat -> Qc) : (i < length l)%nat ->
  sumn (length l) (fun k => vget (upd l i y) k * w k) = sumn (length l) (fun k => vget l k * w k) + (y - vget l i) * w i.
Proof.
  intros Hi. rewrite (sumn_ext _ _ (fun k => vget l k * w k + (if Nat.eqb k i then (y - vget l i) * w i else 0))).
  - rewrite sumn_add. f_equal. rewrite (sumn_single _ _ i); [|assumption|].
    + now rewrite Nat.eqb_refl.
    + intros k Hk N. destruct (Nat.eqb_spec k i); [contradiction|reflexivity].
  - intros k Hk. unfold vget. destruct (Nat.eqb_spec k i) as [->|N].
    + rewrite nth_upd by assumption. rewrite Nat.eqb_refl. ring.
    + rewrite nth_upd by assumption. destruct (Nat.eqb_spec k i); [contradiction|]. ring.
Qed.
Lemma vget_equidistant E i : equidistant E -> (i < length E)%nat -> vget E i = vget E 0 + qnat i * width E.
Proof. intros (_ & _ & F) Hi. unfold vget. now apply F. Qed.
Lemma two_channel_lemma E e : equidistant E -> vget E 0 <= e -> e <= vget E (length E - 1) ->
  exists i k d, two_channel_split e E = Ok (Z.of_nat i, Z.of_nat k, d) /\ (i <= k <= i + 1)%nat /\ (k < length E)%nat /\
    0 <= d /\ d < 1 /\ (1 - d) * vget E i + d * vget E k = e /\ (k = i -> d = 0).
Proof.
  intros EQ H0 H1. pose proof EQ as (L2 & W & F).
  assert (S' : exists t, E = nth 0 E 0 :: nth 1 E 0 :: t).
  { destruct E as [|x [|y t]]; cbn in L2; try lia. now exists t. }
  destruct S' as [t St]. unfold two_channel_split. rewrite St. rewrite <- St.
  change (nth 0 E 0) with (vget E 0). replace (nth 1 E 0 - vget E 0) with (width E) by reflexivity.
  set (b := (e - vget E 0) / width E).
  assert (Eb : e = vget E 0 + b * width E) by (unfold b; field; apply Qclt_neq; assumption).
  assert (B0 : 0 <= b) by (apply Qcdiv_nonneg; qlra).
  assert (B1 : b <= qnat (length E - 1)).
  { apply Qcdiv_le_l; [assumption|]. rewrite (vget_equidistant E (length E - 1) EQ) in H1 by lia. qlra. }
  destruct (qfloor_spec b) as [F1 F2]. destruct (qceil_spec b) as [C1 C2].
  assert (Z0 : (0 <= qfloor b)%Z). { assert (0 < qfloor b + 1)%Z; [|lia]. apply qz_lt. rewrite qz_add, qz_1, qz_0. qlra. }
  assert (Z1 : (qfloor b <= qceil b)%Z). { apply qz_le. qlra. }
  assert (Z2 : (qceil b < qfloor b + 2)%Z). { apply qz_lt. rewrite qz_add. change (qz 2) with (qz (1 + 1)). rewrite qz_add, qz_1. qlra. }
  assert (Z3 : (qceil b < Z.of_nat (length E))%Z).
  { assert (qceil b - 1 < Z.of_nat (length E - 1))%Z; [|lia]. apply qz_lt. rewrite qz_sub, qz_1. unfold qnat in B1. qlra. }
  set (i := Z.to_nat (qfloor b)). set (k := Z.to_nat (qceil b)).
  assert (Ei : qfloor b = Z.of_nat i) by lia. assert (Ek : qceil b = Z.of_nat k) by lia.
  assert (Qi : qz (qfloor b) = qnat i) by (rewrite Ei; reflexivity). assert (Qk : qz (qceil b) = qnat k) by (rewrite Ek; reflexivity).
  exists i, k, (b - qnat i). rewrite <- Qi at 1. rewrite <- Ei, <- Ek. split; [reflexivity|].
  rewrite Qi in *. rewrite Qk in *. assert (K : (i <= k <= i + 1)%nat) by lia. assert (Kn : (k < length E)%nat) by lia.
  split; [exact K|]. split; [exact Kn|]. split; [qlra|]. split; [qlra|].
  assert (D : k = i -> b - qnat i = 0) by (intros ->; qlra). split; [|exact D].
  destruct (Nat.eq_dec k i) as [->|N].
  - rewrite D by reflexivity. rewrite vget_equidistant by (assumption || lia). assert (b = qnat i) by qlra. rewrite Eb. rewrite H. ring.
  - assert (k = S i) as -> by lia. rewrite (vget_equidistant E i), (vget_equidistant E (S i)) by (assumption || lia). rewrite qnat_S, Eb. ring.
Qed.
Lemma add_at_lemma l i x (w : nat -> Qc) : (i < length l)%nat -> exists l', add_at l (Z.of_nat i) x = Ok l' /\ length l' = length l /\
  sumn (length l) (fun k => vget l' k * w k) = sumn (length l) (fun k => vget l k * w k) + x * w i /\
  (0 <= x -> forall k, vget l k <= vget l' k).
Proof.
  intros Hi. unfold add_at. rewrite (py_index_nat l i 0) by assumption. cbn [rbind]. fold (vget l i).
  destruct (Z.ltb_spec (Z.of_nat i) 0); [lia|]. rewrite Nat2Z.id. eexists. split; [reflexivity|].
  split; [apply upd_length|]. split; [rewrite wsum_upd by assumption; ring|].
  intros Hx k. unfold vget at 2. rewrite nth_upd by assumption. destruct (Nat.eqb_spec k i) as [->|]; [qlra|apply Qcle_refl].
Qed.
Lemma add_at_upd l i x : (i < length l)%nat -> add_at l (Z.of_nat i) x = Ok (upd l i (vget l i + x)).
Proof. intros Hi. unfold add_at. rewrite (py_index_nat l i 0) by assumption. cbn [rbind]. destruct (Z.ltb_spec (Z.of_nat i) 0); [lia|]. now rewrite Nat2Z.id. Qed.
(* a peak of p counts at energy e: total and centroid *)
Definition wsum (l : list Qc) (w : nat -> Qc) : Qc := sumn (length l) (fun k => vget l k * w k).
Lemma wsum_add_at l i x l' w : (i < length l)%nat -> add_at l (Z.of_nat i) x = Ok l' -> wsum l' w = wsum l w + x * w i.
Proof.
  intros Hi H. rewrite add_at_upd in H by assumption. injection H as <-. unfold wsum. rewrite upd_length, wsum_upd by assumption. ring.
Qed.
Lemma add_peak_lemma E l e p : equidistant E -> vget E 0 <= e -> e <= vget E (length E - 1) -> length l = length E ->
  exists l', add_peak E l e p = Ok l' /\ length l' = length E /\ qsum l' = qsum l + p /\ moment l' E = moment l E + p * e /\
    (0 <= p -> forall k, vget l k <= vget l' k).
Proof.
  intros EQ H0 H1 L. destruct (two_channel_lemma E e EQ H0 H1) as (i & k & d & S1 & K & Kn & D0 & D1 & C & _).
  unfold add_peak. rewrite S1. cbn [rbind].
  destruct (add_at_lemma l i ((1 - d) * p) (fun _ => 1) ltac:(lia)) as (l1 & A1 & L1 & _ & M1). rewrite A1. cbn [rbind].
  destruct (add_at_lemma l1 k (d * p) (fun _ => 1) ltac:(lia)) as (l2 & A2 & L2 & _ & M2). rewrite A2.
  exists l2. split; [reflexivity|]. split; [congruence|].
  assert (Wt : forall w, wsum l2 w = wsum l w + (1 - d) * p * w i + d * p * w k).
  { intros w. rewrite (wsum_add_at l1 k (d * p) l2 w) by (assumption || lia). rewrite (wsum_add_at l i ((1 - d) * p) l1 w) by (assumption || lia). ring. }
  assert (Q : forall m, qsum m = wsum m (fun _ => 1)). { intros m. rewrite qsum_nth. unfold wsum. apply sumn_ext. intros. ring. }
  split; [rewrite !Q, Wt; ring|]. split.
  - unfold moment. rewrite <- C. pose proof (Wt (vget E)) as X. unfold wsum in X. rewrite L2, L1, L in X. rewrite X. ring.
  - intros Hp q. assert (vget l q <= vget l1 q) by (apply M1, Qcmult_nonneg; qlra). assert (vget l1 q <= vget l2 q) by (apply M2, Qcmult_nonneg; qlra). qlra.
Qed.
Lemma prob_length r col : length (prob r col) = nE r. Proof. apply tab_length. Qed.
Lemma sum_spec_nonneg r i : counts_ok r -> 0 <= sum_spec r i.
Proof.
  intros (A & B & C & D & F). unfold sum_spec. pose proof (nonneg_vget _ i A). pose proof (nonneg_vget _ i B). pose proof (nonneg_vget _ i C). pose proof (nonneg_vget _ i D).
  assert (0 <= qsum (nth i (r_cmp r) [])).
  { apply qsum_nonneg. destruct (nth_in_or_default i (r_cmp r) []) as [I|E]; [now apply F|rewrite E; intros x []]. }
  qlra.
Qed.
Lemma prob_nonneg r col : counts_ok r -> nonneg col -> nonneg (prob r col).
Proof. intros C N. apply nonneg_tab. intros i _. apply div0_nonneg; [now apply nonneg_vget|now apply sum_spec_nonneg]. Qed.
(* an interpolation that is 0 outside of the table has no negative value *)
Lemma interp_fill0_nonneg xs ys e : increasing xs -> length xs = length ys -> (2 <= length xs)%nat -> nonneg ys ->
  exists v, interp1d xs ys (FillBoth 0 0) e = Ok v /\ 0 <= v.
Proof.
  intros SX L T N. destruct (qltb_spec e (vget xs 0)) as [G|G].
  - rewrite interp_low by assumption. eexists. split; [reflexivity|apply Qcle_refl].
  - destruct (qltb_spec (vget xs (length xs - 1)) e) as [G'|G'].
    + rewrite interp_high by assumption. eexists. split; [reflexivity|apply Qcle_refl].
    + destruct (find_segment xs ys L T e G G') as (i & Hi & A & B). rewrite (interp_between xs ys _ SX L T e i Hi A B). eexists. split; [reflexivity|].
      destruct (segment_weight xs ys SX L T i e Hi A B) as (w & W0 & W1 & -> & _).
      assert (0 <= (1 - w) * vget ys i) by (apply Qcmult_nonneg; [qlra|now apply nonneg_vget]).
      assert (0 <= w * vget ys (S i)) by (apply Qcmult_nonneg; [qlra|now apply nonneg_vget]). qlra.
Qed.
Lemma in_axis E j : equidistant E -> (j < length E)%nat -> vget E 0 <= vget E j /\ vget E j <= vget E (length E - 1).
Proof.
  intros EQ Hj. pose proof EQ as (_ & W & _). rewrite (vget_equidistant E j), (vget_equidistant E (length E - 1)) by (assumption || lia).
  pose proof (qnat_nonneg j). assert (qnat j <= qnat (length E - 1)) by (apply qnat_le; lia).
  assert (0 <= qnat j * width E) by (apply Qcmult_nonneg; qlra).
  assert (0 <= (qnat (length E - 1) - qnat j) * width E) by (apply Qcmult_nonneg; qlra).
  assert (Q : (qnat (length E - 1) - qnat j) * width E = qnat (length E - 1) * width E - qnat j * width E) by ring. rewrite Q in *. split; qlra.
Qed.

Lemma raw_peaks_lemma r E j : table_ok r -> equidistant E -> (j < length E)%nat ->
  exists l pFE pSE pDE p511, raw_peaks r E j = Ok l /\
    f_pFE r (vget E j) = Ok pFE /\ f_pSE r (vget E j) = Ok pSE /\ f_pDE r (vget E j) = Ok pDE /\ f_p511 r (vget E j) = Ok p511 /\
    length l = length E /\
    (let e := vget E j in
     let se := when (has_escape E (e - qz 511)) pSE in
     let de := when (has_escape E (e - qz 2 * qz 511)) pDE in
     let an := when (has_511 E e) p511 in
     qsum l = pFE + se + de + an /\
     moment l E = pFE * e + se * (e - qz 511) + de * (e - qz 2 * qz 511) + an * qz 511) /\
    (counts_ok r -> (forall k, k <> j -> 0 <= vget l k) /\ pFE <= vget l j).
Proof.
  intros T EQ Hj. pose proof T as (T2 & SX & _ & _ & LF & LS & LD & L5 & _).
  destruct (interp_total (r_Eg r) (prob r (r_FE r)) Extrapolate SX (eq_sym (prob_length r _)) T2 (vget E j)) as [pFE HFE].
  destruct (interp_total (r_Eg r) (prob r (r_SE r)) (FillBoth 0 0) SX (eq_sym (prob_length r _)) T2 (vget E j)) as [pSE HSE].
  destruct (interp_total (r_Eg r) (prob r (r_DE r)) (FillBoth 0 0) SX (eq_sym (prob_length r _)) T2 (vget E j)) as [pDE HDE].
  destruct (interp_total (r_Eg r) (prob r (r_c511 r)) (FillBoth 0 0) SX (eq_sym (prob_length r _)) T2 (vget E j)) as [p511 H511].
  assert (NS : counts_ok r -> 0 <= pSE /\ 0 <= pDE /\ 0 <= p511).
  { intros C. pose proof C as (_ & N1 & N2 & N3 & _).
    destruct (interp_fill0_nonneg (r_Eg r) _ (vget E j) SX (eq_sym (prob_length r (r_SE r))) T2 (prob_nonneg r _ C N1)) as (v1 & V1 & P1).
    destruct (interp_fill0_nonneg (r_Eg r) _ (vget E j) SX (eq_sym (prob_length r (r_DE r))) T2 (prob_nonneg r _ C N2)) as (v2 & V2 & P2).
    destruct (interp_fill0_nonneg (r_Eg r) _ (vget E j) SX (eq_sym (prob_length r (r_c511 r))) T2 (prob_nonneg r _ C N3)) as (v3 & V3 & P3).
    rewrite V1 in HSE. rewrite V2 in HDE. rewrite V3 in H511. injection HSE as <-. injection HDE as <-. injection H511 as <-. auto. }
  pose proof (in_axis E j EQ Hj) as [A0 A1].
  set (l0 := upd (zeros (length E)) j pFE).
  assert (L0 : length l0 = length E) by (unfold l0; rewrite upd_length; apply zeros_length).
  assert (G0 : forall k, vget l0 k = if Nat.eqb k j then pFE else 0).
  { intros k. unfold l0, vget. rewrite nth_upd by (rewrite zeros_length; assumption). destruct (Nat.eqb k j); [reflexivity|].
    unfold zeros. destruct (Nat.lt_ge_cases k (length E)) as [Q|Q]; [now apply nth_repeat|]. apply nth_overflow. rewrite repeat_length. lia. }
  assert (S0 : qsum l0 = pFE). { rewrite qsum_nth, L0. rewrite (sumn_single _ _ j); [rewrite G0, Nat.eqb_refl; reflexivity|assumption|]. intros k Hk N. rewrite G0. destruct (Nat.eqb_spec k j); [contradiction|reflexivity]. }
  assert (M0 : moment l0 E = pFE * vget E j).
  { unfold moment. rewrite (sumn_single _ _ j); [rewrite G0, Nat.eqb_refl; reflexivity|assumption|]. intros k Hk N. rewrite G0. destruct (Nat.eqb_spec k j); [contradiction|]. ring. }
  assert (STEP : forall (b : bool) l p e, length l = length E -> (b = true -> vget E 0 <= e /\ e <= vget E (length E - 1)) ->
    exists l', (if b then add_peak E l e p else Ok l) = Ok l' /\ length l' = length E /\ qsum l' = qsum l + when b p /\ moment l' E = moment l E + when b p * e /\ (0 <= p -> forall k, vget l k <= vget l' k)).
  { intros b l p e L B. destruct b; cbn [when].
    - destruct (B eq_refl) as [B0 B1]. apply (add_peak_lemma E l e p EQ B0 B1 L).
    - exists l. repeat split; [assumption|ring|ring|intros; apply Qcle_refl]. }
  destruct (STEP (has_escape E (vget E j - qz 511)) l0 pSE (vget E j - qz 511) L0) as (l1 & E1 & L1 & S1 & M1 & P1).
  { unfold has_escape. intros B. apply andb_prop in B. destruct B as [B1 B2]. apply qleb_le in B2. split; [assumption|]. assert (0 <= qz 511) by discriminate. qlra. }
  destruct (STEP (has_escape E (vget E j - qz 2 * qz 511)) l1 pDE (vget E j - qz 2 * qz 511) L1) as (l2 & E2 & L2 & S2 & M2 & P2).
  { unfold has_escape. intros B. apply andb_prop in B. destruct B as [B1 B2]. apply qleb_le in B2. split; [assumption|]. assert (0 <= qz 2 * qz 511) by discriminate. qlra. }
  destruct (STEP (has_511 E (vget E j)) l2 p511 (qz 511) L2) as (l3 & E3 & L3 & S3 & M3 & P3).
  { unfold has_511. intros B. apply andb_prop in B. destruct B as [B1 B2]. apply qltb_lt in B1. apply qleb_le in B2. split; [assumption|]. qlra. }
  exists l3, pFE, pSE, pDE, p511.
  assert (RP : raw_peaks r E j = Ok l3).
  { unfold raw_peaks. rewrite (py_index_nat E j 0) by assumption. cbn [rbind]. fold (vget E j).
    pose proof (py_index_nat E 0 0 ltac:(lia)) as P0. change (Z.of_nat 0) with 0%Z in P0. rewrite P0. clear P0. cbn [rbind]. fold (vget E 0).
    unfold f_pFE. rewrite HFE. cbn [rbind]. fold l0. unfold f_pSE, f_pDE, f_p511. rewrite HSE, HDE, H511. cbn [rbind].
    unfold has_escape in E1, E2. rewrite E1. cbn [rbind]. rewrite E2. cbn [rbind]. exact E3. }
  repeat (split; [assumption|]). split; [|].
  - cbv zeta. rewrite S3, S2, S1, S0, M3, M2, M1, M0. split; ring.
  - intros C. destruct (NS C) as (N1 & N2 & N3). split.
    + intros k N. specialize (P1 N1 k). specialize (P2 N2 k). specialize (P3 N3 k). rewrite G0 in P1. destruct (Nat.eqb_spec k j); [contradiction|]. qlra.
    + specialize (P1 N1 j). specialize (P2 N2 j). specialize (P3 N3 j). rewrite G0, Nat.eqb_refl in P1. qlra.
Qed.

(* --- rows --- *)
Lemma normalise_row_lemma l : nonneg l -> length (normalise_row l) = length l /\ nonneg (normalise_row l) /\
  (qsum (normalise_row l) = 1 \/ (qsum l = 0 /\ forall x, In x (normalise_row l) -> x = 0)) /\ (0 < qsum l -> qsum (normalise_row l) = 1).
Proof.
  intros N. pose proof (qsum_nonneg l N) as Q. split; [apply map_length|]. split; [|].
  - intros x Hx. apply in_map_iff in Hx. destruct Hx as (y & <- & Hy). apply div0_nonneg; [now apply N|assumption].
  - assert (G : qsum l <> 0 -> qsum (normalise_row l) = 1).
    { intros Z. unfold normalise_row, div0. destruct (qeqb_spec (qsum l) 0); [contradiction|].
      rewrite qsum_nth, map_length. rewrite (sumn_ext _ _ (fun k => vget l k / qsum l)).
      - rewrite sumn_div, <- qsum_nth. field. assumption.
      - intros k Hk. unfold vget. now rewrite (map_nth_in _ l k 0 0). }
    split.
    + destruct (Qc_dec_eq (qsum l) 0) as [Z|Z]; [right|left; now apply G]. split; [assumption|].
      intros x Hx. apply in_map_iff in Hx. destruct Hx as (y & <- & Hy). unfold div0. rewrite Z. reflexivity.
    + intros P. apply G. now apply Qclt_neq.
Qed.
Lemma qsum_pos_entry l k : nonneg l -> (k < length l)%nat -> 0 < vget l k -> 0 < qsum l.
Proof.
  intros N Hk P. rewrite qsum_nth. destruct (qltb_spec 0 (sumn (length l) (vget l))) as [|G]; [assumption|]. exfalso.
  assert (Z : sumn (length l) (vget l) = 0).
  { assert (0 <= sumn (length l) (vget l)) by (apply sumn_nonneg; intros; now apply nonneg_vget). qlra. }
  assert (H : vget l k = 0) by (apply (sumn_nonneg_0 (length l) (vget l)); [intros; now apply nonneg_vget|assumption|assumption]). qlra.
Qed.
Lemma pos_part_sum l k : (k < length l)%nat -> 0 < vget l k -> 0 < qsum (map pos_part l).
Proof.
  intros Hk P. apply (qsum_pos_entry _ k).
  - intros x Hx. apply in_map_iff in Hx. destruct Hx as (y & <- & _). unfold pos_part. destruct (qltb_spec 0 y); qlra.
  - now rewrite map_length.
  - unfold vget in *. rewrite (map_nth_in _ l k 0 0) by assumption. unfold pos_part. destruct (qltb_spec 0 (nth k l 0)); [assumption|qlra].
Qed.
Section Row.
Variable gaussian : Qc -> Qc -> Qc -> Qc.
Hypothesis G0 : forall e m s, 0 <= s -> 0 <= gaussian e m s.
Hypothesis G1 : forall m s, 0 <= s -> 0 < gaussian m m s.
Variable smooth_compton : bool.
Variable truncate : Qc.
Hypothesis HT : 0 <= truncate.

Lemma row_lemma r E fwhm j R : table_ok r -> equidistant E -> length fwhm = length E -> nonneg fwhm -> (j < length E)%nat ->
  row gaussian smooth_compton truncate r E fwhm j = Ok R ->
  length R = length E /\ nonneg R /\ (qsum R = 1 \/ forall x, In x R -> x = 0) /\
  (counts_ok r -> (exists p, f_pFE r (vget E j) = Ok p /\ 0 < p) -> qsum R = 1).
Proof.
  intros T EQ LF NF Hj H. unfold row in H.
  destruct (compton_part r E fwhm j (vget E j)) as [C|] eqn:CP; [|discriminate]. cbn [rbind] in H.
  destruct (compton_part_lemma r E fwhm j (vget E j) C CP Hj) as [LC NC].
  destruct (raw_peaks_lemma r E j T EQ Hj) as (l & pFE & pSE & pDE & p511 & RP & F1 & _ & _ & _ & LL & _ & PK). rewrite RP in H. cbn [rbind] in H.
  assert (K : forall l, nonneg l -> normalise_row l = R -> length l = length E -> (counts_ok r -> 0 < pFE -> 0 < qsum l) ->
     length R = length E /\ nonneg R /\ (qsum R = 1 \/ forall x, In x R -> x = 0) /\
     (counts_ok r -> (exists p, f_pFE r (vget E j) = Ok p /\ 0 < p) -> qsum R = 1)).
  { intros m Nm <- Lm Pm. destruct (normalise_row_lemma m Nm) as (A & B & D & F). split; [congruence|]. split; [assumption|]. split; [destruct D; tauto|].
    intros CO (p & Hp & Pp). apply F. apply Pm; [assumption|]. rewrite F1 in Hp. injection Hp as <-. assumption. }
  destruct smooth_compton.
  - destruct (gauss_smoothing_total gaussian G0 G1 (vadd C l) E fwhm truncate EQ) as (out & S1 & S2 & S3 & S4); [rewrite vadd_length; congruence|assumption|assumption|assumption|].
    rewrite S1 in H. cbn [rbind] in H. injection H as H. apply (K out); try assumption. intros CO P. rewrite S4.
    apply (pos_part_sum _ j); [rewrite vadd_length; lia|]. unfold vadd, vget at 1. rewrite nth_tab by lia. pose proof (nonneg_vget C j NC). destruct (PK CO) as [_ Q]. qlra.
  - destruct (gauss_smoothing_total gaussian G0 G1 l E fwhm truncate EQ) as (out & S1 & S2 & S3 & S4); [assumption|assumption|assumption|assumption|].
    rewrite S1 in H. cbn [rbind] in H. injection H as H. apply (K (vadd C out)); try assumption.
    + now apply nonneg_vadd.
    + now rewrite vadd_length.
    + intros CO P. rewrite qsum_vadd by congruence. pose proof (qsum_nonneg C NC). rewrite S4. destruct (PK CO) as [_ Q].
      assert (0 < qsum (map pos_part l)) by (apply (pos_part_sum _ j); [lia|qlra]). qlra.
Qed.
Lemma interpolate_lemma r E fw m : table_ok r -> equidistant E ->
  (forall e, In e E -> exists f, f_fwhm_rel r fw e = Ok f /\ 0 <= e * f) ->
  interpolate gaussian smooth_compton truncate r E fw = Ok m ->
  Eg m = E /\ Ex m = E /\ rect (a_rows (values m)) (length E) (length E) /\
  (forall row, In row (a_rows (values m)) -> nonneg row /\ (qsum row = 1 \/ forall x, In x row -> x = 0)) /\
  (counts_ok r -> forall j p, (j < length E)%nat -> f_pFE r (vget E j) = Ok p -> 0 < p -> qsum (nth j (a_rows (values m)) []) = 1).
Proof.
  intros T EQ HF H. unfold interpolate in H. destruct (interpolate_checks r E fw) as [u|]; [|discriminate]. cbn [rbind] in H.
  destruct (rmapm _ E) as [fwhm|] eqn:RF; [|discriminate]. cbn [rbind] in H.
  destruct (rmapm _ (seq 0 (length E))) as [R|] eqn:RR; [|discriminate]. cbn [rbind] in H.
  pose proof (rmapm_length _ _ _ RF) as LF. pose proof (rmapm_length _ _ _ RR) as LR. rewrite seq_length in LR.
  assert (NF : nonneg fwhm).
  { intros x Hx. apply (In_nth _ _ 0) in Hx. destruct Hx as (k & Hk & <-). rewrite LF in Hk.
    pose proof (rmapm_nth _ E fwhm 0 0 k RF Hk) as Q. destruct (HF (nth k E 0)) as (f & Hf & P); [apply nth_In; assumption|].
    cbv beta in Q. rewrite Hf in Q. cbn [rbind] in Q. injection Q as <-. apply Qcdiv_nonneg; [exact P|discriminate]. }
  assert (RW : forall j, (j < length E)%nat -> let x := nth j R [] in length x = length E /\ nonneg x /\ (qsum x = 1 \/ forall y, In y x -> y = 0) /\
    (counts_ok r -> (exists p, f_pFE r (vget E j) = Ok p /\ 0 < p) -> qsum x = 1)).
  { intros j Hj. pose proof (rmapm_nth _ (seq 0 (length E)) R 0%nat [] j RR ltac:(rewrite seq_length; exact Hj)) as Q. rewrite seq_nth in Q by assumption. cbn [Nat.add] in Q.
    cbv zeta. eapply row_lemma; eassumption. }
  assert (CL : map clip0 R = R).
  { rewrite <- (map_id R) at 2. apply map_ext_in. intros x Hx. apply (In_nth _ _ []) in Hx. destruct Hx as (j & Hj & <-). apply clip0_id. rewrite LR in Hj. now apply RW. }
  rewrite CL in H. apply mk_matrix_fits in H. destruct H as (_ & -> & -> & ->). cbn [a_rows].
  split; [reflexivity|]. split; [reflexivity|].
  assert (IN : forall x, In x R -> exists j, (j < length E)%nat /\ x = nth j R []).
  { intros x Hx. apply (In_nth _ _ []) in Hx. destruct Hx as (j & Hj & <-). exists j. split; [lia|reflexivity]. }
  split; [split; [assumption|intros x Hx; destruct (IN x Hx) as (j & Hj & ->); now apply RW]|].
  split; [intros x Hx; destruct (IN x Hx) as (j & Hj & ->); destruct (RW j Hj) as (_ & A & B & _); auto|].
  intros CO j p Hj Hp P. apply (RW j Hj); [assumption|]. now exists p.
Qed.
End Row.
