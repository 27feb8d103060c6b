(* Lemmas: the trapezoidal cut, in terms of bin energies. *)
From Verif Require Import PyBase Axis RebinModel RebinProofs Rebin2DProofs RebinFactorProofs MatrixModel MatrixSpec CutSpec
  IndexProofs CutProofs MatrixProofs MatrixRebinProofs MatrixOpsProofs.

Lemma combine_fst_snd {A B} (l : list (A * B)) : combine (map fst l) (map snd l) = l.
Proof. induction l as [|[x y] l IH]; cbn; [reflexivity|now rewrite IH]. Qed.
Lemma filter_fst {B} p (l : list (Qc * B)) : filter p (map fst l) = map fst (filter (fun q => p (fst q)) l).
Proof. induction l as [|[x y] l IH]; cbn; [reflexivity|]. destruct (p x); cbn; now rewrite IH. Qed.
Lemma combine_select {A} p l (v : list A) : length l = length v ->
  combine (filter p l) (select p l v) = filter (fun q => p (fst q)) (combine l v).
Proof.
  intros H. unfold select. rewrite <- (map_fst_combine l v H) at 1. rewrite filter_fst. apply combine_fst_snd.
Qed.
Lemma in_combine_nth {A} (l : list Qc) (v : list A) x y d : length l = length v ->
  In (x, y) (combine l v) <-> exists i, (i < length l)%nat /\ nth i l 0 = x /\ nth i v d = y.
Proof.
  intros H. split.
  - intros Hi. apply (In_nth _ _ (0, d)) in Hi as (i & Hi & E). rewrite combine_length in Hi.
    rewrite combine_nth in E by assumption. injection E as E1 E2. exists i. repeat split; try assumption. lia.
  - intros (i & Hi & <- & <-). rewrite <- (combine_nth l v i 0 d H). apply nth_In. rewrite combine_length. lia.
Qed.
Lemma val_at_idx m ex eg v : shaped (values m) (length (Ex m)) (length (Eg m)) ->
  val_at m ex eg v <-> exists i j, (i < length (Ex m))%nat /\ (j < length (Eg m))%nat /\
    nth i (Ex m) 0 = ex /\ nth j (Eg m) 0 = eg /\ aget (values m) i j = v.
Proof.
  intros (C1 & C2 & C3). unfold val_at. split.
  - intros (row & H1 & H2). apply (in_combine_nth _ _ _ _ []) in H1 as (i & Hi & E1 & E2); [|congruence].
    assert (L : length row = length (Eg m)) by (subst row; apply C3, nth_In; lia).
    apply (in_combine_nth _ _ _ _ 0) in H2 as (j & Hj & E3 & E4); [|congruence].
    exists i, j. repeat split; try assumption. unfold aget, mget. now rewrite E2.
  - intros (i & j & Hi & Hj & E1 & E2 & E3). exists (nth i (a_rows (values m)) []). split.
    + apply (in_combine_nth _ _ _ _ []); [congruence|]. exists i. auto.
    + apply (in_combine_nth _ _ _ _ 0); [symmetry; apply C3, nth_In; lia|]. exists j. auto.
Qed.
Lemma select_shaped_Ex m p : consistent m ->
  shaped (mkArr (length (Eg m)) (select p (Ex m) (a_rows (values m)))) (length (filter p (Ex m))) (length (Eg m)).
Proof.
  intros [(C1 & C2 & C3) _]. split; [reflexivity|]. split; cbn [a_rows].
  - now rewrite select_length.
  - intros r Hr. apply select_in in Hr. auto.
Qed.
Lemma select_shaped_Eg m p : consistent m ->
  shaped (mkArr (length (filter p (Eg m))) (map (select p (Eg m)) (a_rows (values m)))) (length (Ex m)) (length (filter p (Eg m))).
Proof.
  intros [(C1 & C2 & C3) _]. split; [reflexivity|]. split; cbn [a_rows].
  - now rewrite map_length.
  - intros r Hr. apply in_map_iff in Hr as (r' & <- & Hr). rewrite select_length; [reflexivity|]. symmetry. auto.
Qed.
Lemma cut_Ex_val m ax a b m' : consistent m -> to_plot_axis ax = Ok AxEx -> Ex m <> [] -> increasing (Ex m) ->
  cut_inplace m ax (Some a) (Some b) true true = Ok m' ->
  shaped (values m') (length (Ex m')) (length (Eg m')) /\ Eg m' = Eg m /\ std m' = std m /\ state m' = state m /\
  Ex m' = filter (in_window (Some a) (Some b)) (Ex m) /\
  forall ex eg v, val_at m' ex eg v <-> val_at m ex eg v /\ a <= ex /\ ex <= b.
Proof.
  intros C A Hne Hs H. pose proof C as [(C1 & C2 & C3) _].
  assert (E := cut_Ex_lemma m ax (Some a) (Some b) true true C A Hne Hs (or_introl eq_refl) (or_introl eq_refl)).
  cbv zeta in E. rewrite H in E. injection E as ->. cbn [values Ex Eg std state].
  split; [now apply select_shaped_Ex|]. do 4 (split; [reflexivity|]). intros ex eg v. unfold val_at. cbn [values Ex Eg a_rows].
  rewrite combine_select by congruence. split.
  - intros (row & H1 & H2). apply filter_In in H1 as [H1 P]. cbn in P. apply andb_true_iff in P as [P1 P2].
    apply qleb_le in P1, P2. split; [exists row; auto|auto].
  - intros ((row & H1 & H2) & P1 & P2). exists row. split; [|exact H2]. apply filter_In. split; [exact H1|].
    cbn. apply andb_true_iff. split; now apply qleb_le.
Qed.
Lemma cut_Eg_val m ax a b m' : consistent m -> to_plot_axis ax = Ok AxEg -> Eg m <> [] -> increasing (Eg m) ->
  cut_inplace m ax (Some a) (Some b) true true = Ok m' ->
  shaped (values m') (length (Ex m')) (length (Eg m')) /\ Ex m' = Ex m /\ std m' = std m /\ state m' = state m /\
  Eg m' = filter (in_window (Some a) (Some b)) (Eg m) /\
  forall ex eg v, val_at m' ex eg v <-> val_at m ex eg v /\ a <= eg /\ eg <= b.
Proof.
  intros C A Hne Hs H. pose proof C as [(C1 & C2 & C3) _].
  assert (E := cut_Eg_lemma m ax (Some a) (Some b) true true C A Hne Hs (or_introl eq_refl) (or_introl eq_refl)).
  cbv zeta in E. rewrite H in E. injection E as ->. cbn [values Ex Eg std state].
  split; [now apply select_shaped_Eg|]. do 4 (split; [reflexivity|]). intros ex eg v. unfold val_at. cbn [values Ex Eg a_rows].
  set (keep := in_window_gen (Some a) (Some b) true true).
  assert (K : forall x, keep x = true <-> a <= x /\ x <= b).
  { intros x. unfold keep, in_window_gen. rewrite andb_true_iff, !qleb_le. tauto. }
  assert (M : forall r, In r (a_rows (values m)) -> combine (filter keep (Eg m)) (select keep (Eg m) r) =
     filter (fun q => keep (fst q)) (combine (Eg m) r)).
  { intros r Hr. apply combine_select. symmetry. auto. }
  split.
  - intros (row & H1 & H2). apply (in_combine_nth _ _ _ _ []) in H1 as (i & Hi & E1 & E2); [|rewrite map_length; congruence].
    assert (Hrow : In (nth i (a_rows (values m)) []) (a_rows (values m))) by (apply nth_In; lia).
    rewrite (map_nth_in _ _ _ []) in E2 by lia. subst row. rewrite M in H2 by assumption.
    apply filter_In in H2 as [H2 P]. cbn in P. apply K in P. split; [|exact P].
    exists (nth i (a_rows (values m)) []). split; [|exact H2]. apply (in_combine_nth _ _ _ _ []); [congruence|]. exists i. auto.
  - intros ((row & H1 & H2) & P). apply K in P. exists (select keep (Eg m) row).
    assert (Hrow : In row (a_rows (values m))) by (now apply in_combine_r in H1). split.
    + apply (in_combine_nth _ _ _ _ []) in H1 as (i & Hi & E1 & E2); [|congruence].
      apply (in_combine_nth _ _ _ _ []); [rewrite map_length; congruence|]. exists i. split; [exact Hi|]. split; [exact E1|].
      rewrite (map_nth_in _ _ _ []) by lia. now rewrite E2.
    + rewrite M by assumption. apply filter_In. split; [exact H2|]. exact P.
Qed.
Lemma mask_val m g : shaped (values m) (length (Ex m)) (length (Eg m)) ->
  let m' := with_values m (mask_zero (fun r c => g (vget (Ex m) r) (vget (Eg m) c)) (values m)) in
  shaped (values m') (length (Ex m')) (length (Eg m')) /\
  forall ex eg v, val_at m' ex eg v <-> exists v0, val_at m ex eg v0 /\ v = if g ex eg then 0 else v0.
Proof.
  intros S m'. pose proof S as (C1 & C2 & C3).
  assert (S' : shaped (values m') (length (Ex m')) (length (Eg m'))).
  { unfold m', with_values, mask_zero. cbn [values Ex Eg]. unfold a_nr. rewrite C1, C2. apply mtab_shaped. }
  assert (G : forall i j, (i < length (Ex m))%nat -> (j < length (Eg m))%nat ->
    aget (values m') i j = if g (vget (Ex m) i) (vget (Eg m) j) then 0 else aget (values m) i j).
  { intros i j Hi Hj. unfold m', with_values, mask_zero, aget at 1. cbn [values a_rows]. unfold a_nr. rewrite C1, C2. now apply mtab_get. }
  split; [exact S'|]. intros ex eg v. rewrite (val_at_idx m' _ _ _ S'). cbn [m' with_values Ex Eg]. split.
  - intros (i & j & Hi & Hj & E1 & E2 & E3). exists (aget (values m) i j). split.
    + apply (val_at_idx m _ _ _ S). exists i, j. repeat split; assumption.
    + rewrite <- E3. fold m'. rewrite G by assumption. unfold vget. now rewrite E1, E2.
  - intros (v0 & H & Ev). apply (val_at_idx m _ _ _ S) in H as (i & j & Hi & Hj & E1 & E2 & E3).
    exists i, j. repeat split; try assumption. fold m'. rewrite G by assumption. unfold vget. rewrite E1, E2, E3. now symmetry.
Qed.
Lemma trapezoid_lemma m Ex_min Ex_max Eg_min Eg_max : consistent m ->
  Ex m <> [] -> Eg m <> [] -> increasing (Ex m) -> increasing (Eg m) -> Eg_max <= Ex_max ->
  exists m', trapezoid_inplace m Ex_min Ex_max Eg_min (Some Eg_max) = Ok m' /\
    Ex m' = filter (in_window (Some Ex_min) (Some Ex_max)) (Ex m) /\
    Eg m' = filter (in_window (Some Eg_min) (Some Eg_max)) (Eg m) /\ std m' = std m /\
    shaped (values m') (length (Ex m')) (length (Eg m')) /\
    forall ex eg v, val_at m' ex eg v <->
      Ex_min <= ex /\ ex <= Ex_max /\ Eg_min <= eg /\ eg <= Eg_max /\
      exists v0, val_at m ex eg v0 /\ v = (if qleb (ex + (Eg_max - Ex_max)) eg then 0 else v0).
Proof.
  intros C H1 H2 S1 S2 Hd. unfold trapezoid_inplace, trapezoid_data.
  destruct (cut_inplace m (AInt 1) (Some Ex_min) (Some Ex_max) true true) as [m1|e] eqn:E1.
  2:{ pose proof (cut_Ex_lemma m (AInt 1) (Some Ex_min) (Some Ex_max) true true C eq_refl H1 S1 (or_introl eq_refl) (or_introl eq_refl)) as X.
      cbv zeta in X. congruence. }
  destruct (cut_Ex_val m (AInt 1) _ _ _ C eq_refl H1 S1 E1) as (Sh1 & EG1 & ST1 & TT1 & EX1 & V1).
  cbn [rbind].
  pose (m1' := mkM (values m1) (Eg m1) (Ex m1) None (state m1)).
  assert (C1 : consistent m1') by (split; [exact Sh1|exact I]).
  assert (HE : forall r, cut_inplace m1 (AInt 0) (Some Eg_min) (Some Eg_max) true true = r ->
     exists r', cut_inplace m1' (AInt 0) (Some Eg_min) (Some Eg_max) true true = r' /\
       match r, r' with Ok a, Ok b => values a = values b /\ Eg a = Eg b /\ Ex a = Ex b /\ std a = std m1 | Raise _, Raise _ => True | _, _ => False end).
  { intros r <-. eexists. split; [reflexivity|]. unfold cut_inplace, cut_data. cbn [to_plot_axis rbind].
    unfold m1'. cbn [Eg Ex values std state]. cbn [Z.eqb rbind]. destruct (cut_bounds (Eg m1) (Some Eg_min) (Some Eg_max) true true) as [[lo hi]|]; cbn; auto. }
  destruct (HE _ eq_refl) as (r' & Er' & Hr').
  assert (G1 : Eg m1' <> []) by (cbn; congruence). assert (G2 : increasing (Eg m1')) by (cbn; congruence).
  destruct r' as [m2'|].
  2:{ pose proof (cut_Eg_lemma m1' (AInt 0) (Some Eg_min) (Some Eg_max) true true C1 eq_refl G1 G2 (or_introl eq_refl) (or_introl eq_refl)) as X.
      cbv zeta in X. congruence. }
  destruct (cut_Eg_val m1' (AInt 0) _ _ _ C1 eq_refl G1 G2 Er') as (Sh2 & EX2 & _ & _ & EG2 & V2).
  destruct (cut_inplace m1 (AInt 0) (Some Eg_min) (Some Eg_max) true true) as [m2|]; [|contradiction].
  destruct Hr' as (Q1 & Q2 & Q3 & Q4). cbn [rbind]. rewrite (proj2 (qltb_ge 0 (Eg_max - Ex_max))) by qlra.
  assert (Sh3 : shaped (values m2) (length (Ex m2)) (length (Eg m2))) by congruence.
  assert (P : pair_eqb (shape (values m2)) (length (Ex m2), length (Eg m2)) = true).
  { destruct Sh3 as (A1 & A2 & _). unfold shape, a_nr. rewrite A1, A2. unfold pair_eqb. cbn. now rewrite !Nat.eqb_refl. }
  rewrite P. cbn [rbind]. eexists. split; [reflexivity|].
  destruct (mask_val m2 (fun x g => qleb (x + (Eg_max - Ex_max)) g) Sh3) as [Sh4 V4].
  cbn [with_values values Ex Eg std state] in *.
  split; [rewrite Q3, EX2; cbn; exact EX1|]. split; [rewrite Q2, EG2; cbn; now rewrite EG1|].
  split; [reflexivity|]. split; [exact Sh4|]. intros ex eg v.
  assert (V2' : forall ex eg v, val_at m2 ex eg v <-> val_at m2' ex eg v).
  { intros. unfold val_at. now rewrite Q1, Q2, Q3. }
  assert (V1' : forall ex eg v, val_at m1' ex eg v <-> val_at m1 ex eg v) by (intros; reflexivity).
  match goal with |- val_at ?x _ _ _ <-> _ => match type of V4 with forall _ _ _, val_at ?y _ _ _ <-> _ =>
     assert (V5 : val_at x ex eg v <-> val_at y ex eg v) by reflexivity end end.
  rewrite V5, V4. split.
  - intros (v0 & H & Ev). apply V2' in H. apply V2 in H as (H & B1 & B2). apply V1' in H. apply V1 in H as (H & B3 & B4).
    repeat (split; [assumption|]). exists v0. auto.
  - intros (B1 & B2 & B3 & B4 & v0 & H & Ev). exists v0. split; [|exact Ev]. apply V2', V2. split; [|auto].
    apply V1', V1. auto.
Qed.
(* Without Eg_max the last non-zero entry of the top row defines it; a top row without
   counts surfaces as TypeError *)
Lemma last_nonzero_from_spec r i acc : last_nonzero_from i r acc =
  match first_nonzero 0 (rev r) with Some k => Some (i + (length r - S k))%nat | None => acc end.
Proof.
  revert i acc. induction r as [|x r IH]; intros i acc; [reflexivity|]. cbn [last_nonzero_from rev]. rewrite IH.
  assert (FA : forall l j, first_nonzero j (l ++ [x]) = match first_nonzero j l with Some k => Some k
                | None => if qeqb x 0 then None else Some (j + length l)%nat end).
  { induction l as [|y l IHl]; intros j; cbn [app first_nonzero].
    - cbn. rewrite Nat.add_0_r. reflexivity.
    - destruct (qeqb y 0); [|reflexivity]. rewrite IHl. cbn [length]. destruct (first_nonzero (S j) l); [reflexivity|].
      destruct (qeqb x 0); [reflexivity|]. f_equal. lia. }
  rewrite FA. destruct (first_nonzero 0 (rev r)) as [k|] eqn:E.
  - apply first_nonzero_rev in E as [_ E]. f_equal. cbn [length]. lia.
  - destruct (qeqb x 0); [reflexivity|]. rewrite rev_length. f_equal. cbn [length]. lia.
Qed.
Lemma last_nonzero_from_ok r k : last_nonzero_from 0 r None = Some k <-> last_nonzero r k.
Proof.
  rewrite last_nonzero_from_spec. split.
  - destruct (first_nonzero 0 (rev r)) as [j|] eqn:E; [|discriminate]. intros [= <-]. now apply first_nonzero_rev in E as [E _].
  - intros H. assert (Hk := proj1 H).
    assert (E : first_nonzero 0 (rev r) = Some (length r - S k)%nat).
    { apply first_nonzero_rev. split; [|lia]. now replace (length r - S (length r - S k))%nat with k by lia. }
    rewrite E. f_equal. lia.
Qed.
Lemma trapezoid_auto_lemma m Ex_min Ex_max Eg_min m1 row k : 
  cut_inplace m (AInt 1) (Some Ex_min) (Some Ex_max) true true = Ok m1 ->
  py_index (a_rows (values m1)) (-1) = Ok row -> last_nonzero row k -> length row = length (Eg m1) ->
  trapezoid_inplace m Ex_min Ex_max Eg_min None = trapezoid_inplace m Ex_min Ex_max Eg_min (Some (nth k (Eg m1) 0)).
Proof.
  intros H1 H2 H3 L. unfold trapezoid_inplace, trapezoid_data. rewrite H1. cbn [rbind]. rewrite H2. cbn [rbind].
  rewrite (proj2 (last_nonzero_from_ok row k) H3). rewrite (py_index_nat _ _ 0) by (rewrite <- L; apply (proj1 H3)). reflexivity.
Qed.
