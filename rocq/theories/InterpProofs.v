(* Linear interpolation. *)
From Verif Require Import PyBase VectorModel InterpModel CutSpec IndexProofs CutProofs VectorProofs.

Lemma combine_fst {A B} (l : list A) (m : list B) : length l = length m -> map fst (combine l m) = l.
Proof. revert m. induction l as [|a l IH]; intros [|b m] H; cbn in *; try discriminate; [reflexivity|]. f_equal. apply IH. lia. Qed.
Lemma sort_pts_id l : increasing (map fst l) -> sort_pts l = l.
Proof.
  induction l as [|p l IH]; intros H; [reflexivity|]. cbn in *. inversion H as [|? ? H1 H2]; subst.
  unfold sort_pts in *. cbn [fold_right]. rewrite IH by assumption. destruct l as [|q l]; [reflexivity|]. cbn.
  inversion H2 as [|? ? H3]; subst. destruct (qleb_spec (fst p) (fst q)) as [|N]; [reflexivity|]. exfalso. qlra.
Qed.

Section I.
Variables (xs ys : list Qc) (fill : fill_t).
Hypothesis SX : increasing xs.
Hypothesis LEN : length xs = length ys.
Hypothesis TWO : (2 <= length xs)%nat.

Lemma incr_nth i j : (i < j < length xs)%nat -> vget xs i < vget xs j.
Proof. intros H. unfold vget. apply (SSorted_nth _ _ 0 SX). lia. Qed.
Lemma incr_nth_le i j : (i <= j < length xs)%nat -> vget xs i <= vget xs j.
Proof. intros H. destruct (Nat.eq_dec i j) as [->|N]; [apply Qcle_refl|]. apply Qclt_le_weak, incr_nth. lia. Qed.
Definition segment (i : nat) (e : Qc) : Qc :=
  vget ys i + (vget ys (S i) - vget ys i) / (vget xs (S i) - vget xs i) * (e - vget xs i).
Definition inner_k (e : Qc) : nat := Nat.max 1 (Nat.min (length xs - 1) (searchsorted xs e SideLeft)).
Lemma interp_unfold e : interp1d xs ys fill e =
  match fill with
  | FillBoth lo hi => if qltb e (vget xs 0) then Ok lo else if qltb (vget xs (length xs - 1)) e then Ok hi else Ok (segment (inner_k e - 1) e)
  | Extrapolate => Ok (segment (inner_k e - 1) e)
  end.
Proof.
  unfold interp1d. rewrite LEN, Nat.eqb_refl. cbn [negb orb]. rewrite <- LEN.
  destruct (Nat.ltb_spec (length xs) 2) as [|_]; [lia|].
  rewrite sort_pts_id by (rewrite combine_fst by assumption; assumption).
  rewrite combine_length, <- LEN, Nat.min_id. rewrite combine_fst by assumption.
  assert (X : forall i, fst (nth i (combine xs ys) (0, 0)) = vget xs i).
  { intros i. rewrite combine_nth by assumption. reflexivity. }
  assert (Y : forall i, snd (nth i (combine xs ys) (0, 0)) = vget ys i).
  { intros i. rewrite combine_nth by assumption. reflexivity. }
  rewrite !X, !Y. fold (inner_k e).
  assert (K : (1 <= inner_k e <= length xs - 1)%nat) by (unfold inner_k; lia).
  assert (S' : S (inner_k e - 1) = inner_k e) by lia.
  assert (D : vget xs (inner_k e) - vget xs (inner_k e - 1) <> 0).
  { assert (L : vget xs (inner_k e - 1) < vget xs (inner_k e)) by (apply incr_nth; lia). intros Z. qlra. }
  unfold segment. rewrite S'.
  destruct (qeqb_spec (vget xs (inner_k e) - vget xs (inner_k e - 1)) 0) as [Z|_]; [contradiction|]. reflexivity.
Qed.
Lemma ss_left e i : (S i < length xs)%nat -> vget xs i < e -> e <= vget xs (S i) -> searchsorted xs e SideLeft = S i.
Proof.
  intros Hi H1 H2. unfold searchsorted. apply (cnt_split _ _ _ 0); [lia| |].
  - intros k Hk. apply qltb_lt. pose proof (incr_nth_le k i ltac:(lia)) as L. unfold vget in *. qlra.
  - intros k Hk. apply qltb_ge. pose proof (incr_nth_le (S i) k ltac:(lia)) as L. unfold vget in *. qlra.
Qed.
Lemma ss_left_0 e : e <= vget xs 0 -> searchsorted xs e SideLeft = 0%nat.
Proof.
  intros H. unfold searchsorted. apply (cnt_split _ _ _ 0); [lia|intros; lia|].
  intros k Hk. apply qltb_ge. pose proof (incr_nth_le 0 k ltac:(lia)) as L. unfold vget in *. qlra.
Qed.
Lemma ss_left_n e : vget xs (length xs - 1) < e -> searchsorted xs e SideLeft = length xs.
Proof.
  intros H. unfold searchsorted. apply (cnt_split _ _ _ 0); [lia| |intros; lia].
  intros k Hk. apply qltb_lt. pose proof (incr_nth_le k (length xs - 1) ltac:(lia)) as L. unfold vget in *. qlra.
Qed.
Lemma seg_right i e : (S i < length xs)%nat -> e = vget xs (S i) -> segment i e = vget ys (S i).
Proof.
  intros Hi ->. unfold segment. pose proof (incr_nth i (S i) ltac:(lia)) as L. field. intros Z. qlra.
Qed.
Lemma seg_left i e : e = vget xs i -> segment i e = vget ys i.
Proof. intros ->. unfold segment. ring. Qed.

(* between two neighbouring points *)
Lemma interp_between e i : (S i < length xs)%nat -> vget xs i <= e -> e <= vget xs (S i) ->
  interp1d xs ys fill e = Ok (segment i e).
Proof.
  intros Hi H1 H2. rewrite interp_unfold.
  assert (I : segment (inner_k e - 1) e = segment i e).
  { destruct (Qc_dec_eq e (vget xs i)) as [Q|N].
    - rewrite (seg_left i e Q). destruct i as [|i].
      + unfold inner_k. rewrite ss_left_0 by (rewrite Q; apply Qcle_refl). replace (Nat.max 1 (Nat.min (length xs - 1) 0) - 1)%nat with 0%nat by lia. now apply seg_left.
      + unfold inner_k. pose proof (incr_nth i (S i) ltac:(lia)) as L. rewrite (ss_left e i) by (try lia; rewrite Q; try apply Qcle_refl; assumption).
        replace (Nat.max 1 (Nat.min (length xs - 1) (S i)) - 1)%nat with i by lia. apply seg_right; [lia|assumption].
    - assert (L : vget xs i < e). { destruct (qltb_spec (vget xs i) e) as [|G]; [assumption|]. exfalso. apply N. qlra. }
      unfold inner_k. rewrite (ss_left e i) by (assumption || lia). f_equal. lia. }
  rewrite I. destruct fill as [|lo hi]; [reflexivity|].
  pose proof (incr_nth_le 0 i ltac:(lia)) as L0. pose proof (incr_nth_le (S i) (length xs - 1) ltac:(lia)) as L1.
  destruct (qltb_spec e (vget xs 0)) as [|_]; [exfalso; qlra|].
  destruct (qltb_spec (vget xs (length xs - 1)) e) as [|_]; [exfalso; qlra|]. reflexivity.
Qed.
Lemma interp_node i : (i < length xs)%nat -> interp1d xs ys fill (vget xs i) = Ok (vget ys i).
Proof.
  intros Hi. destruct (Nat.eq_dec (S i) (length xs)) as [E|N].
  - destruct i as [|i]; [lia|]. rewrite (interp_between _ i); [|lia| |apply Qcle_refl].
    + f_equal. apply seg_right; [lia|reflexivity].
    + apply incr_nth_le. lia.
  - rewrite (interp_between _ i); [|lia|apply Qcle_refl|apply incr_nth_le; lia]. f_equal. now apply seg_left.
Qed.
Lemma find_segment e : vget xs 0 <= e -> e <= vget xs (length xs - 1) ->
  exists i, (S i < length xs)%nat /\ vget xs i <= e /\ e <= vget xs (S i).
Proof.
  intros H0 H1. assert (H : forall n, (S n <= length xs)%nat -> e <= vget xs n -> (1 <= n)%nat -> exists i, (S i < length xs)%nat /\ vget xs i <= e /\ e <= vget xs (S i)).
  { induction n as [|n IH]; intros L Q P; [lia|]. destruct (qleb_spec (vget xs n) e) as [G|G]; [exists n; repeat split; [lia|assumption|assumption]|].
    destruct n as [|n]; [exfalso; qlra|]. apply IH; [lia|qlra|lia]. }
  apply (H (length xs - 1)%nat); [lia|assumption|lia].
Qed.
(* the weight of the right point *)
Lemma segment_weight i e : (S i < length xs)%nat -> vget xs i <= e -> e <= vget xs (S i) ->
  exists w, 0 <= w /\ w <= 1 /\ segment i e = (1 - w) * vget ys i + w * vget ys (S i) /\ e = (1 - w) * vget xs i + w * vget xs (S i).
Proof.
  intros Hi H1 H2. pose proof (incr_nth i (S i) ltac:(lia)) as L.
  exists ((e - vget xs i) / (vget xs (S i) - vget xs i)).
  assert (D : vget xs (S i) - vget xs i <> 0) by (intros Z; qlra).
  repeat split.
  - apply Qcdiv_nonneg; qlra.
  - apply Qcdiv_le_l; qlra.
  - unfold segment. field. exact D.
  - field. exact D.
Qed.
Lemma interp_low e : e < vget xs 0 -> interp1d xs ys fill e = Ok (match fill with Extrapolate => segment 0 e | FillBoth lo _ => lo end).
Proof.
  intros H. rewrite interp_unfold. destruct fill as [|lo hi].
  - unfold inner_k. rewrite ss_left_0 by qlra. replace (Nat.max 1 (Nat.min (length xs - 1) 0) - 1)%nat with 0%nat by lia. reflexivity.
  - destruct (qltb_spec e (vget xs 0)) as [|G]; [reflexivity|exfalso; qlra].
Qed.
Lemma interp_high e : vget xs (length xs - 1) < e ->
  interp1d xs ys fill e = Ok (match fill with Extrapolate => segment (length xs - 2) e | FillBoth _ hi => hi end).
Proof.
  intros H. rewrite interp_unfold. destruct fill as [|lo hi].
  - unfold inner_k. rewrite ss_left_n by assumption. f_equal. f_equal. lia.
  - pose proof (incr_nth_le 0 (length xs - 1) ltac:(lia)) as L.
    destruct (qltb_spec e (vget xs 0)) as [|_]; [exfalso; qlra|].
    destruct (qltb_spec (vget xs (length xs - 1)) e) as [_|]; [reflexivity|exfalso; qlra].
Qed.
Lemma interp_total e : exists y, interp1d xs ys fill e = Ok y.
Proof. rewrite interp_unfold. destruct fill; [eauto|]. destruct (qltb e _); [eauto|]. destruct (qltb _ e); eauto. Qed.
Lemma interp_bounds e lo hi : vget xs 0 <= e -> e <= vget xs (length xs - 1) -> (forall y, In y ys -> lo <= y /\ y <= hi) ->
  exists v, interp1d xs ys fill e = Ok v /\ lo <= v /\ v <= hi.
Proof.
  intros H0 H1 HB. destruct (find_segment e H0 H1) as (i & Hi & A & B). rewrite (interp_between e i Hi A B).
  eexists. split; [reflexivity|]. destruct (segment_weight i e Hi A B) as (w & W0 & W1 & -> & _).
  destruct (HB (vget ys i)) as [L1 U1]; [unfold vget; apply nth_In; lia|].
  destruct (HB (vget ys (S i))) as [L2 U2]; [unfold vget; apply nth_In; lia|].
  assert (P1 : 0 <= (1 - w) * (vget ys i - lo)) by (apply Qcmult_nonneg; qlra).
  assert (P2 : 0 <= w * (vget ys (S i) - lo)) by (apply Qcmult_nonneg; qlra).
  assert (P3 : 0 <= (1 - w) * (hi - vget ys i)) by (apply Qcmult_nonneg; qlra).
  assert (P4 : 0 <= w * (hi - vget ys (S i))) by (apply Qcmult_nonneg; qlra).
  assert (E1 : (1 - w) * (vget ys i - lo) + w * (vget ys (S i) - lo) = (1 - w) * vget ys i + w * vget ys (S i) - lo) by ring.
  assert (E2 : (1 - w) * (hi - vget ys i) + w * (hi - vget ys (S i)) = hi - ((1 - w) * vget ys i + w * vget ys (S i))) by ring.
  split; qlra.
Qed.
End I.
