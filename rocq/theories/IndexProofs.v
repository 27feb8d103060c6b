From Verif Require Import PyBase MatrixModel CutSpec.

Lemma SSorted_nth {A} (R : A -> A -> Prop) l d : StronglySorted R l ->
  forall i j, (i < j < length l)%nat -> R (nth i l d) (nth j l d).
Proof.
  induction 1 as [|x l Hs IH Hf]; intros i j Hij; cbn in *; [lia|].
  destruct j as [|j]; [lia|]. destruct i as [|i].
  - rewrite Forall_forall in Hf. apply Hf, nth_In. lia.
  - apply IH. lia.
Qed.
Lemma nth_SSorted {A} (R : A -> A -> Prop) l d :
  (forall i j, (i < j < length l)%nat -> R (nth i l d) (nth j l d)) -> StronglySorted R l.
Proof.
  induction l as [|x l IH]; intros H; constructor.
  - apply IH. intros i j Hij. apply (H (S i) (S j)). cbn. lia.
  - apply Forall_forall. intros y Hy. apply (In_nth _ _ d) in Hy as (k & Hk & <-).
    apply (H O (S k)). cbn. lia.
Qed.
Lemma increasing_nondecreasing l : increasing l -> nondecreasing l.
Proof.
  intros H. apply (nth_SSorted _ _ 0). intros i j Hij. apply Qclt_le_weak.
  now apply (SSorted_nth _ _ 0 H).
Qed.

Definition sqd (l : list Qc) (e : Qc) (k : nat) : Qc := (nth k l 0 - e) * (nth k l 0 - e).
Lemma sqd_le_abs l e i k : sqd l e i <= sqd l e k -> qabs (nth i l 0 - e) <= qabs (nth k l 0 - e).
Proof.
  unfold sqd. intros H. q_minmax; try qnra; destruct (qleb_spec (nth i l 0) (nth k l 0)); qnra.
Qed.
Lemma sqd_lt_abs l e i k : sqd l e i < sqd l e k -> qabs (nth i l 0 - e) < qabs (nth k l 0 - e).
Proof.
  unfold sqd. intros H.
  destruct (qltb_spec (qabs (nth i l 0 - e)) (qabs (nth k l 0 - e))) as [?|Hge]; [assumption|exfalso].
  revert H Hge. q_minmax; intros; qnra.
Qed.

Lemma index_scan_spec l e : nondecreasing l ->
  forall rest i, skipn (S i) l = rest -> (i < length l)%nat ->
  (forall k, (k <= i)%nat -> sqd l e i <= sqd l e k) ->
  let r := index_scan e (sqd l e i) i rest in
  (r < length l)%nat /\ (forall k, (k <= r)%nat -> sqd l e r <= sqd l e k) /\
  (forall k, (r < k < length l)%nat -> sqd l e r < sqd l e k).
Proof.
  intros Hs. induction rest as [|x t IH]; intros i Hsk Hi Hle; cbn.
  - assert (length l <= S i)%nat.
    { apply (f_equal (@length Qc)) in Hsk. rewrite skipn_length in Hsk. cbn in Hsk. lia. }
    repeat split; auto. intros k Hk. lia.
  - assert (Hlen : (S i < length l)%nat).
    { apply (f_equal (@length Qc)) in Hsk. rewrite skipn_length in Hsk. cbn in Hsk. lia. }
    assert (Hx : nth (S i) l 0 = x).
    { rewrite <- (firstn_skipn (S i) l) at 1. rewrite app_nth2; rewrite firstn_length_le by lia; [|lia].
      rewrite Nat.sub_diag, Hsk. reflexivity. }
    assert (Hd : (x - e) * (x - e) = sqd l e (S i)) by (unfold sqd; now rewrite Hx).
    rewrite Hd. destruct (qltb_spec (sqd l e i) (sqd l e (S i))) as [Hlt|Hge].
    + repeat split; auto. intros k Hk.
      assert (Hik : nth i l 0 <= nth (S i) l 0) by (apply (SSorted_nth _ _ 0 Hs); lia).
      assert (Hkk : nth (S i) l 0 <= nth k l 0).
      { destruct (Nat.eq_dec k (S i)) as [->|]; [auto|]. apply (SSorted_nth _ _ 0 Hs). lia. }
      unfold sqd in *. assert (e < nth (S i) l 0).
      { destruct (qltb_spec e (nth (S i) l 0)); [assumption|exfalso]. qnra. }
      qnra.
    + apply IH; auto.
      * change (S (S i)) with (1 + S i)%nat. 
        assert (forall (m : list Qc) n, skipn (S n) m = tl (skipn n m)) as Htl.
        { clear. induction m as [|a m IHm]; destruct n; try reflexivity. apply (IHm n). }
        cbn [plus]. rewrite Htl, Hsk. reflexivity.
      * intros k Hk. destruct (Nat.eq_dec k (S i)) as [->|]; [auto|].
        apply (Qcle_trans _ _ _ Hge). apply Hle. lia.
Qed.

Lemma index_nearest_lemma l e : l <> [] -> nondecreasing l -> nearest l e (index l e).
Proof.
  intros Hne Hs. destruct l as [|x t]; [congruence|].
  pose proof (index_scan_spec (x :: t) e Hs t 0 eq_refl) as H.
  change (index (x :: t) e) with (index_scan e (sqd (x :: t) e 0) 0 t).
  destruct H as (H1 & H2 & H3); [cbn; lia| |].
  { intros k Hk. replace k with O by lia. auto. }
  split; [assumption|]. split.
  - intros k Hk. apply sqd_le_abs.
    destruct (Nat.le_gt_cases k (index_scan e (sqd (x :: t) e 0) 0 t)) as [Hle|Hgt].
    + now apply H2.
    + apply Qclt_le_weak, H3. lia.
  - intros k Hk. apply sqd_lt_abs, H3. assumption.
Qed.

Lemma nearest_unique l e i j : nearest l e i -> nearest l e j -> i = j.
Proof.
  intros (A1 & A2 & A3) (B1 & B2 & B3). destruct (Nat.lt_trichotomy i j) as [H|[H|H]]; auto; exfalso.
  - specialize (A3 j). specialize (B2 i A1). assert (H' := A3 (conj H B1)). qlra.
  - specialize (B3 i). specialize (A2 j B1). assert (H' := B3 (conj H A1)). qlra.
Qed.
