From Coq Require Import Sorted.
From Verif Require Import Num PyBase CutSpec SampStatModel SampStatSpec.

Definition ndec (l : list Qc) : Prop := StronglySorted Qcle l.

(* ---------------- sorting ---------------- *)
Lemma insert_perm x l : Permutation (x :: l) (insert x l).
Proof.
  induction l as [|y l IH]; cbn; [reflexivity|].
  destruct (qleb x y); [reflexivity|].
  rewrite perm_swap. now apply perm_skip.
Qed.
Lemma isort_perm l : Permutation l (isort l).
Proof. induction l as [|x l IH]; cbn; [reflexivity|]. rewrite <- insert_perm. now apply perm_skip. Qed.
Lemma insert_sorted x l : ndec l -> ndec (insert x l).
Proof.
  intros H. induction H as [|y l H IH F]; cbn; [repeat constructor|].
  destruct (qleb_spec x y) as [L|L].
  - constructor; [constructor; assumption|]. constructor; [exact L|].
    eapply Forall_impl; [|exact F]. cbn beta. intros a Ha. qlra.
  - constructor; [exact IH|].
    rewrite <- (insert_perm x l). constructor; [qlra|exact F].
Qed.
Lemma isort_sorted l : ndec (isort l).
Proof. induction l as [|x l IH]; cbn; [constructor|now apply insert_sorted]. Qed.
Lemma isort_length l : length (isort l) = length l.
Proof. symmetry. apply Permutation_length, isort_perm. Qed.
Lemma sorted_perm_eq l : forall m, ndec l -> ndec m -> Permutation l m -> l = m.
Proof.
  induction l as [|x l IH]; intros m Hl Hm P; [now apply Permutation_nil in P|].
  destruct m as [|y m]; [now apply Permutation_sym, Permutation_nil in P|].
  inversion Hl; inversion Hm; subst.
  assert (x = y) as ->.
  { assert (In x (y :: m)) as Ix by (eapply Permutation_in; [exact P|now left]).
    assert (In y (x :: l)) as Iy by (eapply Permutation_in; [symmetry; exact P|now left]).
    rewrite Forall_forall in *. destruct Ix as [Ix|Ix]; [now symmetry|]. destruct Iy as [Iy|Iy]; [exact Iy|].
    assert (A : x <= y) by auto. assert (B : y <= x) by auto. qlra. }
  f_equal. apply IH; auto. eapply Permutation_cons_inv; exact P.
Qed.
Lemma isort_unique l m : Permutation l m -> isort l = isort m.
Proof.
  intros P. apply sorted_perm_eq; auto using isort_sorted.
  rewrite <- !isort_perm. exact P.
Qed.
Lemma isort_of_sorted l m : Permutation l m -> ndec m -> isort l = m.
Proof. intros P H. apply sorted_perm_eq; auto using isort_sorted. now rewrite <- isort_perm. Qed.
Lemma sorted_nth l : ndec l -> forall i j, (i <= j < length l)%nat -> vget l i <= vget l j.
Proof.
  intros H. induction H as [|x l H IH F]; intros i j L; cbn in L; [lia|].
  rewrite Forall_forall in F.
  destruct i as [|i], j as [|j]; cbn [vget nth]; try lia.
  - apply Qcle_refl.
  - apply F, nth_In. lia.
  - apply IH. lia.
Qed.
Lemma nth_sorted l : (forall i, (S i < length l)%nat -> vget l i <= vget l (S i)) -> ndec l.
Proof.
  intros H.
  assert (K : forall l, (forall i, (S i < length l)%nat -> vget l i <= vget l (S i)) -> Sorted Qcle l).
  { clear. induction l as [|x l IH]; intros H; constructor.
    - apply IH. intros i Hi. apply (H (S i)). cbn. lia.
    - destruct l as [|y l]; constructor. apply (H 0%nat). cbn. lia. }
  apply Sorted_StronglySorted; [|now apply K]. intros a b c; apply Qcle_trans.
Qed.
Lemma map_sorted f l : (forall x y, x <= y -> f x <= f y) -> ndec l -> ndec (map f l).
Proof.
  intros M H. induction H as [|x l H IH F]; cbn; constructor; auto.
  rewrite Forall_map. eapply Forall_impl; [|exact F]. cbn beta. auto.
Qed.

(* ---------------- reading between the entries ---------------- *)
Section AtPos.
Variable s : list Qc.
Hypothesis sorted : ndec s.
Hypothesis nonempty : s <> [].
Let n := length s.
Let top := qnat (n - 1).

Lemma n_pos : (1 <= n)%nat.
Proof. subst n. clear sorted. destruct s; [congruence|cbn; lia]. Qed.

Lemma floor_nat h : 0 <= h -> h <= top -> exists k, Z.to_nat (qfloor h) = k /\ qnat k <= h /\ h < qnat k + 1 /\ (k <= n - 1)%nat.
Proof.
  intros A B. destruct (qfloor_spec h) as [F1 F2].
  assert (P : (0 <= qfloor h)%Z).
  { enough (0 < qfloor h + 1)%Z by lia. apply qz_lt. rewrite qz_add, qz_0, qz_1. qlra. }
  exists (Z.to_nat (qfloor h)). split; [reflexivity|].
  assert (Q : qnat (Z.to_nat (qfloor h)) = qz (qfloor h)) by (unfold qnat; now rewrite Z2Nat.id).
  rewrite Q. repeat split; auto. apply qnat_le. rewrite Q. fold top. qlra.
Qed.

(* the value at a position lies on the chord of the step it falls into *)
Lemma at_pos_step k h : qnat k <= h -> h <= qnat (S k) -> (S k <= n - 1)%nat ->
  at_pos s h = vget s k + (h - qnat k) * (vget s (S k) - vget s k).
Proof.
  intros A B L. rewrite qnat_S in B.
  destruct (Qc_dec_eq h (qnat k + 1)) as [E|N].
  - unfold at_pos. rewrite E. replace (qnat k + 1) with (qnat (S k)) by (now rewrite qnat_S).
    replace (Z.to_nat (qfloor (qnat (S k)))) with (S k).
    + rewrite qnat_S. ring.
    + unfold qnat. rewrite (qfloor_unique _ (Z.of_nat (S k))); [now rewrite Nat2Z.id|apply Qcle_refl|].
      qlra.
  - unfold at_pos. replace (Z.to_nat (qfloor h)) with k.
    + replace (Nat.min (S k) (length s - 1)) with (S k) by (fold n; lia). ring.
    + rewrite (qfloor_unique _ (Z.of_nat k)); [now rewrite Nat2Z.id| |]; fold (qnat k); [exact A|].
      destruct (Qcle_lt_or_eq _ _ B); [assumption|contradiction].
Qed.
Lemma at_pos_nat k : (k <= n - 1)%nat -> at_pos s (qnat k) = vget s k.
Proof.
  intros L. unfold at_pos. replace (Z.to_nat (qfloor (qnat k))) with k.
  - ring.
  - unfold qnat. rewrite (qfloor_unique _ (Z.of_nat k)); [now rewrite Nat2Z.id|apply Qcle_refl|]. qlra.
Qed.
(* every position is an entry or within a step *)
Lemma pos_cases h : 0 <= h -> h <= top ->
  (exists k, (k <= n - 1)%nat /\ h = qnat k) \/
  (exists k, (S k <= n - 1)%nat /\ qnat k < h /\ h < qnat (S k)).
Proof.
  intros A B. destruct (floor_nat h A B) as (k & _ & K1 & K2 & K3).
  destruct (Qc_dec_eq h (qnat k)) as [E|N]; [left; eauto|right].
  exists k. rewrite qnat_S. assert (qnat k < h) by (destruct (Qcle_lt_or_eq _ _ K1); [assumption|congruence]).
  repeat split; auto. enough (k <> n - 1)%nat by lia. intros ->. fold top in H. qlra.
Qed.
Lemma chord_between a b f : a <= b -> 0 <= f -> f <= 1 -> a <= a + f * (b - a) /\ a + f * (b - a) <= b.
Proof. intros. split; qnra. Qed.
Lemma at_pos_between h k : 0 <= h -> h <= top -> qnat k <= h -> h <= qnat (S k) -> (k <= n - 1)%nat ->
  vget s k <= at_pos s h /\ (at_pos s h <= vget s (S k) \/ h = qnat k).
Proof.
  intros A B C D L. destruct (Qc_dec_eq h (qnat k)) as [->|N].
  - rewrite at_pos_nat by exact L. split; [apply Qcle_refl|now right].
  - assert (S k <= n - 1)%nat.
    { enough (k <> n - 1)%nat by lia. intros ->. fold top in C, N. apply N. qlra. }
    rewrite (at_pos_step k) by auto. rewrite qnat_S in D.
    assert (M : vget s k <= vget s (S k)) by (apply sorted_nth; [exact sorted|fold n; lia]).
    destruct (chord_between (vget s k) (vget s (S k)) (h - qnat k)); auto; try qlra.
Qed.
Lemma at_pos_mono h h' : 0 <= h -> h <= h' -> h' <= top -> at_pos s h <= at_pos s h'.
Proof.
  intros A B C.
  destruct (floor_nat h) as (k & _ & K1 & K2 & K3); [exact A|qlra|].
  destruct (floor_nat h') as (k' & _ & K1' & K2' & K3'); [qlra|exact C|].
  assert (Kk : (k <= k')%nat).
  { enough (k < S k')%nat by lia. apply qnat_lt. rewrite qnat_S. qlra. }
  destruct (Nat.eq_dec k k') as [<-|N].
  - destruct (Nat.eq_dec k (n - 1)) as [E|E].
    + assert (h = top) by (unfold top in *; rewrite E in *; qlra).
      assert (h' = top) by qlra. subst h h'. apply Qcle_refl.
    + rewrite !(at_pos_step k) by (rewrite ?qnat_S; try qlra; lia).
      assert (M : vget s k <= vget s (S k)) by (apply sorted_nth; [exact sorted|fold n; lia]).
      qnra.
  - assert (S k <= k')%nat by lia.
    assert (X : at_pos s h <= vget s (S k)).
    { destruct (at_pos_between h k) as [_ [Y|Y]]; auto; try qlra; [rewrite qnat_S; qlra|].
      rewrite Y, at_pos_nat by exact K3. apply sorted_nth; [exact sorted|fold n; lia]. }
    assert (Y : vget s (S k) <= vget s k') by (apply sorted_nth; [exact sorted|fold n; lia]).
    assert (Z : vget s k' <= at_pos s h').
    { apply (at_pos_between h' k'); auto; [qlra|rewrite qnat_S; qlra]. }
    qlra.
Qed.
End AtPos.

Lemma filter_length_perm {A} (p : A -> bool) l m : Permutation l m -> length (filter p l) = length (filter p m).
Proof.
  induction 1; cbn; auto.
  - destruct (p x); cbn; congruence.
  - destruct (p x), (p y); reflexivity.
  - congruence.
Qed.
Lemma filter_firstn_ge {A} (p : A -> bool) l k :
  (forall x, In x (firstn k l) -> p x = true) -> (k <= length l)%nat -> (k <= length (filter p l))%nat.
Proof.
  revert l. induction k as [|k IH]; intros l H L; [lia|].
  destruct l as [|x l]; cbn in L; [lia|]. cbn [firstn] in H. cbn. rewrite (H x) by now left. cbn.
  apply le_n_S, IH; [|lia]. intros y Hy. apply H. now right.
Qed.
Lemma filter_skipn_ge {A} (p : A -> bool) l k :
  (forall x, In x (skipn k l) -> p x = true) -> (length l - k <= length (filter p l))%nat.
Proof.
  revert l. induction k as [|k IH]; intros l H.
  - cbn [skipn] in H. enough (filter p l = l) as -> by lia.
    induction l as [|x l IHl]; cbn; [reflexivity|]. rewrite H by now left. f_equal. apply IHl.
    intros y Hy. apply H. now right.
  - destruct l as [|x l]; cbn in *; [lia|]. specialize (IH l H). destruct (p x); cbn; lia.
Qed.
Lemma n_le_sorted s k v : ndec s -> (k < length s)%nat -> vget s k <= v -> (S k <= n_le s v)%nat.
Proof.
  intros H L V. apply filter_firstn_ge; [|lia]. intros x Hx. apply qleb_le.
  apply In_nth with (d := 0) in Hx. destruct Hx as (i & Hi & <-). rewrite firstn_length in Hi.
  rewrite nth_firstn_lt by lia. fold (vget s i). eapply Qcle_trans; [apply (sorted_nth s H i k); lia|exact V].
Qed.
Lemma n_ge_sorted s k v : ndec s -> v <= vget s k -> (length s - k <= n_ge s v)%nat.
Proof.
  intros H V. apply filter_skipn_ge. intros x Hx. apply qleb_le.
  apply In_nth with (d := 0) in Hx. destruct Hx as (i & Hi & <-). rewrite skipn_length in Hi.
  rewrite nth_skipn. fold (vget s (k + i)). eapply Qcle_trans; [exact V|]. apply (sorted_nth s H k (k + i)); lia.
Qed.

Lemma quantile_value q l : present l <> [] ->
  quantile q l = Some (at_pos (isort (present l)) (q * qnat (length (present l) - 1))).
Proof.
  intros N. unfold quantile. rewrite <- (isort_length (present l)).
  destruct (isort (present l)) eqn:E; [|reflexivity].
  exfalso. apply N. apply Permutation_nil. rewrite <- E. symmetry. apply isort_perm.
Qed.
Lemma isort_ne l : l <> [] -> isort l <> [].
Proof. intros N E. apply N. apply Permutation_nil. rewrite <- E. symmetry. apply isort_perm. Qed.
Lemma pos_range q m : 0 <= q -> q <= 1 -> 0 <= q * qnat m /\ q * qnat m <= qnat m.
Proof. intros A B. pose proof (qnat_nonneg m). split; qnra. Qed.

Lemma quantile_counts_lemma q l : 0 <= q -> q <= 1 -> present l <> [] ->
  exists v, quantile q l = Some v /\
    q * qnat (length (present l) - 1) < qnat (n_le (present l) v) /\
    (1 - q) * qnat (length (present l) - 1) < qnat (n_ge (present l) v).
Proof.
  intros A B N. rewrite quantile_value by exact N. eexists. split; [reflexivity|].
  set (s := isort (present l)). set (n := length (present l)). set (h := q * qnat (n - 1)).
  assert (Ls : length s = n) by apply isort_length.
  assert (Ss : ndec s) by apply isort_sorted.
  assert (Ns : s <> []) by now apply isort_ne.
  assert (Np : (1 <= n)%nat) by (rewrite <- Ls; now apply n_pos).
  assert (P : forall v, n_le (present l) v = n_le s v /\ n_ge (present l) v = n_ge s v).
  { intros v. split; apply filter_length_perm, isort_perm. }
  destruct (P (at_pos s h)) as [-> ->]. clear P.
  destruct (pos_range q (n - 1) A B) as [H0 H1]. fold h in H0, H1.
  replace ((1 - q) * qnat (n - 1)) with (qnat (n - 1) - h) by (unfold h; ring).
  rewrite <- Ls in H1.
  destruct (pos_cases s h H0 H1) as [(k & K1 & K2)|(k & K1 & K2 & K3)]; rewrite Ls in *.
  - rewrite K2, at_pos_nat by (rewrite Ls; exact K1). split.
    + apply (Qclt_le_trans _ (qnat (S k))); [rewrite qnat_S; qlra|].
      apply qnat_le, n_le_sorted; [exact Ss|lia|apply Qcle_refl].
    + apply (Qclt_le_trans _ (qnat (length s - k))).
      * rewrite <- qnat_sub by lia. apply qnat_lt. lia.
      * apply qnat_le, n_ge_sorted; [exact Ss|apply Qcle_refl].
  - destruct (at_pos_between s Ss h k) as [X [Y|Y]]; rewrite ?Ls; auto; try qlra; try lia. split.
    + apply (Qclt_le_trans _ (qnat (S k))); [exact K3|].
      apply qnat_le, n_le_sorted; auto. lia.
    + apply (Qclt_le_trans _ (qnat (length s - S k))).
      * replace (length s - S k)%nat with (n - 1 - k)%nat by lia. rewrite (qnat_sub (n - 1) k) by lia. qlra.
      * apply qnat_le, n_ge_sorted; auto.
Qed.

Lemma quantile_mono_lemma p q l v w : 0 <= p -> p <= q -> q <= 1 ->
  quantile p l = Some v -> quantile q l = Some w -> v <= w.
Proof.
  intros A B C V W. destruct (present l) as [|x xs] eqn:E.
  - unfold quantile in V. rewrite E in V. discriminate.
  - assert (N : present l <> []) by (rewrite E; discriminate).
    rewrite quantile_value in V, W by exact N. injection V as <-. injection W as <-.
    apply at_pos_mono; auto using isort_sorted, isort_ne.
    + apply pos_range; auto. qlra.
    + pose proof (qnat_nonneg (length (present l) - 1)). qnra.
    + rewrite isort_length. apply pos_range; auto. qlra.
Qed.

Lemma present_perm l m : Permutation l m -> Permutation (present l) (present m).
Proof. intros P. unfold present. now apply Permutation_flat_map. Qed.
Lemma quantile_perm_lemma q l m : Permutation l m -> quantile q l = quantile q m.
Proof. intros P. unfold quantile. now rewrite (isort_unique _ _ (present_perm _ _ P)). Qed.
Lemma median_perm_lemma l m : Permutation l m -> median l = median m.
Proof. intros P. unfold median. now rewrite (isort_unique _ _ (present_perm _ _ P)). Qed.

Lemma half_double m : Nat.div2 (2 * m) = m /\ Nat.div2 (S (2 * m)) = m.
Proof. split; [apply Nat.div2_double|apply Nat.div2_succ_double]. Qed.
Lemma median_half_lemma l : median l = quantile (qn 1 2) l.
Proof.
  destruct (present l) as [|x xs] eqn:E; [unfold median, quantile; now rewrite E|].
  assert (N : present l <> []) by (rewrite E; discriminate).
  rewrite quantile_value by exact N. unfold median.
  destruct (isort (present l)) as [|y s'] eqn:Es; [now apply isort_ne in N|].
  rewrite <- Es. clear y s' Es. set (s := isort (present l)).
  rewrite <- (isort_length (present l)). fold s.
  assert (Ns : s <> []) by now apply isort_ne.
  assert (Np := n_pos s Ns). f_equal.
  assert (H2 : qn 1 2 * (1 + 1) = 1) by now apply qeqb_eq.
  destruct (Nat.Even_or_Odd (length s)) as [[m Hm]|[m Hm]]; rewrite Hm.
  - destruct m as [|m]; [lia|]. replace (2 * S m - 1)%nat with (S (2 * m)) by lia.
    rewrite (proj2 (half_double m)), (proj1 (half_double (S m))).
    rewrite (at_pos_step s m).
    + assert (X : qnat (S (2 * m)) = (1 + 1) * qnat m + 1).
      { rewrite qnat_S, qnat_mul. replace (qnat 2) with (1 + 1) by now apply qeqb_eq. ring. }
      rewrite X. replace (qn 1 2 * ((1 + 1) * qnat m + 1) - qnat m) with (qn 1 2).
      * idtac.
        assert (forall a b, (a + b) / (1 + 1) = a + qn 1 2 * (b - a)) as Y.
        { intros a b. unfold Qcdiv. replace (/ (1 + 1)) with (qn 1 2) by now apply qeqb_eq.
          replace a with (qn 1 2 * (1 + 1) * a) at 2 by (rewrite H2; ring). ring. }
        apply Y.
      * replace (qnat m) with (qn 1 2 * (1 + 1) * qnat m) at 2 by (rewrite H2; ring). ring.
    + rewrite qnat_S, qnat_mul. replace (qnat 2) with (1 + 1) by now apply qeqb_eq.
      replace (qn 1 2 * ((1 + 1) * qnat m + 1)) with (qnat m + qn 1 2).
      * assert (0 <= qn 1 2) by now apply qleb_le. qlra.
      * replace (qnat m) with (qn 1 2 * (1 + 1) * qnat m) at 1 by (rewrite H2; ring). ring.
    + rewrite !qnat_S, qnat_mul. replace (qnat 2) with (1 + 1) by now apply qeqb_eq.
      replace (qn 1 2 * ((1 + 1) * qnat m + 1)) with (qnat m + qn 1 2).
      * assert (qn 1 2 <= 1) by now apply qleb_le. qlra.
      * replace (qnat m) with (qn 1 2 * (1 + 1) * qnat m) at 1 by (rewrite H2; ring). ring.
    + lia.
  - replace (2 * m + 1 - 1)%nat with (2 * m)%nat by lia. replace (2 * m + 1)%nat with (S (2 * m)) by lia.
    rewrite (proj1 (half_double m)), (proj2 (half_double m)).
    rewrite qnat_mul. replace (qnat 2) with (1 + 1) by now apply qeqb_eq.
    replace (qn 1 2 * ((1 + 1) * qnat m)) with (qnat m).
    + rewrite at_pos_nat by lia. field. exact Qc_2_0.
    + replace (qnat m) with (qn 1 2 * (1 + 1) * qnat m) at 1 by (rewrite H2; ring). ring.
Qed.

(* affine change of the samples *)
Lemma present_map f l : present (map (option_map f) l) = map f (present l).
Proof. unfold present. induction l as [|[x|] l IH]; cbn; [reflexivity| |exact IH]. now rewrite <- IH. Qed.
Lemma vget_map f l i : (i < length l)%nat -> vget (map f l) i = f (vget l i).
Proof. intros L. unfold vget. now apply map_nth_in. Qed.
Lemma at_pos_affine a b s h : s <> [] -> 0 <= h -> h <= qnat (length s - 1) ->
  at_pos (map (fun x => a * x + b) s) h = a * at_pos s h + b.
Proof.
  intros Ns H0 H1. destruct (floor_nat s h H0 H1) as (k & K & K1 & K2 & K3).
  assert (Np := n_pos s Ns).
  unfold at_pos. rewrite K, map_length. rewrite !vget_map by lia. ring.
Qed.
Lemma quantile_affine_lemma a b q l : 0 <= a -> 0 <= q -> q <= 1 ->
  quantile q (map (option_map (fun x => a * x + b)) l) = option_map (fun x => a * x + b) (quantile q l).
Proof.
  intros A Q0 Q1. destruct (present l) as [|x xs] eqn:E.
  - unfold quantile. rewrite present_map, E. reflexivity.
  - assert (N : present l <> []) by (rewrite E; discriminate).
    rewrite !quantile_value; [|exact N|rewrite present_map, E; discriminate].
    rewrite present_map, map_length. cbn [option_map]. f_equal.
    rewrite (isort_of_sorted _ (map (fun x => a * x + b) (isort (present l)))).
    + apply at_pos_affine; [now apply isort_ne|apply pos_range; auto|].
      rewrite isort_length. apply pos_range; auto.
    + apply Permutation_map, isort_perm.
    + apply map_sorted; [|apply isort_sorted]. intros. qnra.
Qed.
Lemma vget_rev l i : (i < length l)%nat -> vget (rev l) i = vget l (length l - 1 - i).
Proof. intros L. unfold vget. rewrite rev_nth by exact L. f_equal. lia. Qed.
Lemma quantile_mirror_lemma q l : 0 <= q -> q <= 1 ->
  quantile q (map (option_map Qcopp) l) = option_map Qcopp (quantile (1 - q) l).
Proof.
  intros Q0 Q1. destruct (present l) as [|x xs] eqn:E.
  - unfold quantile. rewrite present_map, E. reflexivity.
  - assert (N : present l <> []) by (rewrite E; discriminate).
    rewrite !quantile_value; [|exact N|rewrite present_map, E; discriminate].
    rewrite present_map, map_length. cbn [option_map]. f_equal.
    set (s := isort (present l)).
    assert (Ss : ndec s) by apply isort_sorted.
    assert (Ns : s <> []) by now apply isort_ne.
    assert (Np := n_pos s Ns).
    rewrite <- (isort_length (present l)). fold s. set (n := length s) in *.
    rewrite (isort_of_sorted _ (map Qcopp (rev s))).
    + assert (G : forall i, (i < n)%nat -> vget (map Qcopp (rev s)) i = - vget s (n - 1 - i)).
      { intros i Hi. rewrite vget_map by (rewrite rev_length; exact Hi). f_equal. now apply vget_rev. }
      assert (Lm : length (map Qcopp (rev s)) = n) by (now rewrite map_length, rev_length).
      assert (Nm : map Qcopp (rev s) <> []) by (intros Z; rewrite Z in Lm; cbn in Lm; lia).
      replace ((1 - q) * qnat (n - 1)) with (qnat (n - 1) - q * qnat (n - 1)) by ring.
      destruct (pos_range q (n - 1) Q0 Q1) as [H0 H1]. set (h := q * qnat (n - 1)) in *. clearbody h.
      assert (H1' := H1). rewrite <- Lm in H1'.
      destruct (pos_cases (map Qcopp (rev s)) h H0 H1') as [(k & K1 & K2)|(k & K1 & K2 & K3)]; rewrite Lm in *.
      * rewrite K2, at_pos_nat by (rewrite Lm; exact K1). rewrite <- qnat_sub by exact K1.
        rewrite at_pos_nat by (fold n; lia). apply G. lia.
      * rewrite (at_pos_step _ k) by (rewrite ?Lm; try lia; qlra). rewrite !G by lia.
        assert (X : qnat (n - 1) = qnat (n - 1 - S k) + qnat k + 1).
        { rewrite <- qnat_add, <- qnat_S. f_equal. lia. }
        rewrite qnat_S in K3.
        rewrite (at_pos_step s (n - 1 - S k)); [|rewrite X; qlra|rewrite qnat_S, X; qlra|fold n; lia].
        replace (S (n - 1 - S k)) with (n - 1 - k)%nat by lia. rewrite X. ring.
    + apply Permutation_map. rewrite <- Permutation_rev. apply isort_perm.
    + apply nth_sorted. intros i Hi. rewrite map_length, rev_length in Hi.
      rewrite !vget_map by (rewrite rev_length; lia). rewrite !vget_rev by lia.
      assert (vget s (length s - 1 - S i) <= vget s (length s - 1 - i)) by (apply sorted_nth; [exact Ss|lia]).
      qlra.
Qed.
