(* Lemmas on filling negative bins. *)
From Verif Require Import PyBase CutSpec MatrixModel MatrixSpec FillModel FillSpec MatrixOpsProofs.

Lemma vget_upd l i x k : (i < length l)%nat -> vget (upd l i x) k = if Nat.eqb k i then x else vget l k.
Proof. intros H. unfold vget. now apply nth_upd. Qed.
Lemma qsum_upd l i x : (i < length l)%nat -> qsum (upd l i x) = qsum l + x - vget l i.
Proof.
  revert i. induction l as [|y l IH]; intros [|i] H; cbn in H; try lia.
  - cbn [upd qsum]. unfold vget. cbn. ring.
  - cbn [upd qsum]. rewrite IH by lia. unfold vget. cbn [nth]. ring.
Qed.
Lemma shuffle_length row a b : length (shuffle_counts row a b) = length row.
Proof. unfold shuffle_counts. now rewrite !upd_length. Qed.
Lemma shuffle_get row a b k : (a < length row)%nat -> (b < length row)%nat ->
  vget (shuffle_counts row a b) k =
    if Nat.eqb k a then qmax 0 (vget row a + vget row b)
    else if Nat.eqb k b then qmin 0 (vget row a + vget row b) else vget row k.
Proof.
  intros Ha Hb. unfold shuffle_counts. rewrite vget_upd by (now rewrite upd_length).
  destruct (Nat.eqb k a); [reflexivity|]. now rewrite vget_upd.
Qed.
Lemma shuffle_moved row a b : (a < length row)%nat -> (b < length row)%nat ->
  0 <= vget row a -> vget row b < 0 -> moved row (shuffle_counts row a b).
Proof.
  intros Ha Hb P N. assert (D : a <> b) by (intros ->; qlra).
  split; [apply shuffle_length|]. split.
  - unfold shuffle_counts. rewrite qsum_upd by (now rewrite upd_length). rewrite qsum_upd by assumption.
    rewrite vget_upd by assumption. rewrite (proj2 (Nat.eqb_neq a b) D).
    destruct (qmin_spec 0 (vget row a + vget row b)) as [[? ->]|[? ->]],
      (qmax_spec 0 (vget row a + vget row b)) as [[? ->]|[? ->]]; qlra.
  - intros i Hi. rewrite shuffle_get by assumption.
    destruct (Nat.eqb_spec i a) as [->|Na].
    + split; intros; [|qlra]. destruct (qmax_spec 0 (vget row a + vget row b)) as [[? ->]|[? ->]]; split; qlra.
    + destruct (Nat.eqb_spec i b) as [->|Nb].
      * split; intros; [qlra|]. destruct (qmin_spec 0 (vget row a + vget row b)) as [[? ->]|[? ->]]; split; qlra.
      * split; intros; split; qlra.
Qed.
Lemma moved_refl row : moved row row.
Proof. split; [reflexivity|]. split; [reflexivity|]. intros i Hi. split; intros; split; qlra. Qed.
Lemma moved_trans a b c : moved a b -> moved b c -> moved a c.
Proof.
  intros (L1 & S1 & P1) (L2 & S2 & P2). split; [congruence|]. split; [congruence|].
  intros i Hi. destruct (P1 i Hi) as [A1 A2]. destruct (P2 i) as [B1 B2]; [congruence|]. split; intros H.
  - destruct (A1 H) as [? ?]. destruct B1 as [? ?]; [assumption|]. split; qlra.
  - destruct (A2 H) as [? ?]. destruct (qltb_spec (vget b i) 0) as [N|N].
    + destruct (B2 N). split; qlra.
    + destruct (B1 N). split; qlra.
Qed.
Lemma moved_neg a b i : moved a b -> (i < length a)%nat -> vget b i < 0 -> vget a i < 0.
Proof.
  intros (_ & _ & P) Hi H. destruct (qltb_spec (vget a i) 0) as [N|N]; [exact N|].
  destruct (P i Hi) as [A _]. destruct (A N). exfalso. qlra.
Qed.
Lemma moved_nonpos a b i : moved a b -> (i < length a)%nat -> vget a i <= 0 -> vget b i <= 0.
Proof.
  intros (_ & _ & P) Hi H. destruct (P i Hi) as [A B]. destruct (qltb_spec (vget a i) 0) as [N|N].
  - now destruct (B N).
  - destruct (A N). qlra.
Qed.
(* the number of positive entries, the measure of the loop *)
Definition npos (l : list Qc) : nat := length (filter (qltb 0) l).
Definition b2n (b : bool) : nat := if b then 1%nat else 0%nat.
Lemma npos_upd l i x : (i < length l)%nat ->
  (npos (upd l i x) + b2n (qltb 0 (vget l i)) = npos l + b2n (qltb 0 x))%nat.
Proof.
  revert i. unfold npos. induction l as [|y l IH]; intros [|i] H; cbn in H; try lia.
  - cbn [upd filter]. unfold vget. cbn [nth]. destruct (qltb 0 x), (qltb 0 y); cbn [length b2n]; lia.
  - cbn [upd filter]. specialize (IH i ltac:(lia)). unfold vget in *. cbn [nth].
    destruct (qltb 0 y); cbn [length]; lia.
Qed.
Lemma npos_le l : (npos l <= length l)%nat.
Proof. unfold npos. induction l as [|x l IH]; cbn [filter length]; [lia|]. destruct (qltb 0 x); cbn [length]; lia. Qed.
Lemma shuffle_npos row a b : (a < length row)%nat -> (b < length row)%nat -> 0 < vget row a -> vget row b < 0 ->
  vget (shuffle_counts row a b) b < 0 -> (S (npos (shuffle_counts row a b)) = npos row)%nat.
Proof.
  intros Ha Hb P N H. assert (D : b <> a) by (intros ->; qlra).
  rewrite shuffle_get in H by assumption. rewrite (proj2 (Nat.eqb_neq b a) D), Nat.eqb_refl in H.
  unfold shuffle_counts. set (s := vget row a + vget row b) in *.
  assert (S0 : s < 0) by (destruct (qmin_spec 0 s) as [[? E]|[? E]]; rewrite E in H; qlra).
  assert (M : qmin 0 s = s) by (destruct (qmin_spec 0 s) as [[? E]|[? E]]; [qlra|exact E]).
  assert (X : qmax 0 s = 0) by (destruct (qmax_spec 0 s) as [[? E]|[? E]]; [qlra|exact E]).
  rewrite M, X.
  pose proof (npos_upd row b s Hb) as E1. pose proof (npos_upd (upd row b s) a 0) as E2.
  rewrite upd_length in E2. specialize (E2 Ha). rewrite vget_upd in E2 by assumption.
  rewrite (proj2 (Nat.eqb_neq a b)) in E2 by congruence.
  rewrite (proj2 (qltb_lt 0 (vget row a)) P) in E2. rewrite (proj2 (qltb_ge 0 0)) in E2 by qlra.
  rewrite (proj2 (qltb_ge 0 s)) in E1 by qlra. rewrite (proj2 (qltb_ge 0 (vget row b))) in E1 by qlra. cbn in E1, E2. lia.
Qed.

Lemma argmax_from_spec l b ib i : (forall pre : list Qc, length pre = i -> (ib < i)%nat -> vget pre ib = b ->
     (forall j, (j < i)%nat -> vget pre j <= b) ->
     let k := argmax_from b ib i l in (k < i + length l)%nat /\
     forall j, (j < i + length l)%nat -> vget (pre ++ l) j <= vget (pre ++ l) k).
Proof.
  revert b ib i. induction l as [|x l IH]; intros b ib i pre L Hib Hb Hm; cbn [argmax_from].
  - rewrite app_nil_r. cbn [length]. rewrite Nat.add_0_r. split; [exact Hib|]. intros j Hj. rewrite Hb. now apply Hm.
  - assert (E : pre ++ x :: l = (pre ++ [x]) ++ l) by (now rewrite <- app_assoc). cbn [length].
    assert (L' : length (pre ++ [x]) = S i) by (rewrite app_length; cbn; lia).
    assert (V1 : vget (pre ++ [x]) i = x) by (unfold vget; rewrite app_nth2, L, Nat.sub_diag by lia; reflexivity).
    assert (V2 : forall j, (j < i)%nat -> vget (pre ++ [x]) j = vget pre j) by (intros j Hj; unfold vget; apply app_nth1; lia).
    rewrite E. replace (i + S (length l))%nat with (S i + length l)%nat by lia. destruct (qltb_spec b x) as [C|C].
    + apply IH; [exact L'|lia|exact V1|]. intros j Hj. destruct (Nat.eq_dec j i) as [->|]; [rewrite V1; qlra|].
      rewrite V2 by lia. specialize (Hm j ltac:(lia)). qlra.
    + apply IH; [exact L'|lia|rewrite V2 by lia; exact Hb|]. intros j Hj. destruct (Nat.eq_dec j i) as [->|]; [rewrite V1; qlra|].
      rewrite V2 by lia. apply Hm. lia.
Qed.
Lemma argmax_spec l : l <> [] -> exists k, argmax l = Ok k /\ (k < length l)%nat /\ forall j, (j < length l)%nat -> vget l j <= vget l k.
Proof.
  destruct l as [|x l]; intros H; [congruence|]. cbn [argmax]. eexists. split; [reflexivity|].
  apply (argmax_from_spec l x 0 1 [x]); [reflexivity|lia|reflexivity|]. intros j Hj. assert (j = 0%nat) as -> by lia. cbn. qlra.
Qed.
Lemma vget_slice (l : list Qc) a n j : (j < n)%nat -> (a + n <= length l)%nat -> vget (firstn n (skipn a l)) j = vget l (a + j).
Proof.
  intros H1 H2. unfold vget. rewrite <- (firstn_skipn a l) at 2. rewrite app_nth2; rewrite firstn_length; [|lia].
  replace (a + j - Nat.min a (length l))%nat with j by lia.
  rewrite <- (firstn_skipn n (skipn a l)) at 2. rewrite app_nth1; [reflexivity|]. rewrite firstn_length, skipn_length. lia.
Qed.
Lemma window_slice {A} (row : list A) i d : (i < length row)%nat -> (0 <= d)%Z ->
  let a := Z.to_nat (win_lo i d) in
  exists n, (0 < n)%nat /\ (a + n <= length row)%nat /\
    py_slice row (win_lo i d) (win_hi (length row) i d + 1) = firstn n (skipn a row) /\
    forall j, (j < length row)%nat -> ((a <= j < a + n)%nat <-> (Z.of_nat i - d <= Z.of_nat j <= Z.of_nat i + d)%Z).
Proof.
  intros Hi Hd a. unfold py_slice, slice_bound. unfold a, win_lo, win_hi in *.
  set (N := Z.of_nat (length row)).
  assert (E1 : (Z.max 0 (Z.of_nat i - d) <? 0 = false)%Z) by (apply Z.ltb_ge; lia).
  assert (E2 : (Z.min N (Z.of_nat i + d) + 1 <? 0 = false)%Z) by (apply Z.ltb_ge; lia).
  rewrite E1, E2. exists (Z.to_nat (Z.min N (Z.min N (Z.of_nat i + d) + 1) - Z.min N (Z.max 0 (Z.of_nat i - d)))).
  replace (Z.min N (Z.max 0 (Z.of_nat i - d))) with (Z.max 0 (Z.of_nat i - d)) by lia.
  split; [lia|]. split; [lia|]. split; [reflexivity|]. intros j Hj. lia.
Qed.
Lemma fill_loop_lemma fuel row i d : (npos row < fuel)%nat -> (i < length row)%nat -> (0 <= d)%Z ->
  exists row', fill_loop fuel row i (win_lo i d) (win_hi (length row) i d) = Some (Ok row') /\
    moved row row' /\
    (forall j, (j < length row)%nat -> vget row' j <> vget row j -> (Z.of_nat i - d <= Z.of_nat j <= Z.of_nat i + d)%Z) /\
    (vget row' i < 0 -> forall j, (j < length row)%nat -> (Z.of_nat i - d <= Z.of_nat j <= Z.of_nat i + d)%Z -> vget row' j <= 0).
Proof.
  revert row. induction fuel as [|fuel IH]; intros row F Hi Hd; [lia|]. cbn [fill_loop].
  destruct (qltb_spec (vget row i) 0) as [N|N].
  2:{ exists row. split; [reflexivity|]. split; [apply moved_refl|]. split; [congruence|]. intros; qlra. }
  destruct (window_slice row i d Hi Hd) as (n & Hn & Hl & Es & Hw). cbv zeta in Hw. rewrite Es.
  set (a := Z.to_nat (win_lo i d)) in *.
  assert (Ls : length (firstn n (skipn a row)) = n) by (rewrite firstn_length, skipn_length; lia).
  destruct (argmax_spec (firstn n (skipn a row))) as (k & Ek & Hk & Mk).
  { intros E. rewrite E in Ls. cbn in Ls. lia. }
  rewrite Ek. rewrite Ls in Hk, Mk.
  assert (Mk' : forall j, (j < length row)%nat -> (Z.of_nat i - d <= Z.of_nat j <= Z.of_nat i + d)%Z -> vget row j <= vget row (a + k)).
  { intros j Hj Hjw. apply Hw in Hjw; [|exact Hj]. specialize (Mk (j - a)%nat ltac:(lia)).
    rewrite !vget_slice in Mk by lia. now replace (a + (j - a))%nat with j in Mk by lia. }
  destruct (qleb_spec (vget row (a + k)) 0) as [Z|Z].
  { exists row. split; [reflexivity|]. split; [apply moved_refl|]. split; [congruence|]. intros _ j Hj Hjw.
    specialize (Mk' j Hj Hjw). qlra. }
  assert (Hak : (a + k < length row)%nat) by lia.
  assert (Mv : moved row (shuffle_counts row (a + k) i)) by (apply shuffle_moved; try assumption; qlra).
  assert (Ch : forall j, (j < length row)%nat -> vget (shuffle_counts row (a + k) i) j <> vget row j ->
     (Z.of_nat i - d <= Z.of_nat j <= Z.of_nat i + d)%Z).
  { intros j Hj Hne. rewrite shuffle_get in Hne by assumption.
    destruct (Nat.eqb_spec j (a + k)) as [->|]; [apply Hw; [exact Hak|lia]|].
    destruct (Nat.eqb_spec j i) as [->|]; [lia|congruence]. }
  destruct (qltb_spec (vget (shuffle_counts row (a + k) i) i) 0) as [N'|N'].
  - pose proof (shuffle_npos row (a + k) i Hak Hi Z N N') as Np.
    destruct (IH (shuffle_counts row (a + k) i)) as (row' & E & Mv' & C' & W'); [lia|now rewrite shuffle_length|exact Hd|].
    rewrite shuffle_length in E, C', W'. exists row'. split; [exact E|]. split; [eapply moved_trans; eassumption|].
    split; [|exact W'].
    intros j Hj Hne. destruct (qeqb_spec (vget row' j) (vget (shuffle_counts row (a + k) i) j)) as [Eq|Ne].
    + apply Ch; congruence.
    + now apply C'.
  - destruct fuel as [|fuel].
    { exfalso. assert (0 < npos row)%nat; [|lia]. pose proof (npos_upd row (a + k) 0 Hak) as E0.
      rewrite (proj2 (qltb_lt 0 (vget row (a + k))) Z) in E0. rewrite (proj2 (qltb_ge 0 0)) in E0 by qlra. cbn in E0. lia. }
    exists (shuffle_counts row (a + k) i). cbn [fill_loop]. rewrite (proj2 (qltb_ge _ _) N').
    split; [reflexivity|]. split; [exact Mv|]. split; [exact Ch|]. intros; qlra.
Qed.
Lemma max_distance_half w : half_window w (max_distance w).
Proof.
  unfold half_window, max_distance.
  pose proof (Qround.Qle_ceiling (this ((qz w - 1) / qz 2))) as H1.
  pose proof (Qround.Qceiling_lt (this ((qz w - 1) / qz 2))) as H2. fold (qceil ((qz w - 1) / qz 2)) in H1, H2.
  set (r := qceil ((qz w - 1) / qz 2)) in *.
  assert (E : (this ((qz w - 1) / qz 2) == (inject_Z w - 1) / 2)%Q).
  { apply tq_div; [apply tq_sub; apply tq_lit|apply tq_lit]. }
  rewrite E in H1, H2. 
  assert (I1 : forall z, (inject_Z (z - 1) == inject_Z z - 1)%Q) by (intros z; unfold Z.sub; rewrite inject_Z_plus; reflexivity).
  rewrite I1 in H2. unfold Qdiv in H1, H2. change (/ 2)%Q with (1 # 2)%Q in H1, H2.
  assert (A1 : (inject_Z (w - 1) <= inject_Z (2 * r))%Q).
  { rewrite inject_Z_mult, I1. change (inject_Z 2) with 2%Q. lra. }
  assert (A2 : (inject_Z (2 * (r - 1)) < inject_Z (w - 1))%Q).
  { rewrite inject_Z_mult, !I1. change (inject_Z 2) with 2%Q. lra. }
  rewrite <- Zle_Qle in A1. rewrite <- Zlt_Qlt in A2. lia.
Qed.
Lemma half_window_fun w r s : half_window w r -> half_window w s -> r = s.
Proof. unfold half_window. lia. Qed.
Lemma within_iff w i j : within w i j <-> (Z.of_nat i - max_distance w <= Z.of_nat j <= Z.of_nat i + max_distance w)%Z.
Proof.
  split.
  - intros (r & H & B). now rewrite (half_window_fun w _ _ (max_distance_half w) H).
  - intros H. exists (max_distance w). split; [apply max_distance_half|exact H].
Qed.
Lemma fill_bins_lemma ws l row : (forall i, In i l -> (i < length row)%nat) -> (forall i, In i l -> (0 <= nth i ws 0)%Z) ->
  exists row', fill_bins ws row l = Some (Ok row') /\ moved row row' /\
    (forall j, (j < length row)%nat -> vget row' j <> vget row j -> exists i, In i l /\ within (nth i ws 0%Z) i j) /\
    (forall i, In i l -> vget row' i < 0 -> forall j, (j < length row)%nat -> within (nth i ws 0%Z) i j -> vget row' j <= 0).
Proof.
  revert row. induction l as [|i l IH]; intros row Hl Hw; cbn [fill_bins].
  - exists row. split; [reflexivity|]. split; [apply moved_refl|]. split; [congruence|]. intros i [].
  - assert (Hd : (0 <= max_distance (nth i ws 0))%Z).
    { pose proof (max_distance_half (nth i ws 0%Z)) as [? ?]. specialize (Hw i (or_introl eq_refl)). lia. }
    destruct (fill_loop_lemma (S (length row)) row i (max_distance (nth i ws 0%Z))) as (r1 & E & M1 & C1 & W1);
      [pose proof (npos_le row); lia|apply Hl; now left|exact Hd|].
    rewrite E. assert (L1 : length r1 = length row) by (apply M1).
    destruct (IH r1) as (r2 & E2 & M2 & C2 & W2).
    { intros k Hk. rewrite L1. apply Hl. now right. }
    { intros k Hk. apply Hw. now right. }
    rewrite L1 in C2, W2. exists r2. split; [exact E2|]. split; [eapply moved_trans; eassumption|]. split.
    + intros j Hj Hne. destruct (qeqb_spec (vget r2 j) (vget r1 j)) as [Eq|Ne].
      * exists i. split; [now left|]. apply within_iff. apply C1; congruence.
      * destruct (C2 j Hj Ne) as (k & Hk & W). exists k. split; [now right|exact W].
    + intros k [<-|Hk] Hneg j Hj W.
      * apply (moved_nonpos r1); [exact M2|congruence|]. apply W1; [|exact Hj|now apply within_iff].
        apply (moved_neg r1 r2); [exact M2| |exact Hneg]. rewrite L1. apply Hl. now left.
      * eapply W2; eassumption.
Qed.
Lemma negatives_in row i : In i (negatives row) <-> (i < length row)%nat /\ vget row i < 0.
Proof. unfold negatives. rewrite filter_In, in_seq, qltb_lt. intuition lia. Qed.
Lemma fill_max_row_lemma ws row : (forall i, (i < length row)%nat -> vget row i < 0 -> (0 <= nth i ws 0)%Z) ->
  exists row', fill_max_row ws row = Some (Ok row') /\ moved row row' /\
    (forall j, (j < length row)%nat -> vget row' j <> vget row j ->
       exists i, (i < length row)%nat /\ vget row i < 0 /\ within (nth i ws 0%Z) i j) /\
    (forall i, (i < length row)%nat -> vget row' i < 0 ->
       forall j, (j < length row)%nat -> within (nth i ws 0%Z) i j -> vget row' j <= 0).
Proof.
  intros Hw. destruct (fill_bins_lemma ws (negatives row) row) as (r & E & M & C & W).
  - intros i Hi. now apply negatives_in in Hi.
  - intros i Hi. apply negatives_in in Hi as [? ?]. now apply Hw.
  - exists r. split; [exact E|]. split; [exact M|]. split.
    + intros j Hj Hne. destruct (C j Hj Hne) as (i & Hi & Wi). apply negatives_in in Hi as [? ?]. exists i. auto.
    + intros i Hi Hn. apply W; [|exact Hn]. apply negatives_in. split; [exact Hi|]. eapply moved_neg; eassumption.
Qed.
Lemma rows_all_lemma f (P : list Qc -> list Qc -> Prop) rows : (forall r, In r rows -> exists r', f r = Some (Ok r') /\ P r r') ->
  exists rows', rows_all f rows = Some (Ok rows') /\ Forall2 P rows rows'.
Proof.
  induction rows as [|r rows IH]; intros H; cbn [rows_all].
  - exists []. split; [reflexivity|constructor].
  - destruct (H r (or_introl eq_refl)) as (r' & -> & Pr). destruct IH as (t' & -> & Pt); [intros; apply H; now right|].
    exists (r' :: t'). split; [reflexivity|now constructor].
Qed.
Lemma fill_negative_max_lemma a w : (forall r, In r (a_rows a) -> length r = a_nc a) ->
  length (windows w (a_nc a)) = a_nc a -> (forall x, In x (windows w (a_nc a)) -> (0 <= x)%Z) ->
  exists a', fill_negative_max a w = Some (Ok a') /\ a_nc a' = a_nc a /\
    Forall2 (filled (windows w (a_nc a))) (a_rows a) (a_rows a').
Proof.
  intros R L W. set (ws := windows w (a_nc a)) in *.
  assert (F : forall r, In r (a_rows a) -> exists r', fill_max_row ws r = Some (Ok r') /\ filled ws r r').
  { intros r Hr. destruct (fill_max_row_lemma ws r) as (r' & E & H).
    - intros i Hi _. rewrite R in Hi by exact Hr. apply W, nth_In. now rewrite L.
    - exists r'. split; [exact E|exact H]. }
  destruct (rows_all_lemma _ _ _ F) as (rows & E & H).
  exists (mkArr (a_nc a) rows). unfold fill_negative_max. destruct w as [w|ws']; cbn [windows] in *.
  - fold ws. rewrite E. auto.
  - subst ws. rewrite (proj2 (Nat.eqb_eq _ _) L). rewrite E. auto.
Qed.
Lemma fill_max_assert a ws : length ws <> a_nc a -> fill_negative_max a (WArr ws) = Some (Raise AssertionError).
Proof. intros H. unfold fill_negative_max. now rewrite (proj2 (Nat.eqb_neq _ _) H). Qed.

(* --- gaussian filling --- *)
Section G.
Variable gauss : nat -> nat -> Qc.
Variable argsort : list Qc -> list nat.
Hypothesis argsort_sorts : forall l, sorts l (argsort l).

Lemma gauss_from_lemma order row i : (i < length row)%nat -> vget row i < 0 ->
  (forall j, In j order -> (j < length row)%nat) ->
  moved row (gauss_from row i order) /\
  forall pre rest, order = pre ++ i :: rest -> forall j, j <> i -> ~ In j pre -> vget (gauss_from row i order) j = vget row j.
Proof.
  revert row. induction order as [|j order IH]; intros row Hi N Ho; cbn [gauss_from].
  - split; [apply moved_refl|]. reflexivity.
  - destruct (qltb_spec (vget row j) 0) as [Nj|Nj].
    + split; [apply moved_refl|]. reflexivity.
    + assert (D : j <> i) by (intros ->; qlra). assert (Hj : (j < length row)%nat) by (apply Ho; now left).
      pose proof (shuffle_moved row j i Hj Hi Nj N) as M.
      assert (St : forall k, k <> i -> k <> j -> vget (shuffle_counts row j i) k = vget row k).
      { intros k K1 K2. rewrite shuffle_get by assumption.
        now rewrite (proj2 (Nat.eqb_neq k j) K2), (proj2 (Nat.eqb_neq k i) K1). }
      destruct (qleb_spec 0 (vget (shuffle_counts row j i) i)) as [P|P].
      * split; [exact M|]. intros pre rest E k Ki Kp. apply St; [exact Ki|].
        destruct pre as [|p pre]; cbn in E; injection E as -> E; [congruence|]. intros ->. apply Kp. now left.
      * destruct (IH (shuffle_counts row j i)) as [M2 S2]; [now rewrite shuffle_length|exact P| |].
        { intros k Hk. rewrite shuffle_length. apply Ho. now right. }
        split; [eapply moved_trans; eassumption|]. intros pre rest E k Ki Kp.
        destruct pre as [|p pre]; cbn in E; injection E as -> E; [congruence|].
        rewrite (S2 pre rest E k Ki) by (intros H; apply Kp; now right). apply St; [exact Ki|].
        intros ->. apply Kp. now left.
Qed.
Lemma gweights_get row i j : (j < length row)%nat ->
  vget (gweights gauss row i) j = (if qltb (vget row j) 0 then 0 else vget row j) * gauss i j.
Proof. intros H. unfold gweights, vget at 1. now rewrite nth_tab. Qed.
Lemma gauss_bin_lemma row i : (i < length row)%nat -> vget row i < 0 ->
  moved row (gauss_bin gauss argsort row i) /\
  forall j, (j < length row)%nat -> 0 < vget row j * gauss i j -> 0 <= vget row j ->
    vget (gauss_bin gauss argsort row i) j = vget row j.
Proof.
  intros Hi N. unfold gauss_bin. set (w := gweights gauss row i). destruct (argsort_sorts w) as [Pm Sd].
  assert (Lw : length w = length row) by (unfold w, gweights; apply tab_length).
  destruct (gauss_from_lemma (argsort w) row i Hi N) as [M S].
  { intros j Hj. apply (Permutation_in _ Pm) in Hj. rewrite in_seq in Hj. lia. }
  split; [exact M|]. intros j Hj Pw Pj.
  assert (Hin : In i (argsort w)). { apply (Permutation_in _ (Permutation_sym Pm)). rewrite in_seq. lia. }
  apply in_split in Hin as (pre & rest & E). apply (S pre rest E).
  - intros ->. qlra.
  - intros Hp. apply (In_nth _ _ 0%nat) in Hp as (a & Ha & Ea).
    assert (LA : length (argsort w) = length w) by (rewrite (Permutation_length Pm); apply seq_length).
    specialize (Sd a (length pre)). rewrite E in Sd at 1. rewrite app_length in Sd. cbn [length] in Sd.
    specialize (Sd ltac:(lia)). rewrite E in Sd. rewrite app_nth1 in Sd by exact Ha. rewrite Ea in Sd.
    rewrite app_nth2, Nat.sub_diag in Sd by lia. cbn [nth] in Sd. unfold w in Sd. rewrite !gweights_get in Sd by assumption.
    rewrite (proj2 (qltb_lt _ _) N) in Sd. rewrite (proj2 (qltb_ge _ _) Pj) in Sd. qlra.
Qed.
(* the loop over the bins negative at the start: they are still negative when their turn
   comes *)
Lemma gauss_fold_lemma l row : NoDup l -> (forall i, In i l -> (i < length row)%nat /\ vget row i < 0) ->
  moved row (fold_left (gauss_bin gauss argsort) l row) /\
  forall j, (j < length row)%nat -> 0 <= vget row j -> vget (fold_left (gauss_bin gauss argsort) l row) j <> vget row j ->
    exists i, In i l /\ gauss i j <= 0.
Proof.
  revert row. induction l as [|i l IH]; intros row Nd Hl; cbn [fold_left].
  - split; [apply moved_refl|congruence].
  - inversion Nd as [|? ? Ni Nd']; subst. destruct (Hl i (or_introl eq_refl)) as [Hi N].
    destruct (gauss_bin_lemma row i Hi N) as [M S]. set (r1 := gauss_bin gauss argsort row i) in *.
    assert (L1 : length r1 = length row) by (apply M).
    (* other negative bins are untouched *)
    assert (Hl' : forall k, In k l -> (k < length r1)%nat /\ vget r1 k < 0).
    { intros k Hk. rewrite L1. destruct (Hl k (or_intror Hk)) as [Hk1 Hk2]. split; [exact Hk1|].
      assert (Hki : k <> i) by congruence.
      enough (vget r1 k = vget row k) by congruence.
      unfold r1, gauss_bin. set (order := argsort (gweights gauss row i)).
      assert (Ho : forall j, In j order -> (j < length row)%nat).
      { intros j Hj. destruct (argsort_sorts (gweights gauss row i)) as [Pm _]. apply (Permutation_in _ Pm) in Hj.
        rewrite in_seq in Hj. unfold gweights in Hj. rewrite tab_length in Hj. lia. }
      clearbody order. clear - Hi N Hk1 Hk2 Hki Ho. revert row Hi N Hk1 Hk2 Ho. induction order as [|j o IHo]; intros row Hi N Hk1 Hk2 Ho; cbn [gauss_from].
      - reflexivity.
      - destruct (qltb_spec (vget row j) 0) as [Nj|Nj]; [reflexivity|].
        assert (Hj : (j < length row)%nat) by (apply Ho; now left).
        assert (E : vget (shuffle_counts row j i) k = vget row k).
        { rewrite shuffle_get by assumption. assert (k <> j) by (intros ->; qlra).
          now rewrite (proj2 (Nat.eqb_neq k j)), (proj2 (Nat.eqb_neq k i)) by assumption. }
        destruct (qleb_spec 0 (vget (shuffle_counts row j i) i)) as [P|P]; [exact E|].
        rewrite IHo; [exact E|now rewrite shuffle_length|exact P|now rewrite shuffle_length|congruence|].
        intros x Hx. rewrite shuffle_length. apply Ho. now right. }
    destruct (IH r1 Nd' Hl') as [M2 C2]. split; [eapply moved_trans; eassumption|].
    intros j Hj Pj Hne. destruct (qeqb_spec (vget r1 j) (vget row j)) as [Eq|Ne].
    + destruct (C2 j) as (k & Hk & G); [lia|congruence|congruence|]. exists k. split; [now right|exact G].
    + exists i. split; [now left|]. destruct (qleb_spec (gauss i j) 0) as [G|G]; [exact G|]. exfalso.
      destruct (qltb_spec 0 (vget row j)) as [P|P].
      * apply Ne. apply S; [exact Hj| |exact Pj]. qnra.
      * apply Ne. destruct M as (_ & _ & M). destruct (M j Hj) as [A _]. destruct (A Pj). qlra.
Qed.
Lemma negatives_nodup row : NoDup (negatives row).
Proof. apply NoDup_filter, seq_NoDup. Qed.
Lemma gauss_row_lemma row :
  moved row (gauss_row gauss argsort row) /\
  forall j, (j < length row)%nat -> 0 <= vget row j -> vget (gauss_row gauss argsort row) j <> vget row j ->
    exists i, (i < length row)%nat /\ vget row i < 0 /\ gauss i j <= 0.
Proof.
  destruct (gauss_fold_lemma (negatives row) row (negatives_nodup row)) as [M C].
  { intros i Hi. now apply negatives_in. }
  split; [exact M|]. intros j Hj Pj Hne. destruct (C j Hj Pj Hne) as (i & Hi & G). apply negatives_in in Hi. exists i. tauto.
Qed.
Lemma gauss_row_id row :
  (forall i j, (i < length row)%nat -> (j < length row)%nat -> vget row i < 0 -> 0 <= vget row j -> 0 < gauss i j) ->
  gauss_row gauss argsort row = row.
Proof.
  intros G. destruct (gauss_row_lemma row) as [(L & S & P) C]. set (r := gauss_row gauss argsort row) in *.
  assert (E : forall j, (j < length row)%nat -> 0 <= vget row j -> vget r j = vget row j).
  { intros j Hj Pj. destruct (qeqb_spec (vget r j) (vget row j)) as [Eq|Ne]; [exact Eq|].
    destruct (C j Hj Pj Ne) as (i & Hi & Ni & Gi). specialize (G i j Hi Hj Ni Pj). exfalso. qlra. }
  assert (D : forall j, (j < length row)%nat -> vget r j - vget row j = 0).
  { apply (sumn_nonneg_0 (length row) (fun j => vget r j - vget row j)).
    - intros j Hj. destruct (P j Hj) as [_ B]. destruct (qltb_spec (vget row j) 0) as [N|N].
      + destruct (B N). qlra.
      + rewrite (E j Hj N). qlra.
    - rewrite sumn_sub. rewrite <- (qsum_nth row). rewrite <- L. rewrite <- (qsum_nth r). rewrite S. ring. }
  apply (nth_ext _ _ 0 0 L). intros j Hj. rewrite L in Hj. specialize (D j Hj). unfold vget in D. qlra.
Qed.
End G.

(* --- remove_negative --- *)
Lemma clip_spec x : (0 <= x -> clip x = x) /\ (x < 0 -> clip x = 0) /\ 0 <= clip x /\ clip (clip x) = clip x.
Proof.
  unfold clip. destruct (qltb_spec 0 x) as [H|H].
  - rewrite (proj2 (qltb_lt 0 x) H). repeat split; intros; qlra.
  - rewrite (proj2 (qltb_ge 0 0)) by qlra. repeat split; intros; qlra.
Qed.
Lemma aget_amap f a i j nr nc : shaped a nr nc -> (i < nr)%nat -> (j < nc)%nat -> aget (amap f a) i j = f (aget a i j).
Proof.
  intros (S1 & S2 & S3) Hi Hj. unfold aget, amap, mget, vget. cbn [a_rows].
  rewrite (map_nth_in _ _ _ []) by lia. apply map_nth_in. rewrite S3; [exact Hj|]. apply nth_In. lia.
Qed.
Lemma amap_shaped f a nr nc : shaped a nr nc -> shaped (amap f a) nr nc.
Proof.
  intros (S1 & S2 & S3). split; [exact S1|]. split; [cbn; now rewrite map_length|].
  intros r Hr. cbn in Hr. apply in_map_iff in Hr as (r' & <- & Hr). rewrite map_length. auto.
Qed.
Lemma remove_negative_lemma m : consistent m ->
  let m' := remove_negative m in
  consistent m' /\ Eg m' = Eg m /\ Ex m' = Ex m /\ std m' = std m /\ state m' = state m /\
  (forall i j, (i < length (Ex m))%nat -> (j < length (Eg m))%nat ->
     (0 <= aget (values m) i j -> aget (values m') i j = aget (values m) i j) /\
     (aget (values m) i j < 0 -> aget (values m') i j = 0)) /\
  remove_negative m' = m'.
Proof.
  intros [S T] m'. split; [split; [cbn; now apply amap_shaped|exact T]|]. do 4 (split; [reflexivity|]). split.
  - intros i j Hi Hj. cbn [m' remove_negative with_values values]. rewrite (aget_amap _ _ _ _ _ _ S Hi Hj).
    split; apply clip_spec.
  - unfold m', remove_negative, with_values. cbn [values Eg Ex std state]. f_equal. unfold amap. cbn [a_nc a_rows]. f_equal.
    rewrite map_map. apply map_ext. intros r. rewrite map_map. apply map_ext. intros x. apply clip_spec.
Qed.
Lemma fill_and_remove_lemma gauss argsort m r x : In r (a_rows (values (fill_and_remove_negative gauss argsort m))) -> In x r -> 0 <= x.
Proof.
  unfold fill_and_remove_negative, remove_negative, with_values, amap. cbn [values a_rows].
  intros Hr Hx. apply in_map_iff in Hr as (r' & <- & Hr). apply in_map_iff in Hx as (y & <- & _). apply clip_spec.
Qed.
Lemma fill_negative_rows gauss argsort : (forall l, sorts l (argsort l)) -> forall m, consistent m ->
  let m' := m_fill_negative gauss argsort m in
  consistent m' /\ Eg m' = Eg m /\ Ex m' = Ex m /\
  Forall2 (fun row row' => moved row row' /\
     forall j, (j < length row)%nat -> 0 <= vget row j -> vget row' j <> vget row j ->
       exists i, (i < length row)%nat /\ vget row i < 0 /\ gauss i j <= 0)
    (a_rows (values m)) (a_rows (values m')).
Proof.
  intros A m [(S1 & S2 & S3) T] m'. split; [split; [|exact T]|].
  - cbn. split; [exact S1|]. split; [cbn; now rewrite map_length|]. cbn. intros r Hr. apply in_map_iff in Hr as (r' & <- & Hr).
    destruct (gauss_row_lemma gauss argsort A r') as [(L & _) _]. rewrite L. auto.
  - do 2 (split; [reflexivity|]). cbn [m' m_fill_negative with_values values fill_negative_gauss a_rows].
    clear - A. induction (a_rows (values m)) as [|r l IH]; constructor; [|exact IH]. now apply gauss_row_lemma.
Qed.
