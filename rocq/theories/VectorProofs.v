From Coq Require Import String.
Import Coq.Init.Datatypes.
From Verif Require Import PyBase Axis RebinModel RebinSpec RebinProofs Rebin2DProofs RebinFactorProofs MatrixModel CutSpec
  IndexProofs CutProofs VectorModel VectorSpec.

(* --- cut --- *)
Lemma v_cut_lemma v Emin Emax : v_E v <> [] -> v_consistent v -> nondecreasing (v_E v) ->
  exists a b i j v',
    v_cut v Emin Emax = Ok v' /\
    match Emin with Some e => a = e | None => In a (v_E v) /\ forall y, In y (v_E v) -> a <= y end /\
    match Emax with Some e => b = e | None => In b (v_E v) /\ forall y, In y (v_E v) -> y <= b end /\
    nearest (v_E v) a i /\ nearest (v_E v) b j /\
    v_values v' = range_of i j (v_values v) /\ v_E v' = range_of i j (v_E v) /\
    v_std v' = option_map (range_of i j) (v_std v) /\ v_units v' = v_units v /\
    v_consistent v'.
Proof.
  intros Hne [Hl Hsd] Hs.
  assert (exists a, match Emin with Some e => Ok e | None => py_min (v_E v) end = Ok a /\
    match Emin with Some e => a = e | None => In a (v_E v) /\ forall y, In y (v_E v) -> a <= y end)
    as (a & Ha & Ha').
  { destruct Emin as [e|]; [now exists e|]. destruct (py_min_spec _ Hne) as (m & -> & H1 & H2). eauto. }
  assert (exists b, match Emax with Some e => Ok e | None => py_max (v_E v) end = Ok b /\
    match Emax with Some e => b = e | None => In b (v_E v) /\ forall y, In y (v_E v) -> y <= b end)
    as (b & Hb & Hb').
  { destruct Emax as [e|]; [now exists e|]. destruct (py_max_spec _ Hne) as (m & -> & H1 & H2). eauto. }
  pose proof (index_nearest_lemma _ a Hne Hs) as Na. pose proof (index_nearest_lemma _ b Hne Hs) as Nb.
  exists a, b, (index (v_E v) a), (index (v_E v) b).
  unfold v_cut, v_cut_data. rewrite Ha, Hb. cbn [rbind]. eexists. split; [reflexivity|].
  destruct Na as (Ia & Na). destruct Nb as (Ib & Nb).
  replace (Z.of_nat (index (v_E v) b) + 1)%Z with (Z.of_nat (S (index (v_E v) b))) by lia.
  assert (Hps : forall A (l : list A), length l = length (v_E v) ->
    py_slice l (Z.of_nat (index (v_E v) a)) (Z.of_nat (S (index (v_E v) b)))
    = range_of (index (v_E v) a) (index (v_E v) b) l).
  { intros A l Hll. rewrite py_slice_nat by lia. reflexivity. }
  cbn [v_values v_E v_std v_units].
  split; [exact Ha'|]. split; [exact Hb'|]. split; [now split|]. split; [now split|].
  split; [apply Hps; congruence|]. split; [now apply Hps|].
  split; [destruct (v_std v); cbn; [f_equal; apply Hps; congruence|reflexivity]|].
  split; [reflexivity|]. split; cbn.
  - apply py_slice_length. congruence.
  - destruct (v_std v); cbn; [|exact I]. apply py_slice_length. congruence.
Qed.

Lemma in_range_of {A} i j (l : list A) d x : (j < length l)%nat ->
  In x (range_of i j l) <-> exists k, (i <= k <= j)%nat /\ nth k l d = x.
Proof.
  intros Hj. unfold range_of. split.
  - intros H. apply (In_nth _ _ d) in H as (k & Hk & <-). rewrite firstn_length, skipn_length in Hk.
    exists (i + k)%nat. split; [lia|].
    rewrite nth_firstn_lt by lia. now rewrite nth_skipn.
  - intros (k & Hk & <-).
    replace (nth k l d) with (nth (k - i) (firstn (S j - i) (skipn i l)) d).
    + apply nth_In. rewrite firstn_length, skipn_length. lia.
    + rewrite nth_firstn_lt by lia. rewrite nth_skipn. f_equal. lia.
Qed.

Lemma nearest_half l e i : equidistant l -> nearest l e i ->
  axis_lo l <= e -> e <= axis_hi l -> qabs (nth i l 0 - e) <= width l / qz 2.
Proof.
  intros He (Hi & Hn & _) H1 H2. pose proof He as (Hlen & Hw & Heq).
  pose proof (qz2_half (width l)) as Hh.
  (* find some bin containing e *)
  assert (exists k, (k < length l)%nat /\ qabs (nth k l 0 - e) <= width l / qz 2) as (k & Hk & Hd).
  { set (q := (e - axis_lo l) / width l).
    assert (Hq0 : 0 <= q) by (apply Qcdiv_nonneg; qlra).
    assert (Hqw : q * width l = e - axis_lo l) by (unfold q; field; now apply Qclt_neq).
    destruct (qfloor_spec q) as [F1 F2].
    assert (0 <= qfloor q)%Z.
    { apply Z.lt_succ_r. apply (proj2 (qz_lt _ _)). unfold Z.succ. rewrite qz_add, qz_0, qz_1. qlra. }
    pose proof (axis_hi_eq l He) as Hhi.
    destruct (Z.lt_ge_cases (qfloor q) (Z.of_nat (length l))) as [Hlt|Hge].
    - exists (Z.to_nat (qfloor q)). split; [lia|].
      rewrite Heq by lia. unfold axis_lo, bin_lo in *.
      assert (E : qnat (Z.to_nat (qfloor q)) = qz (qfloor q)) by (unfold qnat; now rewrite Z2Nat.id).
      rewrite E. q_minmax; qnra.
    - exists (length l - 1)%nat. split; [lia|].
      rewrite Heq by lia. rewrite qnat_sub by lia. rewrite qnat_1.
      assert (qnat (length l) <= qz (qfloor q)) by (apply (proj1 (qz_le _ _)); assumption).
      unfold axis_lo, bin_lo in *. q_minmax; qnra. }
  specialize (Hn k Hk). qlra.
Qed.

(* limits inside the axis range: nothing more than half a bin off *)
Lemma v_cut_half_lemma v a b v' : v_consistent v -> equidistant (v_E v) ->
  axis_lo (v_E v) <= a -> a <= axis_hi (v_E v) -> axis_lo (v_E v) <= b -> b <= axis_hi (v_E v) ->
  v_cut v (Some a) (Some b) = Ok v' ->
  let h := width (v_E v) / qz 2 in
  (forall e, In e (v_E v') -> In e (v_E v) /\ a - h <= e /\ e <= b + h) /\
  (forall e, In e (v_E v) -> a + h <= e -> e <= b - h -> In e (v_E v')).
Proof.
  intros C He A1 A2 B1 B2 E h. pose proof He as (Hlen & Hw & Heq).
  assert (Hne : v_E v <> []) by (intros Hn; rewrite Hn in Hlen; cbn in Hlen; lia).
  assert (Hmono : forall i j, (i <= j < length (v_E v))%nat -> nth i (v_E v) 0 <= nth j (v_E v) 0).
  { intros i j Hij. rewrite (Heq i), (Heq j) by lia.
    assert (qnat i <= qnat j) by (apply (proj1 (qnat_le _ _)); lia). qnra. }
  assert (Hinc : forall i j, (i < j < length (v_E v))%nat -> nth i (v_E v) 0 < nth j (v_E v) 0).
  { intros i j Hij. rewrite (Heq i), (Heq j) by lia.
    assert (qnat i < qnat j) by (apply (proj1 (qnat_lt _ _)); lia). qnra. }
  assert (Hs : nondecreasing (v_E v)) by (apply (nth_SSorted _ _ 0); intros; apply Hmono; lia).
  destruct (v_cut_lemma v (Some a) (Some b) Hne C Hs)
    as (a' & b' & i & j & w & E' & -> & -> & Na & Nb & _ & HE & _).
  rewrite E in E'. injection E' as <-.
  pose proof (nearest_half _ _ _ He Na A1 A2) as Da. pose proof (nearest_half _ _ _ He Nb B1 B2) as Db.
  fold h in Da, Db. destruct Na as (Hi & _). destruct Nb as (Hj & _).
  rewrite HE. split.
  - intros e H. apply (in_range_of _ _ _ 0 _ Hj) in H as (k & Hk & <-).
    split; [apply nth_In; lia|].
    assert (nth i (v_E v) 0 <= nth k (v_E v) 0) by (apply Hmono; lia).
    assert (nth k (v_E v) 0 <= nth j (v_E v) 0) by (apply Hmono; lia).
    revert Da Db. q_minmax; intros; split; qlra.
  - intros e H H1 H2. apply (In_nth _ _ 0) in H as (k & Hk & <-).
    apply (in_range_of _ _ _ 0 _ Hj). exists k. split; [|reflexivity].
    split.
    + destruct (Nat.le_gt_cases i k) as [|Hgt]; [assumption|exfalso].
      assert (nth k (v_E v) 0 < nth i (v_E v) 0) by (apply Hinc; lia).
      revert Da Db. q_minmax; intros; qlra.
    + destruct (Nat.le_gt_cases k j) as [|Hgt]; [assumption|exfalso].
      assert (nth j (v_E v) 0 < nth k (v_E v) 0) by (apply Hinc; lia).
      revert Da Db. q_minmax; intros; qlra.
Qed.

(* --- units --- *)
Lemma q1000 : qz 1000 <> 0. Proof. apply qeqb_neq. reflexivity. Qed.
Lemma map_div_mul l : map (fun e => e * qz 1000) (map (fun e => e / qz 1000) l) = l.
Proof. rewrite map_map. rewrite <- (map_id l) at 2. apply map_ext. intros. field. apply q1000. Qed.
Lemma map_mul_div l : map (fun e => e / qz 1000) (map (fun e => e * qz 1000) l) = l.
Proof. rewrite map_map. rewrite <- (map_id l) at 2. apply map_ext. intros. field. apply q1000. Qed.

Lemma units_lemma v : (v_units v = KeV \/ v_units v = MeV) ->
  exists m k, to_MeV v = Ok m /\ to_keV v = Ok k /\
    v_units m = MeV /\ v_units k = KeV /\
    to_MeV m = Ok m /\ to_keV k = Ok k /\ to_keV m = Ok k /\ to_MeV k = Ok m /\
    v_values m = v_values v /\ v_std m = v_std v /\ v_values k = v_values v /\ v_std k = v_std v /\
    (v_units v = KeV -> k = v) /\ (v_units v = MeV -> m = v) /\
    v_E k = map (fun e => e * qz 1000) (v_E m).
Proof.
  destruct v as [vals E s u]. cbn. intros [-> | ->]; do 2 eexists; cbn.
  - split; [reflexivity|]. split; [reflexivity|]. cbn. rewrite map_div_mul.
    repeat split; auto; discriminate.
  - split; [reflexivity|]. split; [reflexivity|]. cbn. rewrite map_mul_div.
    repeat split; auto; discriminate.
Qed.
Lemma units_bad_lemma v s : v_units v = OtherUnits s ->
  to_MeV v = Raise NotImplementedErr /\ to_keV v = Raise NotImplementedErr.
Proof. unfold to_MeV, to_keV. now intros ->. Qed.

(* --- cumulative --- *)
Lemma cumsum_from_nth l acc n : (n < length l)%nat ->
  nth n (cumsum_from acc l) 0 = acc + qsum (firstn (S n) l).
Proof.
  revert acc n. induction l as [|x l IH]; intros acc n Hn; cbn in Hn; [lia|].
  destruct n as [|n]; cbn.
  - ring.
  - rewrite IH by lia. cbn. ring.
Qed.
Lemma cumsum_from_length acc l : length (cumsum_from acc l) = length l.
Proof. revert acc. induction l; intros; cbn; auto. Qed.
Lemma cumulative_lemma sqrtf v f v' : cumulative sqrtf v f = Ok v' ->
  exists c, cum_factor_val v f = Ok c /\
  length (v_values v') = length (v_values v) /\ v_E v' = v_E v /\ v_units v' = v_units v /\
  forall n, (n < length (v_values v))%nat -> vget (v_values v') n = c * prefix_sum (v_values v) (S n).
Proof.
  unfold cumulative. destruct (cum_factor_val v f) as [c|]; [|discriminate]. cbn.
  intros H. injection H as <-. cbn. exists c. split; [reflexivity|].
  rewrite map_length. unfold cumsum. rewrite cumsum_from_length. repeat split.
  intros n Hn. unfold vget. rewrite (nth_indep _ 0 ((fun x => x * c) 0)) by (now rewrite map_length, cumsum_from_length).
  rewrite (map_nth (fun x => x * c)). unfold cumsum. rewrite cumsum_from_nth by assumption. unfold prefix_sum.
  change (match v_values v with [] => [] | a :: l => a :: firstn n l end) with (firstn (S n) (v_values v)). ring.
Qed.
Lemma cumulative_std_lemma sqrtf v f v' : cumulative sqrtf v f = Ok v' ->
  match v_std v, v_std v' with
  | None, None => True
  | Some s, Some s' => exists c, cum_factor_val v f = Ok c /\ length s' = length s /\
      forall n, (n < length s)%nat -> vget s' n = sqrtf (prefix_sum (map (fun x => x * x) s) (S n)) * c
  | _, _ => False
  end.
Proof.
  unfold cumulative. destruct (cum_factor_val v f) as [c|]; [|discriminate]. cbn [rbind]. intros H. injection H as <-. cbn [v_std].
  destruct (v_std v) as [s|]; [|exact I]. cbn [option_map]. exists c. split; [reflexivity|]. unfold cumsum.
  split; [now rewrite map_length, cumsum_from_length, map_length|]. intros n Hn. unfold vget.
  rewrite (map_nth_in _ _ _ 0) by (now rewrite cumsum_from_length, map_length).
  rewrite cumsum_from_nth by (now rewrite map_length). do 2 f_equal. unfold prefix_sum. ring.
Qed.
Lemma prefix_sum_all l : prefix_sum l (length l) = qsum l.
Proof. unfold prefix_sum. now rewrite firstn_all. Qed.
Lemma prefix_sum_mono l n : (forall x, In x l -> 0 <= x) -> prefix_sum l n <= prefix_sum l (S n).
Proof.
  intros H. unfold prefix_sum. revert n. induction l as [|x l IH]; intros n.
  - now rewrite !firstn_nil.
  - destruct n as [|n].
    + cbn. assert (0 <= x) by (apply H; now left). qlra.
    + rewrite !firstn_cons. cbn [qsum].
      assert (qsum (firstn n l) <= qsum (firstn (S n) l)) by (apply IH; intros; apply H; now right). qlra.
Qed.
Lemma diffs_all E c : forallb (fun d => qeqb d c) (diffs E) = true <->
  forall i, (S i < length E)%nat -> nth (S i) E 0 - nth i E 0 = c.
Proof.
  induction E as [|x [|y t] IH].
  - split; [intros _ i Hi; cbn in Hi; lia|reflexivity].
  - split; [intros _ i Hi; cbn in Hi; lia|reflexivity].
  - change (diffs (x :: y :: t)) with ((y - x) :: diffs (y :: t)). cbn [forallb].
    rewrite andb_true_iff, IH, qeqb_eq. split.
    + intros [H1 H2] [|i] Hi; [exact H1|]. cbn [length] in Hi.
      change (nth (S (S i)) (x :: y :: t) 0) with (nth (S i) (y :: t) 0).
      change (nth (S i) (x :: y :: t) 0) with (nth i (y :: t) 0). apply H2. cbn. lia.
    + intros H. split; [apply (H O); cbn; lia|]. intros i Hi. apply (H (S i)). cbn in *. lia.
Qed.
Lemma cum_factor_lemma v f c : cum_factor_val v f = Ok c <->
  match f with
  | FNone => c = 1
  | FNum q => c = q
  | FStr s => lower s = "de"%string /\ (2 <= length (v_E v))%nat /\
              c = nth 1 (v_E v) 0 - nth 0 (v_E v) 0 /\
              forall i, (S i < length (v_E v))%nat -> nth (S i) (v_E v) 0 - nth i (v_E v) 0 = c
  end.
Proof.
  destruct f as [|q|s]; cbn; try (split; [now intros [= <-]|now intros ->]).
  destruct (String.eqb_spec (lower s) "de"%string) as [Hs|Hs].
  2:{ split; [discriminate|]. now intros (? & _). }
  destruct (v_E v) as [|x [|y t]] eqn:HE.
  { split; [discriminate|]. cbn. intros (_ & ? & _). lia. }
  { split; [discriminate|]. cbn. intros (_ & ? & _). lia. }
  destruct (forallb _ _) eqn:Ef.
  - rewrite diffs_all in Ef. split.
    + intros [= <-]. repeat split; auto. cbn. lia.
    + intros (_ & _ & -> & _). reflexivity.
  - split; [discriminate|]. intros (_ & _ & -> & H). exfalso.
    assert (forallb (fun d => qeqb d (y - x)) (diffs (x :: y :: t)) = true) by (now apply diffs_all).
    congruence.
Qed.

(* --- closest --- *)
Lemma sorted_b_lemma l : sorted_b l = true <-> nondecreasing l.
Proof.
  split.
  - induction l as [|x [|y t] IH]; intros H.
    + constructor.
    + repeat constructor.
    + change (sorted_b (x :: y :: t)) with (qleb x y && sorted_b (y :: t)) in H.
      apply andb_true_iff in H as [H1 H2]. apply qleb_le in H1. specialize (IH H2).
      constructor; [assumption|]. constructor; [assumption|].
      apply Forall_forall. intros z Hz. inversion IH as [|? ? _ Hf]; subst.
      rewrite Forall_forall in Hf. specialize (Hf z Hz). qlra.
  - induction l as [|x [|y t] IH]; intros H; [reflexivity..|].
    change (sorted_b (x :: y :: t)) with (qleb x y && sorted_b (y :: t)).
    inversion H as [|? ? Hs Hf]; subst. apply andb_true_iff. split.
    + apply qleb_le. rewrite Forall_forall in Hf. apply Hf. now left.
    + now apply IH.
Qed.

Lemma searchsorted_bin l e s i : nondecreasing l -> in_bin l s e i -> searchsorted l e s = S i.
Proof.
  intros Hs [Hi Hb].
  assert (Hm : forall a b, (a <= b < length l)%nat -> nth a l 0 <= nth b l 0).
  { intros a b Hab. destruct (Nat.eq_dec a b) as [->|]; [auto|]. apply (SSorted_nth _ _ 0 Hs). lia. }
  unfold searchsorted. apply (cnt_split _ _ _ 0); [lia| |].
  - intros j Hj. assert (nth j l 0 <= nth i l 0) by (apply Hm; lia).
    destruct s; [apply qltb_lt|apply qleb_le]; destruct Hb; qlra.
  - intros j Hj. assert (nth (S i) l 0 <= nth j l 0) by (apply Hm; lia).
    destruct s; [apply qltb_ge|apply qleb_gt]; destruct Hb; qlra.
Qed.
Lemma searchsorted_nobin l e s : nondecreasing l -> (forall i, ~ in_bin l s e i) ->
  searchsorted l e s = 0%nat \/ searchsorted l e s = length l.
Proof.
  intros Hs Hno. destruct (Nat.eq_dec (searchsorted l e s) 0) as [|H0]; [auto|]. right.
  destruct (Nat.eq_dec (searchsorted l e s) (length l)) as [|H1]; [auto|]. exfalso.
  assert (Hle : (searchsorted l e s <= length l)%nat) by apply filter_length_le'.
  set (p := fun x => match s with SideLeft => qltb x e | SideRight => qleb x e end).
  set (k := searchsorted l e s) in *.
  (* p is a prefix of the sorted list, of length k *)
  assert (Hp : forall j, (j < length l)%nat -> p (nth j l 0) = (j <? k)%nat).
  { assert (Hdn : forall x y, x <= y -> p y = true -> p x = true).
    { intros x y Hxy. unfold p. destruct s; [rewrite !qltb_lt|rewrite !qleb_le]; intros; qlra. }
    assert (Hk : k = length (filter p l)) by reflexivity.
    clear -Hs Hdn Hk. rewrite Hk. clear Hk. induction Hs as [|x l Hs IH Hf]; intros j Hj; cbn in Hj; [lia|].
    rewrite Forall_forall in Hf. cbn [filter]. destruct (p x) eqn:Px.
    - destruct j as [|j]; cbn [nth length]; [exact Px|]. rewrite IH by lia. reflexivity.
    - assert (filter p l = []).
      { apply filter_none. intros y Hy. destruct (p y) eqn:Py; [|reflexivity].
        assert (p x = true) by (apply (Hdn x y); auto). congruence. }
      rewrite H in *. destruct j as [|j]; cbn [nth length]; [exact Px|]. now rewrite IH by lia. }
  apply (Hno (k - 1)%nat). split; [lia|].
  assert (P1 := Hp (k - 1)%nat ltac:(lia)). assert (P2 := Hp (S (k - 1)) ltac:(lia)).
  rewrite (proj2 (Nat.ltb_lt _ _)) in P1 by lia. rewrite (proj2 (Nat.ltb_ge _ _)) in P2 by lia.
  unfold p in P1, P2. destruct s.
  - now rewrite qltb_lt in P1; rewrite qltb_ge in P2.
  - now rewrite qleb_le in P1; rewrite qleb_gt in P2.
Qed.

Lemma closest_entry l vals e s : nondecreasing l -> length vals = length l ->
  (forall i, in_bin l s e i -> py_index (vals ++ [0]) (closest_index l e s) = Ok (vget vals i)) /\
  ((forall i, ~ in_bin l s e i) -> py_index (vals ++ [0]) (closest_index l e s) = Ok 0).
Proof.
  intros Hs Hl. unfold closest_index. split.
  - intros i Hb. rewrite (searchsorted_bin _ _ _ _ Hs Hb). destruct Hb as [Hi _].
    destruct (Nat.leb_spec (length l) (S i)); [lia|].
    replace (Z.of_nat (S i) - 1)%Z with (Z.of_nat i) by lia.
    rewrite (py_index_nat _ _ 0) by (rewrite app_length; cbn; lia).
    rewrite app_nth1 by lia. reflexivity.
  - intros Hno. assert (E : (if (length l <=? searchsorted l e s)%nat then 0 else Z.of_nat (searchsorted l e s))%Z = 0%Z).
    { destruct (searchsorted_nobin _ _ _ Hs Hno) as [->| ->].
      - now destruct (length l <=? 0)%nat.
      - now rewrite Nat.leb_refl. }
    rewrite E. unfold py_index. cbn [Z.sub Z.add Z.opp Z.ltb Z.compare].
    rewrite app_length. cbn [length].
    destruct (Z.leb_spec 0 (Z.of_nat (length vals + 1) + -1)); [|lia].
    destruct (Z.ltb_spec (Z.of_nat (length vals + 1) + -1) (Z.of_nat (length vals + 1))); [|lia]. cbn.
    replace (Z.to_nat (Z.of_nat (length vals + 1) + -1)) with (length vals) by lia.
    rewrite nth_error_app2, Nat.sub_diag by lia. reflexivity.
Qed.
