From Verif Require Import PyBase Axis MatrixModel VectorModel ArithModel CalibModel DecompModel CutSpec IndexProofs CutProofs CheckProofs ExtractorModel ExtractorSpec.

Lemma arith_length a d n : length (arith a d n) = n. Proof. apply tab_length. Qed.
Lemma arith_nth a d n i : (i < n)%nat -> vget (arith a d n) i = a + qnat i * d.
Proof. intros H. unfold vget, arith. now rewrite nth_tab. Qed.
Lemma arith_index a d n i : (i < n)%nat -> py_index (arith a d n) (Z.of_nat i) = Ok (a + qnat i * d).
Proof.
  intros H. unfold py_index. rewrite arith_length. destruct (Z.ltb_spec (Z.of_nat i) 0); [lia|].
  destruct (Z.leb_spec 0 (Z.of_nat i)); [|lia]. destruct (Z.ltb_spec (Z.of_nat i) (Z.of_nat n)); [|lia]. cbn [andb].
  rewrite Nat2Z.id. rewrite (nth_error_nth' _ 0) by now rewrite arith_length. change (nth i (arith a d n) 0) with (vget (arith a d n) i).
  now rewrite arith_nth.
Qed.
Lemma arith_index0 a d n : (0 < n)%nat -> py_index (arith a d n) 0 = Ok (a + qnat 0 * d).
Proof. apply (arith_index a d n 0). Qed.
Lemma arith_index1 a d n : (1 < n)%nat -> py_index (arith a d n) 1 = Ok (a + qnat 1 * d).
Proof. apply (arith_index a d n 1). Qed.
Lemma qnat_mul_mono d i j : 0 <= d -> (i <= j)%nat -> qnat i * d <= qnat j * d.
Proof. intros D H. apply qnat_le in H. qnra. Qed.
Lemma arith_min a d n : 0 < d -> (0 < n)%nat -> py_min (arith a d n) = Ok a.
Proof.
  intros D N. apply py_min_is.
  - unfold arith. apply in_tab. exists 0%nat. split; [easy|]. rewrite qnat_0. ring.
  - intros y H. apply in_tab in H. destruct H as (i & _ & ->). pose proof (qnat_nonneg i). assert (0 <= qnat i * d) by (apply Qcmult_nonneg; qlra). qlra.
Qed.
Lemma arith_max a d n : 0 < d -> (0 < n)%nat -> py_max (arith a d n) = Ok (a + qnat (n - 1) * d).
Proof.
  intros D N. apply py_max_is.
  - unfold arith. apply in_tab. exists (n - 1)%nat. split; [lia|reflexivity].
  - intros y H. apply in_tab in H. destruct H as (i & Hi & ->). assert (qnat i * d <= qnat (n - 1) * d) by (apply qnat_mul_mono; [qlra|lia]). qlra.
Qed.
Lemma qceil_qz z : qceil (qz z) = z.
Proof.
  destruct (qceil_spec (qz z)) as [A B]. apply (proj2 (qz_le _ _)) in B.
  assert (C : qz (qceil (qz z)) < qz (z + 1)) by (rewrite qz_add, qz_1; qlra). apply (proj2 (qz_lt _ _)) in C. lia.
Qed.
Lemma isclose_refl x : isclose x x = true.
Proof.
  unfold isclose. apply qleb_le. replace (x - x) with 0 by ring.
  assert (0 <= qn 1 100000000) by (apply qleb_le; reflexivity). assert (0 <= qn 1 100000) by (apply qleb_le; reflexivity).
  assert (0 <= qabs x) by (destruct (qabs_spec x) as [[? ->]|[? ->]]; qlra).
  assert (0 <= qn 1 100000 * qabs x) by (apply Qcmult_nonneg; assumption).
  destruct (qabs_spec 0) as [[? ->]|[? ?]]; qlra.
Qed.
Lemma arith_increasing a d n : 0 < d -> increasing (arith a d n).
Proof.
  intros D. apply (nth_SSorted Qclt _ 0). intros i j Hij. rewrite arith_length in Hij.
  change (vget (arith a d n) i < vget (arith a d n) j). rewrite !arith_nth by lia.
  assert (H : qnat i < qnat j) by (apply qnat_lt; lia). qnra.
Qed.

Lemma grid_lemma x0 g0 d nr nc : 0 < d -> (2 <= nr)%nat -> (2 <= nc)%nat ->
  nld_grid (arith x0 d nr) (arith g0 d nc) = Ok (arith (x0 - (g0 + qnat (nc - 1) * d)) d (nr + nc - 1)).
Proof.
  intros D R C. unfold nld_grid. rewrite !(arith_index1 _ _ nr), !(arith_index0 _ _ nr), !(arith_index1 _ _ nc), !(arith_index0 _ _ nc) by lia. cbn [rbind].
  replace (x0 + qnat 1 * d - (x0 + qnat 0 * d)) with d by (rewrite qnat_0, qnat_1; ring).
  replace (g0 + qnat 1 * d - (g0 + qnat 0 * d)) with d by (rewrite qnat_0, qnat_1; ring).
  rewrite isclose_refl. cbn [negb]. rewrite !arith_min, !arith_max by (assumption || lia). cbn [rbind].
  destruct (qeqb_spec d 0) as [E|E]; [qlra|].
  assert (Q : (x0 + qnat (nr - 1) * d - g0 - (x0 - (g0 + qnat (nc - 1) * d))) / d = qz (Z.of_nat (nr + nc - 2))).
  { change (qz (Z.of_nat (nr + nc - 2))) with (qnat (nr + nc - 2)). replace (nr + nc - 2)%nat with (nr - 1 + (nc - 1))%nat by lia.
    rewrite qnat_add. field. exact E. }
  rewrite Q, qceil_qz. unfold linspace.
  destruct (Z.ltb_spec (Z.of_nat (nr + nc - 2) + 1) 0); [lia|]. f_equal.
  replace (Z.to_nat (Z.of_nat (nr + nc - 2) + 1)) with (nr + nc - 1)%nat by lia. apply tab_ext. intros i Hi. f_equal. f_equal.
  replace (Z.of_nat (nr + nc - 2) + 1 - 1)%Z with (Z.of_nat (nr + nc - 2)) by lia. rewrite <- Q. field. split; [exact E|].
  intros Z0.
  assert (P : 0 < qz (Z.of_nat (nr + nc - 2))) by (rewrite <- qz_0; apply (proj1 (qz_lt _ _)); lia). rewrite <- Q in P.
  replace (x0 + qnat (nr - 1) * d - g0 - (x0 - (g0 + qnat (nc - 1) * d))) with (0:Qc) in P.
  unfold Qcdiv in P. replace (0 * / d) with 0 in P by ring. qlra.
Qed.
(* bin of the grid <-> diagonal *)
Lemma grid_diagonal x0 g0 d nr nc i j : (i < nr)%nat -> (j < nc)%nat ->
  vget (arith (x0 - (g0 + qnat (nc - 1) * d)) d (nr + nc - 1)) (nc - 1 + i - j) = vget (arith x0 d nr) i - vget (arith g0 d nc) j.
Proof.
  intros I J. rewrite !arith_nth by lia. rewrite (qnat_sub (nc - 1 + i) j) by lia. rewrite qnat_add. ring.
Qed.
Lemma grid_diagonal_iff x0 g0 d nr nc i j k : 0 < d -> (i < nr)%nat -> (j < nc)%nat -> (k < nr + nc - 1)%nat ->
  (vget (arith (x0 - (g0 + qnat (nc - 1) * d)) d (nr + nc - 1)) k = vget (arith x0 d nr) i - vget (arith g0 d nc) j <-> k = (nc - 1 + i - j)%nat).
Proof.
  intros D I J K. split.
  - rewrite <- (grid_diagonal x0 g0 d nr nc i j I J). rewrite !arith_nth by lia. intros H.
    assert (E : qnat k = qnat (nc - 1 + i - j)).
    { assert (X : qnat k * d = qnat (nc - 1 + i - j) * d) by qlra. 
      replace (qnat k) with (qnat k * d / d) by (field; intros ->; qlra). rewrite X. field. intros ->; qlra. }
    unfold qnat in E. apply qz_inj in E. lia.
  - intros ->. apply grid_diagonal; assumption.
Qed.

(* counts *)
Lemma rev_map_zrange {A} (f : Z -> A) (lo hi : Z) n : (hi - lo = Z.of_nat n)%Z ->
  rev (map f (zrange lo hi)) = tab n (fun k => f (hi - 1 - Z.of_nat k)%Z).
Proof.
  intros E. unfold zrange. rewrite E, Nat2Z.id, map_map. apply (list_eq_nth _ _ (f 0%Z)).
  - now rewrite rev_length, map_length, seq_length, tab_length.
  - intros i Hi. rewrite rev_length, map_length, seq_length in Hi. rewrite nth_tab by assumption.
    rewrite rev_nth by (now rewrite map_length, seq_length). rewrite map_length, seq_length.
    rewrite (map_nth_in _ _ _ 0%nat) by (rewrite seq_length; lia). rewrite seq_nth by lia. f_equal. lia.
Qed.
Lemma nld_counts_nth a Exa Ega res nr nc k : rect (a_rows a) nr nc -> a_nc a = nc -> (1 <= nr)%nat -> (k < nr + nc - 1)%nat ->
  vget (fst (constraining_counts a Exa Ega res)) k =
  sumn nr (fun i => sumn nc (fun j => if Nat.eqb k (nc - 1 + i - j) then kept (a_rows a) Exa Ega res i j else 0)).
Proof.
  intros [R1 R2] C R K. unfold constraining_counts. cbv zeta. cbn [fst]. unfold a_nr. rewrite R1, C.
  rewrite (rev_map_zrange _ _ _ (nr + nc - 1)) by lia. unfold vget. rewrite nth_tab by assumption. unfold trace. rewrite qsum_tab.
  apply sumn_ext. intros i Hi. cbv zeta. set (f := kept _ _ _ _).
  destruct (Z.leb_spec 0 (Z.of_nat i + (Z.of_nat nc - 1 - Z.of_nat k))) as [A|A];
    [destruct (Z.ltb_spec (Z.of_nat i + (Z.of_nat nc - 1 - Z.of_nat k)) (Z.of_nat nc)) as [B|B]|]; cbn [andb].
  - symmetry. set (j0 := Z.to_nat (Z.of_nat i + (Z.of_nat nc - 1 - Z.of_nat k))). rewrite (sumn_single _ _ j0).
    + destruct (Nat.eqb_spec k (nc - 1 + i - j0)) as [E|E]; [reflexivity|]. exfalso. apply E. unfold j0. lia.
    + unfold j0. lia.
    + intros j Hj Hn. destruct (Nat.eqb_spec k (nc - 1 + i - j)) as [E|E]; [|reflexivity]. exfalso. apply Hn. unfold j0. lia.
  - symmetry. apply sumn_0. intros j Hj. destruct (Nat.eqb_spec k (nc - 1 + i - j)) as [E|E]; [lia|reflexivity].
  - symmetry. apply sumn_0. intros j Hj. destruct (Nat.eqb_spec k (nc - 1 + i - j)) as [E|E]; [lia|reflexivity].
Qed.
Lemma counts_lengths a Exa Ega res nr nc : rect (a_rows a) nr nc -> a_nc a = nc -> (1 <= nr)%nat ->
  length (fst (constraining_counts a Exa Ega res)) = (nr + nc - 1)%nat /\ length (snd (constraining_counts a Exa Ega res)) = nc.
Proof.
  intros [R1 R2] C R. unfold constraining_counts. cbv zeta. cbn [fst snd]. unfold a_nr. rewrite R1, C.
  rewrite (rev_map_zrange _ _ _ (nr + nc - 1)) by lia. now rewrite !tab_length.
Qed.
Lemma mget_nonneg v nr nc i j : rect v nr nc -> counts_nonneg v -> (i < nr)%nat -> (j < nc)%nat -> 0 <= mget v i j.
Proof.
  intros [R1 R2] P I J. unfold mget. assert (X : In (nth i v []) v) by (apply nth_In; lia).
  apply (P _ X). apply nth_In. rewrite (R2 _ X). exact J.
Qed.
Lemma kept_nonneg v Exa Ega res nr nc i j : rect v nr nc -> counts_nonneg v -> (i < nr)%nat -> (j < nc)%nat -> 0 <= kept v Exa Ega res i j.
Proof. intros. unfold kept. destruct (qltb _ _); [qlra|]. eapply mget_nonneg; eassumption. Qed.
Lemma nld_count_zero m res x0 g0 d nr nc k : equal_width m x0 g0 d nr nc -> counts_nonneg (a_rows (values m)) -> (k < nr + nc - 1)%nat ->
  (vget (fst (constraining_counts (values m) (Ex m) (Eg m) res)) k = 0 <->
   forall i j, (i < nr)%nat -> (j < nc)%nat -> inside m res i j -> k = (nc - 1 + i - j)%nat -> mget (a_rows (values m)) i j = 0).
Proof.
  intros (E1 & E2 & R & C & D & NR & NC) P K. rewrite (nld_counts_nth _ _ _ _ nr nc) by (assumption || lia).
  assert (PP : forall i j, (i < nr)%nat -> (j < nc)%nat -> 0 <= (if Nat.eqb k (nc - 1 + i - j) then kept (a_rows (values m)) (Ex m) (Eg m) res i j else 0)).
  { intros. destruct (Nat.eqb _ _); [eapply kept_nonneg; eassumption|qlra]. }
  split.
  - intros S0 i j I J IN ->.
    assert (S1 : sumn nc (fun j0 => if Nat.eqb (nc - 1 + i - j) (nc - 1 + i - j0) then kept (a_rows (values m)) (Ex m) (Eg m) res i j0 else 0) = 0).
    { apply (sumn_nonneg_0 nr (fun i0 => sumn nc (fun j0 => if Nat.eqb (nc - 1 + i - j) (nc - 1 + i0 - j0) then kept (a_rows (values m)) (Ex m) (Eg m) res i0 j0 else 0))); [|exact S0|exact I].
      intros i0 Hi0. apply sumn_nonneg. intros j0 Hj0. apply PP; assumption. }
    pose proof (sumn_nonneg_0 nc _ (fun j0 Hj0 => PP i j0 I Hj0) S1 j J) as X. cbv beta in X. rewrite Nat.eqb_refl in X.
    unfold kept in X. destruct (qltb_spec (vget (Ex m) i + vget res i + (vget (Eg m) 1 - vget (Eg m) 0) / qz 2) (vget (Eg m) j)) as [Y|Y]; [|exact X].
    unfold inside in IN. qlra.
  - intros H. apply sumn_0. intros i I. apply sumn_0. intros j J. destruct (Nat.eqb_spec k (nc - 1 + i - j)) as [E|E]; [|reflexivity].
    unfold kept. destruct (qltb_spec (vget (Ex m) i + vget res i + (vget (Eg m) 1 - vget (Eg m) 0) / qz 2) (vget (Eg m) j)) as [Y|Y]; [reflexivity|].
    apply H; assumption.
Qed.
Lemma T_count_zero m res nr nc j : rect (a_rows (values m)) nr nc -> a_nc (values m) = nc -> counts_nonneg (a_rows (values m)) -> (j < nc)%nat ->
  (vget (snd (constraining_counts (values m) (Ex m) (Eg m) res)) j = 0 <->
   forall i, (i < nr)%nat -> inside m res i j -> mget (a_rows (values m)) i j = 0).
Proof.
  intros R C P J. unfold constraining_counts. cbv zeta. cbn [snd]. unfold vget. rewrite C, nth_tab by assumption. unfold a_nr.
  rewrite (proj1 R), qsum_tab. split.
  - intros S0 i I IN.
    pose proof (sumn_nonneg_0 nr _ (fun i0 Hi0 => kept_nonneg _ (Ex m) (Eg m) res nr nc i0 j R P Hi0 J) S0 i I) as X. cbv beta in X.
    unfold kept in X. destruct (qltb_spec (vget (Ex m) i + vget res i + (vget (Eg m) 1 - vget (Eg m) 0) / qz 2) (vget (Eg m) j)) as [Y|Y]; [|exact X].
    unfold inside in IN. qlra.
  - intros H. apply sumn_0. intros i I. unfold kept.
    destruct (qltb_spec (vget (Ex m) i + vget res i + (vget (Eg m) 1 - vget (Eg m) 0) / qz 2) (vget (Eg m) j)) as [Y|Y]; [reflexivity|]. apply H; assumption.
Qed.
