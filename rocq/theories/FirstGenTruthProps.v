(* C109: cascades whose decay does not depend on how a level was populated.  The true primary
   spectra are a fixed point of the first-generation method with the total multiplicity; what
   the method returns for other weights; what every fixed point satisfies. *)
From Verif Require Import PyBase Axis RebinModel RebinSpec RebinProofs MatrixModel MatrixSpec CutSpec VectorModel VectorSpec ArithModel ArithProofs VectorOpsProofs FillProofs SmoothProofs
  FirstGenModel FirstGenSpec FirstGenProofs FirstGenApplyProofs AllgenProofs ExtractorSpec UnfoldModel.

(* ---------------------------------------------------------------- specification *)
(* P i j: probability that the first quantum emitted from Ex bin i has the energy of j bins; it
   leads to bin i - j.  Bin 0 is the ground state, every other bin decays. *)
Definition primary (n : nat) (P : nat -> nat -> Qc) : Prop := forall i, (i < n)%nat ->
  (forall j, 0 <= P i j) /\ P i 0%nat = 0 /\ (forall j, (i < j)%nat -> P i j = 0) /\ ((0 < i)%nat -> sumn (S i) (P i) = 1).
(* A i j: mean number of quanta of the energy of j bins in a whole cascade from bin i *)
Definition all_generations (n : nat) (P A : nat -> nat -> Qc) : Prop := forall i j, (i < n)%nat ->
  A i j = P i j + sumn i (fun k => P i (i - k)%nat * A k j).
(* the matrix of all quanta of pop i cascades from every bin i; both axes start at 0 *)
Definition cascade_matrix (m : matrix) (d : Qc) (n nc : nat) (pop : nat -> Qc) (A : nat -> nat -> Qc) : Prop :=
  consistent m /\ Ex m = arith 0 d n /\ Eg m = arith 0 d nc /\ 0 < d /\ (2 <= n)%nat /\ (n <= nc)%nat /\
  (forall i, (i < n)%nat -> 0 < pop i) /\
  (forall i j, (i < n)%nat -> (j < nc)%nat -> aget (values m) i j = pop i * A i j).
(* the array of the primary quanta *)
Definition primary_array (n nc : nat) (pop : nat -> Qc) (P : nat -> nat -> Qc) (H : list (list Qc)) : Prop :=
  length H = n /\ (forall r, In r H -> length r = nc) /\ forall i j, (i < n)%nat -> (j < nc)%nat -> mget H i j = pop i * P i j.
(* the weights are the probabilities of decay *)
Definition true_weights (n : nat) (P : nat -> nat -> Qc) (W : list (list Qc)) : Prop :=
  decay_weights n W /\ forall i k, (i < n)%nat -> (k < i)%nat -> mget W i k = P i (i - k)%nat.
(* multiplicity times number of cascades is the number of quanta *)
Definition right_multiplicity (g : fgen) (m : matrix) (n : nat) (pop : nat -> Qc) : Prop :=
  forall i, (i < n)%nat -> vget (multiplicity g m) i * pop i = counts_of m i.

(* ---------------------------------------------------------------- sums *)
Lemma Qcmult_le_mono a b c : 0 <= c -> a <= b -> c * a <= c * b.
Proof. intros C H. assert (0 <= c * (b - a)) by (apply Qcmult_nonneg; qlra). replace (c * (b - a)) with (c * b - c * a) in H0 by ring. qlra. Qed.
Lemma sumn_rev i f : sumn i (fun k => f (i - k)%nat) = sumn i (fun j => f (S j)).
Proof.
  induction i as [|i IH]; [reflexivity|]. rewrite sumn_S_l. cbn [sumn]. rewrite Nat.sub_0_r.
  rewrite (sumn_ext i (fun k => f (S i - S k)%nat) (fun k => f (i - k)%nat)) by reflexivity. rewrite IH. ring.
Qed.
Lemma P_sum n P i nc f : primary n P -> (i < n)%nat -> (n <= nc)%nat ->
  sumn nc (fun j => f j * P i j) = sumn i (fun k => f (i - k)%nat * P i (i - k)%nat).
Proof.
  intros HP Hi Hn. destruct (HP i Hi) as (_ & P0 & PZ & _). rewrite (sumn_rev i (fun j => f j * P i j)).
  rewrite (sumn_range nc 0 (S i) _); [|lia|intros j _ [J|J]; [lia|rewrite PZ by lia; ring]].
  rewrite sumn_S_l. cbn [Nat.add]. rewrite P0. ring.
Qed.
Lemma P_total n P i nc : primary n P -> (i < n)%nat -> (n <= nc)%nat -> (0 < i)%nat ->
  sumn nc (P i) = 1 /\ sumn i (fun k => P i (i - k)%nat) = 1.
Proof.
  intros HP Hi Hn I0. pose proof (P_sum n P i nc (fun _ => 1) HP Hi Hn) as E. destruct (HP i Hi) as (_ & P0 & PZ & P1).
  specialize (P1 I0). rewrite sumn_S_l, P0 in P1.
  assert (R : sumn i (fun k => P i (i - k)%nat) = 1) by (rewrite (sumn_rev i (P i)); rewrite <- P1; ring).
  split; [|exact R]. rewrite <- R. rewrite (sumn_ext nc (P i) (fun j => 1 * P i j)) by (intros; ring). rewrite E. apply sumn_ext. intros. ring.
Qed.
Lemma A_ground n P A j : primary n P -> all_generations n P A -> (0 < n)%nat -> A 0%nat j = 0.
Proof.
  intros HP HA H. rewrite (HA 0%nat j H). cbn [sumn]. destruct (HP 0%nat H) as (_ & P0 & PZ & _).
  destruct j; [rewrite P0; ring|]. rewrite PZ by lia. ring.
Qed.
Lemma A_nonneg n P A : primary n P -> all_generations n P A -> forall i j, (i < n)%nat -> 0 <= A i j.
Proof.
  intros HP HA i. induction i as [i IH] using lt_wf_ind. intros j Hi. rewrite (HA i j Hi). destruct (HP i Hi) as (NN & _).
  pose proof (NN j). assert (0 <= sumn i (fun k => P i (i - k)%nat * A k j)); [|qlra].
  apply sumn_nonneg. intros k Hk. pose proof (NN (i - k)%nat). pose proof (IH k Hk j ltac:(lia)). now apply Qcmult_nonneg.
Qed.
(* the energies of the quanta of a cascade add up to the excitation energy *)
Lemma A_energy n nc P A d : primary n P -> all_generations n P A -> (n <= nc)%nat ->
  forall i, (i < n)%nat -> sumn nc (fun j => qnat j * d * A i j) = qnat i * d.
Proof.
  intros HP HA Hn i. induction i as [i IH] using lt_wf_ind. intros Hi.
  rewrite (sumn_ext nc _ (fun j => qnat j * d * P i j + sumn i (fun k => P i (i - k)%nat * (qnat j * d * A k j)))).
  2:{ intros j _. rewrite (HA i j Hi). rewrite Qcmult_plus_distr_r. f_equal. rewrite <- sumn_scal. apply sumn_ext. intros k _. ring. }
  rewrite sumn_add, sumn_swap.
  rewrite (P_sum n P i nc (fun j => qnat j * d) HP Hi Hn).
  rewrite (sumn_ext i (fun k => sumn nc _) (fun k => P i (i - k)%nat * (qnat k * d))) by (intros k Hk; rewrite sumn_scal, IH by lia; reflexivity).
  rewrite <- sumn_add.
  rewrite (sumn_ext i _ (fun k => qnat i * d * P i (i - k)%nat)).
  2:{ intros k Hk. assert (Q : qnat (i - k) = qnat i - qnat k) by (replace (qnat i) with (qnat ((i - k) + k)) by (f_equal; lia); rewrite qnat_add; ring). rewrite Q. ring. }
  rewrite sumn_scal. destruct (Nat.eq_dec i 0) as [-> | N]; [cbn; rewrite qnat_0; ring|].
  rewrite (proj2 (P_total n P i nc HP Hi Hn ltac:(lia))). ring.
Qed.
Lemma A_counts n nc P A : primary n P -> all_generations n P A -> (n <= nc)%nat ->
  forall i, (0 < i < n)%nat -> 0 < sumn nc (A i).
Proof.
  intros HP HA Hn i Hi. pose proof (proj1 (P_total n P i nc HP ltac:(lia) Hn ltac:(lia))) as T.
  assert (sumn nc (P i) <= sumn nc (A i)); [|rewrite T in *; qlra].
  apply sumn_le. intros j _. rewrite (HA i j ltac:(lia)).
  assert (0 <= sumn i (fun k => P i (i - k)%nat * A k j)); [|qlra].
  apply sumn_nonneg. intros k Hk. apply Qcmult_nonneg; [apply (HP i); lia|]. apply (A_nonneg n P A HP HA). lia.
Qed.

(* ---------------------------------------------------------------- aligned axes *)
Lemma arith_len a d n : length (arith a d n) = n. Proof. apply tab_length. Qed.
Lemma arith_nth a d n i : (i < n)%nat -> nth i (arith a d n) 0 = a + qnat i * d.
Proof. intros H. unfold arith. now rewrite nth_tab. Qed.
Lemma arith_width a d n : (2 <= n)%nat -> width (arith a d n) = d.
Proof. intros H. unfold width. rewrite !arith_nth by lia. rewrite qnat_0, qnat_1. ring. Qed.
Lemma arith_equidistant a d n : (2 <= n)%nat -> 0 < d -> equidistant (arith a d n).
Proof.
  intros H D. split; [now rewrite arith_len|]. rewrite arith_width by assumption. split; [exact D|]. intros i Hi. rewrite arith_len in Hi.
  rewrite !arith_nth by lia. rewrite qnat_0. ring.
Qed.
Lemma rebin_aligned d n nc r : 0 < d -> (2 <= n)%nat -> (n <= nc)%nat -> length r = nc ->
  rebin_1D r (arith 0 d nc) (arith 0 d n) = Ok (tab n (vget r)).
Proof.
  intros D N2 Hn L. assert (E1 := arith_equidistant 0 d nc ltac:(lia) D). assert (E2 := arith_equidistant 0 d n N2 D).
  rewrite rebin_1D_ok; [|assumption|assumption|now rewrite arith_len]. f_equal. rewrite arith_len. apply tab_ext. intros i Hi.
  unfold rebin_spec. rewrite !arith_len, !arith_width by lia.
  assert (B : forall l k, (k < l)%nat -> (2 <= l)%nat -> bin_lo (arith 0 d l) k = qnat k * d - d / qz 2 /\ bin_hi (arith 0 d l) k = qnat k * d + d / qz 2).
  { intros l k Hk Hl. unfold bin_lo, bin_hi. rewrite arith_width, arith_nth by assumption. split; ring. }
  assert (HD : d / qz 2 + d / qz 2 = d) by (pose proof (qz2_half d); qlra).
  destruct (B n i Hi N2) as [-> ->].
  rewrite (sumn_single nc _ i); [|lia|].
  - destruct (B nc i ltac:(lia) ltac:(lia)) as [-> ->]. rewrite part_in_full by qlra.
    replace (qnat i * d + d / qz 2 - (qnat i * d - d / qz 2)) with d by qlra. field. intros Z. rewrite Z in D. qlra.
  - intros j Hj Ne. destruct (B nc j ltac:(lia) ltac:(lia)) as [-> ->].
    assert (Z : part_in (qnat i * d - d / qz 2) (qnat i * d + d / qz 2) (qnat j * d - d / qz 2) (qnat j * d + d / qz 2) = 0).
    { destruct (Nat.lt_ge_cases i j) as [Hij|Hij].
      - assert (Q : qnat (S i) <= qnat j) by (apply (proj1 (qnat_le _ _)); lia). rewrite qnat_S in Q. apply part_in_none_r; [|qlra|qlra].
        assert (qnat i * d + d <= qnat j * d) by qnra. qlra.
      - assert (Q : qnat (S j) <= qnat i) by (apply (proj1 (qnat_le _ _)); lia). rewrite qnat_S in Q. apply part_in_none_l; [|qlra|qlra].
        assert (qnat j * d + d <= qnat i * d) by qnra. qlra. }
    rewrite Z. unfold Qcdiv. ring.
Qed.
Lemma rebin2_aligned d n nc x H : 0 < d -> (2 <= n)%nat -> (n <= nc)%nat -> (forall r, In r H -> length r = nc) ->
  rebin_2D x H (arith 0 d nc) (arith 0 d n) 1 = Ok (map (fun r => tab n (vget r)) H).
Proof.
  intros D N2 Hn. unfold rebin_2D. change (1 =? 0)%Z with false. change (1 =? 1)%Z with true. cbv iota.
  induction H as [|r H IH]; intros L; [reflexivity|]. cbn [rmapm map]. rewrite rebin_aligned by (try assumption; apply L; now left). cbn [rbind].
  rewrite IH by (intros; apply L; now right). reflexivity.
Qed.

(* ---------------------------------------------------------------- one step *)
Section Truth.
Variables (m : matrix) (d : Qc) (n nc : nat) (pop : nat -> Qc) (P A : nat -> nat -> Qc) (g : fgen) (N : list (list Qc)).
Hypothesis HP : primary n P.
Hypothesis HA : all_generations n P A.
Hypothesis HM : cascade_matrix m d n nc pop A.
Hypothesis HR : right_multiplicity g m n pop.
Hypothesis HN : mult_norm g m = Ok N.
Lemma t_lengths : length (Ex m) = n /\ length (Eg m) = nc /\ a_nc (values m) = nc /\ length (a_rows (values m)) = n.
Proof.
  destruct HM as (C & EX & EG & _). pose proof C as [(C1 & C2 & C3) _]. rewrite EX, EG, !arith_len in *. now rewrite C1, C2.
Qed.
Lemma t_counts i : (i < n)%nat -> counts_of m i = pop i * sumn nc (A i).
Proof.
  intros Hi. destruct HM as (C & EX & EG & _ & _ & _ & _ & V). pose proof C as [(C1 & C2 & C3) _]. destruct t_lengths as (L1 & L2 & L3 & L4).
  unfold counts_of. rewrite qsum_nth. rewrite C3 by (apply nth_In; lia). rewrite L2, <- sumn_scal. apply sumn_ext. intros j Hj.
  rewrite <- V by assumption. reflexivity.
Qed.
(* the norm between two rows is the ratio of the numbers of cascades *)
Lemma t_norm i k : (0 < i < n)%nat -> (0 < k < n)%nat -> mget N i k = pop i / pop k.
Proof.
  intros Hi Hk. destruct HM as (C & EX & EG & _ & _ & Hn & Hp & V). destruct t_lengths as (L1 & L2 & L3 & L4).
  destruct (mult_norm_lemma g m N C HN) as (_ & _ & F). rewrite F by lia.
  pose proof (HR i ltac:(lia)) as Mi. pose proof (HR k ltac:(lia)) as Mk. rewrite t_counts in * by lia.
  pose proof (A_counts n nc P A HP HA Hn i Hi) as Si. pose proof (A_counts n nc P A HP HA Hn k Hk) as Sk.
  pose proof (Hp i ltac:(lia)) as Pi. pose proof (Hp k ltac:(lia)) as Pk.
  set (mi := vget (multiplicity g m) i) in *. set (mk := vget (multiplicity g m) k) in *. rewrite t_counts by lia.
  set (si := sumn nc (A i)) in *. set (sk := sumn nc (A k)) in *.
  assert (pi0 : pop i <> 0) by (intros Z; rewrite Z in Pi; qlra). assert (pk0 : pop k <> 0) by (intros Z; rewrite Z in Pk; qlra).
  assert (si0 : si <> 0) by (intros Z; rewrite Z in Si; qlra). assert (sk0 : sk <> 0) by (intros Z; rewrite Z in Sk; qlra).
  assert (Ei : mi = si). { replace mi with (mi * pop i / pop i) by (field; exact pi0). rewrite Mi. field. exact pi0. }
  assert (Ek : mk = sk). { replace mk with (mk * pop k / pop k) by (field; exact pk0). rewrite Mk. field. exact pk0. }
  rewrite Ei, Ek. unfold div0. destruct (qeqb_spec (si * (pop k * sk)) 0) as [Z|_].
  - exfalso. apply Qcmult_integral in Z. destruct Z as [Z|Z]; [contradiction|]. apply Qcmult_integral in Z. destruct Z; contradiction.
  - field. auto.
Qed.
(* what is subtracted from row i for any weights *)
Lemma t_subtract W i j : decay_weights n W -> (i < n)%nat -> (j < nc)%nat ->
  aget (values m) i j - sumn n (fun k => mget N i k * mget W i k * 1 * aget (values m) k j) =
  pop i * (P i j - sumn i (fun k => (mget W i k - P i (i - k)%nat) * A k j)).
Proof.
  intros [LW HW] Hi Hj. destruct HM as (C & EX & EG & _ & _ & Hn & Hp & V). rewrite V by assumption. rewrite (HA i j Hi).
  destruct (HW i Hi) as (_ & _ & WZ & _).
  rewrite (sumn_range n 0 i); [|lia|intros k Hk [K|K]; [lia|rewrite WZ by lia; ring]]. cbn [Nat.add].
  rewrite (sumn_ext i (fun k => mget N i k * _ * 1 * _) (fun k => pop i * (mget W i k * A k j))).
  2:{ intros k Hk. rewrite V by lia. destruct (Nat.eq_dec k 0) as [-> | K0]; [rewrite (A_ground n P A j HP HA) by lia; ring|].
      rewrite t_norm by lia. pose proof (Hp k ltac:(lia)) as Pk. field. intros Z. rewrite Z in Pk. qlra. }
  rewrite (sumn_ext i (fun k => (mget W i k - _) * _) (fun k => mget W i k * A k j - P i (i - k)%nat * A k j)) by (intros; ring).
  rewrite sumn_sub, sumn_scal. ring.
Qed.
Lemma t_true_weights k Hr Wo : length Hr = n -> (forall i j, (i < n)%nat -> (j < n)%nat -> mget Hr i j = pop i * P i j) ->
  ((4 < k)%nat -> true_weights n P Wo) -> true_weights n P (fg_weights k n Hr Wo).
Proof.
  intros L V T. destruct HM as (C & EX & EG & _ & _ & Hn & Hp & _). split; [apply fg_weights_proper; [exact L|intros K; apply (T K)]|].
  intros i l Hi Hl. rewrite (weights_follow k n Hr Wo i l L) by (try assumption; intros K; apply (T K)). cbv zeta.
  destruct (HP i Hi) as (NN & _). pose proof (Hp i Hi) as Pi.
  set (c := if (4 <? k)%nat then qn 7 10 * pop i + qn 3 10 else pop i).
  assert (C0 : 0 < c) by (unfold c; destruct (4 <? k)%nat; [|exact Pi]; assert (0 < qn 7 10) by reflexivity; assert (0 < qn 3 10) by reflexivity; qnra).
  assert (B : forall l, (l < i)%nat -> clip0 (if (4 <? k)%nat then qn 7 10 * mget Hr i (i - l) + qn 3 10 * mget Wo i l else mget Hr i (i - l)) = c * P i (i - l)%nat).
  { intros q Hq. rewrite V by lia. unfold c. pose proof (NN (i - q)%nat) as Q.
    assert (E : (if (4 <? k)%nat then qn 7 10 * (pop i * P i (i - q)%nat) + qn 3 10 * mget Wo i q else pop i * P i (i - q)%nat) = c * P i (i - q)%nat).
    { unfold c. destruct (Nat.ltb_spec 4 k) as [K|K]; [|reflexivity]. rewrite (proj2 (T K)) by lia. ring. }
    rewrite E. fold c. unfold clip0. destruct (qltb_spec (c * P i (i - q)%nat) 0) as [X|_]; [|reflexivity].
    exfalso. apply (Qclt_not_le _ _ X). apply Qcmult_nonneg; [now apply Qclt_le_weak|exact Q]. }
  rewrite B by assumption. rewrite (sumn_ext i _ (fun l => c * P i (i - l)%nat)) by exact B. rewrite sumn_scal.
  rewrite (proj2 (P_total n P i nc HP Hi Hn ltac:(lia))). unfold div0. assert (c0 : c <> 0) by (intros Z; rewrite Z in C0; qlra).
  destruct (qeqb_spec (c * 1) 0) as [Z|_]; [exfalso; apply c0; rewrite <- Z; ring|]. field. exact c0.
Qed.
Lemma t_step k H Wo : primary_array n nc pop P H -> ((4 < k)%nat -> true_weights n P Wo) ->
  exists H' W', fg_step k H Wo N m None = Ok (H', W') /\ primary_array n nc pop P H' /\ true_weights n P W'.
Proof.
  intros (LH & RH & VH) T. pose proof HM as (C & EX & EG & D & N2 & Hn & Hp & V). destruct t_lengths as (L1 & L2 & L3 & L4).
  assert (R : rebin_2D (a_nc (values m)) H (Eg m) (Ex m) 1 = Ok (map (fun r => tab n (vget r)) H)) by (rewrite EX, EG; now apply rebin2_aligned).
  set (Hr := map (fun r => tab n (vget r)) H) in *.
  assert (LR : length Hr = n) by (unfold Hr; now rewrite map_length).
  assert (VR : forall i j, (i < n)%nat -> (j < n)%nat -> mget Hr i j = pop i * P i j).
  { intros i j Hi Hj. rewrite <- VH by lia. unfold mget, Hr. rewrite (map_nth_in _ _ _ []) by lia. unfold vget. now rewrite nth_tab. }
  pose proof (t_true_weights k Hr Wo LR VR T) as TW.
  destruct (mult_norm_lemma g m N C HN) as (NL & NR & _).
  assert (ST : fg_step k H Wo N m None = Ok (fg_subtract n N (fg_weights k n Hr Wo) None (values m), fg_weights k n Hr Wo))
    by (unfold fg_step; rewrite R; cbn [rbind]; cbv zeta; now rewrite L1).
  do 2 eexists. split; [exact ST|]. split; [|exact TW].
  destruct (step_lemma m N None C NL NR (fun c H => ltac:(discriminate H)) k H Wo _ _ ltac:(congruence) ltac:(intros K; rewrite L1; apply (T K)) ST) as (D1 & S1 & F1).
  rewrite L1, L2 in *. destruct S1 as (_ & S2 & S3). split; [exact S2|]. split; [exact S3|].
  intros i j Hi Hj. rewrite F1 by assumption. cbn [factor]. rewrite (t_subtract _ i j (proj1 TW) Hi Hj). f_equal.
  rewrite sumn_0; [ring|]. intros l Hl. rewrite (proj2 TW) by assumption. ring.
Qed.
Lemma t_loop f : forall k H W, primary_array n nc pop P H -> ((4 < k)%nat -> true_weights n P W) ->
  exists H' W', fg_loop f k H W N m None = Ok (H', W') /\ primary_array n nc pop P H' /\ ((0 < f)%nat -> true_weights n P W').
Proof.
  induction f as [|f IH]; intros k H W PH TW; [exists H, W; split; [reflexivity|]; split; [exact PH|lia]|].
  destruct (t_step k H W PH TW) as (H1 & W1 & E & PH1 & TW1). cbn [fg_loop]. rewrite E. cbn [rbind].
  destruct HM as (_ & _ & _ & _ & N2 & Hn & _). destruct t_lengths as (L1 & L2 & L3 & L4).
  replace (Nat.eqb (a_nr (values m)) 0 || Nat.eqb (a_nc (values m)) 0)%bool with false.
  2:{ symmetry. apply orb_false_iff. unfold a_nr. rewrite L3, L4. split; apply Nat.eqb_neq; lia. }
  destruct (IH (S k) H1 W1 PH1 (fun _ => TW1)) as (H' & W' & E' & PH' & TW'). exists H', W'. split; [exact E'|]. split; [exact PH'|].
  intros _. destruct f as [|f]; [|apply TW'; lia]. cbn in E'. injection E' as <- <-. exact TW1.
Qed.
End Truth.

(* ---------------------------------------------------------------- multiplicities *)
Lemma t_energy m d n nc pop P A i : primary n P -> all_generations n P A -> cascade_matrix m d n nc pop A -> (i < n)%nat ->
  dot (Eg m) (nth i (a_rows (values m)) []) = pop i * (qnat i * d).
Proof.
  intros HP HA HM Hi. destruct (t_lengths m d n nc pop A HM) as (L1 & L2 & L3 & L4). pose proof HM as ([(C1 & C2 & C3) _] & EX & EG & D & N2 & Hn & Hp & V).
  assert (LR : length (nth i (a_rows (values m)) []) = nc) by (rewrite C3; [exact L2|apply nth_In; lia]).
  rewrite dot_sumn by congruence. rewrite L2. rewrite <- (A_energy n nc P A d HP HA Hn i Hi), <- sumn_scal. apply sumn_ext. intros j Hj.
  change (vget (nth i (a_rows (values m)) []) j) with (aget (values m) i j). rewrite V by assumption. unfold vget. rewrite EG, arith_nth by assumption. ring.
Qed.
(* The total multiplicity is the number of quanta per cascade; so is the statistical one if
   nothing is left out. *)
Theorem multiplicity_of_cascades : forall g m d n nc pop P A, primary n P -> all_generations n P A -> cascade_matrix m d n nc pop A ->
  (g_method g = TotalMult \/ (g_method g = Statistical /\ g_slide g = false /\ g_upper g <= 0 /\ g_entry g <= 0)) ->
  right_multiplicity g m n pop /\ forall i, (i < n)%nat -> vget (multiplicity g m) i = sumn nc (A i).
Proof.
  intros g m d n nc pop P A HP HA HM Hg. destruct (t_lengths m d n nc pop A HM) as (L1 & L2 & L3 & L4).
  pose proof HM as (C & EX & EG & D & N2 & Hn & Hp & V).
  assert (K : forall i, (i < n)%nat -> vget (multiplicity g m) i = sumn nc (A i)).
  2:{ split; [|exact K]. intros i Hi. rewrite K, (t_counts m d n nc pop A HM) by assumption. ring. }
  intros i Hi. rewrite multiplicity_get by (auto; lia).
  assert (X : vget (Ex m) i = qnat i * d) by (unfold vget; rewrite EX, arith_nth by assumption; ring).
  assert (X0 : 0 <= qnat i * d) by (apply Qcmult_nonneg; [apply qnat_nonneg|now apply Qclt_le_weak]).
  pose proof (t_energy m d n nc pop P A i HP HA HM Hi) as TE. pose proof (t_counts m d n nc pop A HM i Hi) as TC. unfold counts_of in TC.
  pose proof (Hp i Hi) as Pi. assert (pi0 : pop i <> 0) by (intros Z; rewrite Z in Pi; qlra).
  set (row := nth i (a_rows (values m)) []) in *.
  assert (M : div0 (qnat i * d) (div0 (pop i * (qnat i * d)) (pop i * sumn nc (A i))) = sumn nc (A i)).
  { destruct (Nat.eq_dec i 0) as [-> | I0].
    - rewrite (sumn_0 nc (A 0%nat)) by (intros j _; apply (A_ground n P A j HP HA); lia). rewrite qnat_0.
      replace (0 * d) with 0 by ring. unfold div0 at 1. destruct (qeqb _ 0); [reflexivity|]. unfold Qcdiv. apply Qcmult_0_l.
    - pose proof (A_counts n nc P A HP HA Hn i ltac:(lia)) as Si. set (s := sumn nc (A i)) in *.
      assert (s0 : s <> 0) by (intros Z; rewrite Z in Si; qlra).
      assert (e0 : qnat i * d <> 0).
      { intros Z. apply Qcmult_integral in Z. destruct Z as [Z|Z]; [|rewrite Z in D; qlra]. pose proof (qnat_pos i ltac:(lia)) as Q. rewrite Z in Q. qlra. }
      set (e := qnat i * d) in *. unfold div0 at 2. destruct (qeqb_spec (pop i * s) 0) as [Z|_]; [exfalso; apply Qcmult_integral in Z; destruct Z; contradiction|].
      assert (f0 : pop i * e / (pop i * s) = e / s) by (field; auto). rewrite f0. unfold div0.
      destruct (qeqb_spec (e / s) 0) as [Z|_]; [exfalso; apply e0; replace e with (e / s * s) by (field; exact s0); rewrite Z; ring|]. field. auto. }
  destruct Hg as [-> | (-> & SL & UP & EN)].
  - unfold mult_total_row. rewrite X, TE, TC, M. destruct (qltb_spec (sumn nc (A i)) 0) as [Q|_]; [|reflexivity]. exfalso. apply (Qclt_not_le _ _ Q).
    apply sumn_nonneg. intros j _. now apply (A_nonneg n P A HP HA).
  - unfold mult_stat_row, slide_of. rewrite SL, X. cbv zeta.
    assert (LR : length row = nc) by (destruct C as [(C1 & C2 & C3) _]; unfold row; rewrite C3; [exact L2|apply nth_In; lia]).
    assert (MV : map2 (fun e x => if qltb e (g_upper g) then 0 else x) (Eg m) row = row).
    { apply (list_eq_nth _ _ 0); [rewrite map2_length; congruence|]. intros j Hj. rewrite map2_length in Hj by congruence. rewrite (map2_nth _ _ _ _ 0 0) by congruence.
      rewrite EG, arith_nth by congruence. destruct (qltb_spec (0 + qnat j * d) (g_upper g)) as [Q|_]; [|reflexivity]. exfalso.
      assert (0 <= qnat j * d) by (apply Qcmult_nonneg; [apply qnat_nonneg|now apply Qclt_le_weak]). qlra. }
    rewrite MV, TE, TC.
    assert (E0 : qmax (qmin (qnat i * d - g_shift g) (g_entry g)) 0 = 0).
    { unfold qmax, qmin. destruct (qleb_spec (qnat i * d - g_shift g) (g_entry g)) as [Q|Q].
      - destruct (qleb_spec (qnat i * d - g_shift g) 0) as [_|Q']; [reflexivity|]. exfalso. qlra.
      - destruct (qleb_spec (g_entry g) 0) as [_|Q']; [reflexivity|]. exfalso. qlra. }
    rewrite E0. replace (qnat i * d - 0) with (qnat i * d) by ring. exact M.
Qed.
Print Assumptions multiplicity_of_cascades.

(* ---------------------------------------------------------------- fixed point *)
(* Once the primary spectra are found, all further iterations keep them. *)
Theorem firstgen_keeps_primary : forall m d n nc pop P A g N f k H W, primary n P -> all_generations n P A -> cascade_matrix m d n nc pop A ->
  right_multiplicity g m n pop -> mult_norm g m = Ok N -> primary_array n nc pop P H -> ((4 < k)%nat -> true_weights n P W) ->
  exists H' W', fg_loop f k H W N m None = Ok (H', W') /\ primary_array n nc pop P H' /\ ((0 < f)%nat -> true_weights n P W').
Proof. intros m d n nc pop P A g N f k H W HP HA HM HR HN. exact (t_loop m d n nc pop P A g N HP HA HM HR HN f k H W). Qed.
Print Assumptions firstgen_keeps_primary.

(* Exact distance of the result from the primary spectra after any number of iterations: the
   errors of the weights times the spectra of the rows decayed into. *)
Theorem firstgen_error : forall act u m d n nc pop P A g r, act u = Ok m -> primary n P -> all_generations n P A -> cascade_matrix m d n nc pop A ->
  right_multiplicity g m n pop -> g_valley g = None -> (0 < g_iter g)%nat -> fg_apply act g u = (g, Ok r) ->
  exists W, decay_weights n W /\ forall i j, (i < n)%nat -> (j < nc)%nat ->
    let e := sumn i (fun k => (mget W i k - P i (i - k)%nat) * A k j) in
    aget (values r) i j = (if qltb e (P i j) then pop i * (P i j - e) else 0) /\
    qabs (aget (values r) i j - pop i * P i j) <= pop i * sumn i (fun k => qabs (mget W i k - P i (i - k)%nat) * A k j).
Proof.
  intros act u m d n nc pop P A g r Ha HP HA HM HR V GI E. destruct (t_lengths m d n nc pop A HM) as (L1 & L2 & L3 & L4). pose proof HM as (C & EX & EG & D & N2 & Hn & Hp & VV).
  unfold fg_apply in E. rewrite Ha in E. destruct (fg_acted_inv g m g r E) as (_ & _ & vc & CV & K). unfold cut_valley in CV. rewrite V in CV. injection CV as <-.
  destruct (fg_core_lemma g m None r C ltac:(discriminate) K) as (N & Hf & Wf & EN & _ & SH & F & ->). destruct (F GI) as [DW FF]. rewrite L1, L2 in *.
  exists Wf. split; [exact DW|]. intros i j Hi Hj. cbv zeta. cbn [values].
  rewrite (aget_amap _ _ _ _ n nc) by assumption. unfold aget. cbn [a_rows]. rewrite FF by assumption. cbn [factor].
  rewrite (t_subtract m d n nc pop P A g N HP HA HM HR EN Wf i j DW Hi Hj). pose proof (Hp i Hi) as Pi.
  set (e := sumn i (fun k => (mget Wf i k - P i (i - k)%nat) * A k j)).
  assert (B : qabs e <= sumn i (fun k => qabs (mget Wf i k - P i (i - k)%nat) * A k j)).
  { unfold e. assert (Hi' : (i < n)%nat) by exact Hi. clear - HP HA Hi'.
    assert (G : forall q, (q <= i)%nat -> qabs (sumn q (fun k => (mget Wf i k - P i (i - k)%nat) * A k j)) <= sumn q (fun k => qabs (mget Wf i k - P i (i - k)%nat) * A k j)); [|now apply G].
    induction q as [|q IH]; intros Hq; cbn [sumn]; [discriminate|].
    specialize (IH ltac:(lia)). pose proof (A_nonneg n P A HP HA q j ltac:(lia)) as Aq.
    set (x := sumn q _) in *. set (y := sumn q (fun k => qabs _ * _)) in *. set (w := mget Wf i q - P i (i - q)%nat) in *.
    assert (Z : qabs (w * A q j) = qabs w * A q j).
    { unfold qabs. destruct (qleb_spec 0 w) as [w0|w0], (qleb_spec 0 (w * A q j)) as [z|z]; try ring.
      - exfalso. apply (Qclt_not_le _ _ z). now apply Qcmult_nonneg.
      - assert (w * A q j = 0); [|replace (- w * A q j) with (- (w * A q j)) by ring; rewrite H; reflexivity].
        apply Qcle_antisym; [|exact z]. assert (0 <= (- w) * A q j) by (apply Qcmult_nonneg; [qlra|exact Aq]). replace (- w * A q j) with (- (w * A q j)) in H by ring. qlra. }
    rewrite <- Z. assert (T : forall a b, qabs (a + b) <= qabs a + qabs b) by (intros a b; unfold qabs; destruct (qleb_spec 0 a), (qleb_spec 0 b), (qleb_spec 0 (a + b)); qlra).
    eapply Qcle_trans; [apply T|]. qlra. }
  assert (PP : 0 <= P i j) by apply (HP i Hi).
  unfold clip. split.
  - destruct (qltb_spec 0 (pop i * (P i j - e))) as [X|X], (qltb_spec e (P i j)) as [Y|Y]; try reflexivity; exfalso.
    + assert (0 <= pop i * (e - P i j)) by (apply Qcmult_nonneg; qlra). replace (pop i * (e - P i j)) with (- (pop i * (P i j - e))) in H by ring. qlra.
    + assert (0 < pop i * (P i j - e)) by (apply Qcmult_lt_0_compat; qlra). qlra.
  - eapply Qcle_trans; [|apply Qcmult_le_mono, B; now apply Qclt_le_weak].
    assert (Q : qabs (pop i * e) = pop i * qabs e).
    { unfold qabs. destruct (qleb_spec 0 e), (qleb_spec 0 (pop i * e)); try ring; exfalso.
      - assert (0 <= pop i * e) by (apply Qcmult_nonneg; qlra). qlra.
      - assert (0 < pop i * (- e)) by (apply Qcmult_lt_0_compat; qlra). replace (pop i * (- e)) with (- (pop i * e)) in H by ring. qlra. }
    rewrite <- Q. replace (pop i * (P i j - e)) with (pop i * P i j - pop i * e) by ring. set (a := pop i * e). assert (b0 : 0 <= pop i * P i j) by (apply Qcmult_nonneg; qlra).
    set (b := pop i * P i j) in *. unfold qabs. destruct (qltb_spec 0 (b - a)); [destruct (qleb_spec 0 (b - a - b))|destruct (qleb_spec 0 (0 - b))]; destruct (qleb_spec 0 a); qlra.
Qed.
Print Assumptions firstgen_error.

(* If the weights are right after s iterations, the method with more iterations returns the
   primary spectra exactly. *)
Lemma fg_loop_add s f : forall k H W N m vc, fg_loop (s + f) k H W N m vc =
  do (H', W') <- fg_loop s k H W N m vc ;; fg_loop f (k + s) H' W' N m vc.
Proof.
  induction s as [|s IH]; intros k H W N m vc; cbn [Nat.add fg_loop rbind]; [now rewrite Nat.add_0_r|].
  destruct (fg_step k H W N m vc) as [[H1 W1]|]; [|reflexivity]. cbn [rbind]. destruct (_ || _); [reflexivity|].
  rewrite IH. now replace (S k + s)%nat with (k + S s)%nat by lia.
Qed.
Theorem firstgen_stays_exact : forall act u m d n nc pop P A g N s f Hs Ws, act u = Ok m -> primary n P -> all_generations n P A -> cascade_matrix m d n nc pop A ->
  right_multiplicity g m n pop -> params_ok g -> g_valley g = None -> mult_norm g m = Ok N -> g_iter g = (s + f)%nat ->
  fg_loop s 0 (row_normalized (values m)) (row_normalized (values m)) N m None = Ok (Hs, Ws) ->
  primary_array n nc pop P Hs -> ((4 < s)%nat -> true_weights n P Ws) ->
  exists r, fg_apply act g u = (g, Ok r) /\ forall i j, (i < n)%nat -> (j < nc)%nat -> aget (values r) i j = pop i * P i j.
Proof.
  intros act u m d n nc pop P A g N s f Hs Ws Ha HP HA HM HR PO V EN GI EL PH TW. destruct (t_lengths m d n nc pop A HM) as (L1 & L2 & L3 & L4).
  pose proof HM as (C & EX & EG & D & N2 & Hn & Hp & VV). pose proof C as [(C1 & C2 & C3) _].
  destruct (fg_succeeds_lemma act g u m Ha C PO V) as [r E]; try lia.
  - intros e He. rewrite EX in He. apply in_tab in He. destruct He as (i & _ & ->). assert (0 <= qnat i * d) by (apply Qcmult_nonneg; [apply qnat_nonneg|now apply Qclt_le_weak]). qlra.
  - intros row x Hr Hx. apply (In_nth _ _ []) in Hr. destruct Hr as (i & Hi & <-). apply (In_nth _ _ 0) in Hx. destruct Hx as (j & Hj & <-).
    rewrite C3 in Hj by now apply nth_In. rewrite L4 in Hi. rewrite L2 in Hj. change (0 <= aget (values m) i j). rewrite VV by assumption.
    apply Qcmult_nonneg; [now apply Qclt_le_weak, Hp|]. now apply (A_nonneg n P A HP HA).
  - exists r. split; [exact E|]. unfold fg_apply in E. rewrite Ha in E. destruct (fg_acted_inv g m g r E) as (_ & _ & vc & CV & K).
    unfold cut_valley in CV. rewrite V in CV. injection CV as <-.
    destruct (fg_core_lemma g m None r C ltac:(discriminate) K) as (N' & Hf & Wf & EN' & EL' & SH & _ & ->). rewrite EN in EN'. injection EN' as <-.
    rewrite GI, fg_loop_add, EL in EL'. cbn [rbind] in EL'.
    destruct (t_loop m d n nc pop P A g N HP HA HM HR EN f (0 + s) Hs Ws PH TW) as (H' & W' & EL2 & (P1 & P2 & P3) & _). rewrite EL2 in EL'. injection EL' as -> ->.
    intros i j Hi Hj. cbn [values]. rewrite L1, L2 in SH. rewrite L2. rewrite (aget_amap _ _ _ _ n nc) by assumption. unfold aget. cbn [a_rows]. rewrite P3 by assumption.
    unfold clip. destruct (qltb_spec 0 (pop i * P i j)) as [|X]; [reflexivity|]. apply Qcle_antisym; [|exact X].
    apply Qcmult_nonneg; [now apply Qclt_le_weak, Hp|]. apply (HP i Hi).
Qed.
Print Assumptions firstgen_stays_exact.

(* ---------------------------------------------------------------- all generations from primary *)
(* allgen_from_primary builds such a matrix: primary spectra of any positive normalisation *)
Theorem allgen_is_cascade_matrix : forall fg xs d n nc c P, primary n P -> consistent fg -> Ex fg = arith 0 d n -> Eg fg = arith 0 d nc -> 0 < d ->
  (2 <= n)%nat -> (n <= nc)%nat -> length xs = n -> (forall i, (i < n)%nat -> 0 < vget xs i /\ 0 < c i) ->
  (forall i j, (i < n)%nat -> (j < nc)%nat -> aget (values fg) i j = c i * P i j) ->
  exists ag A, allgen fg (Some xs) = Ok ag /\ all_generations n P A /\ cascade_matrix ag d n nc (vget xs) A.
Proof.
  intros fg xs d n nc c P HP C EX EG D N2 Hn LX HX V.
  assert (L1 : length (Ex fg) = n) by now rewrite EX, arith_len. assert (L2 : length (Eg fg) = nc) by now rewrite EG, arith_len.
  destruct (allgen_lemma fg (Some xs) C ltac:(lia) ltac:(cbn; lia)) as (ag & E & CC & EG' & EX' & F). rewrite L1, L2 in F. unfold ag_row in F. cbn [population] in F.
  assert (B : forall i k, (i < n)%nat -> (k <= i)%nat -> branching (values fg) i k = P i (i - k)%nat).
  { intros i k Hi Hk. unfold branching. rewrite V by lia. rewrite (sumn_ext (S i) _ (fun l => c i * P i l)) by (intros; apply V; lia). rewrite sumn_scal.
    destruct (HP i Hi) as (_ & P0 & PZ & P1). destruct (Nat.eq_dec i 0) as [-> | I0].
    - cbn [Nat.sub]. rewrite P0. unfold div0. destruct (qeqb _ 0); [reflexivity|]. unfold Qcdiv. ring.
    - rewrite P1 by lia. destruct (HX i Hi) as [_ ci]. assert (c0 : c i <> 0) by (intros Z; rewrite Z in ci; qlra). unfold div0.
      destruct (qeqb_spec (c i * 1) 0) as [Z|_]; [exfalso; apply c0; rewrite <- Z; ring|]. field. exact c0. }
  assert (D0 : forall i p, (i < n)%nat -> (p < nc)%nat -> div0 (aget (values fg) i p) (sumn nc (aget (values fg) i)) = P i p).
  { intros i p Hi Hp. rewrite V by assumption. rewrite (sumn_ext nc _ (fun l => c i * P i l)) by (intros; now apply V). rewrite sumn_scal.
    destruct (HX i Hi) as [_ ci]. assert (c0 : c i <> 0) by (intros Z; rewrite Z in ci; qlra). destruct (Nat.eq_dec i 0) as [-> | I0].
    - destruct (HP 0%nat Hi) as (_ & P0 & PZ & _). assert (Pp : P 0%nat p = 0) by (destruct p; [exact P0|apply PZ; lia]). rewrite Pp.
      unfold div0. destruct (qeqb _ 0); [reflexivity|]. unfold Qcdiv. ring.
    - rewrite (proj1 (P_total n P i nc HP Hi Hn ltac:(lia))). unfold div0.
      destruct (qeqb_spec (c i * 1) 0) as [Z|_]; [exfalso; apply c0; rewrite <- Z; ring|]. field. exact c0. }
  (* outside the axes the quanta continue by the formula *)
  set (A' := fix A' fuel i j := match fuel with O => 0 | S f => P i j + sumn i (fun k => P i (i - k)%nat * A' f k j) end).
  assert (AF : forall f f' i j, (i < f)%nat -> (i < f')%nat -> A' f i j = A' f' i j).
  { induction f as [|f IH]; intros f' i j H1 H2; [lia|]. destruct f' as [|f']; [lia|]. cbn [A']. f_equal. apply sumn_ext. intros k Hk. f_equal. apply IH; lia. }
  assert (AA : all_generations n P (A' n)).
  { intros i j Hi. destruct n as [|n']; [lia|]. transitivity (P i j + sumn i (fun k => P i (i - k)%nat * A' n' k j)); [reflexivity|]. f_equal. apply sumn_ext. intros k Hk. f_equal. apply AF; lia. }
  exists ag, (A' n). split; [exact E|]. split; [exact AA|]. split; [exact CC|]. rewrite EX', EG'. repeat (split; [assumption|]). split; [intros i Hi; now apply HX|].
  intros i. induction i as [i IH] using lt_wf_ind. intros j Hi Hj. rewrite (F i j Hi Hj). cbv zeta. rewrite D0 by assumption.
  destruct (HX i Hi) as [xi _]. 
  assert (S0 : P i j * vget xs i + sumn i (fun k => vget xs i * branching (values fg) i k * div0 (aget (values ag) k j) (vget xs k)) = vget xs i * A' n i j).
  { rewrite (AA i j Hi), Qcmult_plus_distr_r, <- sumn_scal. f_equal; [ring|]. apply sumn_ext. intros k Hk. rewrite B by lia. rewrite IH by lia.
    destruct (HX k ltac:(lia)) as [xk _]. assert (x0 : vget xs k <> 0) by (intros Z; rewrite Z in xk; qlra). unfold div0.
    destruct (qeqb_spec (vget xs k) 0) as [Z|_]; [contradiction|]. field. exact x0. }
  rewrite S0. destruct (Nat.eqb i 0); [reflexivity|]. rewrite B by lia. rewrite Nat.sub_diag. rewrite (proj1 (proj2 (HP i Hi))). ring.
Qed.
Print Assumptions allgen_is_cascade_matrix.

Lemma sumn_scal_r n c f : sumn n (fun j => f j * c) = sumn n f * c.
Proof. rewrite (sumn_ext n _ (fun j => c * f j)) by (intros; ring). rewrite sumn_scal. ring. Qed.

(* ---------------------------------------------------------------- every fixed point *)
(* For any data: if an iteration reproduces its input, and the spectrum of row i has no negative
   counts, none at zero energy and none above the excitation energy, then it holds one quantum
   for every cascade: the summed energy of row i divided by its excitation energy. *)
Theorem firstgen_converged_counts : forall m d n nc g N k H W i, consistent m -> Ex m = arith 0 d n -> Eg m = arith 0 d nc -> 0 < d ->
  (2 <= n)%nat -> (n <= nc)%nat -> g_method g = TotalMult -> mult_norm g m = Ok N ->
  (forall l, (0 < l < n)%nat -> 0 < dot (Eg m) (nth l (a_rows (values m)) []) /\ 0 < counts_of m l) ->
  decay_weights n W -> length H = n -> (forall r, In r H -> length r = nc) -> fg_step k H W N m None = Ok (H, W) -> (0 < i < n)%nat ->
  (forall j, (j < nc)%nat -> 0 <= mget H i j) -> mget H i 0 = 0 -> (forall j, (i < j < nc)%nat -> mget H i j = 0) -> 0 < sumn nc (mget H i) ->
  sumn nc (mget H i) = dot (Eg m) (nth i (a_rows (values m)) []) / vget (Ex m) i.
Proof.
  intros m d n nc g N k H W i C EX EG D N2 Hn TM EN HE DW LH RH ST Hi H0 HZ HU HS.
  assert (L1 : length (Ex m) = n) by now rewrite EX, arith_len. assert (L2 : length (Eg m) = nc) by now rewrite EG, arith_len.
  pose proof C as [(C1 & C2 & C3) _].
  set (En l := dot (Eg m) (nth l (a_rows (values m)) [])) in *.
  assert (EnS : forall l, (l < n)%nat -> En l = sumn nc (fun j => qnat j * d * aget (values m) l j)).
  { intros l Hl. unfold En. rewrite dot_sumn by (rewrite (C3 (nth l (a_rows (values m)) [])); [congruence|apply nth_In; congruence]). rewrite L2. apply sumn_ext. intros j Hj.
    unfold vget at 1. rewrite EG, arith_nth by assumption. unfold aget, mget. f_equal. ring. }
  (* the weights are the normalised spectrum *)
  assert (FW := ST). unfold fg_step in FW. rewrite EX, EG, rebin2_aligned in FW by assumption. cbn [rbind] in FW. cbv zeta in FW. injection FW as _ FW. rewrite arith_len in FW.
  set (Hr := map (fun r => tab n (vget r)) H) in *.
  assert (LR : length Hr = n) by (unfold Hr; now rewrite map_length).
  assert (VR : forall q, (q < n)%nat -> mget Hr i q = mget H i q).
  { intros q Hq. unfold mget, Hr. rewrite (map_nth_in _ _ _ []) by lia. unfold vget. now rewrite nth_tab. }
  set (S := sumn nc (mget H i)) in *.
  assert (SR : sumn i (fun l => mget H i (i - l)%nat) = S).
  { rewrite (sumn_rev i (mget H i)). unfold S. rewrite (sumn_range nc 0 (Datatypes.S i)); [|lia|intros j Hj [J|J]; [lia|apply HU; lia]].
    rewrite sumn_S_l. cbn [Nat.add]. rewrite HZ. ring. }
  assert (S0 : S <> 0) by (intros Z; rewrite Z in HS; qlra).
  assert (WV : forall l, (l < i)%nat -> mget W i l * S = mget H i (i - l)%nat).
  { assert (raw : forall l, (l < i)%nat -> exists c, 0 < c /\ forall q, (q < i)%nat ->
      clip0 (if (4 <? k)%nat then qn 7 10 * mget Hr i (i - q) + qn 3 10 * mget W i q else mget Hr i (i - q)) = (if (4 <? k)%nat then qn 7 10 * mget H i (i - q) + qn 3 10 * mget W i q else mget H i (i - q))).
    { intros l Hl. exists 1. split; [reflexivity|]. intros q Hq. rewrite VR by lia. unfold clip0.
      destruct (qltb_spec (if (4 <? k)%nat then qn 7 10 * mget H i (i - q) + qn 3 10 * mget W i q else mget H i (i - q)) 0) as [X|_]; [|reflexivity].
      exfalso. apply (Qclt_not_le _ _ X). pose proof (H0 (i - q)%nat ltac:(lia)) as h. pose proof (proj1 (proj2 (proj2 DW i ltac:(lia))) q ltac:(lia)) as w.
      destruct (4 <? k)%nat; [|exact h]. assert (0 <= qn 7 10 * mget H i (i - q)) by (apply Qcmult_nonneg; [discriminate|exact h]).
      assert (0 <= qn 3 10 * mget W i q) by (apply Qcmult_nonneg; [discriminate|exact w]). qlra. }
    intros l Hl. pose proof (weights_follow k n Hr W i l LR (fun _ => DW) ltac:(lia) Hl) as Q. cbv zeta in Q. rewrite FW in Q.
    destruct (raw l Hl) as (_ & _ & R). rewrite R in Q by exact Hl. rewrite (sumn_ext i _ _ R) in Q. destruct (Nat.ltb_spec 4 k) as [K|K].
    - rewrite sumn_add, !sumn_scal, SR in Q.
      assert (WS : sumn i (mget W i) = 1 \/ forall q, (q < i)%nat -> mget W i q = 0).
      { destruct (proj2 DW i ltac:(lia)) as (_ & _ & Wz & [W1|W1]); [left|right; intros; apply W1; lia].
        rewrite <- W1. rewrite (sumn_range n 0 i); [reflexivity|lia|intros q Hq [X|X]; [lia|apply Wz; lia]]. }
      destruct WS as [WS|WS].
      + rewrite WS in Q. unfold div0 in Q. destruct (qeqb_spec (qn 7 10 * S + qn 3 10 * 1) 0) as [Z|Z].
        * exfalso. assert (0 < qn 7 10 * S) by (apply Qcmult_lt_0_compat; [reflexivity|exact HS]). assert (0 < qn 3 10) by reflexivity. qlra.
        * assert (X : mget W i l * (qn 7 10 * S + qn 3 10 * 1) = qn 7 10 * mget H i (i - l) + qn 3 10 * mget W i l) by (rewrite Q at 1; field; exact Z).
          assert (Y : qn 7 10 * (mget W i l * S) = qn 7 10 * mget H i (i - l)%nat).
          { replace (qn 7 10 * (mget W i l * S)) with (mget W i l * (qn 7 10 * S + qn 3 10 * 1) - qn 3 10 * mget W i l) by ring. rewrite X. ring. }
          replace (mget W i l * S) with (qn 7 10 * (mget W i l * S) / qn 7 10) by (field; discriminate). rewrite Y. field. discriminate.
      + exfalso. (* all weights zero: then the new weights would not be zero *)
        assert (Z7 : forall q, (q < i)%nat -> mget H i (i - q)%nat = 0).
        { intros q Hq. pose proof (weights_follow k n Hr W i q LR (fun _ => DW) ltac:(lia) Hq) as Q'. cbv zeta in Q'. rewrite FW in Q'.
          rewrite (WS q Hq) in Q'. destruct (Nat.ltb_spec 4 k) as [_|?]; [|lia].
          assert (RR : forall p, (p < i)%nat -> clip0 (qn 7 10 * mget Hr i (i - p) + qn 3 10 * mget W i p) = qn 7 10 * mget H i (i - p)).
          { intros p Hp. pose proof (R p Hp) as RP. destruct (Nat.ltb_spec 4 k) as [_|?]; [|lia]. rewrite RP, (WS p Hp). ring. }
          rewrite (sumn_ext i _ _ RR), sumn_scal, SR in Q'. pose proof (RR q Hq) as RQ. rewrite (WS q Hq) in RQ. rewrite RQ in Q'.
          unfold div0 in Q'. assert (0 < qn 7 10 * S) by (apply Qcmult_lt_0_compat; [reflexivity|exact HS]).
          destruct (qeqb_spec (qn 7 10 * S) 0) as [Z|Z]; [rewrite Z in H1; exfalso; qlra|].
          replace (mget H i (i - q)) with (qn 7 10 * mget H i (i - q) / (qn 7 10 * S) * S) by (field; split; [exact S0|discriminate]). rewrite <- Q'. ring. }
        apply S0. rewrite <- SR. apply sumn_0. exact Z7.
    - rewrite SR in Q. rewrite Q. unfold div0. destruct (qeqb_spec S 0) as [Z|_]; [contradiction|]. field. exact S0. }
  (* the subtraction *)
  destruct (mult_norm_lemma g m N C EN) as (NL & NR & NV).
  destruct (step_lemma m N None C NL NR (fun c H => ltac:(discriminate H)) k H W _ _ ltac:(congruence) ltac:(intros; now rewrite L1) ST) as (_ & _ & F1).
  rewrite L1, L2 in *. cbn [factor] in F1.
  assert (xi : vget (Ex m) i = qnat i * d) by (unfold vget; rewrite EX, arith_nth by lia; ring).
  assert (ii : 0 < qnat i) by (apply qnat_pos; lia).
  assert (x0 : qnat i * d <> 0) by (intros Z; assert (0 < qnat i * d) by (now apply Qcmult_lt_0_compat); rewrite Z in H1; qlra).
  destruct (HE i Hi) as [ei ci]. change (0 < En i) in ei.
  assert (NE : forall l, (l < n)%nat -> mget N i l * En l = qnat l * d * (En i / (qnat i * d))).
  { intros l Hl. rewrite NV by lia.
    assert (Mu : forall q, (0 < q < n)%nat -> vget (multiplicity g m) q = qnat q * d * counts_of m q / En q).
    { intros q Hq. destruct (HE q Hq) as [eq cq]. change (0 < En q) in eq. rewrite multiplicity_get by (auto; lia). rewrite TM. unfold mult_total_row. cbv zeta.
      fold (counts_of m q). fold (En q). assert (e0 : En q <> 0) by (intros Z; rewrite Z in eq; qlra). assert (c0 : counts_of m q <> 0) by (intros Z; rewrite Z in cq; qlra).
      assert (xq : vget (Ex m) q = qnat q * d) by (unfold vget; rewrite EX, arith_nth by lia; ring). rewrite xq.
      unfold div0. destruct (qeqb_spec (counts_of m q) 0); [contradiction|].
      assert (P : 0 < En q / counts_of m q) by (unfold Qcdiv; apply Qcmult_lt_0_compat; [exact eq|now apply Qcinv_pos]).
      destruct (qeqb_spec (En q / counts_of m q) 0) as [Z|Z]; [rewrite Z in P; exfalso; qlra|].
      assert (V : qnat q * d / (En q / counts_of m q) = qnat q * d * counts_of m q / En q) by (field; auto). rewrite V.
      destruct (qltb_spec (qnat q * d * counts_of m q / En q) 0) as [X|_]; [|reflexivity]. exfalso. apply (Qclt_not_le _ _ X).
      unfold Qcdiv. apply Qcmult_nonneg; [apply Qcmult_nonneg; [apply Qcmult_nonneg; [apply qnat_nonneg|]|]|]; apply Qclt_le_weak; try assumption. now apply Qcinv_pos. }
    assert (ei0 : En i <> 0) by (intros Z; rewrite Z in ei; qlra). assert (ci0 : counts_of m i <> 0) by (intros Z; rewrite Z in ci; qlra).
    assert (qi0 : qnat i <> 0) by (intros Z; rewrite Z in ii; qlra). assert (d0 : d <> 0) by (intros Z; rewrite Z in D; qlra).
    destruct (Nat.eq_dec l 0) as [-> | L0].
    - assert (M0 : vget (multiplicity g m) 0%nat = 0).
      { rewrite multiplicity_get by (auto; lia). rewrite TM. unfold mult_total_row. cbv zeta.
        assert (X0 : vget (Ex m) 0 = 0) by (unfold vget; rewrite EX, arith_nth by lia; rewrite qnat_0; ring). rewrite X0.
        assert (Z : forall x, div0 0 x = 0) by (intros x; unfold div0; destruct (qeqb x 0); [reflexivity|unfold Qcdiv; apply Qcmult_0_l]). rewrite Z. reflexivity. }
      rewrite M0, qnat_0. replace (counts_of m i * 0) with 0 by ring. unfold div0. destruct (qeqb _ 0); unfold Qcdiv; ring.
    - destruct (HE l ltac:(lia)) as [el cl]. change (0 < En l) in el. rewrite !Mu by lia.
      assert (el0 : En l <> 0) by (intros Z; rewrite Z in el; qlra). assert (cl0 : counts_of m l <> 0) by (intros Z; rewrite Z in cl; qlra).
      unfold div0. destruct (qeqb_spec (qnat i * d * counts_of m i / En i * counts_of m l) 0) as [Z|Z].
      + exfalso. assert (P : 0 < qnat i * d * counts_of m i / En i * counts_of m l); [|rewrite Z in P; qlra].
        unfold Qcdiv. repeat apply Qcmult_lt_0_compat; try assumption. now apply Qcinv_pos.
      + field. repeat split; assumption. }
  assert (EH : sumn nc (fun j => qnat j * d * mget H i j) = En i - En i / (qnat i * d) * sumn i (fun l => mget W i l * (qnat l * d))).
  { rewrite (sumn_ext nc _ (fun j => qnat j * d * aget (values m) i j - sumn n (fun l => mget W i l * (mget N i l * (qnat j * d * aget (values m) l j))))).
    2:{ intros j Hj. rewrite F1 by lia. rewrite Qcmult_plus_distr_r || idtac. unfold Qcminus. rewrite Qcmult_plus_distr_r. f_equal.
        replace (qnat j * d * - sumn n (fun l => mget N i l * mget W i l * 1 * aget (values m) l j)) with (- (qnat j * d * sumn n (fun l => mget N i l * mget W i l * 1 * aget (values m) l j))) by ring.
        f_equal. rewrite <- sumn_scal. apply sumn_ext. intros l Hl. ring. }
    rewrite sumn_sub, <- EnS by lia. f_equal. rewrite sumn_swap.
    rewrite (sumn_range n 0 i); [|lia|intros l Hl [X|X]; [lia|]; apply sumn_0; intros j Hj; rewrite (proj1 (proj2 (proj2 (proj2 DW i ltac:(lia)))) l ltac:(lia)); ring].
    cbn [Nat.add]. rewrite <- sumn_scal. apply sumn_ext. intros l Hl. rewrite sumn_scal, sumn_scal, <- EnS by lia. rewrite NE by lia. ring. }
  assert (EH2 : sumn nc (fun j => qnat j * d * mget H i j) = S * sumn i (fun l => mget W i l * (qnat i * d - qnat l * d))).
  { rewrite (sumn_range nc 0 (Datatypes.S i)); [|lia|intros j Hj [J|J]; [lia|rewrite HU by lia; ring]]. cbn [Nat.add]. rewrite sumn_S_l, HZ.
    rewrite <- (sumn_rev i (fun j => qnat j * d * mget H i j)). rewrite <- sumn_scal. replace (qnat 0 * d * 0) with 0 by ring. rewrite Qcplus_0_l.
    apply sumn_ext. intros l Hl. rewrite <- WV by exact Hl. rewrite qnat_sub by lia. ring. }
  assert (W1 : sumn i (mget W i) = 1).
  { assert (X : sumn i (fun l => mget W i l * S) = S) by (rewrite (sumn_ext i _ _ WV); exact SR). rewrite sumn_scal_r in X.
    assert (Y : (sumn i (mget W i) - 1) * S = 0) by (replace ((sumn i (mget W i) - 1) * S) with (sumn i (mget W i) * S - S) by ring; rewrite X; ring).
    apply Qcmult_integral in Y. destruct Y as [Y|Y]; [|contradiction]. qlra. }
  set (w := sumn i (fun l => mget W i l * (qnat l * d))) in *.
  assert (EH3 : sumn i (fun l => mget W i l * (qnat i * d - qnat l * d)) = qnat i * d - w).
  { rewrite (sumn_ext i _ (fun l => mget W i l * (qnat i * d) - mget W i l * (qnat l * d))) by (intros; ring). rewrite sumn_sub, sumn_scal_r.
    change (sumn i (fun l => mget W i l)) with (sumn i (mget W i)). rewrite W1. fold w. ring. }
  assert (w0 : 0 < qnat i * d - w).
  { rewrite <- EH3. assert (P : sumn i (fun l => mget W i l * d) <= sumn i (fun l => mget W i l * (qnat i * d - qnat l * d))).
    { apply sumn_le. intros l Hl. apply Qcmult_le_mono; [apply (proj2 DW i ltac:(lia)); lia|].
      assert (Q : qnat (Datatypes.S l) <= qnat i) by (apply (proj1 (qnat_le _ _)); lia). rewrite qnat_S in Q.
      assert (0 <= d * (qnat i - (qnat l + 1))) by (apply Qcmult_nonneg; qlra). replace (d * (qnat i - (qnat l + 1))) with (qnat i * d - qnat l * d - d) in H1 by ring. qlra. }
    rewrite sumn_scal_r in P. change (sumn i (fun l => mget W i l)) with (sumn i (mget W i)) in P. rewrite W1 in P. qlra. }
  rewrite EH2, EH3 in EH. rewrite xi. fold (En i).
  assert (Z : (S - En i / (qnat i * d)) * (qnat i * d - w) = 0).
  { replace ((S - En i / (qnat i * d)) * (qnat i * d - w)) with (S * (qnat i * d - w) - (En i - En i / (qnat i * d) * w)) by (field; split; intros Z; apply x0; rewrite Z; ring).
    rewrite EH. ring. }
  apply Qcmult_integral in Z. destruct Z as [Z|Z]; [|rewrite Z in w0; qlra]. qlra.
Qed.
Print Assumptions firstgen_converged_counts.

(* ---------------------------------------------------------------- round trip *)
(* From the primary spectra to all generations and back: with the total multiplicity the
   iterations keep the primary spectra of the population the cascades were started with. *)
Theorem firstgen_allgen_round_trip : forall fg xs d n nc c P g f k H W, primary n P -> consistent fg -> Ex fg = arith 0 d n -> Eg fg = arith 0 d nc -> 0 < d ->
  (2 <= n)%nat -> (n <= nc)%nat -> length xs = n -> (forall i, (i < n)%nat -> 0 < vget xs i /\ 0 < c i) ->
  (forall i j, (i < n)%nat -> (j < nc)%nat -> aget (values fg) i j = c i * P i j) -> g_method g = TotalMult ->
  primary_array n nc (vget xs) P H -> ((4 < k)%nat -> true_weights n P W) ->
  exists ag N H' W', allgen fg (Some xs) = Ok ag /\ mult_norm g ag = Ok N /\ fg_loop f k H W N ag None = Ok (H', W') /\ primary_array n nc (vget xs) P H'.
Proof.
  intros fg xs d n nc c P g f k H W HP C EX EG D N2 Hn LX HX V TM PH TW.
  destruct (allgen_is_cascade_matrix fg xs d n nc c P HP C EX EG D N2 Hn LX HX V) as (ag & A & E & HA & HM).
  destruct (multiplicity_of_cascades g ag d n nc _ P A HP HA HM (or_introl TM)) as [HR HV].
  assert (EN : exists N, mult_norm g ag = Ok N).
  { unfold mult_norm. cbv zeta. destruct (existsb (fun v => qltb v 0) (multiplicity g ag)) eqn:X.
    2:{ rewrite (projection_Ex_all ag (proj1 HM)); [cbn [rbind]; eauto|]. destruct (t_lengths ag d n nc (vget xs) A HM) as (_ & L2 & _). intros Z. rewrite Z in L2. cbn in L2. lia. }
    exfalso.
    apply existsb_exists in X. destruct X as (v & Iv & Lv). destruct (qltb_spec v 0) as [Q|]; [|discriminate].
    apply (In_nth _ _ 0) in Iv. destruct Iv as (i & Hi & <-).
    assert (Ci : consistent ag) by apply HM. destruct (t_lengths ag d n nc (vget xs) A HM) as (L1 & L2 & L3 & L4).
    assert (LM : length (multiplicity g ag) = n).
    { unfold multiplicity. rewrite TM. rewrite map2_length by (rewrite L4; congruence). congruence. }
    pose proof (HV i ltac:(lia)) as HVi. unfold vget in HVi. rewrite HVi in Q. apply (Qclt_not_le _ _ Q). apply sumn_nonneg. intros j _. apply (A_nonneg n P A HP HA). lia. }
  destruct EN as [N EN]. destruct (firstgen_keeps_primary ag d n nc _ P A g N f k H W HP HA HM HR EN PH TW) as (H' & W' & EL & PH' & _).
  exists ag, N, H', W'. auto.
Qed.
Print Assumptions firstgen_allgen_round_trip.

(* ---------------------------------------------------------------- what does not hold *)
Ltac bins i n := match n with
  | O => try (exfalso; lia)
  | S ?k => destruct i as [|i]; [|bins i k] end.
Ltac qc := apply qeqb_eq; vm_compute; reflexivity.
(* two ways to decay with different primary spectra *)
Definition ftx_P (t : Qc) (i j : nat) : Qc :=
  match i, j with 1%nat, 1%nat => 1 | 2%nat, 2%nat => 1 | 3%nat, 1%nat => t | 3%nat, 2%nat => 1 - t | _, _ => 0 end.
Definition ftx_A (i j : nat) : Qc := match i, j with 1%nat, 1%nat => 1 | 2%nat, 2%nat => 1 | 3%nat, 1%nat => 1 | 3%nat, 2%nat => 1 | _, _ => 0 end.
Lemma ftx_primary t : 0 <= t -> t <= 1 -> primary 4 (ftx_P t).
Proof.
  intros T0 T1 i Hi. bins i 4%nat.
  - split; [|split; [|split]]. intros j; do 4 (destruct j as [|j]; [discriminate|]); discriminate. reflexivity. intros j Hj; do 4 (destruct j as [|j]; [reflexivity|]); reflexivity. lia.
  - split; [|split; [|split]]. intros j; do 4 (destruct j as [|j]; [discriminate|]); discriminate. reflexivity. intros j Hj; do 4 (destruct j as [|j]; [(exfalso; lia) || reflexivity|]); reflexivity. intros _. qc.
  - split; [|split; [|split]]. intros j; do 4 (destruct j as [|j]; [discriminate|]); discriminate. reflexivity. intros j Hj; do 4 (destruct j as [|j]; [(exfalso; lia) || reflexivity|]); reflexivity. intros _. qc.
  - split; [|split; [|split]].
    + intros j. destruct j as [|[|[|j]]]; cbn [ftx_P]; try discriminate; qlra.
    + reflexivity.
    + intros j Hj. do 4 (destruct j as [|j]; [exfalso; lia|]). reflexivity.
    + intros _. cbn [sumn ftx_P]. ring.
Qed.
Lemma ftx_all t : all_generations 4 (ftx_P t) ftx_A.
Proof.
  intros i j Hi. bins i 4%nat; do 4 (destruct j as [|j]; [cbn [sumn ftx_P ftx_A Nat.sub]; ring|]); cbn [sumn ftx_P ftx_A Nat.sub]; ring.
Qed.
(* Refuted: the matrix of all generations does not determine the primary spectra. 3 -> 2 -> 0
   and 3 -> 1 -> 0 emit the same quanta in the other order. *)
Theorem primary_unique_refuted : exists n P P' A, primary n P /\ primary n P' /\ all_generations n P A /\ all_generations n P' A /\
  exists i j, (i < n)%nat /\ P i j <> P' i j.
Proof.
  exists 4%nat, (ftx_P 0), (ftx_P 1), ftx_A. split; [|split; [|split; [|split]]].
  - apply ftx_primary; discriminate.
  - apply ftx_primary; discriminate.
  - apply ftx_all.
  - apply ftx_all.
  - exists 3%nat, 1%nat. split; [lia|]. discriminate.
Qed.
Print Assumptions primary_unique_refuted.

(* a ladder of three levels: 2 -> 1 in one of four decays *)
Definition fty_P (i j : nat) : Qc := match i, j with 1%nat, 1%nat => 1 | 2%nat, 1%nat => qn 1 4 | 2%nat, 2%nat => qn 3 4 | _, _ => 0 end.
Definition fty_A (i j : nat) : Qc := match i, j with 1%nat, 1%nat => 1 | 2%nat, 1%nat => qn 1 2 | 2%nat, 2%nat => qn 3 4 | _, _ => 0 end.
Definition fty_pop (i : nat) : Qc := match i with 0%nat => qz 3 | 1%nat => qz 8 | _ => qz 4 end.
Definition fty_m (d : Qc) : matrix := mkM (mkArr 3 [ql [0; 0; 0]%Z; ql [0; 8; 0]%Z; ql [0; 2; 3]%Z]) (arith 0 d 3) (arith 0 d 3) None None.
Definition fty_H : list (list Qc) := [ql [0; 0; 0]%Z; ql [0; 8; 0]%Z; ql [0; 1; 3]%Z].
Example fty_primary : primary 3 fty_P.
Proof.
  intros i Hi. bins i 3%nat; (split; [|split; [|split]]); try reflexivity; try lia;
    try (intros j; do 3 (destruct j as [|j]; [discriminate|]); discriminate);
    try (intros j Hj; do 3 (destruct j as [|j]; [(exfalso; lia) || reflexivity|]); reflexivity); intros _; qc.
Qed.
Example fty_all : all_generations 3 fty_P fty_A.
Proof. intros i j Hi. bins i 3%nat; do 3 (destruct j as [|j]; [qc|]); cbn [sumn fty_P fty_A Nat.sub]; qc. Qed.
Example fty_matrix d : 0 < d -> cascade_matrix (fty_m d) d 3 3 fty_pop fty_A.
Proof.
  intros D. split; [|split; [reflexivity|split; [reflexivity|split; [exact D|split; [lia|split; [lia|split]]]]]].
  - split; [|exact I]. split; [reflexivity|split; [reflexivity|]]. intros r [<-|[<-|[<-|[]]]]; reflexivity.
  - intros i Hi. bins i 3%nat; reflexivity.
  - intros i j Hi Hj. bins i 3%nat; bins j 3%nat; qc.
Qed.
Example fty_array : primary_array 3 3 fty_pop fty_P fty_H.
Proof.
  split; [reflexivity|]. split; [intros r [<-|[<-|[<-|[]]]]; reflexivity|]. intros i j Hi Hj. bins i 3%nat; bins j 3%nat; qc.
Qed.
(* firstgeneration.py:55-71 the parameters of a new object *)
Definition ftx_default (it : nat) : fgen := mkFG it Statistical (qz 430) (qz 200) (qn 3 10) (qz 200) (qz 300) None false.
(* Refuted: with the multiplicity that is used unless another is asked for, which leaves out low
   energies, the primary spectra are not kept.  Energies in keV. *)
Theorem firstgen_statistical_refuted : exists m d n nc pop P A N H H' W i j, primary n P /\ all_generations n P A /\ cascade_matrix m d n nc pop A /\
  mult_norm (ftx_default 10) m = Ok N /\ primary_array n nc pop P H /\ fg_step 0 H H N m None = Ok (H', W) /\
  (i < n)%nat /\ (j < nc)%nat /\ mget H' i j <> pop i * P i j.
Proof.
  destruct (mult_norm (ftx_default 10) (fty_m (qz 1000))) as [N|] eqn:E; [|exfalso; vm_compute in E; discriminate E].
  destruct (fg_step 0 fty_H fty_H N (fty_m (qz 1000)) None) as [[H' W]|] eqn:S; [|exfalso; vm_compute in E; injection E as <-; vm_compute in S; discriminate S].
  exists (fty_m (qz 1000)), (qz 1000), 3%nat, 3%nat, fty_pop, fty_P, fty_A, N, fty_H, H', W, 2%nat, 1%nat.
  split; [apply fty_primary|]. split; [apply fty_all|]. split; [apply fty_matrix; reflexivity|]. split; [exact E|]. split; [apply fty_array|]. split; [exact S|].
  split; [lia|]. split; [lia|]. vm_compute in E. injection E as <-. vm_compute in S. injection S as <- <-. vm_compute. discriminate.
Qed.
Print Assumptions firstgen_statistical_refuted.

(* axes that start at the width of a bin: bin 0 decays to the ground state, a quantum in Eg bin j
   leads from bin i to bin i - j - 1 *)
Definition offset_primary (n : nat) (P : nat -> nat -> Qc) : Prop := forall i, (i < n)%nat ->
  (forall j, 0 <= P i j) /\ (forall j, (i < j)%nat -> P i j = 0) /\ sumn (S i) (P i) = 1.
Definition offset_generations (n : nat) (P A : nat -> nat -> Qc) : Prop := forall i j, (i < n)%nat ->
  A i j = P i j + sumn i (fun k => P i (i - k - 1)%nat * A k j).
Definition ftz_P (i j : nat) : Qc := match i, j with 0%nat, 0%nat => 1 | 1%nat, 0%nat => qn 1 2 | 1%nat, 1%nat => qn 1 2 | _, _ => 0 end.
Definition ftz_A (i j : nat) : Qc := match i, j with 0%nat, 0%nat => 1 | 1%nat, 0%nat => 1 | 1%nat, 1%nat => qn 1 2 | _, _ => 0 end.
Definition ftz_m : matrix := mkM (mkArr 2 [ql [4; 0]%Z; ql [4; 2]%Z]) (arith (qz 200) (qz 200) 2) (arith (qz 200) (qz 200) 2) None None.
(* Refuted: with such axes the weights are read one bin off, and the primary spectra are not
   kept although the multiplicity is right. *)
Theorem firstgen_offset_refuted : exists m d n pop P A g N H H' W i j, 0 < d /\ consistent m /\ Ex m = arith d d n /\ Eg m = arith d d n /\
  offset_primary n P /\ offset_generations n P A /\ (forall i j, (i < n)%nat -> (j < n)%nat -> aget (values m) i j = pop i * A i j) /\
  (forall i, (i < n)%nat -> 0 < pop i) /\ right_multiplicity g m n pop /\ mult_norm g m = Ok N /\ primary_array n n pop P H /\
  fg_step 0 H H N m None = Ok (H', W) /\ (i < n)%nat /\ (j < n)%nat /\ mget H' i j <> pop i * P i j.
Proof.
  pose (g := mkFG 10 TotalMult 0 0 0 0 0 None false). pose (H := [ql [4; 0]%Z; ql [2; 2]%Z]).
  destruct (mult_norm g ftz_m) as [N|] eqn:E; [|exfalso; vm_compute in E; discriminate E].
  destruct (fg_step 0 H H N ftz_m None) as [[H' W]|] eqn:S; [|exfalso; vm_compute in E; injection E as <-; vm_compute in S; discriminate S].
  exists ftz_m, (qz 200), 2%nat, (fun _ => qz 4), ftz_P, ftz_A, g, N, H, H', W, 1%nat, 0%nat.
  split; [reflexivity|]. split; [split; [|exact I]; split; [reflexivity|split; [reflexivity|]]; intros r [<-|[<-|[]]]; reflexivity|].
  split; [reflexivity|]. split; [reflexivity|]. split; [|split; [|split; [|split; [|split; [|split; [|split]]]]]].
  - intros i Hi. bins i 2%nat; (split; [|split]); try (intros j; do 2 (destruct j as [|j]; [discriminate|]); discriminate);
      try (intros j Hj; do 2 (destruct j as [|j]; [(exfalso; lia) || reflexivity|]); reflexivity); qc.
  - intros i j Hi. bins i 2%nat; do 2 (destruct j as [|j]; [qc|]); cbn [sumn ftz_P ftz_A Nat.sub]; qc.
  - intros i j Hi Hj. bins i 2%nat; bins j 2%nat; qc.
  - reflexivity.
  - intros i Hi. bins i 2%nat; qc.
  - exact E.
  - split; [reflexivity|]. split; [intros r [<-|[<-|[]]]; reflexivity|]. intros i j Hi Hj. bins i 2%nat; bins j 2%nat; qc.
  - split; [exact S|]. split; [lia|]. split; [lia|]. vm_compute in E. injection E as <-. vm_compute in S. injection S as <- <-. vm_compute. discriminate.
Qed.
Print Assumptions firstgen_offset_refuted.

(* ---------------------------------------------------------------- examples *)
Definition ftx_g (it : nat) : fgen := mkFG it TotalMult 0 0 0 0 0 None false.
(* ten iterations from the data: the counts of the decay 2 -> 1 *)
Example fty_run : match fg_apply (fun m => Ok m) (ftx_g 10) (fty_m (qz 1000)) with
  | (_, Ok r) => qltb (qabs (aget (values r) 2 1 - 1)) (qn 1 5) && qeqb (aget (values r) 2 2) (qz 3) && qeqb (aget (values r) 1 1) (qz 8) = true
  | _ => False end.
Proof. vm_compute. reflexivity. Qed.
(* the hypotheses of the theorems on one step are met and the primary spectra are kept *)
Example fty_keeps : match mult_norm (ftx_g 10) (fty_m (qz 1000)) with
  | Ok N => match fg_step 0 fty_H fty_H N (fty_m (qz 1000)) None with
    | Ok (H', W) => qeqb (mget H' 2 1) 1 && qeqb (mget H' 2 2) (qz 3) && qeqb (mget H' 1 1) (qz 8) && qeqb (mget W 2 1) (qn 1 4) = true
    | _ => False end
  | _ => False end.
Proof. vm_compute. reflexivity. Qed.
(* the premises of firstgen_converged_counts: an iteration that reproduces its input *)
Definition fty_W : list (list Qc) := [ql [0; 0; 0]%Z; [1; 0; 0]; [qn 3 4; qn 1 4; 0]].
Example fty_converged : match mult_norm (ftx_g 10) (fty_m (qz 1000)) with
  | Ok N => fg_step 7 fty_H fty_W N (fty_m (qz 1000)) None = Ok (fty_H, fty_W)
  | _ => False end.
Proof. destruct (mult_norm _ _) as [N|] eqn:E; vm_compute in E; [|discriminate E]. injection E as <-.
  destruct (fg_step 7 fty_H fty_W _ _ None) as [[H' W']|] eqn:S; vm_compute in S; [|discriminate S]. injection S as <- <-.
  f_equal. f_equal; repeat match goal with |- cons _ _ = cons _ _ => f_equal | |- _ = _ => progress (unfold fty_H, fty_W, ql; cbn [map]) end; try reflexivity; qc.
Qed.
Example fty_weights : decay_weights 3 fty_W.
Proof.
  split; [reflexivity|]. intros i Hi. bins i 3%nat; (split; [reflexivity|split; [|split]]);
    try (intros j Hj; bins j 3%nat; discriminate); try (intros j Hj; bins j 3%nat; (exfalso; lia) || reflexivity).
  - right. intros j Hj. bins j 3%nat; reflexivity.
  - left. qc.
  - left. qc.
Qed.
