(* Lemmas on smoothing and shifting. *)
From Verif Require Import PyBase Axis RebinModel RebinSpec RebinProofs Rebin2DProofs MatrixModel MatrixSpec SmoothModel SmoothSpec.

Lemma Qcmult_lt_0_compat x y : 0 < x -> 0 < y -> 0 < x * y.
Proof. intros. qnra. Qed.
Lemma qtrunc_le_nat x i : x <= qnat i -> (qtrunc x <= Z.of_nat i)%Z.
Proof.
  intros H. destruct (qleb_spec 0 x) as [P|P].
  - rewrite qtrunc_nonneg by assumption. destruct (qfloor_spec x) as [F _]. apply qz_le. change (qz (Z.of_nat i)) with (qnat i). qlra.
  - rewrite qtrunc_neg by qlra. destruct (qceil_spec x) as [C _].
    assert (qceil x < 1)%Z; [|lia]. apply qz_lt. rewrite qz_1. qlra.
Qed.
Lemma nat_le_qtrunc x i : qnat i <= x -> (Z.of_nat i <= qtrunc x)%Z.
Proof.
  intros H. pose proof (qnat_nonneg i) as N. rewrite qtrunc_nonneg by qlra. destruct (qfloor_spec x) as [_ F].
  assert (Z.of_nat i < qfloor x + 1)%Z; [|lia]. apply qz_lt. rewrite qz_add, qz_1. change (qz (Z.of_nat i)) with (qnat i). qlra.
Qed.
Lemma qtrunc_gt x : 0 <= x -> x - 1 < qz (qtrunc x).
Proof. intros H. rewrite qtrunc_nonneg by assumption. destruct (qfloor_spec x) as [_ F]. qlra. Qed.
Lemma qtrunc_le_self x : 0 <= x -> qz (qtrunc x) <= x.
Proof. intros H. rewrite qtrunc_nonneg by assumption. now destruct (qfloor_spec x) as [F _]. Qed.

Lemma near_bounds (a0 a1 i j y : Qc) : 0 < a1 ->
  qabs (a0 + j * a1 - (a0 + i * a1)) <= y * a1 -> i - y <= j /\ j <= i + y.
Proof.
  intros A H. assert (B : - (y * a1) <= (j - i) * a1 /\ (j - i) * a1 <= y * a1).
  { replace (a0 + j * a1 - (a0 + i * a1)) with ((j - i) * a1) in H by ring.
    destruct (qabs_spec ((j - i) * a1)) as [[? Q]|[? Q]]; rewrite Q in H; split; qlra. }
  destruct B as [B1 B2]. split.
  - destruct (qleb_spec (i - y) j) as [|G]; [assumption|]. exfalso.
    assert (0 < (i - y - j) * a1) by (apply Qcmult_lt_0_compat; qlra).
    assert (E : (i - y - j) * a1 = - (y * a1) - (j - i) * a1) by ring. rewrite E in H0. qlra.
  - destruct (qleb_spec j (i + y)) as [|G]; [assumption|]. exfalso.
    assert (0 < (j - (i + y)) * a1) by (apply Qcmult_lt_0_compat; qlra).
    assert (E : (j - (i + y)) * a1 = (j - i) * a1 - y * a1) by ring. rewrite E in H0. qlra.
Qed.
Lemma bounds_near (a0 a1 i j y : Qc) : 0 < a1 -> i - y <= j /\ j <= i + y ->
  qabs (a0 + j * a1 - (a0 + i * a1)) <= y * a1.
Proof.
  intros A [H1 H2]. replace (a0 + j * a1 - (a0 + i * a1)) with ((j - i) * a1) by ring.
  assert (0 <= (j - (i - y)) * a1) by (apply Qcmult_nonneg; qlra).
  assert (0 <= (i + y - j) * a1) by (apply Qcmult_nonneg; qlra).
  assert (E1 : (j - (i - y)) * a1 = (j - i) * a1 + y * a1) by ring. rewrite E1 in H.
  assert (E2 : (i + y - j) * a1 = y * a1 - (j - i) * a1) by ring. rewrite E2 in H0.
  destruct (qabs_spec ((j - i) * a1)) as [[? Q]|[? Q]]; rewrite Q; qlra.
Qed.

Section G.
Variable gaussian : Qc -> Qc -> Qc -> Qc.
Hypothesis gaussian_nonneg : forall e m s, 0 <= s -> 0 <= gaussian e m s.
Hypothesis gaussian_centre : forall m s, 0 <= s -> 0 < gaussian m m s.

Section Axis.
Variable E : list Qc.
Hypothesis EQ : equidistant E.
Let a0 := nth 0 E 0.
Let a1 := width E.
Let n := length E.
Variables (fwhm t : Qc).
Hypothesis Hf : 0 <= fwhm.
Hypothesis Ht : 0 <= t.
Let s := sigma_of fwhm.

Lemma sigma_nonneg : 0 <= s.
Proof. unfold s, sigma_of. apply Qcdiv_nonneg; [exact Hf|]. discriminate. Qed.
Lemma ts_nonneg : 0 <= t * s / a1.
Proof. apply Qcdiv_nonneg; [apply Qcmult_nonneg; [exact Ht|apply sigma_nonneg]|]. destruct EQ as (_ & W & _). unfold a1. qlra. Qed.
Lemma E_at i : (i < n)%nat -> vget E i = a0 + qnat i * a1.
Proof. intros H. destruct EQ as (_ & _ & F). unfold vget, a0, a1. now apply F. Qed.
Lemma a1_pos : 0 < a1. Proof. now destruct EQ as (_ & W & _). Qed.
Lemma low_arg i : (i < n)%nat -> (vget E i - t * s - a0) / a1 = qnat i - t * s / a1.
Proof. intros H. rewrite E_at by assumption. field. pose proof a1_pos. now apply Qclt_neq. Qed.
Lemma high_arg i : (i < n)%nat -> (vget E i + t * s - a0) / a1 = qnat i + t * s / a1.
Proof. intros H. rewrite E_at by assumption. field. pose proof a1_pos. now apply Qclt_neq. Qed.
Definition in_win i j : bool :=
  (trunc_low a0 a1 (vget E i) s t <=? Z.of_nat j)%Z && (Z.of_nat j <=? trunc_high n a0 a1 (vget E i) s t)%Z.
Lemma low_le i : (i < n)%nat -> (trunc_low a0 a1 (vget E i) s t <= Z.of_nat i)%Z.
Proof.
  intros H. unfold trunc_low. rewrite low_arg by assumption. apply Z.max_lub; [lia|]. apply qtrunc_le_nat.
  pose proof ts_nonneg. qlra.
Qed.
Lemma in_win_self i : (i < n)%nat -> in_win i i = true.
Proof.
  intros H. unfold in_win. apply andb_true_iff. split; apply Z.leb_le; [now apply low_le|].
  unfold trunc_high. rewrite high_arg by assumption. apply Z.max_le_iff. left. apply Z.min_glb; [lia|].
  apply nat_le_qtrunc. pose proof ts_nonneg. qlra.
Qed.
Lemma ts_mul : t * s = t * s / a1 * a1.
Proof. field. pose proof a1_pos. now apply Qclt_neq. Qed.
Lemma in_win_near i j : (i < n)%nat -> (j < n)%nat -> qabs (vget E j - vget E i) <= t * s -> in_win i j = true.
Proof.
  intros Hi Hj H. pose proof a1_pos as A. pose proof ts_nonneg as TS. pose proof ts_mul as TM.
  rewrite (E_at i), (E_at j) in H by assumption.
  assert (B : qnat i - t * s / a1 <= qnat j /\ qnat j <= qnat i + t * s / a1).
  { rewrite TM in H. now apply near_bounds in H. }
  unfold in_win. apply andb_true_iff. split; apply Z.leb_le.
  - unfold trunc_low. rewrite low_arg by assumption. apply Z.max_lub; [lia|]. apply qtrunc_le_nat. apply B.
  - unfold trunc_high. rewrite high_arg by assumption. apply Z.max_le_iff. left. apply Z.min_glb; [lia|]. apply nat_le_qtrunc. apply B.
Qed.
Lemma in_win_bound i j : (i < n)%nat -> (j < n)%nat -> in_win i j = true -> qabs (vget E j - vget E i) <= t * s + a1.
Proof.
  intros Hi Hj H. pose proof a1_pos as A. pose proof ts_nonneg as TS. pose proof ts_mul as TM.
  unfold in_win in H. apply andb_true_iff in H as [H1 H2]. apply Z.leb_le in H1, H2.
  assert (B : qnat i - t * s / a1 - 1 <= qnat j /\ qnat j <= qnat i + t * s / a1 + 1).
  { split.
    - unfold trunc_low in H1. rewrite low_arg in H1 by assumption.
      destruct (qleb_spec 0 (qnat i - t * s / a1)) as [P|P].
      + pose proof (qtrunc_gt _ P) as G. assert (G2 : qz (qtrunc (qnat i - t * s / a1)) <= qnat j) by (unfold qnat at 2; apply (proj1 (qz_le _ _)); lia).
        qlra.
      + pose proof (qnat_nonneg j). qlra.
    - unfold trunc_high in H2. rewrite high_arg in H2 by assumption. apply Z.max_le_iff in H2 as [H2|H2].
      + apply Z.min_glb_r in H2. apply qz_le in H2. change (qz (Z.of_nat j)) with (qnat j) in H2.
        assert (P : 0 <= qnat i + t * s / a1) by (pose proof (qnat_nonneg i); qlra). pose proof (qtrunc_le_self _ P). qlra.
      + pose proof (low_le i Hi). assert (G : (Z.of_nat j <= Z.of_nat i + 1)%Z) by lia. apply qz_le in G. rewrite qz_add, qz_1 in G.
        change (qz (Z.of_nat j)) with (qnat j) in G. change (qz (Z.of_nat i)) with (qnat i) in G. qlra. }
  rewrite (E_at i), (E_at j) by assumption. replace (t * s + a1) with ((t * s / a1 + 1) * a1) by (field; now apply Qclt_neq).
  apply bounds_near; [exact A|]. destruct B. split; qlra.
Qed.
Let p i := raw_pdf gaussian E a0 a1 i fwhm t.
Lemma pdf_get i j : (j < n)%nat -> vget (p i) j = if in_win i j then gaussian (vget E j) (vget E i) s else 0.
Proof. intros Hj. unfold p, raw_pdf, vget at 1. rewrite nth_tab by assumption. reflexivity. Qed.
Lemma pdf_nonneg i j : 0 <= vget (p i) j.
Proof.
  destruct (Nat.ltb_spec j n) as [H|H].
  - rewrite pdf_get by assumption. destruct (in_win i j); [apply gaussian_nonneg, sigma_nonneg|qlra].
  - unfold vget. rewrite nth_overflow; [qlra|]. unfold p, raw_pdf. now rewrite tab_length.
Qed.
Lemma pdf_sum i : qsum (p i) = sumn n (vget (p i)).
Proof. rewrite qsum_nth. unfold p, raw_pdf. now rewrite tab_length. Qed.
Lemma sumn_ge_term k f m : (m < k)%nat -> (forall j, (j < k)%nat -> 0 <= f j) -> f m <= sumn k f.
Proof.
  induction k as [|k IH]; intros Hm H; [lia|]. cbn [sumn].
  destruct (Nat.eqb_spec m k) as [->|N].
  - assert (0 <= sumn k f) by (apply sumn_nonneg; intros; apply H; lia). qlra.
  - assert (f m <= sumn k f) by (apply IH; [lia|]; intros; apply H; lia). assert (0 <= f k) by (apply H; lia). qlra.
Qed.
Lemma pdf_sum_pos i : (i < n)%nat -> 0 < qsum (p i).
Proof.
  intros Hi. rewrite pdf_sum. assert (vget (p i) i <= sumn n (vget (p i))) by (apply sumn_ge_term; [exact Hi|intros; apply pdf_nonneg]).
  assert (0 < vget (p i) i); [|qlra]. rewrite pdf_get, in_win_self by assumption. apply gaussian_centre, sigma_nonneg.
Qed.
End Axis.

(* normalised weights *)
Definition wgt (E fw : list Qc) (t : Qc) (i j : nat) : Qc :=
  let p := raw_pdf gaussian E (nth 0 E 0) (width E) i (vget fw i) t in vget p j / qsum p.
Lemma smooth_loop_lemma E arr fw t l a : equidistant E -> (forall x, In x fw -> 0 <= x) -> 0 <= t ->
  (forall i, In i l -> (i < length E)%nat) -> length a = length E ->
  exists out, smooth_loop gaussian arr E fw (nth 0 E 0) (width E) t l (Some a) = Some out /\ length out = length E /\
    forall j, (j < length E)%nat -> vget out j = vget a j + qsum (map (fun i => pos_part (vget arr i) * wgt E fw t i j) l).
Proof.
  intros EQ Hf Ht. revert a. induction l as [|i l IH]; intros a Hl La; cbn [smooth_loop].
  - exists a. split; [reflexivity|]. split; [exact La|]. intros. cbn. ring.
  - assert (Hi : (i < length E)%nat) by (apply Hl; now left).
    assert (F : 0 <= vget fw i) by (now apply vget_nonneg).
    pose proof (pdf_sum_pos E EQ (vget fw i) t F Ht i Hi) as PS.
    assert (Hl' : forall k, In k l -> (k < length E)%nat) by (intros; apply Hl; now right).
    destruct (qltb_spec 0 (vget arr i)) as [P|P].
    + rewrite (proj2 (qeqb_neq _ 0)) by (now apply Qclt_neq).
      set (a' := tab (length E) _).
      destruct (IH a' Hl') as (out & E1 & L1 & G); [apply tab_length|].
      exists out. split; [exact E1|]. split; [exact L1|]. intros j Hj. rewrite G by assumption. unfold a', vget at 1.
      rewrite nth_tab by assumption. cbn [map qsum]. unfold pos_part at 2. rewrite (proj2 (qltb_lt _ _) P). unfold wgt at 2. cbv zeta.
      ring.
    + destruct (IH a Hl' La) as (out & E1 & L1 & G).
      exists out. split; [exact E1|]. split; [exact L1|]. intros j Hj. rewrite G by assumption. cbn [map qsum].
      unfold pos_part at 2. rewrite (proj2 (qltb_ge _ _) P). ring.
Qed.
Lemma wgt_proper E fw t : equidistant E -> (forall x, In x fw -> 0 <= x) -> 0 <= t -> proper_weights (length E) (wgt E fw t).
Proof.
  intros EQ Hf Ht i Hi. assert (F : 0 <= vget fw i) by (now apply vget_nonneg).
  pose proof (pdf_sum_pos E EQ (vget fw i) t F Ht i Hi) as PS. split.
  - unfold wgt. cbv zeta. rewrite sumn_div, <- pdf_sum. field. now apply Qclt_neq.
  - intros j. unfold wgt. cbv zeta. apply Qcdiv_nonneg; [apply pdf_nonneg; assumption|qlra].
Qed.
Lemma seq_sum n (f : nat -> Qc) : qsum (map f (seq 0 n)) = sumn n f.
Proof. change (map f (seq 0 n)) with (tab n f). apply qsum_tab. Qed.
Lemma gauss_smoothing_lemma arr E fw t : equidistant E -> length arr = length E -> length fw = length E ->
  (forall x, In x fw -> 0 <= x) -> 0 <= t ->
  exists out W, gauss_smoothing gaussian arr E fw t = Ok (Some out) /\ length out = length E /\
    (forall j, (j < length E)%nat -> vget out j = sumn (length E) (fun i => pos_part (vget arr i) * W i j)) /\
    proper_weights (length E) W /\
    (forall i j, (i < length E)%nat -> (j < length E)%nat -> W i j <> 0 ->
       qabs (vget E j - vget E i) <= t * (vget fw i / qn 2355 1000) + width E) /\
    (forall i j k, (i < length E)%nat -> (j < length E)%nat -> (k < length E)%nat ->
       let s := vget fw i / qn 2355 1000 in
       qabs (vget E j - vget E i) <= t * s -> qabs (vget E k - vget E i) <= t * s ->
       W i j * gaussian (vget E k) (vget E i) s = W i k * gaussian (vget E j) (vget E i) s).
Proof.
  intros EQ L1 L2 Hf Ht. unfold gauss_smoothing. rewrite L1, L2, Nat.eqb_refl. cbn [negb].
  destruct (smooth_loop_lemma E arr fw t (seq 0 (length E)) (map (fun _ => 0) arr) EQ Hf Ht) as (out & S1 & S2 & S3).
  { intros i Hi. apply in_seq in Hi. lia. }
  { now rewrite map_length. }
  pose proof (wgt_proper E fw t EQ Hf Ht) as PW.
  assert (HW : forall i j, (i < length E)%nat -> (j < length E)%nat ->
     wgt E fw t i j * qsum (raw_pdf gaussian E (nth 0 E 0) (width E) i (vget fw i) t) =
     (if in_win E (vget fw i) t i j then gaussian (vget E j) (vget E i) (sigma_of (vget fw i)) else 0)).
  { intros i j Hi Hj. assert (F : 0 <= vget fw i) by (now apply vget_nonneg).
    rewrite <- pdf_get by assumption. unfold wgt. cbv zeta. field. apply Qclt_neq. now apply (pdf_sum_pos E EQ (vget fw i) t F Ht i Hi). }
  exists out, (wgt E fw t). split; [|split; [exact S2|split; [|split; [exact PW|split]]]].
  - destruct (equidistant_cons2 E EQ) as (e0 & e1 & r & ->).
    assert (Z : qeqb (e1 - e0) 0 = false). { apply qeqb_neq. apply Qclt_neq. destruct EQ as (_ & W & _). exact W. }
    rewrite Z. cbn [andb]. change (e1 - e0) with (width (e0 :: e1 :: r)). change e0 with (nth 0 (e0 :: e1 :: r) 0) at 2.
    now rewrite S1.
  - intros j Hj. rewrite S3 by assumption. rewrite seq_sum.
    assert (Z : vget (map (fun _ => 0) arr) j = 0). { unfold vget. rewrite (map_nth_in _ _ _ 0) by lia. reflexivity. }
    rewrite Z. ring.
  - intros i j Hi Hj N. apply in_win_bound; auto.
    { now apply vget_nonneg. }
    destruct (in_win E (vget fw i) t i j) eqn:B; [reflexivity|]. exfalso. apply N. specialize (HW i j Hi Hj). rewrite B in HW.
    assert (F : 0 <= vget fw i) by (now apply vget_nonneg).
    pose proof (pdf_sum_pos E EQ (vget fw i) t F Ht i Hi) as PS.
    apply Qcmult_integral in HW as [HW|HW]; [exact HW|]. cbv beta in PS. rewrite HW in PS. qlra.
  - intros i j k Hi Hj Hk B1 B2. assert (F : 0 <= vget fw i) by (now apply vget_nonneg).
    pose proof (HW i j Hi Hj) as H1. pose proof (HW i k Hi Hk) as H2.
    rewrite (in_win_near E EQ _ _ F Ht i j Hi Hj B1) in H1. rewrite (in_win_near E EQ _ _ F Ht i k Hi Hk B2) in H2.
    unfold sigma_of in H1, H2. rewrite <- H1, <- H2. ring.
Qed.
Lemma pos_part_nonneg x : 0 <= pos_part x.
Proof. unfold pos_part. destruct (qltb_spec 0 x); qlra. Qed.
Lemma gauss_smoothing_total arr E fw t : equidistant E -> length arr = length E -> length fw = length E ->
  (forall x, In x fw -> 0 <= x) -> 0 <= t ->
  exists out, gauss_smoothing gaussian arr E fw t = Ok (Some out) /\ length out = length E /\
    (forall x, In x out -> 0 <= x) /\ qsum out = qsum (map pos_part arr).
Proof.
  intros EQ L1 L2 Hf Ht. destruct (gauss_smoothing_lemma arr E fw t EQ L1 L2 Hf Ht) as (out & W & S1 & S2 & S3 & PW & _).
  exists out. split; [exact S1|]. split; [exact S2|]. split.
  - intros x Hx. apply (In_nth _ _ 0) in Hx as (j & Hj & <-). change (nth j out 0) with (vget out j). rewrite S3 by lia.
    apply sumn_nonneg. intros i Hi. apply Qcmult_nonneg; [apply pos_part_nonneg|]. now apply PW.
  - rewrite !qsum_nth, map_length, S2, L1. rewrite (sumn_ext _ _ (fun j => sumn (length E) (fun i => pos_part (vget arr i) * W i j))) by assumption.
    rewrite sumn_swap. apply sumn_ext. intros i Hi. rewrite sumn_scal. rewrite (proj1 (PW i Hi)).
    unfold vget at 2. rewrite (map_nth_in _ _ _ 0) by lia. unfold vget. ring.
Qed.
Lemma pos_part_id l : (forall x, In x l -> 0 <= x) -> map pos_part l = l.
Proof.
  intros H. rewrite <- (map_id l) at 2. apply map_ext_in. intros x Hx. unfold pos_part. destruct (qltb_spec 0 x) as [P|P]; [reflexivity|].
  specialize (H x Hx). qlra.
Qed.
Lemma gauss_smoothing_conserves arr E fw t : equidistant E -> length arr = length E -> length fw = length E ->
  (forall x, In x fw -> 0 <= x) -> 0 <= t -> (forall x, In x arr -> 0 <= x) ->
  exists out, gauss_smoothing gaussian arr E fw t = Ok (Some out) /\ length out = length E /\
    (forall x, In x out -> 0 <= x) /\ qsum out = qsum arr.
Proof.
  intros EQ L1 L2 Hf Ht Ha. destruct (gauss_smoothing_total arr E fw t EQ L1 L2 Hf Ht) as (out & H).
  rewrite (pos_part_id arr Ha) in H. now exists out.
Qed.
Lemma gauss_smoothing_length arr E fw t out : gauss_smoothing gaussian arr E fw t = Ok (Some out) -> length out = length E.
Proof.
  unfold gauss_smoothing. destruct (Nat.eqb_spec (length arr) (length E)) as [L|]; [|discriminate]. cbn [negb].
  destruct (Nat.eqb_spec (length arr) (length fw)); [|discriminate]. cbn [negb].
  destruct E as [|e0 [|e1 E]]; try discriminate. set (EE := e0 :: e1 :: E) in *.
  destruct (qeqb (e1 - e0) 0 && existsb (qltb 0) arr); [discriminate|]. intros [= H].
  assert (G : forall l a, length a = length EE -> smooth_loop gaussian arr EE fw e0 (e1 - e0) t l (Some a) = Some out -> length out = length EE).
  { clear H. assert (N : forall l, smooth_loop gaussian arr EE fw e0 (e1 - e0) t l None <> Some out).
    { induction l as [|i l IH]; cbn [smooth_loop]; [discriminate|]. cbv zeta. destruct (qltb 0 (vget arr i)); [|exact IH].
      destruct (qeqb _ 0); exact IH. }
    induction l as [|i l IH]; intros a La H; cbn [smooth_loop] in H.
    - injection H as <-. exact La.
    - cbv zeta in H. destruct (qltb 0 (vget arr i)); [|now apply (IH a)].
      destruct (qeqb _ 0); [now apply N in H|]. eapply IH; [|exact H]. apply tab_length. }
  eapply G; [|exact H]. rewrite map_length. exact L.
Qed.
Lemma gauss_smoothing_rejects_lemma arr E fw t : length arr <> length E \/ length arr <> length fw ->
  gauss_smoothing gaussian arr E fw t = Raise ValueError.
Proof.
  intros H. unfold gauss_smoothing. destruct (Nat.eqb_spec (length arr) (length E)) as [L|]; [|reflexivity]. cbn [negb].
  destruct (Nat.eqb_spec (length arr) (length fw)) as [L2|]; [|reflexivity]. tauto.
Qed.
Lemma rmapm_forall2 {A B} (f : A -> result B) (P : A -> B -> Prop) l : (forall x, In x l -> exists y, f x = Ok y /\ P x y) ->
  exists m, rmapm f l = Ok m /\ Forall2 P l m.
Proof.
  induction l as [|x l IH]; intros H; cbn [rmapm].
  - exists []. split; [reflexivity|constructor].
  - destruct (H x (or_introl eq_refl)) as (y & E1 & Py). rewrite E1. cbn [rbind].
    destruct IH as (m & E2 & F); [intros; apply H; now right|]. rewrite E2. cbn [rbind]. exists (y :: m). split; [reflexivity|]. now constructor.
Qed.
(* the matrix version *)
Lemma fwhm_list_ok f E : match f with FwNum q => 0 <= q | FwArr l => length l = length E /\ forall x, In x l -> 0 <= x end ->
  length (fwhm_list f E) = length E /\ forall x, In x (fwhm_list f E) -> 0 <= x.
Proof.
  destruct f as [q|l]; cbn; [|trivial]. intros H. split; [apply map_length|]. intros x Hx. apply in_map_iff in Hx as (y & <- & _). exact H.
Qed.
Lemma smooth_matrix_rows m E f ax t nr : shaped m nr (length E) -> equidistant E -> to_plot_axis ax = Ok AxEg ->
  match f with FwNum q => 0 <= q | FwArr l => length l = length E /\ forall x, In x l -> 0 <= x end -> 0 <= t ->
  (forall r x, In r (a_rows m) -> In x r -> 0 <= x) ->
  exists rows, smooth_matrix gaussian m E f ax t = Ok rows /\
    Forall2 (fun r o => exists out, o = Some out /\ length out = length E /\ (forall x, In x out -> 0 <= x) /\ qsum out = qsum r)
      (a_rows m) rows.
Proof.
  intros (S1 & S2 & S3) EQ AX Hf Ht Hn. destruct (fwhm_list_ok f E Hf) as [FL FN]. unfold smooth_matrix. cbv zeta. rewrite AX. cbn [rbind].
  apply rmapm_forall2. intros r Hr. destruct (gauss_smoothing_conserves r E (fwhm_list f E) t EQ (S3 r Hr) FL FN Ht (fun x => Hn r x Hr)) as (out & E1 & H).
  exists (Some out). split; [exact E1|]. exists out. split; [reflexivity|exact H].
Qed.
Lemma smooth_matrix_cols m E f ax t nc : shaped m (length E) nc -> equidistant E -> to_plot_axis ax = Ok AxEx ->
  match f with FwNum q => 0 <= q | FwArr l => length l = length E /\ forall x, In x l -> 0 <= x end -> 0 <= t ->
  (forall r x, In r (a_rows m) -> In x r -> 0 <= x) ->
  exists cols, smooth_matrix gaussian m E f ax t = Ok cols /\
    Forall2 (fun j o => exists out, o = Some out /\ length out = length E /\ (forall x, In x out -> 0 <= x) /\ qsum out = qsum (col (a_rows m) j))
      (seq 0 nc) cols.
Proof.
  intros (S1 & S2 & S3) EQ AX Hf Ht Hn. destruct (fwhm_list_ok f E Hf) as [FL FN]. unfold smooth_matrix. cbv zeta. rewrite AX. cbn [rbind].
  rewrite S1. apply rmapm_forall2. intros j Hj. apply in_seq in Hj.
  assert (N : forall x, In x (col (a_rows m) j) -> 0 <= x).
  { intros x Hx. unfold col in Hx. apply in_map_iff in Hx as (r & <- & Hr). unfold vget. apply (Hn r); [exact Hr|]. apply nth_In. rewrite (S3 r Hr). lia. }
  destruct (gauss_smoothing_conserves (col (a_rows m) j) E (fwhm_list f E) t EQ) as (out & E1 & H); auto.
  { rewrite col_length. exact S2. }
  exists (Some out). split; [exact E1|]. exists out. split; [reflexivity|exact H].
Qed.
End G.

(* --- shift --- *)
Lemma shift_axis E s : equidistant E -> equidistant (map (fun e => e + s) E) /\ width (map (fun e => e + s) E) = width E /\
  length (map (fun e => e + s) E) = length E /\
  forall i, (i < length E)%nat -> bin_lo (map (fun e => e + s) E) i = bin_lo E i + s.
Proof.
  intros (L & W & H). assert (G : forall i, (i < length E)%nat -> nth i (map (fun e => e + s) E) 0 = nth i E 0 + s)
    by (intros; now rewrite (map_nth_in _ _ _ 0)).
  assert (WE : width (map (fun e => e + s) E) = width E) by (unfold width; rewrite !G by lia; ring).
  split; [|split; [exact WE|split; [apply map_length|]]].
  - split; [now rewrite map_length|]. rewrite WE. split; [exact W|]. intros i Hi. rewrite map_length in Hi. rewrite !G by lia.
    rewrite H by assumption. ring.
  - intros i Hi. unfold bin_lo. rewrite WE, G by assumption. ring.
Qed.
Lemma qz_gap (a b : Z) : a <> b -> qz a + 1 <= qz b \/ qz b + 1 <= qz a.
Proof.
  intros N. destruct (Z.lt_total a b) as [H|[H|H]]; [left|contradiction|right]; rewrite <- qz_1, <- qz_add; apply (proj1 (qz_le _ _)); lia.
Qed.
Lemma shift_bins counts E k : equidistant E -> length counts = length E ->
  shift counts E (qz k * width E) = Ok (moved_by k counts).
Proof.
  intros EQ L. destruct (shift_axis E (qz k * width E) EQ) as (EQ' & WE & LE & BL). unfold shift.
  destruct (rebin_full_sum_lemma counts _ E EQ' EQ) as (out & E1 & L1 & G); [congruence|]. rewrite E1. f_equal.
  apply (list_eq_nth _ _ 0); [unfold moved_by; rewrite tab_length; congruence|].
  intros j Hj. rewrite L1 in Hj. change (nth j out 0) with (vget out j). rewrite G by assumption.
  unfold moved_by. rewrite nth_tab by lia. unfold rebin_spec. rewrite LE, WE.
  assert (A : 0 < width E) by apply EQ.
  assert (T : forall i, (i < length E)%nat ->
    vget counts i * part_in (bin_lo E j) (bin_hi E j) (bin_lo (map (fun e => e + qz k * width E) E) i) (bin_hi (map (fun e => e + qz k * width E) E) i) / width E
    = if (Z.of_nat i =? Z.of_nat j - k)%Z then vget counts i else 0).
  { intros i Hi. rewrite !bin_hi_lo, WE, BL, !bin_lo_eq by assumption.
    destruct (Z.eqb_spec (Z.of_nat i) (Z.of_nat j - k)) as [Q|Q].
    - assert (Q2 : qnat j = qnat i + qz k). { unfold qnat. rewrite <- qz_add. f_equal. lia. }
      rewrite part_in_full; [|try rewrite Q2; qlra..]. field. now apply Qclt_neq.
    - assert (Q' : (Z.of_nat i + k <> Z.of_nat j)%Z) by lia. apply qz_gap in Q'. rewrite qz_add in Q'.
      change (qz (Z.of_nat i)) with (qnat i) in Q'. change (qz (Z.of_nat j)) with (qnat j) in Q'.
      destruct Q' as [Q'|Q'].
      + rewrite part_in_none_l; [unfold Qcdiv; ring| |qlra|qlra].
        assert (0 <= (qnat j - (qnat i + qz k + 1)) * width E) by (apply Qcmult_nonneg; qlra). qnra.
      + rewrite part_in_none_r; [unfold Qcdiv; ring| |qlra|qlra].
        assert (0 <= (qnat i + qz k - (qnat j + 1)) * width E) by (apply Qcmult_nonneg; qlra). qnra. }
  rewrite (sumn_ext _ _ _ T). cbv zeta.
  destruct (Z.leb_spec 0 (Z.of_nat j - k)) as [P|P]; [destruct (Z.ltb_spec (Z.of_nat j - k) (Z.of_nat (length counts))) as [P2|P2]|]; cbn [andb].
  - rewrite (sumn_single _ _ (Z.to_nat (Z.of_nat j - k))); [|lia|].
    + rewrite Z2Nat.id by assumption. now rewrite Z.eqb_refl.
    + intros i Hi Ni. destruct (Z.eqb_spec (Z.of_nat i) (Z.of_nat j - k)); [|reflexivity]. lia.
  - apply sumn_0. intros i Hi. destruct (Z.eqb_spec (Z.of_nat i) (Z.of_nat j - k)); [|reflexivity]. lia.
  - apply sumn_0. intros i Hi. destruct (Z.eqb_spec (Z.of_nat i) (Z.of_nat j - k)); [|reflexivity]. lia.
Qed.
Lemma shift_any counts E s : equidistant E -> length counts = length E ->
  exists out, shift counts E s = Ok out /\ length out = length E /\
    qsum out = counts_in counts (map (fun e => e + s) E) (axis_lo E) (axis_hi E) /\
    ((forall x, In x counts -> 0 <= x) -> (forall x, In x out -> 0 <= x) /\ qsum out <= qsum counts).
Proof.
  intros EQ L. destruct (shift_axis E s EQ) as (EQ' & WE & LE & BL). unfold shift.
  destruct (rebin_full_sum_lemma counts _ E EQ' EQ) as (out & E1 & L1 & G); [congruence|].
  exists out. split; [exact E1|]. split; [exact L1|]. split.
  - eapply rebin_total_lemma; [exact EQ'|exact EQ|congruence|exact E1].
  - intros N. eapply rebin_nonneg_lemma; [exact EQ'|exact EQ|congruence|exact N|exact E1].
Qed.
Lemma shift_matrix_bins rows E k : equidistant E -> (forall r, In r rows -> length r = length E) ->
  shift_matrix rows E (qz k * width E) = Ok (map (moved_by k) rows).
Proof. intros EQ H. unfold shift_matrix. apply rmapm_ok. intros r Hr. apply shift_bins; auto. Qed.
