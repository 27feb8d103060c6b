From Verif Require Import PyBase MatrixModel ArithModel CutSpec IndexProofs DecompModel DecompSpec DecompProofs.

Lemma raw_row_sum (m : list (list Qc)) i n : length (nth i m []) = n -> qsum (nth i m []) = sumn n (mget m i).
Proof. intros H. rewrite qsum_nth, H. reflexivity. Qed.

(* a row of the normalised matrix *)
Lemma normalize_row m i : nth i (normalize_rows m) [] = map (fun x => xdiv (Fin x) (Fin (qsum (nth i m [])))) (nth i m []).
Proof.
  unfold normalize_rows. destruct (Nat.lt_ge_cases i (length m)) as [H|H].
  - rewrite nth_indep with (d' := (fun r => map (fun x => xdiv (Fin x) (Fin (qsum r))) r) []) by now rewrite map_length.
    exact (map_nth (fun r => map (fun x => xdiv (Fin x) (Fin (qsum r))) r) m [] i).
  - rewrite !nth_overflow by (rewrite ?map_length; lia). reflexivity.
Qed.
Lemma normalize_get m i j : (j < length (nth i m []))%nat ->
  nth j (nth i (normalize_rows m) []) NaN = xdiv (Fin (mget m i j)) (Fin (qsum (nth i m []))).
Proof.
  intros H. rewrite normalize_row.
  rewrite nth_indep with (d' := (fun x => xdiv (Fin x) (Fin (qsum (nth i m [])))) 0) by now rewrite map_length.
  apply (map_nth (fun x => xdiv (Fin x) (Fin (qsum (nth i m []))))).
Qed.

Lemma nth_in_nonneg l k : nonneg_list l -> 0 <= nth k l 0.
Proof.
  intros H. destruct (Nat.lt_ge_cases k (length l)) as [L|L]; [apply H, nth_In, L|]. rewrite nth_overflow by exact L. auto.
Qed.

Lemma product_lemma (p : pin Qc) : pin_ok p -> nondecreasing (p_Eg p) -> nondecreasing (p_E p) -> nonneg_list (p_nld p) -> nonneg_list (p_T p) ->
  exists raw m, nld_T_product p = Some m /\ length m = length (p_Ex p) /\
  forall i, (i < length (p_Ex p))%nat -> length (nth i m []) = length (p_Eg p) /\
    (forall j, (j < length (p_Eg p))%nat ->
      0 <= raw i j /\ (~ allowed p i j -> raw i j = 0) /\
      (allowed p i j -> exists k, nearest (p_E p) (vget (p_Ex p) i - vget (p_Eg p) j) k /\ (k < length (p_nld p))%nat /\ raw i j = vget (p_nld p) k * vget (p_T p) j)) /\
    let s := sumn (length (p_Eg p)) (raw i) in
    (0 < s -> forall j, (j < length (p_Eg p))%nat -> nth j (nth i m []) NaN = Fin (raw i j / s)) /\
    (s = 0 -> forall j, (j < length (p_Eg p))%nat -> nth j (nth i m []) (Fin 0) = NaN).
Proof.
  intros OK ND NE PN PT. destruct (raw_product_ok Qc 0 Qcmult p OK ND) as (r & E & L & LR & H).
  exists (mget r), (normalize_rows r). unfold nld_T_product. rewrite E.
  split; [reflexivity|]. split; [unfold normalize_rows; now rewrite map_length|]. intros i Hi.
  split; [rewrite normalize_row, map_length; now apply LR|].
  assert (PV : forall j, 0 <= pval Qc 0 Qcmult p i j).
  { intros j. unfold pval. apply Qcmult_nonneg; now apply nth_in_nonneg. }
  assert (NN : forall j, (j < length (p_Eg p))%nat -> 0 <= mget r i j).
  { intros j Hj. unfold mget, vget. rewrite (H i j Hi Hj). destruct (qleb _ _); auto. }
  split.
  - intros j Hj. split; [now apply NN|]. unfold mget, vget. rewrite (H i j Hi Hj). unfold allowed.
    destruct (qleb_spec (vget (p_Eg p) j) (vget (p_Ex p) i + vget (p_res p) i + half_width p)) as [A|A].
    + split; [intros C; contradiction|]. intros _. eexists. split; [apply index_nearest_lemma; [apply OK|exact NE]|].
      split; [|reflexivity]. destruct OK as (_ & HE & HN & _). rewrite HN. now apply index_bound.
    + split; [reflexivity|]. intros C. exfalso. qlra.
  - cbv zeta. assert (LI := LR i Hi). change (fun j => mget r i j) with (mget r i). rewrite <- (raw_row_sum r i _ LI). split.
    + intros P j Hj. rewrite normalize_get by lia. unfold xdiv. rewrite (proj2 (qeqb_neq _ _)); [reflexivity|]. now apply Qclt_neq.
    + intros Z j Hj. assert (Z0 : mget r i j = 0).
      { rewrite (raw_row_sum r i _ LI) in Z. apply (sumn_nonneg_0 (length (p_Eg p)) (mget r i)); [exact NN|exact Z|exact Hj]. }
      rewrite nth_indep with (d' := NaN) by (rewrite normalize_row, map_length; lia).
      rewrite normalize_get by lia. rewrite Z, Z0. reflexivity.
Qed.

(* chi square *)
Lemma rd2_some m i j nr nc : rect m nr nc -> (i < nr)%nat -> (j < nc)%nat -> rd2 m i j = Some (mget m i j).
Proof.
  intros [L H] Hi Hj. unfold rd2, mget, vget. rewrite (nth_error_nth_lt m i []) by lia. apply nth_error_nth_lt.
  rewrite H; [exact Hj|]. apply nth_In. lia.
Qed.
Section Chi.
Variables (fact fit std : list (list Qc)) (nr nc : nat).
Hypothesis (R1 : rect fact nr nc) (R2 : rect fit nr nc) (R3 : rect std nr nc).
Lemma chi_term_lemma i j chi : (i < nr)%nat -> (j < nc)%nat -> chi_term fact fit std i j chi = Some (chi + chi2_bin fact fit std i j).
Proof.
  intros Hi Hj. unfold chi_term, chi2_bin. rewrite (rd2_some std i j nr nc), (rd2_some fact i j nr nc), (rd2_some fit i j nr nc) by assumption.
  destruct (qeqb _ _); f_equal; ring.
Qed.
Lemma chi_j_lemma i : (i < nr)%nat -> forall f j chi, (j + f <= nc)%nat ->
  chi_j fact fit std i f j chi = Some (chi + sumn f (fun k => chi2_bin fact fit std i (j + k))).
Proof.
  intros Hi. induction f as [|f IH]; intros j chi B; cbn [chi_j]; [cbn [sumn]; f_equal; ring|].
  rewrite chi_term_lemma by lia. rewrite IH by lia. f_equal. rewrite sumn_S_l, Nat.add_0_r.
  rewrite (sumn_ext f _ (fun k => chi2_bin fact fit std i (j + S k))); [ring|]. intros k _. f_equal. lia.
Qed.
Lemma chi_i_lemma : forall f i chi, (i + f <= nr)%nat ->
  chi_i fact fit std nc f i chi = Some (chi + sumn f (fun k => sumn nc (chi2_bin fact fit std (i + k)))).
Proof.
  induction f as [|f IH]; intros i chi B; cbn [chi_i]; [cbn [sumn]; f_equal; ring|].
  rewrite chi_j_lemma by lia. rewrite IH by lia. f_equal. rewrite sumn_S_l, Nat.add_0_r. cbn [Nat.add].
  rewrite (sumn_ext f _ (fun k => sumn nc (chi2_bin fact fit std (i + S k)))); [|intros k _; f_equal; f_equal; lia].
  change (fun k => chi2_bin fact fit std i k) with (chi2_bin fact fit std i). ring.
Qed.
Lemma chisquare_lemma : chisquare nr nc fact fit std = Some (sumn nr (fun i => sumn nc (chi2_bin fact fit std i))).
Proof. unfold chisquare. rewrite chi_i_lemma by lia. f_equal. cbn [Nat.add]. ring. Qed.

Variables (res Eg Ex : list Qc).
Hypothesis (LEg : length Eg = nc) (LEx : length Ex = nr) (Lres : length res = nr) (ND : nondecreasing Eg).
Lemma chid_j_lemma i emax : (i < nr)%nat -> forall f j chi, (j + f = nc)%nat ->
  chid_j fact fit std Eg emax i f j chi = Some (chi + sumn f (fun k => if qleb (vget Eg (j + k)) emax then chi2_bin fact fit std i (j + k) else 0)).
Proof.
  intros Hi. induction f as [|f IH]; intros j chi B; cbn [chid_j]; [cbn [sumn]; f_equal; ring|].
  rewrite (nth_error_nth_lt Eg j 0) by lia. change (nth j Eg 0) with (vget Eg j).
  rewrite sumn_S_l, Nat.add_0_r. destruct (qltb_spec emax (vget Eg j)) as [H|H].
  - f_equal. rewrite (proj2 (qleb_gt _ _) H). rewrite sumn_0; [ring|]. intros k Hk.
    destruct (qleb_spec (vget Eg (j + S k)) emax) as [C|C]; [|reflexivity]. exfalso.
    pose proof (SSorted_nth _ _ 0 ND j (j + S k) ltac:(lia)) as Q. cbv beta in Q. unfold vget in *. qlra.
  - rewrite (proj2 (qleb_le _ _) H). rewrite chi_term_lemma by lia. rewrite IH by lia. f_equal.
    rewrite (sumn_ext f _ (fun k => if qleb (vget Eg (j + S k)) emax then chi2_bin fact fit std i (j + S k) else 0)); [ring|].
    intros k _. replace (S j + k)%nat with (j + S k)%nat by lia. reflexivity.
Qed.
Lemma chid_i_lemma : forall f i chi, (i + f <= nr)%nat ->
  chid_i fact fit std res Eg Ex f i chi =
  Some (chi + sumn f (fun k => sumn nc (fun j => if below res Eg Ex (i + k) j then chi2_bin fact fit std (i + k) j else 0))).
Proof.
  induction f as [|f IH]; intros i chi B; cbn [chid_i]; [cbn [sumn]; f_equal; ring|].
  rewrite (nth_error_nth_lt Ex i 0), (nth_error_nth_lt res i 0) by lia. rewrite LEg, chid_j_lemma by lia. rewrite IH by lia.
  f_equal. rewrite sumn_S_l, Nat.add_0_r. cbn [Nat.add].
  rewrite (sumn_ext f _ (fun k => sumn nc (fun j => if below res Eg Ex (i + S k) j then chi2_bin fact fit std (i + S k) j else 0)));
    [unfold below, vget; ring|]. intros k _. replace (S (i + k))%nat with (i + S k)%nat by lia. reflexivity.
Qed.
Lemma chid_lemma : chisquare_diagonal fact fit std res Eg Ex =
  Some (sumn nr (fun i => sumn nc (fun j => if below res Eg Ex i j then chi2_bin fact fit std i j else 0))).
Proof. unfold chisquare_diagonal. rewrite LEx, chid_i_lemma by lia. f_equal. cbn [Nat.add]. ring. Qed.
End Chi.

Lemma qsq_nonneg (x : Qc) : 0 <= x * x.
Proof. destruct (qleb_spec 0 x); qnra. Qed.
Lemma chi2_bin_nonneg fact fit std i j : 0 <= chi2_bin fact fit std i j.
Proof. unfold chi2_bin. destruct (qeqb _ _); [auto|]. apply Qcdiv_nonneg; apply qsq_nonneg. Qed.
Lemma chi2_bin_zero fact fit std i j : chi2_bin fact fit std i j = 0 <-> (mget std i j <> 0 -> mget fact i j = mget fit i j).
Proof.
  unfold chi2_bin. destruct (qeqb_spec (mget std i j) 0) as [E|E]; [split; [intros _ C; contradiction|reflexivity]|].
  set (d := mget fact i j - mget fit i j). set (s := mget std i j) in *. split.
  - intros H _. assert (D : d * d = 0).
    { replace (d * d) with (d * d / (s * s) * (s * s)) by (field; exact E). rewrite H. ring. }
    assert (D0 : d = 0) by (apply Qcmult_integral in D; tauto). unfold d in D0. clearbody s. clear - D0. qlra.
  - intros H. specialize (H E). unfold d. rewrite H. field. exact E.
Qed.
Lemma double_sum_zero nr nc (f : nat -> nat -> Qc) : (forall i j, 0 <= f i j) ->
  (sumn nr (fun i => sumn nc (f i)) = 0 <-> forall i j, (i < nr)%nat -> (j < nc)%nat -> f i j = 0).
Proof.
  intros P. split.
  - intros H i j Hi Hj. apply (sumn_nonneg_0 nc (f i)); [intros; apply P| |exact Hj].
    apply (sumn_nonneg_0 nr (fun i => sumn nc (f i))); [intros; apply sumn_nonneg; intros; apply P|exact H|exact Hi].
  - intros H. apply sumn_0. intros i Hi. apply sumn_0. intros j Hj. now apply H.
Qed.
