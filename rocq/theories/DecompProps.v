(* C46-C49: product of level density and transmission, chi square.  Vocabulary in
   DecompSpec.v. *)
From Verif Require Import PyBase MatrixModel ArithModel CutSpec DecompModel DecompSpec DecompProofs DecompNormProofs.

(* C46.  w i j is the unnormalised product: rho at the grid energy nearest to Ex-Eg times
   T(Eg) where Eg <= Ex + resolution + half a bin, zero elsewhere.  Every row is that
   divided by its sum, or NaN everywhere if the sum is zero. *)
Theorem product_is_probability : forall p : pin Qc, pin_ok p -> nondecreasing (p_Eg p) -> nondecreasing (p_E p) ->
  nonneg_list (p_nld p) -> nonneg_list (p_T p) ->
  exists w m, nld_T_product p = Some m /\ length m = length (p_Ex p) /\
  forall i, (i < length (p_Ex p))%nat -> length (nth i m []) = length (p_Eg p) /\
    (forall j, (j < length (p_Eg p))%nat ->
      0 <= w i j /\ (~ allowed p i j -> w i j = 0) /\
      (allowed p i j -> exists k, nearest (p_E p) (vget (p_Ex p) i - vget (p_Eg p) j) k /\ (k < length (p_nld p))%nat /\
                                 w i j = vget (p_nld p) k * vget (p_T p) j)) /\
    let s := sumn (length (p_Eg p)) (w i) in
    (0 < s -> forall j, (j < length (p_Eg p))%nat -> nth j (nth i m []) NaN = Fin (w i j / s)) /\
    (s = 0 -> forall j, (j < length (p_Eg p))%nat -> nth j (nth i m []) (Fin 0) = NaN).
Proof. exact product_lemma. Qed.
Print Assumptions product_is_probability.
(* ... and therefore: a row with one finite entry is finite, non-negative, zero above the
   diagonal and sums to one *)
Theorem product_rows_sum_to_one : forall p m i, pin_ok p -> nondecreasing (p_Eg p) -> nondecreasing (p_E p) ->
  nonneg_list (p_nld p) -> nonneg_list (p_T p) -> nld_T_product p = Some m -> (i < length (p_Ex p))%nat ->
  (forall j, (j < length (p_Eg p))%nat -> nth j (nth i m []) (Fin 0) = NaN) \/
  exists row, nth i m [] = map Fin row /\ length row = length (p_Eg p) /\ qsum row = 1 /\
    forall j, (j < length (p_Eg p))%nat -> 0 <= vget row j /\ (~ allowed p i j -> vget row j = 0).
Proof.
  intros p m i OK N1 N2 P1 P2 E Hi. destruct (product_lemma p OK N1 N2 P1 P2) as (w & m' & E' & L & H).
  rewrite E in E'. injection E' as <-. destruct (H i Hi) as (LR & W & S1 & S2). cbv zeta in *.
  set (s := sumn (length (p_Eg p)) (w i)) in *.
  assert (SP : 0 <= s) by (apply sumn_nonneg; intros j Hj; now apply W).
  destruct (Qc_dec_eq s 0) as [Z|Z]; [left; exact (S2 Z)|right].
  assert (S0 : 0 < s) by (destruct (Qcle_lt_or_eq 0 s SP); [assumption|congruence]).
  exists (tab (length (p_Eg p)) (fun j => w i j / s)). split; [|split; [apply tab_length|split]].
  - apply (list_eq_nth _ _ NaN); [now rewrite map_length, tab_length|]. intros j Hj. rewrite LR in Hj. rewrite (S1 S0 j Hj).
    rewrite map_tab, nth_tab by exact Hj. reflexivity.
  - rewrite qsum_tab, sumn_div. fold s. field. exact Z.
  - intros j Hj. unfold vget. rewrite nth_tab by exact Hj. destruct (W j Hj) as (W1 & W2 & _). split.
    + apply Qcdiv_nonneg; [exact W1|exact SP].
    + intros NA. rewrite (W2 NA). unfold Qcdiv. ring.
Qed.
Print Assumptions product_rows_sum_to_one.
(* inputs of matching sizes never cause an out-of-bounds access *)
Theorem product_defined : forall p : pin Qc, pin_ok p -> nondecreasing (p_Eg p) -> exists m, nld_T_product p = Some m.
Proof.
  intros p OK ND. destruct (raw_product_ok Qc 0 Qcmult p OK ND) as (r & E & _). unfold nld_T_product. rewrite E. eauto.
Qed.
Print Assumptions product_defined.

Example dx : pin Qc := mkPin (ql [1; 2; 4; 8; 16]%Z) (ql [3; 5; 7]%Z) (ql [0; 0; 0]%Z) (ql [-2; -1; 0; 1; 2]%Z) (ql [1; 2; 3]%Z) (ql [1; 2; 3]%Z).
Example dx_ok : pin_ok dx. Proof. vm_compute. repeat split; try lia; discriminate. Qed.
Definition xeqb (x y : xnum) : bool := match x, y with Fin a, Fin b => qeqb a b | PInf, PInf | NInf, NInf | NaN, NaN => true | _, _ => false end.
Example dx_run : match nld_T_product dx with
  | Some [[a; b; c]; [d; e; f]; [g; h; k]] =>
      xeqb a (Fin 1) && xeqb b (Fin 0) && xeqb c (Fin 0) && xeqb d (Fin (qn 24 44)) && xeqb e (Fin (qn 20 44)) && xeqb f (Fin 0)
      && xeqb g (Fin (qn 48 116)) && xeqb h (Fin (qn 40 116)) && xeqb k (Fin (qn 28 116))
  | _ => false end = true.
Proof. vm_compute. reflexivity. Qed.

(* C47.  Whatever the interleaving of the rows: if all tasks have finished, the matrix is the
   sequential result. *)
Theorem product_schedule_independent : forall V v0 vmul (p : pin V) sched, (2 <= length (p_Eg p))%nat ->
  all_done (prun V v0 vmul p sched) -> raw_product V v0 vmul p = Some (fst (prun V v0 vmul p sched)).
Proof. exact parallel_lemma. Qed.
Print Assumptions product_schedule_independent.
(* ... every schedule that lets each row move often enough finishes *)
Theorem product_schedule_terminates : forall V v0 vmul (p : pin V) sched, pin_ok p ->
  (forall i, (i < length (p_Ex p))%nat -> (4 * length (p_Eg p) + 2 <= count_occ Nat.eq_dec sched i)%nat) ->
  all_done (prun V v0 vmul p sched).
Proof. exact parallel_terminates_lemma. Qed.
Print Assumptions product_schedule_terminates.
(* ... and at any moment a row that has finished already holds its final values *)
Theorem product_row_final : forall V v0 vmul (p : pin V) sched m i, (2 <= length (p_Eg p))%nat ->
  raw_product V v0 vmul p = Some m -> (i < length (p_Ex p))%nat ->
  nth i (snd (prun V v0 vmul p sched)) PBad = PDone -> nth i (fst (prun V v0 vmul p sched)) [] = nth i m [].
Proof. exact parallel_row_lemma. Qed.
Print Assumptions product_row_final.
Example dx_sched : list nat := concat (repeat [2; 0; 1]%nat 14).
Example dx_sched_fair : forall i, (i < length (p_Ex dx))%nat -> (4 * length (p_Eg dx) + 2 <= count_occ Nat.eq_dec dx_sched i)%nat.
Proof. intros i Hi. change (length (p_Ex dx)) with 3%nat in Hi. destruct i as [|[|[|i]]]; [vm_compute; lia..|lia]. Qed.
Example dx_parallel : exists m, raw_product Qc 0 Qcmult dx = Some m /\ fst (prun Qc 0 Qcmult dx dx_sched) = m.
Proof.
  eexists. split; [|reflexivity]. apply product_schedule_independent; [vm_compute; lia|].
  apply product_schedule_terminates; [exact dx_ok|exact dx_sched_fair].
Qed.

(* C49.  chisquare: the sum over all bins, bins without uncertainty skipped. *)
Theorem chisquare_value : forall fact fit std nr nc, rect fact nr nc -> rect fit nr nc -> rect std nr nc ->
  chisquare nr nc fact fit std = Some (sumn nr (fun i => sumn nc (chi2_bin fact fit std i))).
Proof. exact chisquare_lemma. Qed.
Print Assumptions chisquare_value.
Theorem chisquare_measure : forall fact fit std nr nc, rect fact nr nc -> rect fit nr nc -> rect std nr nc ->
  exists c, chisquare nr nc fact fit std = Some c /\ 0 <= c /\
  (c = 0 <-> forall i j, (i < nr)%nat -> (j < nc)%nat -> mget std i j <> 0 -> mget fact i j = mget fit i j).
Proof.
  intros * R1 R2 R3. eexists. split; [apply (chisquare_lemma fact fit std nr nc R1 R2 R3)|]. split.
  - apply sumn_nonneg. intros i _. apply sumn_nonneg. intros j _. apply chi2_bin_nonneg.
  - rewrite double_sum_zero by (intros; apply chi2_bin_nonneg). split; intros H i j Hi Hj; apply chi2_bin_zero; auto.
Qed.
Print Assumptions chisquare_measure.
(* chisquare_diagonal: only the bins with Eg <= Ex + resolution *)
Theorem chisquare_diagonal_measure : forall fact fit std nr nc res Eg Ex, rect fact nr nc -> rect fit nr nc -> rect std nr nc ->
  length Eg = nc -> length Ex = nr -> length res = nr -> nondecreasing Eg ->
  exists c, chisquare_diagonal fact fit std res Eg Ex = Some c /\
  c = sumn nr (fun i => sumn nc (fun j => if below res Eg Ex i j then chi2_bin fact fit std i j else 0)) /\ 0 <= c /\
  (c = 0 <-> forall i j, (i < nr)%nat -> (j < nc)%nat -> vget Eg j <= vget Ex i + vget res i -> mget std i j <> 0 -> mget fact i j = mget fit i j).
Proof.
  intros * R1 R2 R3 L1 L2 L3 ND. eexists. split; [apply (chid_lemma fact fit std nr nc R1 R2 R3 res Eg Ex L1 L2 L3 ND)|].
  split; [reflexivity|].
  assert (P : forall i j, 0 <= (if below res Eg Ex i j then chi2_bin fact fit std i j else 0)) by (intros; destruct (below _ _ _ _ _); [apply chi2_bin_nonneg|auto]).
  split.
  - apply sumn_nonneg. intros i _. apply sumn_nonneg. intros j _. apply P.
  - rewrite (double_sum_zero nr nc (fun i j => if below res Eg Ex i j then chi2_bin fact fit std i j else 0)) by exact P.
    unfold below. split; intros H i j Hi Hj.
    + intros B. specialize (H i j Hi Hj). cbv beta in H. rewrite (proj2 (qleb_le _ _) B) in H. now apply chi2_bin_zero.
    + destruct (qleb_spec (vget Eg j) (vget Ex i + vget res i)) as [B|B]; [|reflexivity]. apply chi2_bin_zero. intros Z. now apply H.
Qed.
Print Assumptions chisquare_diagonal_measure.
(* where the grids are such that no Eg falls into the half bin above the limit, the product
   fills exactly the bins that are compared *)
Theorem chisquare_compares_product_partial : forall (p : pin Qc) i j, 0 <= half_width p ->
  (vget (p_Eg p) j <= vget (p_Ex p) i + vget (p_res p) i \/ vget (p_Ex p) i + vget (p_res p) i + half_width p < vget (p_Eg p) j) ->
  (below (p_res p) (p_Eg p) (p_Ex p) i j = true <-> allowed p i j).
Proof. intros p i j HW H. unfold below, allowed. rewrite qleb_le. split; intros; [qlra|]. destruct H; qlra. Qed.
Print Assumptions chisquare_compares_product_partial.
(* C49 refuted: the product fills bins up to half a bin further than chisquare_diagonal
   compares: a fit that differs from the data in a filled bin still has chi square 0. *)
Theorem chisquare_compares_product_refuted : exists (p : pin Qc) fact fit std i j,
  pin_ok p /\ allowed p i j /\ mget std i j <> 0 /\ mget fact i j <> mget fit i j /\
  chisquare_diagonal fact fit std (p_res p) (p_Eg p) (p_Ex p) = Some 0.
Proof.
  exists (mkPin (ql [1]%Z) (ql [1; 1]%Z) [qn 1 2] (ql [0]%Z) (ql [1; 2]%Z) (ql [1]%Z)), [[qn 1 2; qn 1 4]], [[qn 1 2; qn 1 2]], [ql [1; 1]%Z], 0%nat, 1%nat.
  split; [vm_compute; repeat split; try lia; discriminate|]. split; [apply qleb_le; vm_compute; reflexivity|].
  split; [apply qeqb_neq; vm_compute; reflexivity|]. split; [apply qeqb_neq; vm_compute; reflexivity|].
  match goal with |- ?x = _ => assert (E : match x with Some c => qeqb c 0 | None => false end = true) by (vm_compute; reflexivity);
    destruct x as [c|]; [|discriminate]; apply qeqb_eq in E; now rewrite E end.
Qed.
Print Assumptions chisquare_compares_product_refuted.
