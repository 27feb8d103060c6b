From Verif Require Import PyBase Axis MatrixModel VectorModel ArithModel CalibModel DecompModel CutSpec VectorOpsProofs ExtractorModel ExtractorSpec ExtractorProofs.

Section Norm.
Variable sqrtq : Qc -> Qc.
Local Notation norm_row := (norm_row sqrtq).
Local Notation norm_rows := (norm_rows sqrtq).
Lemma norm_row_lemma x s x' s' : norm_row x s = Ok (x', s') ->
  length x' = length x /\ (qsum x = 0 -> x' = x /\ s' = s /\ qsum (map (fun y => y * y) s) = 0) /\
  (qsum x <> 0 -> length s' = length x /\ (forall j, (j < length x)%nat -> vget x' j = vget x j / qsum x /\ vget s' j = propagate sqrtq x s (qsum x) j)).
Proof.
  unfold ExtractorModel.norm_row. destruct (qeqb_spec (qsum x) 0) as [E|E].
  - destruct (qeqb_spec (qsum (map (fun y => y * y) s)) 0) as [F|F]; [|discriminate]. intros X. injection X as <- <-. split; [reflexivity|]. split; [easy|contradiction].
  - intros X. injection X as <- <-. rewrite map_length, tab_length. split; [reflexivity|]. split; [contradiction|]. intros _. split; [reflexivity|].
    intros j Hj. unfold vget. rewrite (map_nth_in _ _ _ 0) by assumption. rewrite nth_tab by assumption. easy.
Qed.
Lemma norm_rows_lemma v : forall s v' s', length v = length s -> norm_rows v s = Ok (v', s') ->
  length v' = length v /\ length s' = length s /\ forall i, (i < length v)%nat -> norm_row (nth i v []) (nth i s []) = Ok (nth i v' [], nth i s' []).
Proof.
  induction v as [|x v IH]; intros [|y s] v' s' L; try discriminate.
  - intros X. injection X as <- <-. repeat split. intros i Hi. cbn in Hi. lia.
  - cbn [ExtractorModel.norm_rows]. destruct (norm_row x y) as [[a b]|] eqn:E; [|discriminate]. cbn [rbind].
    destruct (norm_rows v s) as [[l m]|] eqn:F; [|discriminate]. cbn [rbind]. intros X. injection X as <- <-.
    destruct (IH s l m) as (A & B & C); [now injection L|assumption|]. cbn [length]. rewrite A, B. split; [reflexivity|]. split; [reflexivity|].
    intros [|i] Hi; [exact E|]. apply C. cbn [length] in Hi. lia.
Qed.
Lemma norm_rows_values v s v' s' nr nc : rect v nr nc -> length s = nr -> norm_rows v s = Ok (v', s') ->
  rect v' nr nc /\ forall i j, (i < nr)%nat -> (j < nc)%nat ->
    mget v' i j = if qeqb (qsum (nth i v [])) 0 then mget v i j else mget v i j / qsum (nth i v []).
Proof.
  intros [R1 R2] L E. destruct (norm_rows_lemma v s v' s') as (A & B & C); [lia|assumption|].
  split.
  - split; [lia|]. intros r H. destruct (In_nth _ _ [] H) as (i & Hi & <-). destruct (norm_row_lemma _ _ _ _ (C i ltac:(lia))) as (D & _). rewrite D.
    apply R2. apply nth_In. lia.
  - intros i j I J. destruct (norm_row_lemma _ _ _ _ (C i ltac:(lia))) as (D & F & G). unfold mget.
    destruct (qeqb_spec (qsum (nth i v [])) 0) as [Z|Z].
    + now rewrite (proj1 (F Z)).
    + apply G; [exact Z|]. rewrite R2 by (apply nth_In; lia). exact J.
Qed.
Lemma norm_rows_zero v s v' s' nr nc i j : rect v nr nc -> length s = nr -> norm_rows v s = Ok (v', s') ->
  (i < nr)%nat -> (j < nc)%nat -> (mget v' i j = 0 <-> mget v i j = 0).
Proof.
  intros R L E I J. destruct (norm_rows_values v s v' s' nr nc R L E) as [_ H]. rewrite H by assumption.
  destruct (qeqb_spec (qsum (nth i v [])) 0) as [Z|Z]; [reflexivity|]. split; intros X.
  - replace (mget v i j) with (mget v i j / qsum (nth i v []) * qsum (nth i v [])) by (field; exact Z). rewrite X. ring.
  - rewrite X. unfold Qcdiv. ring.
Qed.
Lemma norm_rows_nonneg v s v' s' nr nc : rect v nr nc -> length s = nr -> norm_rows v s = Ok (v', s') -> counts_nonneg v -> counts_nonneg v'.
Proof.
  intros R L E P r Hr x Hx. destruct (norm_rows_values v s v' s' nr nc R L E) as [R' H].
  destruct (In_nth _ _ [] Hr) as (i & Hi & <-). destruct (In_nth _ _ 0 Hx) as (j & Hj & <-).
  assert (I : (i < nr)%nat) by (now rewrite <- (proj1 R')). assert (J : (j < nc)%nat) by (rewrite (proj2 R') in Hj; [exact Hj|now apply nth_In]).
  change (0 <= mget v' i j). rewrite H by assumption. pose proof (mget_nonneg v nr nc i j R P I J) as M.
  destruct (qeqb_spec (qsum (nth i v [])) 0) as [Z|Z]; [exact M|]. apply Qcdiv_nonneg; [exact M|]. apply qsum_nonneg. apply P. apply nth_In. now rewrite (proj1 R).
Qed.
Lemma norm_rows_ok v : forall s, length v = length s ->
  (forall i, (i < length v)%nat -> qsum (nth i v []) = 0 -> forall x, In x (nth i s []) -> x = 0) -> exists v' s', norm_rows v s = Ok (v', s').
Proof.
  induction v as [|x v IH]; intros [|y s] L H; try discriminate; [cbn; eauto|]. cbn [ExtractorModel.norm_rows].
  destruct (IH s) as (v' & s' & E); [now injection L|intros i Hi; apply (H (S i)); cbn; lia|]. rewrite E.
  unfold ExtractorModel.norm_row. destruct (qeqb_spec (qsum x) 0) as [Z|Z]; [|cbn [rbind]; eauto].
  replace (qsum (map (fun y0 => y0 * y0) y)) with (0:Qc).
  - cbn [rbind]. change (qeqb 0 0) with true. cbn [rbind]. eauto.
  - pose proof (H 0%nat ltac:(cbn; lia) Z) as H0. cbn [nth] in H0. clear -H0. induction y as [|a y IH]; [reflexivity|].
    cbn [map qsum fold_right]. rewrite (H0 a) by now left.
    assert (X : qsum (map (fun y0 => y0 * y0) y) = 0) by (symmetry; apply IH; intros; apply H0; now right).
    change (0 = 0 * 0 + qsum (map (fun y0 => y0 * y0) y)). rewrite X. ring.
Qed.
Lemma sum_sq_zero y : qsum (map (fun y0 => y0 * y0) y) = 0 -> forall x, In x y -> x = 0.
Proof.
  intros H x Hx. destruct (In_nth _ _ 0 Hx) as (j & Hj & <-).
  rewrite qsum_nth, map_length in H.
  assert (E : forall i, (i < length y)%nat -> vget (map (fun y0 => y0 * y0) y) i = nth i y 0 * nth i y 0).
  { intros i Hi. unfold vget. now rewrite (map_nth_in _ _ _ 0). }
  rewrite (sumn_ext _ _ _ E) in H.
  assert (N : forall i, (i < length y)%nat -> 0 <= nth i y 0 * nth i y 0) by (intros i _; set (a := nth i y 0); qnra).
  pose proof (sumn_nonneg_0 _ _ N H j Hj) as X. cbv beta in X. destruct (Qcmult_integral _ _ X); assumption.
Qed.
Lemma norm_rows_raise v : forall s e, length v = length s -> norm_rows v s = Raise e ->
  e = ZeroDivErr /\ exists i, (i < length v)%nat /\ qsum (nth i v []) = 0 /\ exists x, In x (nth i s []) /\ x <> 0.
Proof.
  induction v as [|x v IH]; intros [|y s] e L; try discriminate. cbn [ExtractorModel.norm_rows].
  destruct (norm_row x y) as [[a b]|] eqn:E.
  - cbn [rbind]. destruct (norm_rows v s) as [[l m]|e'] eqn:F; [discriminate|]. cbn [rbind]. intros X. injection X as <-.
    destruct (IH s e') as (A & i & B & C); [now injection L|exact F|]. split; [exact A|]. exists (S i). split; [cbn; lia|exact C].
  - cbn [rbind]. intros X. injection X as <-. unfold ExtractorModel.norm_row in E. destruct (qeqb_spec (qsum x) 0) as [Z|Z]; [|discriminate].
    destruct (qeqb_spec (qsum (map (fun y0 => y0 * y0) y)) 0) as [W|W]; [discriminate|]. injection E as <-. split; [reflexivity|]. exists 0%nat. split; [cbn; lia|].
    split; [exact Z|]. cbn [nth]. clear -W. induction y as [|a y IH]; [now destruct W|].
    destruct (qeqb_spec a 0) as [A|A]; [|exists a; split; [now left|exact A]]. destruct IH as (b & I & N).
    + intros X. apply W. change (a * a + qsum (map (fun y0 => y0 * y0) y) = 0). rewrite X, A. ring.
    + exists b. split; [now right|exact N].
Qed.
End Norm.

Lemma no_negative_spec v : existsb (existsb (fun y => qltb y 0)) v = false <-> counts_nonneg v.
Proof.
  split.
  - intros H r Hr x Hx. destruct (qltb_spec x 0) as [L|L]; [|exact L]. exfalso.
    enough (X : existsb (existsb (fun y => qltb y 0)) v = true) by congruence. apply existsb_exists. exists r. split; [exact Hr|].
    apply existsb_exists. exists x. split; [exact Hx|]. now apply qltb_lt.
  - intros H. apply Bool.not_true_iff_false. intros X. apply existsb_exists in X. destruct X as (r & Hr & X). apply existsb_exists in X.
    destruct X as (x & Hx & X). apply qltb_lt in X. pose proof (H r Hr x Hx). qlra.
Qed.
Lemma mask_nan_lemma x c l : mask_nan x c = Ok l -> length l = length x /\ length c = length x /\
  forall k, (k < length x)%nat -> nth_error l k = Some (if qeqb (vget c k) 0 then NaN else Fin (vget x k)).
Proof.
  unfold mask_nan. destruct (Nat.eqb_spec (length x) (length c)) as [E|E]; [|discriminate]. intros X. injection X as <-.
  assert (L : length (map2 (fun y c0 => if qeqb c0 0 then NaN else Fin y) x c) = length x).
  { unfold map2. rewrite map_length, combine_length. lia. }
  split; [exact L|]. split; [lia|]. intros k Hk. rewrite (nth_error_nth' _ NaN) by lia. f_equal. unfold map2.
  rewrite (map_nth_in _ _ _ (0, 0)) by (rewrite combine_length; lia). rewrite combine_nth by assumption. reflexivity.
Qed.
Lemma mask_nan_ok x c : length x = length c -> exists l, mask_nan x c = Ok l.
Proof. intros E. unfold mask_nan. rewrite E, Nat.eqb_refl. eauto. Qed.

Lemma index_grid a d n k : 0 < d -> (k < n)%nat -> nearest (arith a d n) (vget (arith a d n) k) k.
Proof.
  intros D K. split; [now rewrite arith_length|].
  assert (Z : qabs (nth k (arith a d n) 0 - vget (arith a d n) k) = 0).
  { unfold vget. replace (nth k (arith a d n) 0 - nth k (arith a d n) 0) with (0:Qc) by ring. destruct (qabs_spec 0) as [[? ->]|[? ?]]; qlra. }
  rewrite Z. rewrite arith_length. split; intros l Hl; [destruct (qabs_spec (nth l (arith a d n) 0 - vget (arith a d n) k)) as [[? ->]|[? ->]]; qlra|].
  change (nth l (arith a d n) 0) with (vget (arith a d n) l). rewrite !arith_nth by lia.
  assert (qnat k < qnat l) by (apply qnat_lt; lia). assert (qnat k * d < qnat l * d) by qnra.
  destruct (qabs_spec (a + qnat l * d - (a + qnat k * d))) as [[? ->]|[? ->]]; qlra.
Qed.

Section Fit.
Variable sqrtq : Qc -> Qc.
Variable twopi : Qc.
Variable bsfg : list Qc -> list Qc.
Variable rng : Type.
Variable uniform : rng -> list Qc -> list Qc -> list Qc * rng.
Variable minimize : (list Qc -> option Qc) -> list Qc -> list Qc.
Variables (randomize extend : bool).
Variable resolution_Ex : Qc.
Variable self_x0 : x0_arg.
Local Notation fit_normalized := (fit_normalized sqrtq twopi bsfg rng uniform minimize randomize extend resolution_Ex self_x0).
Local Notation decompose := (decompose sqrtq twopi bsfg rng uniform minimize randomize extend resolution_Ex self_x0).
Local Notation the_resolution := (the_resolution sqrtq extend resolution_Ex).
Local Notation start_values := (start_values bsfg rng uniform randomize self_x0).

Lemma fit_lemma g m std x0 vn vg g' a0 b0 d nr nc : equal_width m a0 b0 d nr nc -> counts_nonneg (a_rows (values m)) ->
  fit_normalized g m std x0 = Ok (vn, vg, g') ->
  exists res sol, the_resolution (Ex m) (Eg m) = Ok res /\ length sol = (nc + (nr + nc - 1))%nat /\
  ev_E vn = arith (a0 - (b0 + qnat (nc - 1) * d)) d (nr + nc - 1) /\ ev_E vg = Eg m /\ length (ev_v vn) = (nr + nc - 1)%nat /\ length (ev_v vg) = nc /\
  (forall k, (k < nr + nc - 1)%nat -> nth_error (ev_v vn) k =
     Some (if qeqb (vget (fst (constraining_counts (values m) (Ex m) (Eg m) res)) k) 0 then NaN else Fin (vget sol (nc + k)))) /\
  (forall j, (j < nc)%nat -> nth_error (ev_v vg) j =
     Some (if qeqb (vget (snd (constraining_counts (values m) (Ex m) (Eg m) res)) j) 0 then NaN
           else xdiv (Fin (vget sol j)) (Fin (twopi * (vget (Eg m) j * vget (Eg m) j * vget (Eg m) j))))).
Proof.
  intros EW P. pose proof EW as (E1 & E2 & R & C & D & NR & NC). unfold ExtractorModel.fit_normalized.
  rewrite E1, E2. rewrite grid_lemma by assumption. cbn [rbind]. set (E_nld := arith _ _ (nr + nc - 1)).
  destruct (the_resolution (arith a0 d nr) (arith b0 d nc)) as [res|] eqn:ER; [|discriminate]. cbn [rbind].
  destruct (start_values g E_nld m x0) as [[x g1]|] eqn:ES; [|discriminate]. cbn [rbind].
  set (sol := minimize _ x). rewrite arith_length.
  pose proof (counts_lengths (values m) (Ex m) (Eg m) res nr nc R C ltac:(lia)) as [L1 L2].
  destruct (constraining_counts (values m) (arith a0 d nr) (arith b0 d nc) res) as [ncn tc] eqn:EC.
  rewrite E1, E2, EC in L1, L2. cbn [fst snd] in L1, L2.
  destruct (mask_nan (firstn nc sol) tc) as [T'|] eqn:M1; [|discriminate]. cbn [rbind].
  destruct (mask_nan (skipn nc sol) ncn) as [nld'|] eqn:M2; [|discriminate]. cbn [rbind].
  destruct (mask_nan_lemma _ _ _ M1) as (A1 & A2 & A3). destruct (mask_nan_lemma _ _ _ M2) as (B1 & B2 & B3).
  destruct (mk_evec nld' E_nld) as [vn'|] eqn:V1; [|discriminate]. cbn [rbind].
  destruct (mk_evec _ (arith b0 d nc)) as [vg'|] eqn:V2; [|discriminate]. cbn [rbind]. intros X. injection X as <- <- <-.
  unfold mk_evec in V1, V2. destruct (Nat.eqb _ _) in V1; [|discriminate]. injection V1 as <-.
  destruct (Nat.eqb _ _) in V2; [|discriminate]. injection V2 as <-. cbn [ev_E ev_v].
  exists res, sol. rewrite EC. cbn [fst snd]. rewrite skipn_length in B2. rewrite firstn_length in A2.
  assert (LS : length sol = (nc + (nr + nc - 1))%nat) by lia.
  assert (LT : length T' = nc) by (rewrite A1, firstn_length; lia).
  repeat split; [lia|rewrite B1, skipn_length; lia|unfold map2; rewrite map_length, combine_length, arith_length; lia| |].
  - intros k K. rewrite B3 by (rewrite skipn_length; lia). unfold vget. now rewrite nth_skipn.
  - intros j J.
    rewrite (nth_error_nth' _ NaN) by (unfold map2; rewrite map_length, combine_length, arith_length; lia). f_equal.
    unfold map2. rewrite (map_nth_in _ _ _ (NaN, 0)) by (rewrite combine_length, arith_length; lia).
    rewrite combine_nth by (now rewrite arith_length). specialize (A3 j ltac:(rewrite firstn_length; lia)).
    apply nth_error_nth with (d := NaN) in A3. rewrite A3.
    destruct (qeqb (vget tc j) 0); [reflexivity|]. unfold vget at 1. now rewrite nth_firstn_lt.
Qed.

Lemma decompose_ok g m s x0 m' vn vg g' : decompose g m s x0 = (m', Ok (vn, vg, g')) ->
  exists st v sv, s = Some st /\ counts_nonneg (a_rows (values m)) /\ counts_nonneg (a_rows st) /\ shape (values m) = shape st /\
  norm_rows sqrtq (a_rows (values m)) (a_rows st) = Ok (v, sv) /\ m' = with_values m (mkArr (a_nc (values m)) v) /\
  fit_normalized g m' sv x0 = Ok (vn, vg, g').
Proof.
  unfold ExtractorModel.decompose. destruct (existsb _ (a_rows (values m))) eqn:P; [discriminate|]. apply no_negative_spec in P.
  destruct s as [st|]; [|discriminate]. destruct (existsb _ (a_rows st)) eqn:Q; [discriminate|]. apply no_negative_spec in Q.
  destruct (pair_eqb (shape (values m)) (shape st)) eqn:SH; [|discriminate]. cbn [negb].
  destruct (norm_rows sqrtq (a_rows (values m)) (a_rows st)) as [[v sv]|] eqn:N; [|discriminate]. intros X. injection X as X1 X2.
  exists st, v, sv. subst m'. repeat split; try assumption; try reflexivity.
  revert SH. unfold pair_eqb. destruct (shape (values m)) as [a b]. destruct (shape st) as [c e]. cbn. intros H. apply andb_prop in H. destruct H as [H1 H2].
  apply Nat.eqb_eq in H1, H2. now subst.
Qed.

Lemma equal_width_normalized m a0 b0 d nr nc v : equal_width m a0 b0 d nr nc -> rect v nr nc ->
  equal_width (with_values m (mkArr (a_nc (values m)) v)) a0 b0 d nr nc.
Proof. intros (E1 & E2 & R & C & D & NR & NC) RV. repeat split; cbn; try assumption; apply RV. Qed.

Lemma decompose_lemma g m s x0 m' vn vg g' a0 b0 d nr nc : equal_width m a0 b0 d nr nc -> decompose g m s x0 = (m', Ok (vn, vg, g')) ->
  exists res, the_resolution (Ex m) (Eg m) = Ok res /\
  ev_E vn = arith (a0 - (b0 + qnat (nc - 1) * d)) d (nr + nc - 1) /\ length (ev_v vn) = (nr + nc - 1)%nat /\ ev_E vg = Eg m /\ length (ev_v vg) = nc /\
  (forall k, (k < nr + nc - 1)%nat ->
     (nth_error (ev_v vn) k = Some NaN <->
      forall i j, (i < nr)%nat -> (j < nc)%nat -> inside m res i j -> vget (Ex m) i - vget (Eg m) j = vget (ev_E vn) k -> mget (a_rows (values m)) i j = 0)) /\
  (forall j, (j < nc)%nat -> twopi * (vget (Eg m) j * vget (Eg m) j * vget (Eg m) j) <> 0 ->
     (nth_error (ev_v vg) j = Some NaN <->
      forall i, (i < nr)%nat -> inside m res i j -> mget (a_rows (values m)) i j = 0)).
Proof.
  intros EW E. destruct (decompose_ok _ _ _ _ _ _ _ _ E) as (st & v & sv & -> & P & Q & SH & N & -> & F).
  pose proof EW as (E1 & E2 & R & C & D & NR & NC).
  assert (LS : length (a_rows st) = nr). { unfold shape, a_nr in SH. injection SH as SH1 SH2. rewrite <- SH1. apply R. }
  destruct (norm_rows_values _ _ _ _ _ nr nc R LS N) as [RV VAL].
  pose proof (norm_rows_nonneg _ _ _ _ _ nr nc R LS N P) as PV.
  set (m1 := with_values m (mkArr (a_nc (values m)) v)) in *.
  pose proof (equal_width_normalized _ _ _ _ _ _ v EW RV) as EW1. fold m1 in EW1.
  destruct (fit_lemma _ _ _ _ _ _ _ _ _ _ _ _ EW1 PV F) as (res & sol & ER & LSOL & G1 & G2 & LN1 & LN2 & G3 & G4).
  change (Ex m1) with (Ex m) in *. change (Eg m1) with (Eg m) in *. exists res. split; [exact ER|]. split; [exact G1|].
  split; [exact LN1|]. split; [exact G2|]. split; [exact LN2|]. split.
  - intros k K. rewrite G3 by assumption.
    assert (Z := nld_count_zero m1 res a0 b0 d nr nc k EW1 PV K). change (Ex m1) with (Ex m) in Z. change (Eg m1) with (Eg m) in Z. fold m1.
    assert (EQ : forall i j, (i < nr)%nat -> (j < nc)%nat -> (vget (Ex m) i - vget (Eg m) j = vget (ev_E vn) k <-> k = (nc - 1 + i - j)%nat)).
    { intros i j I J. rewrite G1, E1, E2. rewrite <- (grid_diagonal_iff a0 b0 d nr nc i j k D I J K). split; intros ->; reflexivity. }
    split.
    + destruct (qeqb_spec (vget (fst (constraining_counts (values m1) (Ex m) (Eg m) res)) k) 0) as [S0|S0]; [|discriminate]. intros _ i j I J IN EK.
      rewrite <- (norm_rows_zero _ _ _ _ _ nr nc i j R LS N I J). apply (proj1 Z S0); try assumption. now apply EQ.
    + intros H. destruct (qeqb_spec (vget (fst (constraining_counts (values m1) (Ex m) (Eg m) res)) k) 0) as [S0|S0]; [reflexivity|]. exfalso. apply S0.
      apply Z. intros i j I J IN EK. change (mget v i j = 0). apply (norm_rows_zero _ _ _ _ _ nr nc i j R LS N I J). apply H; try assumption. now apply EQ.
  - intros j J NZ. rewrite G4 by assumption.
    assert (Z := T_count_zero m1 res nr nc j RV C PV J). change (Ex m1) with (Ex m) in Z. change (Eg m1) with (Eg m) in Z. fold m1.
    split.
    + destruct (qeqb_spec (vget (snd (constraining_counts (values m1) (Ex m) (Eg m) res)) j) 0) as [S0|S0].
      * intros _ i I IN. rewrite <- (norm_rows_zero _ _ _ _ _ nr nc i j R LS N I J). apply (proj1 Z S0); assumption.
      * unfold xdiv. destruct (qeqb_spec (twopi * (vget (Eg m) j * vget (Eg m) j * vget (Eg m) j)) 0); [contradiction|discriminate].
    + intros H. destruct (qeqb_spec (vget (snd (constraining_counts (values m1) (Ex m) (Eg m) res)) j) 0) as [S0|S0]; [reflexivity|]. exfalso. apply S0.
      apply Z. intros i I IN. change (mget v i j = 0). apply (norm_rows_zero _ _ _ _ _ nr nc i j R LS N I J). now apply H.
Qed.

(* success *)
Hypothesis minimize_length : forall f x, length (minimize f x) = length x.
Hypothesis uniform_length : forall g lo hi, length (fst (uniform g lo hi)) = length lo.
Hypothesis bsfg_length : forall l, length (bsfg l) = length l.
Definition default_or_sized (x : x0_arg) (n : nat) : Prop :=
  match x with
  | XNone => match self_x0 with XNone => True | XArr l => length l = n | XStr _ => False end
  | XArr l => length l = n
  | XStr _ => False
  end.
Lemma guess_ok E_nld m : Ex m <> [] -> a_nc (values m) = length (Eg m) -> E_nld <> [] ->
  exists x, guess bsfg E_nld m None = Ok x /\ length x = (length E_nld + length (Eg m))%nat.
Proof.
  intros NX C NE. unfold guess. unfold py_index. cbn [Z.ltb Z.compare].
  replace (Z.of_nat (length E_nld) + -1)%Z with (Z.of_nat (length E_nld - 1)) by (destruct E_nld; [congruence|cbn [length]; lia]).
  assert (LE : (0 < length E_nld)%nat) by (destruct E_nld; [congruence|cbn; lia]).
  destruct (Z.leb_spec 0 (Z.of_nat (length E_nld - 1))); [|lia]. destruct (Z.ltb_spec (Z.of_nat (length E_nld - 1)) (Z.of_nat (length E_nld))); [|lia]. cbn [andb].
  rewrite Nat2Z.id, (nth_error_nth' _ 0) by lia. cbn [rbind]. set (E := if qltb _ _ then _ else _).
  assert (LEE : length E = length E_nld) by (unfold E; destruct (qltb _ _); [now rewrite map_length|reflexivity]).
  unfold projection. change (to_plot_axis _) with (Ok AxEg). cbn [rbind]. unfold proj_bounds. destruct (Ex m) as [|x0 xs] eqn:EX; [congruence|]. cbn [rbind].
  cbn [a_nc slice_rows]. rewrite tab_length, C, Nat.eqb_refl. eexists. split; [reflexivity|]. rewrite app_length, tab_length, bsfg_length. lia.
Qed.
Lemma decompose_succeeds_lemma g m st x0 a0 b0 d nr nc : equal_width m a0 b0 d nr nc -> counts_nonneg (a_rows (values m)) -> counts_nonneg (a_rows st) ->
  shape (values m) = shape st ->
  (forall i, (i < nr)%nat -> qsum (nth i (a_rows (values m)) []) = 0 -> forall x, In x (nth i (a_rows st) []) -> x = 0) ->
  default_or_sized x0 (nr + nc - 1 + nc) ->
  exists m' vn vg g', decompose g m (Some st) x0 = (m', Ok (vn, vg, g')).
Proof.
  intros EW P Q SH ZR DS. pose proof EW as (E1 & E2 & R & C & D & NR & NC). unfold ExtractorModel.decompose.
  rewrite (proj2 (no_negative_spec _) P), (proj2 (no_negative_spec _) Q).
  replace (pair_eqb (shape (values m)) (shape st)) with true by (rewrite SH; unfold pair_eqb; destruct (shape st); cbn; now rewrite !Nat.eqb_refl). cbn [negb].
  assert (LS : length (a_rows st) = nr). { unfold shape, a_nr in SH. injection SH as SH1 SH2. rewrite <- SH1. apply R. }
  destruct (norm_rows_ok sqrtq (a_rows (values m)) (a_rows st)) as (v & sv & N); [rewrite LS; apply R|rewrite (proj1 R); exact ZR|].
  rewrite N. destruct (norm_rows_values _ _ _ _ _ nr nc R LS N) as [RV VAL].
  pose proof (equal_width_normalized _ _ _ _ _ _ v EW RV) as EW1. set (m1 := with_values m (mkArr (a_nc (values m)) v)) in *.
  enough (exists vn vg g', fit_normalized g m1 sv x0 = Ok (vn, vg, g')) as (vn & vg & g' & ->) by eauto.
  unfold ExtractorModel.fit_normalized. change (Ex m1) with (Ex m). change (Eg m1) with (Eg m). rewrite E1, E2. rewrite grid_lemma by assumption. cbn [rbind].
  assert (exists res, the_resolution (arith a0 d nr) (arith b0 d nc) = Ok res) as (res & ->).
  { unfold ExtractorModel.the_resolution. destruct extend; [|eauto]. unfold diagonal_resolution.
    rewrite (arith_index1 _ _ nr), (arith_index0 _ _ nr), (arith_index1 _ _ nc), (arith_index0 _ _ nc) by lia. cbn [rbind].
    replace (qeqb _ _) with true; [eauto|]. symmetry. apply qeqb_eq. ring. }
  cbn [rbind]. set (E_nld := arith _ _ (nr + nc - 1)).
  assert (LE : length E_nld = (nr + nc - 1)%nat) by apply arith_length.
  assert (LG : length (Eg m1) = nc) by (change (Eg m1) with (Eg m); rewrite E2; apply arith_length).
  assert (exists x g1, start_values g E_nld m1 x0 = Ok (x, g1) /\ length x = (nr + nc - 1 + nc)%nat) as (x & g1 & -> & LX).
  { unfold ExtractorModel.start_values. set (x0' := match x0 with XNone => self_x0 | _ => x0 end).
    assert (exists y, match x0' with XNone => guess bsfg E_nld m1 None | XStr s => guess bsfg E_nld m1 (Some s) | XArr l => Ok l end = Ok y /\ length y = (length E_nld + nc)%nat) as (y & -> & LY).
    { subst x0'. destruct (guess_ok E_nld m1) as (y & G1 & G2).
      - change (Ex m1) with (Ex m). rewrite E1. intros X. apply (f_equal (@length Qc)) in X. rewrite arith_length in X. cbn in X. lia.
      - rewrite LG. exact C.
      - intros X. rewrite X in LE. cbn in LE. lia.
      - rewrite LG in G2. unfold default_or_sized in DS. destruct x0; [destruct self_x0; [eauto|contradiction|]|contradiction|]; (eexists; split; [reflexivity|]; lia). }
    cbn [rbind]. rewrite LG, LY, Nat.eqb_refl. cbn [negb]. destruct randomize.
    - pose proof (uniform_length g (map (fun y0 => y0 / qz 5) y) (map (fun y0 => y0 * qz 5) y)) as U. destruct (uniform _ _ _) as [z g1]. eexists _, _. split; [reflexivity|].
      cbn [fst] in U. rewrite U, map_length. lia.
    - eexists _, _. split; [reflexivity|]. lia. }
  cbn [rbind]. set (sol := minimize _ x). assert (LSOL : length sol = (nr + nc - 1 + nc)%nat) by (unfold sol; rewrite minimize_length; exact LX).
  pose proof (counts_lengths (values m1) (arith a0 d nr) (arith b0 d nc) res nr nc RV ltac:(exact C) ltac:(lia)) as [L1 L2].
  destruct (constraining_counts (values m1) (arith a0 d nr) (arith b0 d nc) res) as [ncn tc]. cbn [fst snd] in L1, L2. rewrite arith_length.
  destruct (mask_nan_ok (firstn nc sol) tc) as (T' & M1); [rewrite firstn_length; lia|]. rewrite M1. cbn [rbind].
  destruct (mask_nan_ok (skipn nc sol) ncn) as (N' & M2); [rewrite skipn_length; lia|]. rewrite M2. cbn [rbind].
  destruct (mask_nan_lemma _ _ _ M1) as (A1 & _). destruct (mask_nan_lemma _ _ _ M2) as (B1 & _).
  unfold mk_evec. rewrite LE, B1, skipn_length. replace (length sol - nc)%nat with (nr + nc - 1)%nat by lia. rewrite Nat.eqb_refl. cbn [rbind].
  assert (LM : forall f, length (map2 f T' (arith b0 d nc) : list xnum) = nc).
  { intros f. unfold map2. rewrite map_length, combine_length, arith_length, A1, firstn_length. lia. }
  rewrite LM, arith_length, Nat.eqb_refl. cbn [rbind]. eauto.
Qed.
End Fit.
