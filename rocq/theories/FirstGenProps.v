(* C34-C39, C73: the first-generation method.  Vocabulary in FirstGenSpec.v. *)
From Verif Require Import PyBase Axis RebinModel MatrixModel MatrixSpec CutSpec VectorModel VectorSpec ArithModel FirstGenModel FirstGenSpec FirstGenProofs FirstGenApplyProofs AllgenProofs.

(* C34.  `act` is the action applied to the copy of the input. *)
Theorem firstgen_result : forall act g u g' r m, act u = Ok m -> consistent m -> valley_ok g -> fg_apply act g u = (g', Ok r) ->
  consistent r /\ Eg r = Eg m /\ Ex r = Ex m /\ std r = None /\ state r = Some FIRST_GENERATION /\
  forall i j, (i < length (Ex m))%nat -> (j < length (Eg m))%nat -> 0 <= aget (values r) i j.
Proof. exact fg_result_lemma. Qed.
Print Assumptions firstgen_result.
Theorem firstgen_rejects : forall act g u m, act u = Ok m ->
  (exists e, In e (Ex m) /\ e < 0) \/ (exists row x, In row (a_rows (values m)) /\ In x row /\ x < 0) ->
  fg_apply act g u = (g, Raise ValueError).
Proof. exact fg_rejects_lemma. Qed.
Print Assumptions firstgen_rejects.
(* every other matrix with at least two bins per axis is accepted (C37: in particular the
   assertion on the multiplicities never fires) *)
Theorem firstgen_accepts : forall act g u m, act u = Ok m -> consistent m -> params_ok g -> g_valley g = None ->
  (forall e, In e (Ex m) -> 0 <= e) -> (forall row x, In row (a_rows (values m)) -> In x row -> 0 <= x) ->
  (2 <= length (Eg m))%nat -> (2 <= length (Ex m))%nat ->
  exists r, fg_apply act g u = (g, Ok r).
Proof. exact fg_succeeds_lemma. Qed.
Print Assumptions firstgen_accepts.
(* What is returned: the input minus, for every lower row, that row scaled to the counts
   per cascade and weighted with the probability to decay into it; negative bins are set
   to zero. *)
Theorem firstgen_formula : forall act g u g' r m, act u = Ok m -> consistent m -> valley_ok g -> (0 < g_iter g)%nat ->
  fg_apply act g u = (g', Ok r) ->
  exists W vc, decay_weights (length (Ex m)) W /\ cut_valley g m = (g', Ok vc) /\
  forall i j, (i < length (Ex m))%nat -> (j < length (Eg m))%nat ->
    aget (values r) i j = clip (aget (values m) i j - sumn i (fun k => gen_norm g m i k * mget W i k * factor vc k * aget (values m) k j)).
Proof. exact fg_formula_lemma. Qed.
Print Assumptions firstgen_formula.

(* C35: the weights after every number of iterations *)
Theorem firstgen_weights : forall g m vc N num_iter H W, consistent m -> mult_norm g m = Ok N ->
  (forall c, vc = Some c -> length c = length (Ex m) \/ length c = 1%nat) -> (0 < num_iter)%nat ->
  fg_loop num_iter 0 (row_normalized (values m)) (row_normalized (values m)) N m vc = Ok (H, W) ->
  decay_weights (length (Ex m)) W.
Proof.
  intros g m vc N f H W C EN VC F E. destruct (mult_norm_lemma g m N C EN) as (NL & NR & _). pose proof C as [SV _].
  exact (proj1 (loop_lemma m N vc C NL NR VC f 0 _ _ _ _ (proj1 (proj2 (rn_shaped _ _ _ SV))) ltac:(lia) E ltac:(lia))).
Qed.
Print Assumptions firstgen_weights.
(* ... and what they are: row i, the spectrum rebinned to the Ex axis read backwards from
   the diagonal (from iteration 5 on mixed 7:3 with the previous weights), negative parts
   dropped, normalised *)
Theorem firstgen_weights_follow_spectrum : forall k H Wo N m vc H' W' i j,
  length H = length (Ex m) -> ((4 < k)%nat -> decay_weights (length (Ex m)) Wo) ->
  fg_step k H Wo N m vc = Ok (H', W') -> (i < length (Ex m))%nat -> (j < i)%nat ->
  exists Hr, rebin_2D (a_nc (values m)) H (Eg m) (Ex m) 1 = Ok Hr /\
  let h l := clip0 (if (4 <? k)%nat then qn 7 10 * mget Hr i (i - l) + qn 3 10 * mget Wo i l else mget Hr i (i - l)) in
  mget W' i j = div0 (h j) (sumn i h).
Proof.
  intros * L D E Hi Hj. unfold fg_step in E. destruct (rebin_2D _ H _ _ 1) as [Hr|] eqn:R; [|discriminate]. cbn [rbind] in E. cbv zeta in E. injection E as _ <-.
  exists Hr. split; [reflexivity|]. exact (weights_follow k _ Hr Wo i j (rebin_rows_length m H Hr L R) D Hi Hj).
Qed.
Print Assumptions firstgen_weights_follow_spectrum.

(* C36 *)
Theorem firstgen_noninterference : forall act g u u' g1 g2 r r' m m' i, act u = Ok m -> act u' = Ok m' -> consistent m -> consistent m' ->
  Eg m' = Eg m -> Ex m' = Ex m -> valley_ok g -> (i < length (Ex m))%nat ->
  (forall k j, (k <= i)%nat -> (j < length (Eg m))%nat -> aget (values m) k j = aget (values m') k j) ->
  fg_apply act g u = (g1, Ok r) -> fg_apply act g u' = (g2, Ok r') ->
  forall k j, (k <= i)%nat -> (j < length (Eg m))%nat -> aget (values r) k j = aget (values r') k j.
Proof. exact fg_local_lemma. Qed.
Print Assumptions firstgen_noninterference.
Theorem firstgen_lowest_row : forall act g u g' r m, act u = Ok m -> consistent m -> valley_ok g -> (0 < g_iter g)%nat ->
  fg_apply act g u = (g', Ok r) ->
  forall j, (0 < length (Ex m))%nat -> (j < length (Eg m))%nat -> aget (values r) 0 j = aget (values m) 0 j.
Proof. exact fg_lowest_lemma. Qed.
Print Assumptions firstgen_lowest_row.

(* C37 *)
Theorem multiplicities_nonnegative : forall g m, params_ok g ->
  (forall e, In e (Ex m) -> 0 <= e) -> (forall row x, In row (a_rows (values m)) -> In x row -> 0 <= x) ->
  forall x, In x (multiplicity g m) -> 0 <= x.
Proof. exact multiplicity_nonneg. Qed.
Print Assumptions multiplicities_nonnegative.

(* C38.  Without a valley correction no call changes the object. *)
Theorem firstgen_history_partial : forall act g us u, g_valley g = None ->
  fg_apply act (fg_calls act g us) u = fg_apply act g u.
Proof. intros act g us u V. now rewrite (fg_history_lemma act g us V). Qed.
Print Assumptions firstgen_history_partial.
(* With one, earlier calls are harmless if all matrices have the same Ex axis. *)
Theorem firstgen_history_same_axis_partial : forall act g ex us u,
  (forall v, g_valley g = Some v -> v_E v <> [] /\ v_consistent v /\ nondecreasing (v_E v)) ->
  (forall w, In w (u :: us) -> exists m, act w = Ok m /\ Ex m = ex) ->
  snd (fg_apply act (fg_calls act g us) u) = snd (fg_apply act g u).
Proof. exact fg_same_axis_lemma. Qed.
Print Assumptions firstgen_history_same_axis_partial.
Example fgx_Ex3 := ql [1; 2; 3]%Z.
Example fgx_big : matrix := mkM (mkArr 3 [ql [5; 0; 0]%Z; ql [3; 4; 0]%Z; ql [6; 2; 4]%Z]) (ql [1; 2; 3]%Z) fgx_Ex3 None (Some UNFOLDED).
Example fgx_small : matrix := mkM (mkArr 3 [ql [5; 0; 0]%Z; ql [3; 4; 0]%Z]) (ql [1; 2; 3]%Z) (ql [1; 2]%Z) None (Some UNFOLDED).
Example fgx_g (n : nat) (v : option vector) : fgen := mkFG n Statistical 0 0 (qn 3 10) 0 0 v false.
Example fgx_valley : vector := mkV [1; 1; qn 1 2] fgx_Ex3 None KeV.
(* C38 refuted: the object's own valley correction is cut to the axis of the first matrix;
   a later, larger matrix is then refused. *)
Theorem firstgen_history_refuted : exists act g u u',
  (exists r, snd (fg_apply act g u') = Ok r) /\ (exists r, snd (fg_apply act g u) = Ok r) /\
  snd (fg_apply act (fg_calls act g [u]) u') = Raise ValueError.
Proof.
  exists (fun m => Ok m), (fgx_g 6 (Some fgx_valley)), fgx_small, fgx_big.
  split; [vm_compute; eexists; reflexivity|]. split; [vm_compute; eexists; reflexivity|]. vm_compute. reflexivity.
Qed.
Print Assumptions firstgen_history_refuted.

(* C39.  What allgen_from_primary computes: the formula, then multiplied by 1 + w(Ex->Ex)
   (the j == i term of the loop). *)
Theorem allgen_exact : forall fg xs, consistent fg -> (length (Ex fg) <= length (Eg fg))%nat ->
  length (population fg xs) = length (Ex fg) ->
  exists ag, allgen fg xs = Ok ag /\ consistent ag /\ Eg ag = Eg fg /\ Ex ag = Ex fg /\
  forall i p, (i < length (Ex fg))%nat -> (p < length (Eg fg))%nat ->
    let x k := vget (population fg xs) k in
    let s := div0 (aget (values fg) i p) (sumn (length (Eg fg)) (aget (values fg) i)) * x i +
             sumn i (fun k => x i * branching (values fg) i k * div0 (aget (values ag) k p) (x k)) in
    aget (values ag) i p = if Nat.eqb i 0 then s else s + x i * branching (values fg) i i * div0 s (x i).
Proof. exact allgen_lemma. Qed.
Print Assumptions allgen_exact.
(* without counts in the lowest Eg bin this is the documented formula *)
Theorem allgen_formula_partial : forall fg xs, consistent fg -> (length (Ex fg) <= length (Eg fg))%nat ->
  length (population fg xs) = length (Ex fg) ->
  (forall i, (0 < i < length (Ex fg))%nat -> aget (values fg) i 0 = 0) ->
  exists ag, allgen fg xs = Ok ag /\ consistent ag /\
    allgen_formula (values fg) (population fg xs) (length (Ex fg)) (length (Eg fg)) (aget (values ag)).
Proof.
  intros fg xs C NN LX Z. destruct (allgen_lemma fg xs C NN LX) as (ag & E & CC & _ & _ & F). exists ag. split; [exact E|]. split; [exact CC|].
  intros i j Hi Hj. rewrite (F i j Hi Hj). unfold ag_row. cbv zeta. destruct (Nat.eqb_spec i 0) as [I0|I0]; [reflexivity|].
  assert (B : branching (values fg) i i = 0).
  { unfold branching. rewrite Nat.sub_diag, Z by lia. unfold div0. destruct (qeqb _ 0); [reflexivity|]. unfold Qcdiv. ring. }
  rewrite B. ring.
Qed.
Print Assumptions allgen_formula_partial.
(* more Ex bins than Eg bins: IndexError *)
Theorem allgen_more_rows_refuted : forall fg xs, consistent fg -> (2 <= length (Ex fg))%nat -> (length (Eg fg) < length (Ex fg))%nat ->
  allgen fg xs = Raise IndexError.
Proof. exact allgen_rows_lemma. Qed.
Print Assumptions allgen_more_rows_refuted.
Theorem allgen_formula_refuted : exists fg ag, consistent fg /\ allgen fg None = Ok ag /\
  ~ allgen_formula (values fg) (population fg None) (length (Ex fg)) (length (Eg fg)) (aget (values ag)).
Proof.
  assert (T : match allgen fgx_big None with
    | Ok ag => qeqb (aget (values ag) 1 1) (div0 (aget (values fgx_big) 1 1) (sumn (length (Eg fgx_big)) (aget (values fgx_big) 1)) * vget (population fgx_big None) 1 +
        sumn 1 (fun k => vget (population fgx_big None) 1 * branching (values fgx_big) 1 k * div0 (aget (values ag) k 1) (vget (population fgx_big None) k)))
    | Raise _ => true end = false) by (vm_cast_no_check (eq_refl false)).
  exists fgx_big. destruct (allgen fgx_big None) as [ag|] eqn:E; [|discriminate]. exists ag.
  split; [split; [split; [reflexivity|split; [reflexivity|intros r [<-|[<-|[<-|[]]]]; reflexivity]]|exact I]|]. split; [reflexivity|].
  intros F. specialize (F 1%nat 1%nat ltac:(cbn; lia) ltac:(cbn; lia)). apply (proj1 (qeqb_neq _ _) T). exact F.
Qed.
Print Assumptions allgen_formula_refuted.

(* C73: the number of counts subtracted from row i is (counts of i / multiplicity of i)
   cascades times the mean multiplicity of the rows decayed into. *)
Theorem firstgen_subtracted_counts : forall g m i W, consistent m -> (i < length (Ex m))%nat ->
  vget (multiplicity g m) i <> 0 -> (forall k, (k < i)%nat -> counts_of m k <> 0) ->
  sumn (length (Eg m)) (fun j => sumn i (fun k => gen_norm g m i k * mget W i k * aget (values m) k j)) =
  counts_of m i / vget (multiplicity g m) i * sumn i (fun k => mget W i k * vget (multiplicity g m) k).
Proof. exact subtracted_counts. Qed.
Print Assumptions firstgen_subtracted_counts.
(* with the total multiplicity and energies above 0: the mean energy times the multiplicity
   is the excitation energy *)
Theorem total_multiplicity_energy : forall g m i, consistent m -> g_method g = TotalMult -> (i < length (Ex m))%nat ->
  0 <= vget (Ex m) i -> 0 < dot (Eg m) (nth i (a_rows (values m)) []) -> 0 < counts_of m i ->
  vget (multiplicity g m) i * (dot (Eg m) (nth i (a_rows (values m)) []) / counts_of m i) = vget (Ex m) i.
Proof.
  intros g m i C M Hi HX HD HC. rewrite multiplicity_get by assumption. rewrite M. unfold mult_total_row. cbv zeta. fold (counts_of m i).
  set (D := dot _ _) in *. set (S := counts_of m i) in *. set (e := vget (Ex m) i) in *.
  assert (D0 : D <> 0) by (intros Z; rewrite Z in HD; qlra). assert (S0 : S <> 0) by (intros Z; rewrite Z in HC; qlra).
  unfold div0. destruct (qeqb_spec S 0); [contradiction|].
  assert (P : 0 < D / S) by (apply Qcdiv_pos; assumption).
  destruct (qeqb_spec (D / S) 0) as [Z|Z]; [rewrite Z in P; exfalso; qlra|].
  assert (Q : 0 <= e / (D / S)) by (apply Qcdiv_nonneg; [exact HX|qlra]).
  destruct (qltb_spec (e / (D / S)) 0); [exfalso; qlra|]. field. auto.
Qed.
Print Assumptions total_multiplicity_energy.

(* Examples *)
Example fgx_consistent : consistent fgx_big /\ valley_ok (fgx_g 6 (Some fgx_valley)) /\ params_ok (fgx_g 6 None).
Proof.
  split; [split; [split; [reflexivity|split; [reflexivity|intros r [<-|[<-|[<-|[]]]]; reflexivity]]|exact I]|]. split.
  - intros v [= <-]. split; [split; [reflexivity|exact I]|discriminate].
  - intros _. repeat split; discriminate.
Qed.
Example fgx_run : match fg_apply (fun m => Ok m) (fgx_g 7 None) fgx_big with
  | (_, Ok r) => qeqb (aget (values r) 0 0) (qz 5) && qltb (aget (values r) 1 0) (qz 3) && qltb (aget (values r) 2 0) (qz 6) && qltb 0 (aget (values r) 2 2) = true
  | _ => False end.
Proof. vm_compute. reflexivity. Qed.
Example fgx_weights : match mult_norm (fgx_g 7 None) fgx_big with
  | Ok N => match fg_loop 7 0 (row_normalized (values fgx_big)) (row_normalized (values fgx_big)) N fgx_big None with
            | Ok (_, W) => qeqb (mget W 2 0 + mget W 2 1) 1 && qltb 0 (mget W 2 1) && qeqb (mget W 1 0) 1 = true
            | _ => False end
  | _ => False end.
Proof. vm_compute. reflexivity. Qed.
Example fgx_neg : snd (fg_apply (fun m => Ok m) (fgx_g 3 None) (mkM (mkArr 2 [ql [1; 2]%Z; ql [1; 2]%Z]) (ql [1; 2]%Z) (ql [-1; 2]%Z) None None)) = Raise ValueError.
Proof. vm_compute. reflexivity. Qed.
Example fgx_allgen : match allgen (mkM (mkArr 3 [ql [5; 0; 0]%Z; ql [0; 4; 0]%Z; ql [0; 2; 4]%Z]) (ql [1; 2; 3]%Z) fgx_Ex3 None None) None with
  | Ok ag => qeqb (aget (values ag) 1 0) (qz 4) && qeqb (aget (values ag) 2 0) (qz 6) && qeqb (aget (values ag) 2 1) (qz 4) = true
  | _ => False end.
Proof. vm_compute. reflexivity. Qed.
Example fgx_tall : allgen (mkM (mkArr 1 [ql [5]%Z; ql [4]%Z]) (ql [1]%Z) (ql [1; 2]%Z) None None) None = Raise IndexError.
Proof. reflexivity. Qed.
