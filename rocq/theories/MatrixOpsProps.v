(* C13 (matrix part), C22-C26: conversions of the axes, projections, fill, diagonal and
   trapezoidal cuts, diagonal elements.  Vocabulary in MatrixSpec.v and CutSpec.v. *)
From Verif Require Import PyBase Axis CutSpec MatrixModel MatrixSpec IndexProofs MatrixOpsProofs TrapezoidProofs MatrixOps2Proofs.

Theorem lower_mid_bin_inverse : forall m, (2 <= length (Ex m))%nat -> (2 <= length (Eg m))%nat ->
  exists l u, to_lower_bin m = Ok l /\ to_mid_bin l = Ok m /\ to_mid_bin m = Ok u /\ to_lower_bin u = Ok m /\
    values l = values m /\ std l = std m /\ state l = state m /\
    (forall i, (i < length (Ex m))%nat -> nth i (Ex l) 0 = nth i (Ex m) 0 - (nth 1 (Ex m) 0 - nth 0 (Ex m) 0) / qz 2) /\
    (forall i, (i < length (Eg m))%nat -> nth i (Eg l) 0 = nth i (Eg m) 0 - (nth 1 (Eg m) 0 - nth 0 (Eg m) 0) / qz 2).
Proof. exact lower_mid_lemma. Qed.
Print Assumptions lower_mid_bin_inverse.
Theorem lower_mid_bin_needs_two_bins : forall m, (length (Ex m) < 2)%nat \/ (length (Eg m) < 2)%nat ->
  to_lower_bin m = Raise IndexError /\ to_mid_bin m = Raise IndexError.
Proof. exact lower_short_lemma. Qed.
Print Assumptions lower_mid_bin_needs_two_bins.

Definition mx := mkM (mkArr 3 [ql [1;2;0]; ql [3;4;5]; ql [0;0;0]; ql [6;0;7]]%Z) (ql [10;20;30]%Z) (ql [1;2;3;4]%Z) None (Some RAW).
Example mx_ok : consistent mx /\ increasing (Eg mx) /\ increasing (Ex mx).
Proof.
  split; [split; [split; [reflexivity|split; [reflexivity|]]; cbn; intros r [<-|[<-|[<-|[<-|[]]]]]; reflexivity|exact I]|].
  split; repeat constructor.
Qed.
Example lower_example : exists l, to_lower_bin mx = Ok l /\ leqb (Eg l) (ql [5;15;25]%Z) = true.
Proof. eexists. split; [reflexivity|]. vm_compute. reflexivity. Qed.

(* C22 *)
Theorem projection_on_Eg : forall m ax Emin Emax nrm, consistent m -> to_plot_axis ax = Ok AxEg ->
  Ex m <> [] -> nondecreasing (Ex m) ->
  exists lo hi p, proj_lim (Ex m) Emin Emax lo hi /\ (lo < length (Ex m))%nat /\ (hi < length (Ex m))%nat /\
    length p = length (Eg m) /\
    (forall j, (j < length (Eg m))%nat -> vget p j = sum_between lo hi (fun i => aget (values m) i j)) /\
    projection m ax Emin Emax nrm = Ok (if nrm then map (fun x => div0 x (qsum p)) p else p, Eg m).
Proof. exact projection_Eg_lemma. Qed.
Print Assumptions projection_on_Eg.
Theorem projection_on_Ex : forall m ax Emin Emax nrm, consistent m -> to_plot_axis ax = Ok AxEx ->
  Eg m <> [] -> nondecreasing (Eg m) ->
  exists lo hi p, proj_lim (Eg m) Emin Emax lo hi /\ (lo < length (Eg m))%nat /\ (hi < length (Eg m))%nat /\
    length p = length (Ex m) /\
    (forall i, (i < length (Ex m))%nat -> vget p i = sum_between lo hi (fun j => aget (values m) i j)) /\
    projection m ax Emin Emax nrm = Ok (if nrm then map (fun x => div0 x (qsum p)) p else p, Ex m).
Proof. exact projection_Ex_lemma. Qed.
Print Assumptions projection_on_Ex.
Theorem projection_sums_to_total : forall m ax ax', consistent m -> to_plot_axis ax = Ok ax' -> ax' <> AxBoth ->
  Ex m <> [] -> Eg m <> [] ->
  exists p e, projection m ax None None false = Ok (p, e) /\ qsum p = total m.
Proof. exact projection_total_lemma. Qed.
Print Assumptions projection_sums_to_total.
Theorem projection_normalized : forall m ax Emin Emax p e, projection m ax Emin Emax false = Ok (p, e) ->
  exists q, projection m ax Emin Emax true = Ok (q, e) /\ length q = length p /\
    (qsum p <> 0 -> qsum q = 1 /\ forall i, (i < length p)%nat -> vget q i * qsum p = vget p i) /\
    (qsum p = 0 -> forall x, In x q -> x = 0).
Proof. exact projection_normalized_lemma. Qed.
Print Assumptions projection_normalized.
Theorem projection_rejects_both : forall m ax Emin Emax nrm, to_plot_axis ax = Ok AxBoth ->
  projection m ax Emin Emax nrm = Raise ValueError.
Proof. exact projection_both_lemma. Qed.
Print Assumptions projection_rejects_both.
Example projection_example : exists p, projection mx (AInt 0) (Some (qz 2)) None false = Ok (p, Eg mx) /\
  leqb p (ql [9;4;12]%Z) = true.
Proof. eexists. split; [reflexivity|]. vm_compute. reflexivity. Qed.

(* C23 *)
Theorem fill_adds_to_nearest_bin : forall m eg ex c, consistent m -> Eg m <> [] -> Ex m <> [] ->
  nondecreasing (Eg m) -> nondecreasing (Ex m) ->
  exists i j m', nearest (Ex m) ex i /\ nearest (Eg m) eg j /\ fill m eg ex c = Ok m' /\ consistent m' /\
    Eg m' = Eg m /\ Ex m' = Ex m /\ std m' = std m /\ state m' = state m /\
    (forall a b, (a < length (Ex m))%nat -> (b < length (Eg m))%nat ->
       aget (values m') a b = aget (values m) a b + (if Nat.eqb a i && Nat.eqb b j then c else 0)).
Proof. exact fill_lemma. Qed.
Print Assumptions fill_adds_to_nearest_bin.
Theorem fill_adds_to_total : forall m eg ex c m', consistent m -> Eg m <> [] -> Ex m <> [] ->
  nondecreasing (Eg m) -> nondecreasing (Ex m) -> fill m eg ex c = Ok m' -> total m' = total m + c.
Proof. exact fill_total_lemma. Qed.
Print Assumptions fill_adds_to_total.
Theorem fill_order_irrelevant : forall es es' m, Permutation es es' -> consistent m -> Eg m <> [] -> Ex m <> [] ->
  nondecreasing (Eg m) -> nondecreasing (Ex m) -> exists m', fills m es = Ok m' /\ fills m es' = Ok m'.
Proof. exact fills_perm_lemma. Qed.
Print Assumptions fill_order_irrelevant.
Example fill_example : exists m', fills mx [(qz 12, qz 3, qz 5); (qz 40, qz (-7), qz 2); (qz 12, qz 3, 1)] = Ok m' /\
  leqb (concat (a_rows (values m'))) (ql [1;2;2;3;4;5;6;0;0;6;0;7]%Z) = true.
Proof. eexists. split; [reflexivity|]. vm_compute. reflexivity. Qed.

(* C24: (x0,y0), (x1,y1): the bins nearest to the two points *)
Theorem cut_diagonal_clears_below_line : forall m p q x0 y0 x1 y1, consistent m ->
  nondecreasing (Eg m) -> nondecreasing (Ex m) ->
  nearest (Eg m) (fst p) x0 -> nearest (Ex m) (snd p) y0 ->
  nearest (Eg m) (fst q) x1 -> nearest (Ex m) (snd q) y1 -> x0 <> x1 ->
  exists m', cut_diagonal m (Some p) (Some q) = Ok m' /\ consistent m' /\
    Eg m' = Eg m /\ Ex m' = Ex m /\ std m' = std m /\ state m' = state m /\
    (forall i j, (i < length (Ex m))%nat -> (j < length (Eg m))%nat ->
      (below_line (qnat x0, qnat y0) (qnat x1, qnat y1) (qnat j) (qnat i) -> aget (values m') i j = 0) /\
      (~ below_line (qnat x0, qnat y0) (qnat x1, qnat y1) (qnat j) (qnat i) -> aget (values m') i j = aget (values m) i j)) /\
    cut_diagonal m' (Some p) (Some q) = Ok m'.
Proof. exact cut_diagonal_nearest_lemma. Qed.
Print Assumptions cut_diagonal_clears_below_line.
Theorem cut_diagonal_rejects : forall m p q,
  cut_diagonal m None q = Raise ValueError /\ cut_diagonal m p None = Raise ValueError /\
  (forall a b x, nondecreasing (Eg m) -> nearest (Eg m) (fst a) x -> nearest (Eg m) (fst b) x ->
     cut_diagonal m (Some a) (Some b) = Raise AssertionError).
Proof. exact cut_diagonal_err_nearest. Qed.
Print Assumptions cut_diagonal_rejects.
Example cut_diagonal_example : exists m', cut_diagonal mx (Some (qz 10, qz 1)) (Some (qz 30, qz 3)) = Ok m' /\
  leqb (concat (a_rows (values m'))) (ql [1;0;0;3;4;0;0;0;0;6;0;7]%Z) = true.
Proof. eexists. split; [reflexivity|]. vm_compute. reflexivity. Qed.

(* C25: for Eg_max <= Ex_max (missing: Eg_max > Ex_max, where the code masks nothing, and
   the promised ValueError; both refuted below) *)
Theorem trapezoid_contents_partial : forall m Ex_min Ex_max Eg_min Eg_max, consistent m ->
  Ex m <> [] -> Eg m <> [] -> increasing (Ex m) -> increasing (Eg m) -> Eg_max <= Ex_max ->
  exists m', trapezoid_inplace m Ex_min Ex_max Eg_min (Some Eg_max) = Ok m' /\
    Ex m' = filter (in_window (Some Ex_min) (Some Ex_max)) (Ex m) /\
    Eg m' = filter (in_window (Some Eg_min) (Some Eg_max)) (Eg m) /\ std m' = std m /\
    shaped (values m') (length (Ex m')) (length (Eg m')) /\
    forall ex eg v, val_at m' ex eg v <->
      Ex_min <= ex /\ ex <= Ex_max /\ Eg_min <= eg /\ eg <= Eg_max /\
      exists v0, val_at m ex eg v0 /\ v = (if qleb (ex + (Eg_max - Ex_max)) eg then 0 else v0).
Proof. exact trapezoid_lemma. Qed.
Print Assumptions trapezoid_contents_partial.
(* without Eg_max the last non-zero entry of the top row of the Ex-cut matrix defines it *)
Theorem trapezoid_auto_limit : forall m Ex_min Ex_max Eg_min m1 row k,
  cut_inplace m (AInt 1) (Some Ex_min) (Some Ex_max) true true = Ok m1 ->
  py_index (a_rows (values m1)) (-1) = Ok row -> last_nonzero row k -> length row = length (Eg m1) ->
  trapezoid_inplace m Ex_min Ex_max Eg_min None = trapezoid_inplace m Ex_min Ex_max Eg_min (Some (nth k (Eg m1) 0)).
Proof. exact trapezoid_auto_lemma. Qed.
Print Assumptions trapezoid_auto_limit.
Definition mt := mkM (mkArr 3 [ql [1;2;3]; ql [4;5;6]; ql [7;8;9]]%Z) (ql [1;2;3]%Z) (ql [1;2;3]%Z) None None.
Example trapezoid_example : exists m', trapezoid_inplace mt 1 (qz 3) 1 (Some (qz 3)) = Ok m' /\
  leqb (concat (a_rows (values m'))) (ql [0;0;0;4;0;0;7;8;0]%Z) = true.
Proof. eexists. split; [reflexivity|]. vm_compute. reflexivity. Qed.
(* Eg_max = 3 above Ex_max = 2: the bin (Ex,Eg) = (1,3) keeps its counts although it lies
   beyond the diagonal Eg = Ex + 1. *)
Theorem trapezoid_above_refuted : exists m Ex_min Ex_max Eg_min Eg_max m' ex eg v,
  consistent m /\ increasing (Ex m) /\ increasing (Eg m) /\
  trapezoid_inplace m Ex_min Ex_max Eg_min (Some Eg_max) = Ok m' /\
  val_at m' ex eg v /\ v <> 0 /\ ex + (Eg_max - Ex_max) < eg /\
  (* even with the offset rounded up to the next bin *)
  ex + (nth 1 (Eg m) 0 - nth 0 (Eg m) 0) * qz (qceil ((Eg_max - Ex_max) / (nth 1 (Eg m) 0 - nth 0 (Eg m) 0))) <= eg.
Proof.
  exists (mkM (mkArr 5 [ql [1;2;3;4;5]; ql [6;7;8;9;10]]%Z) (ql [1;2;3;4;5]%Z) (ql [1;2]%Z) None None).
  exists 1, (qz 2), 1, (qz 3). eexists. exists 1, (qz 3), (qz 3).
  split; [split; [split; [reflexivity|split; [reflexivity|]]; cbn; intros r [<-|[<-|[]]]; reflexivity|exact I]|].
  split; [repeat constructor|]. split; [repeat constructor|]. split; [vm_compute; reflexivity|].
  split; [eexists; split; [left; reflexivity|right; right; left; reflexivity]|].
  split; [intros H; apply qeqb_eq in H; vm_compute in H; discriminate|]. split; [reflexivity|]. vm_compute. discriminate.
Qed.
Print Assumptions trapezoid_above_refuted.
Theorem trapezoid_zero_row_refuted : exists m Ex_min Ex_max Eg_min, consistent m /\
  increasing (Ex m) /\ increasing (Eg m) /\ trapezoid_inplace m Ex_min Ex_max Eg_min None = Raise TypeError.
Proof.
  exists (mkM (mkArr 2 [ql [1;2]; ql [0;0]]%Z) (ql [1;2]%Z) (ql [1;2]%Z) None None), 1, (qz 2), 1.
  split; [split; [split; [reflexivity|split; [reflexivity|]]; cbn; intros r [<-|[<-|[]]]; reflexivity|exact I]|].
  split; [repeat constructor|]. split; [repeat constructor|]. vm_compute. reflexivity.
Qed.
Print Assumptions trapezoid_zero_row_refuted.

(* C26: one pair per row with a non-zero entry, in row order; the second component is one
   past the last non-zero entry (missing, because false: the pair identifies that entry) *)
Theorem diagonal_elements_partial : forall a, (forall r, In r (a_rows a) -> length r = a_nc a) ->
  (forall i j, In (i, j) (diagonal_elements a) <->
     (i < a_nr a)%nat /\ (0 < j <= a_nc a)%nat /\ last_nonzero (nth i (a_rows a) []) (j - 1)) /\
  StronglySorted lt (map fst (diagonal_elements a)).
Proof. exact diagonal_elements_lemma. Qed.
Print Assumptions diagonal_elements_partial.
Theorem diagonal_elements_refuted : exists a i j, (forall r, In r (a_rows a) -> length r = a_nc a) /\
  In (i, j) (diagonal_elements a) /\ ~ last_nonzero (nth i (a_rows a) []) j /\ (j >= a_nc a)%nat.
Proof.
  exists (mkArr 2 [ql [1;2]%Z]), 0%nat, 2%nat. split; [cbn; intros r [<-|[]]; reflexivity|].
  split; [now left|]. split; [intros [H _]; cbn in H; lia|cbn; lia].
Qed.
Print Assumptions diagonal_elements_refuted.
Example diagonal_example : diagonal_elements (values mx) = [(0, 2); (1, 3); (3, 3)]%nat.
Proof. reflexivity. Qed.
