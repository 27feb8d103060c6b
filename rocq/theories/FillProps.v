(* C18-C20: negative bins.  Vocabulary in FillSpec.v. *)
From Verif Require Import PyBase MatrixModel MatrixSpec FillModel FillSpec FillProofs ArgsortProofs.

(* C18: terminates, keeps every row sum, changes no sign, makes no bin worse, changes only
   bins within the window of a negative bin, and a bin that stays negative has no positive
   bin left within its window (all in `filled`). *)
Theorem fill_negative_max_correct : forall a w, (forall r, In r (a_rows a) -> length r = a_nc a) ->
  length (windows w (a_nc a)) = a_nc a -> (forall x, In x (windows w (a_nc a)) -> (0 <= x)%Z) ->
  exists a', fill_negative_max a w = Some (Ok a') /\ a_nc a' = a_nc a /\
    Forall2 (filled (windows w (a_nc a))) (a_rows a) (a_rows a').
Proof. exact fill_negative_max_lemma. Qed.
Print Assumptions fill_negative_max_correct.
Theorem fill_negative_max_rejects : forall a ws, length ws <> a_nc a ->
  fill_negative_max a (WArr ws) = Some (Raise AssertionError).
Proof. exact fill_max_assert. Qed.
Print Assumptions fill_negative_max_rejects.
Definition fa := mkArr 6 [ql [4;-3;1;-9;2;5]%Z; ql [1;2;3;4;5;6]%Z].
Example fa_result : match fill_negative_max fa (WInt 3) with
  | Some (Ok a') => leqb (concat (a_rows a')) (ql [1;0;0;-6;0;5; 1;2;3;4;5;6]%Z) | _ => false end = true.
Proof. vm_compute. reflexivity. Qed.
(* windows below 0 are not excluded by the code and end in an empty argmax *)
Example fill_negative_max_bad_window : fill_negative_max fa (WInt (-1)) = Some (Raise ValueError).
Proof. vm_compute. reflexivity. Qed.

(* C19: for any weights and any argsort: every row sum is kept, no sign changes, and a
   bin only ever gives counts if its weight (gauss) for some negative bin is not positive.
   (Missing, because false: filling from bins with positive weight.) *)
Theorem fill_negative_gauss_rows_partial : forall gauss argsort, (forall l, sorts l (argsort l)) ->
  forall m, consistent m ->
  let m' := m_fill_negative gauss argsort m in
  consistent m' /\ Eg m' = Eg m /\ Ex m' = Ex m /\
  Forall2 (fun row row' => moved row row' /\
     forall j, (j < length row)%nat -> 0 <= vget row j -> vget row' j <> vget row j ->
       exists i, (i < length row)%nat /\ vget row i < 0 /\ gauss i j <= 0)
    (a_rows (values m)) (a_rows (values m')).
Proof. exact fill_negative_rows. Qed.
Print Assumptions fill_negative_gauss_rows_partial.
(* With positive weights everywhere nothing at all is filled. *)
Theorem fill_negative_gauss_does_nothing : forall gauss argsort, (forall l, sorts l (argsort l)) -> forall row,
  (forall i j, (i < length row)%nat -> (j < length row)%nat -> vget row i < 0 -> 0 <= vget row j -> 0 < gauss i j) ->
  gauss_row gauss argsort row = row.
Proof. exact gauss_row_id. Qed.
Print Assumptions fill_negative_gauss_does_nothing.
(* Hence the claim fails: for any argsort the bin of -1 counts next to a bin of 10 counts with
   positive weight stays negative. *)
Theorem fill_negative_gauss_refuted : exists gauss row,
  (forall i j, 0 < gauss i j) /\ vget row 0 < 0 /\ 0 < vget row 1 * gauss 0%nat 1%nat /\
  forall argsort, (forall l, sorts l (argsort l)) -> vget (gauss_row gauss argsort row) 0 < 0.
Proof.
  exists (fun _ _ => 1), (ql [-1; 10]%Z). split; [intros; reflexivity|]. split; [reflexivity|]. split; [reflexivity|].
  intros argsort A. rewrite fill_negative_gauss_does_nothing; [reflexivity|exact A|]. intros. reflexivity.
Qed.
Print Assumptions fill_negative_gauss_refuted.
(* bins with zero weight (outside the truncated gaussian) do give their counts *)
Example gauss_takes_from_outside :
  leqb (gauss_row (fun i j => if (i <=? j + 1)%nat && (j <=? i + 1)%nat then 1 else 0) argsort_ins (ql [7; 2; 10; -4; 10; 2; 3]%Z))
       (ql [3; 2; 10; 0; 10; 2; 3]%Z) = true.
Proof. vm_compute. reflexivity. Qed.

(* C20 *)
Theorem remove_negative_clips : forall m, consistent m ->
  let m' := remove_negative m in
  consistent m' /\ Eg m' = Eg m /\ Ex m' = Ex m /\ std m' = std m /\ state m' = state m /\
  (forall i j, (i < length (Ex m))%nat -> (j < length (Eg m))%nat ->
     (0 <= aget (values m) i j -> aget (values m') i j = aget (values m) i j) /\
     (aget (values m) i j < 0 -> aget (values m') i j = 0)) /\
  remove_negative m' = m'.
Proof. exact remove_negative_lemma. Qed.
Print Assumptions remove_negative_clips.
Theorem fill_and_remove_negative_nonneg : forall gauss argsort m r x,
  In r (a_rows (values (fill_and_remove_negative gauss argsort m))) -> In x r -> 0 <= x.
Proof. exact fill_and_remove_lemma. Qed.
Print Assumptions fill_and_remove_negative_nonneg.
Example remove_example : leqb (concat (a_rows (values (remove_negative (mkM fa (ql [1;2;3;4;5;6]%Z) (ql [1;2]%Z) None None)))))
  (ql [4;0;1;0;2;5;1;2;3;4;5;6]%Z) = true.
Proof. vm_compute. reflexivity. Qed.
