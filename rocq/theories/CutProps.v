(* C07-C09: energy look-up and matrix cuts.  Vocabulary in CutSpec.v and MatrixSpec.v. *)
From Verif Require Import PyBase Axis MatrixModel MatrixSpec CutSpec IndexProofs CutProofs MatrixProofs.

(* C07: nearest bin, the higher one of two equally near ones. *)
Theorem index_is_nearest : forall l e, l <> [] -> nondecreasing l -> nearest l e (index l e).
Proof. exact index_nearest_lemma. Qed.
Print Assumptions index_is_nearest.
Theorem nearest_is_unique : forall l e i j, nearest l e i -> nearest l e j -> i = j.
Proof. exact nearest_unique. Qed.
Print Assumptions nearest_is_unique.
(* Sortedness is needed: the early exit returns a wrong bin otherwise. *)
Theorem index_unsorted_refuted : exists l e, l <> [] /\ ~ nearest l e (index l e).
Proof.
  exists (ql [0; 5; 1]%Z), (qz 1). split; [discriminate|]. intros (_ & H & _).
  assert (H2 := H 2%nat ltac:(repeat constructor)). apply qleb_le in H2. vm_compute in H2. discriminate.
Qed.
Print Assumptions index_unsorted_refuted.

(* C08: inclusive cut along Eg and along Ex. *)
Theorem cut_Eg_inclusive : forall m ax Emin Emax,
  consistent m -> to_plot_axis ax = Ok AxEg -> Eg m <> [] -> increasing (Eg m) ->
  let keep := in_window Emin Emax in
  cut_inplace m ax Emin Emax true true =
  Ok (mkM (mkArr (length (filter keep (Eg m))) (map (select keep (Eg m)) (a_rows (values m))))
          (filter keep (Eg m)) (Ex m) (std m) (state m)).
Proof.
  exact (fun m ax Emin Emax C A N I =>
    cut_Eg_lemma m ax Emin Emax true true C A N I (or_introl eq_refl) (or_introl eq_refl)).
Qed.
Print Assumptions cut_Eg_inclusive.
Theorem cut_Ex_inclusive : forall m ax Emin Emax,
  consistent m -> to_plot_axis ax = Ok AxEx -> Ex m <> [] -> increasing (Ex m) ->
  let keep := in_window Emin Emax in
  cut_inplace m ax Emin Emax true true =
  Ok (mkM (mkArr (length (Eg m)) (select keep (Ex m) (a_rows (values m))))
          (Eg m) (filter keep (Ex m)) (std m) (state m)).
Proof.
  exact (fun m ax Emin Emax C A N I =>
    cut_Ex_lemma m ax Emin Emax true true C A N I (or_introl eq_refl) (or_introl eq_refl)).
Qed.
Print Assumptions cut_Ex_inclusive.
Theorem cut_copy_same_data : forall m ax Emin Emax imin imax m',
  (forall r, In r (a_rows (values m)) -> length r = a_nc (values m)) ->
  a_nr (values m) = length (Ex m) -> a_nc (values m) = length (Eg m) ->
  cut_inplace m ax Emin Emax imin imax = Ok m' ->
  cut_copy m ax Emin Emax imin imax = Ok (mkM (values m') (Eg m') (Ex m') None None).
Proof. exact cut_copy_lemma. Qed.
Print Assumptions cut_copy_same_data.
Theorem cut_rejects_bad_axis : forall m ax Emin Emax imin imax e,
  to_plot_axis ax = Raise e -> cut_inplace m ax Emin Emax imin imax = Raise ValueError.
Proof. exact cut_bad_axis. Qed.
Print Assumptions cut_rejects_bad_axis.

(* C09: exclusive limits.  The full statement (any limit) fails; it holds if each exclusive
   limit coincides with a bin. *)
Theorem cut_Eg_exclusive_partial : forall m ax Emin Emax imin imax,
  consistent m -> to_plot_axis ax = Ok AxEg -> Eg m <> [] -> increasing (Eg m) ->
  (imin = true \/ exists a, Emin = Some a /\ In a (Eg m)) ->
  (imax = true \/ exists a, Emax = Some a /\ In a (Eg m)) ->
  let keep := in_window_gen Emin Emax imin imax in
  cut_inplace m ax Emin Emax imin imax =
  Ok (mkM (mkArr (length (filter keep (Eg m))) (map (select keep (Eg m)) (a_rows (values m))))
          (filter keep (Eg m)) (Ex m) (std m) (state m)).
Proof. exact cut_Eg_lemma. Qed.
Print Assumptions cut_Eg_exclusive_partial.
Theorem cut_Ex_exclusive_partial : forall m ax Emin Emax imin imax,
  consistent m -> to_plot_axis ax = Ok AxEx -> Ex m <> [] -> increasing (Ex m) ->
  (imin = true \/ exists a, Emin = Some a /\ In a (Ex m)) ->
  (imax = true \/ exists a, Emax = Some a /\ In a (Ex m)) ->
  let keep := in_window_gen Emin Emax imin imax in
  cut_inplace m ax Emin Emax imin imax =
  Ok (mkM (mkArr (length (Eg m)) (select keep (Ex m) (a_rows (values m))))
          (Eg m) (filter keep (Ex m)) (std m) (state m)).
Proof. exact cut_Ex_lemma. Qed.
Print Assumptions cut_Ex_exclusive_partial.
(* An exclusive upper limit below the axis keeps bins far above the limit. *)
Theorem cut_exclusive_refuted : exists m Emax m' e,
  consistent m /\ increasing (Eg m) /\
  cut_inplace m (AInt 0) None (Some Emax) true false = Ok m' /\
  In e (Eg m') /\ Emax < e.
Proof.
  exists (mkM (mkArr 4 [ql [1;2;3;4]%Z]) (ql [10;20;30;40]%Z) (ql [5]%Z) None None).
  exists (qz 1). eexists. exists (qz 20).
  split. { split; [split; [reflexivity|split; [reflexivity|]]|exact I]. intros r [<-|[]]; reflexivity. }
  split. { repeat (constructor; [|repeat (constructor; [reflexivity|]); try constructor]); constructor. }
  split; [vm_compute; reflexivity|]. split; [right; left; apply qeqb_eq; reflexivity|reflexivity].
Qed.
Print Assumptions cut_exclusive_refuted.
(* An exclusive lower limit between two bins drops a bin strictly above the limit. *)
Theorem cut_exclusive_lower_refuted : exists m Emin m' e,
  consistent m /\ increasing (Eg m) /\
  cut_inplace m (AInt 0) (Some Emin) None false true = Ok m' /\
  In e (Eg m) /\ Emin < e /\ ~ In e (Eg m').
Proof.
  exists (mkM (mkArr 4 [ql [1;2;3;4]%Z]) (ql [10;20;30;40]%Z) (ql [5]%Z) None None).
  exists (qz 15). eexists. exists (qz 20).
  split. { split; [split; [reflexivity|split; [reflexivity|]]|exact I]. intros r [<-|[]]; reflexivity. }
  split. { repeat (constructor; [|repeat (constructor; [reflexivity|]); try constructor]); constructor. }
  split; [vm_compute; reflexivity|]. split; [right; left; reflexivity|]. split; [reflexivity|].
  intros [H|[H|[]]]; apply qeqb_eq in H; discriminate.
Qed.
Print Assumptions cut_exclusive_lower_refuted.

(* Examples *)
Example exm : matrix :=
  mkM (mkArr 4 [ql [1;2;3;4]%Z; ql [5;6;7;8]%Z]) (ql [10;20;30;40]%Z) (ql [5;6]%Z) None None.
Example exm_consistent : consistent exm.
Proof. split; [split; [reflexivity|split; [reflexivity|]]|exact I]. intros r [<-|[<-|[]]]; reflexivity. Qed.
Example exm_cut : match cut_inplace exm (AInt 0) (Some (qz 11)) (Some (qz 30)) true true with
  | Ok m' => leqb (Eg m') (ql [20;30]%Z) && lleqb (a_rows (values m')) [ql [2;3]%Z; ql [6;7]%Z] = true
  | Raise _ => False end.
Proof. vm_compute. reflexivity. Qed.
Example exm_cut_excl : match cut_inplace exm (AInt 0) (Some (qz 10)) (Some (qz 40)) false false with
  | Ok m' => leqb (Eg m') (ql [20;30]%Z) = true | Raise _ => False end.
Proof. vm_compute. reflexivity. Qed.
Example ex_index : index (ql [10;20;30;40]%Z) (qz 25) = 2%nat. Proof. vm_compute. reflexivity. Qed.
