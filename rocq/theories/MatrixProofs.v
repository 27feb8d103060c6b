From Verif Require Import PyBase Axis RebinModel RebinSpec RebinProofs Rebin2DProofs RebinFactorProofs
  MatrixModel MatrixSpec CutSpec IndexProofs CutProofs.

Definition is_axis (a : axis_arg) (x : paxis) : Prop := to_plot_axis a = Ok x.

Lemma slice_cols_select m lo hi p :
  shaped (values m) (length (Ex m)) (length (Eg m)) ->
  (forall A (v : list A), length (Eg m) = length v -> py_slice v lo hi = select p (Eg m) v) ->
  slice_cols (values m) lo hi =
  mkArr (length (filter p (Eg m))) (map (select p (Eg m)) (a_rows (values m))).
Proof.
  intros (Hc & Hr & Hrow) H. unfold slice_cols. f_equal.
  - rewrite <- select_self. rewrite <- H by reflexivity. apply py_slice_length.
    now rewrite seq_length.
  - apply map_ext_in. intros r Hin. apply H. symmetry. now apply Hrow.
Qed.

Lemma cut_Eg_lemma m ax Emin Emax imin imax :
  consistent m -> is_axis ax AxEg -> Eg m <> [] -> increasing (Eg m) ->
  on_bin (Eg m) Emin imin -> on_bin (Eg m) Emax imax ->
  let keep := in_window_gen Emin Emax imin imax in
  cut_inplace m ax Emin Emax imin imax =
  Ok (mkM (mkArr (length (filter keep (Eg m))) (map (select keep (Eg m)) (a_rows (values m))))
          (filter keep (Eg m)) (Ex m) (std m) (state m)).
Proof.
  intros [Hc _] Hax Hne Hs O1 O2 keep. unfold cut_inplace, cut_data. rewrite Hax. cbn [rbind].
  destruct (cut_on_bin _ Emin Emax imin imax Hne Hs O1 O2) as (lo & hi & -> & H). cbn [rbind].
  rewrite (slice_cols_select m lo hi keep Hc) by (intros; now apply H).
  rewrite (H Qc (Eg m) eq_refl), select_self. reflexivity.
Qed.
Lemma cut_Ex_lemma m ax Emin Emax imin imax :
  consistent m -> is_axis ax AxEx -> Ex m <> [] -> increasing (Ex m) ->
  on_bin (Ex m) Emin imin -> on_bin (Ex m) Emax imax ->
  let keep := in_window_gen Emin Emax imin imax in
  cut_inplace m ax Emin Emax imin imax =
  Ok (mkM (mkArr (length (Eg m)) (select keep (Ex m) (a_rows (values m))))
          (Eg m) (filter keep (Ex m)) (std m) (state m)).
Proof.
  intros [(Hc & Hr & Hrow) _] Hax Hne Hs O1 O2 keep. unfold cut_inplace, cut_data. rewrite Hax. cbn [rbind].
  destruct (cut_on_bin _ Emin Emax imin imax Hne Hs O1 O2) as (lo & hi & -> & H). cbn [rbind].
  unfold slice_rows. rewrite Hc. rewrite (H Qc (Ex m) eq_refl), select_self.
  rewrite (H (list Qc) (a_rows (values m))) by congruence. reflexivity.
Qed.

Lemma select_length {A} p l (v : list A) : length l = length v ->
  length (select p l v) = length (filter p l).
Proof.
  intros H. unfold select. rewrite map_length. rewrite <- (map_fst_combine l v H) at 2.
  now rewrite filter_map_length.
Qed.
Lemma select_in {A} p l (v : list A) x : In x (select p l v) -> In x v.
Proof.
  unfold select. intros H. apply in_map_iff in H as ([e y] & <- & H). apply filter_In in H as [H _].
  now apply in_combine_r in H.
Qed.

(* the copying version yields the same data, without std and state *)
Lemma cut_copy_lemma m ax Emin Emax imin imax m' :
  (forall r, In r (a_rows (values m)) -> length r = a_nc (values m)) ->
  a_nr (values m) = length (Ex m) -> a_nc (values m) = length (Eg m) ->
  cut_inplace m ax Emin Emax imin imax = Ok m' ->
  cut_copy m ax Emin Emax imin imax = Ok (mkM (values m') (Eg m') (Ex m') None None).
Proof.
  intros Hrow Hr Hc. unfold cut_inplace, cut_copy.
  destruct (cut_data m ax Emin Emax imin imax) as [[[v eg] ex]|e] eqn:E; [|discriminate].
  cbn. intros H. injection H as <-. cbn.
  assert (a_nr v = length ex /\ a_nc v = length eg) as [H1 H2].
  { revert E. unfold cut_data. destruct (to_plot_axis ax) as [[| |]|]; cbn; try discriminate.
    - destruct (cut_bounds (Eg m) Emin Emax imin imax) as [[lo hi]|]; cbn; [|discriminate].
      intros H. injection H as <- <- <-. unfold a_nr. cbn. rewrite map_length. split; [exact Hr|].
      apply py_slice_length. now rewrite seq_length.
    - destruct (cut_bounds (Ex m) Emin Emax imin imax) as [[lo hi]|]; cbn; [|discriminate].
      intros H. injection H as <- <- <-. unfold a_nr. cbn. split; [|exact Hc].
      apply py_slice_length. exact Hr.
    - destruct (cut_bounds (Ex m) Emin Emax imin imax) as [[lo hi]|]; cbn; discriminate. }
  unfold mk_matrix, verify_integrity. cbn. rewrite H1, H2, !Nat.eqb_refl. reflexivity.
Qed.

Lemma cut_bad_axis m ax Emin Emax imin imax e :
  to_plot_axis ax = Raise e -> cut_inplace m ax Emin Emax imin imax = Raise ValueError.
Proof.
  intros H. unfold cut_inplace, cut_data. rewrite H. cbn.
  unfold to_plot_axis in H. destruct ax; repeat (destruct (_ : bool) in H; try discriminate);
    injection H as <-; reflexivity.
Qed.
