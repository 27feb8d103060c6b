From Verif Require Import PyBase Axis RebinModel RebinSpec RebinProofs Rebin2DProofs RebinFactorProofs
  MatrixModel MatrixSpec.

Lemma shaped_rect a nr nc : shaped a nr nc -> rect (a_rows a) nr nc /\ a_nc a = nc.
Proof. intros (H1 & H2 & H3). now split. Qed.
Lemma shaped_mk rows nr nc : rect rows nr nc -> shaped (mkArr nc rows) nr nc.
Proof. intros [H1 H2]. now split. Qed.

Lemma verify_ok m : consistent m -> verify_integrity m = Ok tt.
Proof.
  intros [(H1 & H2 & _) Hs]. unfold verify_integrity, a_nr. rewrite H2, H1, !Nat.eqb_refl. cbn.
  destruct (std m) as [s|]; [|reflexivity]. destruct Hs as (S1 & S2 & _).
  unfold pair_eqb, shape, a_nr. cbn. now rewrite H1, H2, S1, S2, !Nat.eqb_refl.
Qed.

(* rebin along Eg to given mids *)
Lemma rebin_Eg_lemma m ax mids :
  consistent m -> std m = None -> to_plot_axis ax = Ok AxEg ->
  equidistant (Eg m) -> equidistant mids ->
  exists m', rebin_inplace m ax (Some mids) None = (m', Ok tt) /\
    consistent m' /\ Eg m' = mids /\ Ex m' = Ex m /\ state m' = state m /\
    forall i, (i < length (Ex m))%nat ->
      rebin_1D (nth i (a_rows (values m)) []) (Eg m) mids = Ok (nth i (a_rows (values m')) []).
Proof.
  intros [Hv _] Hstd Hax He Hm. destruct (shaped_rect _ _ _ Hv) as [Hr Hnc].
  unfold rebin_inplace. rewrite Hax. unfold rebin_axis, rebin_data. cbn [rbind].
  rewrite Hnc. rewrite (rebin_2D_rows _ (length (Ex m))) by auto. cbn [rbind].
  set (m' := mkM _ _ _ _ _).
  assert (C : consistent m').
  { split; cbn; [apply shaped_mk, mtab_rect|now rewrite Hstd]. }
  exists m'. rewrite (verify_ok m' C). repeat split; auto; try apply C.
  intros i Hi. rewrite rebin_1D_ok; auto.
  - f_equal. cbn. unfold mtab. now rewrite nth_tab.
  - destruct Hv as (_ & Hl & Hrow). apply Hrow, nth_In. lia.
Qed.
Lemma rebin_Ex_lemma m ax mids :
  consistent m -> std m = None -> to_plot_axis ax = Ok AxEx ->
  equidistant (Ex m) -> equidistant mids ->
  exists m', rebin_inplace m ax (Some mids) None = (m', Ok tt) /\
    consistent m' /\ Ex m' = mids /\ Eg m' = Eg m /\ state m' = state m /\
    forall j, (j < length (Eg m))%nat ->
      rebin_1D (col (a_rows (values m)) j) (Ex m) mids = Ok (col (a_rows (values m')) j).
Proof.
  intros [Hv _] Hstd Hax He Hm. destruct (shaped_rect _ _ _ Hv) as [Hr Hnc].
  unfold rebin_inplace. rewrite Hax. unfold rebin_axis, rebin_data. cbn [rbind].
  rewrite Hnc. rewrite (rebin_2D_cols _ (length (Ex m))) by auto. cbn [rbind].
  set (m' := mkM _ _ _ _ _).
  assert (C : consistent m').
  { split; cbn; [apply shaped_mk, mtab_rect|now rewrite Hstd]. }
  exists m'. rewrite (verify_ok m' C). repeat split; auto; try apply C.
  intros j Hj. rewrite rebin_1D_ok; auto.
  - f_equal. cbn. unfold col at 2. unfold mtab. rewrite map_tab. apply tab_ext. intros i Hi.
    unfold vget. now rewrite nth_tab.
  - rewrite col_length. apply Hv.
Qed.

(* order of the two axes does not matter *)
Lemma rebin_orders_lemma m eg ex ma mab mb mba :
  consistent m -> std m = None ->
  equidistant (Eg m) -> equidistant (Ex m) -> equidistant eg -> equidistant ex ->
  rebin_inplace m (AInt 0) (Some eg) None = (ma, Ok tt) ->
  rebin_inplace ma (AInt 1) (Some ex) None = (mab, Ok tt) ->
  rebin_inplace m (AInt 1) (Some ex) None = (mb, Ok tt) ->
  rebin_inplace mb (AInt 0) (Some eg) None = (mba, Ok tt) ->
  mab = mba.
Proof.
  intros [Hv _] Hstd He Hx Heg Hex. destruct (shaped_rect _ _ _ Hv) as [Hr Hnc].
  unfold rebin_inplace. cbn [to_plot_axis Z.eqb].
  unfold rebin_axis, rebin_data. cbn [rbind]. rewrite Hnc.
  rewrite (rebin_2D_rows _ (length (Ex m))) by auto. cbn [rbind].
  intros E. apply pair_equal_spec in E as [E _]. subst ma. cbn [values Eg Ex std state a_nc a_rows].
  rewrite (rebin_2D_cols _ (length (Ex m)) (length eg)) by (auto; apply mtab_rect).
  cbn [rbind]. intros E. apply pair_equal_spec in E as [E _]. subst mab.
  rewrite (rebin_2D_cols _ (length (Ex m)) (length (Eg m))) by auto.
  cbn [rbind]. intros E. apply pair_equal_spec in E as [E _]. subst mb.
  cbn [values Eg Ex std state a_nc a_rows].
  rewrite (rebin_2D_rows _ (length ex) (length (Eg m))) by (auto; apply mtab_rect).
  cbn [rbind]. intros E. apply pair_equal_spec in E as [E _]. subst mba.
  f_equal. f_equal.
  eapply (rebin_2D_commute_lemma (a_rows (values m)) (length (Ex m)) (length (Eg m)) (Ex m) ex (Eg m) eg);
    auto.
  - apply rebin_2D_rows with (nr := length (Ex m)); auto.
  - apply rebin_2D_cols with (nr := length (Ex m)); auto; apply mtab_rect.
  - apply rebin_2D_cols with (nr := length (Ex m)); auto.
  - apply rebin_2D_rows with (nr := length ex); auto; apply mtab_rect.
Qed.

(* conservation at matrix level *)
Lemma col_sum_total rows nr nc : rect rows nr nc ->
  msum rows = sumn nc (fun j => qsum (col rows j)).
Proof.
  intros Hr. rewrite (msum_mget rows nr nc Hr). rewrite sumn_swap. apply sumn_ext. intros j Hj.
  rewrite qsum_nth, col_length. destruct Hr as [Hr1 Hr2]. rewrite Hr1. apply sumn_ext.
  intros i Hi. unfold mget. rewrite col_get by (rewrite Hr1; assumption). reflexivity.
Qed.
Lemma rebin_total_conserved m ax mids m' :
  consistent m -> std m = None -> to_plot_axis ax <> Ok AxBoth ->
  let old := match to_plot_axis ax with Ok AxEg => Eg m | _ => Ex m end in
  equidistant old -> equidistant mids ->
  axis_lo mids <= axis_lo old -> axis_hi old <= axis_hi mids ->
  rebin_inplace m ax (Some mids) None = (m', Ok tt) -> total m' = total m.
Proof.
  intros [Hv _] Hstd Hb. destruct (shaped_rect _ _ _ Hv) as [Hr Hnc].
  unfold rebin_inplace. destruct (to_plot_axis ax) as [[| |]|]; try congruence;
    cbn zeta; intros He Hm H1 H2; unfold rebin_axis, rebin_data; cbn [rbind]; rewrite Hnc.
  - pose proof (rebin_2D_rows _ (length (Ex m)) _ _ mids Hr eq_refl He Hm) as E.
    rewrite E. cbn [rbind]. intros E'. injection E' as <- _. unfold total. cbn.
    now destruct (rebin_2D_rows_conserve _ _ _ _ _ _ Hr eq_refl He Hm H1 H2 E) as (_ & _ & ?).
  - pose proof (rebin_2D_cols _ (length (Ex m)) _ _ mids Hr eq_refl He Hm) as E.
    rewrite E. cbn [rbind]. intros E'. injection E' as <- _. unfold total. cbn.
    now destruct (rebin_2D_cols_conserve _ _ _ _ _ _ Hr eq_refl He Hm H1 H2 E) as (_ & _ & ?).
Qed.

(* validation *)
Lemma rebin_both_args m ax mids f : (exists x, to_plot_axis ax = Ok x) ->
  rebin_inplace m ax (Some mids) (Some f) = (m, Raise ValueError) /\
  rebin_inplace m ax None None = (m, Raise ValueError).
Proof. intros [x Hx]. unfold rebin_inplace. now rewrite Hx. Qed.
Lemma to_plot_axis_err ax e : to_plot_axis ax = Raise e -> e = ValueError.
Proof.
  unfold to_plot_axis. destruct ax; repeat (destruct (_ : bool); try discriminate);
    now intros [= <-].
Qed.
Lemma rebin_bad_axis m ax mids f e : to_plot_axis ax = Raise e ->
  rebin_inplace m ax mids f = (m, Raise ValueError).
Proof.
  intros H. unfold rebin_inplace. rewrite H. now rewrite (to_plot_axis_err _ _ H).
Qed.
Lemma rebin_bad_factor m ax f : f <= 0 -> (exists x, to_plot_axis ax = Ok x) ->
  rebin_inplace m ax None (Some f) = (m, Raise ValueError).
Proof.
  intros Hf [x Hx]. unfold rebin_inplace. rewrite Hx. apply (proj2 (qleb_le _ _)) in Hf.
  destruct x; unfold rebin_axis, rebin_data, factor_mids; rewrite Hf; reflexivity.
Qed.
