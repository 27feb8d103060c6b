From Verif Require Import PyBase RebinModel RebinSpec RebinProofs.

Lemma rmapm_ok {A B} (f : A -> result B) (g : A -> B) l :
  (forall x, In x l -> f x = Ok (g x)) -> rmapm f l = Ok (map g l).
Proof.
  induction l as [|x l IH]; intros H; cbn; [reflexivity|].
  rewrite H by now left. cbn. rewrite IH by (intros; apply H; now right). reflexivity.
Qed.
Lemma rmapm_length {A B} (f : A -> result B) l m : rmapm f l = Ok m -> length m = length l.
Proof.
  revert m. induction l as [|x l IH]; cbn; intros m H.
  - now injection H as <-.
  - destruct (f x); cbn in H; [|discriminate]. destruct (rmapm f l); cbn in H; [|discriminate].
    injection H as <-. cbn. f_equal. now apply IH.
Qed.

Lemma rect_row m nr nc i : rect m nr nc -> (i < nr)%nat -> length (nth i m []) = nc.
Proof. intros [H1 H2] Hi. apply H2. apply nth_In. congruence. Qed.
Lemma col_length m j : length (col m j) = length m.
Proof. unfold col. apply map_length. Qed.
Lemma col_get m j i : vget (col m j) i = mget m i j.
Proof.
  unfold vget, col, mget. revert i. induction m as [|r m IH]; intros i.
  - destruct i; cbn; destruct j; reflexivity.
  - destruct i; cbn; [reflexivity | apply IH].
Qed.
Lemma mtab_rect nr nc f : rect (mtab nr nc f) nr nc.
Proof.
  unfold mtab. split; [apply tab_length|]. intros r Hr.
  apply in_tab in Hr as (i & _ & ->). apply tab_length.
Qed.
Lemma mget_mtab nr nc f i j : (i < nr)%nat -> (j < nc)%nat -> mget (mtab nr nc f) i j = f i j.
Proof. intros. unfold mget, mtab, vget. rewrite nth_tab by assumption. now apply nth_tab. Qed.
Lemma rect_mtab m nr nc : rect m nr nc -> m = mtab nr nc (mget m).
Proof.
  intros H. pose proof H as [H1 H2]. apply (list_eq_nth _ _ []).
  - unfold mtab. now rewrite tab_length.
  - intros i Hi. rewrite H1 in Hi. unfold mtab. rewrite nth_tab by assumption.
    rewrite <- (tab_nth (nth i m []) 0) at 1. rewrite (rect_row m nr nc) by assumption.
    reflexivity.
Qed.
Lemma mtab_ext nr nc f g :
  (forall i j, (i < nr)%nat -> (j < nc)%nat -> f i j = g i j) -> mtab nr nc f = mtab nr nc g.
Proof. intros H. unfold mtab. apply tab_ext. intros i Hi. apply tab_ext. intros j Hj. now apply H. Qed.
Lemma rect_ext m m' nr nc : rect m nr nc -> rect m' nr nc ->
  (forall i j, (i < nr)%nat -> (j < nc)%nat -> mget m i j = mget m' i j) -> m = m'.
Proof.
  intros H H' E. rewrite (rect_mtab m nr nc H), (rect_mtab m' nr nc H'). now apply mtab_ext.
Qed.
Lemma msum_mget m nr nc : rect m nr nc ->
  msum m = sumn nr (fun i => sumn nc (fun j => mget m i j)).
Proof.
  intros H. rewrite (rect_mtab m nr nc H) at 1. unfold msum, mtab. rewrite map_tab, qsum_tab.
  apply sumn_ext. intros i Hi. now rewrite qsum_tab.
Qed.

(* axis = 1: every row; axis = 0: every column *)
Lemma rebin_2D_rows counts nr nc mi mo :
  rect counts nr nc -> length mi = nc -> equidistant mi -> equidistant mo ->
  rebin_2D nc counts mi mo 1 =
  Ok (mtab nr (length mo) (fun i j => rebin_spec (nth i counts []) mi mo j)).
Proof.
  intros Hr Hl Hi Ho. unfold rebin_2D. cbn.
  rewrite (rmapm_ok _ (fun r => tab (length mo) (rebin_spec r mi mo))).
  - f_equal. unfold mtab. destruct Hr as [Hr1 Hr2]. rewrite <- Hr1.
    rewrite <- (tab_nth counts []) at 1. rewrite map_tab. reflexivity.
  - intros r Hin. apply rebin_1D_ok; auto. destruct Hr as [_ Hr2]. rewrite Hl. now apply Hr2.
Qed.
Lemma rebin_2D_cols counts nr nc mi mo :
  rect counts nr nc -> length mi = nr -> equidistant mi -> equidistant mo ->
  rebin_2D nc counts mi mo 0 =
  Ok (mtab (length mo) nc (fun i j => rebin_spec (col counts j) mi mo i)).
Proof.
  intros Hr Hl Hi Ho. unfold rebin_2D. cbn [Z.eqb].
  rewrite (rmapm_ok _ (fun j => tab (length mo) (rebin_spec (col counts j) mi mo))).
  - cbn. f_equal. unfold mtab. apply tab_ext. intros i Hlt.
    rewrite map_map. apply tab_ext. intros j Hj. unfold vget. now rewrite nth_tab.
  - intros j Hin. apply rebin_1D_ok; auto. rewrite col_length. destruct Hr. congruence.
Qed.

(* invalid axis *)
Lemma rebin_2D_bad_axis nc counts mi mo ax :
  (ax <> 0 /\ ax <> 1)%Z -> rebin_2D nc counts mi mo ax = Raise ValueError.
Proof.
  intros [H0 H1]. unfold rebin_2D.
  destruct (Z.eqb_spec ax 0); [lia|]. destruct (Z.eqb_spec ax 1); [lia|]. reflexivity.
Qed.

(* rebinning Eg then Ex = Ex then Eg *)
Lemma rebin_2D_commute_lemma counts nr nc exi exo egi ego a b ab ba :
  rect counts nr nc -> length exi = nr -> length egi = nc ->
  equidistant exi -> equidistant exo -> equidistant egi -> equidistant ego ->
  rebin_2D nc counts egi ego 1 = Ok a -> rebin_2D (length ego) a exi exo 0 = Ok ab ->
  rebin_2D nc counts exi exo 0 = Ok b -> rebin_2D nc b egi ego 1 = Ok ba ->
  ab = ba.
Proof.
  intros Hr Hx Hg H1 H2 H3 H4 Ea Eab Eb Eba.
  rewrite (rebin_2D_rows counts nr nc) in Ea by assumption. injection Ea as <-.
  rewrite (rebin_2D_cols counts nr nc) in Eb by assumption. injection Eb as <-.
  rewrite (rebin_2D_cols _ nr (length ego)) in Eab by (assumption || apply mtab_rect).
  injection Eab as <-.
  rewrite (rebin_2D_rows _ (length exo) nc) in Eba by (assumption || apply mtab_rect).
  injection Eba as <-.
  apply mtab_ext. intros i j Hi Hj. unfold rebin_spec.
  rewrite (sumn_ext (length exi) _ (fun k => sumn (length egi) (fun l =>
     mget counts k l * part_in (bin_lo ego j) (bin_hi ego j) (bin_lo egi l) (bin_hi egi l) / width egi
     * part_in (bin_lo exo i) (bin_hi exo i) (bin_lo exi k) (bin_hi exi k) / width exi))).
  - rewrite sumn_swap. apply sumn_ext. intros l Hl.
    change (vget (nth i (mtab ?x ?y ?f) []) l) with (mget (mtab x y f) i l).
    rewrite mget_mtab by (assumption || congruence).
    unfold Qcdiv. rewrite <- !sumn_scal_r. apply sumn_ext. intros k Hk.
    rewrite col_get. ring.
  - intros k Hk. rewrite col_get, mget_mtab by (assumption || congruence).
    unfold Qcdiv. rewrite <- !sumn_scal_r. apply sumn_ext. intros l Hl.
    unfold mget. ring.
Qed.

(* conservation in 2-D, per row / per column and in total *)
Lemma rebin_2D_rows_conserve counts nr nc mi mo out :
  rect counts nr nc -> length mi = nc -> equidistant mi -> equidistant mo ->
  axis_lo mo <= axis_lo mi -> axis_hi mi <= axis_hi mo ->
  rebin_2D nc counts mi mo 1 = Ok out ->
  rect out nr (length mo) /\
  (forall i, (i < nr)%nat -> qsum (nth i out []) = qsum (nth i counts [])) /\
  msum out = msum counts.
Proof.
  intros Hr Hl Hi Ho H1 H2 E. rewrite (rebin_2D_rows counts nr nc) in E by assumption.
  injection E as <-. split; [apply mtab_rect|].
  assert (Hrow : forall i, (i < nr)%nat ->
    sumn (length mo) (rebin_spec (nth i counts []) mi mo) = qsum (nth i counts [])).
  { intros i Hlt. rewrite rebin_total by assumption. apply counts_in_all; auto.
    rewrite (rect_row counts nr nc) by assumption. congruence. }
  split.
  - intros i Hlt. unfold mtab. rewrite nth_tab by assumption. rewrite qsum_tab. now apply Hrow.
  - rewrite (msum_mget _ nr (length mo)) by apply mtab_rect.
    unfold msum. rewrite <- (tab_nth counts []). destruct Hr as [Hr1 Hr2]. rewrite Hr1.
    rewrite map_tab, qsum_tab. apply sumn_ext. intros i Hlt. rewrite <- Hrow by assumption.
    apply sumn_ext. intros j Hj. rewrite mget_mtab by assumption. now rewrite <- Hr1, tab_nth.
Qed.
Lemma rebin_2D_cols_conserve counts nr nc mi mo out :
  rect counts nr nc -> length mi = nr -> equidistant mi -> equidistant mo ->
  axis_lo mo <= axis_lo mi -> axis_hi mi <= axis_hi mo ->
  rebin_2D nc counts mi mo 0 = Ok out ->
  rect out (length mo) nc /\
  (forall j, (j < nc)%nat -> qsum (col out j) = qsum (col counts j)) /\
  msum out = msum counts.
Proof.
  intros Hr Hl Hi Ho H1 H2 E. rewrite (rebin_2D_cols counts nr nc) in E by assumption.
  injection E as <-. split; [apply mtab_rect|].
  assert (Hcol : forall j, (j < nc)%nat ->
    sumn (length mo) (rebin_spec (col counts j) mi mo) = qsum (col counts j)).
  { intros i Hlt. rewrite rebin_total by assumption. apply counts_in_all; auto.
    rewrite col_length. destruct Hr. congruence. }
  split.
  - intros j Hlt. rewrite qsum_nth, col_length. unfold mtab at 1. rewrite tab_length.
    rewrite <- Hcol by assumption. apply sumn_ext. intros i Hi'. rewrite col_get. now apply mget_mtab.
  - rewrite (msum_mget _ (length mo) nc) by apply mtab_rect.
    rewrite (msum_mget _ nr nc) by assumption. rewrite (sumn_swap nr nc), sumn_swap.
    apply sumn_ext. intros j Hj.
    rewrite (sumn_ext _ _ (rebin_spec (col counts j) mi mo)).
    + rewrite Hcol by assumption. rewrite qsum_nth, col_length. destruct Hr as [-> _].
      apply sumn_ext. intros i Hi'. apply col_get.
    + intros i Hi'. now apply mget_mtab.
Qed.
