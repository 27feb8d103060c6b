(* C123: the style and the grid of the curves in the panels of one sample, found by mutation testing. *)
From Coq Require Import String.
From Verif Require Import Num PyBase RebinModel MatrixModel SampStatModel FitWinModel EnsPlotModel EnsPlotProps.
Local Notation length := List.length (only parsing).
Local Open Scope Qc_scope.

Definition is_curve (l : line) : bool := match ln_kind l with KNldModel _ _ _ | KGsfModel _ _ _ _ => true | _ => false end.
Definition style (l : line) : lkind * nat * Qc := (ln_kind l, ln_marker l, ln_alpha l).
(* the curve of the level density runs in 50 points from the upper limit to Sn, in the style of its sample *)
Theorem nld_panel_curve : forall caps lim lab fr v T E m a q, nld_plot caps lim lab fr v T E m a new_panel = Ok q ->
  map style (filter is_curve (pn_lines q)) = [(KNldModel T E (linspace (nl_high lim) (nl_Sn lim) 50), m, a)].
Proof.
  intros caps lim lab fr v T E m a q. unfold nld_plot. destruct (length (s_E v) <? 2)%nat; [discriminate|]. unfold vec_plot, errorbar.
  generalize (linspace (nl_high lim) (nl_Sn lim) 50). intros x.
  destruct (s_std v), caps, fr; intros [= <-]; reflexivity.
Qed.
Print Assumptions nld_panel_curve.
(* a level density of one bin cannot be drawn: IndexError *)
Theorem nld_panel_refuses : forall caps lim lab fr v T E m a p,
  (length (s_E v) < 2)%nat <-> nld_plot caps lim lab fr v T E m a p = Raise IndexError.
Proof.
  intros. unfold nld_plot. destruct (Nat.ltb_spec (length (s_E v)) 2); split; intros; try reflexivity; try assumption; try discriminate; lia.
Qed.
Print Assumptions nld_panel_refuses.
(* the two curves of the strength function: from Emin to the end of the lower fit window, and from the start of the upper one to Sn *)
Theorem gsf_panel_curves : forall caps Sn lab fr v lo hi m a q, gsf_plot caps Sn lab fr v lo hi m a new_panel = Ok q ->
  exists emin e1 e2, g_Emin lo = Some emin /\ ef_high (g_efit lo) = Some e1 /\ ef_low (g_efit hi) = Some e2 /\
  map style (filter is_curve (pn_lines q)) = [(KGsfModel false (g_scale lo) (g_shift lo) (linspace emin e1 50), m, a);
                                              (KGsfModel true (g_scale hi) (g_shift hi) (linspace e2 Sn 50), m, a)].
Proof.
  intros caps Sn lab fr v lo hi m a q. unfold gsf_plot.
  destruct (g_Emin lo) as [x|], (ef_high (g_efit lo)) as [y|], (ef_low (g_efit hi)) as [z|]; try discriminate.
  intros H. exists x, y, z. do 3 (split; [reflexivity|]). revert H. unfold vec_plot, errorbar.
  generalize (linspace x y 50) (linspace z Sn 50). intros u w. destruct fr.
  - destruct (ef_low (g_efit lo)), (ef_high (g_efit hi)); try discriminate. destruct (s_std v), caps; intros [= <-]; reflexivity.
  - destruct (s_std v), caps; intros [= <-]; reflexivity.
Qed.
Print Assumptions gsf_panel_curves.
(* the fit limits that are not set are only needed when they are to be shown *)
Theorem gsf_panel_refuses : forall caps Sn lab fr v lo hi m a p,
  (g_Emin lo = None \/ ef_high (g_efit lo) = None \/ ef_low (g_efit hi) = None \/
   (fr = true /\ (ef_low (g_efit lo) = None \/ ef_high (g_efit hi) = None))) <->
  gsf_plot caps Sn lab fr v lo hi m a p = Raise TypeError.
Proof.
  intros. unfold gsf_plot. destruct (g_Emin lo), (ef_high (g_efit lo)), (ef_low (g_efit hi)), fr, (ef_low (g_efit lo)), (ef_high (g_efit hi));
    split; intros H; try reflexivity; try discriminate; try tauto;
    decompose [and or] H; discriminate.
Qed.
Print Assumptions gsf_panel_refuses.
(* what a fit accepts: at least two points, none missing, and as many uncertainties as points if there are any *)
Theorem fit_accepts : forall p, curve_fit_refuses p = None <->
  (forall o, In o (fp_values p) -> o <> None) /\ (2 <= length (fp_values p))%nat /\ (forall s, fp_std p = Some s -> length s = length (fp_values p)).
Proof.
  intros p. unfold curve_fit_refuses. destruct (existsb is_missing (fp_values p)) eqn:M.
  - split; [discriminate|]. intros (N & _). apply existsb_exists in M. destruct M as ([x|] & I & Q); [discriminate|]. exfalso. exact (N None I eq_refl).
  - assert (N : forall o, In o (fp_values p) -> o <> None) by (intros o I ->; rewrite (proj2 (existsb_exists is_missing (fp_values p)) (ex_intro _ None (conj I eq_refl))) in M; discriminate).
    destruct (Nat.eqb_spec (length (fp_values p)) 0); [split; [discriminate|intros (_ & Z & _); lia]|].
    destruct (fp_std p) as [s|]; [destruct (Nat.eqb_spec (length s) (length (fp_values p))); cbn [negb]|].
    + destruct (Nat.ltb_spec (length (fp_values p)) 2); [split; [discriminate|intros (_ & Z & _); lia]|]. split; [intros _|reflexivity]. split; [exact N|]. split; [lia|]. intros s' Q. injection Q as <-. assumption.
    + split; [discriminate|]. intros (_ & _ & Q). exfalso. apply n0. apply Q. reflexivity.
    + destruct (Nat.ltb_spec (length (fp_values p)) 2); [split; [discriminate|intros (_ & Z & _); lia]|]. split; [intros _|reflexivity]. split; [exact N|]. split; [lia|]. discriminate.
Qed.
Print Assumptions fit_accepts.
Theorem fit_sigma_refused : forall p s, (forall o, In o (fp_values p) -> o <> None) -> fp_std p = Some s -> length s <> length (fp_values p) ->
  curve_fit_refuses p = Some ValueError.
Proof.
  intros p s N Q L. unfold curve_fit_refuses. destruct (existsb is_missing (fp_values p)); [reflexivity|]. destruct (Nat.eqb _ 0); [reflexivity|].
  rewrite Q. destruct (Nat.eqb_spec (length s) (length (fp_values p))); [contradiction|reflexivity].
Qed.
Print Assumptions fit_sigma_refused.
Example curve_case : exists q, nld_plot false (mkNL (qz 5) (qz 8)) true true (mkS [qz 1; qz 2] [Some (qz 1); Some (qz 3)] None) (qn 1 2) (qz 0) 3 (qn 1 4) new_panel = Ok q.
Proof. eexists. reflexivity. Qed.
