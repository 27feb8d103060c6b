(* C126: the pictures of standard deviations, vectors and projections. *)
From Coq Require Import String.
From Verif Require Import Num PyBase Axis MatrixModel VectorModel CutProofs PlotModel PlotProps StdPlotModel.
Import ListNotations.
Local Notation length := List.length (only parsing).
Local Open Scope Qc_scope.

(* ------------------------------------------------------------------ specification *)
Definition entries (m : matrix) : list Qc := concat (a_rows (values m)).
(* the entries the colours are scaled by *)
Definition scaled_by (b : scale_by) (raw unfolded firstgen : matrix) : list Qc :=
  match b with
  | ByRaw => entries raw | ByUnfolded => entries unfolded | ByFirstgen => entries firstgen
  | ByAll => entries raw ++ entries unfolded ++ entries firstgen | ByOther => []
  end.
Definition least (l : list Qc) (x : Qc) : Prop := In x l /\ forall y, In y l -> x <= y.
Definition greatest (l : list Qc) (x : Qc) : Prop := In x l /\ forall y, In y l -> y <= x.

(* ------------------------------------------------------------------ helpers *)
Lemma extrema_spec m a b : extrema m = Ok (a, b) -> least (entries m) a /\ greatest (entries m) b.
Proof.
  unfold extrema. fold (entries m). destruct (entries m) as [|x l]; [discriminate|]. cbn [py_min py_max rbind]. intros H. injection H as <- <-.
  destruct (list_min_spec l x) as (A & B & C). destruct (list_max_spec l x) as (D & E & F). split; split.
  - destruct C as [-> | C]; [now left|now right].
  - intros y [<-|I]; auto.
  - destruct F as [-> | F]; [now left|now right].
  - intros y [<-|I]; auto.
Qed.
Lemma min_six r u f R U F a : least R (fst r) -> greatest R (snd r) -> least U (fst u) -> greatest U (snd u) -> least F (fst f) -> greatest F (snd f) ->
  py_min [fst r; snd r; fst u; snd u; fst f; snd f] = Ok a -> least (R ++ U ++ F) a.
Proof.
  intros (r1 & r2) (r3 & r4) (u1 & u2) (u3 & u4) (f1 & f2) (f3 & f4). unfold py_min. intros H.
  assert (Z : a = list_min (fst r) [snd r; fst u; snd u; fst f; snd f]) by congruence. clear H. rewrite Z. clear Z.
  destruct (list_min_spec [snd r; fst u; snd u; fst f; snd f] (fst r)) as (A & B & C). set (z := list_min _ _) in *. split.
  - rewrite !in_app_iff. destruct C as [C|[C|[C|[C|[C|[C|[]]]]]]]; (rewrite C || rewrite <- C); auto.
  - intros y I. rewrite !in_app_iff in I. destruct I as [I|[I|I]].
    + specialize (r2 y I). qlra.
    + specialize (u2 y I). assert (z <= fst u) by (apply B; cbn; auto). qlra.
    + specialize (f2 y I). assert (z <= fst f) by (apply B; cbn; auto). qlra.
Qed.
Lemma max_six r u f R U F a : least R (fst r) -> greatest R (snd r) -> least U (fst u) -> greatest U (snd u) -> least F (fst f) -> greatest F (snd f) ->
  py_max [fst r; snd r; fst u; snd u; fst f; snd f] = Ok a -> greatest (R ++ U ++ F) a.
Proof.
  intros (r1 & r2) (r3 & r4) (u1 & u2) (u3 & u4) (f1 & f2) (f3 & f4). unfold py_max. intros H.
  assert (Z : a = list_max (fst r) [snd r; fst u; snd u; fst f; snd f]) by congruence. clear H. rewrite Z. clear Z.
  destruct (list_max_spec [snd r; fst u; snd u; fst f; snd f] (fst r)) as (A & B & C). set (z := list_max _ _) in *. split.
  - rewrite !in_app_iff. destruct C as [C|[C|[C|[C|[C|[C|[]]]]]]]; (rewrite C || rewrite <- C); auto.
  - intros y I. rewrite !in_app_iff in I. destruct I as [I|[I|I]].
    + specialize (r4 y I). assert (snd r <= z) by (apply B; cbn; auto). qlra.
    + specialize (u4 y I). assert (snd u <= z) by (apply B; cbn; auto). qlra.
    + specialize (f4 y I). assert (snd f <= z) by (apply B; cbn; auto 10). qlra.
Qed.
Lemma limits_all r u f c : limits_by ByAll r u f = Ok c ->
  py_min [fst r; snd r; fst u; snd u; fst f; snd f] = Ok (fst c) /\ py_max [fst r; snd r; fst u; snd u; fst f; snd f] = Ok (snd c).
Proof.
  unfold limits_by. generalize (py_min [fst r; snd r; fst u; snd u; fst f; snd f]) (py_max [fst r; snd r; fst u; snd u; fst f; snd f]).
  intros [x|] [y|]; cbn [rbind]; intros H; try discriminate. injection H as <-. now split.
Qed.
Lemma std_inv raw unf fg a vmin vmax cb by_ s fig : std_plot raw unf fg a vmin vmax cb by_ s = Ok fig ->
  a = AxNone /\ exists lo hi p1 p2 p3, least (scaled_by by_ raw unf fg) lo /\ greatest (scaled_by by_ raw unf fg) hi /\
    f_limits fig = colour_limits vmin vmax (lo, hi) /\ f_pics fig = [p1; p2; p3] /\
    snd (plot raw s (Some (fst (f_limits fig)))) = Ok p1 /\ snd (plot unf s (Some (fst (f_limits fig)))) = Ok p2 /\ snd (plot fg s (Some (fst (f_limits fig)))) = Ok p3 /\
    f_bar fig = if cb then Some (p_scale p3, bar_arrows vmin vmax) else None.
Proof.
  unfold std_plot. destruct a as [| |n]; cbn [take_axes rbind]; [|discriminate|destruct (n <? 3)%nat; discriminate].
  destruct (extrema raw) as [r|] eqn:R; [|discriminate]. cbn [rbind]. destruct (extrema unf) as [u|] eqn:U; [|discriminate]. cbn [rbind].
  destruct (extrema fg) as [f|] eqn:F; [|discriminate]. cbn [rbind]. destruct (limits_by by_ r u f) as [c|] eqn:L; [|discriminate]. cbn [rbind].
  destruct (snd (plot raw s _)) as [p1|] eqn:P1; [|discriminate]. cbn [rbind]. destruct (snd (plot unf s _)) as [p2|] eqn:P2; [|discriminate]. cbn [rbind].
  destruct (snd (plot fg s _)) as [p3|] eqn:P3; [|discriminate]. cbn [rbind]. intros H. injection H as <-. cbn [f_limits f_pics f_bar]. split; [reflexivity|].
  destruct r as [r0 r1], u as [u0 u1], f as [f0 f1], c as [c0 c1].
  destruct (extrema_spec _ _ _ R) as (RA & RB). destruct (extrema_spec _ _ _ U) as (UA & UB). destruct (extrema_spec _ _ _ F) as (FA & FB).
  exists c0, c1, p1, p2, p3.
  assert (X : least (scaled_by by_ raw unf fg) c0 /\ greatest (scaled_by by_ raw unf fg) c1).
  { destruct by_.
    - change (Ok (r0, r1) = Ok (c0, c1)) in L. injection L as <- <-. now split.
    - change (Ok (u0, u1) = Ok (c0, c1)) in L. injection L as <- <-. now split.
    - change (Ok (f0, f1) = Ok (c0, c1)) in L. injection L as <- <-. now split.
    - apply limits_all in L. destruct L as (M & N).
      split; [apply (min_six (r0, r1) (u0, u1) (f0, f1)); assumption|apply (max_six (r0, r1) (u0, u1) (f0, f1)); assumption].
    - discriminate L. }
  destruct X as (XA & XB). repeat split; try assumption; try apply XA; try apply XB.
Qed.

(* ------------------------------------------------------------------ the standard deviations *)
(* whatever is given as ax, the picture fails *)
Theorem std_plot_axes_refuted : forall raw unf fg a vmin vmax cb by_ s, a <> AxNone -> exists e, std_plot raw unf fg a vmin vmax cb by_ s = Raise e.
Proof. intros raw unf fg [| |n] vmin vmax cb by_ s N; [contradiction|eexists; reflexivity|]. unfold std_plot, take_axes. destruct (n <? 3)%nat; eexists; reflexivity. Qed.
Print Assumptions std_plot_axes_refuted.
(* the upper limit is the largest entry of the chosen matrices, the lower one the smallest if that is positive and 1 otherwise *)
Theorem std_plot_limits : forall raw unf fg a cb by_ s fig, std_plot raw unf fg a None None cb by_ s = Ok fig ->
  greatest (scaled_by by_ raw unf fg) (snd (f_limits fig)) /\
  exists lo, least (scaled_by by_ raw unf fg) lo /\ ((0 < lo /\ fst (f_limits fig) = lo) \/ (lo <= 0 /\ fst (f_limits fig) = 1)).
Proof.
  intros raw unf fg a cb by_ s fig H. destruct (std_inv _ _ _ _ _ _ _ _ _ _ H) as (_ & lo & hi & p1 & p2 & p3 & LO & HI & LM & _). rewrite LM. cbn [colour_limits fst snd].
  split; [exact HI|]. exists lo. split; [exact LO|]. destruct (qleb_spec lo 0); [right|left]; split; auto; qlra.
Qed.
Print Assumptions std_plot_limits.
(* limits that are given are used, one by one, with an arrow of the colour bar at each that is given *)
Theorem std_plot_given : forall raw unf fg a vmin vmax cb by_ s fig, std_plot raw unf fg a vmin vmax cb by_ s = Ok fig ->
  (forall v, vmin = Some v -> fst (f_limits fig) = v) /\ (forall v, vmax = Some v -> snd (f_limits fig) = v) /\
  (cb = false <-> f_bar fig = None) /\
  (forall sc w, f_bar fig = Some (sc, w) -> (vmin <> None <-> w = ArrowMin \/ w = ArrowBoth) /\ (vmax <> None <-> w = ArrowMax \/ w = ArrowBoth)).
Proof.
  intros raw unf fg a vmin vmax cb by_ s fig H. destruct (std_inv _ _ _ _ _ _ _ _ _ _ H) as (_ & lo & hi & p1 & p2 & p3 & _ & _ & LM & _ & _ & _ & _ & BR). rewrite LM, BR.
  split; [intros v ->; reflexivity|]. split; [intros v ->; reflexivity|]. split; [destruct cb; split; congruence|].
  intros sc w Q. destruct cb; [|discriminate]. injection Q as _ <-. destruct vmin, vmax; cbn; split; split; intros Z; try congruence; auto; destruct Z; discriminate.
Qed.
Print Assumptions std_plot_given.
(* without a positive minimum the limits are in order exactly if some entry reaches 1 *)
Theorem std_plot_order : forall raw unf fg a cb by_ s fig lo, std_plot raw unf fg a None None cb by_ s = Ok fig -> least (scaled_by by_ raw unf fg) lo ->
  (fst (f_limits fig) <= snd (f_limits fig) <-> 0 < lo \/ exists x, In x (scaled_by by_ raw unf fg) /\ 1 <= x).
Proof.
  intros raw unf fg a cb by_ s fig lo H (LI & LL). destruct (std_plot_limits _ _ _ _ _ _ _ _ H) as ((HI & HH) & lo' & (LI' & LL') & C).
  assert (E : lo' = lo) by (apply Qcle_antisym; [apply LL'; exact LI|apply LL; exact LI']). subst lo'. split.
  - intros O. destruct C as [(P & _)|(_ & Q)]; [now left|right]. exists (snd (f_limits fig)). rewrite Q in O. auto.
  - intros [P|(x & I & X)].
    + destruct C as [(_ & ->)|(N & _)]; [|exfalso; qlra]. apply HH. exact LI.
    + destruct C as [(_ & ->)|(N & ->)]; [apply HH; exact LI|]. specialize (HH x I). qlra.
Qed.
Print Assumptions std_plot_order.
(* a scale that is given holds for all three pictures and the colour bar *)
Theorem std_plot_scale_partial : forall raw unf fg a vmin vmax cb by_ s fig, s = SLog \/ s = SLinear -> std_plot raw unf fg a vmin vmax cb by_ s = Ok fig ->
  exists sc, (forall p, In p (f_pics fig) -> p_scale p = sc) /\ (forall sc' w, f_bar fig = Some (sc', w) -> sc' = sc).
Proof.
  intros raw unf fg a vmin vmax cb by_ s fig S H. destruct (std_inv _ _ _ _ _ _ _ _ _ _ H) as (_ & lo & hi & p1 & p2 & p3 & _ & _ & LM & PS & P1 & P2 & P3 & BR).
  assert (X : forall m v p, snd (plot m s v) = Ok p -> p_scale p = match s with SLog => Log | _ => Linear end).
  { intros m v p. unfold plot. destruct (_ || _); [discriminate|]. destruct (choose_scale s v (m_counts m)) as [sc|] eqn:C; [|discriminate].
    destruct (to_lower_bin m) as [l|]; [|discriminate]. destruct (to_mid_bin l); [|discriminate]. cbn [snd]. intros Q. injection Q as <-. cbn [p_scale].
    unfold choose_scale in C. destruct S as [-> | ->]; [destruct v as [x|]; [destruct (qleb x 0); [discriminate|]|]|]; congruence. }
  exists (match s with SLog => Log | _ => Linear end). rewrite PS, BR. split.
  - intros p [<-|[<-|[<-|[]]]]; eapply X; eassumption.
  - intros sc' w Q. destruct cb; [|discriminate]. injection Q as <- _. eapply X; eassumption.
Qed.
Print Assumptions std_plot_scale_partial.
Definition mat2 (a b c d : Qc) : matrix := mkM (mkArr 2 [[a; b]; [c; d]]) [0; 1] [0; 1] None None.
Definition noisy := mat2 0 (qz 2000) (qz 1) (qz 3).
Definition quiet := mat2 0 (qn 1 2) (qz 1) (qz 3).
Definition still := mat2 0 (qn 1 2) (qn 1 4) (qn 1 3).
(* otherwise each picture chooses its own scale by its sum, and the one colour bar shows that of the last: here the raw
   picture is logarithmic and the bar linear *)
Theorem std_plot_scale_refuted : exists raw unf fg fig p, std_plot raw unf fg AxNone None None true ByAll SAuto = Ok fig /\
  nth_error (f_pics fig) 0 = Some p /\ p_scale p = Log /\ option_map fst (f_bar fig) = Some Linear.
Proof. exists noisy, quiet, still. eexists. eexists. split; [reflexivity|]. split; [reflexivity|]. split; vm_compute; reflexivity. Qed.
Print Assumptions std_plot_scale_refuted.
(* "a colour bar without arrows means that no entry is beyond its ends" is false: with a zero among the entries those below 1
   are; here all are, and the limits are in the wrong order *)
Theorem std_plot_limits_refuted : exists raw unf fg fig sc x, std_plot raw unf fg AxNone None None true ByAll SAuto = Ok fig /\
  f_bar fig = Some (sc, NoArrow) /\ In x (entries raw) /\ 0 < x /\ x < fst (f_limits fig) /\ snd (f_limits fig) < fst (f_limits fig).
Proof.
  exists still, still, still. eexists. exists Linear, (qn 1 2). split; [reflexivity|]. split; [reflexivity|]. split; [right; left; reflexivity|].
  split; [apply qltb_lt; vm_compute; reflexivity|]. split; apply qltb_lt; vm_compute; reflexivity.
Qed.
Print Assumptions std_plot_limits_refuted.
(* when the pictures are refused otherwise *)
Theorem std_plot_refuses : forall raw unf fg vmin vmax cb s, std_plot raw unf fg AxNone vmin vmax cb ByOther s = Raise ValueError.
Proof.
  intros. unfold std_plot. cbn [take_axes rbind]. unfold extrema.
  destruct (concat (a_rows (values raw))); [reflexivity|]. cbn [py_min py_max rbind]. destruct (concat (a_rows (values unf))); [reflexivity|]. cbn [py_min py_max rbind].
  destruct (concat (a_rows (values fg))); reflexivity.
Qed.
Print Assumptions std_plot_refuses.
(* and that they are made for matrices of at least two bins along both axes, with a positive or automatic lower limit *)
Theorem std_plot_made : forall raw unf fg vmin vmax cb by_ s,
  (forall m, m = raw \/ m = unf \/ m = fg -> entries m <> [] /\ (2 <= length (Ex m))%nat /\ (2 <= length (Eg m))%nat) ->
  by_ <> ByOther -> s <> SOther -> (forall v, vmin = Some v -> 0 < v) -> exists fig, std_plot raw unf fg AxNone vmin vmax cb by_ s = Ok fig.
Proof.
  intros raw unf fg vmin vmax cb by_ s M B S V.
  assert (E : forall m, m = raw \/ m = unf \/ m = fg -> exists c, extrema m = Ok c).
  { intros m I. destruct (M m I) as (N & _). unfold extrema. fold (entries m). destruct (entries m); [contradiction|]. eexists. reflexivity. }
  destruct (E raw) as (r & R); [auto|]. destruct (E unf) as (u & U); [auto|]. destruct (E fg) as (f & F); [auto|].
  unfold std_plot. cbn [take_axes rbind]. rewrite R, U, F. cbn [rbind].
  assert (L : exists c, limits_by by_ r u f = Ok c) by (destruct by_; [eexists; reflexivity..|contradiction]). destruct L as (c & L). rewrite L. cbn [rbind]. cbv zeta.
  assert (P : 0 < fst (colour_limits vmin vmax c)).
  { unfold colour_limits. cbn [fst]. destruct vmin as [v|]; [exact (V v eq_refl)|]. destruct (qleb_spec (fst c) 0); qlra. }
  assert (D : forall m, m = raw \/ m = unf \/ m = fg -> exists p, snd (plot m s (Some (fst (colour_limits vmin vmax c)))) = Ok p).
  { intros m I. destruct (M m I) as (_ & X & G). destruct (proj2 (plot_scale m s (Some (fst (colour_limits vmin vmax c)))) X G S) as (p & Q & _); [intros v Z; injection Z as <-; exact P|]. now exists p. }
  destruct (D raw) as (p1 & ->); [auto|]. destruct (D unf) as (p2 & ->); [auto|]. destruct (D fg) as (p3 & ->); [auto|]. eexists. reflexivity.
Qed.
Print Assumptions std_plot_made.
Example std_case : exists fig, std_plot noisy quiet still AxNone None (Some (qz 100)) true ByAll SLinear = Ok fig /\ option_map snd (f_bar fig) = Some ArrowMax /\ snd (f_limits fig) = qz 100.
Proof. eexists. split; [reflexivity|]. split; reflexivity. Qed.

(* ------------------------------------------------------------------ vectors *)
(* a vector without uncertainties is drawn in the kind that is asked for *)
Theorem vector_plot_partial : forall E v scale,
  vector_plot E v None KLine scale = Ok (DLine E v, scale) /\ vector_plot E v None KPlot scale = Ok (DLine E v, scale) /\
  vector_plot E v None KStep scale = Ok (DStep E v, scale) /\ vector_plot E v None KElse scale = Raise NotImplementedErr.
Proof. repeat split. Qed.
Print Assumptions vector_plot_partial.
(* the documented kind 'bar' does not exist *)
Theorem vector_bar_refuted : forall E v scale, vector_plot E v None KBar scale = Raise NotImplementedErr.
Proof. reflexivity. Qed.
Print Assumptions vector_bar_refuted.
(* with uncertainties the kind is not looked at: steps are not drawn, and an unknown kind is accepted *)
Theorem vector_kind_refuted : forall E v s k scale, vector_plot E v (Some s) k scale = Ok (DErrors E v s, scale).
Proof. reflexivity. Qed.
Print Assumptions vector_kind_refuted.

(* ------------------------------------------------------------------ projections *)
(* the projection is drawn over its own energies, labelled with the axis it is on, in the scale asked for *)
Theorem plot_projection_shows : forall m axis Emin Emax nrm scale d lab sc, plot_projection m axis Emin Emax nrm scale KLine = Ok (d, lab, sc) ->
  exists p e, projection m axis Emin Emax nrm = Ok (p, e) /\ length p = length e /\ d = DLine e p /\ sc = scale /\ (lab = true <-> to_plot_axis axis = Ok AxEx) /\
    e = (if lab then Ex m else Eg m).
Proof.
  intros m axis Emin Emax nrm scale d lab sc. unfold plot_projection. destruct (to_plot_axis axis) as [ax|] eqn:A; [|discriminate]. cbn [rbind].
  destruct (projection m axis Emin Emax nrm) as [[p e]|] eqn:P; [|discriminate]. cbn [rbind]. destruct (Nat.eqb_spec (length p) (length e)) as [L|L]; [|discriminate].
  cbn [vector_plot rbind]. intros H. injection H as <- <- <-. exists p, e. do 2 (split; [auto|]). split; [reflexivity|]. split; [reflexivity|].
  split; [destruct ax; split; congruence|]. unfold projection in P. rewrite A in P. cbn [rbind] in P. destruct ax.
  - destruct (proj_bounds (Ex m) Emin Emax) as [[lo hi]|]; [|discriminate]. cbn [rbind] in P. destruct nrm; injection P as _ <-; reflexivity.
  - destruct (proj_bounds (Eg m) Emin Emax) as [[lo hi]|]; [|discriminate]. cbn [rbind] in P. destruct nrm; injection P as _ <-; reflexivity.
  - discriminate.
Qed.
Print Assumptions plot_projection_shows.
Theorem plot_projection_refuses : forall m axis Emin Emax nrm scale k e, projection m axis Emin Emax nrm = Raise e -> plot_projection m axis Emin Emax nrm scale k = Raise e.
Proof.
  intros m axis Emin Emax nrm scale k e P. unfold plot_projection. destruct (to_plot_axis axis) as [ax|e'] eqn:A; cbn [rbind]; [now rewrite P|].
  unfold projection in P. rewrite A in P. cbn [rbind] in P. congruence.
Qed.
Print Assumptions plot_projection_refuses.
Example projection_case : exists d, plot_projection noisy (AInt 1) None None false "log" KLine = Ok (d, true, "log"%string).
Proof. eexists. reflexivity. Qed.
