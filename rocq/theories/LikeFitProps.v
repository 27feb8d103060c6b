(* C78, C79: what the fit compares, and the likelihood of the simultaneous fit. *)
From Coq Require Import Reals List Lra Lia.
From Verif Require Import TransformModel TransformProps NormModel LikeModel LikeProps.
Import ListNotations.
Local Open Scope R_scope.

(* ------------------------------------------------------------------ Vector.error *)
(* specification: sum over the bins of the squared difference *)
Fixpoint squares (v o : list R) : R :=
  match v, o with x :: v', y :: o' => (x - y) ^ 2 + squares v' o' | _, _ => 0 end.
(* ... divided by the squared standard deviation where there is one that is not 0 *)
Fixpoint weighted (v o s : list R) : R :=
  match v, o, s with
  | x :: v', y :: o', z :: s' => (if Req_EM_T z 0 then 0 else ((x - y) / z) ^ 2) + weighted v' o' s'
  | _, _, _ => 0
  end.
Lemma all_near_iff : forall l m, all_near l m = true <-> Forall2 near l m.
Proof.
  induction l as [|a l IH]; intros [|b m]; cbn [all_near]; split; intros H; try discriminate; try (now constructor); try (now inversion H).
  - destruct (near_dec a b); [|discriminate]. constructor; [assumption|]. now apply IH.
  - inversion H; subst. destruct (near_dec a b); [now apply IH|contradiction].
Qed.
(* A difference is calculated only for vectors of the same length with the same energies (to
   the tolerance of np.allclose); otherwise an exception is raised. *)
Theorem error_needs_same_binning : forall v E o,
  (rerror v E o = OErr <-> ~ (length (rv_values v) = length o /\ Forall2 near (rv_E v) E)) /\
  (forall x, rerror v E o = OVal x -> length (rv_values v) = length o /\ Forall2 near (rv_E v) E).
Proof.
  intros v E o. unfold rerror.
  assert (X : forall e, e = (Nat.eqb (length (rv_values v)) (length o) && all_near (rv_E v) E)%bool ->
    (e = true <-> length (rv_values v) = length o /\ Forall2 near (rv_E v) E)).
  { intros e ->. now rewrite Bool.andb_true_iff, Nat.eqb_eq, all_near_iff. }
  specialize (X _ eq_refl). destruct (_ && _)%bool.
  - destruct X as [X _]. specialize (X eq_refl). split; [split; [discriminate|tauto]|auto].
  - destruct X as [_ X]. split; [split; [intros _ H; specialize (X H); discriminate|reflexivity]|discriminate].
Qed.
Print Assumptions error_needs_same_binning.
(* Without standard deviation every bin counts, with the squared difference; with standard
   deviations the bins are weighted. *)
Theorem error_value : forall v E o, length (rv_values v) = length o -> Forall2 near (rv_E v) E ->
  (rv_std v = None -> rerror v E (map Some o) = OVal (squares (rv_values v) o)) /\
  (forall s, rv_std v = Some (map Some s) -> length s = length o -> rerror v E (map Some o) = OVal (weighted (rv_values v) o s)).
Proof.
  intros v E o L N. apply all_near_iff in N. unfold rerror. rewrite map_length, L, Nat.eqb_refl, N. cbn [andb]. split.
  - intros ->. f_equal. generalize (rv_values v) as vs. clear. intros vs. revert vs.
    induction o as [|y o IH]; intros [|x vs]; try reflexivity. cbn [map err_bins squares err_bin]. now rewrite IH.
  - intros s -> LS. f_equal. revert L LS. generalize (rv_values v) as vs. clear. intros vs. revert vs s.
    induction o as [|y o IH]; intros [|x vs] [|z s] L LS; cbn [length] in *; try lia; [reflexivity|].
    cbn [map err_bins weighted err_bin tl]. rewrite IH by lia. destruct (Req_EM_T z 0); [reflexivity|]. f_equal. field. assumption.
Qed.
Print Assumptions error_value.
Example error_value_example : rerror (mkRV [3; 5] [1; 2] None) [1; 2] (map Some [1; 2]) = OVal 13 /\
  rerror (mkRV [3; 5] [1; 2] (Some (map Some [2; 0]))) [1; 2] (map Some [1; 2]) = OVal 1.
Proof.
  assert (N : Forall2 near [1; 2] [1; 2]) by (apply all_near_iff, all_near_refl). split.
  - rewrite (proj1 (error_value (mkRV [3; 5] [1; 2] None) [1; 2] [1; 2] eq_refl N) eq_refl). f_equal. cbn. ring.
  - rewrite (proj2 (error_value (mkRV [3; 5] [1; 2] (Some (map Some [2; 0]))) [1; 2] [1; 2] eq_refl N) [2; 0] eq_refl eq_refl).
    f_equal. cbn. destruct (Req_EM_T 2 0); [lra|]. destruct (Req_EM_T 0 0); [|lra]. field.
Qed.
Example error_other_binning : rerror (mkRV [3; 5] [1; 2] None) [1; 3] (map Some [1; 2]) = OErr.
Proof.
  apply error_needs_same_binning. intros [_ H]. inversion H as [|? ? ? ? _ H2]; subst. inversion H2 as [|? ? ? ? H3 _]; subst.
  unfold near in H3. revert H3. cbn [rv_E]. rewrite Rabs_left, Rabs_right by lra. lra.
Qed.

(* ------------------------------------------------------------------ nld(Sn) *)
(* The level density at Sn has the relative uncertainty of D0: the same as the propagation of
   the uncertainty of D0 to first order. *)
Theorem sn_point_uncertainty : forall g2 D0 D0u Sn Jt, D0 <> 0 -> summe (g2 Sn) Jt <> 0 ->
  let n D := fst (sn_point g2 D D0u Sn Jt) in
  (forall D, D <> 0 -> n D * D = n D0 * D0) /\ n D0 <> 0 /\ snd (sn_point g2 D0 D0u Sn Jt) / n D0 = D0u / D0 /\
  derivable_pt_lim n D0 (- snd (sn_point g2 D0 1 Sn Jt)).
Proof.
  intros g2 D0 D0u Sn Jt HD HS n. unfold n, sn_point, nldSn_from_D0. cbn [fst snd first].
  assert (M : mega <> 0) by (unfold mega; lra). set (c := summe (g2 Sn) Jt * mega).
  assert (C : c <> 0) by (apply Rmult_integral_contrapositive_currified; assumption).
  assert (E : forall D, 1 / (summe (g2 Sn) Jt * D * mega) = / c * / D).
  { intros D. replace (summe (g2 Sn) Jt * D * mega) with (c * D) by (unfold c; ring). unfold Rdiv. now rewrite Rinv_mult, Rmult_1_l. }
  rewrite E. split; [|split; [|split]].
  - intros D H. rewrite E. field. repeat split; assumption.
  - apply Rmult_integral_contrapositive_currified; apply Rinv_neq_0_compat; assumption.
  - field. repeat split; assumption.
  - replace (- (/ c * / D0 * (1 / D0))) with (/ c * ((0 * id D0 - 1 * fct_cte 1 D0) / Rsqr (id D0))).
    2:{ unfold id, Rsqr, fct_cte. field. split; assumption. }
    intros eps He. 
    destruct (derivable_pt_lim_scal (div_fct (fct_cte 1) id) (/ c) D0 ((0 * id D0 - 1 * fct_cte 1 D0) / Rsqr (id D0))) with (eps := eps)
      as [d Hd]; [|assumption|].
    { apply derivable_pt_lim_div; [apply derivable_pt_lim_const|apply derivable_pt_lim_id|exact HD]. }
    exists d. intros h H1 H2. specialize (Hd h H1 H2). unfold mult_real_fct, div_fct, fct_cte, id, Rdiv in Hd. rewrite !E. unfold Rdiv, fct_cte, id. now rewrite !Rmult_1_l in *.
Qed.
Print Assumptions sn_point_uncertainty.
Example sn_point_example : forall D0u, let p := sn_point (fun _ => 4) 100 D0u 7 0 in snd p / fst p = D0u / 100.
Proof.
  intros D0u p. apply (sn_point_uncertainty (fun _ => 4) 100 D0u 7 0); [lra|]. unfold summe, spin_dist.
  destruct (Req_EM_T 0 0); [|lra]. match goal with |- context [exp ?x] => pose proof (exp_pos x) as P; set (y := exp x) in * end. lra.
Qed.

(* ------------------------------------------------------------------ the regions of the fit *)
(* Only the data between the limits matter: the level density between the lower and between
   the upper limits, the discrete levels between the lower limits. *)
Theorem objective_local : forall idx model f d nld nld' x,
  rcut idx (f_low f) nld = rcut idx (f_low f) nld' -> rcut idx (f_high f) nld = rcut idx (f_high f) nld' ->
  rcut idx (f_low f) (f_disc f) = rcut idx (f_low f) d ->
  objective idx model f nld x = objective idx model (mkFit (f_low f) (f_high f) d (f_Sn f) (f_nldSn f)) nld' x.
Proof. intros idx model f d nld nld' x H1 H2 H3. unfold objective. cbn [f_low f_high f_disc f_Sn f_nldSn]. now rewrite H1, H2, H3. Qed.
Print Assumptions objective_local.
(* The function that is maximised, in terms of the data in the two regions (C79): the same as
   in lnlike_value_partial, from the data as they are given. *)
Theorem objective_value_partial : forall idx f nld l h,
  rcut idx (f_low f) nld = vec_of l -> rcut idx (f_high f) nld = vec_of h ->
  rv_values (rcut idx (f_low f) (f_disc f)) = map b_mu l -> rv_E (rcut idx (f_low f) (f_disc f)) = map b_E l ->
  (forall b, In b l -> good b) -> (forall b, In b h -> good b) -> 0 < snd (f_nldSn f) ->
  exists K, forall x, 0 < p_A x -> p_T x <> 0 ->
  objective idx ct f nld x = OVal (log_likelihood x l h (f_Sn f) (f_nldSn f) + K
    + / 2 * (INR (length l + length h) * ln (p_A x) + p_alpha x * rsum (map b_E (l ++ h)))).
Proof.
  intros idx f nld l h H1 H2 H3 H4 Gl Gh HS. destruct (lnlike_value_partial l h (f_Sn f) (f_nldSn f) Gl Gh HS) as [K HK].
  exists K. intros x HA HT. rewrite <- HK by assumption. unfold objective. rewrite H1, H2. unfold lnlike. now rewrite H3, H4.
Qed.
Print Assumptions objective_value_partial.
(* The levels must be on the energies of the level density in the lower region: otherwise the
   likelihood is not defined for any parameters. *)
Theorem objective_needs_same_binning : forall idx model f nld x m, objective idx model f nld x = OVal m ->
  Forall2 near (rv_E (rcut idx (f_low f) nld)) (rv_E (rcut idx (f_low f) (f_disc f))).
Proof.
  intros idx model f nld x m H. unfold objective, lnlike, oscale in H.
  apply omap2_val in H. destruct H as [_ [y H]]. apply omap2_val in H. destruct H as [[y1 H] _].
  apply omap2_val in H. destruct H as [[y2 H] _]. apply omap2_val in H. destruct H as [[y3 H] _].
  apply error_needs_same_binning in H. exact (proj2 H).
Qed.
Print Assumptions objective_needs_same_binning.
(* data, levels and limits that meet the hypotheses: the position of an energy is the number
   of energies below it *)
Definition number_below (E : list R) (e : R) : nat := length (filter (fun y => if Rlt_dec y e then true else false) E).
Ltac decide_lt := repeat match goal with |- context [Rlt_dec ?a ?b] =>
  (destruct (Rlt_dec a b); [exfalso; Lra.lra|]) || (destruct (Rlt_dec a b); [|exfalso; Lra.lra]) end.
Example objective_example :
  let nld := mkRV [7; 2; 4; 9; 5] [1; 2; 3; 4; 5] (Some [Some 1; Some 1; Some 1; Some 3; Some 2]) in
  let f := mkFit (2, 3) (4, 5) (mkRV [1; 3; 5; 0; 0] [1; 2; 3; 4; 5] None) 7 (1000, 100) in
  exists K, forall x, 0 < p_A x -> p_T x <> 0 ->
  objective number_below ct f nld x = OVal (log_likelihood x [mkBin 2 2 1 3; mkBin 3 4 1 5] [mkBin 4 9 3 0; mkBin 5 5 2 0] 7 (1000, 100) + K
    + / 2 * (4 * ln (p_A x) + p_alpha x * 14)).
Proof.
  intros nld f. destruct (objective_value_partial number_below f nld [mkBin 2 2 1 3; mkBin 3 4 1 5] [mkBin 4 9 3 0; mkBin 5 5 2 0]) as [K HK].
  - unfold rcut, number_below, f, nld. cbn [f_low fst snd rv_E rv_values filter]. decide_lt. reflexivity.
  - unfold rcut, number_below, f, nld. cbn [f_high fst snd rv_E rv_values filter]. decide_lt. reflexivity.
  - unfold rcut, number_below, f. cbn [f_low f_disc fst snd rv_E rv_values filter]. decide_lt. reflexivity.
  - unfold rcut, number_below, f. cbn [f_low f_disc fst snd rv_E rv_values filter]. decide_lt. reflexivity.
  - intros b [<- | [<- | []]]; split; cbn; Lra.lra.
  - intros b [<- | [<- | []]]; split; cbn; Lra.lra.
  - cbn. Lra.lra.
  - exists K. intros x HA HT. rewrite (HK x HA HT). f_equal. f_equal. f_equal. cbn [length Nat.add app map b_E rsum fold_right].
    replace (INR 4) with 4 by (cbn; Lra.lra). ring.
Qed.

(* ------------------------------------------------------------------ the radiative width *)
(* the term of the radiative width is a normal log likelihood up to a constant *)
Theorem gsf_lnlike_normal : forall meas sigma, 0 < sigma ->
  exists K, forall g, gsf_lnlike (OVal g) meas sigma = OVal (ln_normal g sigma meas + K).
Proof.
  intros meas sigma H. exists (ln (sigma * sqrt (2 * PI))). intros g. unfold gsf_lnlike. destruct (Req_EM_T sigma 0); [lra|].
  cbn [omap2]. f_equal. unfold ln_normal. field. lra.
Qed.
Print Assumptions gsf_lnlike_normal.
Example gsf_lnlike_example : gsf_lnlike (OVal 110) 100 5 = OVal (-2).
Proof. unfold gsf_lnlike. destruct (Req_EM_T 5 0); [Lra.lra|]. cbn [omap2]. f_equal. field. Qed.

(* The simultaneous fit.  The width is calculated with the spacing that belongs to the level
   density of T and Eshift at Sn, whatever spacing is given in the parameters: ... *)
Theorem simultaneous_ignores_D0 : forall idx fitf g2 p sigma ss low high f nld gsf x B D,
  sim_lnlike idx fitf g2 p sigma ss low high f nld gsf x B
  = sim_lnlike idx fitf g2 (mkPars D (np_D0u p) (np_Gg p) (np_Sn p) (np_Jt p) (np_Emin p) (np_Emax p) (np_steps p)) sigma ss low high f nld gsf x B.
Proof. reflexivity. Qed.
Print Assumptions simultaneous_ignores_D0.
(* ... the width is proportional to the spacing *)
Definition with_D0 (p : npars) (D : R) : npars :=
  mkPars D (np_D0u p) (np_Gg p) (np_Sn p) (np_Jt p) (np_Emin p) (np_Emax p) (np_steps p).
Theorem simultaneous_value : forall idx fitf g2 p sigma ss low high f nld gsf x B L cg cl ch g,
  0 < sigma -> 0 < p_T x -> summe (g2 (np_Sn p)) (np_Jt p) <> 0 ->
  objective idx ct f nld x = OVal L -> simultan_curves fitf B (p_alpha x) low high gsf = Some (cg, cl, ch) ->
  let model := const_temperature (p_T x) (p_Eshift x) in
  Gg_standard (with_D0 p 1) ss cg cl ch (rv_curve (transform (p_A x) (p_alpha x) nld)) model = OVal g ->
  exists D0, snd (nldSn_from_D0 g2 (Val D0) (Val (np_Sn p)) (np_Jt p)) = model (np_Sn p) /\
  sim_lnlike idx fitf g2 p sigma ss low high f nld gsf x B
  = OVal (L + (ln_normal (g * D0) sigma (np_Gg p) + ln (sigma * sqrt (2 * PI)))).
Proof.
  intros idx fitf g2 p sigma ss low high f nld gsf x B L cg cl ch g HS HT HU HO HC model HG.
  set (D0 := D0_from_nldSn g2 model (Val (np_Sn p)) (np_Jt p)). exists D0.
  assert (M : model (np_Sn p) <> 0).
  { unfold model, const_temperature, Rdiv. pose proof (exp_pos ((np_Sn p - p_Eshift x) * / p_T x)). pose proof (Rinv_0_lt_compat _ HT).
    apply Rmult_integral_contrapositive_currified; lra. }
  split.
  { unfold nldSn_from_D0, D0, D0_from_nldSn. cbn [first snd]. unfold mega. field. repeat split; try assumption; lra. }
  unfold sim_lnlike. cbv zeta. rewrite HO, HC. fold model D0. change (mkPars D0 _ _ _ _ _ _ _) with (with_D0 p D0).
  assert (G : Gg_standard (with_D0 p D0) ss cg cl ch (rv_curve (transform (p_A x) (p_alpha x) nld)) model = OVal (g * D0)).
  { revert HG. unfold Gg_standard. cbv zeta. cbn [np_D0 np_steps np_Sn np_Emin with_D0].
    change (integrand (with_D0 p 1)) with (integrand (with_D0 p D0)). change (E_grid (with_D0 p 1)) with (E_grid (with_D0 p D0)).
    destruct (omap2 Rmult (osum _) _) as [i| |]; cbn [omap2]; try discriminate. intros H. injection H as <-. f_equal. ring. }
  rewrite G. unfold gsf_lnlike. destruct (Req_EM_T sigma 0); [lra|]. cbn [omap2]. f_equal. f_equal. unfold ln_normal. field. lra.
Qed.
Print Assumptions simultaneous_value.
(* a case that meets the hypotheses *)
Ltac decide_all := repeat match goal with
  | |- context [Rlt_dec ?a ?b] => (destruct (Rlt_dec a b); [exfalso; Lra.lra|]) || (destruct (Rlt_dec a b); [|exfalso; Lra.lra])
  | |- context [Rle_dec ?a ?b] => (destruct (Rle_dec a b); [exfalso; Lra.lra|]) || (destruct (Rle_dec a b); [|exfalso; Lra.lra])
  | |- context [Req_EM_T ?a ?b] => (destruct (Req_EM_T a b); [exfalso; Lra.lra|]) || (destruct (Req_EM_T a b); [|exfalso; Lra.lra])
  end.
Example simultaneous_example : exists y,
  sim_lnlike number_below (fun _ _ => (0, 0)) (fun _ => 4) (mkPars 100 10 200 3 0 1 None 2) 20 (fun _ => 1)
    (mkEM false 1 0 None (Some 0) (Some 1) 3 false) (mkEM true 1 0 None (Some 3) (Some 5) 3 false)
    (mkFit (0, 1) (2, 2) (mkRV [3; 5; 0] [0; 1; 2] None) 3 (1000, 100))
    (mkRV [2; 4; 9] [0; 1; 2] (Some [Some 1; Some 1; Some 3])) (mkRV [3; 4; 6] [1; 2; 3] None) (mkP4 1 0 1 0) 1 = OVal y.
Proof.
  set (nld := mkRV [2; 4; 9] [0; 1; 2] (Some [Some 1; Some 1; Some 3])).
  set (f := mkFit (0, 1) (2, 2) (mkRV [3; 5; 0] [0; 1; 2] None) 3 (1000, 100)).
  set (x := mkP4 1 0 1 0).
  assert (O : exists L, objective number_below ct f nld x = OVal L).
  { destruct (objective_value_partial number_below f nld [mkBin 0 2 1 3; mkBin 1 4 1 5] [mkBin 2 9 3 0]) as [K HK].
    - unfold rcut, number_below, f, nld. cbn [f_low fst snd rv_E rv_values filter]. decide_lt. reflexivity.
    - unfold rcut, number_below, f, nld. cbn [f_high fst snd rv_E rv_values filter]. decide_lt. reflexivity.
    - unfold rcut, number_below, f. cbn [f_low f_disc fst snd rv_E rv_values filter]. decide_lt. reflexivity.
    - unfold rcut, number_below, f. cbn [f_low f_disc fst snd rv_E rv_values filter]. decide_lt. reflexivity.
    - intros b [<- | [<- | []]]; split; cbn; Lra.lra.
    - intros b [<- | []]; split; cbn; Lra.lra.
    - cbn. Lra.lra.
    - eexists. apply HK; cbn; Lra.lra. }
  destruct O as [L HL].
  match goal with |- context [sim_lnlike _ ?fitf ?g2 ?p ?sg ?ss ?lo ?hi _ _ ?gs _ ?B] =>
    destruct (simultan_curves fitf B (p_alpha x) lo hi gs) as [[[cg cl] ch]|] eqn:HC; [|discriminate];
    assert (G : exists g, Gg_standard (with_D0 p 1) ss cg cl ch (rv_curve (transform (p_A x) (p_alpha x) nld)) (const_temperature (p_T x) (p_Eshift x)) = OVal g)
  end.
  { injection HC as <- _ _. unfold Gg_standard, E_grid, rlinspace, with_D0. cbn [np_steps np_Sn np_Emin np_D0 np_D0u np_Gg np_Jt np_Emax seq map Nat.leb].
    unfold integrand, osum. cbn [map fold_right np_Sn]. replace (INR (2 - 1)) with 1 by (cbn; ring). replace (INR 0) with 0 by reflexivity. replace (INR 1) with 1 by reflexivity.
    replace (1 + 0 * ((3 - 1) / 1)) with 1 by field. replace (1 + 1 * ((3 - 1) / 1)) with 3 by field.
    replace (3 - 1) with 2 by ring. replace (3 - 3) with 0 by ring.
    unfold fgsf, fnld, rv_curve, transform, nld, x. cbn [c_E c_v rv_E rv_values rv_std rmap2 map p_A p_alpha last].
    unfold log_interp, value_bin, rln. cbn [map combine fst last seg_find].
    rewrite !Rmult_0_l, exp_0. decide_all. unfold seg_value. decide_all. cbn [omap2]. eexists. reflexivity. }
  destruct G as [g HG].
  edestruct (simultaneous_value number_below) as (D0 & _ & E).
  7: { eexists. exact E. }
  all: try eassumption; cbn; try Lra.lra.
  unfold summe, spin_dist. destruct (Req_EM_T 0 0); [|Lra.lra].
  match goal with |- context [exp ?z] => pose proof (exp_pos z) as P; set (y := exp z) in * end. Lra.lra.
Qed.
