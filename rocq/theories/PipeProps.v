(* The Oslo method on noise-free data: from a first-generation matrix that is fitted exactly to
   the true level density and strength function. *)
From Coq Require Import Reals Qreals Lra.
From Verif Require Import PyBase MatrixModel CutSpec IndexProofs DecompModel DecompSpec DecompProofs TransformModel TransformProps OsloProofs OsloProps OsloUniqueProps LikeProps NormModel NormSpec NormProps GsfGaugeProps PipeModel.
Import Lra.
Local Open Scope R_scope.

(* level density and strength function, in MeV, that belong to a decomposition in keV *)
Definition nld_of (p : pin R) : rvec := in_MeV (mkRV (p_nld p) (map qr (p_E p)) None).
Definition gsf_of (u : R) (p : pin R) : rvec := in_MeV (strength u (mkRV (p_T p) (map qr (p_Eg p)) None)).

Lemma nld_of_transformed A B al p :
  nld_of (transformed_inputs A B al p) = transform A (1000 * al) (nld_of p).
Proof.
  unfold nld_of, in_MeV, transformed_inputs, transform. cbn [rv_values rv_E rv_std p_nld p_E]. f_equal.
  generalize (map qr (p_E p)). intros l. revert l. induction (p_nld p) as [|x t IH]; intros [|e l]; cbn [rmap2 map]; try reflexivity.
  f_equal; [|apply IH]. unfold value_bin. f_equal. f_equal. field.
Qed.
Lemma gsf_of_transformed u A B al p : 
  gsf_of u (transformed_inputs A B al p) = transform B (1000 * al) (gsf_of u p).
Proof.
  unfold gsf_of, in_MeV, strength, transformed_inputs, transform. cbn [rv_values rv_E rv_std p_T p_Eg option_map]. f_equal.
  generalize (map qr (p_Eg p)). intros l. revert l. induction (p_T p) as [|x t IH]; intros [|e l]; cbn [rmap2 map]; try reflexivity.
  f_equal; [|apply IH]. unfold value_bin. replace (al * e) with (1000 * al * (e / 1000)) by field. unfold Rdiv. ring.
Qed.
Lemma nld_of_ok p : length (p_nld p) = length (p_E p) -> rv_ok (nld_of p).
Proof. intros L. split; [|intros s H; discriminate H]. unfold nld_of, in_MeV. cbn. rewrite !map_length. lia. Qed.
Lemma gsf_of_ok u p : length (p_T p) = length (p_Eg p) -> rv_ok (gsf_of u p).
Proof.
  intros L. split; [|intros s H; discriminate H]. unfold gsf_of, in_MeV, strength. cbn. rewrite !map_length.
  rewrite rmap2_length by (rewrite map_length; lia). lia.
Qed.
Lemma nld_of_nonzero p : positive (p_nld p) -> nonzero (nld_of p).
Proof. intros P x H. cbn in H. apply P in H. lra. Qed.
Lemma gsf_of_positive u p : 0 < u -> positive (p_T p) -> (forall e, In e (p_Eg p) -> 0 < qr e) -> forall x, In x (rv_values (gsf_of u p)) -> 0 < x.
Proof.
  intros U P E x H. unfold gsf_of, in_MeV, strength in H. cbn [rv_values rv_E] in H. revert E H.
  generalize (p_Eg p). induction (p_T p) as [|t l IH]; intros [|e g] E H; cbn [map rmap2 In] in H; try contradiction.
  destruct H as [<-|H].
  - assert (T0 : 0 < t) by (apply P; now left). assert (E0 : 0 < qr e) by (apply E; now left). apply Rdiv_lt_0_compat; [assumption|].
    apply Rmult_lt_0_compat; [pose proof PI_RGT_0; lra|]. apply pow_lt. now apply Rdiv_lt_0_compat.
  - apply (IH (fun y Y => P y (or_intror Y)) g); [intros y Y; apply E; now right|assumption].
Qed.

(* the width of the true strength function and level density: both extrapolations fitted to
   the true strength function *)
Definition true_width (fitf : rvec -> emodel -> R * R) (q : npars) (ss : R -> R) (rho gsf : rvec) (model : R -> R) (low high : emodel) (g : R) : Prop :=
  exists e0 t cl ch, rv_E gsf = e0 :: t /\
    extrapolate false (set_fit (fitf gsf (autorange e0 low)) (autorange e0 low)) = Some cl /\
    extrapolate false (set_fit (fitf gsf (autorange e0 high)) (autorange e0 high)) = Some ch /\
    Gg_standard q ss (rv_curve gsf) cl ch (rv_curve rho) model = OVal g.
Lemma truth_normalises fitf q ss rho gsf model low high k g : rv_ok gsf -> nonzero gsf -> em_fit low = true -> 0 < k -> 0 < g -> np_Gg q = k * g ->
  true_width fitf q ss rho gsf model low high g ->
  exists r, gsf_normalize fitf q ss (rv_curve rho) model 0 low high gsf = Some r /\ gr_gsf r = transform k 0 gsf /\ gr_B r = k.
Proof.
  intros OK NZ HF K G GK (e0 & t & cl & ch & EE & XL & XH & W). unfold gsf_normalize. rewrite (transform_identity gsf OK NZ), EE.
  unfold fit_models. replace (em_fit (autorange e0 low)) with true by (cbn; congruence). rewrite XL, XH, W.
  destruct (Req_EM_T g 0) as [Z|_]; [lra|]. rewrite GK.
  replace (k * g / g) with k by (field; lra). unfold norm_to_shift_after. destruct (Rlt_dec 0 k) as [_|N]; [|exfalso; lra].
  eexists. split; [reflexivity|]. cbn [gr_gsf gr_B]. split; reflexivity.
Qed.

(* p: the truth, in keV.  p': what the extraction found, a perfect fit of the matrix.  (a, al):
   a normalisation that hits the true level density at two energies. *)
Theorem oslo_method_width : forall (p p' : pin R) d u a al k1 k2 il jl ih jh fitf q ss model low high kk g,
  pin_ok p -> same_grids p p' -> (0 < d)%Qc ->
  equidistant d (p_E p) -> equidistant d (p_Eg p) -> equidistant d (p_Ex p) -> aligned p -> staircase p ->
  positive (p_nld p) -> positive (p_T p) -> positive (p_nld p') -> positive (p_T p') ->
  (forall k, (k < length (p_E p))%nat -> used_E p k) -> (forall j, (j < length (p_Eg p))%nat -> used_Eg p j) ->
  (forall e, In e (p_Eg p) -> 0 < qr e) -> 0 < u ->
  (* the fit of the first-generation matrix is perfect *)
  nld_T_product_R p' = nld_T_product_R p ->
  (* two energies at which the normalised level density is the true one *)
  (k1 < length (p_E p))%nat -> (k2 < length (p_E p))%nat -> k1 <> k2 ->
  nth k1 (rv_values (transform a al (nld_of p'))) 0 = nth k1 (p_nld p) 0 ->
  nth k2 (rv_values (transform a al (nld_of p'))) 0 = nth k2 (p_nld p) 0 ->
  (* the width used for the strength function is kk times the true one; the extrapolations are fits *)
  em_fit low = true -> 0 < kk -> 0 < g -> np_Gg q = kk * g -> true_width fitf q ss (nld_of p) (gsf_of u p) model low high g ->
  (forall c e0 t, 0 < c -> rv_E (gsf_of u p) = e0 :: t ->
     least_squares il jl fitf (transform c 0 (gsf_of u p)) (autorange e0 low) /\ least_squares ih jh fitf (transform c 0 (gsf_of u p)) (autorange e0 high)) ->
  transform a al (nld_of p') = nld_of p /\
  exists r, gsf_normalize fitf q ss (rv_curve (transform a al (nld_of p'))) model al low high (gsf_of u p') = Some r /\ gr_gsf r = transform kk 0 (gsf_of u p).
Proof.
  intros p p' d u a al k1 k2 il jl ih jh fitf q ss model low high kk g OK SG HD QE QG QX AL ST P1 P2 P1' P2' UE UG EP HU EQ K1 K2 KN H1 H2 HF K G GK W LS.
  pose proof OK as (_ & _ & HN & HT & _).
  apply (oslo_solutions p p' d OK SG HD QE QG QX AL ST P1 P2 P1' P2' UE UG) in EQ. destruct EQ as (A & B & alpha & HA & HB & ->).
  assert (LN : length (p_nld p) = length (p_E p)) by lia.
  assert (LT : length (p_T p) = length (p_Eg p)) by lia.
  pose proof (nld_of_ok p LN) as ON. pose proof (nld_of_nonzero p P1) as ZN.
  pose proof (gsf_of_ok u p LT) as OG. assert (ZG : nonzero (gsf_of u p)) by (intros x X; pose proof (gsf_of_positive u p HU P2 EP x X); lra).
  rewrite nld_of_transformed in *. rewrite gsf_of_transformed.
  rewrite transform_compose in * by (try exact ON; lra).
  (* the two energies fix the transformation *)
  assert (V : forall k, (k < length (p_E p))%nat -> nth k (rv_values (transform (A * a) (1000 * alpha + al) (nld_of p))) 0 = A * a * nth k (p_nld p) 0 * exp ((1000 * alpha + al) * (qr (vget (p_E p) k) / 1000))).
  { intros k Hk. unfold nld_of, in_MeV, transform. cbn [rv_values rv_E]. rewrite (rmap2_nth _ 0 0 0) by (rewrite ?map_length; lia). unfold value_bin. f_equal. f_equal. f_equal.
    rewrite nth_indep with (d' := qr 0%Qc / 1000) by (rewrite !map_length; lia). rewrite (map_nth (fun e => e / 1000)). f_equal. apply map_nth. }
  rewrite V in H1, H2 by assumption.
  set (s := 1000 * alpha + al) in *.
  assert (PV : forall k, (k < length (p_E p))%nat -> 0 < nth k (p_nld p) 0) by (intros k Hk; apply P1, nth_In; lia).
  assert (X : forall k, (k < length (p_E p))%nat -> A * a * nth k (p_nld p) 0 * exp (s * (qr (vget (p_E p) k) / 1000)) = nth k (p_nld p) 0 -> A * a * exp (s * (qr (vget (p_E p) k) / 1000)) = 1).
  { intros k Hk E. pose proof (PV k Hk). apply (Rmult_eq_reg_l (nth k (p_nld p) 0)); [|lra]. rewrite Rmult_1_r. rewrite <- E at 2. ring. }
  apply X in H1; [|assumption]. apply X in H2; [|assumption].
  assert (NZ : A * a <> 0) by (intros Z; rewrite Z, Rmult_0_l in H1; lra).
  assert (EE : exp (s * (qr (vget (p_E p) k1) / 1000)) = exp (s * (qr (vget (p_E p) k2) / 1000))) by (apply (Rmult_eq_reg_l (A * a)); congruence).
  apply exp_inv in EE.
  assert (DE : qr (vget (p_E p) k1) <> qr (vget (p_E p) k2)).
  { intros Q. apply KN. apply (equidistant_inj d (p_E p)); try assumption. apply Qc_is_canon. now apply eqR_Qeq. }
  assert (S0 : s = 0).
  { assert (Z : s * (qr (vget (p_E p) k1) - qr (vget (p_E p) k2)) = 0) by (unfold Rdiv in EE; lra). apply Rmult_integral in Z as [Z|Z]; [exact Z|lra]. }
  rewrite S0, Rmult_0_l, exp_0, Rmult_1_r in H1. rewrite S0, H1. rewrite (transform_identity _ ON ZN). split; [reflexivity|].
  destruct (truth_normalises fitf q ss (nld_of p) (gsf_of u p) model low high kk g OG ZG HF K G GK W) as (r & R1 & R2 & R3).
  pose proof (gsf_normalize_gauge_least_squares il jl ih jh fitf q ss (rv_curve (nld_of p)) model 0 low high (gsf_of u p) B (1000 * alpha) OG ZG HB HF) as GA.
  replace (0 - 1000 * alpha) with al in GA by (unfold s in S0; lra). rewrite R1 in GA.
  lapply GA.
  - destruct (gsf_normalize fitf q ss (rv_curve (nld_of p)) model al low high (transform B (1000 * alpha) (gsf_of u p))) as [r'|]; intros AG; cbn in AG; [|contradiction].
    exists r'. split; [reflexivity|]. destruct AG as (AG & _). congruence.
  - intros e0 t c E0 [-> | ->]; now apply LS with (t := t); [lra|].
Qed.
Print Assumptions oslo_method_width.
(* the width used is the true one *)
Theorem oslo_method_truth : forall (p p' : pin R) d u a al k1 k2 il jl ih jh fitf q ss model low high,
  pin_ok p -> same_grids p p' -> (0 < d)%Qc ->
  equidistant d (p_E p) -> equidistant d (p_Eg p) -> equidistant d (p_Ex p) -> aligned p -> staircase p ->
  positive (p_nld p) -> positive (p_T p) -> positive (p_nld p') -> positive (p_T p') ->
  (forall k, (k < length (p_E p))%nat -> used_E p k) -> (forall j, (j < length (p_Eg p))%nat -> used_Eg p j) ->
  (forall e, In e (p_Eg p) -> 0 < qr e) -> 0 < u ->
  (* the fit of the first-generation matrix is perfect *)
  nld_T_product_R p' = nld_T_product_R p ->
  (* two energies at which the normalised level density is the true one *)
  (k1 < length (p_E p))%nat -> (k2 < length (p_E p))%nat -> k1 <> k2 ->
  nth k1 (rv_values (transform a al (nld_of p'))) 0 = nth k1 (p_nld p) 0 ->
  nth k2 (rv_values (transform a al (nld_of p'))) 0 = nth k2 (p_nld p) 0 ->
  (* the width used for the strength function is the true one; the extrapolations are fits *)
  em_fit low = true -> 0 < np_Gg q -> true_width fitf q ss (nld_of p) (gsf_of u p) model low high (np_Gg q) ->
  (forall c e0 t, 0 < c -> rv_E (gsf_of u p) = e0 :: t ->
     least_squares il jl fitf (transform c 0 (gsf_of u p)) (autorange e0 low) /\ least_squares ih jh fitf (transform c 0 (gsf_of u p)) (autorange e0 high)) ->
  transform a al (nld_of p') = nld_of p /\
  exists r, gsf_normalize fitf q ss (rv_curve (transform a al (nld_of p'))) model al low high (gsf_of u p') = Some r /\ gr_gsf r = gsf_of u p.
Proof.
  intros p p' d u a al k1 k2 il jl ih jh fitf q ss model low high OK SG HD QE QG QX AL ST P1 P2 P1' P2' UE UG EP HU EQ K1 K2 KN H1 H2 HF G W LS.
  destruct (oslo_method_width p p' d u a al k1 k2 il jl ih jh fitf q ss model low high 1 (np_Gg q) OK SG HD QE QG QX AL ST P1 P2 P1' P2' UE UG EP HU EQ K1 K2 KN H1 H2 HF ltac:(lra) G ltac:(ring) W LS) as (N & r & R1 & R2).
  split; [exact N|]. exists r. split; [exact R1|]. rewrite R2. pose proof OK as (_ & _ & _ & HT & _). apply transform_identity.
  - apply gsf_of_ok. lia.
  - intros x X. pose proof (gsf_of_positive u p HU P2 EP x X). lra.
Qed.
Print Assumptions oslo_method_truth.

(* ------------------------------------------------------------------ a case *)
Lemma width_of_run fitf q ss rho gsf model low high r : rv_ok gsf -> nonzero gsf -> em_fit low = true -> 0 < np_Gg q ->
  gsf_normalize fitf q ss (rv_curve rho) model 0 low high gsf = Some r ->
  exists g, 0 < g /\ true_width fitf q ss rho gsf model low high g.
Proof.
  intros OK NZ HF G. unfold gsf_normalize. rewrite (transform_identity gsf OK NZ). destruct (rv_E gsf) as [|e0 t] eqn:EE; [discriminate|].
  unfold fit_models. replace (em_fit (autorange e0 low)) with true by (cbn; congruence).
  destruct (extrapolate false (set_fit (fitf gsf (autorange e0 low)) (autorange e0 low))) as [cl|] eqn:XL; [|discriminate].
  destruct (extrapolate false (set_fit (fitf gsf (autorange e0 high)) (autorange e0 high))) as [ch|] eqn:XH; [|discriminate].
  destruct (Gg_standard q ss (rv_curve gsf) cl ch (rv_curve rho) model) as [g| |] eqn:W; try discriminate.
  destruct (Req_EM_T g 0) as [Z|NZ0]; [discriminate|]. unfold norm_to_shift_after. destruct (Rlt_dec 0 (np_Gg q / g)) as [P|]; [|discriminate]. intros _.
  exists g. split.
  - destruct (Rlt_or_le g 0) as [N|N]; [|lra]. exfalso. assert (0 < / - g) by (apply Rinv_0_lt_compat; lra).
    assert (E : np_Gg q / g = - (np_Gg q * / - g)) by (field; lra). assert (0 < np_Gg q * / - g) by now apply Rmult_lt_0_compat. lra.
  - exists e0, t, cl, ch. auto.
Qed.
(* two excitation energies, two gamma energies, 1 MeV wide *)
Definition pe : pin R := mkPin [1; 4] [3; 5] (ql [0; 0]%Z) (ql [0; 1000]%Z) (ql [1000; 2000]%Z) (ql [1000; 2000]%Z).
Lemma pe_ok : pin_ok pe /\ aligned pe /\ staircase pe /\ equidistant (qz 1000) (p_E pe) /\ equidistant (qz 1000) (p_Eg pe) /\ equidistant (qz 1000) (p_Ex pe) /\
  (forall k, (k < length (p_E pe))%nat -> used_E pe k) /\ (forall j, (j < length (p_Eg pe))%nat -> used_Eg pe j).
Proof.
  assert (AB : forall i j, qleb (vget (p_Eg pe) j) (vget (p_Ex pe) i + vget (p_res pe) i + half_width pe)%Qc = true -> allowed pe i j)
    by (intros i j H; now apply qleb_le).
  assert (NB : forall i j, qleb (vget (p_Eg pe) j) (vget (p_Ex pe) i + vget (p_res pe) i + half_width pe)%Qc = false -> ~ allowed pe i j).
  { intros i j H A. apply qleb_le in A. congruence. }
  split; [repeat split; cbn; try lia; discriminate|]. split.
  { intros i j Hi Hj HA. cbn in Hi, Hj.
    assert (H : forall e l, existsb (fun x => qeqb e x) l = true -> In e l).
    { intros e l He. apply existsb_exists in He as (x & Hx & He). apply qeqb_eq in He. now subst. }
    apply H. destruct i as [|[|i]], j as [|[|j]]; try lia; try (vm_compute; reflexivity). exfalso. revert HA. apply NB. vm_compute. reflexivity. }
  split.
  { split; [cbn; lia|]. cbn [pe p_Ex length Nat.sub]. split; [|split].
    - intros i Hi. change (length (ql [1000; 2000]%Z)) with 2%nat in Hi. destruct i as [|[|i]]; try lia; apply AB; vm_compute; reflexivity.
    - intros i j Hi HA. change (length (ql [1000; 2000]%Z)) with 2%nat in *. cbn [Nat.sub] in *. unfold allowed in *.
      assert (L : (vget (p_Ex pe) i + vget (p_res pe) i <= vget (p_Ex pe) 1 + vget (p_res pe) 1)%Qc)
        by (destruct i as [|[|i]]; try lia; apply qleb_le; vm_compute; reflexivity).
      fold pe in HA |- *. qlra.
    - intros j Hj HA. change (length (ql [1000; 2000]%Z)) with 2%nat in *. cbn [Nat.sub] in *. cbn in Hj. destruct j as [|j]; try lia; apply AB; vm_compute; reflexivity. }
  assert (EQD : forall z, (z = 0 \/ z = 1000)%Z -> equidistant (qz 1000) (ql [z; z + 1000]%Z)).
  { intros z Z k Hk. cbn in Hk. destruct k as [|k]; [|lia]. destruct Z as [-> | ->]; apply qeqb_eq; vm_compute; reflexivity. }
  split; [apply (EQD 0%Z); lia|]. split; [apply (EQD 1000%Z); lia|]. split; [apply (EQD 1000%Z); lia|]. split.
  - intros k Hk. split; [exact Hk|]. cbn in Hk. exists 1%nat, (1 - k)%nat. split; [cbn; lia|]. split; [change (length (p_Eg pe)) with 2%nat; lia|].
    destruct k as [|[|k]]; try lia; (split; [apply AB; vm_compute; reflexivity|apply qeqb_eq; vm_compute; reflexivity]).
  - intros j Hj. split; [exact Hj|]. cbn in Hj. exists 1%nat. split; [cbn; lia|].
    destruct j as [|[|j]]; try lia; apply AB; vm_compute; reflexivity.
Qed.
Lemma qr_z n : qr (qz n) = IZR n.
Proof. unfold qr, qz. rewrite (Qeq_eqR _ (inject_Z n)); [|apply Qred_correct]. unfold Q2R. cbn. field. Qed.
Lemma pe_nld : nld_of pe = mkRV [1; 4] [0; 1] None.
Proof. unfold nld_of, in_MeV, pe. cbn [p_nld p_E rv_values rv_E rv_std ql map]. rewrite !qr_z. repeat f_equal; field. Qed.
Lemma pe_gsf : gsf_of 1 pe = mkRV [3 / (2 * PI * 1000 ^ 3); 5 / (2 * PI * 2000 ^ 3)] [1; 2] None.
Proof. unfold gsf_of, in_MeV, strength, pe. cbn [p_T p_Eg rv_values rv_E rv_std ql map rmap2 option_map]. rewrite !qr_z. unfold Rdiv at 2 4. rewrite Rinv_1, !Rmult_1_r. f_equal. f_equal; [field|f_equal; field]. Qed.
(* an extraction that found 7 rho exp(E/500) and 5 T exp(E/500), normalised by 1/7 and slope -2 per
   MeV with the width of the truth: the true level density and strength function *)
Example oslo_method_case : exists g r, 0 < g /\
  let q := mkPars 1 (/ 10) g 2 0 0 None 2 in let found := transformed_inputs 7 5 (/ 500) pe in
  transform (/ 7) (- 2) (nld_of found) = mkRV [1; 4] [0; 1] None /\
  gsf_normalize two_fit q (fun _ => 1) (rv_curve (transform (/ 7) (- 2) (nld_of found))) (fun _ => 1) (- 2) (gx_low true) (gx_high true) (gsf_of 1 found) = Some r /\
  gr_gsf r = gsf_of 1 pe.
Proof.
  destruct pe_ok as (H1 & H2 & H3 & H4 & H5 & H6 & H7 & H8).
  assert (PO : positive (p_nld pe) /\ positive (p_T pe)) by (split; intros x [<- | [<- | []]]; lra). destruct PO as (P1 & P2).
  assert (EP : forall e, In e (p_Eg pe) -> 0 < qr e) by (intros e [<- | [<- | []]]; rewrite qr_z; lra).
  pose proof (gsf_of_positive 1 pe ltac:(lra) P2 EP) as GP.
  assert (OG : rv_ok (gsf_of 1 pe)) by now apply gsf_of_ok. assert (NG : nonzero (gsf_of 1 pe)) by (intros x X; pose proof (GP x X); lra).
  assert (DF : exists r, gsf_normalize two_fit (mkPars 1 (/ 10) 2 2 0 0 None 2) (fun _ => 1) (rv_curve (nld_of pe)) (fun _ => 1) 0 (gx_low true) (gx_high true) (gsf_of 1 pe) = Some r).
  { rewrite pe_nld. rewrite pe_gsf in *. apply (gsf_normalize_defined _ _ _ _ _ _ _ _ _ 1 2 [] 0 1 []);
      cbn [np_D0 np_Gg np_Emin np_Sn np_steps rv_values rv_E em_high em_steps em_Emin em_Emax dflt c_E ascending last gx_low gx_high rv_curve length Nat.sub]; try lra; try lia; try reflexivity; try (intros; lra).
    - apply Forall_forall. exact GP.
    - cbn. lra.
    - split; [reflexivity|]. cbn. repeat constructor; eexists; (split; [reflexivity|lra]). }
  destruct DF as (r0 & R0). apply width_of_run in R0; try assumption; try reflexivity; [|cbn; lra]. destruct R0 as (g & G & W).
  assert (OK' : pin_ok (transformed_inputs 7 5 (/ 500) pe)).
  { repeat split; cbn; try lia; discriminate. }
  destruct (oslo_method_truth pe (transformed_inputs 7 5 (/ 500) pe) (qz 1000) 1 (/ 7) (- 2) 0 1 0 1 0 1 two_fit (mkPars 1 (/ 10) g 2 0 0 None 2) (fun _ => 1) (fun _ => 1) (gx_low true) (gx_high true)) as (N & r & R1 & R2);
    try assumption; try reflexivity.
  - repeat split; reflexivity.
  - unfold transformed_inputs, transform, value_bin. cbn. intros x [<- | [<- | []]]; repeat apply Rmult_lt_0_compat; try lra; apply exp_pos.
  - unfold transformed_inputs, transform, value_bin. cbn. intros x [<- | [<- | []]]; repeat apply Rmult_lt_0_compat; try lra; apply exp_pos.
  - lra.
  - apply oslo_degeneracy; try assumption; try lra; now apply equidistant_sorted with (d := qz 1000); [apply qltb_lt; vm_compute; reflexivity|].
  - cbn. lia.
  - cbn. lia.
  - discriminate.
  - rewrite nld_of_transformed, pe_nld. cbn. unfold value_bin. rewrite !Rmult_0_r, exp_0. lra.
  - rewrite nld_of_transformed, pe_nld. cbn. unfold value_bin. rewrite !Rmult_1_r. replace (/ 7 * (7 * 4 * exp (1000 * / 500)) * exp (- 2)) with (4 * (exp (1000 * / 500) * exp (- 2))) by field. rewrite <- exp_plus. replace (1000 * / 500 + - 2) with 0 by field. rewrite exp_0. lra.
  - intros c e0 t HC _. assert (L : forall m, least_squares 0 1 two_fit (transform c 0 (gsf_of 1 pe)) m).
    { intros m. rewrite pe_gsf. unfold transform. cbn [rv_values rv_E rv_std rmap2]. pose proof PI_RGT_0. apply two_fit_least; try lra; unfold value_bin; repeat apply Rmult_lt_0_compat; try assumption; try lra; try apply exp_pos; apply Rinv_0_lt_compat; apply Rmult_lt_0_compat; lra. }
    split; apply L.
  - exists g, r. split; [exact G|]. cbn zeta. rewrite N, pe_nld. split; [reflexivity|]. rewrite N, pe_nld in R1. split; assumption.
Qed.
