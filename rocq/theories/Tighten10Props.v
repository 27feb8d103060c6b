(* Refusals that the earlier theorems left open, found by mutation testing: an unknown method of
   the ensemble, rows lost by the Compton subtraction, methods of extrapolations, signs of spins,
   units of saved vectors, empty samples and guesses of zero. *)
From Coq Require Import Lia String Reals.
From Coquelicot Require Import Coquelicot.
From Verif Require Import PyBase Axis MatrixModel VectorModel SmoothModel UnfoldModel FileModel.
From Verif Require Conc EnsembleModel ParModel SpinSumModel SampStatModel RespLoadModel StatsModel LikeModel OptModel UnfoldProps.
Import ListNotations.
Local Open Scope list_scope.
Local Open Scope Qc_scope.
Local Notation length := List.length (only parsing).

(* ------------------------------------------------------------------ ensemble.py:271-305 *)
(* A matrix is not drawn with an unknown method: nothing is read but the saved member, nothing is
   written, and the caller sees ValueError. *)
Theorem unknown_method_refused : forall rng normal poisson raw bg ap ab ar step k g,
  EnsembleModel.perturbed rng normal poisson raw bg ap ab ar EnsembleModel.MUnknown true step k g = EnsembleModel.pret (Raise ValueError).
Proof. reflexivity. Qed.
Print Assumptions unknown_method_refused.
(* without a saved member the same holds if nothing is to be regenerated *)
Theorem unknown_method_cached : forall rng normal poisson raw bg ap ab ar step k g, exists c,
  EnsembleModel.perturbed rng normal poisson raw bg ap ab ar EnsembleModel.MUnknown false step k g = Conc.PRead (EnsembleModel.Member k step) c /\
  c None = EnsembleModel.pret (Raise ValueError).
Proof. intros. eexists. split; reflexivity. Qed.
Print Assumptions unknown_method_cached.

(* ------------------------------------------------------------------ unfolder.py:301-402 *)
(* The smoothing gives up (nan) as soon as one bin with counts has no weight around it, e.g. with
   a resolution of zero; the whole row of the Compton subtraction is then 0, without an error. *)
Theorem compton_row_lost : forall gaussian t fe se de f511 r u0 out,
  (exists p w, In (p, w) [(t_pf t, fe); (t_ps t, se); (t_pd t, de)] /\
    gauss_smoothing gaussian (map2 Qcmult p u0) (t_E t) (map (fun x => qn 1 2 * x * w) (t_fwhm t)) (qz 3) = Ok None) ->
  compton_row gaussian t fe se de f511 r u0 = Ok out -> out = map (fun _ => 0) u0.
Proof.
  intros gaussian t fe se de f511 r u0 out (p & w & I & S) H. unfold compton_row in H. cbv zeta in H. cbn [In] in I.
  destruct (gauss_smoothing gaussian (map2 Qcmult (t_pf t) u0) _ _ _) as [uf|] eqn:S1; [|discriminate]. cbn [rbind] in H.
  destruct (gauss_smoothing gaussian (map2 Qcmult (t_ps t) u0) _ _ _) as [us0|] eqn:S2; [|discriminate]. cbn [rbind] in H.
  destruct (oshift us0 _ _) as [us|] eqn:O2; [|discriminate]. cbn [rbind] in H.
  destruct (gauss_smoothing gaussian (map2 Qcmult (t_pd t) u0) _ _ _) as [ud0|] eqn:S3; [|discriminate]. cbn [rbind] in H.
  destruct (oshift ud0 _ _) as [ud|] eqn:O3; [|discriminate]. cbn [rbind] in H.
  destruct (i_from_E _ _) as [k|]; [|discriminate]. cbn [rbind] in H.
  destruct (gauss_smoothing gaussian (tab _ _) _ _ _) as [ua|]; [|discriminate]. cbn [rbind] in H.
  destruct I as [I|[I|[I|[]]]]; injection I as <- <-.
  - rewrite S1 in S. injection S as ->. cbn [orow] in H. now injection H as <-.
  - rewrite S2 in S. injection S as ->. cbn [oshift] in O2. injection O2 as <-. cbn [orow] in H. destruct uf; cbn [orow] in H; now injection H as <-.
  - rewrite S3 in S. injection S as ->. cbn [oshift] in O3. injection O3 as <-. destruct us, uf; cbn [orow] in H; now injection H as <-.
Qed.
Print Assumptions compton_row_lost.
(* three bins with counts, one of them with a width of zero: all counts are gone *)
Example lost_gauss (e m s : Qc) : Qc := if qeqb s 0 then 0 else UnfoldProps.uf_gauss e m s.
Example lost_tab : resp_tab := mkTab (ql [100; 200; 300]%Z) (ql [10; 0; 10]%Z) (ql [1; 1; 1]%Z)
  [qn 1 2; qn 1 2; qn 1 2] [qn 1 10; qn 1 10; qn 1 10] [qn 1 10; qn 1 10; qn 1 10] [qn 1 10; qn 1 10; qn 1 10].
Example compton_row_lost_case :
  gauss_smoothing lost_gauss (map2 Qcmult (t_pf lost_tab) (ql [4; 2; 6]%Z)) (t_E lost_tab) (map (fun x => qn 1 2 * x * 1) (t_fwhm lost_tab)) (qz 3) = Ok None /\
  rmap (fun l => leqb l [0; 0; 0]) (compton_row lost_gauss lost_tab 1 1 1 1 (ql [4; 2; 6]%Z) (ql [4; 2; 6]%Z)) = Ok true.
Proof. split; vm_compute; reflexivity. Qed.

(* ------------------------------------------------------------------ models.py:300-310 *)
(* Any value but "fit" and "fix" is refused as the method of an extrapolation, also one that is
   no string; the object stays as it is. *)
Theorem extrapolation_method_refused : forall n args o v, ParModel.construct (ParModel.EXT n) args = Ok o ->
  v <> ParModel.PStr "fit" -> v <> ParModel.PStr "fix" ->
  ParModel.setattr o "method" v = Raise NotImplementedErr /\ ParModel.assign o ("method"%string, v) = o.
Proof.
  intros n args o v C N1 N2. assert (E : ParModel.setattr o "method" v = Raise NotImplementedErr).
  { unfold ParModel.construct in C. destruct (forallb _ args); [|discriminate]. injection C as <-.
    unfold ParModel.setattr, ParModel.EXT. cbn [ParModel.o_frozen ParModel.c_freeze]. unfold ParModel.raw_setattr. cbn [ParModel.o_cls ParModel.c_set].
    unfold ParModel.ext_set. cbn [String.eqb Ascii.eqb Bool.eqb]. destruct v as [ |q|s|l|l|l|m|i]; cbn [rbind]; try reflexivity.
    destruct (ParModel.mem s ["fit"; "fix"]%string) eqn:M; [|reflexivity]. exfalso. cbn in M. repeat rewrite Bool.orb_true_iff in M.
    destruct M as [M|[M|M]]; [apply String.eqb_eq in M; subst; now apply N1|apply String.eqb_eq in M; subst; now apply N2|discriminate]. }
  split; [exact E|]. unfold ParModel.assign. cbn [fst snd]. now rewrite E.
Qed.
Print Assumptions extrapolation_method_refused.
Example method_number_refused : exists o, ParModel.construct (ParModel.EXT "ExtrapolationModelLow") [] = Ok o /\
  ParModel.setattr o "method" (ParModel.num 1) = Raise NotImplementedErr.
Proof. eexists. split; reflexivity. Qed.

(* ------------------------------------------------------------------ normalizer_gsf.py:383-397 *)
Theorem negative_spin_refused : forall pars dist model p Ex J L, J < 0 \/ L < 0 ->
  SpinSumModel.direct pars dist model p Ex J L = Raise AssertionError.
Proof.
  intros pars dist model p Ex J L H. unfold SpinSumModel.direct. destruct (qleb_spec 0 J), (qleb_spec 0 L); cbn [andb]; try reflexivity.
  destruct H; exfalso; qlra.
Qed.
Print Assumptions negative_spin_refused.

(* ------------------------------------------------------------------ vector.py:161-218 *)
(* Units that are neither keV, MeV nor "same": nothing is written. *)
Theorem unknown_units_refused : forall cwd rd6 rd8 v p ft, save_vector cwd rd6 rd8 v p ft UOther = ([], Raise NotImplementedErr).
Proof. reflexivity. Qed.
Print Assumptions unknown_units_refused.

(* ------------------------------------------------------------------ ensembleNormalizer.py:411-443, 735-745 *)
(* One sample without energies makes the whole column fail. *)
Theorem empty_sample_refused : forall df v, In v df -> SampStatModel.s_E v = [] -> SampStatModel.samples_unify_E df = Raise IndexError.
Proof.
  intros df v I E. unfold SampStatModel.samples_unify_E.
  assert (R : SampStatModel.rmapl SampStatModel.vec_extend df = Raise IndexError); [|now rewrite R].
  induction df as [|x df IH]; [destruct I|]. cbn [SampStatModel.rmapl]. unfold SampStatModel.vec_extend at 1.
  destruct I as [->|I]; [now rewrite E|]. destruct (SampStatModel.s_E x); [reflexivity|]. cbn [rbind]. now rewrite (IH I).
Qed.
Print Assumptions empty_sample_refused.
Example empty_sample_case : SampStatModel.samples_unify_E [SampStatModel.mkS (ql [1; 2]%Z) [Some 1; Some 0] None; SampStatModel.mkS [] [] None] = Raise IndexError.
Proof. eapply empty_sample_refused; [right; left; reflexivity|reflexivity]. Qed.

(* ------------------------------------------------------------------ normalizer_nld.py:316-351 *)
(* ------------------------------------------------------------------ response.py:142-145 *)
(* A spectrum in a zip archive that holds a single number cannot be loaded, whatever the rest is:
   np.genfromtxt gives it without a length. *)
Theorem zip_single_number_refused : forall r files s, files (qtrunc (RespLoadModel.t_Eg r)) = Some s ->
  (exists x, RespLoadModel.sp_counts s = [x]) -> (-1 <= RespLoadModel.sp_last s)%Z ->
  RespLoadModel.load_zip (Some [r]) files = Raise TypeError.
Proof.
  intros r files s F [x C] N. unfold RespLoadModel.load_zip. cbn [map SampStatModel.isort fold_right SampStatModel.insert forallb RespLoadModel.qmaximum fold_left].
  rewrite F. cbn [andb negb rbind]. rewrite F. destruct (RespLoadModel.sp_cal s) as [[a0 a1] a2]. destruct (Z.ltb_spec (RespLoadModel.sp_last s + 1) 0); [lia|].
  cbn. rewrite F. unfold RespLoadModel.zip_row. rewrite C. reflexivity.
Qed.
Print Assumptions zip_single_number_refused.
Example zip_single_number_case : RespLoadModel.load_zip (Some [RespLoadModel.mkRow (qz 100) 1 1 1 1 1 1])
  (fun k => if (k =? 100)%Z then Some (RespLoadModel.mkSp (0, 1, 0) 0 [qz 7]) else None) = Raise TypeError.
Proof. eapply zip_single_number_refused; [vm_compute; reflexivity|now exists (qz 7)|discriminate]. Qed.

Local Open Scope R_scope.
(* The sampled slope and temperature are log-uniform around a positive guess; around a guess of
   zero they are zero for every point of the unit cube. *)
Theorem prior_of_guess : forall inv g u1 u2 u3 u4 A a T s, OptModel.prior inv g u1 u2 u3 u4 = Ok (A, a, T, s) ->
  (a = 0 <-> LikeModel.p_alpha g = 0) /\ (T = 0 <-> LikeModel.p_T g = 0) /\
  (0 < LikeModel.p_alpha g -> a = StatsModel.prior_log (LikeModel.p_alpha g) u2) /\
  (0 < LikeModel.p_T g -> T = StatsModel.prior_log (LikeModel.p_T g) u3).
Proof.
  intros inv g u1 u2 u3 u4 A a T s H. unfold OptModel.prior in H. destruct (Rlt_dec _ 0); [discriminate|]. destruct (Rlt_dec _ 0); [discriminate|].
  injection H as _ <- <- _. unfold OptModel.prior_log0.
  assert (P : forall x u, StatsModel.prior_log x u <> 0) by (intros; unfold StatsModel.prior_log, Rpower; apply Rgt_not_eq, exp_pos).
  destruct (Req_EM_T (LikeModel.p_alpha g) 0) as [E1|E1], (Req_EM_T (LikeModel.p_T g) 0) as [E2|E2]; repeat match goal with |- _ /\ _ => split | |- _ <-> _ => split end; intros;
    try reflexivity; try assumption; try contradiction; try (exfalso; eapply P; eassumption); try (exfalso; eapply Rlt_irrefl; match goal with E : ?x = 0, L : 0 < ?x |- _ => rewrite E in L; exact L end).
Qed.
Print Assumptions prior_of_guess.
Example prior_of_guess_case : forall inv, exists A T s, OptModel.prior inv (LikeModel.mkP4 1 0 1 0) 1 1 (/ 2) 0 = Ok (A, 0, T, s) /\ T <> 0.
Proof.
  intros inv. unfold OptModel.prior. cbn [LikeModel.p_alpha LikeModel.p_T LikeModel.p_A]. destruct (Rlt_dec 0 0) as [L|_]; [now apply Rlt_irrefl in L|].
  destruct (Rlt_dec 1 0) as [L|_]; [exfalso; apply (Rlt_irrefl 0); eapply Rlt_trans; [apply Rlt_0_1|exact L]|].
  unfold OptModel.prior_log0. destruct (Req_EM_T 0 0) as [_|N]; [|now contradiction N]. destruct (Req_EM_T 1 0) as [N|_]; [now apply R1_neq_R0 in N|].
  do 3 eexists. split; [reflexivity|]. unfold StatsModel.prior_log, Rpower. apply Rgt_not_eq, exp_pos.
Qed.
