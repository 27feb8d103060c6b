(* C119: the simultaneous normalisation changes the parameters and models of the normaliser it
   holds with every evaluation of its likelihood.  What of this can be seen from outside: nothing
   if the call succeeds; the standard deviations and D0 of later calls if it fails. *)
From Verif Require Import PyBase NormStateModel SimStateModel.
From Verif Require FitWinModel.
Import FitWinModel(efit, efit_new, gvec, mkGV, points).
Local Open Scope Qc_scope.

Section Props.
Variables C Ar P G V Sm : Type.
Variable guess4 : C -> vec -> result (Ar * par4).
Variable lnl_nld : Ar -> par4 -> result V.
Variable D0_of : C -> Qc -> Qc -> Qc.
Variable gauss : P -> G -> V.
Variable vadd : V -> V -> V.
Variable ratio : P -> G -> Qc.
Variable Gg : P -> Qc -> vec -> vec -> vec -> vec -> Qc * Qc -> result G.
Variable gpars_set : P -> result unit.
Variable cfit : bool -> points -> result (Qc * Qc).
Variable curve : bool -> option Qc -> option Qc -> Qc -> Qc -> result vec.
Variable log : Qc -> Qc.
Variable transform : vec -> Qc -> Qc -> vec.
Variable sample : par5 -> sampler V Sm.
Hypothesis keeps_E : forall v a b, v_E (transform v a b) = v_E v.
Hypothesis keeps_unit : forall v a b, v_MeV (transform v a b) = v_MeV v.

Notation lnlike := (lnlike C Ar P G V lnl_nld D0_of gauss vadd Gg cfit curve transform).
Notation run := (run P V Sm).
Notation sampler := (sampler V Sm).
Notation sim_compute := (sim_compute C Ar P G V Sm guess4 lnl_nld D0_of gauss vadd ratio Gg gpars_set cfit curve log transform sample).
Notation extrapolate := (extrapolate cfit curve).
Notation mfit := (mfit cfit).
Notation gnorm := (gnorm P).
Notation sst := (sst C P Sm).
Notation sargs := (sargs C P).

(* ------------------------------------------------ specification: no state *)
Definition axis (v : vec) : list Qc * bool := (v_E v, v_MeV v).
(* scale and shift of an extrapolation of v: fitted, or the fixed ones *)
Definition params (fitted high : bool) (v : vec) (m : mdl) : result (Qc * Qc) :=
  if fitted then do pts <- snd (FitWinModel.fit high (gv v) None None (m_efit m)) ;; cfit high pts
  else Ok (m_scale m, m_shift m).
(* parameters and curves of both extrapolations *)
Definition extrapolations (v : vec) (l h : mdl) : result ((Qc * Qc) * (Qc * Qc) * (vec * vec)) :=
  do a <- params (m_fit l) false v l ;;
  do b <- params (m_fit l) true v h ;;
  do x <- curve false (m_Emin l) (m_Emax l) (fst a) (snd a) ;;
  do y <- curve true (m_Emin h) (m_Emax h) (fst b) (snd b) ;;
  Ok (a, b, (x, y)).
(* the likelihood of a point, from the data and the settings *)
Definition likelihood (cfg : C) (args : Ar) (p : P) (l h : mdl) (nld gsf : vec) (x : par5) : result V :=
  let q := p_4 x in
  do e1 <- lnl_nld args q ;;
  let t := transform gsf (p_B x) (p_alpha q) in
  do c <- extrapolations t l h ;;
  do g <- Gg p (D0_of cfg (p_T q) (p_Esh q)) t (fst (snd c)) (snd (snd c)) (transform nld (p_A q) (p_alpha q)) (p_T q, p_Esh q) ;;
  Ok (vadd e1 (gauss p g)).
(* what a sampler arrives at if it asks a function *)
Fixpoint consult (f : par5 -> result V) (t : sampler) : result (par5 * Sm) :=
  match t with Stop _ _ r => r | Ask _ _ x k => consult f (k (f x)) end.
(* the ranges of the extrapolations: as set, else from the data *)
Definition ranged (high : bool) (v : vec) (m : mdl) : result mdl :=
  do e <- match m_Emax m, high, v_E v with
          | Some e, _, _ => Ok e
          | None, true, _ => Ok (qz 20)
          | None, false, e :: _ => Ok e
          | None, false, [] => Raise IndexError
          end ;;
  Ok (mkMdl (m_fit m) (Some match m_Emin m with Some x => x | None => 0 end) (Some e) (m_efit m) (m_scale m) (m_shift m) (m_after m)).
(* the data of the fit: in MeV, with 30 % of the values as standard deviation if they have none *)
Definition fit_vector (v : vec) : vec := let m := to_MeV v in match v_std m with None => fake_std m | Some _ => m end.
Record answer := mkAns { an_pars : par5; an_samples : Sm; an_nld : vec; an_gsf : vec; an_low : Qc * Qc; an_high : Qc * Qc }.
Definition simultaneous (cfg : C) (p : P) (D0 : Qc) (l h : mdl) (nld gsf : vec) : result answer :=
  let nf := fit_vector nld in
  let gf := fit_vector gsf in
  do ag <- guess4 cfg nf ;;
  let q := snd ag in
  do _ <- gpars_set p ;;
  let t := transform gf 1 (p_alpha q) in
  do l1 <- ranged false t l ;;
  do h1 <- ranged true t h ;;
  do c <- extrapolations t l1 h1 ;;
  do g <- Gg p D0 t (fst (snd c)) (snd (snd c)) (transform nf (p_A q) (p_alpha q)) (p_T q, p_Esh q) ;;
  do _ <- (if qltb (p_alpha q) 0 then Raise NotImplementedErr else if qltb (p_T q) 0 then Raise ValueError else Ok tt) ;;
  do o <- consult (likelihood cfg (fst ag) p l1 h1 nf gf) (sample (mkP5 q (ratio p g))) ;;
  let x := fst o in
  let rg := transform (to_MeV gsf) (p_B x) (p_alpha (p_4 x)) in
  do c' <- extrapolations rg l1 h1 ;;
  Ok (mkAns x (snd o) (transform (to_MeV nld) (p_A (p_4 x)) (p_alpha (p_4 x))) rg (fst (fst c')) (snd (fst c'))).
Definition effective {A} (arg own : option A) (v : A) : Prop := arg = Some v \/ arg = None /\ own = Some v.

(* ------------------------------------------------ proofs *)
Definition same (v w : vec) : Prop := v_E v = v_E w /\ v_MeV v = v_MeV w.
Lemma same_tr v w a b : same v w -> same v (transform w a b).
Proof. intros [H K]. split; rewrite ?keeps_E, ?keeps_unit; assumption. Qed.
Lemma auto_same high v w f : same v w -> FitWinModel.autofitrange high (gv v) f = FitWinModel.autofitrange high (gv w) f.
Proof. intros [H K]. unfold FitWinModel.autofitrange, FitWinModel.mev. cbn [gv FitWinModel.gv_E FitWinModel.gv_MeV]. now rewrite H, K. Qed.
Lemma auto_twice high v f : FitWinModel.autofitrange high v (fst (FitWinModel.autofitrange high v f)) = FitWinModel.autofitrange high v f.
Proof.
  destruct f as [il lo hi]. unfold FitWinModel.autofitrange. set (E := FitWinModel.mev v). set (i := if high then _ else _). set (j := if high then _ else _). clearbody i j.
  assert (NE : (length E <? 8)%nat = false -> (i < length E)%nat -> nth_error E i <> None) by (intros _; apply nth_error_Some).
  unfold FitWinModel.auto_one. cbn [FitWinModel.ef_list FitWinModel.ef_low FitWinModel.ef_high].
  destruct lo as [x|].
  - cbn [FitWinModel.ef_list FitWinModel.ef_low FitWinModel.ef_high]. destruct hi as [y|]; [reflexivity|]. destruct (length E <? 8)%nat eqn:L; [cbn; now rewrite ?L|]. destruct il; [|cbn; now rewrite ?L].
    cbn. destruct (nth_error E j) eqn:J; cbn; rewrite ?L, ?J; reflexivity.
  - destruct (length E <? 8)%nat eqn:L; [cbn; now rewrite ?L|]. destruct il; [|cbn; now rewrite ?L].
    destruct (nth_error E i) eqn:I; (destruct hi as [y|]; cbn; rewrite ?L, ?I; cbn; [reflexivity|]; destruct (nth_error E j) eqn:J; cbn; rewrite ?L, ?I, ?J; reflexivity).
Qed.
(* m is m0 with another fit, and with windows set *)
Definition like (fitted high : bool) (v : vec) (m0 m : mdl) : Prop :=
  m_fit m = m_fit m0 /\ m_Emin m = m_Emin m0 /\ m_Emax m = m_Emax m0 /\
  (m_efit m = m_efit m0 \/ fitted = true /\ m_efit m = fst (FitWinModel.autofitrange high (gv v) (m_efit m0))) /\
  (fitted = false -> m_scale m = m_scale m0 /\ m_shift m = m_shift m0).
Lemma like_refl f h v m : like f h v m m.
Proof. repeat split; auto. Qed.
Lemma like_same f high v w m0 m : same v w -> like f high v m0 m -> like f high w m0 m.
Proof. intros S (A & B & D & E & F). repeat split; auto; try tauto. destruct E as [E|[E1 E]]; [now left|right]. split; [assumption|]. now rewrite <- (auto_same _ _ _ _ S). Qed.
Lemma fit_like high v m0 m : like true high v m0 m ->
  FitWinModel.fit high (gv v) None None (m_efit m) = FitWinModel.fit high (gv v) None None (m_efit m0).
Proof. intros (_ & _ & _ & E & _). destruct E as [->|[_ ->]]; [reflexivity|]. unfold FitWinModel.fit. now rewrite auto_twice. Qed.
Lemma fst_fit high v f : fst (FitWinModel.fit high v None None f) = fst (FitWinModel.autofitrange high v f).
Proof. unfold FitWinModel.fit. destruct (FitWinModel.autofitrange high v f) as [f' [[]|e]]; reflexivity. Qed.
Lemma mfit_spec high v m0 m : like true high v m0 m ->
  snd (mfit high v m) = rmap (fun _ => tt) (params true high v m0) /\ like true high v m0 (fst (mfit high v m)) /\
  forall ab, params true high v m0 = Ok ab -> (m_scale (fst (mfit high v m)), m_shift (fst (mfit high v m))) = ab.
Proof.
  intros LK. unfold mfit, SimStateModel.mfit, params. rewrite (fit_like _ _ _ _ LK). pose proof (fst_fit high (gv v) (m_efit m0)) as FF.
  destruct LK as (L1 & L2 & L3 & L4 & L5). destruct (FitWinModel.fit high (gv v) None None (m_efit m0)) as [f' r]. cbn [fst] in FF. subst f'. destruct r as [pts|e]; cbn [rbind snd].
  - destruct (cfit high pts) as [[x y]|e]; cbn [fst snd rmap]; (split; [reflexivity|split; [unfold like; cbn; intuition discriminate|]]); [intros ab Q; inversion Q; reflexivity|intros ab Q; discriminate Q].
  - split; [reflexivity|]. split; [unfold like; cbn; intuition discriminate|intros ab Q; discriminate Q].
Qed.
Lemma extrapolate_spec v l0 h0 l h : like (m_fit l0) false v l0 l -> like (m_fit l0) true v h0 h ->
  let o := extrapolate v l h in
  snd o = rmap (fun c => snd c) (extrapolations v l0 h0) /\
  like (m_fit l0) false v l0 (fst (fst o)) /\ like (m_fit l0) true v h0 (snd (fst o)) /\
  (forall c, extrapolations v l0 h0 = Ok c ->
     (m_scale (fst (fst o)), m_shift (fst (fst o))) = fst (fst c) /\ (m_scale (snd (fst o)), m_shift (snd (fst o))) = snd (fst c)).
Proof.
  intros LL LH o. unfold o, extrapolate, SimStateModel.extrapolate, extrapolations. clear o.
  destruct (m_fit l0) eqn:FT.
  - assert (m_fit l = true) as -> by (destruct LL as [-> _]; exact FT).
    destruct (mfit_spec _ _ _ _ LL) as (A1 & A2 & A3). destruct (mfit_spec _ _ _ _ LH) as (B1 & B2 & B3).
    destruct (mfit false v l) as [l' rl]. destruct (mfit true v h) as [h' rh]. cbn [fst snd] in *. subst rl rh.
    destruct (params true false v l0) as [a|e]; cbn [rmap rbind]; [|cbn; split; [reflexivity|split; [assumption|split; [assumption|intros c Q; discriminate Q]]]].
    destruct (params true true v h0) as [b|e]; cbn [rmap rbind]; [|cbn; split; [reflexivity|split; [assumption|split; [assumption|intros c Q; discriminate Q]]]].
    specialize (A3 a eq_refl). specialize (B3 b eq_refl). subst a b. cbn [fst snd]. unfold unscaled.
    destruct A2 as (X1 & X2 & X3 & X4 & X5). destruct B2 as (Y1 & Y2 & Y3 & Y4 & Y5). rewrite X2, X3, Y2, Y3.
    split; [|split; [now repeat split|split; [now repeat split|]]].
    + destruct (curve false _ _ _ _); cbn; [|reflexivity]. destruct (curve true _ _ _ _); reflexivity.
    + intros c. destruct (curve false _ _ _ _); cbn; [|discriminate]. destruct (curve true _ _ _ _); cbn; [|discriminate]. intros Q. injection Q as <-. split; reflexivity.
  - assert (m_fit l = false) as -> by (destruct LL as [-> _]; exact FT). cbn [params rbind fst snd]. unfold unscaled.
    pose proof LL as (X1 & X2 & X3 & X4 & X5). pose proof LH as (Y1 & Y2 & Y3 & Y4 & Y5). destruct (X5 eq_refl) as [Z1 Z2]. destruct (Y5 eq_refl) as [Z3 Z4].
    rewrite X2, X3, Y2, Y3, Z1, Z2, Z3, Z4. split; [|split; [assumption|split; [assumption|]]].
    + destruct (curve false _ _ _ _); cbn; [|reflexivity]. destruct (curve true _ _ _ _); reflexivity.
    + intros c. destruct (curve false _ _ _ _); cbn; [|discriminate]. destruct (curve true _ _ _ _); cbn; [|discriminate]. intros Q. injection Q as <-. split; reflexivity.
Qed.

(* what an evaluation of the likelihood keeps *)
Definition steady (v : vec) (g0 g : gnorm) : Prop :=
  q_pars _ g = q_pars _ g0 /\ q_in _ g = Some v /\
  like (m_fit (q_low _ g0)) false v (q_low _ g0) (q_low _ g) /\ like (m_fit (q_low _ g0)) true v (q_high _ g0) (q_high _ g).
Lemma lnlike_spec cfg nld args v g0 g x : steady v g0 g ->
  snd (lnlike cfg nld args g x) = likelihood cfg args (q_pars _ g0) (q_low _ g0) (q_high _ g0) nld v x /\
  steady v g0 (fst (lnlike cfg nld args g x)).
Proof.
  intros (S1 & S2 & S3 & S4). unfold lnlike, SimStateModel.lnlike, likelihood. rewrite S2.
  destruct (lnl_nld args (p_4 x)) as [e1|e]; cbn [rbind fst snd]; [|split; [reflexivity|now repeat split; try apply S3; try apply S4]].
  set (t := transform v (p_B x) (p_alpha (p_4 x))). assert (ST : same v t) by (apply same_tr; split; reflexivity).
  destruct (extrapolate_spec t (q_low _ g0) (q_high _ g0) (q_low _ g) (q_high _ g) (like_same _ _ _ _ _ _ ST S3) (like_same _ _ _ _ _ _ ST S4)) as (O1 & O2 & O3 & _).
  cbn zeta in *. assert (TS : same t v) by (destruct ST; split; congruence). apply (like_same _ _ _ _ _ _ TS) in O2. apply (like_same _ _ _ _ _ _ TS) in O3.
  destruct (extrapolate t (q_low _ g) (q_high _ g)) as [[l h] r]. cbn [fst snd] in *. subst r.
  destruct (extrapolations t (q_low _ g0) (q_high _ g0)) as [[[a b] [y z]]|e]; cbn [rmap rbind fst snd].
  - unfold gsf_like. cbn [q_gsf q_glow q_ghigh q_nld q_model q_pars q_D0 fst]. rewrite S1. split; [|repeat split; cbn; try apply O2; try apply O3; auto].
    destruct (Gg _ _ _ _ _ _ _); reflexivity.
  - split; [reflexivity|repeat split; cbn; try apply O2; try apply O3; auto].
Qed.
Lemma run_spec cfg nld args v g0 t : forall g, steady v g0 g ->
  snd (run (lnlike cfg nld args) g t) = consult (likelihood cfg args (q_pars _ g0) (q_low _ g0) (q_high _ g0) nld v) t /\
  steady v g0 (fst (run (lnlike cfg nld args) g t)).
Proof.
  induction t as [x k IH|r]; intros g S; cbn [SimStateModel.run consult]; [|split; [reflexivity|exact S]].
  destruct (lnlike_spec cfg nld args v g0 g x S) as [E S']. destruct (lnlike cfg nld args g x) as [g' r]. cbn [fst snd] in *. subst r. now apply IH.
Qed.

(* ------------------------------------------------ evaluations have no memory *)
(* Whatever the sampler asks and in whatever order, every value is the likelihood of that point:
   nothing is left over from earlier evaluations. *)
Theorem sim_no_memory : forall cfg nld args g v t, q_in _ g = Some v ->
  snd (run (lnlike cfg nld args) g t) = consult (likelihood cfg args (q_pars _ g) (q_low _ g) (q_high _ g) nld v) t.
Proof. intros cfg nld args g v t H. apply run_spec. repeat split; auto. Qed.
Theorem sim_order_free : forall cfg nld args g v x xs, q_in _ g = Some v ->
  snd (lnlike cfg nld args (fold_left (fun g y => fst (lnlike cfg nld args g y)) xs g) x) = snd (lnlike cfg nld args g x).
Proof.
  intros cfg nld args g v x xs H. assert (S0 : steady v g g) by (repeat split; auto).
  assert (S : forall g', steady v g g' -> steady v g (fold_left (fun g y => fst (lnlike cfg nld args g y)) xs g')).
  { induction xs as [|y xs IH]; intros g' S'; cbn; [exact S'|]. apply IH. apply lnlike_spec, S'. }
  destruct (lnlike_spec cfg nld args v g _ x (S g S0)) as [-> _]. destruct (lnlike_spec cfg nld args v g g x S0) as [-> _]. reflexivity.
Qed.

(* ------------------------------------------------ the call as a whole *)
Lemma autorange_ranged high v m : match ranged high v m with
  | Ok m' => autorange high v m = (m', Ok tt)
  | Raise e => snd (autorange high v m) = Raise e
  end.
Proof. unfold ranged, autorange. destruct (m_Emax m) as [e|]; [reflexivity|]. destruct high; [reflexivity|]. destruct (v_E v); reflexivity. Qed.
Lemma ranged_set high v m m' : ranged high v m = Ok m' -> exists a b, m_Emin m' = Some a /\ m_Emax m' = Some b /\ m_fit m' = m_fit m /\ m_efit m' = m_efit m /\ m_scale m' = m_scale m /\ m_shift m' = m_shift m.
Proof.
  unfold ranged. destruct (match m_Emax m with Some e => _ | None => _ end) as [e|]; cbn; [|discriminate]. intros Q. injection Q as <-. cbn. eauto 10.
Qed.
Lemma autorange_set high v m a b : m_Emin m = Some a -> m_Emax m = Some b -> autorange high v m = (m, Ok tt).
Proof. destruct m; cbn. intros -> ->. reflexivity. Qed.
Lemma std_dropped v : drop_std (fake_std v) = mkVec (v_E v) (v_val v) None (v_MeV v).
Proof. reflexivity. Qed.
Lemma no_std_drop v : no_std v = true -> drop_std (fake_std v) = v.
Proof. destruct v as [E x [s|] u]; [discriminate|reflexivity]. Qed.
Lemma effective_ok {A} (arg own : option A) v : effective arg own v -> self_if_none arg own = Ok v.
Proof. intros [->|[-> ->]]; reflexivity. Qed.

Definition clean (s : sst) : Prop := s_fake_nld _ _ _ s <> Some true /\ s_fake_gsf _ _ _ s <> Some true.
(* no flag is left set that would replace standard deviations *)
Definition flags_fit (s : sst) (nld gsf : vec) : Prop :=
  (s_fake_nld _ _ _ s = Some true -> v_std nld = None) /\ (s_fake_gsf _ _ _ s = Some true -> v_std gsf = None).
Lemma clean_fit s nld gsf : clean s -> flags_fit s nld gsf.
Proof. intros [A B]. split; intros; contradiction. Qed.
Lemma std_MeV v : v_std (to_MeV v) = v_std v.
Proof. unfold to_MeV. destruct (v_MeV v); reflexivity. Qed.
Lemma flag_absorbed b v : (b = Some true -> v_std v = None) -> (SimStateModel.is_true b || no_std (to_MeV v)) = no_std (to_MeV v).
Proof. intros H. destruct b as [[|]|]; [|reflexivity|reflexivity]. unfold no_std. rewrite std_MeV, (H eq_refl). reflexivity. Qed.

(* the models of the held normaliser after a success *)
Definition left_over (gsf : vec) (m0 m : mdl) (high fitted : bool) : Prop :=
  exists m1, ranged high (to_MeV gsf) m0 = Ok m1 /\ like fitted high (to_MeV gsf) m1 m.

Lemma sim_main : forall a s nn gn gsf nld, flags_fit s nld gsf ->
  effective (sa_nn _ _ a) (s_nn _ _ _ s) nn -> effective (sa_gn _ _ a) (s_gn _ _ _ s) gn ->
  effective (sa_gsf _ _ a) (s_gsf _ _ _ s) gsf -> effective (sa_nld _ _ a) (s_nld _ _ _ s) nld ->
  match simultaneous (nn_cfg _ nn) (q_pars _ gn) (fst (q_D0 _ gn)) (q_low _ gn) (q_high _ gn) nld gsf with
  | Raise e => snd (sim_compute a s) = Raise e
  | Ok an => exists s' r g', sim_compute a s = (s', Ok tt) /\ s_res _ _ _ s' = Some r /\
      sr_pars _ r = an_pars an /\ sr_samples _ r = an_samples an /\ sr_nld _ r = an_nld an /\ sr_gsf _ r = an_gsf an /\
      (m_scale (sr_low _ r), m_shift (sr_low _ r)) = an_low an /\ (m_scale (sr_high _ r), m_shift (sr_high _ r)) = an_high an /\
      m_after (sr_low _ r) = Some (snd (an_low an)) /\ m_after (sr_high _ r) = Some (snd (an_high an)) /\
      s_gn _ _ _ s' = Some g' /\ q_pars _ g' = q_pars _ gn /\ q_D0 _ g' = q_D0 _ gn /\
      left_over gsf (q_low _ gn) (q_low _ g') false (m_fit (q_low _ gn)) /\ left_over gsf (q_high _ gn) (q_high _ g') true (m_fit (q_low _ gn)) /\
      (exists nn', s_nn _ _ _ s' = Some nn' /\ nn_cfg _ nn' = nn_cfg _ nn) /\
      s_nld _ _ _ s' = s_nld _ _ _ s /\ s_gsf _ _ _ s' = s_gsf _ _ _ s /\ clean s'
  end.
Proof.
  intros a s nn gn gsf nld [CN CG] EN EG EF EL. unfold sim_compute, SimStateModel.sim_compute.
  rewrite (effective_ok _ _ _ EN), (effective_ok _ _ _ EG), (effective_ok _ _ _ EF), (effective_ok _ _ _ EL).
  rewrite (flag_absorbed _ _ CN), (flag_absorbed _ _ CG).
  set (nld1 := to_MeV nld). set (gsf1 := to_MeV gsf).
  assert (NF : (if no_std nld1 then fake_std nld1 else nld1) = fit_vector nld).
  { unfold fit_vector, no_std. fold nld1. destruct (v_std nld1); reflexivity. }
  assert (GF : (if no_std gsf1 then fake_std gsf1 else gsf1) = fit_vector gsf).
  { unfold fit_vector, no_std. fold gsf1. destruct (v_std gsf1); reflexivity. }
  rewrite NF, GF.
  assert (ND : (if no_std nld1 then drop_std (fit_vector nld) else fit_vector nld) = nld1).
  { rewrite <- NF. destruct (no_std nld1) eqn:Q; [now apply no_std_drop|reflexivity]. }
  assert (GD : (if no_std gsf1 then drop_std (fit_vector gsf) else fit_vector gsf) = gsf1).
  { rewrite <- GF. destruct (no_std gsf1) eqn:Q; [now apply no_std_drop|reflexivity]. }
  rewrite ND, GD.
  assert (SG : same gsf1 (fit_vector gsf)).
  { rewrite <- GF. destruct (no_std gsf1); split; reflexivity. }
  unfold simultaneous. fold nld1 gsf1. clear NF GF ND GD.
  set (nf := fit_vector nld) in *. set (gf := fit_vector gsf) in *. clearbody nf gf.
  set (gn1 := mkGN P (q_pars P gn) (q_D0 P gn) (q_low P gn) (q_high P gn) (Some gf) _ _ _ _ _).
  unfold guess_and_run. destruct (guess4 (nn_cfg _ nn) nf) as [[args q]|e]; cbn [rbind fst snd]; [|reflexivity].
  unfold gsf_norm. cbn [q_in q_pars q_D0 q_low q_high gn1].
  destruct (gpars_set (q_pars _ gn)) as [[]|e]; cbn [rbind]; [|reflexivity].
  set (t := transform gf 1 (p_alpha q)). set (n := transform nf (p_A q) (p_alpha q)).
  assert (ST : same gsf1 t) by (apply same_tr; exact SG).
  pose proof (autorange_ranged false t (q_low _ gn)) as AL. destruct (ranged false t (q_low _ gn)) as [l1|e] eqn:RL; cbn [rbind].
  2:{ destruct (autorange false t (q_low _ gn)) as [lx rx]. cbn in AL. subst rx. reflexivity. }
  rewrite AL. clear AL.
  pose proof (autorange_ranged true t (q_high _ gn)) as AH. destruct (ranged true t (q_high _ gn)) as [h1|e] eqn:RH; cbn [rbind].
  2:{ destruct (autorange true t (q_high _ gn)) as [lx rx]. cbn in AH. subst rx. reflexivity. }
  rewrite AH. clear AH.
  destruct (extrapolate_spec t l1 h1 l1 h1 (like_refl _ _ _ _) (like_refl _ _ _ _)) as (X1 & X2 & X3 & _). cbn zeta in *.
  destruct (extrapolate t l1 h1) as [[l h] r]. cbn [fst snd] in X1, X2, X3. subst r.
  destruct (extrapolations t l1 h1) as [[[ca cb] [y z]]|e]; cbn [rmap rbind fst snd]; [|reflexivity].
  destruct (Gg (q_pars _ gn) (fst (q_D0 _ gn)) t y z n (p_T q, p_Esh q)) as [gg|e]; cbn [rbind]; [|reflexivity].
  destruct (qltb (p_alpha q) 0); cbn [rbind]; [reflexivity|]. destruct (qltb (p_T q) 0); cbn [rbind]; [reflexivity|].
  set (B := ratio (q_pars _ gn) gg).
  destruct (ranged_set _ _ _ _ RL) as (la & lb & La & Lb & Lf & Le & Lsc & Lsh). destruct (ranged_set _ _ _ _ RH) as (ha & hb & Ha & Hb & Hf & He & Hsc & Hsh).
  match goal with |- context [SimStateModel.run _ _ _ _ ?gg1 _] => set (g1 := gg1) end.
  set (g0 := mkGN P (q_pars P gn) (q_D0 P gn) l1 h1 (Some gf) (Some n) (Some (p_T q, p_Esh q)) None None None).
  assert (LA : forall f hi v m0 m x, like f hi v m0 m -> like f hi v m0 (mkMdl (m_fit m) (m_Emin m) (m_Emax m) (m_efit m) (m_scale m) (m_shift m) x)).
  { intros f hi v m0 m x K. exact K. }
  assert (TG : same t gf) by (destruct ST as [S1 S2], SG as [S3 S4]; split; congruence).
  assert (SY : steady gf g0 g1).
  { split; [reflexivity|]. split; [reflexivity|]. split; cbn [g0 g1 q_low q_high]; apply LA; apply (like_same _ _ _ _ _ _ TG); assumption. }
  destruct (run_spec (nn_cfg _ nn) nf args gf g0 (sample (mkP5 q B)) g1 SY) as [RS SY2].
  change (q_pars _ g0) with (q_pars _ gn) in RS. change (q_low _ g0) with l1 in RS. change (q_high _ g0) with h1 in RS.
  destruct (SimStateModel.run _ _ _ _ g1 _) as [g2 rr]. cbn [fst snd] in RS, SY2. rewrite <- RS.
  destruct rr as [[x sm]|e]; cbn [rbind fst snd]; [|reflexivity].
  destruct SY2 as (Y1 & Y2 & Y3 & Y4). change (q_pars _ g0) with (q_pars _ gn) in Y1. change (q_low _ g0) with l1 in Y3, Y4. change (q_high _ g0) with h1 in Y4.
  cbn [q_low q_high q_pars q_D0 q_in q_nld q_model q_gsf q_glow q_ghigh]. set (rg := transform gsf1 (p_B x) (p_alpha (p_4 x))).
  assert (GR : same gf rg) by (apply same_tr; destruct SG; split; congruence).
  destruct (Y3) as (K1 & K2 & K3 & _). destruct (Y4) as (K4 & K5 & K6 & _).
  rewrite (autorange_set false rg (q_low _ g2) la lb) by congruence. rewrite (autorange_set true rg (q_high _ g2) ha hb) by congruence.
  destruct (extrapolate_spec rg l1 h1 (q_low _ g2) (q_high _ g2) (like_same _ _ _ _ _ _ GR Y3) (like_same _ _ _ _ _ _ GR Y4)) as (Z1 & Z2 & Z3 & Z4). cbn zeta in *.
  destruct (extrapolate rg (q_low _ g2) (q_high _ g2)) as [[lf hf] r]. cbn [fst snd] in Z1, Z2, Z3, Z4. subst r.
  destruct (extrapolations rg l1 h1) as [[[fa fb] [y' z']]|e]; cbn [rmap rbind fst snd]; [|reflexivity].
  destruct (Z4 _ eq_refl) as [Z5 Z6]. cbn [fst snd] in Z5, Z6. subst fa fb.
  assert (RG1 : same rg gsf1) by (destruct GR, SG; split; congruence).
  eexists. eexists. eexists. split; [reflexivity|]. cbn. repeat (split; [reflexivity|]).
  split. { exists l1. split; [rewrite <- RL; unfold ranged; fold gsf1; rewrite ?(proj1 ST); reflexivity|]. apply LA. rewrite <- Lf. apply (like_same _ _ _ _ _ _ RG1). exact Z2. }
  split. { exists h1. split; [rewrite <- RH; unfold ranged; fold gsf1; rewrite ?(proj1 ST); reflexivity|]. apply LA. rewrite <- Lf. apply (like_same _ _ _ _ _ _ RG1). exact Z3. }
  split. { eexists. split; reflexivity. }
  split; [reflexivity|]. split; [reflexivity|]. split; cbn; [destruct (no_std nld1); discriminate|].
  destruct (no_std gsf1) eqn:Q; [discriminate|]. intros F. specialize (CG F). unfold no_std, gsf1 in Q. rewrite std_MeV, CG in Q. discriminate Q.
Qed.

(* ------------------------------------------------ theorems about calls *)
(* normalize gives what the stateless computation gives, exceptions included; the parameters of the
   normaliser it holds are put back, nothing replaces standard deviations later, and neither
   vector of the object is changed. *)
Theorem sim_stateless : forall a s nn gn gsf nld, flags_fit s nld gsf ->
  effective (sa_nn _ _ a) (s_nn _ _ _ s) nn -> effective (sa_gn _ _ a) (s_gn _ _ _ s) gn ->
  effective (sa_gsf _ _ a) (s_gsf _ _ _ s) gsf -> effective (sa_nld _ _ a) (s_nld _ _ _ s) nld ->
  match simultaneous (nn_cfg _ nn) (q_pars _ gn) (fst (q_D0 _ gn)) (q_low _ gn) (q_high _ gn) nld gsf with
  | Raise e => snd (sim_compute a s) = Raise e
  | Ok an => exists s' r g', sim_compute a s = (s', Ok tt) /\ s_res _ _ _ s' = Some r /\
      sr_pars _ r = an_pars an /\ sr_samples _ r = an_samples an /\ sr_nld _ r = an_nld an /\ sr_gsf _ r = an_gsf an /\
      (m_scale (sr_low _ r), m_shift (sr_low _ r)) = an_low an /\ (m_scale (sr_high _ r), m_shift (sr_high _ r)) = an_high an /\
      m_after (sr_low _ r) = Some (snd (an_low an)) /\ m_after (sr_high _ r) = Some (snd (an_high an)) /\
      s_gn _ _ _ s' = Some g' /\ q_pars _ g' = q_pars _ gn /\ q_D0 _ g' = q_D0 _ gn /\
      s_nld _ _ _ s' = s_nld _ _ _ s /\ s_gsf _ _ _ s' = s_gsf _ _ _ s /\ clean s'
  end.
Proof.
  intros a s nn gn gsf nld F EN EG EF EL. pose proof (sim_main a s nn gn gsf nld F EN EG EF EL) as M.
  destruct (simultaneous _ _ _ _ _ _ _) as [an|e]; [|exact M].
  destruct M as (s' & r & g' & M1 & M2 & M3 & M4 & M5 & M6 & M7 & M8 & M9 & M10 & M11 & M12 & M13 & _ & _ & _ & M14). exists s', r, g'. tauto.
Qed.

Lemma extrapolations_like v l0 h0 l h : like (m_fit l0) false v l0 l -> like (m_fit l0) true v h0 h -> extrapolations v l h = extrapolations v l0 h0.
Proof.
  intros LL LH. unfold extrapolations. pose proof LL as (A1 & A2 & A3 & _ & A5). pose proof LH as (B1 & B2 & B3 & _ & B5). rewrite A1, A2, A3, B2, B3.
  destruct (m_fit l0) eqn:F.
  - unfold params. now rewrite (fit_like _ _ _ _ LL), (fit_like _ _ _ _ LH).
  - unfold params. destruct (A5 eq_refl) as [-> ->]. destruct (B5 eq_refl) as [-> ->]. reflexivity.
Qed.
Lemma consult_ext f g t : (forall x, f x = g x) -> consult f t = consult g t.
Proof. intros H. induction t as [x k IH|r]; cbn; [|reflexivity]. rewrite H. apply IH. Qed.
Lemma ranged_again high fitted v m0 m1 m : ranged high v m0 = Ok m1 -> like fitted high v m1 m ->
  exists m2, ranged high v m = Ok m2 /\ like fitted high v m1 m2.
Proof.
  intros R (K1 & K2 & K3 & K4 & K5). destruct (ranged_set _ _ _ _ R) as (x & y & X & Y & _). rewrite X in K2. rewrite Y in K3.
  unfold ranged. rewrite K3, K2. cbn [rbind]. eexists. split; [reflexivity|]. unfold like. cbn. rewrite X, Y. intuition.
Qed.
Lemma ranged_E high v w m : v_E v = v_E w -> ranged high v m = ranged high w m.
Proof. intros H. unfold ranged. now rewrite H. Qed.
Lemma simultaneous_left cfg p D0 l0 h0 l h nld gsf : left_over gsf l0 l false (m_fit l0) -> left_over gsf h0 h true (m_fit l0) ->
  simultaneous cfg p D0 l h nld gsf = simultaneous cfg p D0 l0 h0 nld gsf.
Proof.
  intros (l1 & RL & LL) (h1 & RH & LH). unfold simultaneous.
  destruct (guess4 cfg (fit_vector nld)) as [[args q]|e]; cbn [rbind fst snd]; [|reflexivity]. destruct (gpars_set p) as [[]|e]; cbn [rbind]; [|reflexivity].
  set (gf := fit_vector gsf). set (t := transform gf 1 (p_alpha q)).
  assert (SG : same (to_MeV gsf) gf) by (unfold gf, fit_vector; destruct (v_std (to_MeV gsf)); split; reflexivity).
  assert (ST : same (to_MeV gsf) t) by (apply same_tr, SG).
  destruct (ranged_again _ _ _ _ _ _ RL LL) as (l2 & RL2 & LL2). destruct (ranged_again _ _ _ _ _ _ RH LH) as (h2 & RH2 & LH2).
  rewrite !(ranged_E _ t (to_MeV gsf)) by (symmetry; apply ST). rewrite RL, RL2, RH, RH2. cbn [rbind].
  assert (F1 : m_fit l1 = m_fit l0) by (destruct (ranged_set _ _ _ _ RL) as (? & ? & ? & ? & ? & _); assumption). rewrite <- F1 in LL2, LH2.
  assert (X : forall v, same (to_MeV gsf) v -> extrapolations v l2 h2 = extrapolations v l1 h1).
  { intros v S. apply extrapolations_like; eapply like_same; eassumption. }
  rewrite (X t ST). destruct (extrapolations t l1 h1) as [c|e]; cbn [rbind]; [|reflexivity]. destruct (Gg _ _ _ _ _ _ _) as [g|e]; cbn [rbind]; [|reflexivity].
  match goal with |- rbind ?u _ = rbind ?u _ => destruct u as [[]|e]; cbn [rbind]; [|reflexivity] end.
  rewrite (consult_ext _ (likelihood cfg args p l1 h1 (fit_vector nld) gf)).
  2:{ intros x. unfold likelihood. destruct (lnl_nld args (p_4 x)); cbn [rbind]; [|reflexivity]. rewrite X; [reflexivity|]. now apply same_tr. }
  destruct (consult _ _) as [[x sm]|e]; cbn [rbind fst snd]; [|reflexivity]. rewrite X; [reflexivity|]. apply same_tr. split; reflexivity.
Qed.

(* The same call again gives the same result, although the normaliser it starts from has been
   used. *)
Theorem sim_repeat : forall a s s' r, clean s -> sim_compute a s = (s', Ok tt) -> s_res _ _ _ s' = Some r ->
  exists s'' r', sim_compute a s' = (s'', Ok tt) /\ s_res _ _ _ s'' = Some r' /\
    sr_pars _ r' = sr_pars _ r /\ sr_samples _ r' = sr_samples _ r /\ sr_nld _ r' = sr_nld _ r /\ sr_gsf _ r' = sr_gsf _ r /\
    (forall m, m = sr_low Sm \/ m = sr_high Sm -> m_scale (m r') = m_scale (m r) /\ m_shift (m r') = m_shift (m r) /\ m_after (m r') = m_after (m r)).
Proof.
  intros a s s' r CL H HR.
  assert (EF : forall A (arg own : option A), (exists v, self_if_none arg own = Ok v /\ effective arg own v) \/ self_if_none arg own = Raise ValueError).
  { intros A [x|] [y|]; cbn; [left; exists x|left; exists x|left; exists y|now right]; (split; [reflexivity|]); unfold effective; auto. }
  assert (P0 : exists nn gn gsf nld, effective (sa_nn _ _ a) (s_nn _ _ _ s) nn /\ effective (sa_gn _ _ a) (s_gn _ _ _ s) gn /\
    effective (sa_gsf _ _ a) (s_gsf _ _ _ s) gsf /\ effective (sa_nld _ _ a) (s_nld _ _ _ s) nld).
  { revert H. unfold sim_compute, SimStateModel.sim_compute.
    destruct (EF _ (sa_nn _ _ a) (s_nn _ _ _ s)) as [(nn & -> & E1)| ->]; [|discriminate].
    destruct (EF _ (sa_gn _ _ a) (s_gn _ _ _ s)) as [(gn & -> & E2)| ->]; [|discriminate].
    destruct (EF _ (sa_gsf _ _ a) (s_gsf _ _ _ s)) as [(gsf & -> & E3)| ->]; [|discriminate].
    destruct (EF _ (sa_nld _ _ a) (s_nld _ _ _ s)) as [(nld & -> & E4)| ->]; [|discriminate]. intros _. eauto 10. }
  destruct P0 as (nn & gn & gsf & nld & E1 & E2 & E3 & E4).
  pose proof (sim_main a s nn gn gsf nld (clean_fit _ _ _ CL) E1 E2 E3 E4) as M.
  destruct (simultaneous (nn_cfg _ nn) (q_pars _ gn) (fst (q_D0 _ gn)) (q_low _ gn) (q_high _ gn) nld gsf) as [an|e] eqn:ES; [|rewrite H in M; discriminate M].
  destruct M as (s1 & r1 & g' & M1 & M2 & M3 & M4 & M5 & M6 & M7 & M8 & M9 & M10 & M11 & M12 & M13 & LL & LH & (nn' & N1 & N2) & M14 & M15 & CL').
  rewrite H in M1. injection M1 as <-. rewrite HR in M2. injection M2 as <-.
  assert (E3' : effective (sa_gsf _ _ a) (s_gsf _ _ _ s') gsf) by (rewrite M15; exact E3).
  assert (E4' : effective (sa_nld _ _ a) (s_nld _ _ _ s') nld) by (rewrite M14; exact E4).
  assert (Q : exists nn2 gn2, effective (sa_nn _ _ a) (s_nn _ _ _ s') nn2 /\ effective (sa_gn _ _ a) (s_gn _ _ _ s') gn2 /\
    simultaneous (nn_cfg _ nn2) (q_pars _ gn2) (fst (q_D0 _ gn2)) (q_low _ gn2) (q_high _ gn2) nld gsf = Ok an).
  { assert (Q1 : exists nn2, effective (sa_nn _ _ a) (s_nn _ _ _ s') nn2 /\ nn_cfg _ nn2 = nn_cfg _ nn).
    { destruct E1 as [E1|[E1 _]]; [exists nn; split; [now left|reflexivity]|exists nn'; split; [right; split; assumption|assumption]]. }
    destruct Q1 as (nn2 & Q1 & Q2). exists nn2. rewrite Q2. destruct E2 as [E2|[E2 _]].
    - exists gn. split; [assumption|]. split; [now left|]. exact ES.
    - exists g'. split; [assumption|]. split; [right; split; assumption|]. rewrite M12, M13, <- ES. now apply simultaneous_left. }
  destruct Q as (nn2 & gn2 & Q1 & Q2 & Q3).
  pose proof (sim_main a s' nn2 gn2 gsf nld (clean_fit _ _ _ CL') Q1 Q2 E3' E4') as W. rewrite Q3 in W.
  destruct W as (s2 & r2 & g2 & W1 & W2 & W3 & W4 & W5 & W6 & W7 & W8 & W9 & W10 & _).
  exists s2, r2. split; [exact W1|]. split; [exact W2|]. split; [congruence|]. split; [congruence|]. split; [congruence|]. split; [congruence|].
  rewrite <- M7 in W7. rewrite <- M8 in W8. injection W7 as W7a W7b. injection W8 as W8a W8b. intros m [-> | ->]; repeat split; congruence.
Qed.

(* Whatever happens, the level density and the strength function of the object stay as they are. *)
Theorem sim_inputs_kept : forall a s, s_nld _ _ _ (fst (sim_compute a s)) = s_nld _ _ _ s /\ s_gsf _ _ _ (fst (sim_compute a s)) = s_gsf _ _ _ s.
Proof.
  intros a s. unfold sim_compute, SimStateModel.sim_compute.
  repeat match goal with |- context [match self_if_none ?x ?y with _ => _ end] => destruct (self_if_none x y); [|split; reflexivity] end.
  match goal with |- context [SimStateModel.guess_and_run C Ar P G V Sm ?a1 ?a2 ?a3 ?a4 ?a5 ?a6 ?a7 ?a8 ?a9 ?b1 ?b2 ?b3 ?b4 ?b5 ?b6 ?b7] => destruct (SimStateModel.guess_and_run C Ar P G V Sm a1 a2 a3 a4 a5 a6 a7 a8 a9 b1 b2 b3 b4 b5 b6 b7) as [g [[x sm]|e]] end; [|split; reflexivity].
  repeat match goal with |- context [match ?x with _ => _ end] => match x with autorange _ _ _ => destruct x as [? [[]|]] | SimStateModel.extrapolate _ _ _ _ _ => destruct x as [[? ?] [[? ?]|]] end end; split; reflexivity.
Qed.
(* Something missing: ValueError. *)
Theorem sim_refuses : forall a s,
  (sa_nn _ _ a = None /\ s_nn _ _ _ s = None) \/ (sa_gn _ _ a = None /\ s_gn _ _ _ s = None) \/
  (sa_gsf _ _ a = None /\ s_gsf _ _ _ s = None) \/ (sa_nld _ _ a = None /\ s_nld _ _ _ s = None) ->
  snd (sim_compute a s) = Raise ValueError.
Proof.
  intros a s H. unfold sim_compute, SimStateModel.sim_compute.
  assert (D : forall A (arg own : option A), self_if_none arg own = Raise ValueError \/ exists x, self_if_none arg own = Ok x /\ ~ (arg = None /\ own = None)).
  { intros A [x|] [y|]; cbn; [right; exists x|right; exists x|right; exists y|now left]; (split; [reflexivity|intros [? ?]; discriminate]). }
  destruct (D _ (sa_nn _ _ a) (s_nn _ _ _ s)) as [->|(nn & -> & N1)]; [reflexivity|].
  destruct (D _ (sa_gn _ _ a) (s_gn _ _ _ s)) as [->|(gn & -> & N2)]; [reflexivity|].
  destruct (D _ (sa_gsf _ _ a) (s_gsf _ _ _ s)) as [->|(gsf & -> & N3)]; [reflexivity|].
  destruct (D _ (sa_nld _ _ a) (s_nld _ _ _ s)) as [->|(nld & -> & N4)]; [reflexivity|]. tauto.
Qed.
End Props.
Print Assumptions sim_no_memory.
Print Assumptions sim_order_free.
Print Assumptions sim_stateless.
Print Assumptions sim_repeat.
Print Assumptions sim_inputs_kept.
Print Assumptions sim_refuses.

(* ------------------------------------------------ a call that fails *)
(* A small instance: the guess of A is the first standard deviation, Gg is D0 times the sum of the
   strength function, the likelihood is its distance from 100, the extrapolations are fixed. *)
Module ToySim.
  Definition transform (v : vec) (A al : Qc) : vec :=
    mkVec (v_E v) (map (fun x => x * A) (v_val v)) (option_map (map (fun x => x * A)) (v_std v)) (v_MeV v).
  Definition guess4 (_ : unit) (v : vec) : result (unit * par4) :=
    match v_std v with Some (x :: _) => Ok (tt, mkP4 x 0 1 0) | _ => Raise ValueError end.
  Definition lnl (_ : unit) (_ : par4) : result Qc := Ok 0.
  Definition D0_of (_ : unit) (T _ : Qc) : Qc := T * qz 7.
  Definition Gg (_ : unit) (D0 : Qc) (v _ _ _ : vec) (_ : Qc * Qc) : result Qc := Ok (D0 * qsum (v_val v)).
  Definition flat (_ : bool) (_ _ : option Qc) (_ _ : Qc) : result vec := Ok (mkVec [] [] None true).
  Definition no_fit (_ : bool) (_ : points) : result (Qc * Qc) := Raise RuntimeError.
  (* asks once and answers with the guess, or is interrupted *)
  Definition good (g : par5) : sampler Qc unit := Ask _ _ g (fun _ => Stop _ _ (Ok (g, tt))).
  Definition bad (g : par5) : sampler Qc unit := Ask _ _ g (fun _ => Stop _ _ (Raise RuntimeError)).
  Definition call (sample : par5 -> sampler Qc unit) :=
    sim_compute unit unit unit Qc Qc unit guess4 lnl D0_of (fun _ g => - ((g - qz 100) * (g - qz 100))) Qcplus (fun _ g => qz 100 / g)
      Gg (fun _ => Ok tt) no_fit flat (fun x => x) transform sample.
  Definition m : mdl := mkMdl false None None efit_new 1 (qz 25) None.
  Definition gn : gnorm unit := mkGN unit tt (qz 5, Some 1) m m None None None None None None.
  Definition nn : nnorm unit := mkNN unit tt None.
  Definition start : sst unit unit unit := mkS _ _ _ (Some nn) (Some gn) None None None None None.
  Definition bare : vec := mkVec [1; qz 2] [qz 10; qz 20] None true.
  Definition exact : vec := mkVec [1; qz 2] [qz 10; qz 20] (Some [1; 1]) true.
  Definition give (v : vec) : sargs unit unit := mkSA _ _ (Some v) (Some v) None None.
  Definition AB (o : sst unit unit unit * result unit) : option (Qc * Qc) :=
    option_map (fun r => (p_A (p_4 (sr_pars _ r)), p_B (sr_pars _ r))) (s_res _ _ _ (fst o)).
End ToySim.
Lemma some_pair (a b c d : Qc) : (this a == this c)%Q -> (this b == this d)%Q -> Some (a, b) = Some (c, d).
Proof. intros H K. now rewrite (Qc_is_canon _ _ H), (Qc_is_canon _ _ K). Qed.
(* After an interrupted call with vectors without standard deviation, a call with standard
   deviations replaces them by 30 % of the values and starts from another D0: another result than
   without the interrupted call. *)
Theorem sim_interrupted_refuted : exists a1 a2 s,
  clean _ _ _ s /\ snd (ToySim.call ToySim.bad a1 s) = Raise RuntimeError /\
  let s1 := fst (ToySim.call ToySim.bad a1 s) in
  s_fake_nld _ _ _ s1 = Some true /\ s_fake_gsf _ _ _ s1 = Some true /\ option_map (q_D0 _) (s_gn _ _ _ s1) = Some (qz 7, None) /\
  snd (ToySim.call ToySim.good a2 s) = Ok tt /\ snd (ToySim.call ToySim.good a2 s1) = Ok tt /\
  ToySim.AB (ToySim.call ToySim.good a2 s) = Some (1, qz 100 / (qz 5 * qz 30)) /\
  ToySim.AB (ToySim.call ToySim.good a2 s1) = Some (qz 3, qz 100 / (qz 7 * qz 30)).
Proof.
  exists (ToySim.give ToySim.bare), (ToySim.give ToySim.exact), ToySim.start.
  split; [split; discriminate|]. cbn zeta. repeat match goal with |- _ /\ _ => split end; try reflexivity; vm_compute; apply some_pair; reflexivity.
Qed.
Print Assumptions sim_interrupted_refuted.
(* the damage to D0 stays also when the vectors are given anew without standard deviation *)
Theorem sim_interrupted_D0_refuted : exists a s,
  clean _ _ _ s /\ snd (ToySim.call ToySim.bad a s) = Raise RuntimeError /\
  ToySim.AB (ToySim.call ToySim.good a s) <> ToySim.AB (ToySim.call ToySim.good a (fst (ToySim.call ToySim.bad a s))).
Proof.
  exists (ToySim.give ToySim.bare), ToySim.start. split; [split; discriminate|]. split; [reflexivity|]. intros H. apply (f_equal (option_map snd)) in H. vm_compute in H. discriminate H.
Qed.
Print Assumptions sim_interrupted_D0_refuted.
(* the hypotheses of sim_stateless and sim_repeat: a call that succeeds, twice *)
Example toy_repeat : let s1 := fst (ToySim.call ToySim.good (ToySim.give ToySim.bare) ToySim.start) in
  snd (ToySim.call ToySim.good (ToySim.give ToySim.bare) ToySim.start) = Ok tt /\
  snd (ToySim.call ToySim.good (ToySim.give ToySim.bare) s1) = Ok tt /\
  ToySim.AB (ToySim.call ToySim.good (ToySim.give ToySim.bare) s1) = ToySim.AB (ToySim.call ToySim.good (ToySim.give ToySim.bare) ToySim.start) /\
  ToySim.AB (ToySim.call ToySim.good (ToySim.give ToySim.bare) s1) = Some (qz 3, qz 100 / (qz 5 * qz 30)).
Proof. cbn zeta. repeat match goal with |- _ /\ _ => split end; try reflexivity; vm_compute; apply some_pair; reflexivity. Qed.
