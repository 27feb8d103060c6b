(* C123: what the pictures of an ensemble of normalised samples show. *)
From Coq Require Import String Permutation Lia.
From Verif Require Import Num PyBase CutSpec RebinModel MatrixModel SampStatModel SampStatSpec SampStatProps FitWinModel EnsPlotModel.
Local Notation length := List.length (only parsing).
Import ListNotations.
Local Open Scope Qc_scope.

(* ------------------------------------------------------------------ specification *)
(* a choice without replacement: n different positions among N *)
Definition choice_ok (choice : Z -> nat -> nat -> list nat) : Prop :=
  forall s N n, (n <= N)%nat -> length (choice s N n) = n /\ NoDup (choice s N n) /\ Forall (fun k => (k < N)%nat) (choice s N n).
(* the vectors drawn in a panel, with marker and opacity, in the order of drawing *)
Definition data_lines (p : panel) : list (svec * nat * Qc) :=
  flat_map (fun l => match ln_kind l with KData v => [(v, ln_marker l, ln_alpha l)] | _ => [] end) (pn_lines p).
(* the parameters of the extrapolations drawn in a panel *)
Definition curves (p : panel) : list (bool * (Qc * Qc)) :=
  flat_map (fun l => match ln_kind l with KGsfModel h a b _ => [(h, (a, b))] | _ => [] end) (pn_lines p).
Definition nld_curves (p : panel) : list (Qc * Qc) :=
  flat_map (fun l => match ln_kind l with KNldModel T E _ => [(T, E)] | _ => [] end) (pn_lines p).
(* the i-th of n vectors: its marker and opacity *)
Fixpoint numbered (n i : nat) (l : list svec) : list (svec * nat * Qc) :=
  match l with [] => [] | v :: r => (v, Nat.modulo i 16, 1 / qnat n) :: numbered n (S i) r end.
Definition picked (samples : list sample) (ks : list nat) (sel : list sample) : Prop :=
  Forall2 (fun k s => nth_error samples k = Some s) ks sel.

(* ------------------------------------------------------------------ lemmas *)
Lemma relabel_frame s l p : (3 <= length l)%nat -> relabel_last3 s (add_lines l p) =
  mkPanel (pn_lines p ++ pn_lines (relabel_last3 s (add_lines l new_panel))) (pn_named p).
Proof.
  intros H. unfold relabel_last3, add_lines, new_panel. cbn [pn_lines pn_named app].
  rewrite app_length. replace (length (pn_lines p) + length l - 3)%nat with (length (pn_lines p) + (length l - 3))%nat by lia.
  rewrite firstn_app_2, skipn_app, skipn_all2 by lia.
  replace (length (pn_lines p) + (length l - 3) - length (pn_lines p))%nat with (length l - 3)%nat by lia.
  rewrite app_nil_l, <- app_assoc. reflexivity.
Qed.
Lemma relabel_name s t p : relabel_last3 s (add_name t p) = add_name t (relabel_last3 s p).
Proof. reflexivity. Qed.
Lemma add_lines_app a b p : add_lines b (add_lines a p) = add_lines (a ++ b) p.
Proof. unfold add_lines. cbn. now rewrite app_assoc. Qed.
Lemma add_lines_name a t p : add_lines a (add_name t p) = add_name t (add_lines a p).
Proof. reflexivity. Qed.
Definition join (p q : panel) : panel := mkPanel (pn_lines p ++ pn_lines q) (pn_named p ++ pn_named q).
Lemma nld_plot_frame caps lim lab fr v T E m a p :
  nld_plot caps lim lab fr v T E m a p = rmap (join p) (nld_plot caps lim lab fr v T E m a new_panel).
Proof.
  unfold nld_plot. destruct (length (s_E v) <? 2)%nat; [reflexivity|].
  unfold vec_plot, errorbar. cbn [rmap].
  destruct (s_std v), caps, fr; rewrite ?add_lines_name, ?relabel_name, ?add_lines_app; cbn [app];
    rewrite relabel_frame by (cbn; lia); unfold join, add_name, add_lines, new_panel; cbn [pn_lines pn_named];
    rewrite <- ?app_assoc; reflexivity.
Qed.
Lemma gsf_plot_frame caps Sn lab fr v lo hi m a p :
  gsf_plot caps Sn lab fr v lo hi m a p = rmap (join p) (gsf_plot caps Sn lab fr v lo hi m a new_panel).
Proof.
  unfold gsf_plot. destruct (g_Emin lo), (ef_high (g_efit lo)), (ef_low (g_efit hi)); try reflexivity.
  unfold vec_plot, errorbar. destruct fr.
  - destruct (ef_low (g_efit lo)), (ef_high (g_efit hi)); try reflexivity.
    destruct (s_std v), caps; cbn [rmap]; unfold join, add_name, add_lines, new_panel; cbn [pn_lines pn_named]; rewrite <- ?app_assoc; reflexivity.
  - destruct (s_std v), caps; cbn [rmap]; unfold join, add_name, add_lines, new_panel; cbn [pn_lines pn_named]; rewrite <- ?app_assoc; rewrite ?app_nil_r; reflexivity.
Qed.
Lemma data_join p q : data_lines (join p q) = data_lines p ++ data_lines q.
Proof. apply flat_map_app. Qed.
Lemma curves_join p q : curves (join p q) = curves p ++ curves q.
Proof. apply flat_map_app. Qed.
Lemma nld_curves_join p q : nld_curves (join p q) = nld_curves p ++ nld_curves q.
Proof. apply flat_map_app. Qed.
Lemma nld_plot_new caps lim lab fr v T E m a q : nld_plot caps lim lab fr v T E m a new_panel = Ok q ->
  data_lines q = [(v, m, a)] /\ nld_curves q = [(T, E)].
Proof.
  unfold nld_plot. destruct (length (s_E v) <? 2)%nat; [discriminate|]. unfold vec_plot, errorbar.
  destruct (s_std v), caps, fr; intros [= <-]; split; reflexivity.
Qed.
Lemma gsf_plot_new caps Sn lab fr v lo hi m a q : gsf_plot caps Sn lab fr v lo hi m a new_panel = Ok q ->
  data_lines q = [(v, m, a)] /\ curves q = [(false, (g_scale lo, g_shift lo)); (true, (g_scale hi, g_shift hi))].
Proof.
  unfold gsf_plot. destruct (g_Emin lo), (ef_high (g_efit lo)), (ef_low (g_efit hi)); try discriminate.
  unfold vec_plot, errorbar. destruct fr.
  - destruct (ef_low (g_efit lo)), (ef_high (g_efit hi)); try discriminate.
    destruct (s_std v), caps; intros [= <-]; split; reflexivity.
  - destruct (s_std v), caps; intros [= <-]; split; reflexivity.
Qed.
Lemma rmap_ok {A B} (f : A -> B) r y : rmap f r = Ok y -> exists x, r = Ok x /\ y = f x.
Proof. destruct r; cbn; [intros [= <-]; eauto | discriminate]. Qed.

(* one drawn sample *)
Lemma draw_one_ok cf caps n i s ns p0 p1 ns' q0 q1 : draw_one cf caps n i s (ns, (p0, p1)) = (ns', Ok (q0, q1)) ->
  exists r0 r1 low high, fit_both cf (sm_gsf s) (ns_low ns) (ns_high ns) = (low, high, Ok tt) /\ ns' = set_models low high ns /\
    q0 = join p0 r0 /\ q1 = join p1 r1 /\ has_range low && has_range high = true /\
    nld_plot caps (ns_nld ns) (Nat.eqb i 0) (Nat.eqb i 0) (sm_nld s) (sm_T s) (sm_Eshift s) (Nat.modulo i 16) (1 / qnat n) new_panel = Ok r0 /\
    gsf_plot caps (ns_gsf_Sn ns) false (Nat.eqb i 0) (sm_gsf s) low high (Nat.modulo i 16) (1 / qnat n) new_panel = Ok r1.
Proof.
  unfold draw_one. destruct (fit_both cf (sm_gsf s) (ns_low ns) (ns_high ns)) as [[low high] [u|e]]; [|discriminate].
  destruct u. cbv zeta. intros H. apply pair_equal_spec in H. destruct H as [<- H]. destruct (has_range low && has_range high) eqn:Hr; [|discriminate].
  rewrite nld_plot_frame in H. cbn [ns_nld ns_gsf_Sn set_models] in H.
  destruct (nld_plot caps (ns_nld ns) (Nat.eqb i 0) (Nat.eqb i 0) (sm_nld s) (sm_T s) (sm_Eshift s) (Nat.modulo i 16) (1 / qnat n) new_panel) as [r0|] eqn:E0; [|discriminate].
  cbn [rmap rbind] in H. rewrite gsf_plot_frame in H.
  destruct (gsf_plot caps (ns_gsf_Sn ns) false (Nat.eqb i 0) (sm_gsf s) low high (Nat.modulo i 16) (1 / qnat n) new_panel) as [r1|] eqn:E1; [|discriminate].
  cbn [rmap rbind] in H. injection H as <- <-. exists r0, r1, low, high. repeat split; auto.
Qed.
Lemma draw_all_data cf caps n : forall sel i ns p0 p1 ns' q0 q1, draw_all cf caps n i sel (ns, (p0, p1)) = (ns', Ok (q0, q1)) ->
  data_lines q0 = data_lines p0 ++ numbered n i (map sm_nld sel) /\
  data_lines q1 = data_lines p1 ++ numbered n i (map sm_gsf sel) /\
  nld_curves q0 = nld_curves p0 ++ map (fun s => (sm_T s, sm_Eshift s)) sel.
Proof.
  induction sel as [|s sel IH]; intros i ns p0 p1 ns' q0 q1; cbn [draw_all map numbered].
  - intros [= <- <- <-]. rewrite !app_nil_r. auto.
  - destruct (draw_one cf caps n i s (ns, (p0, p1))) as [ns1 [[r0 r1]|e]] eqn:E; [|discriminate]. intros H.
    destruct (draw_one_ok _ _ _ _ _ _ _ _ _ _ _ E) as (a & b & lo & hi & _ & _ & -> & -> & _ & H0 & H1).
    destruct (nld_plot_new _ _ _ _ _ _ _ _ _ _ H0) as [D0 C0]. destruct (gsf_plot_new _ _ _ _ _ _ _ _ _ _ H1) as [D1 _].
    destruct (IH _ _ _ _ _ _ _ H) as (I0 & I1 & I2). rewrite I0, I1, I2, !data_join, nld_curves_join, D0, D1, C0, <- !app_assoc.
    auto.
Qed.
Lemma select_ok choice seed samples n sel : choice_ok choice -> select choice seed samples n = Ok sel ->
  (n <= length samples)%nat /\ picked samples (choice seed (length samples) n) sel /\ length sel = n.
Proof.
  intros C. unfold select. destruct (Nat.leb_spec n (length samples)) as [Hn|]; [|discriminate]. intros [= <-].
  destruct (C seed (length samples) n Hn) as (L & _ & F). split; [exact Hn|].
  assert (G : picked samples (choice seed (length samples) n)
     (flat_map (fun k => match nth_error samples k with Some s => [s] | None => [] end) (choice seed (length samples) n)) /\
     length (flat_map (fun k => match nth_error samples k with Some s => [s] | None => [] end) (choice seed (length samples) n)) = length (choice seed (length samples) n)).
  { clear L. induction F as [|k ks Hk F IH]; [split; [constructor|reflexivity]|]. cbn [flat_map].
    destruct (nth_error samples k) as [s|] eqn:E; [|apply nth_error_None in E; lia].
    destruct IH as [I1 I2]. cbn [app]. split; [constructor; auto | cbn; now rewrite I2]. }
  rewrite L in G. exact G.
Qed.
Lemma numbered_at n l : forall i j v, nth_error l j = Some v -> nth_error (numbered n i l) j = Some (v, Nat.modulo (i + j) 16, 1 / qnat n).
Proof.
  induction l as [|x l IH]; intros i j v; [destruct j; discriminate|]. destruct j; cbn [nth_error numbered].
  - intros [= ->]. now rewrite Nat.add_0_r.
  - intros H. rewrite (IH (S i) j v H). now rewrite Nat.add_succ_comm.
Qed.
Lemma numbered_length n l : forall i, length (numbered n i l) = length l.
Proof. induction l; intros i; cbn; auto. Qed.

(* ------------------------------------------------------------------ which samples are drawn *)
(* With n_plot > 0 the picture shows n_plot different samples of the table, each once in both
   panels and with its own model curve, the j-th with marker j mod 16 and opacity 1/n_plot. *)
Theorem selection_draws : forall cf choice caps seed samples n_plot ns p q ns', choice_ok choice -> (0 < n_plot)%Z ->
  plot_selection cf choice caps seed samples n_plot (ns, (new_panel, new_panel)) = (ns', Ok (p, q)) ->
  exists ks sel, NoDup ks /\ length ks = Z.to_nat n_plot /\ picked samples ks sel /\
    nld_curves p = map (fun s => (sm_T s, sm_Eshift s)) sel /\
    length (data_lines p) = Z.to_nat n_plot /\ length (data_lines q) = Z.to_nat n_plot /\
    forall j s, nth_error sel j = Some s ->
      nth_error (data_lines p) j = Some (sm_nld s, Nat.modulo j 16, 1 / qnat (Z.to_nat n_plot)) /\
      nth_error (data_lines q) j = Some (sm_gsf s, Nat.modulo j 16, 1 / qnat (Z.to_nat n_plot)).
Proof.
  intros cf choice caps seed samples n_plot ns p q ns' C Hn H. unfold plot_selection in H.
  set (sd := match seed with Some s => s | None => 98765%Z end) in H.
  assert (Nd : n_drawn n_plot = Z.to_nat n_plot) by (unfold n_drawn; destruct (Z.ltb_spec 0 n_plot); [reflexivity|lia]).
  rewrite Nd in H. destruct (select choice sd samples (Z.to_nat n_plot)) as [sel|e] eqn:Es; [|discriminate].
  destruct (select_ok _ _ _ _ _ C Es) as (Hl & Hp & Ls).
  destruct (draw_all cf caps (Z.to_nat n_plot) 0 sel (ns, (new_panel, new_panel))) as [ns1 [[p' q']|e]] eqn:Ed; [|discriminate].
  unfold drop_dummy in H. destruct (Z.eqb_spec n_plot 0); [lia|]. injection H as <- <- <-.
  destruct (draw_all_data _ _ _ _ _ _ _ _ _ _ _ Ed) as (D0 & D1 & C0). cbn [data_lines nld_curves new_panel pn_lines flat_map app] in D0, D1, C0.
  destruct (C sd (length samples) (Z.to_nat n_plot) Hl) as (Lk & Nk & _).
  exists (choice sd (length samples) (Z.to_nat n_plot)), sel. split; [exact Nk|]. split; [exact Lk|]. split; [exact Hp|]. split; [exact C0|].
  rewrite D0, D1, !numbered_length, !map_length. split; [exact Ls|]. split; [exact Ls|]. intros j s Hj.
  split; [apply (numbered_at _ _ 0 j) | apply (numbered_at _ _ 0 j)]; rewrite nth_error_map, Hj; reflexivity.
Qed.
Print Assumptions selection_draws.

(* more samples than there are cannot be drawn *)
Theorem selection_too_many : forall cf choice caps seed samples n_plot st, (Z.of_nat (length samples) < n_plot)%Z ->
  snd (plot_selection cf choice caps seed samples n_plot st) = Raise ValueError.
Proof.
  intros cf choice caps seed samples n_plot st H. unfold plot_selection, select, n_drawn.
  destruct (Z.ltb_spec 0 n_plot); [|lia]. destruct (Nat.leb_spec (Z.to_nat n_plot) (length samples)); [lia|]. reflexivity.
Qed.
Print Assumptions selection_too_many.

(* ------------------------------------------------------------------ the extrapolations drawn *)
Lemma auto_keeps high v f f' r : autofitrange high v f = (f', r) ->
  (forall a, ef_low f = Some a -> ef_low f' = Some a) /\ (forall b, ef_high f = Some b -> ef_high f' = Some b) /\ ef_list f' = ef_list f.
Proof.
  unfold autofitrange, auto_one. intros H.
  destruct f as [l a b]; cbn in H.
  destruct a as [a|], b as [b|];
    repeat match type of H with context [if ?c then _ else _] => destruct c end; injection H as <- <-; cbn; repeat split; intros ? [= ->]; reflexivity.
Qed.
Lemma fit_model_ok cf high v m m' w : fit_model cf high v m = (m', Ok w) ->
  exists a b, ef_low (g_efit m') = Some a /\ ef_high (g_efit m') = Some b /\ w = window v a b /\ curve_fit_refuses w = None /\
    (g_scale m', g_shift m') = cf high (window v a b) /\
    (forall x, ef_low (g_efit m) = Some x -> x = a) /\ (forall x, ef_high (g_efit m) = Some x -> x = b) /\ g_fit m' = g_fit m.
Proof.
  unfold fit_model. destruct (autofitrange high (mkGV (s_E v) [] None true) (g_efit m)) as [f [u|e]] eqn:E; [|discriminate].
  destruct (auto_keeps _ _ _ _ _ E) as (K1 & K2 & _).
  destruct (ef_low f) as [a|] eqn:Ea; [|discriminate]. destruct (ef_high f) as [b|] eqn:Eb; [|discriminate].
  destruct (qltb a b); [|discriminate]. destruct (curve_fit_refuses (window v a b)) eqn:Ec; [discriminate|].
  intros [= <- <-]. exists a, b. cbn. rewrite Ea, Eb.
  split; [reflexivity|]. split; [reflexivity|]. split; [reflexivity|]. split; [exact Ec|].
  split; [now destruct (cf high (window v a b))|]. split; [intros x Hx; apply K1 in Hx; congruence|].
  split; [intros x Hx; apply K2 in Hx; congruence|]. reflexivity.
Qed.
(* the parameters of the fits of one sample in the windows of two models *)
Definition own_curves (cf : bool -> fpoints -> Qc * Qc) (low high : gmod) (s : sample) : list (bool * (Qc * Qc)) :=
  match ef_low (g_efit low), ef_high (g_efit low), ef_low (g_efit high), ef_high (g_efit high) with
  | Some a, Some b, Some c, Some d => [(false, cf false (window (sm_gsf s) a b)); (true, cf true (window (sm_gsf s) c d))]
  | _, _, _, _ => []
  end.
Definition keeps_efit (m m' : gmod) : Prop :=
  (forall x, ef_low (g_efit m) = Some x -> ef_low (g_efit m') = Some x) /\ (forall x, ef_high (g_efit m) = Some x -> ef_high (g_efit m') = Some x).
Lemma draw_all_curves cf caps n : forall sel i ns p0 p1 ns' q0 q1, g_fit (ns_low ns) = true ->
  draw_all cf caps n i sel (ns, (p0, p1)) = (ns', Ok (q0, q1)) ->
  curves q1 = curves p1 ++ flat_map (own_curves cf (ns_low ns') (ns_high ns')) sel /\
  keeps_efit (ns_low ns) (ns_low ns') /\ keeps_efit (ns_high ns) (ns_high ns').
Proof.
  induction sel as [|s sel IH]; intros i ns p0 p1 ns' q0 q1 Hf; cbn [draw_all flat_map].
  - intros [= <- <- <-]. rewrite app_nil_r. unfold keeps_efit. auto.
  - destruct (draw_one cf caps n i s (ns, (p0, p1))) as [ns1 [[r0 r1]|e]] eqn:E; [|discriminate]. intros H.
    destruct (draw_one_ok _ _ _ _ _ _ _ _ _ _ _ E) as (a & b & lo & hi & Ff & -> & -> & -> & _ & H0 & H1).
    destruct (gsf_plot_new _ _ _ _ _ _ _ _ _ _ H1) as [_ Cq].
    unfold fit_both in Ff. rewrite Hf in Ff.
    destruct (fit_model cf false (sm_gsf s) (ns_low ns)) as [lo1 [wl|]] eqn:El; [|discriminate].
    destruct (fit_model cf true (sm_gsf s) (ns_high ns)) as [hi1 [wh|]] eqn:Eh; [|discriminate].
    injection Ff as -> ->.
    destruct (fit_model_ok _ _ _ _ _ _ El) as (la & lb & La & Lb & _ & _ & Lp & Lx & Ly & Lf).
    destruct (fit_model_ok _ _ _ _ _ _ Eh) as (ha & hb & Ha & Hb & _ & _ & Hp & Hx & Hy & Hg).
    destruct (IH (S i) (set_models lo hi ns) _ _ ns' q0 q1 ltac:(cbn; congruence) H) as (I1 & [I2 I3] & [I4 I5]). cbn [ns_low ns_high set_models] in I2, I3, I4, I5.
    split; [|unfold keeps_efit; repeat split; intros x Hx'].
    + rewrite I1, curves_join, Cq, <- app_assoc. f_equal. f_equal. unfold own_curves at 1.
      rewrite (I2 _ La), (I3 _ Lb), (I4 _ Ha), (I5 _ Hb). now rewrite Lp, Hp.
    + rewrite <- (Lx _ Hx') in La. auto.
    + rewrite <- (Ly _ Hx') in Lb. auto.
    + rewrite <- (Hx _ Hx') in Ha. auto.
    + rewrite <- (Hy _ Hx') in Hb. auto.
Qed.
(* All extrapolations drawn are fits of their own sample in one pair of windows, that of the
   models after the call; a window that was set before is not changed. *)
Theorem drawn_extrapolations : forall cf choice caps seed samples n_plot ns p q ns', choice_ok choice -> (0 < n_plot)%Z ->
  g_fit (ns_low ns) = true ->
  plot_selection cf choice caps seed samples n_plot (ns, (new_panel, new_panel)) = (ns', Ok (p, q)) ->
  exists sel, data_lines q = numbered (Z.to_nat n_plot) 0 (map sm_gsf sel) /\
    curves q = flat_map (own_curves cf (ns_low ns') (ns_high ns')) sel /\
    length (curves q) = (2 * length sel)%nat /\
    keeps_efit (ns_low ns) (ns_low ns') /\ keeps_efit (ns_high ns) (ns_high ns').
Proof.
  intros cf choice caps seed samples n_plot ns p q ns' C Hn Hf H. unfold plot_selection in H.
  set (sd := match seed with Some s => s | None => 98765%Z end) in H.
  assert (Nd : n_drawn n_plot = Z.to_nat n_plot) by (unfold n_drawn; destruct (Z.ltb_spec 0 n_plot); [reflexivity|lia]).
  rewrite Nd in H. destruct (select choice sd samples (Z.to_nat n_plot)) as [sel|e] eqn:Es; [|discriminate].
  destruct (draw_all cf caps (Z.to_nat n_plot) 0 sel (ns, (new_panel, new_panel))) as [ns1 [[p' q']|e]] eqn:Ed; [|discriminate].
  unfold drop_dummy in H. destruct (Z.eqb_spec n_plot 0); [lia|]. injection H as <- <- <-.
  destruct (draw_all_data _ _ _ _ _ _ _ _ _ _ _ Ed) as (_ & D1 & _). destruct (draw_all_curves _ _ _ _ _ _ _ _ _ _ _ Hf Ed) as (K1 & K2 & K3).
  exists sel. split; [exact D1|]. split; [exact K1|]. split; [|split; [exact K2|exact K3]].
  rewrite K1. cbn [curves new_panel pn_lines flat_map app]. clear - Ed Hf.
  (* each drawn sample adds two curves *)
  assert (G : forall sel i ns p0 p1 q0 q1, draw_all cf caps (Z.to_nat n_plot) i sel (ns, (p0, p1)) = (ns1, Ok (q0, q1)) -> length (curves q1) = (length (curves p1) + 2 * length sel)%nat).
  { clear. induction sel as [|s sel IH]; intros i ns p0 p1 q0 q1; cbn [draw_all].
    - intros [= _ _ <-]. cbn. lia.
    - destruct (draw_one cf caps (Z.to_nat n_plot) i s (ns, (p0, p1))) as [ns2 [[r0 r1]|e]] eqn:E; [|discriminate]. intros H.
      destruct (draw_one_ok _ _ _ _ _ _ _ _ _ _ _ E) as (a & b & lo & hi & _ & _ & _ & -> & _ & _ & H1).
      destruct (gsf_plot_new _ _ _ _ _ _ _ _ _ _ H1) as [_ Cq]. rewrite (IH _ _ _ _ _ _ H), curves_join, app_length, Cq. cbn. lia. }
  pose proof (G _ _ _ _ _ _ _ Ed) as Hc. destruct (draw_all_curves _ _ _ _ _ _ _ _ _ _ _ Hf Ed) as (K1 & _). rewrite K1 in Hc. exact Hc.
Qed.
Print Assumptions drawn_extrapolations.

(* A model whose parameters are fixed ('fix') never gets fit limits of its own; if none were set
   by hand, nothing can be drawn: TypeError. *)
Theorem fixed_model_not_drawn : forall cf choice caps seed samples n_plot ns st, choice_ok choice -> samples <> [] ->
  (n_plot <= Z.of_nat (length samples))%Z -> Forall (fun s => (2 <= length (s_E (sm_nld s)))%nat) samples ->
  g_fit (ns_low ns) = false -> has_range (ns_low ns) && has_range (ns_high ns) = true -> g_efit (ns_low ns) = efit_new ->
  snd (plot_selection cf choice caps seed samples n_plot (ns, st)) = Raise TypeError.
Proof.
  intros cf choice caps seed samples n_plot ns [p0 p1] C Hne Hn Hs Hf Hr He. unfold plot_selection.
  set (sd := match seed with Some s => s | None => 98765%Z end).
  assert (Hd : (1 <= n_drawn n_plot <= length samples)%nat).
  { unfold n_drawn. destruct (Z.ltb_spec 0 n_plot); [lia|]. destruct samples; [congruence|cbn; lia]. }
  destruct (select choice sd samples (n_drawn n_plot)) as [sel|e] eqn:Es;
    [|unfold select in Es; destruct (Nat.leb_spec (n_drawn n_plot) (length samples)); [discriminate|lia]].
  destruct (select_ok _ _ _ _ _ C Es) as (_ & Hp & Ls). destruct sel as [|s sel]; [cbn in Ls; lia|].
  cbn [draw_all]. unfold draw_one, fit_both. rewrite Hf, Hr.
  assert (L2 : (2 <= length (s_E (sm_nld s)))%nat).
  { inversion Hp as [|k x ks xs Hk _]; subst. apply nth_error_In in Hk. rewrite Forall_forall in Hs. auto. }
  rewrite nld_plot_frame. unfold nld_plot at 1. destruct (Nat.ltb_spec (length (s_E (sm_nld s))) 2); [lia|]. cbn [rmap rbind].
  unfold gsf_plot. rewrite He. cbn [efit_new ef_high]. destruct (g_Emin (ns_low ns)); reflexivity.
Qed.
Print Assumptions fixed_model_not_drawn.

(* ------------------------------------------------------------------ the legend *)
Lemma legend_join p q : Permutation (legend (join p q)) (legend p ++ legend q).
Proof.
  unfold legend, join. cbn [pn_lines pn_named]. rewrite map_app, !filter_app, <- !app_assoc.
  apply Permutation_app_head. rewrite !app_assoc. apply Permutation_app_tail. apply Permutation_app_comm.
Qed.
Definition full_legend (caps : bool) (std : option (list Qc)) : list string :=
  ((if caps then ["known levels"%string] else []) ++ (if caps then ["exp."%string] else match std with Some _ => ["exp."%string] | None => [] end) ++ ["rho(Sn)"; "model"; "fit limits"]%string)%list.
Lemma legend_first caps lim v T E m a q : nld_plot caps lim true true v T E m a new_panel = Ok q ->
  Permutation (legend q) (full_legend caps (s_std v)).
Proof.
  unfold nld_plot. destruct (length (s_E v) <? 2)%nat; [discriminate|]. unfold vec_plot, errorbar, full_legend.
  destruct (s_std v), caps; intros [= <-]; cbn;
    repeat match goal with
    | |- Permutation [] [] => apply perm_nil
    | |- Permutation (?x :: _) (?x :: _) => apply perm_skip
    | |- Permutation (?x :: ?l) (?a :: ?x :: ?r) => change (Permutation (x :: l) ([a] ++ x :: r)); apply Permutation_cons_app; cbn [app]
    | |- Permutation (?x :: ?l) (?a :: ?b :: ?x :: ?r) => change (Permutation (x :: l) ([a; b] ++ x :: r)); apply Permutation_cons_app; cbn [app]
    | |- Permutation (?x :: ?l) (?a :: ?b :: ?c :: ?x :: ?r) => change (Permutation (x :: l) ([a; b; c] ++ x :: r)); apply Permutation_cons_app; cbn [app]
    end.
Qed.
Lemma legend_later caps lim v T E m a q : nld_plot caps lim false false v T E m a new_panel = Ok q -> legend q = [].
Proof.
  unfold nld_plot. destruct (length (s_E v) <? 2)%nat; [discriminate|]. unfold vec_plot, errorbar.
  destruct (s_std v), caps; intros [= <-]; reflexivity.
Qed.
Lemma draw_all_legend cf caps n : forall sel i ns p0 p1 ns' q0 q1, (0 < i)%nat ->
  draw_all cf caps n i sel (ns, (p0, p1)) = (ns', Ok (q0, q1)) -> Permutation (legend q0) (legend p0).
Proof.
  induction sel as [|s sel IH]; intros i ns p0 p1 ns' q0 q1 Hi; cbn [draw_all].
  - intros [= <- <- <-]. reflexivity.
  - destruct (draw_one cf caps n i s (ns, (p0, p1))) as [ns1 [[r0 r1]|e]] eqn:E; [|discriminate]. intros H.
    destruct (draw_one_ok _ _ _ _ _ _ _ _ _ _ _ E) as (a & b & lo & hi & _ & _ & -> & -> & _ & H0 & _).
    destruct (Nat.eqb_spec i 0); [lia|]. rewrite (IH _ _ _ _ _ _ _ (Nat.lt_0_succ _) H), legend_join, (legend_later _ _ _ _ _ _ _ _ H0), app_nil_r.
    reflexivity.
Qed.
(* the first sample drawn *)
Definition first_drawn (p : panel) (v : svec) : Prop := exists m a r, data_lines p = (v, m, a) :: r.
Lemma plot_legend_any cf choice caps seed samples n_plot ns p q ns' v : choice_ok choice -> (0 < n_plot)%Z ->
  plot_selection cf choice caps seed samples n_plot (ns, (new_panel, new_panel)) = (ns', Ok (p, q)) -> first_drawn p v ->
  Permutation (legend p) (full_legend caps (s_std v)).
Proof.
  intros C Hn H (m & a & r & Hv). unfold plot_selection in H.
  set (sd := match seed with Some s => s | None => 98765%Z end) in H.
  destruct (select choice sd samples (n_drawn n_plot)) as [sel|e] eqn:Es; [|discriminate].
  destruct (draw_all cf caps (n_drawn n_plot) 0 sel (ns, (new_panel, new_panel))) as [ns1 [[p' q']|e]] eqn:Ed; [|discriminate].
  unfold drop_dummy in H. destruct (Z.eqb_spec n_plot 0); [lia|]. injection H as <- <- <-.
  destruct (draw_all_data _ _ _ _ _ _ _ _ _ _ _ Ed) as (D0 & _ & _). rewrite Hv in D0.
  destruct sel as [|s sel]; [discriminate|]. cbn [map numbered data_lines new_panel pn_lines flat_map app] in D0. injection D0 as -> _ _ _.
  cbn [draw_all] in Ed. destruct (draw_one cf caps (n_drawn n_plot) 0 s (ns, (new_panel, new_panel))) as [ns2 [[r0 r1]|e]] eqn:E; [|discriminate].
  destruct (draw_one_ok _ _ _ _ _ _ _ _ _ _ _ E) as (x & y & lo & hi & _ & _ & -> & -> & _ & H0 & _).
  rewrite (draw_all_legend _ _ _ _ _ _ _ _ _ _ _ Nat.lt_0_1 Ed), legend_join. cbn [legend new_panel pn_lines pn_named map app filter].
  exact (legend_first _ _ _ _ _ _ _ _ H0).
Qed.
(* If error bars have caps, the legend of the level density names every kind of item once,
   however many samples are drawn. *)
Theorem plot_legend : forall cf choice seed samples n_plot ns p q ns', choice_ok choice -> (0 < n_plot)%Z ->
  plot_selection cf choice true seed samples n_plot (ns, (new_panel, new_panel)) = (ns', Ok (p, q)) ->
  Permutation (legend p) ["exp."; "known levels"; "rho(Sn)"; "model"; "fit limits"]%string.
Proof.
  intros cf choice seed samples n_plot ns p q ns' C Hn H.
  destruct (selection_draws _ _ _ _ _ _ _ _ _ _ C Hn H) as (ks & sel & _ & Lk & Hp & _ & Ld & _ & Hj).
  destruct (data_lines p) as [|[[v m] a] r] eqn:Ed; [cbn in Ld; lia|].
  rewrite (plot_legend_any _ _ _ _ _ _ _ _ _ _ v C Hn H); [|exists m, a, r; exact Ed]. cbn. apply perm_swap.
Qed.
Print Assumptions plot_legend.
(* With matplotlib's default (no caps) the three lines renamed by NormalizerNLD.plot are the data,
   the known levels and rho(Sn): the known levels are never in the legend, the data only if they
   have uncertainties. *)
Theorem plot_legend_refuted : forall cf choice seed samples n_plot ns p q ns' v, choice_ok choice -> (0 < n_plot)%Z ->
  plot_selection cf choice false seed samples n_plot (ns, (new_panel, new_panel)) = (ns', Ok (p, q)) -> first_drawn p v ->
  ~ In "known levels"%string (legend p) /\ (In "exp."%string (legend p) <-> s_std v <> None).
Proof.
  intros cf choice seed samples n_plot ns p q ns' v C Hn H Hv. pose proof (plot_legend_any _ _ _ _ _ _ _ _ _ _ v C Hn H Hv) as P.
  assert (I : forall s, In s (legend p) <-> In s (full_legend false (s_std v))) by (intros s; split; [|symmetry in P]; apply Permutation_in; exact P).
  rewrite !I. unfold full_legend. destruct (s_std v); cbn; split; try split; try intros ?; try congruence; intuition (try discriminate; auto).
Qed.
Print Assumptions plot_legend_refuted.

(* ------------------------------------------------------------------ n_plot = 0 and below *)
Lemma draw_single cf choice caps seed samples n_plot ns p q ns' : choice_ok choice -> (n_plot <= 0)%Z ->
  plot_selection cf choice caps seed samples n_plot (ns, (new_panel, new_panel)) = (ns', Ok (p, q)) ->
  exists s r0 r1, In s samples /\ data_lines r1 = [(sm_gsf s, 0%nat, 1 / qnat 1)] /\ (p, q) = drop_dummy n_plot (r0, r1) /\
    nld_plot caps (ns_nld ns) true true (sm_nld s) (sm_T s) (sm_Eshift s) 0 (1 / qnat 1) new_panel = Ok r0.
Proof.
  intros C Hn H. unfold plot_selection in H.
  set (sd := match seed with Some s => s | None => 98765%Z end) in H.
  assert (Nd : n_drawn n_plot = 1%nat) by (unfold n_drawn; destruct (Z.ltb_spec 0 n_plot); [lia|reflexivity]). rewrite Nd in H.
  destruct (select choice sd samples 1) as [sel|e] eqn:Es; [|discriminate]. destruct (select_ok _ _ _ _ _ C Es) as (_ & Hp & Ls).
  destruct sel as [|s [|? ?]]; try discriminate. cbn [draw_all] in H.
  destruct (draw_one cf caps 1 0 s (ns, (new_panel, new_panel))) as [ns2 [[r0 r1]|e]] eqn:E; [|discriminate].
  destruct (draw_one_ok _ _ _ _ _ _ _ _ _ _ _ E) as (x & y & lo & hi & _ & _ & -> & -> & _ & H0 & H1).
  assert (J : forall z, join new_panel z = z) by (intros [? ?]; reflexivity). rewrite !J in H. cbn [snd fst] in H.
  apply pair_equal_spec in H. destruct H as [_ H]. injection H as H.
  exists s, x, y. split; [inversion Hp as [|k z ks zs Hk _]; subst; exact (nth_error_In _ _ Hk)|].
  split; [exact (proj1 (gsf_plot_new _ _ _ _ _ _ _ _ _ _ H1))|]. split; [symmetry; exact H|]. exact H0.
Qed.
Definition sample_line (l : line) : Prop := match ln_kind l with KKnown | KSn | KSnCap => False | _ => True end.
(* n_plot = 0, error bars with caps: only the known levels and rho(Sn) remain *)
Theorem plot_no_samples : forall cf choice seed samples ns p q ns', choice_ok choice ->
  plot_selection cf choice true seed samples 0 (ns, (new_panel, new_panel)) = (ns', Ok (p, q)) ->
  map ln_kind (pn_lines p) = [KKnown; KSn; KSnCap; KSnCap] /\ pn_lines q = [].
Proof.
  intros cf choice seed samples ns p q ns' C H. destruct (draw_single _ _ _ _ _ _ _ _ _ _ C (Z.le_refl 0) H) as (s & r0 & r1 & _ & _ & E & H0).
  unfold drop_dummy in E. cbn [Z.eqb] in E. injection E as -> ->. split; [|reflexivity].
  unfold nld_plot in H0. destruct (length (s_E (sm_nld s)) <? 2)%nat; [discriminate|]. unfold vec_plot, errorbar in H0.
  destruct (s_std (sm_nld s)); injection H0 as <-; reflexivity.
Qed.
Print Assumptions plot_no_samples.
(* without caps (the default) the line of the dummy sample stays *)
Theorem plot_no_samples_refuted : forall cf choice seed samples ns p q ns', choice_ok choice ->
  plot_selection cf choice false seed samples 0 (ns, (new_panel, new_panel)) = (ns', Ok (p, q)) ->
  exists s, In s samples /\ map ln_kind (pn_lines p) = [KData (sm_nld s); KKnown; KSn].
Proof.
  intros cf choice seed samples ns p q ns' C H. destruct (draw_single _ _ _ _ _ _ _ _ _ _ C (Z.le_refl 0) H) as (s & r0 & r1 & Hs & _ & E & H0).
  unfold drop_dummy in E. cbn [Z.eqb] in E. injection E as -> ->. exists s. split; [exact Hs|].
  unfold nld_plot in H0. destruct (length (s_E (sm_nld s)) <? 2)%nat; [discriminate|]. unfold vec_plot, errorbar in H0.
  destruct (s_std (sm_nld s)); injection H0 as <-; reflexivity.
Qed.
Print Assumptions plot_no_samples_refuted.
(* a negative number draws one sample *)
Theorem plot_negative : forall cf choice caps seed samples n_plot ns p q ns', choice_ok choice -> (n_plot < 0)%Z ->
  plot_selection cf choice caps seed samples n_plot (ns, (new_panel, new_panel)) = (ns', Ok (p, q)) ->
  exists s, In s samples /\ data_lines p = [(sm_nld s, 0%nat, 1)] /\ data_lines q = [(sm_gsf s, 0%nat, 1)].
Proof.
  intros cf choice caps seed samples n_plot ns p q ns' C Hn H.
  destruct (draw_single _ _ _ _ _ _ _ _ _ _ C (Z.lt_le_incl _ _ Hn) H) as (s & r0 & r1 & Hs & D1 & E & H0).
  unfold drop_dummy in E. destruct (Z.eqb_spec n_plot 0); [lia|]. injection E as -> ->. exists s.
  assert (O : 1 / qnat 1 = 1) by (apply Qc_is_canon; reflexivity). rewrite O in D1, H0.
  split; [exact Hs|]. split; [|exact D1]. exact (proj1 (nld_plot_new _ _ _ _ _ _ _ _ _ _ H0)).
Qed.
Print Assumptions plot_negative.

(* ------------------------------------------------------------------ figures and seeds *)
Lemma plot_ok_inv cf choice from_res ns caps new axfig fl n_plot pms rs rst o :
  plot cf choice from_res ns caps new axfig fl n_plot pms rs rst = Ok o ->
  let axf := match axfig with Some f => f | None => new end in
  let new' := match axfig with Some _ => new | None => S new end in
  let fig := if rs && negb pms then new' else axf in
  o_axfig o = axf /\ o_fig o = fig /\ o_legend o = (if fl then Some fig else None) /\
  exists ns', plot_selection cf choice caps None (from_res (match rst with Some s => s | None => 98765%Z end)) n_plot (ns, (new_panel, new_panel)) = (ns', Ok (o_panels o)).
Proof.
  unfold plot. set (samples := from_res (match rst with Some s => s | None => 98765%Z end)).
  destruct (plot_selection cf choice caps None samples n_plot (ns, (new_panel, new_panel))) as [ns' [ps|e]]; [|discriminate].
  destruct (samples_unify_E (map sm_nld samples)) as [un|]; [|discriminate]. destruct (samples_unify_E (map sm_gsf samples)) as [ug|]; [|discriminate]. cbn [rbind].
  destruct (vector_stats (qn 4 25) (qn 21 25) (map sm_nld samples)); [|discriminate]. destruct (vector_stats (qn 4 25) (qn 21 25) (map sm_gsf samples)); [|discriminate]. cbn [rbind].
  destruct (pms || rs); [destruct (model_stats cf ns' un ug); [|discriminate]|]; cbn [rbind]; intros [= <-]; cbn; repeat split; exists ns'; reflexivity.
Qed.
(* Unless return_stats is asked for without plot_model_stats, the figure returned is the one of
   the axes and carries the legend. *)
Theorem plot_figure : forall cf choice from_res ns caps new axfig fl n_plot pms rs rst o, (rs = true -> pms = true) ->
  plot cf choice from_res ns caps new axfig fl n_plot pms rs rst = Ok o ->
  o_fig o = o_axfig o /\ o_legend o = (if fl then Some (o_axfig o) else None).
Proof.
  intros cf choice from_res ns caps new axfig fl n_plot pms rs rst o Hr H.
  destruct (plot_ok_inv _ _ _ _ _ _ _ _ _ _ _ _ _ H) as (-> & -> & -> & _).
  destruct rs; [rewrite Hr by reflexivity|]; destruct fl; auto.
Qed.
Print Assumptions plot_figure.
(* With return_stats alone the figure returned is a new, empty one, and the legend goes there. *)
Theorem plot_figure_refuted : forall cf choice from_res ns caps new axfig n_plot rst o,
  (forall f, axfig = Some f -> (f < new)%nat) ->
  plot cf choice from_res ns caps new axfig true n_plot false true rst = Ok o ->
  o_fig o <> o_axfig o /\ o_legend o = Some (o_fig o).
Proof.
  intros cf choice from_res ns caps new axfig n_plot rst o Hf H.
  destruct (plot_ok_inv _ _ _ _ _ _ _ _ _ _ _ _ _ H) as (-> & -> & -> & _). cbn. split; [|reflexivity].
  destruct axfig as [f|]; [specialize (Hf f eq_refl)|]; lia.
Qed.
Print Assumptions plot_figure_refuted.

(* The random state decides the table of samples, not which lines of it are drawn: two tables of
   the same length have the same positions drawn. *)
Theorem plot_positions_fixed : forall cf choice from_res ns caps new axfig fl n_plot pms rs s1 s2 o1 o2, choice_ok choice -> (0 < n_plot)%Z ->
  length (from_res s1) = length (from_res s2) ->
  plot cf choice from_res ns caps new axfig fl n_plot pms rs (Some s1) = Ok o1 ->
  plot cf choice from_res ns caps new axfig fl n_plot pms rs (Some s2) = Ok o2 ->
  exists ks sel1 sel2, picked (from_res s1) ks sel1 /\ picked (from_res s2) ks sel2 /\
    data_lines (fst (o_panels o1)) = numbered (Z.to_nat n_plot) 0 (map sm_nld sel1) /\
    data_lines (fst (o_panels o2)) = numbered (Z.to_nat n_plot) 0 (map sm_nld sel2).
Proof.
  intros cf choice from_res ns caps new axfig fl n_plot pms rs s1 s2 o1 o2 C Hn L H1 H2.
  assert (Nd : n_drawn n_plot = Z.to_nat n_plot) by (unfold n_drawn; destruct (Z.ltb_spec 0 n_plot); [reflexivity|lia]).
  assert (G : forall s o, plot cf choice from_res ns caps new axfig fl n_plot pms rs (Some s) = Ok o ->
    exists sel, picked (from_res s) (choice 98765%Z (length (from_res s)) (Z.to_nat n_plot)) sel /\ data_lines (fst (o_panels o)) = numbered (Z.to_nat n_plot) 0 (map sm_nld sel)).
  { intros s o H. destruct (plot_ok_inv _ _ _ _ _ _ _ _ _ _ _ _ _ H) as (_ & _ & _ & ns' & Hs). unfold plot_selection in Hs. rewrite Nd in Hs.
    destruct (select choice 98765 (from_res s) (Z.to_nat n_plot)) as [sel|e] eqn:Es; [|discriminate].
    destruct (draw_all cf caps (Z.to_nat n_plot) 0 sel (ns, (new_panel, new_panel))) as [ns1 [[p' q']|e]] eqn:Ed; [|discriminate].
    unfold drop_dummy in Hs. destruct (Z.eqb_spec n_plot 0); [lia|]. injection Hs as _ Hs. rewrite <- Hs. exists sel.
    split; [exact (proj1 (proj2 (select_ok _ _ _ _ _ C Es)))|]. exact (proj1 (draw_all_data _ _ _ _ _ _ _ _ _ _ _ Ed)). }
  destruct (G _ _ H1) as (sel1 & P1 & D1). destruct (G _ _ H2) as (sel2 & P2 & D2). rewrite <- L in P2. eauto 10.
Qed.
Print Assumptions plot_positions_fixed.

(* ------------------------------------------------------------------ statistics of the extrapolations *)
Definition efit_is (m : gmod) (a b : Qc) : Prop := ef_low (g_efit m) = Some a /\ ef_high (g_efit m) = Some b.
Lemma auto_set high v f a b : ef_low f = Some a -> ef_high f = Some b -> autofitrange high v f = (f, Ok tt).
Proof. destruct f as [l x y]. cbn. intros -> ->. reflexivity. Qed.
Lemma fit_model_set cf high v m a b : efit_is m a b -> a < b -> fit_model cf high v m =
  match curve_fit_refuses (window v a b) with Some e => (m, Raise e) | None => (set_pars (cf high (window v a b)) m, Ok (window v a b)) end.
Proof.
  intros [Ha Hb] Hab. unfold fit_model. rewrite (auto_set _ _ _ a b Ha Hb), Ha, Hb.
  destruct (qltb_spec a b); [|exfalso; apply (Qclt_not_le a b); auto].
  replace (set_efit (g_efit m) m) with m by (now destruct m). reflexivity.
Qed.
(* With both windows set, the fits behind the statistics succeed exactly if curve_fit accepts the
   points of every sample, and are then the fits of each sample by itself. *)
Theorem stats_fits : forall cf vs low high a b c d, g_fit low = true -> efit_is low a b -> efit_is high c d -> a < b -> c < d ->
  (Forall (fun v => curve_fit_refuses (window v a b) = None /\ curve_fit_refuses (window v c d) = None) vs ->
     fit_samples cf vs low high = Ok (map (fun v => (cf false (window v a b), cf true (window v c d))) vs)) /\
  (Exists (fun v => curve_fit_refuses (window v a b) <> None \/ curve_fit_refuses (window v c d) <> None) vs ->
     exists e, fit_samples cf vs low high = Raise e).
Proof.
  intros cf vs low high a b c d Hf La Ha Hab Hcd. revert low high Hf La Ha.
  induction vs as [|v vs IH]; intros low high Hf La Ha; [split; [reflexivity | intros H; inversion H]|].
  cbn [fit_samples map]. unfold fit_both. rewrite Hf, (fit_model_set _ _ _ _ a b La Hab), (fit_model_set _ _ _ _ c d Ha Hcd).
  assert (X : forall h p m, efit_is m a b -> efit_is (set_pars (cf h p) m) a b) by (intros h p m H; exact H).
  split.
  - intros H. apply Forall_cons_iff in H. destruct H as [[-> ->] H].
    rewrite (proj1 (IH (set_pars (cf false (window v a b)) low) (set_pars (cf true (window v c d)) high) Hf La Ha) H). cbn [rbind g_scale g_shift set_pars].
    rewrite <- !surjective_pairing. reflexivity.
  - intros H. destruct (curve_fit_refuses (window v a b)) eqn:E1; [eauto|]. destruct (curve_fit_refuses (window v c d)) eqn:E2; [eauto|].
    assert (Hx : Exists (fun v => curve_fit_refuses (window v a b) <> None \/ curve_fit_refuses (window v c d) <> None) vs).
    { inversion H as [v' l' [H'|H'] |]; subst; congruence || assumption. }
    destruct (proj2 (IH (set_pars (cf false (window v a b)) low) (set_pars (cf true (window v c d)) high) Hf La Ha) Hx) as [e He]. rewrite He. cbn. eauto.
Qed.
Print Assumptions stats_fits.
(* a missing value in the window is refused *)
Theorem missing_value_refused : forall v a b, In None (fp_values (window v a b)) -> curve_fit_refuses (window v a b) = Some ValueError.
Proof.
  intros v a b H. unfold curve_fit_refuses. assert (X : existsb is_missing (fp_values (window v a b)) = true).
  { apply existsb_exists. exists None. auto. } now rewrite X.
Qed.
Print Assumptions missing_value_refused.
Lemma window_refuses_std v a b : (forall s, s_std v = Some s -> length s = length (s_val v)) ->
  match fp_std (window v a b) with Some s => length s = length (fp_values (window v a b)) | None => True end.
Proof.
  intros H. unfold window. cbn. destruct (s_std v) as [s|]; [|exact I]. cbn. unfold between. rewrite !firstn_length, !skipn_length. now rewrite (H s eq_refl).
Qed.
(* Samples that start at the same energy and end at the same energy: the fits behind the statistics
   are, for every sample, the fits of the curves drawn - same window, same points. *)
Theorem stats_fit_drawn : forall cf choice from_res ns caps new axfig fl n_plot pms rst o sn sg ms, choice_ok choice -> (0 < n_plot)%Z ->
  g_fit (ns_low ns) = true -> (forall s, Forall sane (map sm_gsf (from_res s)) /\ same_ends (map sm_gsf (from_res s))) ->
  plot cf choice from_res ns caps new axfig fl n_plot pms true rst = Ok o -> o_stats o = Some (sn, sg, ms) ->
  exists a b c d samples sel,
    ms_fits ms = map (fun s => (cf false (window (sm_gsf s) a b), cf true (window (sm_gsf s) c d))) samples /\
    incl sel samples /\ length sel = Z.to_nat n_plot /\ samples = from_res (match rst with Some s => s | None => 98765%Z end) /\
    curves (snd (o_panels o)) = flat_map (fun s => [(false, cf false (window (sm_gsf s) a b)); (true, cf true (window (sm_gsf s) c d))]) sel.
Proof.
  intros cf choice from_res ns caps new axfig fl n_plot pms rst o sn sg ms C Hn Hf Hs H Ho. unfold plot in H.
  set (sd := match rst with Some s => s | None => 98765%Z end) in *. destruct (Hs sd) as [Sa Se]. set (samples := from_res sd) in *.
  destruct (plot_selection cf choice caps None samples n_plot (ns, (new_panel, new_panel))) as [ns' [[p q]|e]] eqn:Ep; [|discriminate].
  destruct (samples_unify_E (map sm_nld samples)) as [un|]; [|discriminate]. destruct (samples_unify_E (map sm_gsf samples)) as [ug|] eqn:Eu; [|discriminate]. cbn [rbind] in H.
  destruct (vector_stats (qn 4 25) (qn 21 25) (map sm_nld samples)) as [sn'|]; [|discriminate]. destruct (vector_stats (qn 4 25) (qn 21 25) (map sm_gsf samples)) as [sg'|]; [|discriminate]. cbn [rbind] in H.
  rewrite Bool.orb_true_r in H. destruct (model_stats cf ns' un ug) as [m|] eqn:Em; [|discriminate]. cbn [rbind] in H. injection H as <-. cbn in Ho. injection Ho as _ _ ->.
  (* the drawn curves *)
  unfold plot_selection in Ep. assert (Nd : n_drawn n_plot = Z.to_nat n_plot) by (unfold n_drawn; destruct (Z.ltb_spec 0 n_plot); [reflexivity|lia]). rewrite Nd in Ep.
  destruct (select choice 98765 samples (Z.to_nat n_plot)) as [sel|e] eqn:Es; [|discriminate]. destruct (select_ok _ _ _ _ _ C Es) as (Hl & Hp & Ls).
  destruct (draw_all cf caps (Z.to_nat n_plot) 0 sel (ns, (new_panel, new_panel))) as [ns1 [[p' q']|e]] eqn:Ed; [|discriminate].
  unfold drop_dummy in Ep. destruct (Z.eqb_spec n_plot 0); [lia|]. injection Ep as <- <- <-.
  destruct (draw_all_curves _ _ _ _ _ _ _ _ _ _ _ Hf Ed) as (K1 & _ & _). cbn [curves new_panel pn_lines flat_map app] in K1.
  (* windows are set and ordered after one fit *)
  assert (W : exists a b c d, efit_is (ns_low ns1) a b /\ efit_is (ns_high ns1) c d /\ a < b /\ c < d /\ g_fit (ns_low ns1) = true).
  { destruct sel as [|s sel]; [cbn in Ls; lia|]. cbn [draw_all] in Ed.
    destruct (draw_one cf caps (Z.to_nat n_plot) 0 s (ns, (new_panel, new_panel))) as [ns2 [[r0 r1]|e]] eqn:E; [|discriminate].
    destruct (draw_one_ok _ _ _ _ _ _ _ _ _ _ _ E) as (x & y & lo & hi & Ff & -> & -> & -> & _ & _ & _).
    unfold fit_both in Ff. rewrite Hf in Ff.
    destruct (fit_model cf false (sm_gsf s) (ns_low ns)) as [lo1 [wl|]] eqn:El; [|discriminate].
    destruct (fit_model cf true (sm_gsf s) (ns_high ns)) as [hi1 [wh|]] eqn:Eh; [|discriminate]. injection Ff as -> ->.
    destruct (fit_model_ok _ _ _ _ _ _ El) as (la & lb & La & Lb & _ & _ & _ & _ & _ & Lf).
    destruct (fit_model_ok _ _ _ _ _ _ Eh) as (ha & hb & Ha & Hb & _ & _ & _ & _ & _ & Hg).
    assert (O : forall h v m m' w a b, fit_model cf h v m = (m', Ok w) -> ef_low (g_efit m') = Some a -> ef_high (g_efit m') = Some b -> a < b).
    { clear. intros h v m m' w a b. unfold fit_model. destruct (autofitrange h (mkGV (s_E v) [] None true) (g_efit m)) as [f [u|e]]; [|discriminate].
      destruct (ef_low f) as [x|] eqn:Ex; [|discriminate]. destruct (ef_high f) as [y|] eqn:Ey; [|discriminate].
      destruct (qltb_spec x y) as [L|]; [|discriminate]. destruct (curve_fit_refuses (window v x y)); [discriminate|]. intros [= <- _]. cbn. rewrite Ex, Ey. intros [= <-] [= <-]. exact L. }
    assert (G : forall sel i ns0 a0 b0 a1 b1, g_fit (ns_low ns0) = true -> draw_all cf caps (Z.to_nat n_plot) i sel (ns0, (a0, b0)) = (ns1, Ok (a1, b1)) -> g_fit (ns_low ns1) = true).
    { clear - Hf. induction sel as [|t sel IH]; intros i ns0 a0 b0 a1 b1 H0; cbn [draw_all]; [intros [= <- _ _]; exact H0|].
      destruct (draw_one cf caps (Z.to_nat n_plot) i t (ns0, (a0, b0))) as [ns3 [[c0 c1]|e]] eqn:E; [|discriminate].
      destruct (draw_one_ok _ _ _ _ _ _ _ _ _ _ _ E) as (? & ? & lo & hi & Ff & -> & _). apply IH. cbn.
      unfold fit_both in Ff. rewrite H0 in Ff. destruct (fit_model cf false (sm_gsf t) (ns_low ns0)) as [lo1 [wl|]] eqn:El; [|discriminate].
      destruct (fit_model cf true (sm_gsf t) (ns_high ns0)) as [hi1 [wh|]] eqn:Eh; [|discriminate]. injection Ff as -> _.
      destruct (fit_model_ok _ _ _ _ _ _ El) as (? & ? & _ & _ & _ & _ & _ & _ & _ & ->). exact H0. }
    destruct (draw_all_curves cf caps _ sel 1 (set_models lo hi ns) _ _ ns1 p' q' ltac:(cbn; congruence) Ed) as (_ & [I2 I3] & [I4 I5]).
    cbn [ns_low ns_high set_models] in I2, I3, I4, I5.
    exists la, lb, ha, hb. split; [split; auto|]. split; [split; auto|]. split; [exact (O _ _ _ _ _ _ _ El La Lb)|]. split; [exact (O _ _ _ _ _ _ _ Eh Ha Hb)|].
    refine (G _ _ _ _ _ _ _ _ Ed). cbn. congruence. }
  destruct W as (a & b & c & d & Wl & Wh & Hab & Hcd & Hf1).
  (* unify does nothing *)
  assert (Hne : samples <> []) by (intros ->; cbn in Hl; lia).
  rewrite (unify_same_ends (map sm_gsf samples)) in Eu; [|destruct samples; [congruence|discriminate]|exact Sa|exact Se]. injection Eu as <-.
  unfold model_stats in Em. destruct un as [|vn un]; [discriminate|]. destruct (map sm_gsf samples) as [|vg vs] eqn:Emap; [discriminate|].
  destruct (s_E vn); [discriminate|]. destruct (s_E vg) as [|eg er] eqn:Eg; [discriminate|]. rewrite <- Emap in Em.
  destruct (fit_samples cf (map sm_gsf samples) (ns_low ns1) (ns_high ns1)) as [fits|] eqn:Efs; [|discriminate]. cbn [rbind] in Em. injection Em as <-. cbn [ms_fits].
  exists a, b, c, d, samples, sel. destruct (stats_fits cf (map sm_gsf samples) (ns_low ns1) (ns_high ns1) a b c d Hf1 Wl Wh Hab Hcd) as [T1 T2].
  split.
  - assert (A : Forall (fun v => curve_fit_refuses (window v a b) = None /\ curve_fit_refuses (window v c d) = None) (map sm_gsf samples)).
    { apply Forall_forall. intros v Hv.
      assert (Q : ~ (curve_fit_refuses (window v a b) <> None \/ curve_fit_refuses (window v c d) <> None)).
      { intros Q. destruct T2 as [e He]; [apply Exists_exists; eauto | congruence]. }
      destruct (curve_fit_refuses (window v a b)); [exfalso; apply Q; left; discriminate|].
      destruct (curve_fit_refuses (window v c d)); [exfalso; apply Q; right; discriminate|]. auto. }
    rewrite (T1 A) in Efs. injection Efs as <-. now rewrite map_map.
  - split; [|split; [exact Ls|split; [reflexivity|]]].
    + intros s Hi. clear - Hp Hi. induction Hp as [|k x ks xs Hk _ IH]; [destruct Hi|]. destruct Hi as [<-|Hi]; [exact (nth_error_In _ _ Hk) | auto].
    + cbn [o_panels snd]. rewrite K1. apply flat_map_ext. intros s. unfold own_curves. destruct Wl as [-> ->], Wh as [-> ->]. reflexivity.
Qed.
Print Assumptions stats_fit_drawn.

(* Samples that start at different energies are put on one grid first; their uncertainties are not
   moved along.  The fit behind the statistics then pairs the right energies and values with the
   uncertainties of other energies ... *)
Definition gs (l : list Z) (miss : list (option Z)) (e : list Z) : svec := mkS (map qz l) (map (option_map qz) miss) (Some (map qz e)).
Definition two_starts : list svec :=
  [gs [1; 2; 3; 4; 5; 6; 7; 8; 9]%Z (map Some [9; 9; 9; 9; 9; 9; 9; 9; 9]%Z) [1; 1; 1; 1; 1; 1; 1; 1; 1]%Z;
   gs [2; 3; 4; 5; 6; 7; 8; 9]%Z (map Some [12; 13; 14; 15; 16; 17; 18; 19]%Z) [2; 3; 4; 5; 6; 7; 8; 9]%Z].
Definition two_starts' : list svec :=
  [gs [1; 2; 3; 4; 5; 6; 7; 8; 9]%Z (map Some [9; 9; 9; 9; 9; 9; 9; 9; 9]%Z) [1; 1; 1; 1; 1; 1; 1; 1; 1]%Z;
   gs [1; 2; 3; 4; 5; 6; 7; 8; 9]%Z (None :: map Some [12; 13; 14; 15; 16; 17; 18; 19]%Z) [2; 3; 4; 5; 6; 7; 8; 9]%Z].
Lemma two_starts_unified : samples_unify_E two_starts = Ok two_starts'.
Proof. reflexivity. Qed.
Lemma two_starts_sane : Forall sane two_starts.
Proof.
  repeat constructor; try discriminate.
  all: intros; try (apply (proj1 (qz_lt _ _)); lia).
Qed.
Theorem stats_fit_refuted : exists df df' v v' a b, Forall sane df /\ samples_unify_E df = Ok df' /\
  nth_error df 1 = Some v /\ nth_error df' 1 = Some v' /\ curve_fit_refuses (window v' a b) = None /\
  fp_E (window v' a b) = fp_E (window v a b) /\ fp_values (window v' a b) = fp_values (window v a b) /\
  fp_std (window v a b) = Some (map qz [3; 4; 5]%Z) /\ fp_std (window v' a b) = Some (map qz [4; 5; 6]%Z).
Proof.
  exists two_starts, two_starts', (nth 1 two_starts (gs [] [] [])), (nth 1 two_starts' (gs [] [] [])), (qz 3), (qz 5).
  split; [exact two_starts_sane|]. split; [exact two_starts_unified|]. repeat split; reflexivity.
Qed.
Print Assumptions stats_fit_refuted.
(* ... or, if the window reaches the part without data, cannot be made at all, although the
   curve of the same sample can be drawn. *)
Theorem stats_fit_fails_refuted : exists df df' v v' a b, Forall sane df /\ samples_unify_E df = Ok df' /\
  nth_error df 1 = Some v /\ nth_error df' 1 = Some v' /\ curve_fit_refuses (window v a b) = None /\
  curve_fit_refuses (window v' a b) = Some ValueError.
Proof.
  exists two_starts, two_starts', (nth 1 two_starts (gs [] [] [])), (nth 1 two_starts' (gs [] [] [])), (qz 1), (qz 4).
  split; [exact two_starts_sane|]. split; [exact two_starts_unified|]. repeat split; reflexivity.
Qed.
Print Assumptions stats_fit_fails_refuted.

(* ------------------------------------------------------------------ the energies of the statistics *)
(* twenty equally spaced energies from a to b *)
Definition is_grid (a b : Qc) (l : list Qc) : Prop :=
  length l = 20%nat /\ forall i, (i < 20)%nat -> nth i l 0 = a + (b - a) * qnat i / qz 19.
Lemma linspace_grid a b : is_grid a b (linspace a b 20).
Proof.
  split; [apply tab_length|]. intros i Hi. unfold linspace. rewrite nth_tab by exact Hi. reflexivity.
Qed.
Theorem stats_energies : forall cf ns nlds gsfs ms, model_stats cf ns nlds gsfs = Ok ms ->
  exists vn vg, hd_error nlds = Some vn /\ hd_error gsfs = Some vg /\ s_E vn <> [] /\ s_E vg <> [] /\
    is_grid (last (s_E vn) 0) (nl_Sn (ns_nld ns)) (ms_nld_x ms) /\
    is_grid (qn 1 1000) (hd 0 (s_E vg)) (ms_low_x ms) /\
    is_grid (last (s_E vg) 0) (ns_gsf_Sn ns) (ms_high_x ms).
Proof.
  intros cf ns nlds gsfs ms. unfold model_stats. destruct nlds as [|vn nl]; [discriminate|]. destruct gsfs as [|vg gl]; [discriminate|].
  destruct (s_E vn) as [|en el] eqn:En; [discriminate|]. destruct (s_E vg) as [|eg er] eqn:Eg; [discriminate|].
  destruct (fit_samples cf (vg :: gl) (ns_low ns) (ns_high ns)); [|discriminate]. cbn [rbind]. intros [= <-].
  exists vn, vg. rewrite En, Eg. split; [reflexivity|]. split; [reflexivity|]. split; [discriminate|]. split; [discriminate|].
  cbn [ms_nld_x ms_low_x ms_high_x hd]. split; [apply linspace_grid|split; apply linspace_grid].
Qed.
Print Assumptions stats_energies.
(* the grid runs backwards, over energies that have data, if the data end above Sn *)
Theorem stats_energies_backwards : forall a b l, is_grid a b l -> b < a -> forall i, (S i < 20)%nat -> nth (S i) l 0 < nth i l 0 /\ b <= nth (S i) l 0 <= a.
Proof.
  intros a b l [_ G] H i Hi. rewrite !G by lia.
  assert (Q : qnat (S i) = qnat i + 1) by (rewrite qnat_S; ring). rewrite Q.
  assert (K0 : 0 <= qnat i) by (apply qnat_nonneg). assert (K1 : qnat i <= qz 18) by (unfold qnat; apply (proj1 (qz_le _ _)); lia).
  set (k := qnat i) in *. set (t := a - b).
  assert (T : 0 < t) by (unfold t; clear - H; qlra).
  replace ((b - a) * (k + 1) / qz 19) with (- (t * (k + 1)) * (/ qz 19)) by (unfold t; field; discriminate).
  replace ((b - a) * k / qz 19) with (- (t * k) * (/ qz 19)) by (unfold t; field; discriminate).
  assert (S : / qz 19 = qn 1 19) by (apply Qc_is_canon; reflexivity). rewrite S.
  assert (M : 0 <= t * k) by (replace 0 with (0 * k) by ring; apply Qcmult_le_compat_r; [apply Qclt_le_weak; exact T|exact K0]).
  assert (M2 : t * k <= t * qz 18) by (rewrite !(Qcmult_comm t); apply Qcmult_le_compat_r; [exact K1|apply Qclt_le_weak; exact T]).
  unfold t in *. clear t. change (qn 1 19) with (Q2Qc (1 # 19)). change (qz 18) with (Q2Qc (18 # 1)) in M2.
  replace ((a - b) * (k + 1)) with ((a - b) * k + (a - b)) by ring.
  set (x := (a - b) * k) in *. replace ((a - b) * Q2Qc (18 # 1)) with (Q2Qc (18 # 1) * a - Q2Qc (18 # 1) * b) in M2 by ring. clearbody x.
  split; [|split]; qlra.
Qed.
Print Assumptions stats_energies_backwards.

(* ------------------------------------------------------------------ cases *)
Definition ex_choice (s : Z) (N n : nat) : list nat := seq (N - n) n.
Lemma ex_choice_ok : choice_ok ex_choice.
Proof.
  intros s N n H. unfold ex_choice. split; [apply seq_length|]. split; [apply seq_NoDup|].
  apply Forall_forall. intros k Hk. apply in_seq in Hk. lia.
Qed.
Definition ex_fit (high : bool) (p : fpoints) : Qc * Qc := (vget (fp_E p) 0, if high then 1 else 0).
Definition ex_ns : normalizers :=
  mkNs (mkNL (qz 6) (qz 10)) (mkGM true 0 0 (Some 0) (Some (qz 1)) efit_new) (mkGM true 0 0 (Some 0) (Some (qz 20)) efit_new) (qz 10).
Definition ex_vec (y : Z) (std : bool) : svec :=
  mkS (map qz [1; 2; 3; 4; 5; 6; 7; 8; 9]%Z) (map Some (repeat (qz y) 9)) (if std then Some (repeat 1 9) else None).
Definition ex_samples (s : Z) : list sample :=
  map (fun y => mkSmp (ex_vec y true) (ex_vec (10 * y) true) (qz y) 0) [1; 2; 3; s]%Z.
(* two of four samples, error bars with caps: 3 lines each for the data, the level at Sn, one for
   the known levels and one for the model *)
Example ex_two_drawn :
  match plot_selection ex_fit ex_choice true None (ex_samples 4) 2 (ex_ns, (new_panel, new_panel)) with
  | (ns, Ok (p, q)) => map fst (map fst (data_lines p)) = [ex_vec 3 true; ex_vec 4 true] /\ length (pn_lines p) = 16%nat /\
      length (curves q) = 4%nat /\ ef_low (g_efit (ns_low ns)) = Some (qz 3)
  | _ => False
  end.
Proof. vm_compute. repeat split. Qed.
Example ex_legend :
  match plot_selection ex_fit ex_choice true None (ex_samples 4) 2 (ex_ns, (new_panel, new_panel)),
        plot_selection ex_fit ex_choice false None (ex_samples 4) 2 (ex_ns, (new_panel, new_panel)) with
  | (_, Ok (p, _)), (_, Ok (p', _)) =>
      legend p = ["known levels"; "model"; "exp."; "rho(Sn)"; "fit limits"]%string /\ legend p' = ["model"; "exp."; "rho(Sn)"; "fit limits"]%string
  | _, _ => False
  end.
Proof. vm_compute. split; reflexivity. Qed.
Example ex_zero_negative :
  match plot_selection ex_fit ex_choice true None (ex_samples 4) 0 (ex_ns, (new_panel, new_panel)),
        plot_selection ex_fit ex_choice false None (ex_samples 4) 0 (ex_ns, (new_panel, new_panel)),
        plot_selection ex_fit ex_choice true None (ex_samples 4) (-3) (ex_ns, (new_panel, new_panel)) with
  | (_, Ok (p, _)), (_, Ok (p', _)), (_, Ok (p'', _)) => length (data_lines p) = 0%nat /\ length (data_lines p') = 1%nat /\ length (data_lines p'') = 1%nat
  | _, _, _ => False
  end.
Proof. vm_compute. repeat split. Qed.
Example ex_too_many : snd (plot_selection ex_fit ex_choice true None (ex_samples 4) 5 (ex_ns, (new_panel, new_panel))) = Raise ValueError.
Proof. reflexivity. Qed.
Example ex_fixed : snd (plot_selection ex_fit ex_choice true None (ex_samples 4) 2
  (mkNs (mkNL (qz 6) (qz 10)) (mkGM false 0 0 (Some 0) (Some 1) efit_new) (mkGM true 0 0 (Some 0) (Some 1) efit_new) (qz 10), (new_panel, new_panel))) = Raise TypeError.
Proof. reflexivity. Qed.
(* figure 7 is the next one; the axes belong to figure 3 *)
Example ex_figures :
  match plot ex_fit ex_choice ex_samples ex_ns true 7 (Some 3%nat) true 2 false true None,
        plot ex_fit ex_choice ex_samples ex_ns true 7 (Some 3%nat) true 2 true true None,
        plot ex_fit ex_choice ex_samples ex_ns true 7 None true 2 false true (Some 5%Z) with
  | Ok o1, Ok o2, Ok o3 => (o_fig o1, o_axfig o1, o_legend o1) = (7%nat, 3%nat, Some 7%nat) /\ o_fig o2 = 3%nat /\ (o_fig o3, o_axfig o3) = (8%nat, 7%nat) /\
      match o_stats o2 with Some (_, _, ms) => length (ms_fits ms) = 4%nat /\ nth 19 (ms_nld_x ms) 0 = qz 10 | None => False end
  | _, _, _ => False
  end.
Proof. vm_compute. repeat split; apply Qc_is_canon; reflexivity. Qed.
