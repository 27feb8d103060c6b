(* One statement of a program: what it may change, and what it creates. *)
From Verif Require Import PyBase Axis RebinModel MatrixModel VectorModel FillModel ArithModel CutProofs AliasModel AliasSpec AliasProofs.
Local Open Scope nat_scope.

Section Oracles.
Variable expf : Qc -> Qc.
Variable sqrtf : Qc -> Qc.
Variable gauss : nat -> nat -> Qc.
Variable argsort : list Qc -> list nat.
Local Notation veffect := (veffect expf sqrtf).
Local Notation meffect := (meffect gauss argsort).
Local Notation step := (step expf sqrtf gauss argsort).

(* --- the effects of the methods are of the expected form ----------------------------------- *)
Ltac nb := let b := fresh in intros b; discriminate.
Lemma fresho_not_bind x : not_bind (fresho x). Proof. destruct x; nb. Qed.
Lemma fresho_calm x : calm (fresho x). Proof. destruct x; intros a; reflexivity. Qed.
Ltac vg := split; [|split]; [try nb; try apply fresho_not_bind..|try (left; nb)].
Lemma veffect_good c v A xs e : veffect c v A xs = Ok e -> vgood e /\ (bound1 (ve_E e) = A \/ bound1 (ve_E e) = []) /\
  (varg c = None -> not_bind (ve_E e)) /\
  (vec_has_inplace c = true -> calm (ve_values e) /\ calm (ve_E e) /\ calm (ve_std e)).
Proof.
  assert (K : forall u x y (q : bool), vgood (mkVE (Fresh1 x) (if q then Bind1 A else Fresh1 y) Keep1 u)).
  { intros u x y [|]; vg. right. split; intros a; reflexivity. }
  destruct c as [Emin Emax|mids factor| | |En sd|f|c al| |vals E sd]; cbn [AliasModel.veffect varg vec_has_inplace]; intros H.
  - destruct (match Emin with Some e => Ok e | None => _ end) as [lo|]; [|discriminate H]. cbn [rbind] in H.
    destruct (match Emax with Some e => Ok e | None => _ end) as [hi|]; [|discriminate H]. cbn [rbind] in H. injection H as <-.
    split; [vg|]. split; [auto|]. split; [intros _; nb|]. repeat split.
  - destruct (v_rebin_data _ _ _) as [[out new]|]; [|discriminate H]. cbn [rbind] in H. injection H as <-.
    destruct mids; (split; [vg|]); cbn; auto.
    + right. split; intros a; reflexivity.
    + split; [auto|]. split; [discriminate|]. intros _. repeat split.
    + split; [auto|]. split; [intros _; nb|]. intros _. repeat split.
  - destruct (v_units v); [| |discriminate H]; injection H as <-; (split; [vg|]); cbn; (split; [auto|]; split; [intros _; nb|discriminate]).
  - destruct (v_units v); [| |discriminate H]; injection H as <-; (split; [vg|]); cbn; (split; [auto|]; split; [intros _; nb|discriminate]).
  - destruct (closest_data _ _ _) as [[vals s]|]; [|discriminate H]. cbn [rbind] in H. injection H as <-.
    split; [vg; right; split; [intros a; reflexivity|apply fresho_calm]|]. cbn. split; [auto|]. split; [discriminate|]. intros _. split; [intros a; reflexivity|]. split; [intros a; reflexivity|apply fresho_calm].
  - destruct (cumulative _ _ _) as [w|]; [|discriminate H]. cbn [rbind] in H. injection H as <-.
    split; [vg|]. cbn. split; [auto|]. split; [intros _; nb|]. intros _. split; [intros a; reflexivity|]. split; [intros a; reflexivity|apply fresho_calm].
  - injection H as <-.
    split; [vg|]. cbn. split; [auto|]. split; [intros _; nb|]. intros _. split; [intros a; reflexivity|]. split; [intros a; reflexivity|apply fresho_calm].
  - injection H as <-.
    split; [vg|]. cbn. split; [auto|]. split; [intros _; nb|]. intros _. split; [intros a; reflexivity|]. split; [intros a; reflexivity|apply fresho_calm].
  - injection H as <-.
    split; [vg|]. cbn. split; [auto|]. split; [intros _; nb|]. discriminate.
Qed.
Ltac mg0 := left; split; nb.
Lemma meffect_good c m A xs e : meffect c m A xs = Ok e -> mgood e /\ (not_bind (me_Ex e) \/ not_bind (me_Eg e)) /\ (mbound e = A \/ mbound e = []) /\
  (marg c = None -> mbound e = []) /\
  (match c with CMCut _ _ _ _ _ | CMRebin _ _ _ => true | _ => false end = true -> calm2 (me_values e) /\ calm (me_Ex e) /\ calm (me_Eg e)).
Proof.
  destruct c as [ax Emin Emax imin imax|ex mids factor|a b c d|p q|eg ex c| | | | |st|v eg ex]; cbn [AliasModel.meffect marg]; intros H.
  - destruct (to_plot_axis ax) as [a|]; [|discriminate H]. cbn [rbind] in H.
    destruct (cut_bounds _ _ _ _ _) as [[lo hi]|]; [|discriminate H]. cbn [rbind] in H.
    destruct a; [| |discriminate H]; injection H as <-; (split; [mg0|]); (split; [left; nb|]); cbn; repeat split; auto.
  - destruct (rebin_data _ _ _ _) as [[v new]|]; [|discriminate H]. cbn [rbind] in H. injection H as <-.
    destruct mids, ex; cbn.
    + split; [right; cbn; repeat split; right; nb|]. split; [right; nb|]. unfold mbound; cbn. rewrite app_nil_r. repeat split; auto. discriminate.
    + split; [right; cbn; repeat split; left; nb|]. split; [left; nb|]. unfold mbound; cbn. repeat split; auto. discriminate.
    + split; [mg0|]. split; [left; nb|]. repeat split; auto.
    + split; [mg0|]. split; [left; nb|]. repeat split; auto.
  - destruct (trapezoid_data _ _ _ _ _) as [t|]; [|discriminate H]. cbn [rbind] in H. injection H as <-.
    split; [mg0|]. split; [left; nb|]. cbn. repeat split; auto; discriminate.
  - destruct p as [p|]; [|discriminate H]. destruct q as [q|]; [|discriminate H].
    destruct (line_mask m p q) as [mask|]; [|discriminate H]. cbn [rbind] in H. destruct (pair_eqb _ _); [|discriminate H]. injection H as <-.
    split; [mg0|]. split; [left; nb|]. cbn. repeat split; auto; discriminate.
  - destruct (_ && _)%bool; [|discriminate H]. injection H as <-. split; [mg0|]. split; [left; nb|]. cbn. repeat split; auto; discriminate.
  - injection H as <-. split; [mg0|]. split; [left; nb|]. cbn. repeat split; auto; discriminate.
  - injection H as <-. split; [mg0|]. split; [left; nb|]. cbn. repeat split; auto; discriminate.
  - destruct (Ex m) as [|? [|? ?]]; try discriminate H. destruct (Eg m) as [|? [|? ?]]; try discriminate H. injection H as <-.
    split; [mg0|]. split; [left; nb|]. cbn. repeat split; auto; discriminate.
  - destruct (Ex m) as [|? [|? ?]]; try discriminate H. destruct (Eg m) as [|? [|? ?]]; try discriminate H. injection H as <-.
    split; [mg0|]. split; [left; nb|]. cbn. repeat split; auto; discriminate.
  - destruct (set_state st) as [s|]; [|discriminate H]. cbn [rbind] in H. injection H as <-. split; [mg0|]. split; [left; nb|]. cbn. repeat split; auto; discriminate.
  - injection H as <-. split; [mg0|]. split; [left; nb|]. cbn. repeat split; auto; discriminate.
Qed.

(* --- more on memory -------------------------------------------------------------------------- *)
Lemma grows_calm_vec h v e h' v' : vgood e -> calm (ve_values e) -> calm (ve_E e) -> calm (ve_std e) -> do_vec h v e = (h', v') -> grows [] h h'.
Proof.
  intros (_ & NS & _) C1 C2 C3. unfold do_vec.
  destruct (do1 h (hv_values v) (ve_values e)) as [h1 a] eqn:D1. destruct (do1 h1 (hv_E v) (ve_E e)) as [h2 b] eqn:D2.
  destruct (do1o h2 (hv_std v) (ve_std e)) as [h3 s] eqn:D3. intros E; injection E as <- <-.
  apply do1_spec in D1 as (G1 & _). apply do1_spec in D2 as (G2 & _). apply do1o_spec in D3 as (G3 & _); [|exact NS].
  rewrite C1 in G1. rewrite C2 in G2. rewrite C3 in G3. exact (grows_trans _ _ _ _ G1 (grows_trans _ _ _ _ G2 G3)).
Qed.
Lemma grows_calm_mat h m e h' m' : calm2 (me_values e) -> calm (me_Ex e) -> calm (me_Eg e) -> do_mat h m e = (h', m') -> grows [] h h'.
Proof.
  intros C1 C2 C3. unfold do_mat.
  destruct (do2 h (hm_values m) (me_values e)) as [h1 a] eqn:D1. destruct (do1 h1 (hm_Ex m) (me_Ex e)) as [h2 b] eqn:D2.
  destruct (do1 h2 (hm_Eg m) (me_Eg e)) as [h3 g] eqn:D3. intros E; injection E as <- <-.
  apply do2_spec in D1 as (G1 & _). apply do1_spec in D2 as (G2 & _). apply do1_spec in D3 as (G3 & _).
  rewrite C1 in G1. rewrite C2 in G2. rewrite C3 in G3. exact (grows_trans _ _ _ _ G1 (grows_trans _ _ _ _ G2 G3)).
Qed.
Lemma grows_fresh own h h1 h2 : grows [] h h1 -> (forall c, In c own -> length h <= c) -> grows own h1 h2 -> grows [] h h2.
Proof.
  intros [L1 H1] F [L2 H2]. split; [lia|]. intros c Hc _. rewrite H2; [apply H1; auto|lia|]. intros I. apply F in I. lia.
Qed.
Lemma fresh_mono h h' h2 h3 a : length h2 <= length h -> length h' <= length h3 -> fresh_in h h' a -> fresh_in h2 h3 a.
Proof. intros L1 L2 [N I]. split; [exact N|]. intros c Hc. apply I in Hc. lia. Qed.
Lemma part_fresh h h1 h2 a a' : length h <= length h1 <= length h2 -> fresh_in h h1 a -> part (fun c => False \/ length h1 <= c < length h2) a a' -> fresh_in h h2 a'.
Proof. intros L [N I] [N' I']. split; [auto|]. intros c Hc. apply I' in Hc as [Hc|[[]|Hc]]; [apply I in Hc|]; lia. Qed.

(* --- classification of statements --------------------------------------------------------- *)
Definition ocells_of (os : list obj) : list nat := concat (map cells os).
Definition made (clean : bool) (s s' : heap) : Prop :=
  grows [] (mem s) (mem s') /\ exists os, objs s' = objs s ++ os /\ fit (mem s') (ocells_of os) /\
    (clean = true -> fresh_in (mem s) (mem s') (ocells_of os)).
Definition touched (clean : bool) (s s' : heap) (i : nat) : Prop :=
  exists o o', nth_error (objs s) i = Some o /\ grows (cells o) (mem s) (mem s') /\ objs s' = upd (objs s) i o' /\
    fit (mem s') (cells o') /\
    (clean = true -> part (fun c => length (mem s) <= c < length (mem s')) (cells o) (cells o')).

Lemma find_obj_nth s i o : find_obj s i = Ok o -> nth_error (objs s) i = Some o.
Proof. unfold find_obj. destruct (nth_error _ i); [|discriminate]. intros E; injection E as <-. reflexivity. Qed.
Lemma valid_fit s i o : valid s -> nth_error (objs s) i = Some o -> fit (mem s) (cells o).
Proof. intros V H c Hc. eapply V; eauto. eapply nth_error_In; eauto. Qed.
Lemma upd_same {A} (l : list A) i x : nth_error l i = Some x -> upd l i x = l.
Proof. revert i; induction l; destruct i; cbn; intros H; try discriminate; [injection H as ->; reflexivity|f_equal; auto]. Qed.
Lemma attr1_in o a r c : attr1 o a = Some r -> In c r -> In c (cells o).
Proof.
  destruct o as [x|x|v|m], a; cbn; intros E Hc; try discriminate E; try (injection E as <-; unfold vcells, mcells; rewrite ?in_app_iff; auto; fail).
  unfold vcells. rewrite E, !in_app_iff. cbn. auto.
Qed.
Lemma attr2_in o a r c : attr2 o a = Some r -> In c (cells2 r) -> In c (cells o).
Proof.
  destruct o as [x|x|v|m], a; cbn; intros E Hc; try discriminate E; try (injection E as <-; unfold vcells, mcells; rewrite ?in_app_iff; auto; fail).
  unfold mcells. rewrite E, !in_app_iff. cbn. auto.
Qed.
Lemma eval_spec s x h A : eval s x = Ok (h, A) -> valid s -> grows [] (mem s) h /\ fit h A /\ (from_variable (Some x) = false -> fresh_in (mem s) h A).
Proof.
  destruct x as [xs|i a]; cbn [eval from_variable].
  - intros E V. assert (E' : alloc (mem s) xs = (h, A)) by congruence. apply alloc_spec in E' as (G & _ & N & I & _).
    split; [exact G|]. split; [intros c Hc; apply I in Hc; lia|]. intros _. split; [exact N|intros c; apply I].
  - destruct (find_obj s i) as [o|] eqn:F; [|discriminate]. cbn [rbind]. destruct (attr1 o a) as [r|] eqn:R; [|discriminate].
    intros E V. injection E as <- <-. split; [apply grows_refl|]. split; [|discriminate]. intros c Hc.
    apply find_obj_nth in F. eapply valid_fit; eauto. eapply attr1_in; eauto.
Qed.
Lemma eval2_spec s x h A : eval2 s x = Ok (h, A) -> valid s -> grows [] (mem s) h /\ fit h (cells2 A) /\
  (match x with STemp2 _ => true | _ => false end = true -> fresh_in (mem s) h (cells2 A)).
Proof.
  destruct x as [xs|i a]; cbn [eval2].
  - intros E V. assert (E' : alloc2 (mem s) xs = (h, A)) by congruence. apply alloc2_spec in E' as (G & _ & N & I).
    split; [exact G|]. split; [intros c Hc; apply I in Hc; lia|]. intros _. split; assumption.
  - destruct (find_obj s i) as [o|] eqn:F; [|discriminate]. cbn [rbind]. destruct (attr2 o a) as [r|] eqn:R; [|discriminate].
    intros E V. injection E as <- <-. split; [apply grows_refl|]. split; [|discriminate]. intros c Hc.
    apply find_obj_nth in F. eapply valid_fit; eauto. eapply attr2_in; eauto.
Qed.
Lemma arg_of_spec s x h A : arg_of s x = Ok (h, A) -> valid s -> grows [] (mem s) h /\ fit h A /\ (from_variable x = false -> fresh_in (mem s) h A).
Proof.
  destruct x as [x|]; cbn [arg_of]; [apply eval_spec|]. intros E V. injection E as <- <-. split; [apply grows_refl|]. split; [intros c []|]. intros _. apply fresh_nil.
Qed.
Lemma valid_with s h : grows [] (mem s) h -> valid s -> valid (with_mem s h).
Proof. intros [L _] V o c Ho Hc. cbn in *. specialize (V o c Ho Hc). lia. Qed.

Lemma bound_cases (A : list nat) b : b = A \/ b = [] -> (forall c, In c b -> In c A) /\ (NoDup A -> NoDup b).
Proof. intros [-> | ->]; split; auto; [intros c []|intros; constructor]. Qed.

Lemma vec_in_touched s i c s' r : valid s -> vec_in expf sqrtf s i c = (s', r) ->
  s' = s \/ touched (negb (from_variable (varg c))) s s' i.
Proof.
  unfold vec_in. intros V. destruct (find_obj s i) as [o|] eqn:F; [|intros E; injection E as <- _; auto].
  destruct o as [a|a|v|m]; try (intros E; injection E as <- _; auto; fail).
  destruct (arg_of s (varg c)) as [[h A]|] eqn:AR; [|intros E; injection E as <- _; auto].
  destruct (veffect c (look_vec h v) A (get h A)) as [e|] eqn:VE; [|intros E; injection E as <- _; auto].
  destruct (do_vec h v e) as [h' v'] eqn:D. intros E; injection E as <- _. right.
  apply find_obj_nth in F. pose proof (valid_fit _ _ _ V F) as FT. cbn [cells] in FT.
  apply arg_of_spec in AR as (G0 & FA & FR); [|exact V]. apply veffect_good in VE as (VG & BD & _).
  destruct (bound_cases _ _ BD) as [BI BN].
  exists (HVec v), (HVec v'). cbn [mem objs cells]. split; [exact F|].
  assert (Fh : fit h (vcells v)) by (eapply fit_grows; eauto).
  destruct (do_vec_spec _ _ _ _ _ VG D) as (G & I & C). pose proof (grows_le _ _ _ G0) as L0. pose proof (grows_le _ _ _ G) as L1.
  split; [eapply grows_trans; [eapply grows_mono; [|exact G0]; intros ? []|exact G]|]. split; [reflexivity|]. split.
  - intros x Hx. apply I in Hx as [Hx|[Hx|Hx]]; [apply Fh in Hx; lia|lia|apply BI, FA in Hx; lia].
  - intros CL. apply negb_true_iff in CL. specialize (FR CL) as [NA IA].
    eapply part_mono; [|apply (do_vec_part (fun x => length (mem s) <= x < length h) _ _ _ _ _ VG D Fh)].
    + cbn beta. intros x Hx. lia.
    + auto.
    + intros x Hx. apply IA, BI, Hx.
    + cbn beta. intros x Hx. split; [lia|]. intros Hv. apply FT in Hv. lia.
Qed.
Lemma mat_in_touched s i c s' r : valid s -> mat_in gauss argsort s i c = (s', r) ->
  s' = s \/ touched (negb (from_variable (marg c))) s s' i.
Proof.
  unfold mat_in. intros V. destruct (find_obj s i) as [o|] eqn:F; [|intros E; injection E as <- _; auto].
  destruct o as [a|a|v|m]; try (intros E; injection E as <- _; auto; fail).
  destruct (arg_of s (marg c)) as [[h A]|] eqn:AR; [|intros E; injection E as <- _; auto].
  destruct (meffect c (look_mat h m) A (get h A)) as [e|] eqn:ME; [|intros E; injection E as <- _; auto].
  destruct (do_mat h m e) as [h' m'] eqn:D. intros E; injection E as <- _. right.
  apply find_obj_nth in F. pose proof (valid_fit _ _ _ V F) as FT. cbn [cells] in FT.
  apply arg_of_spec in AR as (G0 & FA & FR); [|exact V]. apply meffect_good in ME as (MG & NB & BD & _).
  destruct (bound_cases _ _ BD) as [BI BN].
  exists (HMat m), (HMat m'). cbn [mem objs cells]. split; [exact F|].
  assert (Fh : fit h (mcells m)) by (eapply fit_grows; eauto).
  destruct (do_mat_spec _ _ _ _ _ MG D) as (G & I & C). pose proof (grows_le _ _ _ G0) as L0. pose proof (grows_le _ _ _ G) as L1.
  split; [eapply grows_trans; [eapply grows_mono; [|exact G0]; intros ? []|exact G]|]. split; [reflexivity|]. split.
  - intros x Hx. apply I in Hx as [Hx|[Hx|Hx]]; [apply Fh in Hx; lia|lia|apply BI, FA in Hx; lia].
  - intros CL. apply negb_true_iff in CL. specialize (FR CL) as [NA IA].
    eapply part_mono; [|apply (do_mat_part (fun x => length (mem s) <= x < length h) _ _ _ _ _ NB D Fh)].
    + cbn beta. intros x Hx. lia.
    + auto.
    + intros x Hx. apply IA, BI, Hx.
    + cbn beta. intros x Hx. split; [lia|]. intros Hv. apply FT in Hv. lia.
Qed.

Lemma made_one s h o : grows [] (mem s) h -> fresh_in (mem s) h (cells o) -> made true s (mkHeap h (objs s ++ [o])).
Proof.
  intros G F. split; [exact G|]. exists [o]. cbn [mem objs ocells_of map concat]. unfold ocells_of. cbn [map concat]. rewrite app_nil_r.
  split; [reflexivity|]. split; [eapply fresh_fit; eauto|auto].
Qed.
Lemma vec_out_made s i c s' r : valid s -> vec_has_inplace c = true -> vec_out expf sqrtf s i c = (s', r) -> s' = s \/ made true s s'.
Proof.
  unfold vec_out. intros V IP. destruct (find_obj s i) as [o|] eqn:F; [|intros E; injection E as <- _; auto].
  destruct o as [a|a|v|m]; try (intros E; injection E as <- _; auto; fail).
  destruct (arg_of s (varg c)) as [[h A]|] eqn:AR; [|intros E; injection E as <- _; auto].
  destruct (veffect c (look_vec h v) A (get h A)) as [e|] eqn:VE; [|intros E; injection E as <- _; auto].
  destruct (do_vec h v e) as [h1 w] eqn:D. destruct (match c with CRebin _ _ => (None, KeV) | _ => _ end) as [sd u] eqn:Q.
  destruct (new_vec h1 (hv_values w) (hv_E w) sd u) as [h2 w'] eqn:NV. destruct (v_verify _); intros E; injection E as <- _; auto. right.
  apply arg_of_spec in AR as (G0 & _); [|exact V]. apply veffect_good in VE as (VG & _ & _ & CL). destruct (CL IP) as (C1 & C2 & C3).
  pose proof (grows_calm_vec _ _ _ _ _ VG C1 C2 C3 D) as G1. apply new_vec_spec in NV as (G2 & FR & _).
  apply (made_one s h2 (HVec w')).
  - exact (grows_trans _ _ _ _ G0 (grows_trans _ _ _ _ G1 G2)).
  - cbn [cells]. apply grows_le in G0, G1. eapply fresh_mono; [| |exact FR]; lia.
Qed.
Lemma deep_do_mat h m e h1 w h2 w' : deep_mat h m = (h1, w) -> mgood e -> (not_bind (me_Ex e) \/ not_bind (me_Eg e)) -> mbound e = [] -> do_mat h1 w e = (h2, w') ->
  grows [] h h2 /\ fresh_in h h2 (mcells w').
Proof.
  intros D MG NB MB E. apply deep_mat_spec in D as (G1 & FR & _). destruct (do_mat_spec _ _ _ _ _ MG E) as (G2 & _ & _).
  pose proof (grows_le _ _ _ G1). pose proof (grows_le _ _ _ G2). split.
  - eapply grows_fresh; [exact G1| |exact G2]. intros c Hc. apply FR in Hc. lia.
  - apply (part_fresh h h1 h2 (mcells w)); [lia|exact FR|]. apply (do_mat_part (fun _ => False) _ _ _ _ _ NB E).
    + eapply fresh_fit; eauto.
    + rewrite MB. constructor.
    + rewrite MB. intros ? [].
    + intros ? [].
Qed.
Lemma deep_do_vec h v e h1 w h2 w' : deep_vec h v = (h1, w) -> vgood e -> bound1 (ve_E e) = [] -> do_vec h1 w e = (h2, w') ->
  grows [] h h2 /\ fresh_in h h2 (vcells w').
Proof.
  intros D VG MB E. apply new_vec_spec in D as (G1 & FR & _). destruct (do_vec_spec _ _ _ _ _ VG E) as (G2 & _ & _).
  pose proof (grows_le _ _ _ G1). pose proof (grows_le _ _ _ G2). split.
  - eapply grows_fresh; [exact G1| |exact G2]. intros c Hc. apply FR in Hc. lia.
  - apply (part_fresh h h1 h2 (vcells w)); [lia|exact FR|]. apply (do_vec_part (fun _ => False) _ _ _ _ _ VG E).
    + eapply fresh_fit; eauto.
    + rewrite MB. constructor.
    + rewrite MB. intros ? [].
    + intros ? [].
Qed.
Lemma mcells0_none m : hm_std m = None -> mcells m = mcells0 m.
Proof. intros E. rewrite mcells_split, E. cbn. apply app_nil_r. Qed.
Lemma mat_out_made s i c s' r : valid s -> mat_has_inplace c = true -> mat_out gauss argsort s i c = (s', r) -> s' = s \/ made true s s'.
Proof.
  unfold mat_out. intros V IP. destruct (find_obj s i) as [o|] eqn:F; [|intros E; injection E as <- _; auto].
  destruct o as [a|a|v|m]; try (intros E; injection E as <- _; auto; fail).
  destruct (arg_of s (marg c)) as [[h A]|] eqn:AR; [|intros E; injection E as <- _; auto].
  apply arg_of_spec in AR as (G0 & _); [|exact V]. pose proof (grows_le _ _ _ G0) as L0.
  assert (P1 : match c with CMCut _ _ _ _ _ | CMRebin _ _ _ => true | _ => false end = true -> forall e,
     meffect c (look_mat h m) A (get h A) = Ok e ->
     (let (h1, w) := do_mat h m e in
      let (h2, w') := new_mat h1 (hm_values w) (hm_Eg w) (hm_Ex w) None None in
      match verify_integrity (look_mat h2 w') with Ok _ => bind_new h2 s [HMat w'] | Raise e => fail s e end) = (s', r) -> s' = s \/ made true s s').
  { intros C e ME. destruct (do_mat h m e) as [h1 w] eqn:D. destruct (new_mat h1 _ _ _ None None) as [h2 w'] eqn:NM.
    destruct (verify_integrity _); intros E; injection E as <- _; auto. right.
    apply meffect_good in ME as (_ & _ & _ & _ & CL). destruct (CL C) as (C1 & C2 & C3).
    pose proof (grows_calm_mat _ _ _ _ _ C1 C2 C3 D) as G1. apply new_mat_spec in NM as (G2 & FR & SD & _).
    apply (made_one s h2 (HMat w')); [exact (grows_trans _ _ _ _ G0 (grows_trans _ _ _ _ G1 G2))|].
    cbn [cells]. rewrite mcells0_none by exact SD. apply grows_le in G1. eapply fresh_mono; [| |exact FR]; lia. }
  assert (P2 : marg c = None -> (let (h1, w) := deep_mat h m in
     match meffect c (look_mat h1 w) A (get h1 A) with
     | Raise e => fail s e
     | Ok eff => let (h2, w') := do_mat h1 w eff in bind_new h2 s [HMat w'] end) = (s', r) -> s' = s \/ made true s s').
  { intros MA. destruct (deep_mat h m) as [h1 w] eqn:DM. destruct (meffect c (look_mat h1 w) A (get h1 A)) as [e|] eqn:ME; [|intros E; injection E as <- _; auto].
    destruct (do_mat h1 w e) as [h2 w'] eqn:D. intros E; injection E as <- _. right.
    apply meffect_good in ME as (MG & NB & _ & MB & _). destruct (deep_do_mat _ _ _ _ _ _ _ DM MG NB (MB MA) D) as [G FR].
    apply (made_one s h2 (HMat w')); [exact (grows_trans _ _ _ _ G0 G)|]. cbn [cells]. eapply fresh_mono; [| |exact FR]; lia. }
  destruct c; try discriminate IP; try (apply P2; reflexivity);
    (match goal with |- context [match ?QQ with Ok _ => _ | Raise _ => _ end] => destruct QQ as [e|] eqn:ME; [apply (P1 eq_refl e eq_refl)|intros E; injection E as <- _; auto] end).
Qed.
Lemma arith_made s o i y s' r : arith s o i y = (s', r) -> s' = s \/ made true s s'.
Proof.
  unfold arith. destruct (find_obj s i) as [ob|] eqn:F; [|intros E; injection E as <- _; auto].
  destruct ob as [a|a|v|m]; try (intros E; injection E as <- _; auto; fail).
  - match goal with |- context [match ?QQ with Ok _ => _ | Raise _ => _ end] => destruct QQ as [x|]; [|intros E; injection E as <- _; auto] end.
    destruct (all_some (xv_values x)) as [vals|]; [|intros E; injection E as <- _; auto].
    destruct (deep_vec (mem s) v) as [h1 w] eqn:DV. destruct (do_vec h1 w _) as [h2 w'] eqn:D. intros E; injection E as <- _. right.
    eapply deep_do_vec in D as [G FR]; [| exact DV| |reflexivity].
    + apply (made_one s h2 (HVec w')); assumption.
    + destruct (in_place_op o); vg.
  - match goal with |- context [match ?QQ with Ok _ => _ | Raise _ => _ end] => destruct QQ as [x|]; [|intros E; injection E as <- _; auto] end.
    destruct (all_some _) as [vals|]; [|intros E; injection E as <- _; auto].
    destruct (deep_mat (mem s) m) as [h1 w] eqn:DV. destruct (do_mat h1 w _) as [h2 w'] eqn:D. intros E; injection E as <- _. right.
    eapply deep_do_mat in D as [G FR]; [| exact DV| | |reflexivity].
    + apply (made_one s h2 (HMat w')); assumption.
    + left; split; nb.
    + left; nb.
Qed.
Lemma matmul_made s i j s' r : matmul s i j = (s', r) -> s' = s \/ made true s s'.
Proof.
  unfold matmul. destruct (find_obj s i) as [[a|a|v|m]|], (find_obj s j) as [[b|b|w|w]|]; try (intros E; injection E as <- _; auto; fail).
  destruct (m_matmul _ _) as [p|]; [|intros E; injection E as <- _; auto].
  destruct (deep_mat (mem s) m) as [h1 x] eqn:DV. destruct (do_mat h1 x _) as [h2 x'] eqn:D. intros E; injection E as <- _. right.
  eapply deep_do_mat in D as [G FR]; [| exact DV| | |reflexivity].
  - apply (made_one s h2 (HMat x')); assumption.
  - left; split; nb.
  - left; nb.
Qed.
Lemma eval_opt_spec s x h A : eval_opt eval s x = Ok (h, A) -> valid s -> grows [] (mem s) h /\ fit h (ocells A).
Proof.
  destruct x as [x|]; cbn [eval_opt].
  - destruct (eval s x) as [[h1 a]|] eqn:E; [|discriminate]. cbn [rbind]. intros Q V. injection Q as <- <-. apply eval_spec in E as (G & F & _); auto.
  - intros E V. injection E as <- <-. split; [apply grows_refl|intros c []].
Qed.
Definition std_bound (x : option src2) : bool := match x with Some (SAttr2 _ _) => true | _ => false end.
Lemma eval_opt2_spec s x h A : eval_opt eval2 s x = Ok (h, A) -> valid s -> grows [] (mem s) h /\ fit h (ocells2 A) /\
  (std_bound x = false -> fresh_in (mem s) h (ocells2 A)).
Proof.
  destruct x as [x|]; cbn [eval_opt].
  - destruct (eval2 s x) as [[h1 a]|] eqn:E; [|discriminate]. cbn [rbind]. intros Q V. injection Q as <- <-. apply eval2_spec in E as (G & F & K); auto.
    split; [exact G|]. split; [exact F|]. intros SB. apply K. destruct x; [reflexivity|discriminate SB].
  - intros E V. injection E as <- <-. split; [apply grows_refl|]. split; [intros c []|intros _; apply fresh_nil].
Qed.
Lemma grows_nil_any own h h' : grows [] h h' -> grows own h h'. Proof. apply grows_mono. intros ? []. Qed.
Lemma vec_new_made s vals E sd u s' r : valid s -> vec_new s vals E sd u = (s', r) -> s' = s \/ made true s s'.
Proof.
  unfold vec_new. intros V. match goal with |- context [match ?QQ with Ok _ => _ | Raise _ => _ end] => destruct QQ as [[[[h e] w] d]|] eqn:Q; [|intros K; injection K as <- _; auto] end.
  destruct (eval s E) as [[h1 e0]|] eqn:E1; [|discriminate Q]. cbn [rbind] in Q. apply eval_spec in E1 as (G1 & _); [|exact V].
  destruct (eval_opt eval (with_mem s h1) vals) as [[h2 w0]|] eqn:E2; [|discriminate Q]. cbn [rbind] in Q. apply eval_opt_spec in E2 as (G2 & _); [|apply valid_with; auto].
  cbn [with_mem mem] in G2. pose proof (grows_trans _ _ _ _ G1 G2) as G12.
  destruct (eval_opt eval (with_mem s h2) sd) as [[h3 d0]|] eqn:E3; [|discriminate Q]. cbn [rbind] in Q. apply eval_opt_spec in E3 as (G3 & _); [|apply valid_with; auto].
  cbn [with_mem mem] in G3. pose proof (grows_trans _ _ _ _ G12 G3) as G. injection Q as <- <- <- <-.
  destruct (match w0 with Some w => (h3, w) | None => _ end) as [h0 w] eqn:W.
  assert (G0 : grows [] h3 h0). { destruct w0; [injection W as <- <-; apply grows_refl|]. apply alloc_spec in W as (W & _). exact W. }
  destruct (new_vec h0 w e0 d0 u) as [h' v] eqn:NV. destruct (v_verify _); intros K; injection K as <- _; auto. right.
  apply new_vec_spec in NV as (G4 & FR & _). pose proof (grows_trans _ _ _ _ G G0) as G'.
  apply (made_one s h' (HVec v)); [exact (grows_trans _ _ _ _ G' G4)|]. cbn [cells]. apply grows_le in G'. eapply fresh_mono; [| |exact FR]; lia.
Qed.
Lemma mat_new_made s vals eg ex sd st s' r : valid s -> mat_new s vals eg ex sd st = (s', r) -> s' = s \/ made (negb (std_bound sd)) s s'.
Proof.
  unfold mat_new. intros V. match goal with |- context [match ?QQ with Ok _ => _ | Raise _ => _ end] => destruct QQ as [[[[[h w] g] x] d]|] eqn:Q; [|intros K; injection K as <- _; auto] end.
  destruct (eval2 s vals) as [[h1 w0]|] eqn:E1; [|discriminate Q]. cbn [rbind] in Q. apply eval2_spec in E1 as (G1 & _); [|exact V].
  destruct (eval_opt eval (with_mem s h1) eg) as [[h2 g0]|] eqn:E2; [|discriminate Q]. cbn [rbind] in Q. apply eval_opt_spec in E2 as (G2 & _); [|apply valid_with; auto].
  cbn [with_mem mem] in G2. pose proof (grows_trans _ _ _ _ G1 G2) as G12.
  destruct (eval_opt eval (with_mem s h2) ex) as [[h3 x0]|] eqn:E3; [|discriminate Q]. cbn [rbind] in Q. apply eval_opt_spec in E3 as (G3 & _); [|apply valid_with; auto].
  cbn [with_mem mem] in G3. pose proof (grows_trans _ _ _ _ G12 G3) as G123.
  destruct (eval_opt eval2 (with_mem s h3) sd) as [[h4 d0]|] eqn:E4; [|discriminate Q]. cbn [rbind] in Q. apply eval_opt2_spec in E4 as (G4 & FD & FRD); [|apply valid_with; auto].
  cbn [with_mem mem] in G4, FRD. pose proof (grows_trans _ _ _ _ G123 G4) as G.
  injection Q as <- <- <- <- <-.
  destruct (match x0 with Some x => (h4, x) | None => _ end) as [h5 x] eqn:X.
  assert (G5 : grows [] h4 h5). { destruct x0; [injection X as <- <-; apply grows_refl|]. apply alloc_spec in X as (X & _). exact X. }
  destruct (match g0 with Some g => (h5, g) | None => _ end) as [h6 g] eqn:GG.
  assert (G6 : grows [] h5 h6). { destruct g0; [injection GG as <- <-; apply grows_refl|]. apply alloc_spec in GG as (GG & _). exact GG. }
  destruct (new_mat h6 w0 g x d0 None) as [h' m] eqn:NM. destruct (do _ <- verify_integrity _ ;; _) as [t0|]; intros K; injection K as <- _; auto. right.
  apply new_mat_spec in NM as (G7 & FR & SD & _).
  pose proof (grows_trans _ _ _ _ G5 (grows_trans _ _ _ _ G6 G7)) as G57.
  pose proof (grows_le _ _ _ G) as L1. pose proof (grows_le _ _ _ G57) as L2. pose proof (grows_le _ _ _ G123) as L3. pose proof (grows_le _ _ _ G4) as L4.
  pose proof (grows_le _ _ _ G5) as L5. pose proof (grows_le _ _ _ G6) as L6. pose proof (grows_le _ _ _ G7) as L7.
  split; [exact (grows_trans _ _ _ _ G G57)|]. eexists. cbn [mem objs]. split; [reflexivity|]. unfold ocells_of. cbn [map concat cells]. rewrite app_nil_r.
  change (mcells (mkHM (hm_values m) (hm_Eg m) (hm_Ex m) (hm_std m) t0)) with (mcells m). split.
  - intros c Hc. rewrite mcells_split, SD, in_app_iff in Hc. destruct Hc as [Hc|Hc]; [apply FR in Hc; lia|apply FD in Hc; lia].
  - intros CL. apply negb_true_iff in CL. specialize (FRD CL). rewrite mcells_split, SD.
    eapply fresh_perm; [apply Permutation.Permutation_app_comm|].
    apply (fresh_app (mem s) h4 h'); [lia|lia| |eapply fresh_mono; [| |exact FR]; lia]. eapply fresh_mono; [| |exact FRD]; lia.
Qed.

Lemma rows_in (a : harr2) r x c : nth_error (h_rows a) r = Some x -> In c x -> In c (cells2 a).
Proof. intros H Hc. unfold cells2. apply in_concat. exists x. split; [eapply nth_error_In; eauto|exact Hc]. Qed.
Lemma set_touched s i o own f : valid s -> nth_error (objs s) i = Some o -> (forall c, In c own -> In c (cells o)) ->
  grows own (mem s) f -> touched true s (with_mem s f) i.
Proof.
  intros V F I G. exists o, o. cbn [with_mem mem objs]. split; [exact F|]. split; [eapply grows_mono; [|exact G]; auto|].
  split; [symmetry; apply upd_same; exact F|]. split.
  - intros c Hc. pose proof (valid_fit _ _ _ V F c Hc). apply grows_le in G. lia.
  - intros _. apply part_refl.
Qed.

(* the kind of every statement *)
Lemma step_kind s o s' r : valid s -> step s o = (s', r) ->
  s' = s \/ (operates_on o = None /\ made (negb (shares o)) s s') \/ (exists i, operates_on o = Some i /\ touched (negb (shares o)) s s' i).
Proof.
  intros V. destruct o as [xs|x|i k x|i p q x|vals E sd u|vals eg ex sd st|i|i c|i c|i c|i c|ao i y|i j|i ax a b n|i q]; cbn [AliasModel.step operates_on shares negb].
  - destruct (alloc (mem s) xs) as [h a] eqn:A. intros E; injection E as <- _. right; left. split; [reflexivity|].
    apply alloc_spec in A as (G & _ & N & I & _). apply (made_one s h (HArr a)); [exact G|split; [exact N|intros c; apply I]].
  - destruct (alloc2 (mem s) x) as [h a] eqn:A. intros E; injection E as <- _. right; left. split; [reflexivity|].
    apply alloc2_spec in A as (G & _ & N & I). apply (made_one s h (HArr2 a)); [exact G|split; assumption].
  - destruct (find_obj s i) as [[a|a|v|m]|] eqn:F; try (intros E; injection E as <- _; auto; fail); apply find_obj_nth in F.
    + destruct (_ <? _); intros E; injection E as <- _; auto. right; right. exists i. split; [reflexivity|].
      eapply set_touched; [exact V|exact F| |apply write_spec]. auto.
    + destruct (_ <? _); intros E; injection E as <- _; auto. right; right. exists i. split; [reflexivity|].
      eapply set_touched; [exact V|exact F| |apply write_spec]. cbn [cells]. unfold vcells. intros c Hc. rewrite in_app_iff. auto.
  - destruct (find_obj s i) as [[a|a|v|m]|] eqn:F; try (intros E; injection E as <- _; auto; fail); apply find_obj_nth in F.
    + destruct (_ && _)%bool; intros E; injection E as <- _; auto. right; right. exists i. split; [reflexivity|].
      eapply set_touched; [exact V|exact F| |apply write_rows_spec]. auto.
    + destruct (_ && _)%bool; intros E; injection E as <- _; auto. right; right. exists i. split; [reflexivity|].
      eapply set_touched; [exact V|exact F| |apply write_rows_spec]. cbn [cells]. unfold mcells. intros c Hc. rewrite in_app_iff. auto.
  - intros H. apply vec_new_made in H as [H|H]; auto.
  - intros H. apply mat_new_made in H as [H|H]; auto.
  - destruct (find_obj s i) as [[a|a|v|m]|] eqn:F; try (intros E; injection E as <- _; auto; fail).
    + destruct (copy1 _ _) as [h b] eqn:C. intros E; injection E as <- _. right; left. split; [reflexivity|]. apply copy1_spec in C as (G & _ & FR). apply (made_one s h (HArr b)); assumption.
    + destruct (copy2 _ _) as [h b] eqn:C. intros E; injection E as <- _. right; left. split; [reflexivity|]. apply copy2_spec in C as (G & _ & FR). apply (made_one s h (HArr2 b)); assumption.
    + destruct (deep_vec _ _) as [h b] eqn:C. intros E; injection E as <- _. right; left. split; [reflexivity|]. apply new_vec_spec in C as (G & FR & _). apply (made_one s h (HVec b)); assumption.
    + destruct (deep_mat _ _) as [h b] eqn:C. intros E; injection E as <- _. right; left. split; [reflexivity|]. apply deep_mat_spec in C as (G & FR & _). apply (made_one s h (HMat b)); assumption.
  - intros H. apply vec_in_touched in H as [H|H]; auto. right; right. exists i. split; [reflexivity|]. destruct c; exact H.
  - destruct (vec_has_inplace c) eqn:IP; [|intros E; injection E as <- _; auto]. intros H. apply vec_out_made in H as [H|H]; auto.
  - intros H. apply mat_in_touched in H as [H|H]; auto. right; right. exists i. split; [reflexivity|]. destruct c; exact H.
  - destruct (mat_has_inplace c) eqn:IP; [|intros E; injection E as <- _; auto]. intros H. apply mat_out_made in H as [H|H]; auto.
  - intros H. apply arith_made in H as [H|H]; auto.
  - intros H. apply matmul_made in H as [H|H]; auto.
  - unfold project. destruct (find_obj s i) as [[x|x|v|m]|] eqn:F; try (intros E; injection E as <- _; auto; fail).
    destruct (projection _ _ _ _ _) as [[p e]|]; [|intros E; injection E as <- _; auto]. destruct (to_plot_axis ax) as [pa|]; [|intros E; injection E as <- _; auto].
    destruct (alloc (mem s) p) as [h w] eqn:A. intros E; injection E as <- _. right; left. split; [reflexivity|].
    apply alloc_spec in A as (G & _ & N & I & _). split; [exact G|]. eexists. cbn [mem objs bind_new fst]. split; [reflexivity|]. split; [|discriminate].
    unfold ocells_of. cbn [map concat cells]. rewrite app_nil_r. intros c Hc. apply find_obj_nth in F. pose proof (valid_fit _ _ _ V F c) as FT. cbn [cells] in FT.
    unfold mcells in FT. rewrite !in_app_iff in FT. apply grows_le in G. rewrite in_app_iff in Hc. destruct Hc as [Hc|Hc]; [apply I in Hc; lia|].
    destruct pa; (assert (c < length (mem s)) by (apply FT; auto); lia).
  - destruct (find_obj s i) as [[x|x|v|m]|] eqn:F; try (intros E; injection E as <- _; auto; fail); apply find_obj_nth in F.
    + destruct (nth_error (h_rows x) q) as [a|] eqn:R; [|intros E; injection E as <- _; auto]. intros E; injection E as <- _. right; left. split; [reflexivity|].
      split; [apply grows_refl|]. eexists. cbn [mem objs]. split; [reflexivity|]. split; [|discriminate]. unfold ocells_of; cbn [map concat cells]. rewrite app_nil_r.
      intros c Hc. apply (valid_fit _ _ _ V F). cbn [cells]. eapply rows_in; eauto.
    + destruct (nth_error (h_rows (hm_values m)) q) as [a|] eqn:R; [|intros E; injection E as <- _; auto]. intros E; injection E as <- _. right; left. split; [reflexivity|].
      split; [apply grows_refl|]. eexists. cbn [mem objs]. split; [reflexivity|]. split; [|discriminate]. unfold ocells_of; cbn [map concat cells]. rewrite app_nil_r.
      intros c Hc. apply (valid_fit _ _ _ V F). cbn [cells]. unfold mcells. rewrite in_app_iff. left. eapply rows_in; eauto.
Qed.
End Oracles.
