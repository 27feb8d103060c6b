(* C117: the points to which the extrapolations are fitted. *)
From Verif Require Import PyBase MatrixModel CutSpec IndexProofs CutProofs FitWinModel.
From Coq Require Import Lia.
Import ListNotations.
Local Open Scope Qc_scope.

(* ------------------------------------------------------------------ specification *)
Definition fine (v : gvec) : Prop := increasing (gv_E v) /\ length (gv_values v) = length (gv_E v) /\
  (forall s, gv_std v = Some s -> length s = length (gv_E v)).
(* the points of v at the positions first .. last *)
Definition is_window (v : gvec) (first last : nat) (p : points) : Prop :=
  (first <= last < length (gv_E v))%nat /\ length (pt_E p) = (last - first + 1)%nat /\ length (pt_values p) = (last - first + 1)%nat /\
  (forall k, (k <= last - first)%nat -> nth k (pt_E p) 0 = nth (first + k) (gv_E v) 0 /\ nth k (pt_values p) 0 = nth (first + k) (gv_values v) 0) /\
  match gv_std v, pt_std p with
  | None, None => True
  | Some s, Some t => length t = (last - first + 1)%nat /\ forall k, (k <= last - first)%nat -> nth k t 0 = nth (first + k) s 0
  | _, _ => False
  end.

(* ------------------------------------------------------------------ lemmas *)
Lemma divmul x y : y <> 0 -> x / y * y = x.
Proof. intros H. field. exact H. Qed.
Lemma nth_between {A} i j (l : list A) k d : (k < j - i)%nat -> nth k (between i j l) d = nth (i + k) l d.
Proof. intros K. unfold between. now rewrite nth_firstn_lt, nth_skipn by exact K. Qed.
Lemma length_between {A} i j (l : list A) : (i <= j <= length l)%nat -> length (between i j l) = (j - i)%nat.
Proof. intros H. unfold between. rewrite firstn_length, skipn_length. lia. Qed.
Lemma inc_nth l i j : increasing l -> (i < j < length l)%nat -> nth i l 0 < nth j l 0.
Proof.
  intros S. revert i j. induction S as [|x l S IH F]; intros i j H; cbn in H; [lia|]. destruct i as [|i], j as [|j]; try lia; cbn.
  - rewrite Forall_forall in F. apply F, nth_In. lia. - apply IH. lia.
Qed.
Lemma inc_nondec l : increasing l -> nondecreasing l.
Proof. intros S. induction S as [|x l S IH F]; constructor; [exact IH|]. eapply Forall_impl; [|exact F]. intros y. apply Qclt_le_weak. Qed.
Lemma nearest_at l k : increasing l -> (k < length l)%nat -> nearest l (nth k l 0) k.
Proof.
  intros S K. assert (Z : qabs (nth k l 0 - nth k l 0) = 0) by (replace (nth k l 0 - nth k l 0) with 0 by ring; reflexivity). split; [exact K|]. rewrite Z. split.
  - intros j J. destruct (qabs_spec (nth j l 0 - nth k l 0)) as [[A B]|[A B]]; rewrite B; qlra.
  - intros j J. pose proof (inc_nth l k j S J). destruct (qabs_spec (nth j l 0 - nth k l 0)) as [[A B]|[A B]]; rewrite B; qlra.
Qed.
Lemma index_at l k : increasing l -> (k < length l)%nat -> index l (nth k l 0) = k.
Proof.
  intros S K. apply (nearest_unique l (nth k l 0)); [|now apply nearest_at]. apply index_nearest_lemma; [|now apply inc_nondec]. intros ->. cbn in K. lia.
Qed.
Lemma nearest_mono l a b i j : increasing l -> a < b -> nearest l a i -> nearest l b j -> (i <= j)%nat.
Proof.
  intros S L (A1 & A2 & A3) (B1 & B2 & B3). destruct (Nat.le_gt_cases i j) as [|H]; [assumption|]. exfalso.
  pose proof (inc_nth l j i S (conj H A1)) as I. specialize (A2 j B1). specialize (B3 i (conj H A1)).
  destruct (qabs_spec (nth i l 0 - a)) as [[P Q]|[P Q]], (qabs_spec (nth j l 0 - a)) as [[P' Q']|[P' Q']]; rewrite Q, Q' in A2;
  destruct (qabs_spec (nth i l 0 - b)) as [[U V]|[U V]], (qabs_spec (nth j l 0 - b)) as [[U' V']|[U' V']]; rewrite V, V' in B3; qlra.
Qed.
Lemma window_of v i j : fine v -> (i <= j < length (gv_E v))%nat ->
  is_window v i j (mkPts (between i (S j) (gv_E v)) (between i (S j) (gv_values v)) (option_map (between i (S j)) (gv_std v))).
Proof.
  intros (S & LV & LS) H. split; [exact H|]. cbn [pt_E pt_values pt_std]. rewrite !length_between by lia. split; [lia|]. split; [lia|]. split.
  - intros k K. now rewrite !nth_between by lia.
  - destruct (gv_std v) as [s|]; [|exact I]. cbn [option_map]. specialize (LS s eq_refl). rewrite length_between by lia. split; [lia|]. intros k K. now rewrite nth_between by lia.
Qed.
Lemma fit_points_spec v a b : fine v -> gv_E v <> [] -> a < b -> exists i j, nearest (gv_E v) a i /\ nearest (gv_E v) b j /\ (i <= j)%nat /\
  ((i = j /\ fit_points v a b = Raise TypeError) \/ ((i < j)%nat /\ exists p, fit_points v a b = Ok p /\ is_window v i j p)).
Proof.
  intros F NE L. pose proof (index_nearest_lemma (gv_E v) a NE (inc_nondec _ (proj1 F))) as NA. pose proof (index_nearest_lemma (gv_E v) b NE (inc_nondec _ (proj1 F))) as NB.
  exists (index (gv_E v) a), (index (gv_E v) b). split; [exact NA|]. split; [exact NB|]. pose proof (nearest_mono _ _ _ _ _ (proj1 F) L NA NB) as M. split; [exact M|].
  unfold fit_points. rewrite (proj2 (qltb_lt a b) L). set (i := index (gv_E v) a) in *. set (j := index (gv_E v) b) in *. clearbody i j. destruct NB as (JB & _).
  cbn [pt_E]. rewrite length_between by lia. destruct (Nat.eq_dec i j) as [E|E].
  - left. split; [exact E|]. replace (S j - i)%nat with 1%nat by lia. reflexivity.
  - right. split; [lia|]. replace (S j - i)%nat with (S (S (j - i - 1)))%nat by lia. eexists. split; [reflexivity|]. apply window_of; [exact F|lia].
Qed.

(* ------------------------------------------------------------------ theorems *)
(* Without a given range and with at least 8 bins: the low model is fitted to the bins 2 to
   n/6+2, the high model to the bins n-n/6-2 to n-2 (counted from 0). *)
Theorem default_window : forall (high : bool) v, fine v -> gv_MeV v = true -> (8 <= length (gv_E v))%nat ->
  let n := length (gv_E v) in
  let first := (if high then n - n / 6 - 2 else 2)%nat in
  let last := (if high then n - 2 else n / 6 + 2)%nat in
  exists p, fit high v None None efit_new = (mkEfit true (Some (nth first (gv_E v) 0)) (Some (nth last (gv_E v) 0)), Ok p) /\
    is_window v first last p /\ (2 <= length (pt_E p))%nat.
Proof.
  intros high v F M N n first last. assert (D : (1 <= n / 6)%nat) by (apply (Nat.div_le_lower_bound n 6 1); unfold n; lia). assert (U : (6 * (n / 6) <= n)%nat) by (apply Nat.mul_div_le; lia). unfold n in *. clear n.
  set (n := length (gv_E v)) in *. assert (FL : (first < last < n)%nat) by (unfold first, last; destruct high; lia).
  unfold fit, autofitrange, mev, auto_one. rewrite M. fold n. cbn [efit_new ef_low ef_high ef_list]. rewrite (proj2 (Nat.ltb_ge n 8)) by exact N.
  change (if high then (n - n / 6 - 2)%nat else 2%nat) with first. change (if high then (n - 2)%nat else (n / 6 + 2)%nat) with last.
  rewrite !(nth_error_nth' (gv_E v) 0) by (fold n; lia). cbn [ef_low ef_high].
  assert (NE : gv_E v <> []) by (intros E; unfold n in N; rewrite E in N; cbn in N; lia).
  destruct (fit_points_spec v _ _ F NE (inc_nth (gv_E v) first last (proj1 F) FL)) as (i & j & NI & NJ & _ & H).
  apply (nearest_unique _ _ _ first) in NI; [|apply nearest_at; [apply F|fold n; lia]]. apply (nearest_unique _ _ _ last) in NJ; [|apply nearest_at; [apply F|fold n; lia]]. subst i j.
  destruct H as [[H _]|(_ & p & HP & W)]; [lia|]. exists p. rewrite HP. split; [reflexivity|]. split; [exact W|]. destruct W as (_ & W & _). rewrite W. lia.
Qed.
Print Assumptions default_window.
(* The default windows of the two models do not overlap and leave out the first two bins and
   the last one. *)
Theorem default_windows_apart : forall v pl ph fl fh, fine v -> gv_MeV v = true -> (8 <= length (gv_E v))%nat ->
  fit false v None None efit_new = (fl, Ok pl) -> fit true v None None efit_new = (fh, Ok ph) ->
  (forall x y, In x (pt_E pl) -> In y (pt_E ph) -> x < y) /\
  (forall x, In x (pt_E pl) \/ In x (pt_E ph) -> nth 1 (gv_E v) 0 < x < nth (length (gv_E v) - 1) (gv_E v) 0).
Proof.
  intros v pl ph fl fh F M N HL HH. destruct (default_window false v F M N) as (p1 & E1 & W1 & _). destruct (default_window true v F M N) as (p2 & E2 & W2 & _).
  rewrite HL in E1. rewrite HH in E2. injection E1 as _ <-. injection E2 as _ <-. set (n := length (gv_E v)) in *.
  assert (D : (1 <= n / 6)%nat) by (apply (Nat.div_le_lower_bound n 6 1); lia). assert (U : (6 * (n / 6) <= n)%nat) by (apply Nat.mul_div_le; lia).
  assert (IN : forall first last p x, is_window v first last p -> In x (pt_E p) -> exists k, (first <= k <= last)%nat /\ (last < n)%nat /\ x = nth k (gv_E v) 0).
  { intros first last p x (B & L & _ & P & _) HX. apply (In_nth _ _ 0) in HX. destruct HX as (k & K & <-). exists (first + k)%nat. split; [lia|]. split; [unfold n; lia|]. apply P. lia. }
  split.
  - intros x y X Y. destruct (IN _ _ _ _ W1 X) as (k & K & K' & ->). destruct (IN _ _ _ _ W2 Y) as (m & Q & Q' & ->). apply inc_nth; [apply F|fold n; lia].
  - intros x [X|X]; [destruct (IN _ _ _ _ W1 X) as (k & K & K' & ->)|destruct (IN _ _ _ _ W2 X) as (k & K & K' & ->)]; split; apply inc_nth; try apply F; fold n; lia.
Qed.
Print Assumptions default_windows_apart.

(* A range that is given, in Efit or as argument: from the bin nearest to its lower end to the
   bin nearest to its upper end; every bin inside the range is used.  One bin: TypeError. *)
Theorem given_window : forall high v Emin Emax f a b, fine v -> gv_E v <> [] -> a < b ->
  ef_low f <> None -> ef_high f <> None ->
  (Emin = Some a \/ (Emin = None /\ ef_low f = Some a)) -> (Emax = Some b \/ (Emax = None /\ ef_high f = Some b)) ->
  exists i j, nearest (gv_E v) a i /\ nearest (gv_E v) b j /\ (i <= j)%nat /\
  (i = j -> fit high v Emin Emax f = (f, Raise TypeError)) /\
  ((i < j)%nat -> exists p, fit high v Emin Emax f = (f, Ok p) /\ is_window v i j p /\ (forall e, In e (gv_E v) -> a <= e <= b -> In e (pt_E p))).
Proof.
  intros high v Emin Emax f a b F NE L HL HH HA HB. destruct (fit_points_spec v a b F NE L) as (i & j & NI & NJ & M & H). exists i, j. split; [exact NI|]. split; [exact NJ|]. split; [exact M|].
  assert (EF : fit high v Emin Emax f = (f, fit_points v a b)).
  { unfold fit, autofitrange, auto_one. destruct f as [isl lo hi]. cbn [ef_low ef_high ef_list] in *. destruct lo as [lo|]; [|congruence]. destruct hi as [hi|]; [|congruence]. cbn [ef_low ef_high].
    destruct HA as [->|[-> [= ->]]], HB as [->|[-> [= ->]]]; reflexivity. }
  rewrite EF. split; [intros E|intros LT].
  - destruct H as [[_ ->]|[C _]]; [reflexivity|lia].
  - destruct H as [[C _]|(_ & p & -> & W)]; [lia|]. exists p. split; [reflexivity|]. split; [exact W|]. intros e HE [RE1 RE2]. apply (In_nth _ _ 0) in HE. destruct HE as (k & K & <-). destruct W as (B & LW & _ & P & _).
    assert (KI : (i <= k)%nat). { destruct (Nat.le_gt_cases i k) as [|C]; [assumption|]. exfalso. pose proof (inc_nth _ k i (proj1 F) (conj C (proj1 NI))) as I. destruct NI as (_ & A2 & _). specialize (A2 k K).
      destruct (qabs_spec (nth i (gv_E v) 0 - a)) as [[P1 Q1]|[P1 Q1]], (qabs_spec (nth k (gv_E v) 0 - a)) as [[P2 Q2]|[P2 Q2]]; rewrite Q1, Q2 in A2; qlra. }
    assert (KJ : (k <= j)%nat). { destruct (Nat.le_gt_cases k j) as [|C]; [assumption|]. exfalso. pose proof (inc_nth _ j k (proj1 F) (conj C K)) as I. destruct NJ as (_ & _ & A3). specialize (A3 k (conj C K)).
      destruct (qabs_spec (nth j (gv_E v) 0 - b)) as [[P1 Q1]|[P1 Q1]], (qabs_spec (nth k (gv_E v) 0 - b)) as [[P2 Q2]|[P2 Q2]]; rewrite Q1, Q2 in A3; qlra. }
    replace k with (i + (k - i))%nat by lia. destruct (P (k - i)%nat ltac:(lia)) as [<- _]. apply nth_In. lia.
Qed.
Print Assumptions given_window.

(* The range is set once.  Fitting again the same or other values on the same axis uses the same bins. *)
Theorem window_kept_partial : forall high v w f f1 p, gv_E w = gv_E v -> gv_MeV w = gv_MeV v -> fine v -> fine w ->
  fit high v None None f = (f1, Ok p) -> exists q, fit high w None None f1 = (f1, Ok q) /\ fit high w None None f = (f1, Ok q) /\ pt_E q = pt_E p.
Proof.
  intros high v w f f1 p EE EM FV FW. unfold fit. destruct (autofitrange high v f) as [f' [[]|e]] eqn:A; [|discriminate]. intros H. injection H as <- H.
  assert (A' : autofitrange high w f = (f', Ok tt)) by (unfold autofitrange, mev in *; now rewrite EE, EM). rewrite A'.
  destruct (ef_low f') as [a|] eqn:L1; [|discriminate]. destruct (ef_high f') as [b|] eqn:L2; [|discriminate].
  assert (A2 : autofitrange high w f' = (f', Ok tt)) by (unfold autofitrange, auto_one; destruct f'; cbn in *; subst; reflexivity). rewrite A2, L1, L2.
  assert (Q : exists q, fit_points w a b = Ok q /\ pt_E q = pt_E p). { unfold fit_points in *. rewrite EE. destruct (qltb a b); [|discriminate]. cbn [pt_E] in *. destruct (length (between _ _ (gv_E v))) as [|[|k]]; try discriminate. injection H as <-. eexists. split; reflexivity. }
  destruct Q as (q & Q1 & Q2). exists q. now rewrite Q1.
Qed.
Print Assumptions window_kept_partial.
(* Full statement: every strength function is fitted in its own default window.  False for a
   second one on another axis. *)
Definition axis (from : Z) : list Qc := map (fun k => qz (from + Z.of_nat k)) (seq 0 9).
Definition on_axis (from : Z) (m : bool) : gvec := mkGV (axis from) (repeat 1 9) None m.
Lemma axis_fine from m : fine (on_axis from m).
Proof.
  split; [|split; [reflexivity|discriminate]]. unfold on_axis, axis. cbn [gv_E].
  assert (G : forall n s, increasing (map (fun k => qz (from + Z.of_nat k)) (seq s n))).
  { induction n as [|n IH]; intros s; cbn [seq map]; constructor; [apply IH|]. apply Forall_forall. intros y Y. apply in_map_iff in Y. destruct Y as (k & <- & K). apply in_seq in K. apply (proj1 (qz_lt _ _)). lia. }
  apply G.
Qed.
Theorem own_window_refuted : ~ (forall high v w f1 p, fine v -> fine w -> gv_MeV v = true -> gv_MeV w = true -> length (gv_E v) = length (gv_E w) ->
  fit high v None None efit_new = (f1, Ok p) -> exists f2 q, fit high w None None efit_new = (f2, Ok q) /\ snd (fit high w None None f1) = Ok q).
Proof.
  intros H. destruct (fit false (on_axis 1 true) None None efit_new) as [f1 [p|e]] eqn:E; [|vm_compute in E; discriminate].
  destruct (H false (on_axis 1 true) (on_axis 2 true) f1 p (axis_fine _ _) (axis_fine _ _) eq_refl eq_refl eq_refl E) as (f2 & q & A & B).
  vm_compute in E. injection E as <- _. vm_compute in A. injection A as _ <-. vm_compute in B. discriminate B.
Qed.
Print Assumptions own_window_refuted.

(* Full statement: the window does not depend on the unit of the energies.  False: the range is
   found in MeV but looked up on the axis as it is.  In keV all of it is below the first bin. *)
Theorem fit_keV_refuted : forall (high : bool) v, fine v -> gv_MeV v = false -> (8 <= length (gv_E v))%nat ->
  nth (length (gv_E v) - 1) (gv_E v) 0 <= qz 1000 * nth 0 (gv_E v) 0 -> 
  snd (fit high v None None efit_new) = Raise TypeError.
Proof.
  intros high v F M N LAST. set (n := length (gv_E v)) in *. assert (NE : gv_E v <> []) by (intros E; unfold n in N; rewrite E in N; cbn in N; lia).
  assert (D : (1 <= n / 6)%nat) by (apply (Nat.div_le_lower_bound n 6 1); lia). assert (U : (6 * (n / 6) <= n)%nat) by (apply Nat.mul_div_le; lia).
  unfold fit, autofitrange, mev, auto_one. rewrite M. rewrite map_length. fold n. cbn [efit_new ef_low ef_high ef_list]. rewrite (proj2 (Nat.ltb_ge n 8)) by exact N.
  set (first := (if high then n - n / 6 - 2 else 2)%nat). set (last := (if high then n - 2 else n / 6 + 2)%nat). assert (FL : (first < last < n - 1)%nat) by (unfold first, last; destruct high; lia).
  rewrite !(nth_error_nth' _ (0 / qz 1000)) by (rewrite map_length; fold n; lia). rewrite !(map_nth (fun e => e / qz 1000)). cbn [ef_low ef_high snd].
  pose proof (inc_nth (gv_E v) first last (proj1 F) ltac:(fold n; lia)) as L1. pose proof (inc_nth (gv_E v) last (n - 1) (proj1 F) ltac:(fold n; lia)) as L2.
  set (x := nth first (gv_E v) 0) in *. set (y := nth last (gv_E v) 0) in *. assert (X : x / qz 1000 * qz 1000 = x) by (apply divmul; discriminate). assert (Y : y / qz 1000 * qz 1000 = y) by (apply divmul; discriminate).
  set (a := x / qz 1000) in *. set (b := y / qz 1000) in *. assert (K : qz 1000 = Q2Qc (1000 # 1)) by (apply Qc_is_canon; reflexivity). rewrite K in *.
  assert (AB : a < b) by qlra. assert (B0 : b < nth 0 (gv_E v) 0) by qlra.
  assert (Z0 : forall e, e < nth 0 (gv_E v) 0 -> nearest (gv_E v) e 0).
  { intros e He. split; [fold n; lia|]. assert (G : forall k, (0 < k < n)%nat -> qabs (nth 0 (gv_E v) 0 - e) < qabs (nth k (gv_E v) 0 - e)).
    { intros k Hk. pose proof (inc_nth (gv_E v) 0 k (proj1 F) Hk). destruct (qabs_spec (nth 0 (gv_E v) 0 - e)) as [[P1 Q1]|[P1 Q1]], (qabs_spec (nth k (gv_E v) 0 - e)) as [[P2 Q2]|[P2 Q2]]; rewrite Q1, Q2; qlra. }
    split; [|exact G]. intros [|k] Hk; [apply Qcle_refl|]. apply Qclt_le_weak, G. fold n in Hk. lia. }
  destruct (fit_points_spec v a b F NE AB) as (i & j & NI & NJ & _ & H). apply (nearest_unique _ _ _ 0%nat) in NI; [|apply Z0; qlra]. apply (nearest_unique _ _ _ 0%nat) in NJ; [|now apply Z0]. subst i j.
  destruct H as [[_ H]|[C _]]; [exact H|lia].
Qed.
Print Assumptions fit_keV_refuted.

(* What is refused. *)
Theorem fit_refuses : forall high v Emin Emax f,
  (ef_low f = None \/ ef_high f = None -> (length (gv_E v) < 8)%nat -> snd (fit high v Emin Emax f) = Raise NotImplementedErr /\ fst (fit high v Emin Emax f) = f) /\
  (ef_low f = None \/ ef_high f = None -> (8 <= length (gv_E v))%nat -> ef_list f = false -> fit high v Emin Emax f = (f, Raise TypeError)) /\
  (forall a b, Emin = Some a -> Emax = Some b -> ef_low f <> None -> ef_high f <> None -> b <= a -> fit high v Emin Emax f = (f, Raise AssertionError)).
Proof.
  intros high v Emin Emax f. assert (LM : length (mev v) = length (gv_E v)) by (unfold mev; destruct (gv_MeV v); [reflexivity|apply map_length]). split; [|split].
  - intros H N. unfold fit, autofitrange, auto_one. rewrite LM, (proj2 (Nat.ltb_lt _ 8)) by exact N. destruct f as [isl [lo|] [hi|]]; cbn in *; try (split; reflexivity). destruct H; discriminate.
  - intros H N HL. unfold fit, autofitrange, auto_one. rewrite LM, (proj2 (Nat.ltb_ge _ 8)) by exact N. destruct f as [isl [lo|] [hi|]]; cbn in *; subst; try reflexivity. destruct H; discriminate.
  - intros a b -> -> HL HH HB. unfold fit, autofitrange, auto_one. destruct f as [isl [lo|] [hi|]]; cbn in *; try congruence. unfold fit_points. destruct (qltb_spec a b) as [C|C]; [|reflexivity]. exfalso. qlra.
Qed.
Print Assumptions fit_refuses.

(* ------------------------------------------------------------------ examples *)
Example default_window_ex : exists p, fit false (on_axis 1 true) None None efit_new = (mkEfit true (Some (qz 3)) (Some (qz 4)), Ok p) /\ pt_E p = [qz 3; qz 4].
Proof. eexists. split; reflexivity. Qed.
Example default_window_high_ex : exists p, fit true (on_axis 1 true) None None efit_new = (mkEfit true (Some (qz 7)) (Some (qz 8)), Ok p) /\ pt_E p = [qz 7; qz 8].
Proof. eexists. split; reflexivity. Qed.
Example given_window_ex : exists p, fit false (on_axis 1 true) None None (mkEfit false (Some (qn 24 10)) (Some (qn 47 10))) = (mkEfit false (Some (qn 24 10)) (Some (qn 47 10)), Ok p) /\ pt_E p = [qz 2; qz 3; qz 4; qz 5].
Proof. eexists. split; reflexivity. Qed.
Example fit_keV_ex : fit false (on_axis 1000 false) None None efit_new = (mkEfit true (Some (qn 1002 1000)) (Some (qn 1003 1000)), Raise TypeError).
Proof. vm_compute. do 2 f_equal. Qed.
