From Verif Require Import PyBase MatrixOpsProofs Conc.

Lemma nth_error_ext {A} (l m : list A) : (forall i, nth_error l i = nth_error m i) -> l = m.
Proof.
  revert m. induction l as [|x l IH]; intros [|y m] H; [reflexivity|specialize (H O); discriminate|specialize (H O); discriminate|].
  f_equal; [specialize (H O); cbn in H; congruence|]. apply IH. intros i. exact (H (S i)).
Qed.

Lemma nth_error_firstn {A} n : forall (l : list A) i, nth_error (firstn n l) i = if (i <? n)%nat then nth_error l i else None.
Proof.
  induction n as [|n IH]; intros [|x l] [|i]; cbn [firstn nth_error]; try reflexivity.
  - destruct (S i <? S n)%nat; reflexivity.
  - rewrite IH. reflexivity.
Qed.

Section Conc.
Variables (K F R : Type).
Variable keqb : K -> K -> bool.
Hypothesis keqb_spec : forall a b, BoolSpec (a = b) (a <> b) (keqb a b).
Notation prog := (prog K F R).
Notation dir := (dir K F).
Notation run := (run keqb).
Notation move := (move keqb).
Notation sstep := (sstep keqb).
Notation srun := (srun keqb).

(* the files a program may touch *)
Variable own : K -> option nat.
Inductive owned (i : nat) : prog -> Prop :=
| O_ret r : owned i (PRet r)
| O_read k c : own k = Some i -> (forall o, owned i (c o)) -> owned i (PRead k c)
| O_write k f c : own k = Some i -> owned i c -> owned i (PWrite k f c).

Lemma dset_same (d : dir) k f : dset keqb d k f k = Some f.
Proof. unfold dset. destruct (keqb_spec k k); [reflexivity|congruence]. Qed.
Lemma dset_other (d : dir) k f k' : k' <> k -> dset keqb d k f k' = d k'.
Proof. intros H. unfold dset. destruct (keqb_spec k' k); [contradiction|reflexivity]. Qed.

(* a program's run depends on, and changes, only its own files *)
Lemma run_frame i p : owned i p -> forall d k, own k <> Some i -> fst (run p d) k = d k.
Proof.
  induction 1 as [r|k c Ok_ Hc IH|k f c Ok_ Hc IH]; intros d q Hq; cbn [Conc.run].
  - reflexivity.
  - now apply IH.
  - rewrite IH by exact Hq. apply dset_other. congruence.
Qed.
Lemma run_local i p : owned i p -> forall d d', (forall k, own k = Some i -> d k = d' k) ->
  snd (run p d) = snd (run p d') /\ forall k, own k = Some i -> fst (run p d) k = fst (run p d') k.
Proof.
  induction 1 as [r|k c Ok_ Hc IH|k f c Ok_ Hc IH]; intros d d' E; cbn [Conc.run].
  - split; [reflexivity|exact E].
  - rewrite (E k Ok_). now apply IH.
  - apply IH. intros q Hq. unfold dset. destruct (keqb q k); [reflexivity|now apply E].
Qed.
Lemma move_owned i (p : prog) (d : dir) : owned i p -> owned i (snd (move p d)).
Proof. destruct 1; cbn; [constructor|auto|assumption]. Qed.
Lemma move_frame i (p : prog) (d : dir) k : owned i p -> own k <> Some i -> fst (move p d) k = d k.
Proof. destruct 1; cbn [Conc.move fst]; intros; try reflexivity. apply dset_other. congruence. Qed.
Lemma move_run (p : prog) (d : dir) : run (snd (move p d)) (fst (move p d)) = run p d.
Proof. destruct p; reflexivity. Qed.

(* invariant of the interleaved run *)
Definition inv (ps0 : list prog) (d0 : dir) (s : sys K F R) : Prop :=
  length (snd s) = length ps0 /\
  (forall i p, nth_error (snd s) i = Some p -> owned i p) /\
  (forall i p p0, nth_error (snd s) i = Some p -> nth_error ps0 i = Some p0 ->
     snd (run p (fst s)) = snd (run p0 d0) /\ forall k, own k = Some i -> fst (run p (fst s)) k = fst (run p0 d0) k) /\
  (forall k, (forall i, own k = Some i -> (length ps0 <= i)%nat) -> fst s k = d0 k).
Lemma nth_error_upd {A} (l : list A) i x j : nth_error (upd l i x) j = if Nat.eqb j i then (if (i <? length l)%nat then Some x else None) else nth_error l j.
Proof.
  revert i j. induction l as [|y l IH]; intros [|i] [|j]; cbn [upd nth_error Nat.eqb length Nat.ltb Nat.leb]; try reflexivity.
  - destruct (Nat.eqb j i); reflexivity.
  - rewrite IH. destruct (Nat.eqb j i); reflexivity.
Qed.
Lemma inv_step ps0 d0 s i : inv ps0 d0 s -> inv ps0 d0 (sstep s i).
Proof.
  intros (L & O & E & U). unfold Conc.sstep. destruct (nth_error (snd s) i) as [p|] eqn:N; [|exact (conj L (conj O (conj E U)))].
  pose proof (O i p N) as OP. pose proof (move_owned i p (fst s) OP) as OP'.
  pose proof (fun k => move_frame i p (fst s) k OP) as MF. pose proof (move_run p (fst s)) as MR.
  destruct (move p (fst s)) as [d1 p1]. cbn [fst snd] in *.
  assert (Hi : (i < length (snd s))%nat) by (apply nth_error_Some; congruence).
  split; [cbn [snd]; now rewrite upd_length|]. split; [|split].
  - intros j q. cbn [snd]. rewrite nth_error_upd. destruct (Nat.eqb_spec j i) as [->|NE].
    + destruct (Nat.ltb_spec i (length (snd s))); [|lia]. intros X; injection X as <-. exact OP'.
    + apply O.
  - intros j q p0. cbn [fst snd]. rewrite nth_error_upd. destruct (Nat.eqb_spec j i) as [->|NE].
    + destruct (Nat.ltb_spec i (length (snd s))); [|lia]. intros X; injection X as <-. intros H0. rewrite MR. now apply E.
    + intros Hq H0. destruct (E j q p0 Hq H0) as [E1 E2].
      destruct (run_local j q (O j q Hq) d1 (fst s)) as [F1 F2].
      * intros k Hk. apply MF. congruence.
      * split; [congruence|]. intros k Hk. rewrite F2 by exact Hk. now apply E2.
  - intros k Hk. cbn [fst]. rewrite MF; [now apply U|]. intros C. specialize (Hk i C). lia.
Qed.
Lemma inv_run ps0 d0 : (forall i p, nth_error ps0 i = Some p -> owned i p) -> forall sched, inv ps0 d0 (srun sched (d0, ps0)).
Proof.
  intros HO sched. unfold Conc.srun. assert (I0 : inv ps0 d0 (d0, ps0)).
  { split; [reflexivity|]. split; [exact HO|]. split; [|reflexivity]. cbn [fst snd]. intros i p p0 H1 H2. rewrite H1 in H2. injection H2 as ->. split; reflexivity. }
  revert I0. generalize ((d0, ps0) : sys K F R). induction sched as [|i t IH]; intros s I; cbn [fold_left]; [exact I|].
  apply IH. now apply inv_step.
Qed.

(* sequential execution *)
Lemma run_all_lemma ps : forall n d, (forall i p, nth_error ps i = Some p -> owned (n + i) p) ->
  length (snd (run_all keqb ps d)) = length ps /\
  (forall i p, nth_error ps i = Some p -> nth_error (snd (run_all keqb ps d)) i = Some (snd (run p d)) /\
     forall k, own k = Some (n + i)%nat -> fst (run_all keqb ps d) k = fst (run p d) k) /\
  (forall k, (forall i, own k = Some i -> (i < n \/ n + length ps <= i)%nat) -> fst (run_all keqb ps d) k = d k).
Proof.
  induction ps as [|p t IH]; intros n d HO; cbn [run_all].
  - split; [reflexivity|]. split; [intros [|i] q; discriminate|]. reflexivity.
  - pose proof (HO O p eq_refl) as OP. rewrite Nat.add_0_r in OP.
    pose proof (fun k => run_frame n p OP d k) as FR.
    destruct (run p d) as [d1 r] eqn:RE. cbn [fst snd] in FR.
    assert (HO' : forall i q, nth_error t i = Some q -> owned (S n + i) q).
    { intros i q Hq. replace (S n + i)%nat with (n + S i)%nat by lia. apply HO. exact Hq. }
    destruct (IH (S n) d1 HO') as (L & H1 & H2). destruct (run_all keqb t d1) as [d2 rs]. cbn [fst snd] in *.
    split; [cbn [length]; lia|]. split.
    + intros [|i] q; cbn [nth_error].
      * intros X; injection X as <-. rewrite RE. cbn [fst snd]. split; [reflexivity|]. intros k Hk. rewrite Nat.add_0_r in Hk.
        apply H2. intros j Hj. rewrite Hk in Hj. injection Hj as <-. lia.
      * intros Hq. destruct (H1 i q Hq) as [A B]. pose proof (HO' i q Hq) as OQ.
        destruct (run_local _ q OQ d1 d) as [C D].
        { intros k Hk. apply FR. rewrite Hk. intros X. injection X as X. lia. }
        split; [rewrite A; congruence|]. intros k Hk. replace (n + S i)%nat with (S n + i)%nat in Hk by lia. rewrite B by exact Hk. now apply D.
    + intros k Hk. rewrite H2; [apply FR; intros C; specialize (Hk n C); cbn [length] in Hk; lia|].
      intros i Hi. specialize (Hk i Hi). cbn [length] in Hk. lia.
Qed.

(* every complete interleaving gives the sequential results and files *)
Theorem interleaving_sequential : forall ps d sched rs, (forall i p, nth_error ps i = Some p -> owned i p) ->
  finished (srun sched (d, ps)) rs -> rs = snd (run_all keqb ps d) /\ forall k, fst (srun sched (d, ps)) k = fst (run_all keqb ps d) k.
Proof.
  intros ps d sched rs HO FN. destruct (inv_run ps d HO sched) as (L & _ & E & U). unfold finished in FN.
  destruct (run_all_lemma ps 0 d) as (L' & H1 & H2); [intros i p H; now apply HO|].
  assert (LR : length rs = length ps) by (rewrite <- L, FN, map_length; reflexivity).
  split.
  - apply nth_error_ext. intros i. destruct (nth_error ps i) as [p0|] eqn:N.
    + assert (Hi : (i < length rs)%nat) by (rewrite LR; apply nth_error_Some; congruence).
      destruct (nth_error rs i) as [r|] eqn:NR; [|apply nth_error_None in NR; lia].
      assert (NP : nth_error (snd (srun sched (d, ps))) i = Some (PRet r)) by (rewrite FN, nth_error_map, NR; reflexivity).
      destruct (E i _ p0 NP N) as [E1 _]. cbn [Conc.run snd] in E1. destruct (H1 i p0 N) as [A _]. rewrite A, <- E1. reflexivity.
    + apply nth_error_None in N. transitivity (@None R); [apply nth_error_None; lia|symmetry; apply nth_error_None; lia].
  - intros k. destruct (own k) as [i|] eqn:OK.
    + destruct (nth_error ps i) as [p0|] eqn:N.
      * assert (Hi : (i < length rs)%nat) by (rewrite LR; apply nth_error_Some; congruence).
        destruct (nth_error rs i) as [r|] eqn:NR; [|apply nth_error_None in NR; lia].
        assert (NP : nth_error (snd (srun sched (d, ps))) i = Some (PRet r)) by (rewrite FN, nth_error_map, NR; reflexivity).
        destruct (E i _ p0 NP N) as [_ E2]. cbn [Conc.run fst] in E2. rewrite (E2 k OK). destruct (H1 i p0 N) as [_ B]. symmetry. now apply B.
      * apply nth_error_None in N. rewrite U, H2; [reflexivity|..]; intros j Hj; rewrite OK in Hj; injection Hj as <-; lia.
    + rewrite U, H2; [reflexivity|..]; intros j Hj; rewrite OK in Hj; discriminate.
Qed.

(* a stopped interleaving leaves, on the files of program i, what i alone would have left *)
Fixpoint moves (n : nat) (p : prog) (d : dir) : dir * prog :=
  match n with O => (d, p) | S n' => let (d1, p1) := move p d in moves n' p1 d1 end.
Lemma moves_S n : forall p d, moves (S n) p d = let (d1, p1) := moves n p d in move p1 d1.
Proof.
  induction n as [|n IH]; intros p d; [cbn; now destruct (move p d)|].
  change (moves (S (S n)) p d) with (let (d1, p1) := move p d in moves (S n) p1 d1).
  change (moves (S n) p d) with (let (d1, p1) := move p d in moves n p1 d1).
  destruct (move p d) as [d1 p1]. apply IH.
Qed.
Lemma move_local i p (d d' : dir) : owned i p -> (forall k, own k = Some i -> d k = d' k) ->
  snd (move p d) = snd (move p d') /\ forall k, own k = Some i -> fst (move p d) k = fst (move p d') k.
Proof.
  destruct 1 as [r|k c Ok_ Hc|k f c Ok_ Hc]; intros E; cbn [Conc.move fst snd].
  - now split.
  - rewrite (E k Ok_). now split.
  - split; [reflexivity|]. intros q Hq. unfold dset. destruct (keqb q k); [reflexivity|now apply E].
Qed.
Lemma moves_owned i n : forall p d, owned i p -> owned i (snd (moves n p d)).
Proof.
  induction n as [|n IH]; intros p d O; [exact O|]. cbn [moves]. pose proof (move_owned i p d O). destruct (move p d). now apply IH.
Qed.
Theorem stopped_interleaving : forall ps d sched, (forall i p, nth_error ps i = Some p -> owned i p) ->
  length (snd (srun sched (d, ps))) = length ps /\
  (forall i p, nth_error ps i = Some p -> exists n, nth_error (snd (srun sched (d, ps))) i = Some (snd (moves n p d)) /\
     forall k, own k = Some i -> fst (srun sched (d, ps)) k = fst (moves n p d) k) /\
  (forall k, (forall i, own k = Some i -> (length ps <= i)%nat) -> fst (srun sched (d, ps)) k = d k).
Proof.
  intros ps d sched HO. induction sched as [|j t IH] using rev_ind.
  - unfold Conc.srun. cbn [fold_left fst snd]. split; [reflexivity|]. split; [|reflexivity]. intros i p Hp. exists O. now split.
  - unfold Conc.srun in *. rewrite fold_left_app. cbn [fold_left].
    destruct (fold_left sstep t (d, ps)) as [d1 ps1]. destruct IH as (L & H1 & H2). cbn [fst snd] in *.
    unfold Conc.sstep. cbn [fst snd]. destruct (nth_error ps1 j) as [q|] eqn:NQ; [|cbn [fst snd]; now split].
    assert (Hj : (j < length ps1)%nat) by (apply nth_error_Some; congruence).
    destruct (nth_error ps j) as [p0|] eqn:N0; [|apply nth_error_None in N0; lia].
    destruct (H1 j p0 N0) as (n & Q1 & Q2). rewrite NQ in Q1. injection Q1 as Q1.
    assert (OQ : owned j q) by (rewrite Q1; apply moves_owned; now apply HO).
    destruct (move_local j q d1 (fst (moves n p0 d)) OQ Q2) as [M1 M2].
    pose proof (fun k => move_frame j q d1 k OQ) as MF.
    destruct (move q d1) as [d2 q2]. cbn [fst snd] in *.
    split; [now rewrite upd_length|]. split.
    + intros i p Hp. destruct (Nat.eq_dec i j) as [->|NE].
      * rewrite Hp in N0. injection N0 as ->. exists (S n). rewrite moves_S.
        destruct (moves n p0 d) as [d3 p3]. cbn [fst snd] in *. subst p3. rewrite nth_error_upd, Nat.eqb_refl.
        destruct (Nat.ltb_spec j (length ps1)); [|lia]. split; [now rewrite M1|exact M2].
      * destruct (H1 i p Hp) as (m & R1 & R2). exists m. rewrite nth_error_upd. destruct (Nat.eqb_spec i j); [contradiction|].
        split; [exact R1|]. intros k Hk. rewrite MF; [now apply R2|congruence].
    + intros k Hk. rewrite MF; [now apply H2|]. intros C. specialize (Hk j C). lia.
Qed.
(* any stopped system can be run to the end *)
Lemma drive p : forall d, exists n d' r, moves n p d = (d', PRet r).
Proof.
  induction p as [r|k c IH|k f c IH]; intros d.
  - now exists O, d, r.
  - destruct (IH (d k) d) as (n & d' & r & E). exists (S n), d', r. exact E.
  - destruct (IH (dset keqb d k f)) as (n & d' & r & E). exists (S n), d', r. exact E.
Qed.
Lemma srun_repeat n : forall i p (d : dir) (ps : list prog), nth_error ps i = Some p -> srun (repeat i n) (d, ps) = (fst (moves n p d), upd ps i (snd (moves n p d))).
Proof.
  induction n as [|n IH]; intros i p d ps Hp; unfold Conc.srun in *; cbn [repeat fold_left moves].
  - cbn [fst snd]. f_equal. apply nth_error_ext. intros j. rewrite nth_error_upd. destruct (Nat.eqb_spec j i) as [->|]; [|reflexivity].
    assert ((i < length ps)%nat) by (apply nth_error_Some; congruence). destruct (Nat.ltb_spec i (length ps)); [assumption|lia].
  - unfold Conc.sstep at 2. cbn [fst snd]. rewrite Hp. destruct (move p d) as [d1 p1].
    assert (Hi : (i < length ps)%nat) by (apply nth_error_Some; congruence).
    rewrite (IH i p1).
    + f_equal. apply nth_error_ext. intros j. rewrite !nth_error_upd, upd_length. destruct (Nat.eqb j i); reflexivity.
    + rewrite nth_error_upd, Nat.eqb_refl. destruct (Nat.ltb_spec i (length ps)); [reflexivity|lia].
Qed.
Theorem can_finish : forall s : sys K F R, exists sched rs, finished (srun sched s) rs.
Proof.
  assert (G0 : forall n (ps : list prog) (d : dir), (n <= length ps)%nat -> exists sched rs ps', length ps' = length ps /\ firstn n ps' = map PRet rs /\ snd (srun sched (d, ps)) = ps').
  { induction n as [|n IH]; intros ps d Hn.
    - exists [], [], ps. repeat split; reflexivity.
    - destruct (IH ps d) as (sc & rs & ps1 & L & FN & E); [lia|]. destruct (srun sc (d, ps)) as [d1 ps1'] eqn:E1. cbn [snd] in E. subst ps1'.
      destruct (nth_error ps1 n) as [p|] eqn:NP; [|apply nth_error_None in NP; lia].
      destruct (drive p d1) as (m & d2 & r & M). exists (sc ++ repeat n m)%list, (rs ++ [r])%list, (upd ps1 n (PRet r)).
      split; [rewrite upd_length; exact L|]. split.
      + rewrite map_app, <- FN. cbn [map]. apply nth_error_ext. intros j.
        destruct (Nat.lt_trichotomy j n) as [J|[J|J]].
        * rewrite nth_error_app1 by (rewrite firstn_length; lia). rewrite !nth_error_firstn.
          destruct (Nat.ltb_spec j (S n)); [|lia]. destruct (Nat.ltb_spec j n); [|lia]. rewrite nth_error_upd. destruct (Nat.eqb_spec j n); [lia|reflexivity].
        * subst j. rewrite nth_error_app2 by (rewrite firstn_length; lia). rewrite firstn_length, Nat.min_l by lia. rewrite Nat.sub_diag. cbn [nth_error].
          rewrite nth_error_firstn. destruct (Nat.ltb_spec n (S n)); [|lia]. rewrite nth_error_upd, Nat.eqb_refl. destruct (Nat.ltb_spec n (length ps1)); [reflexivity|lia].
        * transitivity (@None prog); [apply nth_error_None; rewrite firstn_length; lia|symmetry; apply nth_error_None; rewrite app_length, firstn_length; cbn [length]; lia].
      + unfold Conc.srun in *. rewrite fold_left_app, E1. pose proof (srun_repeat m n p d1 ps1 NP) as SR. unfold Conc.srun in SR. rewrite SR, M. reflexivity. }
  intros [d ps]. destruct (G0 (length ps) ps d (le_n _)) as (sc & rs & ps' & L & FN & E). exists sc, rs. unfold finished. rewrite E, <- FN.
  symmetry. rewrite <- L. apply firstn_all.
Qed.
(* I holds before and after every operation of p started in d *)
Inductive always (I : dir -> Prop) : prog -> dir -> Prop :=
| A_ret r d : I d -> always I (PRet r) d
| A_read k c d : I d -> always I (c (d k)) d -> always I (PRead k c) d
| A_write k f c d : I d -> always I c (dset keqb d k f) -> always I (PWrite k f c) d.
Lemma always_here I p d : always I p d -> I d.
Proof. now destruct 1. Qed.
Lemma always_moves I n : forall p d, always I p d -> I (fst (moves n p d)).
Proof.
  induction n as [|n IH]; intros p d A; [cbn; now apply always_here in A|]. cbn [moves].
  destruct A as [r d H|k c d H A|k f c d H A]; cbn [Conc.move].
  - apply IH. now constructor.
  - now apply IH.
  - now apply IH.
Qed.

(* Invariants of all states and results, whatever the files read contain, as long as they
   satisfy G: every file written satisfies G, every result P. *)
Variable G : K -> F -> Prop.
Inductive safe (P : R -> Prop) : prog -> Prop :=
| S_ret r : P r -> safe P (PRet r)
| S_read k c : (forall o, (forall f, o = Some f -> G k f) -> safe P (c o)) -> safe P (PRead k c)
| S_write k f c : G k f -> safe P c -> safe P (PWrite k f c).
Definition gdir (d : dir) : Prop := forall k f, d k = Some f -> G k f.
Lemma move_safe P (p : prog) (d : dir) : safe P p -> gdir d -> safe P (snd (move p d)) /\ gdir (fst (move p d)).
Proof.
  destruct 1 as [r H|k c H|k f c H1 H2]; intros HD; cbn [Conc.move fst snd].
  - split; [now constructor|exact HD].
  - split; [|exact HD]. apply H. intros f Hf. now apply HD.
  - split; [exact H2|]. intros q g. unfold dset. destruct (keqb_spec q k) as [->|_]; [|apply HD]. intros X; injection X as <-. exact H1.
Qed.
Lemma srun_safe P sched : forall s : sys K F R, gdir (fst s) -> Forall (safe P) (snd s) ->
  gdir (fst (srun sched s)) /\ Forall (safe P) (snd (srun sched s)).
Proof.
  induction sched as [|i t IH]; intros s HD HS; cbn [Conc.srun fold_left]; [now split|]. apply IH.
  - unfold Conc.sstep. destruct (nth_error (snd s) i) as [p|] eqn:N; [|exact HD].
    rewrite Forall_forall in HS. destruct (move_safe P p (fst s) (HS p (nth_error_In _ _ N)) HD) as [_ H]. destruct (move p (fst s)). exact H.
  - unfold Conc.sstep. destruct (nth_error (snd s) i) as [p|] eqn:N; [|exact HS].
    pose proof HS as HS'. rewrite Forall_forall in HS. destruct (move_safe P p (fst s) (HS p (nth_error_In _ _ N)) HD) as [H _].
    destruct (move p (fst s)) as [d p']. cbn [snd] in *. clear - HS' H. revert i. induction HS' as [|q l Hq Hl IH]; intros [|i]; cbn [upd]; constructor; auto.
Qed.
Lemma run_safe P p : safe P p -> forall d, gdir d -> gdir (fst (run p d)) /\ P (snd (run p d)).
Proof.
  induction 1 as [r H|k c H IH|k f c H1 H2 IH]; intros d HD; cbn [Conc.run].
  - now split.
  - apply IH; [|exact HD]. intros f Hf. now apply HD.
  - apply IH. intros q g. unfold dset. destruct (keqb_spec q k) as [->|_]; [|apply HD]. intros X; injection X as <-. exact H1.
Qed.

(* every complete interleaving: each program's result and files are those of running it
   alone on the initial directory *)
Theorem interleaving_solo : forall ps d sched rs, (forall i p, nth_error ps i = Some p -> owned i p) ->
  finished (srun sched (d, ps)) rs -> rs = map (fun p => snd (run p d)) ps /\
  (forall i p, nth_error ps i = Some p -> forall k, own k = Some i -> fst (srun sched (d, ps)) k = fst (run p d) k) /\
  (forall k, (forall i, own k = Some i -> (length ps <= i)%nat) -> fst (srun sched (d, ps)) k = d k).
Proof.
  intros ps d sched rs HO FN. destruct (interleaving_sequential ps d sched rs HO FN) as [E1 E2].
  destruct (run_all_lemma ps 0 d) as (L' & H1 & H2); [intros i p H; now apply HO|].
  split; [|split].
  - subst rs. apply nth_error_ext. intros i. rewrite nth_error_map. destruct (nth_error ps i) as [p|] eqn:N; cbn [option_map].
    + apply (H1 i p N).
    + apply nth_error_None. apply nth_error_None in N. lia.
  - intros i p Hp k Hk. rewrite E2. now apply (H1 i p Hp).
  - intros k Hk. rewrite E2. apply H2. intros i Hi. specialize (Hk i Hi). lia.
Qed.
End Conc.
