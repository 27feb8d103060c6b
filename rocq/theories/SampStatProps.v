From Coq Require Import Sorted.
From Verif Require Import Num PyBase CutSpec SampStatModel SampStatSpec SampStatProofs SampUnifyProofs.

(* ------------------------------------------------------------------ *)
(* C83: the percentiles of the samples *)

(* A quantile splits the present entries in the requested proportion: more
   than q (n-1) of the n present entries are not above it and more than
   (1-q) (n-1) of them are not below it. *)
Theorem quantile_counts q l : 0 <= q -> q <= 1 -> present l <> [] ->
  exists v, quantile q l = Some v /\
    q * qnat (length (present l) - 1) < qnat (n_le (present l) v) /\
    (1 - q) * qnat (length (present l) - 1) < qnat (n_ge (present l) v).
Proof. apply quantile_counts_lemma. Qed.
Print Assumptions quantile_counts.

(* NaN only where no sample has a value *)
Theorem quantile_missing q l : quantile q l = None <-> forall o, In o l -> o = None.
Proof.
  split.
  - intros H o I. destruct o as [x|]; [|reflexivity]. exfalso.
    assert (N : present l <> []).
    { intros E. assert (In x (present l)) as J.
      { unfold present. apply in_flat_map. exists (Some x). split; [exact I|now left]. }
      rewrite E in J. destruct J. }
    rewrite quantile_value in H by exact N. discriminate.
  - intros H. unfold quantile. replace (present l) with (@nil Qc); [reflexivity|].
    symmetry. induction l as [|o l IH]; [reflexivity|]. unfold present. cbn.
    rewrite (H o) by now left. cbn. apply IH. intros; apply H; now right.
Qed.
Print Assumptions quantile_missing.

Theorem quantile_monotone p q l v w : 0 <= p -> p <= q -> q <= 1 ->
  quantile p l = Some v -> quantile q l = Some w -> v <= w.
Proof. apply quantile_mono_lemma. Qed.
Print Assumptions quantile_monotone.

(* the median is the 50% quantile, so all of this holds for it too *)
Theorem median_is_half l : median l = quantile (qn 1 2) l.
Proof. apply median_half_lemma. Qed.
Print Assumptions median_is_half.

(* the order of the samples and the samples without value do not matter *)
Theorem quantile_order_free q l m : Permutation l m -> quantile q l = quantile q m /\ median l = median m.
Proof. intros P. split; [now apply quantile_perm_lemma|now apply median_perm_lemma]. Qed.
Print Assumptions quantile_order_free.
Theorem quantile_skips_missing q l : quantile q l = quantile q (map Some (present l)).
Proof.
  unfold quantile. replace (present (map Some (present l))) with (present l); [reflexivity|].
  generalize (present l). clear. induction l as [|x l IH]; [reflexivity|]. unfold present in *. cbn. now rewrite <- IH.
Qed.
Print Assumptions quantile_skips_missing.

(* change of unit and offset, and of sign *)
Theorem quantile_affine a b q l : 0 <= a -> 0 <= q -> q <= 1 ->
  quantile q (map (option_map (fun x => a * x + b)) l) = option_map (fun x => a * x + b) (quantile q l).
Proof. apply quantile_affine_lemma. Qed.
Print Assumptions quantile_affine.
Theorem quantile_mirror q l : 0 <= q -> q <= 1 ->
  quantile q (map (option_map Qcopp) l) = option_map Qcopp (quantile (1 - q) l).
Proof. apply quantile_mirror_lemma. Qed.
Print Assumptions quantile_mirror.

(* the table: one line per energy; low, median and high are the quantiles of
   the samples' entries at that energy, in this order, all present or all NaN *)
Definition ordered (st : stat) : Prop :=
  match st_low st, st_median st, st_high st with
  | Some a, Some b, Some c => a <= b /\ b <= c
  | None, None, None => True
  | _, _, _ => False
  end.
Theorem stats_ordered n p0 p1 df table : p0 <= qn 1 2 -> qn 1 2 <= p1 ->
  stats_from_df n p0 p1 df = Ok table -> length table = n /\ forall st, In st table -> ordered st.
Proof.
  intros A B H. unfold stats_from_df in H.
  destruct (rmapl (put_row n) df) as [rows|e]; cbn [rbind] in H; [|discriminate].
  destruct (qleb 0 p0 && qleb p0 1 && (qleb 0 p1 && qleb p1 1)) eqn:Q; cbn [negb] in H; [|discriminate].
  rewrite !andb_true_iff, !qleb_le in Q. destruct Q as [[Q1 Q2] [Q3 Q4]].
  injection H as <-. split; [apply tab_length|]. intros st I. apply in_tab in I. destruct I as (j & Hj & ->).
  unfold ordered. cbn [st_low st_median st_high]. set (c := map _ rows).
  rewrite median_is_half. destruct (present c) as [|x xs] eqn:E.
  - assert (N : forall q, quantile q c = None) by (intros q; unfold quantile; now rewrite E).
    rewrite !N. exact I.
  - assert (N : present c <> []) by (rewrite E; discriminate).
    destruct (quantile p0 c) as [a|] eqn:Ea; [|rewrite quantile_value in Ea by exact N; discriminate].
    destruct (quantile (qn 1 2) c) as [b|] eqn:Eb; [|rewrite quantile_value in Eb by exact N; discriminate].
    destruct (quantile p1 c) as [d|] eqn:Ed; [|rewrite quantile_value in Ed by exact N; discriminate].
    split; [apply (quantile_monotone p0 (qn 1 2) c)|apply (quantile_monotone (qn 1 2) p1 c)]; auto; apply qleb_le; reflexivity.
Qed.
Print Assumptions stats_ordered.

(* percentiles are fractions: 16 and 84 are refused *)
Theorem stats_percentiles_are_fractions n p0 p1 df : ~ (0 <= p0 <= 1 /\ 0 <= p1 <= 1) ->
  exists e, stats_from_df n p0 p1 df = Raise e.
Proof.
  intros H. unfold stats_from_df. destruct (rmapl (put_row n) df) as [rows|e]; cbn [rbind]; [|eauto].
  destruct (qleb 0 p0 && qleb p0 1 && (qleb 0 p1 && qleb p1 1)) eqn:Q; cbn [negb]; [|eauto].
  rewrite !andb_true_iff, !qleb_le in Q. tauto.
Qed.
Print Assumptions stats_percentiles_are_fractions.
(* a vector with another number of values than there are energies is refused, unless it has
   one value only, which is repeated *)
Theorem stats_need_all_values n p0 p1 df table : stats_from_df n p0 p1 df = Ok table ->
  forall v, In v df -> length (s_val v) = n \/ length (s_val v) = 1%nat.
Proof.
  intros H. unfold stats_from_df in H. destruct (rmapl (put_row n) df) as [rows|e] eqn:R; [|discriminate]. clear H. revert rows R.
  induction df as [|u df IH]; intros rows R v I; [destruct I|]. cbn [rmapl] in R.
  destruct (put_row n u) as [r|] eqn:P; [|discriminate]. cbn [rbind] in R. destruct (rmapl (put_row n) df) as [rs|]; [|discriminate].
  destruct I as [<- | I]; [|now apply (IH rs)]. unfold put_row in P. destruct (Nat.eqb_spec (length (s_val u)) n); [now left|].
  destruct (s_val u) as [|x [|y l]]; try discriminate. now right.
Qed.
Print Assumptions stats_need_all_values.


(* ------------------------------------------------------------------ *)
(* C84: the common energy grid *)

(* samples_unify_E succeeds on every column of sane vectors *)
Theorem unify_succeeds df : df <> [] -> Forall sane df -> exists df', samples_unify_E df = Ok df'.
Proof.
  intros N H. destruct (unify_lemma df N H) as [[_ E]|(_ & v & w & df' & _ & _ & _ & E & _)]; eauto.
Qed.
Print Assumptions unify_succeeds.

(* unless all vectors have the same end points, they are afterwards all on one
   increasing grid, which consists of the energies of a vector that starts
   lowest and of a vector that ends highest; every vector keeps its value at
   every energy of that grid, and has NaN where it had no value *)
Theorem unify_keeps_values df df' : Forall sane df -> samples_unify_E df = Ok df' -> ~ same_ends df ->
  exists grid v w, increasing grid /\ In v df /\ In w df /\
    (forall u, In u df -> first_E v <= first_E u /\ last_E u <= last_E w) /\
    (forall e, In e grid <-> In e (s_E v) \/ In e (s_E w)) /\
    Forall2 (fun u u' => s_E u' = grid /\ length (s_val u') = length grid /\
                         forall e, In e grid -> sample_at u' e = sample_at u e) df df'.
Proof.
  intros H E S. assert (N : df <> []) by (intros ->; discriminate).
  destruct (unify_lemma df N H) as [[C _]|(_ & v & w & df2 & Iv & Iw & M & E2 & F)]; [contradiction|].
  rewrite E in E2. injection E2 as <-.
  exists (union1d (s_E v) (s_E w)), v, w. split; [apply union1d_increasing|]. split; [exact Iv|]. split; [exact Iw|].
  split; [exact M|]. split; [intros e; apply union1d_In|].
  eapply Forall2_weaken; [|exact F]. cbn beta. intros u u' (A & B & _ & C).
  split; [exact A|]. split; [congruence|]. intros e Ie. unfold sample_at at 1. rewrite C, A.
  now apply value_at_map.
Qed.
Print Assumptions unify_keeps_values.

(* and nothing is changed if they do *)
Theorem unify_same_ends df : df <> [] -> Forall sane df -> same_ends df -> samples_unify_E df = Ok df.
Proof.
  intros N H S. destruct (unify_lemma df N H) as [[_ E]|(C & _)]; [exact E|contradiction].
Qed.
Print Assumptions unify_same_ends.

(* no value is lost when the vectors are stretches of one energy grid that all
   contain some common energy *)
Lemma sane_first_last v : sane v -> In (first_E v) (s_E v) /\ In (last_E v) (s_E v).
Proof.
  intros (N & _ & _). unfold first_E, last_E, vget.
  assert (0 < length (s_E v))%nat by (destruct (s_E v); [congruence|cbn; lia]).
  split; apply nth_In; lia.
Qed.
Lemma Forall2_pick {A B} (R : A -> B -> Prop) l l' x : Forall2 R l l' -> In x l -> exists y, In y l' /\ R x y.
Proof.
  induction 1 as [|a b l l' H F IH]; intros I; [destruct I|]. destruct I as [<-|I].
  - exists b. split; [now left|exact H].
  - destruct (IH I) as (y & J & K). exists y. split; [now right|exact K].
Qed.
Theorem unify_lossless G c df df' : Forall sane df -> Forall (on_grid G) df ->
  (forall u, In u df -> first_E u <= c /\ c <= last_E u) ->
  samples_unify_E df = Ok df' ->
  Forall2 (fun u u' => (forall e, In e (s_E u) -> In e (s_E u')) /\ forall e, sample_at u' e = sample_at u e) df df'.
Proof.
  intros H O C E.
  assert (N : df <> []) by (intros ->; discriminate).
  rewrite Forall_forall in O.
  destruct (unify_lemma df N H) as [[_ E2]|(S & _)].
  - rewrite E in E2. injection E2 as <-. apply Forall2_diag. auto.
  - destruct (unify_keeps_values df df' H E S) as (grid & v & w & _ & Iv & Iw & M & Gr & F).
    assert (K : forall u, In u df -> forall e, In e (s_E u) -> In e grid).
    { intros u Iu e Ie. apply Gr. apply (O u Iu) in Ie. destruct Ie as (Ge & L1 & L2).
      destruct (M u Iu) as [M1 M2]. destruct (C v Iv) as [C1 C2]. destruct (C w Iw) as [C3 C4].
      destruct (Qclt_le_dec c e) as [L|L].
      - right. apply (O w Iw). repeat split; auto; qlra.
      - left. apply (O v Iv). repeat split; auto; qlra. }
    clear - F K. induction F as [|u u' l l' (A & B & D) F IH]; constructor.
    + split.
      * intros e Ie. rewrite A. apply (K u); [now left|exact Ie].
      * intros e. destruct (in_dec Qc_dec_eq e grid) as [I|I]; [now apply D|].
        unfold sample_at. rewrite value_at_absent by (now rewrite A).
        rewrite value_at_absent; [reflexivity|]. intros J. apply I. apply (K u); [now left|exact J].
    + apply IH. intros x Ix. apply K. now right.
Qed.
Print Assumptions unify_lossless.

(* ... but in general values are lost: the grid is the union of two of the
   vectors, not of all *)
Definition gap_df : list svec :=
  [ mkS (ql [1; 2]%Z) [Some 1; Some 1] None;
    mkS (ql [3; 4]%Z) [Some 1; Some 1] None;
    mkS (ql [6; 7]%Z) [Some 1; Some 1] None ].
Lemma ql_sane l vals std : increasing (ql l) -> l <> [] -> length vals = length l -> sane (mkS (ql l) vals std).
Proof.
  intros A B C. repeat split; cbn [s_E s_val]; [destruct l; [congruence|discriminate]|exact A|].
  unfold ql. now rewrite map_length.
Qed.
Lemma gap_sane : Forall sane gap_df.
Proof.
  repeat constructor; cbn [s_E]; try discriminate; try (apply qltb_lt; reflexivity).
Qed.
Theorem unify_loses_refuted : exists df df' u u' e,
  Forall sane df /\ samples_unify_E df = Ok df' /\ nth_error df 1 = Some u /\ nth_error df' 1 = Some u' /\
  sample_at u e = Some 1 /\ forall e', sample_at u' e' = None.
Proof.
  destruct (unify_succeeds gap_df) as (df' & E); [discriminate|apply gap_sane|].
  assert (G : exists a c, df' = [a; mkS (ql [1; 2; 6; 7]%Z) [None; None; None; None] None; c]).
  { assert (X : match samples_unify_E gap_df with
                | Ok [a; b; c] => leqb (s_E b) (ql [1; 2; 6; 7]%Z) &&
                    match s_val b with [None; None; None; None] => true | _ => false end &&
                    match s_std b with None => true | _ => false end
                | _ => false end = true) by (vm_compute; reflexivity).
    rewrite E in X. destruct df' as [|a [|b [|d [|]]]]; try discriminate X. exists a, d.
    apply andb_true_iff in X. destruct X as [X X3]. apply andb_true_iff in X. destruct X as [X1 X2].
    apply leqb_eq in X1. destruct b as [bE bv bs]. cbn [s_E s_val s_std] in *.
    destruct bv as [|[|] [|[|] [|[|] [|[|] [|]]]]]; try discriminate X2. destruct bs; try discriminate X3.
    now rewrite X1. }
  destruct G as (a & c & ->).
  exists gap_df. eexists. exists (mkS (ql [3; 4]%Z) [Some 1; Some 1] None). eexists. exists (qz 3).
  split; [apply gap_sane|]. split; [exact E|]. split; [reflexivity|]. split; [reflexivity|].
  split; [reflexivity|]. intros e'. unfold sample_at. cbn [s_E s_val].
  unfold ql. cbn [map value_at]. now repeat destruct (qeqb _ _).
Qed.
Print Assumptions unify_loses_refuted.

(* and vectors with equal end points but different energies in between are
   left alone, although the statistics then pair values of different energies *)
Theorem unify_same_ends_refuted : exists df u w, Forall sane df /\ samples_unify_E df = Ok df /\
  In u df /\ In w df /\ length (s_E u) = length (s_E w) /\ s_E u <> s_E w.
Proof.
  set (u := mkS (ql [1; 2; 4]%Z) [Some 1; Some 1; Some 1] None).
  set (w := mkS (ql [1; 3; 4]%Z) [Some 1; Some 1; Some 1] None).
  assert (Su : Forall sane [u; w]).
  { repeat constructor; cbn [s_E u w]; try discriminate; try (apply qltb_lt; reflexivity). }
  exists [u; w], u, w. split; [exact Su|]. split.
  - apply unify_same_ends; [discriminate|exact Su|].
    intros a b [<-|[<-|[]]] [<-|[<-|[]]]; split; reflexivity.
  - split; [now left|]. split; [right; now left|]. split; [reflexivity|].
    intros C. apply leqb_eq in C. vm_compute in C. discriminate.
Qed.
Print Assumptions unify_same_ends_refuted.

(* the uncertainties stay as they were, so a vector with uncertainties whose
   grid grows no longer fits together *)
Theorem unify_std_kept df df' : df <> [] -> Forall sane df -> samples_unify_E df = Ok df' ->
  Forall2 (fun u u' => s_std u' = s_std u) df df'.
Proof.
  intros N H E. destruct (unify_lemma df N H) as [[_ E2]|(_ & v & w & df2 & _ & _ & _ & E2 & F)];
    rewrite E in E2; injection E2 as <-.
  - apply Forall2_diag. auto.
  - eapply Forall2_weaken; [|exact F]. cbn beta. tauto.
Qed.
Print Assumptions unify_std_kept.

(* C83, C84 together: each line of the statistics table is about one energy,
   and consists of the quantiles of the values the samples have there *)
Theorem vector_stats_meaning p0 p1 df table : Forall sane df ->
  (same_ends df -> forall u w, In u df -> In w df -> s_E u = s_E w) ->
  vector_stats p0 p1 df = Ok table ->
  (forall e st, In (e, st) table ->
    let samples := map (fun u => sample_at u e) df in
    st_median st = quantile (qn 1 2) samples /\ st_low st = quantile p0 samples /\ st_high st = quantile p1 samples) /\
  increasing (map fst table).
Proof.
  intros H S V. unfold vector_stats in V.
  assert (N : df <> []) by (intros ->; discriminate).
  assert (U : exists df' grid, samples_unify_E df = Ok df' /\ increasing grid /\
    Forall2 (fun u u' => s_E u' = grid /\ s_val u' = map (sample_at u) grid) df df').
  { destruct (unify_lemma df N H) as [[Se E]|(Se & v & w & df' & Iv & Iw & M & E & F)].
    - destruct df as [|v df]; [congruence|]. exists (v :: df), (s_E v). split; [exact E|].
      specialize (S Se). rewrite Forall_forall in H.
      split; [apply (H v); now left|].
      assert (K : forall u, In u (v :: df) -> s_E u = s_E v /\ s_val u = map (sample_at u) (s_E v)).
      { intros u Iu. assert (Eu : s_E u = s_E v) by (apply S; [exact Iu|now left]). split; [exact Eu|].
        destruct (H u Iu) as (_ & Inc & L). rewrite <- Eu. unfold sample_at.
        clear - Inc L. destruct u as [E vals std]. cbn [s_E s_val] in *. revert vals L.
        induction Inc as [|x E Inc IH Fx]; intros [|o vals] L; cbn in L; try discriminate; [reflexivity|].
        cbn [map value_at]. destruct (qeqb_spec x x) as [_|C]; [|congruence]. f_equal.
        rewrite (IH vals) at 1 by lia. apply map_ext_in. intros e Ie. rewrite Forall_forall in Fx.
        destruct (qeqb_spec x e) as [->|_]; [exfalso; specialize (Fx e Ie); qlra|reflexivity]. }
      revert K. generalize (s_E v). generalize (v :: df). clear. induction l as [|u l IH]; intros G K; constructor.
      + apply K. now left.
      + apply IH. intros; apply K; now right.
    - exists df', (union1d (s_E v) (s_E w)). split; [exact E|]. split; [apply union1d_increasing|].
      eapply Forall2_weaken; [|exact F]. cbn beta. intros u u' (A & _ & _ & B). split; [exact A|]. now rewrite B, A. }
  destruct U as (df' & grid & E & Inc & F). rewrite E in V. cbn [rbind] in V.
  destruct df' as [|v df']; [discriminate|].
  assert (Ev : s_E v = grid) by (inversion F as [|? ? ? ? A B]; subst; apply A). rewrite Ev in V. clear Ev.
  assert (R : rmapl (put_row (length grid)) (v :: df') = Ok (map (fun u => map (sample_at u) grid) df)).
  { clear - F. revert F. generalize (v :: df'). intros l F.
    induction F as [|u u' l l' (A & B) F IH]; [reflexivity|]. cbn [rmapl map]. unfold put_row at 1.
    rewrite B, map_length, Nat.eqb_refl. cbn [rbind]. rewrite IH. reflexivity. }
  unfold stats_from_df in V. rewrite R in V. cbn [rbind] in V.
  destruct (negb _); cbn [rbind] in V; [discriminate|]. injection V as <-. split.
  - intros e st I. cbn zeta. apply In_nth with (d := (0, mkStat None None None)) in I.
    destruct I as (j & Hj & Ej). rewrite combine_length, tab_length, Nat.min_id in Hj.
    rewrite combine_nth in Ej by (now rewrite tab_length). rewrite nth_tab in Ej by exact Hj.
    injection Ej as Ee <-. cbn [st_median st_low st_high]. rewrite map_map.
    assert (X : map (fun u => nth j (map (sample_at u) grid) None) df = map (fun u => sample_at u e) df).
    { apply map_ext. intros u. rewrite (map_nth_in (sample_at u) grid j 0 None Hj). now rewrite Ee. }
    rewrite X. rewrite median_is_half. auto.
  - clear - Inc. replace (map fst (combine grid _)) with grid; [exact Inc|].
    generalize (fun j : nat => mkStat (median (map (fun r : list (option Qc) => nth j r None) (map (fun u : svec => map (sample_at u) grid) df)))
      (quantile p0 (map (fun r : list (option Qc) => nth j r None) (map (fun u : svec => map (sample_at u) grid) df)))
      (quantile p1 (map (fun r : list (option Qc) => nth j r None) (map (fun u : svec => map (sample_at u) grid) df)))).
    intros f. assert (L : length grid = length (tab (length grid) f)) by now rewrite tab_length.
    revert L. generalize (tab (length grid) f). clear. induction grid as [|x g IH]; intros [|y l] L; cbn in *; try discriminate; [reflexivity|].
    f_equal. apply IH. lia.
Qed.
Print Assumptions vector_stats_meaning.

(* ------------------------------------------------------------------ *)
(* Examples *)
Definition ex_df : list svec :=
  [ mkS (ql [1; 2]%Z) [Some (qz 10); Some (qz 20)] None;
    mkS (ql [2; 3]%Z) [Some (qz 40); Some (qz 50)] None ].
Example ex_stats :
  match vector_stats (qn 1 4) (qn 3 4) ex_df with
  | Ok [(e1, s1); (e2, s2); (e3, s3)] =>
      qeqb e2 (qz 2) &&
      match st_low s2, st_median s2, st_high s2 with
      | Some a, Some b, Some c => qeqb a (qz 25) && qeqb b (qz 30) && qeqb c (qz 35)
      | _, _, _ => false
      end &&
      match st_median s3 with Some b => qeqb b (qz 50) | None => false end
  | _ => false
  end = true.
Proof. vm_compute. reflexivity. Qed.
Example ex_sane : Forall sane ex_df /\ ~ same_ends ex_df.
Proof.
  split.
  - repeat constructor; cbn [s_E]; try discriminate; try (apply qltb_lt; reflexivity).
  - intros S. destruct (S (mkS (ql [1; 2]%Z) [Some (qz 10); Some (qz 20)] None)
                          (mkS (ql [2; 3]%Z) [Some (qz 40); Some (qz 50)] None)) as [A _];
      [now left|right; now left|]. apply qeqb_eq in A. vm_compute in A. discriminate.
Qed.
Example ex_grid : Forall (on_grid (ql [1; 2; 3]%Z)) ex_df.
Proof.
  constructor; [|constructor; [|constructor]]; intros e;
    unfold first_E, last_E, ql; cbn [s_E map vget nth length Nat.sub In]; split.
  - intros [<-|[<-|[]]]; (split; [auto|split; apply qleb_le; reflexivity]).
  - intros ([<-|[<-|[<-|[]]]] & A & B); auto.
  - intros [<-|[<-|[]]]; (split; [auto|split; apply qleb_le; reflexivity]).
  - intros ([<-|[<-|[<-|[]]]] & A & B); auto.
Qed.
