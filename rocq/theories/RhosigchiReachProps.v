(* How far the rhosigchi extraction can get from its starting point (pyrhosigchi.py:265-334,
   rhosigchi.cpp:196-277): every iteration changes an entry by a bounded factor, the number of
   iterations is fixed, and the level density starts as 1 everywhere. *)
From Coq Require Import List ZArith QArith Qcanon Lia Bool.
From Verif Require Import Num PyBase IndexProofs CutProofs RhosigchiModel RhosigchiSpec
  RhosigchiProofs RhosigchiFix RhosigchiProps.
Import ListNotations.
Local Open Scope Qc_scope.

(* ------------------------------------------------------------------ specification *)
(* new is old changed by at most the factor v upwards or downwards, or zero *)
Definition within_factor (v old new : Qc) : Prop := new = 0 \/ (old <= v * new /\ new <= v * old).
(* no entry of the measured matrix is negative *)
Definition counts (fg : list (list Qc)) : Prop := forall row, In row fg -> nonneg row.

(* ------------------------------------------------------------------ helper lemmas *)
Lemma loop_inv {S} (P : S -> Prop) (body : S -> Z -> result S) l : (forall s i s', P s -> body s i = Ok s' -> P s') ->
  forall s s', P s -> loop body s l = Ok s' -> P s'.
Proof.
  intros H. induction l as [|i l IH]; intros s s' Ps; cbn [loop]; [intros E; now injection E as <-|].
  destruct (body s i) as [s1|] eqn:E; [|discriminate]. cbn [rbind]. apply IH. eapply H; eassumption.
Qed.
Lemma at_In {A} w (l : list A) i x : at_ w l i = Ok x -> In x l.
Proof.
  unfold at_. cbv zeta. set (j := if w && _ then _ else _). clearbody j. destruct (j <? 0)%Z; [discriminate|]. destruct (nth_error l (Z.to_nat j)) eqn:E; [|discriminate].
  intros Q. injection Q as <-. eapply nth_error_In; eassumption.
Qed.
Lemma upd_In {A} (l : list A) i x y : In y (upd l i x) -> y = x \/ In y l.
Proof.
  revert i. induction l as [|a l IH]; intros [|i]; cbn; try tauto; try (intros [->|I]; auto; fail).
  intros [->|I]; [auto|]. destruct (IH _ I); auto.
Qed.
Lemma set_nonneg w l i x l' : nonneg l -> 0 <= x -> set_ w l i x = Ok l' -> nonneg l'.
Proof.
  intros N X. unfold set_. cbv zeta. set (j := if w && _ then _ else _). clearbody j. destruct (_ || _); [discriminate|]. intros Q. injection Q as <-.
  intros y I. apply upd_In in I as [-> | I]; [exact X|now apply N].
Qed.
Lemma normalize_row_counts lo hi row r : nonneg row -> normalize_row lo hi row = Some r -> nonneg r.
Proof.
  intros N. unfold normalize_row. cbv zeta. destruct (_ && _); [discriminate|]. intros Q. injection Q as <-. intros x I. apply in_tab in I as (j & J & ->).
  destruct (_ && _); [|apply Qcle_refl]. apply Qcdiv_nonneg; [apply N, nth_In, J|]. apply qsum_nonneg. intros y Y. apply N. eapply py_slice_in; eassumption.
Qed.
Lemma normalize_rows_counts L m : forall i r, counts m -> normalize_rows L i m = Ok (Some r) -> counts r.
Proof.
  induction m as [|row m IH]; intros i r C; cbn [normalize_rows]; [intros Q; injection Q as <-; intros x []|].
  destruct (normalize_rows L (i + 1) m) as [rest|] eqn:E; [|discriminate]. cbn [rbind].
  assert (C' : counts m) by (intros x I; apply C; now right).
  destruct (_ && _).
  - destruct (at_ true (igmax L) i) as [gm|]; [|discriminate]. cbn [rbind]. destruct (normalize_row _ gm row) as [r0|] eqn:E0; [|discriminate].
    destruct rest as [rs|]; [|discriminate]. intros Q. injection Q as <-. intros x [<-|I]; [eapply normalize_row_counts; [apply C; left; reflexivity|exact E0]|].
    eapply IH; eassumption.
  - destruct rest as [rs|]; [|discriminate]. cbn [option_map]. intros Q. injection Q as <-.
    intros x [<-|I]; [intros y Y; apply repeat_spec in Y as ->; apply Qcle_refl|]. eapply IH; eassumption.
Qed.
Lemma gsf_start_counts L FgN n g : counts FgN -> gsf_start L FgN n = Ok g -> nonneg g.
Proof.
  intros C. apply loop_inv; [|intros x I; apply repeat_spec in I as ->; apply Qcle_refl].
  intros s ix s' N. destruct (at_ true (igmax L) ix) as [gm|]; [|discriminate]. cbn [rbind]. apply loop_inv; [|exact N].
  clear s s' N. intros s ig s' N. unfold at2. destruct (at_ true FgN ix) as [row|] eqn:E1; [|discriminate]. cbn [rbind].
  destruct (at_ true row ig) as [F|] eqn:E2; [|discriminate]. cbn [rbind]. destruct (at_ true s ig) as [old|] eqn:E3; [|discriminate]. cbn [rbind].
  apply set_nonneg; [exact N|]. apply at_In in E1, E2, E3. pose proof (C _ E1 _ E2). pose proof (N _ E3). qlra.
Qed.
Lemma allowed_within v old new : 0 < v -> allowed v old new -> within_factor v old new.
Proof.
  intros V [_ [->|[A B]]]; [now left|]. right. split; [|exact B].
  replace old with (v * (old / v)) by (field; now apply Qclt_neq). rewrite (Qcmult_comm v), (Qcmult_comm v). apply Qcmult_le_compat_r; [exact A|qlra].
Qed.
Lemma within_weaken v w old new : v <= w -> 0 <= old -> 0 <= new -> within_factor v old new -> within_factor w old new.
Proof.
  intros V O N [->|[A B]]; [now left|]. right.
  split; [eapply Qcle_trans; [exact A|]|eapply Qcle_trans; [exact B|]]; apply Qcmult_le_compat_r; assumption.
Qed.
Lemma entry_repeat1 n i : (0 <= i < Z.of_nat n)%Z -> entry (repeat 1 n) i = 1.
Proof.
  intros I. unfold entry. destruct (Z.ltb_spec i 0); [lia|]. apply repeat_spec with (n := n). apply nth_In. rewrite repeat_length. lia.
Qed.

(* ------------------------------------------------------------------ the start *)
(* The run is an iteration from a level density of 1 and non-negative coefficients. *)
Lemma run_start fg std imin imax lo u0 nit out : counts fg -> run fg std imin imax lo u0 nit = Ok (Some out) ->
  exists L FgN g0, igmin L = lo /\ iu0 L = u0 /\ nonneg g0 /\
    iterate false FgN std L ((repeat 1 (Z.to_nat (imax - lo + u0)), g0) ::
      repeat (repeat 0 (Z.to_nat (imax - lo + u0)), repeat 0 (Z.to_nat (imax + u0))) (Nat.pred nit)) = Ok out.
Proof.
  intros C. unfold run, normalize. cbv zeta. set (L := mkLim _ _ _ _ _).
  destruct (normalize_rows L 0 fg) as [o|] eqn:E; [|discriminate]. cbn [rbind fst snd]. destruct o as [FgN|]; [|discriminate].
  destruct (gsf_start L FgN _) as [g0|] eqn:G; [|discriminate]. cbn [rbind].
  destruct (iterate false FgN std L _) as [out'|] eqn:I; [|discriminate]. cbn [rmap]. intros Q. injection Q as <-.
  exists L, FgN, g0. repeat split; [|exact I]. eapply gsf_start_counts; [|exact G]. eapply normalize_rows_counts; eassumption.
Qed.

(* ------------------------------------------------------------------ theorems *)
(* The change per iteration: 20 % in the first five iterations, then 10, 5, 2.5 and at last 1 %. *)
Theorem rhosigchi_schedule : forall fg std imin imax lo u0 n out, counts fg -> (0 <= lo)%Z ->
  run fg std imin imax lo u0 (S n) = Ok (Some out) ->
  length out = S n /\ (forall i, (0 <= i < imax - lo + u0)%Z -> entry (rho_of out 0) i = 1) /\
  forall k i v, (1 <= k <= n)%nat ->
    (k <= 5 /\ v = qn 12 10 \/ 6 <= k <= 12 /\ v = qn 11 10 \/ 13 <= k <= 21 /\ v = qn 105 100 \/
     22 <= k <= 30 /\ v = qn 1025 1000 \/ 31 <= k /\ v = qn 101 100)%nat ->
    within_factor v (entry (rho_of out (k - 1)) i) (entry (rho_of out k) i) /\
    within_factor v (entry (sig_of out (k - 1)) i) (entry (sig_of out k) i).
Proof.
  intros fg std imin imax lo u0 n out C LO R. apply run_start in R as (L & FgN & g0 & HL & _ & N0 & I); [|exact C].
  assert (N1 : nonneg (repeat 1 (Z.to_nat (imax - lo + u0)))) by (intros x X; apply repeat_spec in X as ->; discriminate).
  destruct (iterate_allowed false FgN std L _ g0 _ _ _ out ltac:(lia) N1 N0 I) as (A & B & _ & D).
  split; [exact A|]. split; [intros i Hi; rewrite B; apply entry_repeat1; lia|].
  intros k i v K V. destruct (D (k - 1)%nat ltac:(cbn; lia) i) as [D1 D2]. replace (S (k - 1)) with k in * by lia.
  assert (v = var k) as ->.
  { unfold var. destruct V as [[? ->]|[[? ->]|[[? ->]|[[? ->]|[? ->]]]]];
      repeat match goal with |- context [(k <=? ?m)%nat] => destruct (Nat.leb_spec k m); [try lia|try lia] end; try reflexivity; exfalso; lia. }
  pose proof (var_ge_1 k). split; (apply allowed_within; [qlra|assumption]).
Qed.
Print Assumptions rhosigchi_schedule.

Lemma growth_50 : growth 50 <= qn 23 2.
Proof. apply qleb_le. vm_compute. reflexivity. Qed.
Lemma growth_50_sharp : qn 1145 100 <= growth 50.
Proof. apply qleb_le. vm_compute. reflexivity. Qed.
(* With the default of 51 rows (50 iterations) an entry of the level density ends between 1/11.5
   and 11.5 or at zero; an entry of the transmission coefficient ends within the same factor of
   its start. *)
Theorem rhosigchi_reach : forall fg std imin imax lo u0 out, counts fg -> (0 <= lo)%Z ->
  run fg std imin imax lo u0 51 = Ok (Some out) ->
  forall i, (0 <= i < imax - lo + u0)%Z -> 0 <= entry (rho_of out 50) i /\ within_factor (qn 23 2) 1 (entry (rho_of out 50) i) /\
    0 <= entry (sig_of out 50) i /\ within_factor (qn 23 2) (entry (sig_of out 0) i) (entry (sig_of out 50) i).
Proof.
  intros fg std imin imax lo u0 out C LO R i Hi. apply run_start in R as (L & FgN & g0 & HL & _ & N0 & I); [|exact C]. cbn [Nat.pred] in I.
  assert (N1 : nonneg (repeat 1 (Z.to_nat (imax - lo + u0)))) by (intros x X; apply repeat_spec in X as ->; discriminate).
  destruct (iterate_allowed false FgN std L _ g0 _ _ _ out ltac:(lia) N1 N0 I) as (_ & _ & S0 & _).
  destruct (iterate_bounded false FgN std L _ g0 _ _ _ out 50 i ltac:(lia) N1 N0 I ltac:(lia)) as [A B].
  rewrite entry_repeat1 in A by lia. rewrite S0. pose proof growth_50 as G. pose proof (growth_pos 50) as P.
  pose proof (entry_nonneg g0 i N0) as E0. pose proof (proj1 A) as A0. pose proof (proj1 B) as B0.
  split; [exact A0|]. split; [|split; [exact B0|]].
  - eapply within_weaken; [exact G|discriminate|exact A0|]. now apply allowed_within.
  - eapply within_weaken; [exact G|exact E0|exact B0|]. now apply allowed_within.
Qed.
Print Assumptions rhosigchi_reach.
(* So two entries of the level density that are not zero differ by less than a factor of 133. *)
Corollary rhosigchi_span : forall fg std imin imax lo u0 out, counts fg -> (0 <= lo)%Z ->
  run fg std imin imax lo u0 51 = Ok (Some out) ->
  forall i j, (0 <= i < imax - lo + u0)%Z -> (0 <= j < imax - lo + u0)%Z -> entry (rho_of out 50) j <> 0 ->
  entry (rho_of out 50) i <= qz 133 * entry (rho_of out 50) j.
Proof.
  intros fg std imin imax lo u0 out C LO R i j Hi Hj NZ.
  destruct (rhosigchi_reach _ _ _ _ _ _ _ C LO R i Hi) as (Pi & Wi & _). destruct (rhosigchi_reach _ _ _ _ _ _ _ C LO R j Hj) as (Pj & [Z|[Wj _]] & _); [contradiction|].
  set (x := entry (rho_of out 50) i) in *. set (y := entry (rho_of out 50) j) in *. clearbody x y. change (qn 23 2) with (Q2Qc (23 # 2)) in *.
  destruct Wi as [->|[_ W]]; unfold qz; qlra.
Qed.
Print Assumptions rhosigchi_span.

(* The matrix only determines the level density up to a factor and an exponential.  What it does
   determine are double ratios of four bins; those of a result are limited as well. *)
Theorem rhosigchi_double_ratio : forall fg std imin imax lo u0 out, counts fg -> (0 <= lo)%Z ->
  run fg std imin imax lo u0 51 = Ok (Some out) ->
  forall L (F : Z -> Z -> Qc) x x' g g' c c', iu0 L = u0 ->
  (forall i j, In (i, j) [(x, g); (x, g'); (x', g); (x', g')] -> (0 <= i - j + u0 < imax - lo + u0)%Z /\ 0 < F i j) ->
  (forall j, In j [g; g'] -> F x j = c * product L (rho_of out 50) (sig_of out 50) x j /\
                             F x' j = c' * product L (rho_of out 50) (sig_of out 50) x' j) ->
  F x g * F x' g' <= qz 17491 * (F x g' * F x' g).
Proof.
  intros fg std imin imax lo u0 out C LO R L F x x' g g' c c' HU HF HP.
  pose proof (rhosigchi_reach _ _ _ _ _ _ _ C LO R) as RE.
  destruct (HF x g ltac:(cbn; tauto)) as [I1 P1]. destruct (HF x g' ltac:(cbn; tauto)) as [I2 P2].
  destruct (HF x' g ltac:(cbn; tauto)) as [I3 P3]. destruct (HF x' g' ltac:(cbn; tauto)) as [I4 P4].
  destruct (HP g ltac:(cbn; tauto)) as [E1 E3]. destruct (HP g' ltac:(cbn; tauto)) as [E2 E4]. unfold product in *. rewrite HU in *.
  destruct (RE _ I1) as (Q1 & W1 & _). destruct (RE _ I2) as (Q2 & W2 & _). destruct (RE _ I3) as (Q3 & W3 & _). destruct (RE _ I4) as (Q4 & W4 & _).
  set (s := entry (sig_of out 50) g) in *. set (s' := entry (sig_of out 50) g') in *.
  set (r1 := entry (rho_of out 50) (x - g + u0)) in *. set (r2 := entry (rho_of out 50) (x - g' + u0)) in *.
  set (r3 := entry (rho_of out 50) (x' - g + u0)) in *. set (r4 := entry (rho_of out 50) (x' - g' + u0)) in *.
  clearbody s s' r1 r2 r3 r4. clear RE HF HP R C.
  destruct W1 as [->|[_ W1]]; [exfalso; rewrite E1 in P1; replace (c * (s * 0)) with 0 in P1 by ring; now apply Qclt_not_eq in P1|].
  destruct W4 as [->|[_ W4]]; [exfalso; rewrite E4 in P4; replace (c' * (s' * 0)) with 0 in P4 by ring; now apply Qclt_not_eq in P4|].
  destruct W2 as [->|[W2 _]]; [exfalso; rewrite E2 in P2; replace (c * (s' * 0)) with 0 in P2 by ring; now apply Qclt_not_eq in P2|].
  destruct W3 as [->|[W3 _]]; [exfalso; rewrite E3 in P3; replace (c' * (s * 0)) with 0 in P3 by ring; now apply Qclt_not_eq in P3|].
  set (K := c * s * (c' * s')). assert (EL : F x g * F x' g' = K * (r1 * r4)) by (rewrite E1, E4; unfold K; ring).
  assert (ER : F x g' * F x' g = K * (r2 * r3)) by (rewrite E2, E3; unfold K; ring).
  assert (PL : 0 < K * (r1 * r4)) by (rewrite <- EL; now apply qcmul_pos). rewrite EL, ER. clearbody K. clear EL ER E1 E2 E3 E4 P1 P2 P3 P4.
  change (qn 23 2) with (Q2Qc (23 # 2)) in *.
  assert (U : r1 * r4 <= Q2Qc (529 # 4)) by (clear - Q1 Q4 W1 W4; qnra).
  assert (V : Q2Qc (4 # 529) <= r2 * r3) by (clear - Q2 Q3 W2 W3; qnra).
  assert (PR : 0 <= r1 * r4) by (now apply Qcmult_nonneg).
  assert (PK : 0 < K). { destruct (Qclt_le_dec 0 K) as [L0|L0]; [exact L0|]. exfalso. clear - PL PR L0. qnra. }
  assert (M : r1 * r4 <= qz 17491 * (r2 * r3)) by (unfold qz; clear - U V; qlra).
  replace (qz 17491 * (K * (r2 * r3))) with ((qz 17491 * (r2 * r3)) * K) by ring. rewrite (Qcmult_comm K). apply Qcmult_le_compat_r; [exact M|qlra].
Qed.
Print Assumptions rhosigchi_double_ratio.

(* Hence an exact product whose level density jumps too far is not found in the default number of
   iterations, although it reproduces the matrix and the result does not. *)
Example jump_fg : list (list Qc) := [ql [1; 0; 0]; ql [1; 1; 0]; ql [20000; 1; 1]]%Z.
Example jump_rho : list Qc := ql [1; 1; 20000]%Z.
Example jump_sig : list Qc := ql [1; 1; 1]%Z.
Example jump_fgn : list (list Qc) := [ql [0; 0; 0]%Z; [qn 1 2; qn 1 2; 0]; [qn 20000 20002; qn 1 20002; qn 1 20002]].
Lemma jump_normalised : exists F, normalize jump_fg std_ex lim_ex = Ok (Some F, std_ex) /\ lleqb F jump_fgn = true.
Proof. eexists. split; [vm_compute; reflexivity|vm_compute; reflexivity]. Qed.
Lemma jump_factorises : factorises lim_ex jump_fgn std_ex jump_rho jump_sig.
Proof.
  intros ix K. cbn [jmin jmax lim_ex] in K.
  assert (ix = 1 \/ ix = 2)%Z as [-> | ->] by lia; (split; [apply qltb_lt; reflexivity|]);
    intros ig G; change (igmin lim_ex) with 0%Z in G.
  - change (gmax lim_ex 1) with 2%Z in G. assert (ig = 0 \/ ig = 1)%Z as [-> | ->] by lia;
      (split; [apply qeqb_eq; reflexivity|apply qltb_lt; reflexivity]).
  - change (gmax lim_ex 2) with 3%Z in G. assert (ig = 0 \/ ig = 1 \/ ig = 2)%Z as [-> | [-> | ->]] by lia;
      (split; [apply qeqb_eq; reflexivity|apply qltb_lt; reflexivity]).
Qed.
Lemma jump_counts : counts jump_fg.
Proof. intros r [<-|[<-|[<-|[]]]] x I; cbn in I; repeat destruct I as [<-|I]; try contradiction; apply qleb_le; reflexivity. Qed.
Lemma jump_run : exists out, run jump_fg std_ex 1 3 0 0 51 = Ok (Some out).
Proof.
  assert (EL : mkLim 1 3 0 (find_igmax jump_fg 1 3 0) 0 = lim_ex) by (vm_compute; reflexivity).
  destruct jump_normalised as (F & N & E). apply lleqb_eq in E. subst F.
  assert (G : exists g, gsf_start lim_ex jump_fgn 3 = Ok g /\ length g = 3%nat) by (eexists; split; [vm_compute; reflexivity|reflexivity]).
  destruct G as (g & G & LG). unfold run. cbv zeta. rewrite EL, N. cbn [rbind fst snd].
  change (Z.to_nat (3 - 0 + 0)) with 3%nat. change (Z.to_nat (3 + 0)) with 3%nat. rewrite G. cbn [rbind].
  destruct (iterate_safe false jump_fgn std_ex lim_ex (repeat 1 3) g 50) as [out O].
  - unfold fits. rewrite LG. cbn [lim_ex jmin jmax igmin igmax iu0 length repeat]. repeat match goal with |- _ /\ _ => split end; try lia; try (vm_compute; discriminate).
    + intros ix gm K. assert (ix = 1 \/ ix = 2)%Z as [-> | ->] by lia; cbn; intros E; injection E; lia.
    + intros ix K. assert (ix = 1 \/ ix = 2)%Z as [-> | ->] by lia; do 2 eexists; (split; [reflexivity|]; split; [reflexivity|]; split; vm_compute; discriminate).
  - rewrite LG in O. change (length (repeat 1 3)) with 3%nat in O. change (Nat.pred 51) with 50%nat. rewrite O. cbn [rmap]. eauto.
Qed.
Theorem rhosigchi_reach_refuted : exists fg std L FgN rho sig out, counts fg /\ normalize fg std L = Ok (Some FgN, std) /\
  factorises L FgN std rho sig /\ run fg std (jmin L) (jmax L) (igmin L) (iu0 L) 51 = Ok (Some out) /\
  ~ factorises L FgN std (rho_of out 50) (sig_of out 50).
Proof.
  destruct jump_normalised as (F & N & E). apply lleqb_eq in E. subst F. destruct jump_run as [out R].
  exists jump_fg, std_ex, lim_ex, jump_fgn, jump_rho, jump_sig, out.
  split; [exact jump_counts|]. split; [exact N|]. split; [exact jump_factorises|]. split; [exact R|]. intros FA.
  destruct (FA 2%Z ltac:(cbn; lia)) as [T2 F2]. destruct (FA 1%Z ltac:(cbn; lia)) as [T1 F1].
  set (t2 := row_total lim_ex (rho_of out 50) (sig_of out 50) 2) in *. set (t1 := row_total lim_ex (rho_of out 50) (sig_of out 50) 1) in *. clearbody t1 t2.
  pose proof (rhosigchi_double_ratio jump_fg std_ex 1 3 0 0 out jump_counts ltac:(lia) R lim_ex (entry2 jump_fgn) 2 1 0 1 (1 / t2) (1 / t1) eq_refl) as D.
  assert (B : qz 17491 * (entry2 jump_fgn 2 1 * entry2 jump_fgn 1 0) < entry2 jump_fgn 2 0 * entry2 jump_fgn 1 1) by (apply qltb_lt; vm_compute; reflexivity).
  apply (Qclt_not_le _ _ B), D; clear D B.
  - intros i j I. cbn [In] in I. repeat destruct I as [I|I]; try contradiction; injection I as <- <-; (split; [lia|apply qltb_lt; vm_compute; reflexivity]).
  - intros j I. assert (j = 0 \/ j = 1)%Z as J by (cbn [In] in I; lia).
    destruct (F2 j ltac:(change (gmax lim_ex 2) with 3%Z; cbn [igmin lim_ex]; lia)) as [-> _]. destruct (F1 j ltac:(change (gmax lim_ex 1) with 2%Z; cbn [igmin lim_ex]; lia)) as [-> _].
    split; field; apply Qclt_neq; assumption.
Qed.
Print Assumptions rhosigchi_reach_refuted.
(* the theorems' hypotheses hold for this run *)
Example jump_reach : exists out, run jump_fg std_ex 1 3 0 0 51 = Ok (Some out) /\
  forall i, (0 <= i < 3)%Z -> entry (rho_of out 50) i = 0 \/ (Q2Qc (2 # 23) <= entry (rho_of out 50) i /\ entry (rho_of out 50) i <= Q2Qc (23 # 2)).
Proof.
  destruct jump_run as [out R]. exists out. split; [exact R|]. intros i Hi.
  destruct (rhosigchi_reach jump_fg std_ex 1 3 0 0 out jump_counts ltac:(lia) R i ltac:(lia)) as (_ & [Z|[A B]] & _); [now left|].
  right. change (qn 23 2) with (Q2Qc (23 # 2)) in *. split; qlra.
Qed.
