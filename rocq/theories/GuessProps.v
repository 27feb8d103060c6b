(* C94. The initial guess of the level density. *)
From Coq Require Import Reals List Lra Lia String.
From Verif Require Import GuessModel.
Import ListNotations.
Local Notation length := List.length (only parsing).
Local Open Scope R_scope.

Lemma shifted_pos E0 e : 0 < shifted E0 e.
Proof. unfold shifted. cbv zeta. destruct (Rle_dec (e - E0) 0); lra. Qed.
Lemma fermi_gas_pos E0 a e : 0 < fermi_gas E0 a e.
Proof.
  unfold fermi_gas. cbv zeta. apply Rdiv_lt_0_compat; [apply exp_pos|]. apply Rmult_lt_0_compat; apply exp_pos.
Qed.
Lemma nth_map_seq (f : nat -> R) n i d : (i < n)%nat -> nth i (map f (seq 0 n)) d = f i.
Proof. intros H. rewrite (nth_indep _ d (f 0%nat)) by (rewrite map_length, seq_length; exact H). rewrite map_nth, seq_nth by exact H. reflexivity. Qed.

Definition increasing (E : list R) : Prop := forall i j, (i < j < length E)%nat -> nth i E 0 < nth j E 0.

(* On every increasing axis with at least two energies the guess is defined and positive; it
   is 1/0.7 in the middle and has the same value at a quarter of the length and at the end. *)
Theorem guess_shape E0 a E : (2 <= length E)%nat -> increasing E ->
  exists x, x0_BSFG E0 a E = Some x /\ length x = length E /\ (forall v, In v x -> 0 < v) /\
    nth (length E / 2) x 0 = 1 / (7 / 10) /\ nth (length E / 4) x 0 = nth (length E - 1) x 0.
Proof.
  intros L I. unfold x0_BSFG. cbv zeta. set (n := length E) in *.
  assert (Q4 : (n / 4 < n - 1)%nat). { pose proof (Nat.div_mod n 4 ltac:(lia)). pose proof (Nat.mod_upper_bound n 4 ltac:(lia)). lia. }
  assert (Q2 : (n / 2 < n)%nat) by (apply Nat.div_lt; lia).
  pose proof (I (n / 4)%nat (n - 1)%nat ltac:(lia)) as LT.
  destruct (Req_EM_T (nth (n - 1) E 0) (nth (n / 4) E 0)) as [Q|_]; [lra|].
  eexists. split; [reflexivity|]. split; [rewrite map_length, seq_length; reflexivity|].
  set (e := fun i => nth i E 0). set (fg := fun i => fermi_gas E0 a (nth i E 0)).
  set (al := ln _ / _).
  assert (P : forall i, 0 < fermi_gas E0 a (nth i E 0) * exp (al * nth i E 0)) by (intros i; apply Rmult_lt_0_compat; [apply fermi_gas_pos|apply exp_pos]).
  split; [|split].
  - intros v Hv. apply in_map_iff in Hv. destruct Hv as (i & <- & _). apply Rdiv_lt_0_compat; [apply P|]. apply Rmult_lt_0_compat; [apply P|lra].
  - rewrite nth_map_seq by exact Q2. pose proof (P (n / 2)%nat) as P2. set (g := _ * exp _) in *. field. lra.
  - rewrite !nth_map_seq by lia. f_equal.
    (* fg_q exp(al e_q) = fg_l exp(al e_l) *)
    set (fq := fermi_gas E0 a (nth (n / 4) E 0)) in *. set (fl := fermi_gas E0 a (nth (n - 1) E 0)) in *.
    assert (Pq : 0 < fq) by apply fermi_gas_pos. assert (Pl : 0 < fl) by apply fermi_gas_pos.
    replace (al * nth (n - 1) E 0) with (al * nth (n / 4) E 0 + ln (fq / fl)).
    + rewrite exp_plus, exp_ln by (apply Rdiv_lt_0_compat; assumption). field. lra.
    + unfold al. field. lra.
Qed.
Print Assumptions guess_shape.
Example guess_shape_ex : increasing [0; 1; 2; 4; 5].
Proof. intros i j H. cbn [length] in H. do 5 (destruct i as [|i]; [do 5 (destruct j as [|j]; [try lia; cbn; lra|]); lia|]). lia. Qed.

(* Energies in keV and in MeV give the same guess, if the last energy lies between 0.1 MeV
   and 100 MeV. *)
Theorem guess_units E : E <> [] -> 1 / 10 < nth (length E - 1) E 0 <= 100 ->
  guess_nld (map (fun e => 1000 * e) E) = guess_nld E.
Proof.
  intros NE (H1 & H2). unfold guess_nld. f_equal. unfold to_MeV. rewrite map_length.
  assert (L : (length E - 1 < length E)%nat) by (destruct E; [congruence|cbn; lia]).
  rewrite (nth_indep _ 0 (1000 * 0)) by (rewrite map_length; exact L). rewrite (map_nth (fun e => 1000 * e)).
  destruct (Rlt_dec 100 (1000 * nth (length E - 1) E 0)) as [_|Q]; [|lra]. destruct (Rlt_dec 100 (nth (length E - 1) E 0)); [lra|].
  rewrite map_map. rewrite <- (map_id E) at 2. apply map_ext. intros e. field.
Qed.
Print Assumptions guess_units.
Example guess_units_ex : 1 / 10 < nth (length [0; 1; 2; 4; 5] - 1) [0; 1; 2; 4; 5] 0 <= 100.
Proof. cbn. lra. Qed.

(* --- the guess is not bounded: a bin just above the back-shift is a spike --- *)
Definition spike_axis (d : R) : list R := [- (2 / 10) + d; - (2 / 10) + d + 1; - (2 / 10) + d + 2; - (2 / 10) + d + 3; - (2 / 10) + d + 4].
Lemma spike_increasing d : increasing (spike_axis d).
Proof. intros i j H. cbn [length spike_axis] in H. do 5 (destruct i as [|i]; [do 5 (destruct j as [|j]; [try lia; cbn; lra|]); lia|]). lia. Qed.
Lemma Rpower_le_l x y p : 0 < x -> x <= y -> 0 <= p -> Rpower x p <= Rpower y p.
Proof.
  intros H1 H2 H3. unfold Rpower. destruct (Req_dec x y) as [->|N]; [right; reflexivity|].
  assert (ln x < ln y) by (apply ln_increasing; lra). destruct (Req_dec p 0) as [->|Np]; [rewrite !Rmult_0_l; right; reflexivity|].
  left. apply exp_increasing. apply Rmult_lt_compat_l; lra.
Qed.
Lemma fermi_gas_at d : 0 < d -> fermi_gas (- (2 / 10)) 15 (- (2 / 10) + d) = exp (2 * sqrt (15 * d)) / (Rpower 15 (1 / 4) * Rpower d (5 / 4)).
Proof. intros H. unfold fermi_gas, shifted. cbv zeta. replace (- (2 / 10) + d - - (2 / 10)) with d by ring. destruct (Rle_dec d 0); [lra|reflexivity]. Qed.
(* between U = 1 and U = 5 the values lie between two constants *)
Lemma fermi_gas_bounds d : 1 <= d <= 5 ->
  1 / (Rpower 15 (1 / 4) * Rpower 5 (5 / 4)) <= fermi_gas (- (2 / 10)) 15 (- (2 / 10) + d) <= exp (2 * sqrt 75) / Rpower 15 (1 / 4).
Proof.
  intros (H1 & H5). rewrite fermi_gas_at by lra. assert (P15 : 0 < Rpower 15 (1 / 4)) by apply exp_pos.
  assert (Pd : 0 < Rpower d (5 / 4)) by apply exp_pos. assert (P5 : 0 < Rpower 5 (5 / 4)) by apply exp_pos.
  assert (M5 : Rpower d (5 / 4) <= Rpower 5 (5 / 4)) by (apply Rpower_le_l; lra).
  assert (M1 : 1 <= Rpower d (5 / 4)). { replace 1 with (Rpower 1 (5 / 4)) at 1 by (unfold Rpower; rewrite ln_1, Rmult_0_r; apply exp_0). apply Rpower_le_l; lra. }
  assert (X1 : 1 <= exp (2 * sqrt (15 * d))). { rewrite <- exp_0 at 1. assert (0 < sqrt (15 * d)) by (apply sqrt_lt_R0; lra). left. apply exp_increasing. lra. }
  assert (X2 : exp (2 * sqrt (15 * d)) <= exp (2 * sqrt 75)).
  { assert (sqrt (15 * d) <= sqrt 75) by (apply sqrt_le_1; lra). destruct (Req_dec (sqrt (15 * d)) (sqrt 75)) as [->|N]; [right; reflexivity|]. left. apply exp_increasing. lra. }
  set (p15 := Rpower 15 (1 / 4)) in *. set (p5 := Rpower 5 (5 / 4)) in *. set (pd := Rpower d (5 / 4)) in *. set (xd := exp (2 * sqrt (15 * d))) in *. set (x5 := exp (2 * sqrt 75)) in *.
  split.
  - apply Rle_trans with (1 / (p15 * pd)).
    + unfold Rdiv. rewrite !Rmult_1_l. apply Rinv_le_contravar; [now apply Rmult_lt_0_compat|]. apply Rmult_le_compat_l; lra.
    + unfold Rdiv. apply Rmult_le_compat_r; [|exact X1]. left. apply Rinv_0_lt_compat. now apply Rmult_lt_0_compat.
  - apply Rle_trans with (x5 / (p15 * pd)).
    + unfold Rdiv. apply Rmult_le_compat_r; [|exact X2]. left. apply Rinv_0_lt_compat. now apply Rmult_lt_0_compat.
    + unfold Rdiv. apply Rmult_le_compat_l; [left; apply exp_pos|]. apply Rinv_le_contravar; [exact P15|]. rewrite <- (Rmult_1_r p15) at 1. apply Rmult_le_compat_l; lra.
Qed.

Theorem guess_bounded_refuted : forall M, exists E x, (2 <= length E)%nat /\ increasing E /\ nth (length E - 1) E 0 <= 5 /\
  guess_nld E = Some x /\ exists v, In v x /\ M < v.
Proof.
  intros M.
  set (lo := 1 / (Rpower 15 (1 / 4) * Rpower 5 (5 / 4))). set (hi := exp (2 * sqrt 75) / Rpower 15 (1 / 4)).
  assert (P15 : 0 < Rpower 15 (1 / 4)) by apply exp_pos.
  assert (Plo : 0 < lo). { unfold lo. apply Rdiv_lt_0_compat; [lra|]. apply Rmult_lt_0_compat; apply exp_pos. }
  assert (Phi : 0 < hi) by (unfold hi; apply Rdiv_lt_0_compat; [apply exp_pos|exact P15]).
  (* the first value is at least K / d *)
  set (K := 1 / Rpower 15 (1 / 4) * Rpower (lo / hi) (2 / 3) / (hi * (7 / 10))).
  assert (PK : 0 < K). { unfold K. apply Rdiv_lt_0_compat; [|lra]. apply Rmult_lt_0_compat; [apply Rdiv_lt_0_compat; lra|apply exp_pos]. }
  set (d := Rmin 1 (K / (Rabs M + 1))).
  assert (PM : 0 < Rabs M + 1) by (pose proof (Rabs_pos M); lra).
  assert (Pd : 0 < d). { unfold d. apply Rmin_glb_lt; [lra|]. now apply Rdiv_lt_0_compat. }
  assert (D1 : d <= 1) by apply Rmin_l. assert (DK : d <= K / (Rabs M + 1)) by apply Rmin_r.
  exists (spike_axis d). destruct (guess_shape (- (2 / 10)) 15 (spike_axis d) ltac:(cbn; lia) (spike_increasing d)) as (x & HX & _).
  exists x. split; [cbn; lia|]. split; [apply spike_increasing|]. split; [cbn; lra|].
  split. { unfold guess_nld, to_MeV. cbn [spike_axis length Nat.sub nth]. destruct (Rlt_dec 100 (- (2 / 10) + d + 4)); [lra|exact HX]. }
  unfold x0_BSFG in HX. cbn [spike_axis length Nat.sub nth] in HX. change (5 / 4)%nat with 1%nat in HX. change (5 / 2)%nat with 2%nat in HX. cbn [nth] in HX.
  destruct (Req_EM_T _ _); [discriminate|]. injection HX as HX. cbn [seq map nth] in HX. rewrite <- HX. eexists. split; [left; reflexivity|]. clear HX.
  replace (- (2 / 10) + d + 1) with (- (2 / 10) + (d + 1)) by ring. replace (- (2 / 10) + d + 2) with (- (2 / 10) + (d + 2)) by ring. replace (- (2 / 10) + d + 4) with (- (2 / 10) + (d + 4)) by ring.
  destruct (fermi_gas_bounds (d + 1) ltac:(lra)) as (A1 & A2). destruct (fermi_gas_bounds (d + 2) ltac:(lra)) as (B1 & B2). destruct (fermi_gas_bounds (d + 4) ltac:(lra)) as (C1 & C2).
  fold lo in A1, B1, C1. fold hi in A2, B2, C2.
  set (f1 := fermi_gas (- (2 / 10)) 15 (- (2 / 10) + (d + 1))) in *. set (f2 := fermi_gas (- (2 / 10)) 15 (- (2 / 10) + (d + 2))) in *. set (f4 := fermi_gas (- (2 / 10)) 15 (- (2 / 10) + (d + 4))) in *.
  set (f0 := fermi_gas (- (2 / 10)) 15 (- (2 / 10) + d)).
  set (al := ln (f1 / f4) / (- (2 / 10) + (d + 4) - (- (2 / 10) + (d + 1)))).
  assert (AL : al = ln (f1 / f4) / 3) by (unfold al; f_equal; ring).
  (* exp(-2 al) >= (lo/hi)^(2/3) *)
  assert (F41 : lo / hi <= f4 / f1). { unfold Rdiv. apply Rmult_le_compat; [lra|left; apply Rinv_0_lt_compat; lra|lra|]. apply Rinv_le_contravar; lra. }
  assert (EX : Rpower (lo / hi) (2 / 3) <= exp (al * (- (2 / 10) + d)) / exp (al * (- (2 / 10) + (d + 2)))).
  { unfold Rdiv at 3. rewrite <- exp_Ropp, <- exp_plus. replace (al * (- (2 / 10) + d) + - (al * (- (2 / 10) + (d + 2)))) with (2 / 3 * ln (f4 / f1)).
    - change (exp (2 / 3 * ln (f4 / f1))) with (Rpower (f4 / f1) (2 / 3)). apply Rpower_le_l; [now apply Rdiv_lt_0_compat|exact F41|lra].
    - rewrite AL. replace (f4 / f1) with (/ (f1 / f4)) by (field; lra). rewrite ln_Rinv by (apply Rdiv_lt_0_compat; lra). field. }
  assert (F0 : 1 / Rpower 15 (1 / 4) / d <= f0).
  { unfold f0. rewrite fermi_gas_at by exact Pd. assert (Pp : 0 < Rpower d (5 / 4)) by apply exp_pos.
    assert (Ple : Rpower d (5 / 4) <= d). { rewrite <- (Rpower_1 d) at 2 by exact Pd. unfold Rpower. assert (L0 : ln d <= 0) by (rewrite <- ln_1; destruct (Req_dec d 1) as [->|N]; [right; reflexivity|left; apply ln_increasing; lra]).
      destruct (Req_dec (ln d) 0) as [Q|N]; [rewrite Q, !Rmult_0_r; right; reflexivity|]. left. apply exp_increasing. lra. }
    assert (X1 : 1 <= exp (2 * sqrt (15 * d))). { rewrite <- exp_0 at 1. assert (0 < sqrt (15 * d)) by (apply sqrt_lt_R0; lra). left. apply exp_increasing. lra. }
    clear - Pd P15 Pp Ple X1. set (p15 := Rpower 15 (1 / 4)) in *. set (pd := Rpower d (5 / 4)) in *. set (xd := exp (2 * sqrt (15 * d))) in *.
    apply Rle_trans with (1 / (p15 * pd)).
    - replace (1 / p15 / d) with (/ (p15 * d)) by (field; lra). unfold Rdiv. rewrite Rmult_1_l.
      apply Rinv_le_contravar; [now apply Rmult_lt_0_compat|]. apply Rmult_le_compat_l; lra.
    - unfold Rdiv. apply Rmult_le_compat_r; [|exact X1]. left. apply Rinv_0_lt_compat. now apply Rmult_lt_0_compat. }
  set (x0 := exp (al * (- (2 / 10) + d))) in *. set (x2 := exp (al * (- (2 / 10) + (d + 2)))) in *.
  assert (Px0 : 0 < x0) by apply exp_pos. assert (Px2 : 0 < x2) by apply exp_pos. assert (Pf0 : 0 < f0) by apply fermi_gas_pos.
  replace (f0 * x0 / (f2 * x2 * (7 / 10))) with (f0 * (x0 / x2) * (/ (f2 * (7 / 10)))) by (field; lra).
  apply Rlt_le_trans with (K / d).
  - apply Rle_lt_trans with (Rabs M); [apply RRle_abs|]. apply Rlt_le_trans with (Rabs M + 1); [lra|].
    apply Rmult_le_reg_r with d; [exact Pd|]. unfold Rdiv at 1. rewrite Rmult_assoc, Rinv_l, Rmult_1_r by lra.
    apply Rmult_le_reg_l with (/ (Rabs M + 1)); [now apply Rinv_0_lt_compat|]. rewrite <- Rmult_assoc, Rinv_l, Rmult_1_l by lra. rewrite Rmult_comm. exact DK.
  - unfold K. clearbody d al f0 f1 f2 f4 x0 x2 lo hi. clear DK. replace (1 / Rpower 15 (1 / 4) * Rpower (lo / hi) (2 / 3) / (hi * (7 / 10)) / d) with (1 / Rpower 15 (1 / 4) / d * Rpower (lo / hi) (2 / 3) * (/ (hi * (7 / 10)))) by (field; repeat split; lra).
    assert (PR : 0 < Rpower (lo / hi) (2 / 3)) by apply exp_pos. assert (Pq : 0 < 1 / Rpower 15 (1 / 4) / d) by (repeat apply Rdiv_lt_0_compat; lra).
    apply Rmult_le_compat; [apply Rmult_le_pos; lra|left; apply Rinv_0_lt_compat; lra| |apply Rinv_le_contravar; lra].
    apply Rmult_le_compat; lra.
Qed.
Print Assumptions guess_bounded_refuted.

(* --- the three methods --- *)
Local Open Scope string_scope.
(* Every known method gives a positive level density of the length of the axis, and any other
   name raises NotImplementedError; the default is the Fermi gas. *)
Theorem guess_methods E m : (2 <= length E)%nat -> increasing E ->
  match m with
  | None | Some "BSFG-like" | Some "CT-like" | Some "parabola" =>
      exists x, guess_by m E = Guess x /\ length x = length E /\ forall v, In v x -> 0 < v
  | Some _ => guess_by m E = NotImplementedError
  end.
Proof.
  intros L I. 
  assert (TL : length (to_MeV E) = length E) by (unfold to_MeV; destruct (Rlt_dec 100 _); [apply map_length|reflexivity]).
  assert (TI : increasing (to_MeV E)).
  { unfold to_MeV. destruct (Rlt_dec 100 _); [|exact I]. intros i j H. rewrite map_length in H.
    rewrite !(nth_indep (map _ E) 0 (0 / 1000)) by (rewrite map_length; lia). rewrite !(map_nth (fun e => e / 1000)). pose proof (I i j H). lra. }
  assert (B : exists x, guess_by None E = Guess x /\ length x = length E /\ forall v, In v x -> 0 < v).
  { destruct (guess_shape (- (2 / 10)) 15 (to_MeV E)) as (x & HX & LX & PX & _); [rewrite TL; exact L|exact TI|]. exists x. cbn. unfold guess_nld. rewrite HX. now rewrite <- TL. }
  assert (C : exists x, guess_by (Some "CT-like") E = Guess x /\ length x = length E /\ forall v, In v x -> 0 < v).
  { exists (map (fun _ => 1) (to_MeV E)). split; [reflexivity|]. split; [now rewrite map_length|]. intros v Hv. apply in_map_iff in Hv. destruct Hv as (e & <- & _). lra. }
  assert (P : exists x, guess_by (Some "parabola") E = Guess x /\ length x = length E /\ forall v, In v x -> 0 < v).
  { exists (x0_parabola (to_MeV E)). split; [reflexivity|]. unfold x0_parabola. split; [now rewrite map_length|]. intros v Hv. apply in_map_iff in Hv. destruct Hv as (e & <- & _). pose proof (Rle_0_sqr (e - 4)) as Q. unfold Rsqr in Q. lra. }
  destruct m as [m|]; [|exact B].
  unfold guess_by. destruct (String.eqb_spec m "BSFG-like") as [->|N1]; [exact B|]. destruct (String.eqb_spec m "CT-like") as [->|N2]; [exact C|]. destruct (String.eqb_spec m "parabola") as [->|N3]; [exact P|].
  repeat match goal with |- context [match ?x with _ => _ end] => is_var x; destruct x; try reflexivity; try (exfalso; congruence) end.
Qed.
Print Assumptions guess_methods.
(* a single energy: not a number, and the assertion on finiteness does not notice *)
Theorem guess_single_refuted : exists E, E <> [] /\ guess_by None E = GuessNan.
Proof.
  exists [5]. split; [discriminate|]. cbn. unfold guess_nld, to_MeV, x0_BSFG. cbn [length Nat.sub nth]. destruct (Rlt_dec 100 5); [lra|]. cbn [length Nat.sub nth]. change (1 / 4)%nat with 0%nat. cbn [nth].
  destruct (Req_EM_T 5 5); [reflexivity|lra].
Qed.
Print Assumptions guess_single_refuted.
(* an axis in keV that ends at or below 100 keV is taken to be in MeV: another guess *)
Theorem guess_units_refuted : exists E, (2 <= length E)%nat /\ increasing E /\ 0 < nth 0 E 0 /\
  guess_by (Some "parabola") (map (fun e => 1000 * e) E) <> guess_by (Some "parabola") E.
Proof.
  exists [2 / 100; 4 / 100]. split; [cbn; lia|]. split; [|split; [cbn; lra|]].
  - intros i j H. cbn [length] in H. destruct i as [|[|i]], j as [|[|j]]; try lia. cbn. lra.
  - cbn. unfold to_MeV. cbn. destruct (Rlt_dec 100 (1000 * (4 / 100))); [lra|]. destruct (Rlt_dec 100 (4 / 100)); [lra|].
    unfold x0_parabola. cbn. intros H. injection H as H _. lra.
Qed.
Print Assumptions guess_units_refuted.
Example guess_methods_ex : exists x, guess_by (Some "CT-like") [0; 1; 2; 4; 5] = Guess x /\ length x = 5%nat.
Proof. eexists. split; [reflexivity|]. unfold to_MeV. destruct (Rlt_dec 100 _); reflexivity. Qed.

(* --- the randomised start --- *)
(* numpy.random.uniform(x0/5, x0*5) as a fraction u in [0, 1) of the interval, per entry *)
Theorem randomised_start_positive x us : (forall v, In v x -> 0 <= v) -> length us = length x -> (forall u, In u us -> 0 <= u < 1) ->
  length (randomise x us) = length x /\
  forall i, (i < length x)%nat -> nth i x 0 / 5 <= nth i (randomise x us) 0 <= nth i x 0 * 5 /\ (0 < nth i x 0 -> 0 < nth i (randomise x us) 0).
Proof.
  revert us. induction x as [|v x IH]; intros [|u us] P L U; cbn [length] in L; try discriminate L; [split; [reflexivity|cbn; lia]|].
  destruct (IH us) as (LR & B); [intros w Hw; apply P; now right|lia|intros w Hw; apply U; now right|].
  unfold randomise in *. cbn [combine map length]. split; [now rewrite LR|]. intros [|i] Hi.
  - cbn [nth fst snd]. pose proof (P v (or_introl eq_refl)). pose proof (U u (or_introl eq_refl)). split; [nra|]. intros. nra.
  - cbn [nth]. apply B. lia.
Qed.
Print Assumptions randomised_start_positive.
Example randomised_start_ex : nth 0 (randomise [2; 0] [1 / 2; 0]) 0 = 52 / 10 /\ nth 1 (randomise [2; 0] [1 / 2; 0]) 0 = 0.
Proof. cbn. split; lra. Qed.

(* --- what the guesses are --- *)
(* the level density of the back-shifted Fermi gas above the back-shift, up to a constant *)
Definition bsfg (E0 a e : R) : R := exp (2 * sqrt (a * (e - E0))) / (Rpower a (1 / 4) * Rpower (e - E0) (5 / 4)).
(* The default guess is a Fermi gas transformed with A exp(alpha E), one of the solutions
   that the first-generation matrix does not distinguish. *)
Theorem guess_is_transformed_fermi_gas E0 a E x : x0_BSFG E0 a E = Some x ->
  exists A alpha, 0 < A /\ forall i, (i < length E)%nat ->
    (E0 < nth i E 0 -> nth i x 0 = A * exp (alpha * nth i E 0) * bsfg E0 a (nth i E 0)) /\
    (nth i E 0 <= E0 -> nth i x 0 = A * exp (alpha * nth i E 0) * bsfg E0 a (E0 + 1 / 2)).
Proof.
  unfold x0_BSFG. cbv zeta. set (n := length E). destruct (Req_EM_T _ _); [discriminate|]. intros H. injection H as <-.
  set (al := ln _ / _). set (g := fermi_gas E0 a (nth (n / 2) E 0) * exp (al * nth (n / 2) E 0)).
  assert (G : 0 < g) by (apply Rmult_lt_0_compat; [apply fermi_gas_pos|apply exp_pos]).
  exists (/ (g * (7 / 10))), al. split; [apply Rinv_0_lt_compat; lra|]. intros i Hi. rewrite nth_map_seq by exact Hi. cbv beta. change (fst (Nat.divmod n 1 0 1)) with (n / 2)%nat. fold g.
  split; intros C.
  - replace (bsfg E0 a (nth i E 0)) with (fermi_gas E0 a (nth i E 0)); [field; lra|].
    unfold fermi_gas, shifted, bsfg. cbv zeta. destruct (Rle_dec (nth i E 0 - E0) 0); [lra|reflexivity].
  - replace (bsfg E0 a (E0 + 1 / 2)) with (fermi_gas E0 a (nth i E 0)); [field; lra|].
    unfold fermi_gas, shifted, bsfg. cbv zeta. replace (E0 + 1 / 2 - E0) with (1 / 2) by ring. destruct (Rle_dec (nth i E 0 - E0) 0); [reflexivity|lra].
Qed.
Print Assumptions guess_is_transformed_fermi_gas.
Example guess_is_transformed_ex : exists x, x0_BSFG (- (2 / 10)) 15 [-1; 0; 1; 2] = Some x /\ nth 2 x 0 = 1 / (7 / 10).
Proof.
  destruct (guess_shape (- (2 / 10)) 15 [-1; 0; 1; 2]) as (x & HX & _ & _ & V & _).
  - cbn. lia.
  - intros i j H. cbn [length] in H. do 4 (destruct i as [|i]; [do 4 (destruct j as [|j]; [try lia; cbn; lra|]); lia|]). lia.
  - exists x. split; [exact HX|exact V].
Qed.
(* the other two, with energies in MeV *)
Theorem guess_values E i : (i < length E)%nat -> nth (length E - 1) E 0 <= 100 ->
  (exists x, guess_by (Some "CT-like") E = Guess x /\ nth i x 0 = 1) /\
  (exists x, guess_by (Some "parabola") E = Guess x /\ nth i x 0 = (nth i E 0 - 4) ^ 2 + 1 / 100).
Proof.
  intros Hi L. assert (T : to_MeV E = E) by (unfold to_MeV; destruct (Rlt_dec _ _); [lra|reflexivity]). cbn. rewrite T. split; eexists; (split; [reflexivity|]).
  - unfold x0_CT. rewrite (nth_indep _ 0 1) by (rewrite map_length; exact Hi). exact (map_nth (fun _ => 1) E 0 i).
  - unfold x0_parabola. rewrite (nth_indep _ 0 (1 * ((0 - 4) * (0 - 4)) + 1 / 100)) by (rewrite map_length; exact Hi). rewrite (map_nth (fun e => 1 * ((e - 4) * (e - 4)) + 1 / 100)). ring.
Qed.
Print Assumptions guess_values.
