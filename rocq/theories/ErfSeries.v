(* Enclosures of exp, of the error function and of its complement, and the error of a Newton
   step, for the accuracy of erfinv (C69). *)
From Coq Require Import Reals Lra Lia Psatz.
From Coquelicot Require Import Coquelicot.
From Verif Require Import StatsModel StatsProofs ErfinvProofs.
Local Open Scope R_scope.

Lemma monotone_from f df a b : a <= b -> (forall x, a <= x <= b -> is_derive f x (df x)) ->
  (forall x, a <= x <= b -> 0 <= df x) -> f a <= f b.
Proof.
  intros [L| ->] D P; [|lra]. destruct (MVT_cor2 f df a b L) as (c & E & K).
  - intros c Hc. apply is_derive_Reals. now apply D.
  - pose proof (P c ltac:(lra)). nra.
Qed.

(* ------------------------------------------------ exp *)
(* W n u = (-1)^n (exp (-u) - the first n terms of the series) *)
Fixpoint W (n : nat) (u : R) : R := match n with O => exp (- u) | S n => u ^ n / INR (fact n) - W n u end.
Lemma fact_S n : INR (fact (S n)) = INR (S n) * INR (fact n).
Proof. change (fact (S n)) with (S n * fact n)%nat. apply mult_INR. Qed.
Lemma fact_pos n : 0 < INR (fact n).
Proof. apply lt_0_INR. apply lt_O_fact. Qed.
Lemma INR_pos n : 0 < INR (S n).
Proof. apply lt_0_INR. lia. Qed.
Lemma pow_derive n u : is_derive (fun u => u ^ S n / INR (fact (S n))) u (u ^ n / INR (fact n)).
Proof.
  pose proof (fact_pos n). pose proof (INR_pos n).
  evar_last; [apply (is_derive_div (fun u => u ^ S n) (fun _ => INR (fact (S n))))|].
  - apply is_derive_pow. apply is_derive_id.
  - apply is_derive_const.
  - rewrite fact_S. nra.
  - rewrite fact_S. change (pred (S n)) with n. unfold zero, one; simpl. change (match n with O => 1 | S _ => INR n + 1 end) with (INR (S n)). field. lra.
Qed.
Lemma W_derive n u : is_derive (W (S n)) u (W n u).
Proof.
  induction n as [|n IH].
  - apply is_derive_ext with (f := fun u => 1 - exp (- u)). { intros t. simpl. field. }
    auto_derive; [trivial|]. simpl. ring.
  - change (W (S n) u) with (u ^ n / INR (fact n) - W n u).
    apply (is_derive_minus (fun u => u ^ S n / INR (fact (S n))) (W (S n))); [apply pow_derive|exact IH].
Qed.
Lemma W_0 n : W (S n) 0 = 0.
Proof.
  induction n as [|n IH]; [simpl; rewrite Ropp_0, exp_0; field|].
  change (W (S (S n)) 0) with (0 ^ S n / INR (fact (S n)) - W (S n) 0). rewrite IH, pow_ne_zero by lia. unfold Rdiv. ring.
Qed.
Lemma W_nonneg n : forall u, 0 <= u -> 0 <= W n u.
Proof.
  induction n as [|n IH]; intros u U; [left; apply exp_pos|].
  rewrite <- (W_0 n) at 1. apply (monotone_from (W (S n)) (W n)); [exact U|intros; apply W_derive|]. intros x X. apply IH. lra.
Qed.
Lemma W_le n u : 0 <= u -> W n u <= u ^ n / INR (fact n).
Proof. intros U. pose proof (W_nonneg (S n) u U) as H. cbn [W] in H. lra. Qed.

(* the series nested from level k on, n levels deep *)
Fixpoint nest_exp (u : R) (n k : nat) (v : R) : R :=
  match n with O => v | S n => 1 - u / INR (S k) * nest_exp u n (S k) v end.
Lemma exp_nested u n : 0 < u -> exists v, 0 <= v <= 1 /\ exp (- u) = nest_exp u n 0 v.
Proof.
  intros U. set (v := fun k => W k u * INR (fact k) / u ^ k).
  assert (PU : forall k, 0 < u ^ k) by (intros k; now apply pow_lt).
  assert (V : forall k, 0 <= v k <= 1).
  { intros k. pose proof (PU k). pose proof (fact_pos k). pose proof (W_nonneg k u ltac:(lra)). pose proof (W_le k u ltac:(lra)) as L. unfold v. split.
    - apply Rmult_le_pos; [nra|left; now apply Rinv_0_lt_compat].
    - apply Rmult_le_reg_r with (u ^ k); [lra|]. unfold Rdiv. rewrite Rmult_assoc, Rinv_l, Rmult_1_r, Rmult_1_l by lra.
      apply Rmult_le_reg_r with (/ INR (fact k)); [now apply Rinv_0_lt_compat|]. rewrite Rmult_assoc, Rinv_r, Rmult_1_r by lra. exact L. }
  assert (ST : forall k, v k = 1 - u / INR (S k) * v (S k)).
  { intros k. unfold v. change (W (S k) u) with (u ^ k / INR (fact k) - W k u). rewrite fact_S. change (u ^ S k) with (u * u ^ k).
    pose proof (PU k). pose proof (fact_pos k). pose proof (INR_pos k). field. lra. }
  assert (N : forall n k, v k = nest_exp u n k (v (n + k)%nat)).
  { clear - ST. induction n as [|n IH]; intros k; [reflexivity|]. cbn [nest_exp]. rewrite (ST k), (IH (S k)). replace (n + S k)%nat with (S n + k)%nat by lia. reflexivity. }
  exists (v (n + 0)%nat). split; [apply V|]. rewrite <- N. unfold v. simpl. field.
Qed.

(* ------------------------------------------------ the error function *)
Fixpoint V (n : nat) (r : R) : R :=
  match n with O => G r | S n => r ^ (2 * n + 1) / (INR (fact n) * INR (2 * n + 1)) - V n r end.
Lemma odd_pos n : 0 < INR (2 * n + 1).
Proof. apply lt_0_INR. lia. Qed.
Lemma oddpow_derive n r : is_derive (fun r => r ^ (2 * n + 1) / (INR (fact n) * INR (2 * n + 1))) r ((r * r) ^ n / INR (fact n)).
Proof.
  pose proof (fact_pos n) as F. pose proof (odd_pos n) as O.
  evar_last; [apply (is_derive_div (fun r => r ^ (2 * n + 1)) (fun _ => INR (fact n) * INR (2 * n + 1)))|].
  - apply is_derive_pow. apply is_derive_id.
  - apply is_derive_const.
  - nra.
  - replace (pred (2 * n + 1)) with (2 * n)%nat by lia. replace ((r * r) ^ n) with (r ^ (2 * n)) by (rewrite pow_mult; f_equal; simpl; ring). unfold zero, one; simpl zero; cbn -[INR pow fact Nat.mul]. set (q := INR (2 * n + 1)) in *. set (p := r ^ (2 * n)). field. lra.
Qed.
Lemma V_derive n r : is_derive (V n) r (W n (r * r)).
Proof.
  induction n as [|n IH]; [apply G_derive|].
  apply (is_derive_minus (fun r => r ^ (2 * n + 1) / (INR (fact n) * INR (2 * n + 1))) (V n)); [apply oddpow_derive|exact IH].
Qed.
Lemma V_0 n : V n 0 = 0.
Proof.
  induction n as [|n IH]; [apply G_0|]. cbn [V]. rewrite IH, pow_ne_zero by lia. unfold Rdiv. ring.
Qed.
Lemma V_nonneg n r : 0 <= r -> 0 <= V n r.
Proof. intros U. rewrite <- (V_0 n) at 1. apply (monotone_from (V n) (fun r => W n (r * r))); [exact U|intros; apply V_derive|]. intros x X. apply W_nonneg. nra. Qed.
Fixpoint nest_erf (w : R) (n k : nat) (v : R) : R :=
  match n with O => v | S n => / INR (2 * k + 1) - w / INR (S k) * nest_erf w n (S k) v end.
Lemma erf_nested r n : 0 < r -> exists v, 0 <= v <= / INR (2 * n + 1) /\ G r = r * nest_erf (r * r) n 0 v.
Proof.
  intros U. set (v := fun k => V k r * INR (fact k) / r ^ (2 * k + 1)).
  assert (PU : forall k, 0 < r ^ k) by (intros k; now apply pow_lt).
  assert (VB : forall k, 0 <= v k <= / INR (2 * k + 1)).
  { intros k. pose proof (PU (2 * k + 1)%nat) as PK. pose proof (fact_pos k) as F. pose proof (odd_pos k) as O. pose proof (V_nonneg k r ltac:(lra)) as A. pose proof (V_nonneg (S k) r ltac:(lra)) as L. cbn [V] in L.
    unfold v. split.
    - apply Rmult_le_pos; [nra|left; now apply Rinv_0_lt_compat].
    - set (p := r ^ (2 * k + 1)) in *. set (f := INR (fact k)) in *. set (o := INR (2 * k + 1)) in *.
      apply Rmult_le_reg_r with (p / f); [now apply Rdiv_lt_0_compat|]. replace (V k r * f / p * (p / f)) with (V k r) by (field; lra). replace (/ o * (p / f)) with (p / (f * o)) by (field; lra). lra. }
  assert (ST : forall k, v k = / INR (2 * k + 1) - r * r / INR (S k) * v (S k)).
  { intros k. unfold v. cbn [V]. rewrite fact_S. replace (r ^ (2 * S k + 1)) with (r * r * r ^ (2 * k + 1)) by (replace (2 * S k + 1)%nat with (S (S (2 * k + 1))) by lia; cbn [pow]; ring).
    pose proof (PU (2 * k + 1)%nat) as PK. pose proof (fact_pos k) as F. pose proof (odd_pos k) as O. pose proof (INR_pos k) as I. set (p := r ^ (2 * k + 1)) in *. set (o := INR (2 * k + 1)) in *. set (s := INR (S k)) in *. set (f := INR (fact k)) in *. field. lra. }
  assert (N : forall n k, v k = nest_erf (r * r) n k (v (n + k)%nat)).
  { clear - ST. induction n as [|n IH]; intros k; [reflexivity|]. cbn [nest_erf]. rewrite (ST k), (IH (S k)). replace (n + S k)%nat with (S n + k)%nat by lia. reflexivity. }
  exists (v (n + 0)%nat). rewrite <- N. split; [rewrite Nat.add_0_r; apply VB|]. unfold v. simpl. field. lra.
Qed.

(* ------------------------------------------------ the complement *)
(* repeated integrals of the complement: K' (S n) = - K n *)
Fixpoint KK (n : nat) (r : R) : R * R :=   (* K n, K (S n) *)
  match n with
  | O => (slope r, 1 - erf r)
  | S n => let (a, b) := KK n r in (b, (a - 2 * r * b) / (2 * INR (S n)))
  end.
Definition Kn n r := fst (KK n r).
Lemma Kn_0 r : Kn 0 r = slope r.
Proof. reflexivity. Qed.
Lemma Kn_1 r : Kn 1 r = 1 - erf r.
Proof. reflexivity. Qed.
Lemma Kn_snd n r : snd (KK n r) = Kn (S n) r.
Proof. unfold Kn. cbn [KK]. destruct (KK n r). reflexivity. Qed.
Lemma Kn_SS n r : Kn (S (S n)) r = (Kn n r - 2 * r * Kn (S n) r) / (2 * INR (S n)).
Proof. unfold Kn at 1. cbn [KK]. rewrite <- Kn_snd. unfold Kn. destruct (KK n r) as [a b]. reflexivity. Qed.
Lemma slope_derive r : is_derive slope r (- 2 * r * slope r).
Proof.
  unfold slope, gauss. auto_derive; [trivial|]. ring.
Qed.
Lemma Kn_derive n : forall r, is_derive (Kn (S n)) r (- Kn n r).
Proof.
  enough (H : forall n, (forall r, is_derive (Kn (S n)) r (- Kn n r)) /\ (forall r, is_derive (Kn (S (S n))) r (- Kn (S n) r))) by apply H.
  clear n. assert (B0 : forall r, is_derive (Kn 1) r (- Kn 0 r)).
  { intros r. apply is_derive_ext with (f := fun r => 1 - erf r); [intros; now rewrite Kn_1|]. rewrite Kn_0.
    evar_last; [apply (is_derive_minus (fun _ => 1) erf); [apply is_derive_const|apply erf_derive]|]. unfold slope. unfold zero, minus, plus, opp; simpl. ring. }
  assert (STEP : forall n r d0, is_derive (Kn n) r d0 -> is_derive (Kn (S n)) r (- Kn n r) ->
     is_derive (Kn (S (S n))) r ((d0 - (2 * Kn (S n) r + 2 * r * (- Kn n r))) / (2 * INR (S n)))).
  { intros n r d0 D0 D1. apply is_derive_ext with (f := fun r => / (2 * INR (S n)) * (Kn n r - 2 * r * Kn (S n) r)).
    { intros t. rewrite Kn_SS. apply Rmult_comm. }
    evar_last; [apply is_derive_scal; apply (is_derive_minus (Kn n) (fun r => 2 * r * Kn (S n) r)); [exact D0|]|].
    - apply (is_derive_mult (fun r => 2 * r) (Kn (S n)) r 2 (- Kn n r)); [auto_derive; [trivial|ring]|exact D1|]. intros a b. apply Rmult_comm.
    - change (/ (2 * INR (S n)) * (d0 - (2 * Kn (S n) r + 2 * r * - Kn n r)) = (d0 - (2 * Kn (S n) r + 2 * r * - Kn n r)) / (2 * INR (S n))). unfold Rdiv. apply Rmult_comm. }
  induction n as [|n [IH1 IH2]].
  - split; [exact B0|]. intros r. pose proof (STEP 0%nat r _ (slope_derive r) (B0 r)) as H. evar_last; [exact H|]. change (Kn 0 r) with (slope r). set (k := Kn 1 r). change (INR 1) with 1. set (sl := slope r). change ((- 2 * r * sl - (2 * k + 2 * r * - sl)) / (2 * 1) = - k). field.
  - split; [exact IH2|]. intros r. pose proof (STEP (S n) r _ (IH1 r) (IH2 r)) as H. evar_last; [exact H|].
    pose proof (Kn_SS n r) as E. pose proof (INR_pos n) as P. rewrite (S_INR (S n)). set (m := INR (S n)) in *. set (k0 := Kn n r) in *. set (k1 := Kn (S n) r) in *. set (k2 := Kn (S (S n)) r) in *. change ((- k0 - (2 * k2 + 2 * r * - k1)) / (2 * (m + 1)) = - k2). rewrite E. field. lra.
Qed.

(* a bound that tends to zero *)
Lemma erfc_le r : 0 <= r -> 1 - erf r <= 2 * gauss r.
Proof.
  intros R0. assert (E : 0 <= erf r) by (rewrite <- erf_0; now apply erf_increasing_le). pose proof (erf_bound r) as [_ B].
  pose proof (erf_sq r) as Q. pose proof (H_le r) as L. pose proof (H_pos r) as P. fold (gauss r) in L. pose proof PI_3 as PI3. assert (F2 : 4 / PI <= 2).
  { apply Rmult_le_reg_r with PI; [lra|]. unfold Rdiv. rewrite Rmult_assoc, Rinv_l by lra. lra. }
  assert (FP : 0 < 4 / PI) by (apply Rdiv_lt_0_compat; lra). assert (B2 : 4 / PI * H r <= 2 * gauss r) by (apply Rmult_le_compat; lra). nra.
Qed.
Lemma Kn_bound n : exists C, 0 <= C /\ forall r, 0 <= r -> Rabs (Kn n r) <= C * (1 + r) ^ n * gauss r.
Proof.
  enough (H : forall n, (exists C, 0 <= C /\ forall r, 0 <= r -> Rabs (Kn n r) <= C * (1 + r) ^ n * gauss r) /\ (exists C, 0 <= C /\ forall r, 0 <= r -> Rabs (Kn (S n) r) <= C * (1 + r) ^ (S n) * gauss r)) by apply H.
  clear n. induction n as [|n [(C1 & P1 & H1) (C2 & P2 & H2)]].
  - split.
    + exists (2 / sqrt PI). pose proof sqrtPI_pos. assert (0 < 2 / sqrt PI) by (apply Rdiv_lt_0_compat; lra). split; [lra|]. intros r _. rewrite Kn_0. unfold slope. simpl. pose proof (gauss_pos r). rewrite Rabs_pos_eq by nra. lra.
    + exists 2. split; [lra|]. intros r R0. rewrite Kn_1. pose proof (erf_bound r). rewrite Rabs_pos_eq by lra. pose proof (erfc_le r R0). pose proof (gauss_pos r). simpl. nra.
  - split; [exists C2; now split|]. exists (C1 + 2 * C2). split; [lra|]. intros r R0. rewrite Kn_SS. pose proof (INR_pos n) as IP.
    assert (I1 : 1 <= INR (S n)) by (apply (le_INR 1); lia).
    unfold Rdiv. rewrite Rabs_mult. rewrite (Rabs_pos_eq (/ (2 * INR (S n)))) by (left; apply Rinv_0_lt_compat; lra).
    pose proof (H1 r R0) as A1. pose proof (H2 r R0) as A2. pose proof (gauss_pos r) as GP.
    assert (PP : forall m, 1 <= (1 + r) ^ m) by (intros m; apply pow_R1_Rle; lra).
    pose proof (PP n) as Pn. pose proof (PP (S n)) as Psn. set (p := (1 + r) ^ n) in *. change ((1 + r) ^ S n) with ((1 + r) * p) in *. change ((1 + r) ^ S (S n)) with ((1 + r) * ((1 + r) * p)).
    apply Rle_trans with (Rabs (Kn n r - 2 * r * Kn (S n) r) * 1).
    { apply Rmult_le_compat_l; [apply Rabs_pos|]. rewrite <- Rinv_1. apply Rinv_le_contravar; lra. }
    rewrite Rmult_1_r. apply Rle_trans with (Rabs (Kn n r) + Rabs (2 * r * Kn (S n) r)). { unfold Rminus. eapply Rle_trans; [apply Rabs_triang|]. rewrite Rabs_Ropp. lra. }
    rewrite Rabs_mult, (Rabs_pos_eq (2 * r)) by lra.
    apply Rle_trans with (C1 * p * gauss r + 2 * r * (C2 * ((1 + r) * p) * gauss r)).
    { apply Rplus_le_compat; [exact A1|]. apply Rmult_le_compat_l; [lra|exact A2]. }
    assert (PG : 0 < p * gauss r) by nra. set (pg := p * gauss r) in *.
    replace (C1 * p * gauss r + 2 * r * (C2 * ((1 + r) * p) * gauss r)) with ((C1 + 2 * C2 * (r * (1 + r))) * pg) by (unfold pg; ring).
    replace ((C1 + 2 * C2) * ((1 + r) * ((1 + r) * p)) * gauss r) with ((C1 + 2 * C2) * ((1 + r) * (1 + r)) * pg) by (unfold pg; ring).
    apply Rmult_le_compat_r; [lra|]. nra.
Qed.
(* (1+r)^n gauss r falls below every positive number *)
Lemma pow_exp n x : 0 <= x -> x ^ n <= INR (fact n) * exp x.
Proof.
  intros X. pose proof (fact_pos n) as F.
  assert (H : forall n x, 0 <= x -> x ^ n / INR (fact n) <= exp x).
  { clear. induction n as [|n IH]; intros x X; [simpl; pose proof (exp_ge_1 x); lra|].
    assert (L : (fun x => exp x - x ^ S n / INR (fact (S n))) 0 <= (fun x => exp x - x ^ S n / INR (fact (S n))) x).
    { apply (monotone_from (fun x => exp x - x ^ S n / INR (fact (S n))) (fun x => exp x - x ^ n / INR (fact n))); [exact X| |intros y Y; pose proof (IH y ltac:(lra)); lra].
      intros y _. apply (is_derive_minus exp (fun x => x ^ S n / INR (fact (S n)))); [apply is_derive_exp|apply pow_derive]. }
    cbv beta in L. rewrite pow_ne_zero, exp_0 in L by lia. unfold Rdiv at 1 in L. lra. }
  pose proof (H n x X) as Q. apply Rmult_le_reg_r with (/ INR (fact n)); [now apply Rinv_0_lt_compat|]. replace (INR (fact n) * exp x * / INR (fact n)) with (exp x) by (field; lra). exact Q.
Qed.
Lemma decays n C : 0 <= C -> forall eps a, 0 < eps -> exists r, a <= r /\ 0 <= r /\ C * (1 + r) ^ n * gauss r < eps.
Proof.
  intros C0 eps a EP. pose proof (fact_pos n) as F.
  (* for r >= 2: r + 1 - r^2 <= 1 - r, exp (1 - r) <= 1 / r *)
  set (M := C * INR (fact n)). assert (M0 : 0 <= M) by (unfold M; nra).
  set (r := Rmax 2 (Rmax a (M / eps + 1))). exists r.
  assert (R2 : 2 <= r) by apply Rmax_l. assert (RA : a <= r) by (eapply Rle_trans; [apply Rmax_l|apply Rmax_r]). assert (RM : M / eps + 1 <= r) by (eapply Rle_trans; [apply Rmax_r|apply Rmax_r]).
  split; [exact RA|]. split; [lra|].
  apply Rle_lt_trans with (M * exp (1 + r - r * r)).
  - unfold M. replace (1 + r - r * r) with ((1 + r) + - (r * r)) by ring. rewrite exp_plus. fold (gauss r). pose proof (gauss_pos r). pose proof (pow_exp n (1 + r) ltac:(lra)) as Q.
    apply Rle_trans with (C * (INR (fact n) * exp (1 + r)) * gauss r); [|right; ring]. apply Rmult_le_compat_r; [lra|]. apply Rmult_le_compat_l; [exact C0|exact Q].
  - assert (E1 : exp (1 + r - r * r) <= / r).
    { apply Rle_trans with (exp (- (r - 1))).
      - destruct (Req_dec (1 + r - r * r) (- (r - 1))) as [->|N]; [lra|]. left. apply exp_increasing. nra.
      - rewrite exp_Ropp. apply Rinv_le_contravar; [lra|]. pose proof (exp_ge_1 (r - 1)). lra. }
    apply Rle_lt_trans with (M * / r); [now apply Rmult_le_compat_l|].
    apply Rmult_lt_reg_r with r; [lra|]. rewrite Rmult_assoc, Rinv_l, Rmult_1_r by lra.
    apply Rmult_lt_reg_r with (/ eps); [now apply Rinv_0_lt_compat|]. replace (eps * r * / eps) with r by (field; lra). unfold Rdiv in RM. lra.
Qed.
Lemma Kn_pos n : forall r, 0 <= r -> 0 < Kn n r.
Proof.
  induction n as [|n IH]; intros r R0; [apply slope_pos|].
  destruct (Rlt_le_dec 0 (Kn (S n) r)) as [P|P]; [exact P|exfalso].
  assert (DEC : forall a b, 0 <= a -> a < b -> Kn (S n) b < Kn (S n) a).
  { intros a b A L. destruct (MVT_cor2 (Kn (S n)) (fun x => - Kn n x) a b L) as (c & E & Q); [intros; apply is_derive_Reals, Kn_derive|]. pose proof (IH c ltac:(lra)). nra. }
  pose proof (DEC r (r + 1) R0 ltac:(lra)) as D1.
  destruct (Kn_bound (S n)) as (C & C0 & B).
  destruct (decays (S n) C C0 (- Kn (S n) (r + 1)) (r + 2) ltac:(lra)) as (s & S1 & S0 & S2).
  pose proof (DEC (r + 1) s ltac:(lra) ltac:(lra)) as D2. pose proof (B s S0) as BS. rewrite Rabs_left in BS by lra. lra.
Qed.
Lemma Kn_rec n r : Kn n r = 2 * INR (S n) * Kn (S (S n)) r + 2 * r * Kn (S n) r.
Proof. rewrite Kn_SS. pose proof (INR_pos n). field. lra. Qed.

(* the continued fraction of the complement over the slope, n levels deep *)
Fixpoint nest_cf (r : R) (n k : nat) (v : R) : R :=
  match n with O => v | S n => / (2 * INR (S k) * nest_cf r n (S k) v + 2 * r) end.
Lemma erfc_nested r n : 0 < r -> exists v, 0 <= v <= / (2 * r) /\ 1 - erf r = slope r * nest_cf r n 0 v.
Proof.
  intros U. set (q := fun k => Kn (S k) r / Kn k r).
  assert (P : forall k, 0 < Kn k r) by (intros k; apply Kn_pos; lra).
  assert (QP : forall k, 0 < q k) by (intros k; apply Rdiv_lt_0_compat; apply P).
  assert (ST : forall k, q k = / (2 * INR (S k) * q (S k) + 2 * r)).
  { intros k. unfold q. pose proof (P k) as P0. pose proof (P (S k)) as P1. pose proof (P (S (S k))) as P2. pose proof (Kn_rec k r) as E. pose proof (INR_pos k) as I.
    replace (2 * INR (S k) * (Kn (S (S k)) r / Kn (S k) r) + 2 * r) with (Kn k r / Kn (S k) r); [field; lra|]. rewrite E at 1. field. lra. }
  assert (N : forall n k, q k = nest_cf r n k (q (n + k)%nat)).
  { clear - ST. induction n as [|n IH]; intros k; [reflexivity|]. cbn [nest_cf]. rewrite (ST k), (IH (S k)). replace (n + S k)%nat with (S n + k)%nat by lia. reflexivity. }
  exists (q (n + 0)%nat). rewrite <- N. split.
  - split; [left; apply QP|]. rewrite ST. apply Rinv_le_contravar; [lra|]. pose proof (QP (S (n + 0))). pose proof (INR_pos (n + 0)). nra.
  - unfold q. change (Kn 1 r) with (1 - erf r). change (Kn 0 r) with (slope r). pose proof (slope_pos r). field. lra.
Qed.

(* ------------------------------------------------ one Newton step *)
Lemma gauss_ratio a b : gauss a = gauss b * exp (b * b - a * a).
Proof. unfold gauss. rewrite <- exp_plus. f_equal. ring. Qed.
Lemma exp_minus_1 v : 0 <= v -> exp v - 1 <= v * exp v.
Proof. intros _. pose proof (exp_ge_1 (- v)) as H. rewrite exp_Ropp in H. pose proof (exp_pos v). assert (/ exp v * exp v = 1) by (field; lra). nra. Qed.
(* from below *)
Lemma newton_error_below t r : 0 <= r <= t -> t - newton (erf t) r <= (t - r) * (t - r) * t.
Proof.
  intros [R0 RT]. rewrite newton_slope. pose proof (slope_pos r) as SP.
  set (f := fun s => slope r * ((s * s * s - r * r * r) / 3 - r * r * (s - r)) - (erf r - erf s + slope r * (s - r))).
  assert (F : f r <= f t).
  { apply (monotone_from f (fun s => slope r * (s * s - r * r) - (slope r - slope s))); [exact RT| |].
    - intros s _. unfold f. evar_last.
      + apply (is_derive_minus (fun s => slope r * ((s * s * s - r * r * r) / 3 - r * r * (s - r))) (fun s => erf r - erf s + slope r * (s - r))).
        * auto_derive; [trivial|reflexivity].
        * apply (is_derive_plus (fun s => erf r - erf s) (fun s => slope r * (s - r))).
          -- apply (is_derive_minus (fun _ => erf r) erf); [apply is_derive_const|apply erf_derive].
          -- auto_derive; [trivial|reflexivity].
      + fold (slope s). unfold minus, plus, opp, zero; simpl. field.
    - intros s Hs. assert (E : slope s = slope r * exp (r * r - s * s)) by (unfold slope; rewrite (gauss_ratio s r); ring).
      rewrite E. pose proof (exp_ge_1 (r * r - s * s)). nra. }
  unfold f in F. replace ((r * r * r - r * r * r) / 3 - r * r * (r - r)) with 0 in F by field. replace (erf r - erf r + slope r * (r - r)) with 0 in F by ring.
  assert (Q : (t - (r - (erf r - erf t) / slope r)) * slope r <= (t - r) * (t - r) * t * slope r).
  { replace ((t - (r - (erf r - erf t) / slope r)) * slope r) with (erf r - erf t + slope r * (t - r)) by (field; lra).
    apply Rle_trans with (slope r * ((t * t * t - r * r * r) / 3 - r * r * (t - r))); [lra|].
    replace ((t * t * t - r * r * r) / 3 - r * r * (t - r)) with ((t - r) * (t - r) * ((t + 2 * r) / 3)) by field.
    rewrite (Rmult_comm (slope r)). apply Rmult_le_compat_r; [lra|]. apply Rmult_le_compat_l; [nra|lra]. }
  now apply Rmult_le_reg_r in Q.
Qed.
(* from above *)
Lemma newton_error_above t r : 0 <= t <= r -> t - newton (erf t) r <= (r - t) * (r - t) * r * exp (r * r - t * t).
Proof.
  intros [T0 TR]. rewrite newton_slope. pose proof (slope_pos r) as SP. set (e := exp (r * r - t * t)).
  assert (EP : 0 < e) by apply exp_pos.
  (* f s = slope r e (r^2 (r-s) - (r^3-s^3)/3) - (erf r - erf s - slope r (r - s)), decreasing to 0 at r *)
  set (f := fun s => (erf r - erf s - slope r * (r - s)) - slope r * e * (r * r * (r - s) - (r * r * r - s * s * s) / 3)).
  assert (F : f t <= f r).
  { apply (monotone_from f (fun s => slope r * e * (r * r - s * s) - (slope s - slope r))); [exact TR| |].
    - intros s _. unfold f. evar_last.
      + apply (is_derive_minus (fun s => erf r - erf s - slope r * (r - s)) (fun s => slope r * e * (r * r * (r - s) - (r * r * r - s * s * s) / 3))).
        * apply (is_derive_minus (fun s => erf r - erf s) (fun s => slope r * (r - s))).
          -- apply (is_derive_minus (fun _ => erf r) erf); [apply is_derive_const|apply erf_derive].
          -- auto_derive; [trivial|reflexivity].
        * auto_derive; [trivial|reflexivity].
      + fold (slope s). unfold minus, plus, opp, zero; simpl. field.
    - intros s Hs. assert (E : slope s = slope r * exp (r * r - s * s)) by (unfold slope; rewrite (gauss_ratio s r); ring).
      rewrite E. pose proof (exp_minus_1 (r * r - s * s) ltac:(nra)) as Q.
      assert (L : exp (r * r - s * s) <= e). { unfold e. destruct (Req_dec (r * r - s * s) (r * r - t * t)) as [->|N]; [lra|left; apply exp_increasing; nra]. }
      assert (D : 0 <= r * r - s * s) by nra. set (d := r * r - s * s) in *. pose proof (exp_pos d). assert (exp d - 1 <= e * d) by nra. nra. }
  unfold f in F. replace (erf r - erf r - slope r * (r - r)) with 0 in F by ring. replace (r * r * (r - r) - (r * r * r - r * r * r) / 3) with 0 in F by field.
  assert (Q : (t - (r - (erf r - erf t) / slope r)) * slope r <= (r - t) * (r - t) * r * e * slope r).
  { replace ((t - (r - (erf r - erf t) / slope r)) * slope r) with (erf r - erf t - slope r * (r - t)) by (field; lra).
    apply Rle_trans with (slope r * e * (r * r * (r - t) - (r * r * r - t * t * t) / 3)); [lra|].
    replace (r * r * (r - t) - (r * r * r - t * t * t) / 3) with ((r - t) * (r - t) * ((2 * r + t) / 3)) by field.
    replace ((r - t) * (r - t) * r * e * slope r) with (slope r * e * ((r - t) * (r - t) * r)) by ring.
    apply Rmult_le_compat_l; [nra|]. apply Rmult_le_compat_l; [nra|lra]. }
  now apply Rmult_le_reg_r in Q.
Qed.
