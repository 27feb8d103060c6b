(* Fixed-point enclosures and the check, on a grid, that the first approximation of erfinv is
   close to the inverse error function (C69).  Numbers are integers over 10^8. *)
From Coq Require Import Reals Lra Lia Psatz ZArith List.
From Coquelicot Require Import Coquelicot.
From Verif Require Import StatsModel StatsProofs ErfinvProofs ErfSeries.
Local Open Scope R_scope.

Definition Sc : Z := 100000000.
Definition cdiv (a b : Z) : Z := (- ((- a) / b))%Z.
(* up: an upper bound, otherwise a lower bound *)
Fixpoint hexp (up : bool) (U : Z) (n : nat) (k : Z) : Z :=
  match n with
  | O => if up then Sc else 0%Z
  | S n => let w := hexp (negb up) U n (k + 1) in
           (if up then Sc - U * w / (Sc * (k + 1)) else Sc - cdiv (U * w) (Sc * (k + 1)))%Z
  end.
Fixpoint herf (up : bool) (U : Z) (n : nat) (k : Z) : Z :=
  match n with
  | O => if up then cdiv Sc (2 * k + 1) else 0%Z
  | S n => let w := herf (negb up) U n (k + 1) in
           (if up then cdiv Sc (2 * k + 1) - U * w / (Sc * (k + 1)) else Sc / (2 * k + 1) - cdiv (U * w) (Sc * (k + 1)))%Z
  end.
Fixpoint hcf (up : bool) (Rr : Z) (n : nat) (k : Z) : Z :=
  match n with
  | O => if up then cdiv (Sc * Sc) (2 * Rr) else 0%Z
  | S n => let w := hcf (negb up) Rr n (k + 1) in
           (if up then cdiv (Sc * Sc) (2 * (k + 1) * w + 2 * Rr) else Sc * Sc / (2 * (k + 1) * w + 2 * Rr))%Z
  end.

Lemma div_le a b : (0 < b)%Z -> IZR (a / b) <= IZR a / IZR b.
Proof.
  intros B. assert (P : 0 < IZR b) by (apply IZR_lt; lia). apply Rmult_le_reg_r with (IZR b); [exact P|].
  unfold Rdiv. rewrite Rmult_assoc, Rinv_l, Rmult_1_r by lra. rewrite <- mult_IZR. apply IZR_le. rewrite Z.mul_comm. apply Z.mul_div_le. exact B.
Qed.
Lemma cdiv_ge a b : (0 < b)%Z -> IZR a / IZR b <= IZR (cdiv a b).
Proof. intros B. unfold cdiv. rewrite opp_IZR. pose proof (div_le (- a) b B) as H. rewrite opp_IZR in H. unfold Rdiv in *. lra. Qed.
Lemma Sc_pos : 0 < IZR Sc.
Proof. unfold Sc. lra. Qed.

Definition enc (v : R) (a b : Z) : Prop := IZR a <= IZR Sc * v <= IZR b.
Lemma INR_Z k : INR (S k) = IZR (Z.of_nat k + 1).
Proof. rewrite INR_IZR_INZ. f_equal. lia. Qed.
Lemma enc_step u U v a b k : (0 <= U)%Z -> u = IZR U / IZR Sc -> enc v a b -> (0 <= k)%Z ->
  IZR (U * a / (Sc * (k + 1))) <= IZR Sc * (u / IZR (k + 1) * v) <= IZR (cdiv (U * b) (Sc * (k + 1))).
Proof.
  intros HU -> (E1 & E2) HK. pose proof Sc_pos as SP. assert (KP : 0 < IZR (k + 1)) by (apply IZR_lt; lia). assert (UP : 0 <= IZR U) by (apply IZR_le; lia).
  assert (D : (0 < Sc * (k + 1))%Z) by (unfold Sc; lia).
  replace (IZR Sc * (IZR U / IZR Sc / IZR (k + 1) * v)) with (IZR U * (IZR Sc * v) / (IZR Sc * IZR (k + 1))) by (field; lra).
  pose proof (div_le (U * a) _ D) as H1. pose proof (cdiv_ge (U * b) _ D) as H2. rewrite !mult_IZR in H1, H2.
  assert (DP : 0 < / (IZR Sc * IZR (k + 1))) by (apply Rinv_0_lt_compat; nra). split.
  - eapply Rle_trans; [exact H1|]. unfold Rdiv. apply Rmult_le_compat_r; [lra|]. now apply Rmult_le_compat_l.
  - eapply Rle_trans; [|exact H2]. unfold Rdiv. apply Rmult_le_compat_r; [lra|]. now apply Rmult_le_compat_l.
Qed.
Lemma hexp_sound u U n : (0 <= U)%Z -> u = IZR U / IZR Sc -> forall k v, 0 <= v <= 1 -> enc (nest_exp u n k v) (hexp false U n (Z.of_nat k)) (hexp true U n (Z.of_nat k)).
Proof.
  intros HU E. induction n as [|n IH]; intros k v B.
  - pose proof Sc_pos. cbn. unfold enc.  nra.
  - cbn [nest_exp hexp]. specialize (IH (S k) v B). replace (Z.of_nat (S k)) with (Z.of_nat k + 1)%Z in IH by lia. cbn [negb]. set (a := hexp false U n (Z.of_nat k + 1)) in *. set (b := hexp true U n (Z.of_nat k + 1)) in *.
    destruct (enc_step u U _ a b (Z.of_nat k) HU E IH ltac:(lia)) as (H1 & H2). rewrite INR_Z. unfold enc.  rewrite !minus_IZR.
    rewrite Rmult_minus_distr_l, Rmult_1_r. lra.
Qed.
Lemma herf_sound u U n : (0 <= U)%Z -> u = IZR U / IZR Sc -> forall k v, 0 <= v <= / INR (2 * (n + k) + 1) -> enc (nest_erf u n k v) (herf false U n (Z.of_nat k)) (herf true U n (Z.of_nat k)).
Proof.
  intros HU E. pose proof Sc_pos as SP. induction n as [|n IH]; intros k v B.
  - cbn [nest_erf herf Nat.add] in *. unfold enc.  replace (INR (2 * k + 1)) with (IZR (2 * Z.of_nat k + 1)) in B by (rewrite INR_IZR_INZ; f_equal; lia).
    pose proof (cdiv_ge Sc (2 * Z.of_nat k + 1) ltac:(lia)) as H. unfold Rdiv in H. split; [nra|]. eapply Rle_trans; [|exact H]. apply Rmult_le_compat_l; lra.
  - cbn [nest_erf herf]. replace (S n + k)%nat with (n + S k)%nat in B by lia. specialize (IH (S k) v B). replace (Z.of_nat (S k)) with (Z.of_nat k + 1)%Z in IH by lia. cbn [negb]. set (a := herf false U n (Z.of_nat k + 1)) in *. set (b := herf true U n (Z.of_nat k + 1)) in *.
    destruct (enc_step u U _ a b (Z.of_nat k) HU E IH ltac:(lia)) as (H1 & H2). rewrite INR_Z. unfold enc.  rewrite !minus_IZR.
    replace (INR (2 * k + 1)) with (IZR (2 * Z.of_nat k + 1)) by (rewrite INR_IZR_INZ; f_equal; lia).
    pose proof (cdiv_ge Sc (2 * Z.of_nat k + 1) ltac:(lia)) as H3. pose proof (div_le Sc (2 * Z.of_nat k + 1) ltac:(lia)) as H4. unfold Rdiv at 1 in H3. unfold Rdiv at 1 in H4.
    rewrite Rmult_minus_distr_l. lra.
Qed.
Lemma hcf_sound r Rr n : (0 < Rr)%Z -> r = IZR Rr / IZR Sc -> forall k v, 0 <= v <= / (2 * r) ->
  enc (nest_cf r n k v) (hcf false Rr n (Z.of_nat k)) (hcf true Rr n (Z.of_nat k)) /\ (0 <= hcf false Rr n (Z.of_nat k))%Z /\ (0 <= hcf true Rr n (Z.of_nat k))%Z /\ 0 <= nest_cf r n k v.
Proof.
  intros HR ->. pose proof Sc_pos as SP. assert (RP : 0 < IZR Rr) by (apply IZR_lt; lia). assert (SZ : (0 < Sc)%Z) by (unfold Sc; lia).
  assert (CP : forall a b, (0 <= a)%Z -> (0 < b)%Z -> (0 <= cdiv a b)%Z).
  { intros a b A B. apply le_IZR. eapply Rle_trans; [|apply cdiv_ge; exact B]. apply Rmult_le_pos; [now apply IZR_le|left; apply Rinv_0_lt_compat; now apply IZR_lt]. }
  induction n as [|n IH]; intros k v B.
  - cbn [nest_cf hcf]. unfold enc.  pose proof (cdiv_ge (Sc * Sc) (2 * Rr) ltac:(lia)) as H. rewrite !mult_IZR in H.
    split; [|split; [lia|split; [apply CP; lia|lra]]]. split; [nra|]. eapply Rle_trans; [|exact H]. apply Rle_trans with (IZR Sc * / (2 * (IZR Rr / IZR Sc))); [apply Rmult_le_compat_l; lra|]. right. field. lra.
  - cbn [nest_cf hcf]. specialize (IH (S k) v B). replace (Z.of_nat (S k)) with (Z.of_nat k + 1)%Z in IH by lia. cbn [negb]. set (a := hcf false Rr n (Z.of_nat k + 1)) in *. set (b := hcf true Rr n (Z.of_nat k + 1)) in *. destruct IH as ((E1 & E2) & A0 & B0 & Q0). 
    set (q := nest_cf (IZR Rr / IZR Sc) n (S k) v) in *. rewrite INR_Z. set (m := (Z.of_nat k + 1)%Z) in *. assert (M1 : (1 <= m)%Z) by (unfold m; lia). assert (MP : 1 <= IZR m) by (now apply IZR_le).
    assert (D1 : (0 < 2 * m * b + 2 * Rr)%Z) by nia. assert (D2 : (0 < 2 * m * a + 2 * Rr)%Z) by nia.
    assert (RS : 0 < IZR Rr / IZR Sc) by (now apply Rdiv_lt_0_compat).
    assert (DP : 0 < 2 * IZR m * q + 2 * (IZR Rr / IZR Sc)) by nra.
    assert (DD : 0 < 2 * IZR m * (IZR Sc * q) + 2 * IZR Rr) by (assert (0 <= IZR Sc * q) by nra; nra).
    assert (EQ : IZR Sc * / (2 * IZR m * q + 2 * (IZR Rr / IZR Sc)) = IZR Sc * IZR Sc / (2 * IZR m * (IZR Sc * q) + 2 * IZR Rr)).
    { field; repeat split; lra. }
    split; [|split; [apply Z.div_pos; lia|split; [apply CP; lia|left; now apply Rinv_0_lt_compat]]].
    unfold enc.  rewrite EQ. pose proof (div_le (Sc * Sc) _ D1) as H1. pose proof (cdiv_ge (Sc * Sc) _ D2) as H2. rewrite plus_IZR, !mult_IZR in H1, H2.
    assert (SS : 0 < IZR Sc * IZR Sc) by nra. assert (AR : 0 <= IZR a) by (now apply IZR_le). split.
    + eapply Rle_trans; [exact H1|]. unfold Rdiv. apply Rmult_le_compat_l; [lra|]. apply Rinv_le_contravar; [exact DD|]. nra.
    + eapply Rle_trans; [|exact H2]. unfold Rdiv. apply Rmult_le_compat_l; [lra|]. apply Rinv_le_contravar; [nra|]. nra.
Qed.

(* ------------------------------------------------ sqrt pi *)
Lemma PI_bounds : 314159260 / 100000000 < PI < 314159270 / 100000000.
Proof.
  pose proof (PI_2_3_7_ineq 4) as [A B]. unfold PI_2_3_7_tg, tg_alt, Ratan_seq in A, B. cbn -[pow INR Rdiv Rinv] in A, B. cbn in A, B. lra.
Qed.
Lemma sqrtPI_bounds : 17724538 / 10000000 <= sqrt PI <= 17724539 / 10000000.
Proof.
  pose proof PI_bounds as [A B]. split.
  - apply Rsqr_incr_0_var; [|left; apply sqrtPI_pos]. unfold Rsqr. rewrite sqrt_sqrt by lra. lra.
  - apply Rsqr_incr_0_var; [|lra]. unfold Rsqr. rewrite sqrt_sqrt by lra. lra.
Qed.
