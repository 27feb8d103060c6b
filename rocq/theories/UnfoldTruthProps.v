(* C112: unfolding of spectra that were folded with the response. *)
From Verif Require Import PyBase Axis MatrixModel MatrixSpec VectorModel ArithModel SmoothModel SmoothSpec UnfoldModel UnfoldSpec UnfoldProofs UnfoldApplyProofs UnfoldProps.
Local Open Scope Qc_scope.

(* ------------------------------------------------------------------ specification *)
(* row i of the raw matrix is the true spectrum t folded with the response *)
Definition folded_from (n : nat) (R r : arr2) (i : nat) (t : nat -> Qc) : Prop :=
  forall j, (j < n)%nat -> aget r i j = sumn n (fun l => t l * aget R l j).
(* counts in the wrong place, in all bins together *)
Definition wrong (n : nat) (u t : nat -> Qc) : Qc := sumn n (fun j => qabs (u j - t j)).
(* what of the counts with true energy l is missing in bin l, plus what is put elsewhere *)
Definition spread (n : nat) (R : arr2) (l : nat) : Qc := sumn n (fun j => qabs (idm l j - aget R l j)).

(* ------------------------------------------------------------------ absolute values *)
Lemma qabs_mul a b : qabs (a * b) = qabs a * qabs b.
Proof.
  destruct (qabs_spec a) as [[A1 A2]|[A1 A2]], (qabs_spec b) as [[B1 B2]|[B1 B2]], (qabs_spec (a * b)) as [[C1 C2]|[C1 C2]];
    rewrite A2, B2, C2; try qnra; exfalso; qnra.
Qed.
Lemma qabs_add a b : qabs (a + b) <= qabs a + qabs b.
Proof.
  destruct (qabs_spec a) as [[A1 A2]|[A1 A2]], (qabs_spec b) as [[B1 B2]|[B1 B2]], (qabs_spec (a + b)) as [[C1 C2]|[C1 C2]]; rewrite A2, B2, C2; qlra.
Qed.
Lemma qabs_opp a : qabs (- a) = qabs a.
Proof. destruct (qabs_spec a) as [[A1 A2]|[A1 A2]], (qabs_spec (- a)) as [[B1 B2]|[B1 B2]]; rewrite A2, B2; qlra. Qed.
Lemma qabs_ge0 a : 0 <= qabs a.
Proof. destruct (qabs_spec a) as [[A1 A2]|[A1 A2]]; rewrite A2; qlra. Qed.
Lemma qabs_sumn n f : qabs (sumn n f) <= sumn n (fun i => qabs (f i)).
Proof.
  induction n as [|n IH]; cbn [sumn]; [|eapply Qcle_trans; [apply qabs_add|]; qlra].
  destruct (qabs_spec 0) as [[A1 A2]|[A1 A2]]; rewrite A2; qlra.
Qed.

(* ------------------------------------------------------------------ the error *)
Section Err.
Variables (r R : arr2) (nr n : nat).
Hypothesis Sr : shaped r nr n.
Hypothesis SR : shaped R n n.
Variables (i : nat) (t : nat -> Qc).
Hypothesis Hi : (i < nr)%nat.
Hypothesis F : folded_from n R r i t.
Let e k j := aget (fst (ustate r R k)) i j - t j.
Lemma err_0 j : (j < n)%nat -> e 0 j = - sumn n (fun l => t l * id_minus (aget R) l j).
Proof. intros Hj. unfold e. cbn [ustate fst]. rewrite (F j Hj). rewrite <- (sub_mul R n t j Hj). ring. Qed.
Lemma err_S k j : (j < n)%nat -> e (S k) j = sumn n (fun l => e k l * id_minus (aget R) l j).
Proof.
  intros Hj. unfold e at 1. rewrite (u_S r R nr n Sr SR k i j Hi Hj). rewrite (f_get r R nr n Sr SR k i j Hi Hj).
  rewrite <- (sub_mul R n (e k) j Hj). unfold e.
  rewrite (sumn_ext n (fun l => (aget (fst (ustate r R k)) i l - t l) * aget R l j) (fun l => aget (fst (ustate r R k)) i l * aget R l j - t l * aget R l j)) by (intros; ring).
  rewrite sumn_sub, <- (F j Hj). ring.
Qed.
Lemma wrong_step (g : nat -> Qc) q : (forall l, (l < n)%nat -> spread n R l <= q) ->
  sumn n (fun j => qabs (sumn n (fun l => g l * id_minus (aget R) l j))) <= q * sumn n (fun l => qabs (g l)).
Proof.
  intros HQ. apply (Qcle_trans _ (sumn n (fun j => sumn n (fun l => qabs (g l) * qabs (id_minus (aget R) l j))))).
  - apply sumn_le. intros j Hj. eapply Qcle_trans; [apply qabs_sumn|]. apply sumn_le. intros l Hl. rewrite qabs_mul. qlra.
  - rewrite sumn_swap. rewrite <- sumn_scal. apply sumn_le. intros l Hl. rewrite sumn_scal. specialize (HQ l Hl). unfold spread in HQ.
    pose proof (qabs_ge0 (g l)) as P. fold (id_minus (aget R)) in HQ. unfold id_minus at 1.
    rewrite (Qcmult_comm q).
    rewrite !(Qcmult_comm (qabs (g l))). now apply Qcmult_le_compat_r.
Qed.
Lemma err_bound q k : (forall l, (l < n)%nat -> spread n R l <= q) -> 0 <= q -> wrong n (aget (fst (ustate r R k)) i) t <= q ^ (S k) * sumn n (fun l => qabs (t l)).
Proof.
  intros HQ H0. unfold wrong. change (sumn n (fun j => qabs (e k j)) <= q ^ S k * sumn n (fun l => qabs (t l))). induction k as [|k IH].
  - rewrite (sumn_ext n _ (fun j => qabs (sumn n (fun l => t l * id_minus (aget R) l j)))) by (intros j Hj; rewrite <- qabs_opp; f_equal; rewrite (err_0 j Hj); ring).
    replace (q ^ 1) with q by (cbn; ring). now apply wrong_step.
  - rewrite (sumn_ext n _ (fun j => qabs (sumn n (fun l => e k l * id_minus (aget R) l j)))) by (intros j Hj; f_equal; exact (err_S k j Hj)).
    eapply Qcle_trans; [exact (wrong_step (e k) q HQ)|]. change (q ^ S (S k)) with (q * q ^ S k). rewrite <- Qcmult_assoc.
    rewrite !(Qcmult_comm q). now apply Qcmult_le_compat_r.
Qed.
End Err.

(* ------------------------------------------------------------------ powers *)
Lemma pow_nonneg q k : 0 <= q -> 0 <= q ^ k.
Proof. intros H. induction k as [|k IH]; cbn [Qcpower]; [qlra|]. now apply Qcmult_nonneg. Qed.
Lemma pow_anti q k k' : 0 <= q -> q <= 1 -> (k <= k')%nat -> q ^ k' <= q ^ k.
Proof.
  intros H0 H1 Hk. induction Hk as [|m Hm IH]; [qlra|]. cbn [Qcpower]. pose proof (pow_nonneg q m H0). 
  eapply Qcle_trans; [|exact IH]. assert (P : q * q ^ m <= 1 * q ^ m) by (apply Qcmult_le_compat_r; assumption). qlra.
Qed.
Lemma pow_qabs a k : qabs (a ^ k) = qabs a ^ k.
Proof. induction k as [|k IH]; cbn [Qcpower]; [destruct (qabs_spec 1) as [[A1 A2]|[A1 A2]]; rewrite A2; qlra|]. now rewrite qabs_mul, IH. Qed.
Lemma pow_harmonic q k : 0 <= q -> q <= 1 -> q ^ k * (1 + qnat k * (1 - q)) <= 1.
Proof.
  intros H0 H1. induction k as [|k IH]; [cbn [Qcpower]; rewrite qnat_0; qlra|]. rewrite qnat_S. cbn [Qcpower].
  eapply Qcle_trans; [|exact IH]. pose proof (pow_nonneg q k H0) as P. pose proof (qnat_nonneg k) as N.
  assert (A : 0 <= qnat k * (1 - q)) by (apply Qcmult_nonneg; [assumption|qlra]).
  assert (B : q * (qnat k * (1 - q)) <= 1 * (qnat k * (1 - q))) by (apply Qcmult_le_compat_r; assumption).
  replace (q * q ^ k * (1 + (qnat k + 1) * (1 - q))) with ((q + q * (qnat k * (1 - q)) + q * (1 - q)) * q ^ k) by ring.
  rewrite (Qcmult_comm (q ^ k)). apply Qcmult_le_compat_r; [|assumption].
  assert (C : 0 <= (1 - q) * (1 - q)) by (apply Qcmult_nonneg; qlra). assert (D : (1 - q) * (1 - q) = 1 - (q + q * (1 - q))) by ring. rewrite D in C. qlra.
Qed.
Lemma qabs_le a b : qabs a <= b <-> - b <= a /\ a <= b.
Proof. destruct (qabs_spec a) as [[A1 A2]|[A1 A2]]; rewrite A2; (split; [intros H; split; qlra|intros [H H']; qlra]). Qed.
Lemma arch x : exists k, x <= qnat k.
Proof.
  destruct x as [[a d] C]. exists (Z.to_nat a). unfold qnat, qz, Qcle, Q2Qc. cbn [this]. rewrite Qred_correct. unfold Qle. cbn [Qnum Qden inject_Z].
  rewrite Z.mul_1_r. destruct (Z_le_gt_dec a 0); [|rewrite Z2Nat.id by lia; nia].
  replace (Z.to_nat a) with 0%nat by lia. cbn. lia.
Qed.

(* ------------------------------------------------------------------ limits *)
Lemma divmul x y : y <> 0 -> x / y * y = x.
Proof. intros. field. assumption. Qed.
Lemma Qcmult_pos x y : 0 < x -> 0 < y -> 0 < x * y.
Proof. intros. qnra. Qed.
(* becomes and stays as small as one likes *)
Definition vanishes (x : nat -> Qc) : Prop := forall eps, 0 < eps -> exists K, forall k, (K <= k)%nat -> qabs (x k) <= eps.
Lemma pow_vanishes a : qabs a < 1 -> vanishes (fun k => a ^ k).
Proof.
  intros Ha eps He. set (q := qabs a) in *. assert (H0 : 0 <= q) by apply qabs_ge0.
  destruct (arch (1 / ((1 - q) * eps))) as [K HK]. assert (P : 0 < (1 - q) * eps) by (apply Qcmult_pos; qlra).
  exists K. intros k Hk. rewrite pow_qabs. fold q. assert (A : 1 / ((1 - q) * eps) <= qnat k) by (eapply Qcle_trans; [exact HK|]; now apply qnat_le).
  assert (B : 1 <= qnat k * ((1 - q) * eps)). { apply Qclt_le_weak in P as P'. apply (Qcmult_le_compat_r _ _ _ A) in P'. replace (1 / ((1 - q) * eps) * ((1 - q) * eps)) with 1 in P'; [exact P'|]. symmetry. apply divmul. intros E; rewrite E in P; qlra. }
  assert (H1 : q <= 1) by qlra. pose proof (pow_harmonic q k H0 H1) as C. pose proof (pow_nonneg q k H0) as D.
  assert (E : q ^ k * (qnat k * (1 - q)) <= 1) by (rewrite Qcmult_plus_distr_r in C; qlra).
  assert (E' : q ^ k * (qnat k * (1 - q)) * eps <= 1 * eps) by (apply Qcmult_le_compat_r; [exact E|qlra]).
  assert (F : 1 * q ^ k <= qnat k * ((1 - q) * eps) * q ^ k) by (apply Qcmult_le_compat_r; assumption).
  replace (q ^ k * (qnat k * (1 - q)) * eps) with (qnat k * ((1 - q) * eps) * q ^ k) in E' by ring. qlra.
Qed.

Definition half : Qc := qn 1 2.
Lemma half2 x : x * half + x * half = x.
Proof. transitivity (x * (half + half)); [ring|]. replace (half + half) with 1 by (apply Qc_is_canon; reflexivity). ring. Qed.
Lemma half_pos : 0 < half.
Proof. reflexivity. Qed.
Lemma vanishes_recursion (x d : nat -> Qc) a : qabs a < 1 -> (forall k, x (S k) = a * x k + d k) -> vanishes d -> vanishes x.
Proof.
  intros Ha Hx Hd eps He. set (q := qabs a) in *. assert (H0 : 0 <= q) by apply qabs_ge0.
  assert (P : 0 < eps * (1 - q) * half) by (apply Qcmult_pos; [apply Qcmult_pos; qlra|apply half_pos]).
  destruct (Hd _ P) as [K1 H1].
  assert (B : forall m, qabs (x (K1 + m)%nat) <= q ^ m * qabs (x K1) + eps * half).
  { induction m as [|m IH].
    - rewrite Nat.add_0_r. cbn [Qcpower]. assert (0 < eps * half) by (apply Qcmult_pos; [assumption|apply half_pos]). qlra.
    - replace (K1 + S m)%nat with (S (K1 + m)) by lia. rewrite Hx. eapply Qcle_trans; [apply qabs_add|]. rewrite qabs_mul. fold q.
      specialize (H1 (K1 + m)%nat ltac:(lia)). assert (Q : qabs (x (K1 + m)%nat) * q <= (q ^ m * qabs (x K1) + eps * half) * q) by now apply Qcmult_le_compat_r.
      cbn [Qcpower]. replace ((q ^ m * qabs (x K1) + eps * half) * q) with (q * q ^ m * qabs (x K1) + eps * half - eps * (1 - q) * half) in Q by ring.
      rewrite (Qcmult_comm q (qabs _)). qlra. }
  pose proof (qabs_ge0 (x K1)) as X. assert (P2 : 0 < eps * half / (1 + qabs (x K1))).
  { unfold Qcdiv. apply Qcmult_pos; [apply Qcmult_pos; [assumption|apply half_pos]|]. apply Qcinv_pos. qlra. }
  assert (Hq : qabs q < 1) by (unfold q; destruct (qabs_spec (qabs a)) as [[A1 A2]|[A1 A2]]; rewrite A2; fold q; qlra).
  destruct (pow_vanishes q Hq _ P2) as [K2 H2].
  exists (K1 + K2)%nat. intros k Hk. replace k with (K1 + (k - K1))%nat by lia. eapply Qcle_trans; [apply B|].
  specialize (H2 (k - K1)%nat ltac:(lia)). apply qabs_le in H2 as [_ H2].
  assert (Z : q ^ (k - K1) * (1 + qabs (x K1)) <= eps * half / (1 + qabs (x K1)) * (1 + qabs (x K1))) by (apply Qcmult_le_compat_r; [exact H2|qlra]).
  replace (eps * half / (1 + qabs (x K1)) * (1 + qabs (x K1))) with (eps * half) in Z by (symmetry; apply divmul; intros E; qlra).
  pose proof (pow_nonneg q (k - K1) H0). rewrite Qcmult_plus_distr_r in Z. assert (eps * half + eps * half = eps) by apply half2. qlra.
Qed.
Lemma vanishes_ext x y : (forall k, x k = y k) -> vanishes x -> vanishes y.
Proof. intros E H eps He. destruct (H eps He) as [K HK]. exists K. intros k Hk. rewrite <- E. auto. Qed.
Lemma vanishes_scal x c : vanishes x -> vanishes (fun k => x k * c).
Proof.
  intros H eps He. pose proof (qabs_ge0 c) as C. assert (P : 0 < eps / (1 + qabs c)) by (unfold Qcdiv; apply Qcmult_pos; [assumption|apply Qcinv_pos; qlra]).
  destruct (H _ P) as [K HK]. exists K. intros k Hk. specialize (HK k Hk). rewrite qabs_mul.
  pose proof (qabs_ge0 (x k)). assert (Z : qabs (x k) * (1 + qabs c) <= eps / (1 + qabs c) * (1 + qabs c)) by (apply Qcmult_le_compat_r; [exact HK|qlra]).
  replace (eps / (1 + qabs c) * (1 + qabs c)) with eps in Z by (symmetry; apply divmul; intros E; qlra). rewrite Qcmult_plus_distr_r in Z. qlra.
Qed.
Lemma vanishes_sum m (f : nat -> nat -> Qc) : (forall l, (l < m)%nat -> vanishes (f l)) -> vanishes (fun k => sumn m (fun l => f l k)).
Proof.
  induction m as [|m IH]; intros H eps He.
  - exists 0%nat. intros k _. cbn. destruct (qabs_spec 0) as [[A1 A2]|[A1 A2]]; rewrite A2; qlra.
  - assert (P : 0 < eps * half) by (apply Qcmult_pos; [assumption|apply half_pos]).
    destruct (IH (fun l Hl => H l (Nat.lt_lt_succ_r _ _ Hl)) _ P) as [K1 H1]. destruct (H m (Nat.lt_succ_diag_r m) _ P) as [K2 H2].
    exists (K1 + K2)%nat. intros k Hk. cbn [sumn]. eapply Qcle_trans; [apply qabs_add|]. specialize (H1 k ltac:(lia)). specialize (H2 k ltac:(lia)).
    assert (eps * half + eps * half = eps) by apply half2. cbn beta in H1. qlra.
Qed.

Lemma Qcle_eq (a b : Qc) : a = b -> a <= b.
Proof. intros ->. apply Qcle_refl. Qed.
(* ------------------------------------------------------------------ C112 *)
(* the error after iteration k is the true spectrum times (I-R)^(k+1), whatever the response *)
Theorem unfold_error : forall r R nr n num_iter k i j t, shaped r nr n -> shaped R n n -> (i < nr)%nat -> folded_from n R r i t ->
  (k < num_iter)%nat -> (j < n)%nat ->
  aget (fst (iterate r R num_iter k)) i j - t j = - sumn n (fun l => t l * mpow n (id_minus (aget R)) (S k) l j).
Proof.
  intros * Sr SR Hi F Hk Hj. unfold iterate. rewrite cube_nth by exact Hk. clear Hk. revert j Hj. induction k as [|k IH]; intros j Hj.
  - rewrite (err_0 r R n i t F j Hj). f_equal. apply sumn_ext. intros l Hl. f_equal. cbn [mpow]. unfold mmul.
    rewrite (sumn_single n _ l Hl) by (intros m Hm Hne; unfold idm; destruct (Nat.eqb_spec l m); [congruence|ring]).
    unfold idm. rewrite Nat.eqb_refl. ring.
  - rewrite (err_S r R nr n Sr SR i t Hi F k j Hj).
    rewrite (sumn_ext n _ (fun l => - sumn n (fun m => t m * mpow n (id_minus (aget R)) (S k) m l) * id_minus (aget R) l j)) by (intros l Hl; now rewrite IH).
    rewrite (sumn_ext n _ (fun l => - sumn n (fun m => t m * mpow n (id_minus (aget R)) (S k) m l * id_minus (aget R) l j))) by (intros l Hl; rewrite sumn_scal_r; ring).
    rewrite sumn_opp. f_equal. rewrite sumn_swap. apply sumn_ext. intros m Hm.
    transitivity (t m * mmul n (mpow n (id_minus (aget R)) (S k)) (id_minus (aget R)) m j); [|reflexivity]. unfold mmul. rewrite <- sumn_scal. apply sumn_ext. intros; ring.
Qed.
Print Assumptions unfold_error.
(* response functions whose spread is at most q: the misplaced counts shrink by q in each iteration *)
Theorem unfold_error_bound : forall r R nr n num_iter k i t q, shaped r nr n -> shaped R n n -> (i < nr)%nat -> folded_from n R r i t ->
  (k < num_iter)%nat -> 0 <= q -> (forall l, (l < n)%nat -> spread n R l <= q) ->
  wrong n (aget (fst (iterate r R num_iter k)) i) t <= q ^ (S k) * sumn n (fun l => qabs (t l)).
Proof. intros * Sr SR Hi F Hk H0 HQ. unfold iterate. rewrite cube_nth by exact Hk. exact (err_bound r R nr n Sr SR i t Hi F q k HQ H0). Qed.
Print Assumptions unfold_error_bound.
(* for probability distributions the spread is twice what lies outside the full-energy bin *)
Theorem spread_meaning : forall R n l, (l < n)%nat -> (forall j, (j < n)%nat -> 0 <= aget R l j) -> sumn n (aget R l) = 1 ->
  spread n R l = qz 2 * (1 - aget R l l).
Proof.
  intros R n l Hl HN HS. unfold spread.
  rewrite (sumn_ext n _ (fun j => aget R l j + (if Nat.eqb l j then 1 - aget R l l - aget R l l else 0))).
  - rewrite sumn_add, HS. rewrite (sumn_single n _ l Hl) by (intros m Hm Hne; destruct (Nat.eqb_spec l m); [congruence|reflexivity]). rewrite Nat.eqb_refl.
    replace (qz 2) with (1 + 1) by (apply Qc_is_canon; reflexivity). ring.
  - intros j Hj. unfold idm. destruct (Nat.eqb_spec l j) as [<-|N].
    + assert (aget R l l <= 1). { rewrite <- HS. apply (Qcle_trans _ (sumn n (fun j => if Nat.eqb l j then aget R l j else 0))).
        - rewrite (sumn_single n _ l Hl); [rewrite Nat.eqb_refl; qlra|]. intros m Hm Hne. destruct (Nat.eqb_spec l m); [congruence|reflexivity].
        - apply sumn_le. intros m Hm. destruct (Nat.eqb l m); [qlra|]. now apply HN. }
      destruct (qabs_spec (1 - aget R l l)) as [[A1 A2]|[A1 A2]]; rewrite A2; qlra.
    + specialize (HN j Hj). destruct (qabs_spec (0 - aget R l j)) as [[A1 A2]|[A1 A2]]; rewrite A2; qlra.
Qed.
Print Assumptions spread_meaning.
(* a detector that never puts counts above the true energy, with some of them in the full-energy bin:
   the iterations converge to the true spectrum in every bin *)
Theorem unfold_converges : forall r R nr n i t, shaped r nr n -> shaped R n n -> (i < nr)%nat -> folded_from n R r i t ->
  (forall l j, (l < j)%nat -> (j < n)%nat -> aget R l j = 0) -> (forall l, (l < n)%nat -> 0 < aget R l l /\ aget R l l < qz 2) ->
  forall eps, 0 < eps -> exists K, forall num_iter k j, (K <= k)%nat -> (k < num_iter)%nat -> (j < n)%nat ->
    qabs (aget (fst (iterate r R num_iter k)) i j - t j) <= eps.
Proof.
  intros * Sr SR Hi F HT HD. set (e := fun j k => aget (fst (ustate r R k)) i j - t j).
  assert (V : forall m j, (j < n)%nat -> (n - j <= m)%nat -> vanishes (e j)).
  { induction m as [|m IH]; intros j Hj Hm; [lia|].
    apply (vanishes_recursion (e j) (fun k => sumn n (fun l => e l k * (if (j <? l)%nat then id_minus (aget R) l j else 0))) (id_minus (aget R) j j)).
    - unfold id_minus, idm. rewrite Nat.eqb_refl. destruct (HD j Hj) as [A B]. assert (qz 2 = 1 + 1) by (apply Qc_is_canon; reflexivity).
      destruct (qabs_spec (1 - aget R j j)) as [[C D]|[C D]]; rewrite D; qlra.
    - intros k. unfold e at 1. rewrite (err_S r R nr n Sr SR i t Hi F k j Hj).
      rewrite (sumn_ext n _ (fun l => e l k * (if (l =? j)%nat then id_minus (aget R) l j else 0) + e l k * (if (j <? l)%nat then id_minus (aget R) l j else 0))).
      + rewrite sumn_add. f_equal. rewrite (sumn_single n _ j Hj); [rewrite Nat.eqb_refl; ring|]. intros l Hl Hne. destruct (Nat.eqb_spec l j); [congruence|ring].
      + intros l Hl. unfold e. destruct (Nat.eqb_spec l j) as [E|N1]; destruct (Nat.ltb_spec j l) as [N2|N2]; try lia; try ring.
        assert (Z : id_minus (aget R) l j = 0) by (unfold id_minus, idm; destruct (Nat.eqb_spec l j); [congruence|]; rewrite (HT l j) by lia; ring). rewrite Z. ring.
    - apply vanishes_sum. intros l Hl. destruct (Nat.ltb_spec j l) as [N|N].
      + apply (vanishes_scal (e l)). apply IH; lia.
      + intros eps He. exists 0%nat. intros k _. rewrite Qcmult_0_r. destruct (qabs_spec 0) as [[A1 A2]|[A1 A2]]; rewrite A2; qlra. }
  intros eps He.
  assert (U : forall m, (m <= n)%nat -> exists K, forall k j, (K <= k)%nat -> (j < m)%nat -> qabs (e j k) <= eps).
  { induction m as [|m IH]; intros Hm; [exists 0%nat; intros; lia|]. destruct (IH ltac:(lia)) as [K1 H1]. destruct (V n m ltac:(lia) ltac:(lia) eps He) as [K2 H2].
    exists (K1 + K2)%nat. intros k j Hk Hj. destruct (Nat.eq_dec j m) as [->|N]; [apply H2; lia|apply H1; lia]. }
  destruct (U n (le_n n)) as [K HK]. exists K. intros num_iter k j H1 H2 H3. unfold iterate. rewrite cube_nth by exact H2. exact (HK k j H1 H3).
Qed.
Print Assumptions unfold_converges.
(* counts that do not come from the response (noise) are amplified by at most 1/(1-q) *)
Theorem unfold_noise_bound : forall r r' R nr nr' n num_iter k i i' q, shaped r nr n -> shaped r' nr' n -> shaped R n n ->
  (i < nr)%nat -> (i' < nr')%nat -> (k < num_iter)%nat -> 0 <= q -> q < 1 -> (forall l, (l < n)%nat -> spread n R l <= q) ->
  wrong n (aget (fst (iterate r R num_iter k)) i) (aget (fst (iterate r' R num_iter k)) i') <= wrong n (aget r i) (aget r' i') / (1 - q).
Proof.
  intros * Sr Sr' SR Hi Hi' Hk H0 H1 HQ. unfold iterate. rewrite !cube_nth by exact Hk. clear Hk. unfold wrong.
  set (D := sumn n (fun j => qabs (aget r i j - aget r' i' j))). assert (D0 : 0 <= D) by (apply sumn_nonneg; intros; apply qabs_ge0).
  assert (P : 0 < 1 - q) by qlra. assert (NZ : 1 - q <> 0) by (intros E; rewrite E in P; qlra). assert (B : 0 <= D / (1 - q)) by (apply Qcdiv_nonneg; qlra).
  induction k as [|k IH].
  - cbn [ustate fst]. fold D. assert (E : D = D / (1 - q) * (1 - q)) by (symmetry; now apply divmul).
    assert (E2 : D / (1 - q) * (1 - q) = D / (1 - q) - q * (D / (1 - q))) by ring. assert (0 <= q * (D / (1 - q))) by now apply Qcmult_nonneg. qlra.
  - set (d := fun l => aget (fst (ustate r R k)) i l - aget (fst (ustate r' R k)) i' l) in *.
    apply (Qcle_trans _ (sumn n (fun j => qabs (aget r i j - aget r' i' j) + qabs (sumn n (fun l => d l * id_minus (aget R) l j))))).
    + apply sumn_le. intros j Hj. eapply Qcle_trans; [|apply qabs_add]. apply Qcle_eq. f_equal.
      rewrite (u_S r R nr n Sr SR k i j Hi Hj), (u_S r' R nr' n Sr' SR k i' j Hi' Hj), (f_get r R nr n Sr SR k i j Hi Hj), (f_get r' R nr' n Sr' SR k i' j Hi' Hj).
      rewrite <- (sub_mul R n d j Hj). unfold d.
      rewrite (sumn_ext n (fun l => (aget (fst (ustate r R k)) i l - aget (fst (ustate r' R k)) i' l) * aget R l j) (fun l => aget (fst (ustate r R k)) i l * aget R l j - aget (fst (ustate r' R k)) i' l * aget R l j)) by (intros; ring).
      rewrite sumn_sub. ring.
    + rewrite sumn_add. fold D. pose proof (wrong_step R n d q HQ) as W.
      assert (X : sumn n (fun l => qabs (d l)) * q <= D / (1 - q) * q) by (apply Qcmult_le_compat_r; assumption).
      assert (E : D = D / (1 - q) * (1 - q)) by (symmetry; now apply divmul). assert (E2 : D / (1 - q) * (1 - q) = D / (1 - q) - D / (1 - q) * q) by ring.
      rewrite (Qcmult_comm q) in W. qlra.
Qed.
Print Assumptions unfold_noise_bound.
(* refuted in general: a detector that puts most counts into the neighbouring bin.  The raw data are folded exactly,
   the response is invertible, and every iteration moves further away from the truth *)
Example sw_R : arr2 := mkArr 2 [[qn 2 5; qn 3 5]; [qn 3 5; qn 2 5]].
Example sw_raw : arr2 := mkArr 2 [[qn 2 5; qn 3 5]].
Example sw_t (j : nat) : Qc := if Nat.eqb j 0 then 1 else 0.
Theorem unfold_converges_refuted : shaped sw_raw 1 2 /\ shaped sw_R 2 2 /\ folded_from 2 sw_R sw_raw 0 sw_t /\
  row_stochastic 2 (aget sw_R) /\ (forall l j, (l < 2)%nat -> (j < 2)%nat -> 0 < aget sw_R l j) /\
  (forall num_iter k, (k < num_iter)%nat -> wrong 2 (aget (fst (iterate sw_raw sw_R num_iter k)) 0) sw_t = qn 6 5 ^ (S k)) /\
  (forall B, exists k, B <= qn 6 5 ^ (S k)).
Proof.
  assert (S1 : shaped sw_raw 1 2) by (split; [reflexivity|split; [reflexivity|intros x [<-|[]]; reflexivity]]).
  assert (S2 : shaped sw_R 2 2) by (split; [reflexivity|split; [reflexivity|intros x [<-|[<-|[]]]; reflexivity]]).
  assert (F : folded_from 2 sw_R sw_raw 0 sw_t) by (intros [|[|j]] Hj; [now apply qeqb_eq|now apply qeqb_eq|lia]).
  split; [exact S1|]. split; [exact S2|]. split; [exact F|].
  split; [intros [|[|j]] Hj; [now apply qeqb_eq|now apply qeqb_eq|lia]|].
  split; [intros [|[|l]] [|[|j]] Hl Hj; try lia; reflexivity|]. split.
  - intros num_iter k Hk. unfold iterate. rewrite cube_nth by exact Hk. clear num_iter Hk.
    assert (E : forall k, aget (fst (ustate sw_raw sw_R k)) 0 0 - sw_t 0 = - (qn 3 5 * qn 6 5 ^ k) /\ aget (fst (ustate sw_raw sw_R k)) 0 1 - sw_t 1 = qn 3 5 * qn 6 5 ^ k).
    { clear k. induction k as [|k [I0 I1]]; [split; now apply qeqb_eq|].
      rewrite !(err_S sw_raw sw_R 1 2 S1 S2 0 sw_t (Nat.lt_0_succ 0) F k) by lia. cbn [sumn]. rewrite I0, I1.
      assert (A00 : id_minus (aget sw_R) 0 0 = qn 3 5) by now apply qeqb_eq. assert (A01 : id_minus (aget sw_R) 0 1 = - qn 3 5) by now apply qeqb_eq.
      assert (A10 : id_minus (aget sw_R) 1 0 = - qn 3 5) by now apply qeqb_eq. assert (A11 : id_minus (aget sw_R) 1 1 = qn 3 5) by now apply qeqb_eq.
      rewrite A00, A01, A10, A11. cbn [Qcpower]. assert (H : qn 6 5 = qn 3 5 + qn 3 5) by now apply qeqb_eq.
      set (p := qn 6 5 ^ k). clearbody p. rewrite H. split; ring. }
    unfold wrong. cbn [sumn]. destruct (E k) as [E0 E1]. rewrite E0, E1. rewrite qabs_opp.
    assert (P : 0 <= qn 3 5 * qn 6 5 ^ k) by (apply Qcmult_nonneg; [now apply Qclt_le_weak|apply pow_nonneg; now apply Qclt_le_weak]).
    destruct (qabs_spec (qn 3 5 * qn 6 5 ^ k)) as [[A1 A2]|[A1 A2]]; [|exfalso; qlra]. rewrite A2. cbn [Qcpower].
    assert (H : qn 6 5 = qn 3 5 + qn 3 5) by now apply qeqb_eq. set (p := qn 6 5 ^ k). clearbody p. rewrite H. ring.
  - intros B. assert (G : forall k, qnat k <= qz 5 * qn 6 5 ^ k).
    { induction k as [|k IH]; [rewrite qnat_0; cbn; discriminate|]. rewrite qnat_S. cbn [Qcpower].
      assert (O : 1 <= qn 6 5 ^ k). { clear IH. induction k as [|k IH]; [discriminate|]. cbn [Qcpower].
        assert (H : qn 6 5 * 1 <= qn 6 5 * qn 6 5 ^ k) by (rewrite !(Qcmult_comm (qn 6 5)); apply Qcmult_le_compat_r; [exact IH|now apply Qclt_le_weak]).
        assert (1 <= qn 6 5) by discriminate. rewrite Qcmult_1_r in H. qlra. }
      replace (qn 6 5) with (1 + qn 1 5) at 1 by now apply qeqb_eq. replace (qz 5 * ((1 + qn 1 5) * qn 6 5 ^ k)) with (qz 5 * qn 6 5 ^ k + qz 5 * qn 1 5 * qn 6 5 ^ k) by ring.
      replace (qz 5 * qn 1 5) with 1 by now apply qeqb_eq. qlra. }
    destruct (arch (qz 5 * B)) as [k Hk]. exists k. specialize (G (S k)). assert (qnat k <= qnat (S k)) by (apply qnat_le; lia).
    assert (X : qz 5 * B <= qz 5 * qn 6 5 ^ S k) by qlra. apply (Qcmult_lt_0_le_reg_r _ _ (qz 5)); [reflexivity|]. rewrite !(Qcmult_comm _ (qz 5)). exact X.
Qed.
Print Assumptions unfold_converges_refuted.
(* what the user gets: the matrix returned by apply, row by row, from a true spectrum without negative counts.
   With the default of 5 minimal iterations at most q^6 of the counts are misplaced *)
Theorem unfold_apply_truth : forall filter1d gaussian un raw resp un' m R q, consistent raw -> u_compton un = false ->
  u_R (set_R un resp) = Some R -> consistent R -> (forall t, u_tab un = Some t -> tab_ok t) ->
  apply filter1d gaussian un raw resp = (un', Ok m) ->
  0 <= q -> q <= 1 -> (forall l, (l < length (Eg raw))%nat -> spread (length (Eg raw)) (values R) l <= q) ->
  forall i t, (i < length (Ex raw))%nat -> folded_from (length (Eg raw)) (values R) (values raw) i t ->
  (forall j, (j < length (Eg raw))%nat -> 0 <= t j) ->
  wrong (length (Eg raw)) (aget (values m) i) t <= q ^ (S (u_min_iter un)) * sumn (length (Eg raw)) t.
Proof.
  intros * C NC UR CR CT H H0 H1 HQ i t Hi F HT.
  assert (CR' : forall R0, u_R (set_R un resp) = Some R0 -> consistent R0) by (intros R0 E; congruence).
  assert (SR : shaped (values R) (length (Eg raw)) (length (Eg raw))).
  { assert (H' := H). unfold apply in H'. cbv zeta in H'. destruct (update_values (set_R un resp) raw) as [R1|] eqn:U; [|discriminate].
    apply update_values_ok in U as (U1 & U2 & U3 & _). assert (R1 = R) by congruence. subst R1. rewrite U3. now apply response_square. }
  destruct (unfold_apply_rows _ _ _ _ _ _ _ C NC CR' H) as (R1 & isc & E1 & E2 & V). assert (R1 = R) by congruence. subst R1.
  destruct (unfold_selection_partial _ _ _ _ _ _ _ C CR' CT H) as (R2 & f0 & isc2 & _ & _ & E3 & _ & SEL). assert (isc2 = isc) by congruence. subst isc2.
  destruct (SEL i Hi) as (K1 & K2 & _). set (k := nth i isc 0%nat) in *. set (n := length (Eg raw)) in *.
  apply (Qcle_trans _ (wrong n (aget (fst (ustate (values raw) (values R) k)) i) t)).
  - unfold wrong. apply sumn_le. intros j Hj. rewrite (V i j Hi Hj). fold k. rewrite <- (closed_form (values raw) (values R) (length (Ex raw)) n (proj1 C) SR k i j Hi Hj).
    set (x := aget (fst (ustate (values raw) (values R) k)) i j). specialize (HT j Hj). unfold pos_part. destruct (qltb_spec 0 x) as [X|X]; [qlra|].
    destruct (qabs_spec (0 - t j)) as [[A1 A2]|[A1 A2]], (qabs_spec (x - t j)) as [[B1 B2]|[B1 B2]]; rewrite A2, B2; qlra.
  - eapply Qcle_trans; [exact (err_bound (values raw) (values R) (length (Ex raw)) n (proj1 C) SR i t Hi F q k HQ H0)|].
    rewrite (sumn_ext n (fun l => qabs (t l)) t) by (intros l Hl; specialize (HT l Hl); destruct (qabs_spec (t l)) as [[A1 A2]|[A1 A2]]; [exact A2|qlra]).
    apply Qcmult_le_compat_r; [apply pow_anti; [assumption|assumption|lia]|]. apply sumn_nonneg. exact HT.
Qed.
Print Assumptions unfold_apply_truth.

(* Examples: the response of UnfoldProps with half the spread, a spectrum of 8 + 8 + 16 counts *)
Example tr_R : matrix := mkM (mkArr 3 [ql [1; 0; 0]%Z; [qn 1 8; qn 7 8; 0]; [qn 1 8; qn 1 8; qn 3 4]]) (ql [100; 200; 300]%Z) (ql [100; 200; 300]%Z) None None.
Example tr_t (j : nat) : Qc := nth j (ql [8; 8; 16]%Z) 0.
Example tr_raw : matrix := mkM (mkArr 3 [ql [11; 9; 12]%Z]) (ql [100; 200; 300]%Z) (ql [1]%Z) None (Some RAW).
Example tr_un : unfolder := mkU (Some tr_R) 5 2 (qn 1 5) false None None None.
Example tr_hyps : consistent tr_raw /\ consistent tr_R /\ folded_from 3 (values tr_R) (values tr_raw) 0 tr_t /\
  (forall l, (l < 3)%nat -> spread 3 (values tr_R) l <= qn 1 2) /\ (forall j, (j < 3)%nat -> 0 <= tr_t j) /\
  (forall l j, (l < j)%nat -> (j < 3)%nat -> aget (values tr_R) l j = 0) /\ (forall l, (l < 3)%nat -> 0 < aget (values tr_R) l l /\ aget (values tr_R) l l < qz 2).
Proof.
  split; [split; [split; [reflexivity|split; [reflexivity|]]|exact I]; intros r [<-|[]]; reflexivity|].
  split; [split; [split; [reflexivity|split; [reflexivity|]]|exact I]; intros r [<-|[<-|[<-|[]]]]; reflexivity|].
  split; [intros [|[|[|j]]] Hj; [now apply qeqb_eq..|lia]|].
  split; [intros [|[|[|j]]] Hj; [discriminate..|lia]|]. split; [intros [|[|[|j]]] Hj; [discriminate..|lia]|].
  split; [intros [|[|[|l]]] [|[|[|j]]] Hl Hj; try lia; now apply qeqb_eq|]. intros [|[|[|l]]] Hl; try lia; split; reflexivity.
Qed.
Example tr_run : match apply uf_filter uf_gauss tr_un tr_raw None with
  | (_, Ok m) => qltb 0 (wrong 3 (aget (values m) 0) tr_t) && qleb (wrong 3 (aget (values m) 0) tr_t) (qn 1 8 * qz 32) = true
  | _ => False end.
Proof. vm_compute. reflexivity. Qed.
