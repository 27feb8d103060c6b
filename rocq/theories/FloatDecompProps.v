(* The first-generation product and chi square in double precision. *)
From Coq Require Import Reals ZArith List Lra Lia Psatz Permutation.
From Flocq Require Import Core.
From Verif Require Import TextNumModel TextNumProps FloatRebinModel FloatRebinProps FloatDecompModel.
Import ListNotations.
Local Open Scope bool_scope.
Local Open Scope R_scope.

(* ---------------------------------------------------------------- specification *)
Definition sum (l : list R) : R := fold_right Rplus 0 l.
Definition sum_abs (l : list R) : R := sum (map Rabs l).

(* ---------------------------------------------------------------- sums in any order *)
Lemma sum_app l k : sum (l ++ k) = sum l + sum k.
Proof. unfold sum. induction l as [|x l IH]; cbn; [ring|]. rewrite IH. ring. Qed.
Lemma sum_perm l k : Permutation l k -> sum l = sum k.
Proof. induction 1; cbn; unfold sum in *; lra. Qed.
Lemma sum_abs_app l k : sum_abs (l ++ k) = sum_abs l + sum_abs k.
Proof. unfold sum_abs. now rewrite map_app, sum_app. Qed.
Lemma sum_abs_perm l k : Permutation l k -> sum_abs l = sum_abs k.
Proof. intros P. apply sum_perm. now apply Permutation_map. Qed.
Lemma sum_abs_pos l : 0 <= sum_abs l.
Proof. induction l as [|x l IH]; cbn; [lra|]. pose proof (Rabs_pos x). unfold sum_abs, sum in IH. lra. Qed.
Lemma sum_abs_nonneg l : Forall (fun x => 0 <= x) l -> sum_abs l = sum l.
Proof. induction 1 as [|x l P F IH]; [reflexivity|]. cbn. unfold sum_abs, sum in IH. rewrite IH, Rabs_pos_eq; [reflexivity|exact P]. Qed.
Lemma leaves_pos t : (1 <= length (leaves t))%nat.
Proof. induction t as [x|l IL r IR]; cbn; [lia|]. rewrite app_length. lia. Qed.
Lemma double_fsum t : Forall double (leaves t) -> double (fsum t).
Proof. destruct t as [x|l r]; cbn; intros F; [now inversion F|]. apply double_near. Qed.
Lemma pow_mono n m : (n <= m)%nat -> (1 + U) ^ n <= (1 + U) ^ m.
Proof. intros L. apply Rle_pow; [pose proof U_small; lra|exact L]. Qed.
Lemma pow_ge1 n : 1 <= (1 + U) ^ n.
Proof. apply pow_R1_Rle. pose proof U_small. lra. Qed.
Lemma tree_error t : Forall double (leaves t) -> Rabs (fsum t - sum (leaves t)) <= ((1 + U) ^ (length (leaves t) - 1) - 1) * sum_abs (leaves t).
Proof.
  induction t as [x|l IL r IR]; intros F; cbn [leaves fsum] in *.
  - cbn. replace (x - (x + 0)) with 0 by ring. rewrite Rabs_R0. lra.
  - apply Forall_app in F. destruct F as (FL & FR). specialize (IL FL). specialize (IR FR). pose proof (leaves_pos l) as NL. pose proof (leaves_pos r) as NR.
    rewrite app_length, sum_app, sum_abs_app. set (a := fsum l) in *. set (b := fsum r) in *. set (A := sum (leaves l)) in *. set (B := sum (leaves r)) in *.
    pose proof (sum_abs_pos (leaves l)) as PA. pose proof (sum_abs_pos (leaves r)) as PB.
    assert (AA : Rabs A <= sum_abs (leaves l)). { unfold A. clear. induction (leaves l) as [|x t IH]; cbn; [rewrite Rabs_R0; lra|]. unfold sum_abs, sum in IH. eapply Rle_trans; [apply Rabs_triang|]. lra. }
    assert (BB : Rabs B <= sum_abs (leaves r)). { unfold B. clear. induction (leaves r) as [|x t IH]; cbn; [rewrite Rabs_R0; lra|]. unfold sum_abs, sum in IH. eapply Rle_trans; [apply Rabs_triang|]. lra. }
    set (SA := sum_abs (leaves l)) in *. set (SB := sum_abs (leaves r)) in *. set (na := length (leaves l)) in *. set (nb := length (leaves r)) in *.
    pose proof (add_err a b (double_fsum l FL) (double_fsum r FR)) as E. set (h := (na + nb - 2)%nat). assert (HH : (na + nb - 1 = S h)%nat) by (unfold h; lia). rewrite HH. cbn [pow].
    assert (PAh : (1 + U) ^ (na - 1) <= (1 + U) ^ h) by (apply pow_mono; unfold h; lia). assert (PBh : (1 + U) ^ (nb - 1) <= (1 + U) ^ h) by (apply pow_mono; unfold h; lia).
    set (p := (1 + U) ^ h) in *. pose proof (pow_ge1 h) as P1. fold p in P1.
    assert (IL2 : Rabs (a - A) <= (p - 1) * SA) by (eapply Rle_trans; [exact IL|]; apply Rmult_le_compat_r; lra).
    assert (IR2 : Rabs (b - B) <= (p - 1) * SB) by (eapply Rle_trans; [exact IR|]; apply Rmult_le_compat_r; lra).
    assert (AB : Rabs (a + b) <= p * SA + p * SB). { replace (a + b) with ((a - A) + A + ((b - B) + B)) by ring. eapply Rle_trans; [apply Rabs_triang|]. pose proof (Rabs_triang (a - A) A). pose proof (Rabs_triang (b - B) B). lra. }
    replace (fadd a b - (A + B)) with ((fadd a b - (a + b)) + ((a - A) + (b - B))) by ring. eapply Rle_trans; [apply Rabs_triang|]. pose proof (Rabs_triang (a - A) (b - B)) as T.
    assert (U * Rabs (a + b) <= U * (p * SA + p * SB)) by (apply Rmult_le_compat_l; [pose proof U_small; lra|exact AB]). lra.
Qed.
(* Whatever the order of the additions, the sum of n doubles is off by at most 2 (n-1) U times the sum of the absolute values. *)
Theorem float_sum_error l s : sums_to l s -> Forall double l -> INR (length l) * U <= 1 / 2 ->
  Rabs (s - sum l) <= 2 * (INR (length l - 1) * U) * sum_abs l.
Proof.
  intros (t & P & <-) F N. rewrite <- (sum_perm _ _ P), <- (sum_abs_perm _ _ P). rewrite <- (Permutation_length P) in *.
  eapply Rle_trans; [apply tree_error; apply (Permutation_Forall (Permutation_sym P)); exact F|]. apply Rmult_le_compat_r; [apply sum_abs_pos|]. apply pow_bound.
  eapply Rle_trans; [|exact N]. apply Rmult_le_compat_r; [pose proof U_small; lra|]. apply le_INR. lia.
Qed.
Print Assumptions float_sum_error.
(* Two orders of the same sum: what -ffast-math or a different block size of numpy can change. *)
Theorem float_sum_orders l s s' : sums_to l s -> sums_to l s' -> Forall double l -> INR (length l) * U <= 1 / 2 ->
  Rabs (s - s') <= 4 * (INR (length l - 1) * U) * sum_abs l.
Proof.
  intros A B F N. pose proof (float_sum_error l s A F N). pose proof (float_sum_error l s' B F N). replace (s - s') with ((s - sum l) - (s' - sum l)) by ring.
  eapply Rle_trans; [apply Rabs_triang|]. rewrite Rabs_Ropp. lra.
Qed.
Print Assumptions float_sum_orders.
(* A sum of numbers that are not negative is at least each of them, in every order and after every rounding. *)
Theorem float_sum_above l s x : sums_to l s -> Forall double l -> Forall (fun y => 0 <= y) l -> In x l -> x <= s.
Proof.
  intros (t & P & <-) F N I. apply (Permutation_in _ (Permutation_sym P)) in I. apply (Permutation_Forall (Permutation_sym P)) in F. apply (Permutation_Forall (Permutation_sym P)) in N. clear P l.
  assert (G : 0 <= fsum t /\ (forall y, In y (leaves t) -> y <= fsum t)); [|now apply G]. clear x I.
  induction t as [x|l IL r IR]; cbn [leaves fsum] in *.
  - split; [now inversion N|]. intros y [->|[]]. lra.
  - apply Forall_app in F. destruct F as (FL & FR). apply Forall_app in N. destruct N as (NL & NR). destruct (IL FL NL) as (L0 & LM). destruct (IR FR NR) as (R0 & RM).
    assert (ML : fsum l <= fadd (fsum l) (fsum r)). { rewrite <- (near_double (fsum l)) at 1 by now apply double_fsum. apply round_le; [apply FLT_exp_valid; reflexivity|apply valid_rnd_N|]. lra. }
    assert (MR : fsum r <= fadd (fsum l) (fsum r)). { rewrite <- (near_double (fsum r)) at 1 by now apply double_fsum. apply round_le; [apply FLT_exp_valid; reflexivity|apply valid_rnd_N|]. lra. }
    split; [lra|]. intros y I. apply in_app_or in I. destruct I as [I|I]; [pose proof (LM y I)|pose proof (RM y I)]; lra.
Qed.
Print Assumptions float_sum_above.

(* ---------------------------------------------------------------- the index of the closest energy *)
Lemma near_mono x y : x <= y -> near x <= near y.
Proof. intros L. apply round_le; [apply FLT_exp_valid; reflexivity|apply valid_rnd_N|exact L]. Qed.
Lemma near_opp x : near (- x) = - near x.
Proof. apply round_NE_opp. Qed.
Lemma near_abs x : Rabs (near x) = near (Rabs x).
Proof.
  unfold Rabs at 2. destruct (Rcase_abs x) as [L|L].
  - rewrite near_opp. rewrite <- Rabs_Ropp. apply Rabs_pos_eq. rewrite <- near_opp. apply near_pos. lra.
  - apply Rabs_pos_eq, near_pos. lra.
Qed.
Lemma dist_abs a e : f_dist a e = near (near (Rabs (a - e)) * near (Rabs (a - e))).
Proof. unfold f_dist, fmul, fsub. rewrite <- near_abs. f_equal. rewrite <- Rabs_mult. symmetry. apply Rabs_pos_eq. apply Rle_0_sqr. Qed.
Lemma dist_mono a b e : Rabs (a - e) <= Rabs (b - e) -> f_dist a e <= f_dist b e.
Proof. intros L. rewrite !dist_abs. apply near_mono in L. apply near_mono. pose proof (near_pos _ (Rabs_pos (a - e))). apply Rmult_le_compat; assumption. Qed.
Lemma dist_bounds a e : double a -> double e ->
  (1 - 4 * U) * (Rabs (a - e) * Rabs (a - e)) - eta <= f_dist a e <= (1 + 4 * U) * (Rabs (a - e) * Rabs (a - e)) + eta.
Proof.
  intros A E. rewrite dist_abs. set (d := Rabs (a - e)). assert (DP : 0 <= d) by apply Rabs_pos.
  assert (S1 : Rabs (near d - d) <= U * d). { pose proof (sub_err a e A E) as Q. unfold fsub in Q. fold d in Q. unfold d at 1 2. rewrite <- near_abs. eapply Rle_trans; [apply Rabs_triang_inv2|exact Q]. }
  set (D := near d) in *. pose proof U_small as UP. apply Rabs_le_inv in S1. pose proof (near_err (D * D)) as S2. rewrite (Rabs_pos_eq (D * D)) in S2 by apply Rle_0_sqr. apply Rabs_le_inv in S2.
  assert (D0 : 0 <= D) by (apply near_pos; exact DP). assert (LO : (1 - U) * (1 - U) * (d * d) <= D * D). { replace ((1 - U) * (1 - U) * (d * d)) with (((1 - U) * d) * ((1 - U) * d)) by ring. apply Rmult_le_compat; nra. }
  assert (HI : D * D <= (1 + U) * (1 + U) * (d * d)). { replace ((1 + U) * (1 + U) * (d * d)) with (((1 + U) * d) * ((1 + U) * d)) by ring. apply Rmult_le_compat; nra. }
  assert (Q : 0 <= d * d) by nra. set (q := d * d) in *. set (w := D * D) in *.
  assert (UU : 0 <= U * U) by nra. assert (U3 : U * U <= U / 100) by nra.
  assert (L1 : (1 - 4 * U) * q <= (1 - U) * ((1 - U) * (1 - U) * q)). { assert (1 - 4 * U <= (1 - U) * ((1 - U) * (1 - U))) by nra. rewrite <- Rmult_assoc. apply Rmult_le_compat_r; lra. }
  assert (L2 : (1 + U) * ((1 + U) * (1 + U) * q) <= (1 + 4 * U) * q). { assert ((1 + U) * ((1 + U) * (1 + U)) <= 1 + 4 * U) by nra. rewrite <- (Rmult_assoc (1 + U)). apply Rmult_le_compat_r; lra. }
  assert (L3 : (1 - U) * ((1 - U) * (1 - U) * q) <= (1 - U) * w) by (apply Rmult_le_compat_l; lra).
  assert (L4 : (1 + U) * w <= (1 + U) * ((1 + U) * (1 + U) * q)) by (apply Rmult_le_compat_l; lra). lra.
Qed.
Lemma index_from_spec : forall l x i e, exists r, f_index_from i (f_dist x e) l e = (i + r)%nat /\ (r < length (x :: l))%nat /\
  (forall k, (S k <= r)%nat -> f_dist (nth (S k) (x :: l) 0) e <= f_dist (nth k (x :: l) 0) e) /\
  ((S r < length (x :: l))%nat -> f_dist (nth r (x :: l) 0) e < f_dist (nth (S r) (x :: l) 0) e).
Proof.
  induction l as [|a l IH]; intros x i e; cbn [f_index_from].
  - exists 0%nat. cbn. repeat split; try lia. 
  - destruct (Rlt_dec (f_dist x e) (f_dist a e)) as [L|L].
    + exists 0%nat. split; [lia|]. split; [cbn; lia|]. split; [intros k K; lia|]. intros _. exact L.
    + destruct (IH a (S i) e) as (r & E & B & M & Z). exists (S r). split; [rewrite E; lia|]. split; [cbn in *; lia|]. split.
      * intros [|k] K; [cbn; lra|]. cbn [nth]. apply (M k). lia.
      * intros K. cbn [nth]. apply Z. cbn in *. lia.
Qed.
Lemma index_spec E e : E <> [] -> let r := f_index E e in (r < length E)%nat /\
  (forall k, (S k <= r)%nat -> f_dist (nth (S k) E 0) e <= f_dist (nth k E 0) e) /\
  ((S r < length E)%nat -> f_dist (nth r E 0) e < f_dist (nth (S r) E 0) e).
Proof. intros N. destruct E as [|x l]; [contradiction|]. unfold f_index. destruct (index_from_spec l x 0 e) as (r & -> & H). exact H. Qed.
Definition ascending (E : list R) : Prop := forall i j, (i <= j < length E)%nat -> nth i E 0 <= nth j E 0.
Lemma index_down E e k r : (forall k, (S k <= r)%nat -> f_dist (nth (S k) E 0) e <= f_dist (nth k E 0) e) -> (k <= r)%nat -> f_dist (nth r E 0) e <= f_dist (nth k E 0) e.
Proof.
  intros M K. induction r as [|r IH]; [replace k with 0%nat by lia; lra|]. destruct (Nat.eq_dec k (S r)) as [->|N]; [lra|].
  eapply Rle_trans; [apply M; lia|]. apply IH; [intros j J; apply M; lia|lia].
Qed.
(* The index found in double precision belongs to an energy that is closest, up to rounding. *)
Theorem float_index_closest E e j : ascending E -> Forall double E -> double e -> (j < length E)%nat ->
  (f_index E e < length E)%nat /\ Rabs (nth (f_index E e) E 0 - e) <= (1 + 8 * U) * Rabs (nth j E 0 - e) + bpow radix2 (-500).
Proof.
  intros AS F De J. assert (N : E <> []) by (destruct E; [cbn in J; lia|discriminate]). destruct (index_spec E e N) as (R1 & R2 & R3). set (r := f_index E e) in *. split; [exact R1|].
  pose proof (bpow_gt_0 radix2 (-500)) as BP. pose proof U_small as UP. destruct (Nat.le_gt_cases j r) as [L|L].
  - pose proof (index_down E e j r R2 L) as Q. assert (DN : forall k, (k < length E)%nat -> double (nth k E 0)) by (intros k K; apply (proj1 (Forall_forall _ _) F); now apply nth_In).
    destruct (dist_bounds _ _ (DN r R1) De) as (A & _). destruct (dist_bounds _ _ (DN j J) De) as (_ & B). set (x := Rabs (nth r E 0 - e)) in *. set (y := Rabs (nth j E 0 - e)) in *.
    assert (X : 0 <= x) by apply Rabs_pos. assert (Y : 0 <= y) by apply Rabs_pos. set (b := bpow radix2 (-500)) in *.
    assert (EB : eta <= b * b / 8). { unfold eta, b. rewrite <- bpow_plus. change (-500 + -500)%Z with (-1000)%Z. replace (bpow radix2 (-1000)) with (bpow radix2 (-1074) * bpow radix2 74) by (rewrite <- bpow_plus; reflexivity). assert (8 <= bpow radix2 74) by (change 8 with (bpow radix2 3); apply bpow_le; lia). pose proof (bpow_gt_0 radix2 (-1074)). nra. }
    destruct (Rle_dec x ((1 + 8 * U) * y + b)) as [G|G]; [exact G|exfalso]. apply Rnot_le_lt in G. assert (XX : ((1 + 8 * U) * y + b) * ((1 + 8 * U) * y + b) <= x * x) by (apply Rmult_le_compat; nra).
    assert (H1 : (1 - 4 * U) * (((1 + 8 * U) * y + b) * ((1 + 8 * U) * y + b)) <= (1 - 4 * U) * (x * x)) by (apply Rmult_le_compat_l; lra).
    assert (H2 : (1 - 4 * U) * (((1 + 8 * U) * (1 + 8 * U)) * (y * y) + b * b) <= (1 - 4 * U) * (((1 + 8 * U) * y + b) * ((1 + 8 * U) * y + b))). { apply Rmult_le_compat_l; [lra|]. assert (0 <= (1 + 8 * U) * y * b) by (apply Rmult_le_pos; nra). lra. }
    assert (H3 : 1 + 4 * U <= (1 - 4 * U) * ((1 + 8 * U) * (1 + 8 * U))) by nra. assert (H4 : (1 + 4 * U) * (y * y) <= (1 - 4 * U) * ((1 + 8 * U) * (1 + 8 * U)) * (y * y)) by (apply Rmult_le_compat_r; nra).
    assert (H5 : b * b / 2 <= (1 - 4 * U) * (b * b)) by nra. assert (0 < b * b) by nra. lra.
  - assert (S1 : (S r < length E)%nat) by lia. specialize (R3 S1). pose proof (AS r (S r) ltac:(lia)) as A1. pose proof (AS (S r) j ltac:(lia)) as A2.
    assert (GT : Rabs (nth r E 0 - e) < Rabs (nth (S r) E 0 - e)). { destruct (Rlt_le_dec (Rabs (nth r E 0 - e)) (Rabs (nth (S r) E 0 - e))) as [H|H]; [exact H|]. apply dist_mono in H. lra. }
    assert (PE : e < nth (S r) E 0). { destruct (Rlt_le_dec e (nth (S r) E 0)) as [H|H]; [exact H|]. exfalso. rewrite (Rabs_left1 (nth r E 0 - e)), (Rabs_left1 (nth (S r) E 0 - e)) in GT; lra. }
    rewrite (Rabs_pos_eq (nth (S r) E 0 - e)) in GT by lra. rewrite (Rabs_pos_eq (nth j E 0 - e)) by lra. assert (0 <= U * (nth j E 0 - e)) by (apply Rmult_le_pos; lra). lra.
Qed.
Print Assumptions float_index_closest.

(* If the energy lies within a quarter of the spacing from a grid energy, that one is found exactly. *)
Definition spaced (E : list R) (w : R) : Prop := forall i, (S i < length E)%nat -> nth i E 0 + w <= nth (S i) E 0.
Lemma spaced_far E w i j : 0 < w -> spaced E w -> (i < j < length E)%nat -> nth i E 0 + w <= nth j E 0.
Proof.
  intros W SP (L & J). induction j as [|j IH]; [lia|]. pose proof (SP j J) as Q. destruct (Nat.eq_dec i j) as [->|N]; [exact Q|]. pose proof (IH ltac:(lia) ltac:(lia)). lra.
Qed.
Theorem float_index_exact E e k w : spaced E w -> bpow radix2 (-400) <= w -> Forall double E -> double e -> (k < length E)%nat ->
  Rabs (nth k E 0 - e) <= w / 3 -> f_index E e = k.
Proof.
  intros SP W F De K C. pose proof (bpow_gt_0 radix2 (-400)) as BP. assert (WP : 0 < w) by lra. assert (N : E <> []) by (destruct E; [cbn in K; lia|discriminate]).
  assert (AS : ascending E). { intros i j (L & J). destruct (Nat.eq_dec i j) as [->|NE]; [lra|]. pose proof (spaced_far E w i j WP SP ltac:(lia)). lra. }
  destruct (float_index_closest E e k AS F De K) as (R1 & Q). set (r := f_index E e) in *. destruct (Nat.eq_dec r k) as [H|H]; [exact H|exfalso].
  assert (FAR : w <= Rabs (nth r E 0 - nth k E 0)). { destruct (Nat.lt_ge_cases r k) as [L|L]; [pose proof (spaced_far E w r k WP SP ltac:(lia)); rewrite Rabs_left1; lra|pose proof (spaced_far E w k r WP SP ltac:(lia)); rewrite Rabs_pos_eq; lra]. }
  assert (FAR2 : 2 / 3 * w <= Rabs (nth r E 0 - e)). { pose proof (Rabs_triang (nth r E 0 - e) (e - nth k E 0)) as T. replace (nth r E 0 - e + (e - nth k E 0)) with (nth r E 0 - nth k E 0) in T by ring. rewrite (Rabs_minus_sym e) in T. lra. }
  pose proof U_small as UP. assert (B5 : bpow radix2 (-500) <= w / 100). { assert (bpow radix2 (-500) <= bpow radix2 (-400) * bpow radix2 (-10)) by (rewrite <- bpow_plus; apply bpow_le; lia). assert (bpow radix2 (-10) <= / 100) by (cbn; lra). assert (bpow radix2 (-400) * bpow radix2 (-10) <= w * / 100) by (apply Rmult_le_compat; try lra; apply bpow_ge_0). lra. }
  assert ((1 + 8 * U) * Rabs (nth k E 0 - e) <= (1 + 8 * U) * (w / 3)) by (apply Rmult_le_compat_l; lra). assert (U * w <= / 1000000 * w) by (apply Rmult_le_compat_r; lra). lra.
Qed.
Print Assumptions float_index_exact.

(* ---------------------------------------------------------------- the row *)
(* the diagonal: largest gamma energy of the row of excitation energy x *)
Definition limit (x r : R) (Eg : list R) : R := x + r + (nth 1 Eg 0 - nth 0 Eg 0) / 2.
(* unnormalised product in column j: level density at grid energy k j, times transmission; zero above the diagonal *)
Definition weight (nld T Eg : list R) (x r : R) (k : nat -> nat) (j : nat) : R :=
  if Rle_dec (nth j Eg 0) (limit x r Eg) then nth (k j) nld 0 * nth j T 0 else 0.
(* M bounds the energies, w is the spacing of the grid of the level density; every final energy is within a
   quarter of the spacing of grid energy k j; no gamma energy is within rounding of the diagonal *)
Definition grid_ok (E Eg : list R) (x r : R) (k : nat -> nat) (M w : R) : Prop :=
  Forall double E /\ Forall double Eg /\ double x /\ double r /\ ascending Eg /\ (2 <= length Eg)%nat /\ spaced E w /\
  bpow radix2 (-400) <= w /\ 64 * U * M <= w /\ w <= M /\ Rabs x <= M /\ Rabs r <= M /\
  (forall j, (j < length Eg)%nat -> Rabs (nth j Eg 0) <= M) /\
  (forall j, (j < length Eg)%nat -> nth j Eg 0 <= limit x r Eg -> (k j < length E)%nat /\ Rabs (nth (k j) E 0 - (x - nth j Eg 0)) <= w / 4) /\
  (forall j, (j < length Eg)%nat -> 32 * U * M < Rabs (nth j Eg 0 - limit x r Eg)).
Lemma row_length nld T E x emax Eg : forall j, length (f_row_from nld T E x emax Eg j) = length Eg.
Proof. induction Eg as [|g t IH]; intros j; [reflexivity|]. cbn [f_row_from]. destruct (Rle_dec g emax); cbn; [now rewrite IH|now rewrite map_length]. Qed.
Lemma row_cells nld T E x emax Eg : ascending Eg -> forall j j0, (j < length Eg)%nat ->
  nth j (f_row_from nld T E x emax Eg j0) 0 = if Rle_dec (nth j Eg 0) emax then f_cell nld T E x (nth j Eg 0) (j0 + j) else 0.
Proof.
  induction Eg as [|g t IH]; intros AS j j0 J; [cbn in J; lia|]. cbn [f_row_from]. assert (AT : ascending t) by (intros a b (A & B); apply (AS (S a) (S b)); cbn; lia).
  destruct (Rle_dec g emax) as [L|L].
  - destruct j as [|j]; cbn [nth].
    + destruct (Rle_dec g emax); [now rewrite Nat.add_0_r|contradiction].
    + rewrite IH by (assumption || (cbn in J; lia)). replace (S j0 + j)%nat with (j0 + S j)%nat by lia. reflexivity.
  - assert (Z : nth j (map (fun _ : R => 0) (g :: t)) 0 = 0). { destruct (in_dec Req_EM_T (nth j (map (fun _ : R => 0) (g :: t)) 0) (map (fun _ : R => 0) (g :: t))) as [I|I]; [apply in_map_iff in I; destruct I as (y & <- & _); reflexivity|exfalso; apply I; apply nth_In; rewrite map_length; exact J]. }
    rewrite Z. destruct (Rle_dec (nth j (g :: t) 0) emax) as [B|B]; [|reflexivity]. exfalso. apply L. eapply Rle_trans; [|exact B]. apply (AS 0%nat j). lia.
Qed.
Lemma halfbin_err Eg M : Forall double Eg -> (2 <= length Eg)%nat -> (forall j, (j < length Eg)%nat -> Rabs (nth j Eg 0) <= M) ->
  Rabs (f_halfbin Eg - (nth 1 Eg 0 - nth 0 Eg 0) / 2) <= 3 * U * M + eta /\ Rabs (f_halfbin Eg) <= 2 * M + eta.
Proof.
  intros F L B. assert (D : forall k, (k < length Eg)%nat -> double (nth k Eg 0)) by (intros k K; apply (proj1 (Forall_forall _ _) F); now apply nth_In).
  pose proof (sub_err _ _ (D 1%nat L) (D 0%nat ltac:(lia))) as E1. unfold f_halfbin. set (d := nth 1 Eg 0 - nth 0 Eg 0) in *. set (q := fsub (nth 1 Eg 0) (nth 0 Eg 0)) in *.
  pose proof (B 1%nat L) as B1. pose proof (B 0%nat ltac:(lia)) as B0. assert (DM : Rabs d <= 2 * M). { unfold d, Rminus. eapply Rle_trans; [apply Rabs_triang|]. rewrite Rabs_Ropp. lra. }
  pose proof (near_err (q / 2)) as E2. unfold fdiv. pose proof U_small as UP. pose proof (Rabs_pos d) as PD.
  assert (UD : U * Rabs d <= U * (2 * M)) by (apply Rmult_le_compat_l; lra). apply Rabs_le_inv in E1.
  assert (QM : Rabs (q / 2) <= 11 / 10 * M). { apply Rabs_le. apply Rabs_le_inv in DM. assert (U * M <= / 100 * M) by (apply Rmult_le_compat_r; lra). lra. }
  assert (UQ : U * Rabs (q / 2) <= U * (11 / 10 * M)) by (apply Rmult_le_compat_l; lra). apply Rabs_le_inv in E2. apply Rabs_le_inv in QM. assert (0 <= U * M) by (apply Rmult_le_pos; lra). assert (U * M <= / 100 * M) by (apply Rmult_le_compat_r; lra). pose proof eta_pos.
  split; apply Rabs_le; lra.
Qed.
Lemma eta_small w : bpow radix2 (-400) <= w -> eta <= U * U * w.
Proof.
  intros W. unfold eta. assert (UU : U = bpow radix2 (-53)) by (unfold U; cbn; lra). rewrite UU, <- bpow_plus. assert (bpow radix2 (-1074) <= bpow radix2 (-106) * bpow radix2 (-400)) by (rewrite <- bpow_plus; apply bpow_le; lia).
  assert (bpow radix2 (-106) * bpow radix2 (-400) <= bpow radix2 (-106) * w) by (apply Rmult_le_compat_l; [apply bpow_ge_0|exact W]). pose proof (bpow_gt_0 radix2 (-1074)). change (-53 + -53)%Z with (-106)%Z. lra.
Qed.
Theorem float_row_exact nld T E Eg x r k M w emax j : grid_ok E Eg x r k M w -> sums_to [x; r; f_halfbin Eg] emax -> (j < length Eg)%nat ->
  nth j (f_row nld T E x emax Eg) 0 = near (weight nld T Eg x r k j).
Proof.
  intros (FE & FG & Dx & Dr & AS & L2 & SP & W & UM & WM & XM & RM & GM & GRID & CUT) SE J. unfold f_row. rewrite row_cells by assumption. pose proof U_small as UP. pose proof (bpow_gt_0 radix2 (-400)) as BP. assert (MP : 0 < M) by lra.
  destruct (halfbin_err Eg M FG L2 GM) as (HB & HM). pose proof (eta_small w W) as ET. pose proof eta_pos as EP. assert (UUw : U * U * w <= U * M / 1000). { assert (U * w <= U * M) by (apply Rmult_le_compat_l; lra). assert (U * (U * w) <= / 1000 * (U * w)) by (apply Rmult_le_compat_r; [apply Rmult_le_pos; lra|lra]). lra. }
  assert (EM : Rabs (emax - limit x r Eg) <= 31 * U * M).
  { assert (FD : Forall double [x; r; f_halfbin Eg]) by (repeat apply Forall_cons; try assumption; [apply double_near|apply Forall_nil]).
    pose proof (float_sum_error _ _ SE FD ltac:(cbn; lra)) as Q. replace (INR (length [x; r; f_halfbin Eg] - 1)) with 2 in Q by (cbn; ring). unfold sum_abs, sum in Q. cbn [map fold_right] in Q. set (h := f_halfbin Eg) in *.
    assert (S : Rabs x + (Rabs r + (Rabs h + 0)) <= 41 / 10 * M). { assert (U * M <= M / 1000) by (assert (U * M <= / 1000 * M) by (apply Rmult_le_compat_r; lra); lra). lra. }
    assert (Q2 : 2 * (2 * U) * (Rabs x + (Rabs r + (Rabs h + 0))) <= 2 * (2 * U) * (41 / 10 * M)) by (apply Rmult_le_compat_l; lra).
    unfold limit. set (hb := (nth 1 Eg 0 - nth 0 Eg 0) / 2) in *. apply Rabs_le_inv in Q. apply Rabs_le_inv in HB. assert (0 <= U * M) by (apply Rmult_le_pos; lra). apply Rabs_le. lra. }
  assert (UMP : 0 < U * M) by (apply Rmult_lt_0_compat; lra). specialize (CUT j J). unfold weight. apply Rabs_le_inv in EM.
  assert (DEC : nth j Eg 0 <= emax <-> nth j Eg 0 <= limit x r Eg). { unfold Rabs in CUT. destruct (Rcase_abs (nth j Eg 0 - limit x r Eg)); split; intros; lra. }
  destruct (Rle_dec (nth j Eg 0) (limit x r Eg)) as [A|A]; destruct (Rle_dec (nth j Eg 0) emax) as [B|B]; try (exfalso; tauto).
  2:{ symmetry. apply near_0. }
  destruct (GRID j J A) as (K & C). unfold f_cell, fmul. cbn [Nat.add]. assert (DG : double (nth j Eg 0)) by (apply (proj1 (Forall_forall _ _) FG); now apply nth_In).
  pose proof (sub_err x (nth j Eg 0) Dx DG) as E1. specialize (GM j J). assert (XG : Rabs (x - nth j Eg 0) <= 2 * M). { unfold Rminus. eapply Rle_trans; [apply Rabs_triang|]. rewrite Rabs_Ropp. lra. }
  assert (U * Rabs (x - nth j Eg 0) <= U * (2 * M)) by (apply Rmult_le_compat_l; lra).
  rewrite (float_index_exact E (fsub x (nth j Eg 0)) (k j) w); [reflexivity|exact SP|exact W|exact FE|apply double_near|exact K|].
  apply Rabs_le_inv in E1. apply Rabs_le_inv in C. apply Rabs_le. lra.
Qed.
Print Assumptions float_row_exact.

(* ---------------------------------------------------------------- the normalised row *)
Lemma sum_nth l : sum l = rsum (fun j => nth j l 0) (seq 0 (length l)).
Proof.
  induction l as [|x l IH]; [reflexivity|]. cbn [length seq rsum nth]. unfold sum in *. cbn [fold_right]. rewrite IH, <- seq_shift. f_equal. generalize (seq 0 (length l)). induction l0 as [|a t IT]; [reflexivity|]. cbn. now rewrite IT.
Qed.
Lemma rsum_nonneg {A} (f : A -> R) l : (forall x, In x l -> 0 <= f x) -> 0 <= rsum f l.
Proof. induction l as [|x l IH]; intros H; cbn; [lra|]. pose proof (H x (or_introl eq_refl)). pose proof (IH (fun y Y => H y (or_intror Y))). lra. Qed.
Section Normalised.
Variables (nld T E Eg : list R) (x r M w emax s : R) (k : nat -> nat).
Hypothesis OK : grid_ok E Eg x r k M w.
Hypothesis EM : sums_to [x; r; f_halfbin Eg] emax.
Let n := length Eg.
Let wt := weight nld T Eg x r k.
Let row := f_row nld T E x emax Eg.
Hypothesis SUM : sums_to row s.
(* the weights are not negative and do not underflow *)
Hypothesis WT : forall j, (j < n)%nat -> wt j = 0 \/ bpow radix2 (-1022) <= wt j.
Hypothesis SOME : exists j, (j < n)%nat /\ wt j <> 0.
Hypothesis SIZE : INR n * U <= 1 / 1000.
Let tot := rsum wt (seq 0 n).
Lemma wt_pos j : (j < n)%nat -> 0 <= wt j.
Proof. intros J. pose proof (bpow_gt_0 radix2 (-1022)). destruct (WT j J); lra. Qed.
Lemma row_err j : (j < n)%nat -> Rabs (nth j row 0 - wt j) <= U * wt j.
Proof.
  intros J. unfold row. rewrite (float_row_exact nld T E Eg x r k M w emax j OK EM J). fold wt. destruct (WT j J) as [Z|L].
  - rewrite Z, near_0. replace (0 - 0) with 0 by ring. rewrite Rabs_R0. lra.
  - rewrite <- (Rabs_pos_eq (wt j)) at 3 by now apply wt_pos. apply near_big. rewrite Rabs_pos_eq by now apply wt_pos. exact L.
Qed.
Lemma row_len : length row = n.
Proof. apply row_length. Qed.
Lemma row_double : Forall double row.
Proof.
  apply Forall_forall. intros y Y. apply (In_nth _ _ 0) in Y. destruct Y as (j & J & <-). rewrite row_len in J. unfold row. rewrite (float_row_exact nld T E Eg x r k M w emax j OK EM J). apply double_near.
Qed.
Lemma row_pos : Forall (fun y => 0 <= y) row.
Proof.
  apply Forall_forall. intros y Y. apply (In_nth _ _ 0) in Y. destruct Y as (j & J & <-). rewrite row_len in J. unfold row. rewrite (float_row_exact nld T E Eg x r k M w emax j OK EM J). apply near_pos. now apply wt_pos.
Qed.
Lemma tot_pos : 0 < tot.
Proof.
  destruct SOME as (j & J & NZ). assert (P : 0 < wt j) by (pose proof (wt_pos j J); lra). unfold tot. assert (G : forall l, (forall y, In y l -> (y < n)%nat) -> In j l -> 0 < rsum wt l).
  { induction l as [|a l IH]; intros A I; [contradiction|]. cbn. assert (Q : 0 <= rsum wt l). { apply rsum_nonneg. intros y Y. apply wt_pos, A. now right. } pose proof (wt_pos a (A a (or_introl eq_refl))). destruct I as [->|I]; [lra|]. pose proof (IH (fun y Y => A y (or_intror Y)) I). lra. }
  apply G; [intros y Y; apply in_seq in Y; lia|apply in_seq; lia].
Qed.
Lemma n_pos : 1 <= INR n.
Proof. destruct OK as (_ & _ & _ & _ & _ & L & _). change 1 with (INR 1). apply le_INR. fold n in L. lia. Qed.
Lemma s_err : Rabs (s - tot) <= 2 * (INR n * U) * tot.
Proof.
  pose proof U_small as UP. pose proof tot_pos as TP. pose proof n_pos as NP. pose proof (float_sum_error row s SUM row_double) as Q. rewrite row_len in Q. specialize (Q ltac:(lra)). rewrite (sum_abs_nonneg row row_pos) in Q.
  assert (SR : Rabs (sum row - tot) <= U * tot). { rewrite sum_nth, row_len. unfold tot. eapply Rle_trans; [apply (rsum_diff _ _ (fun j => U * wt j))|rewrite rsum_scal; lra]. intros j J. apply in_seq in J. apply row_err. lia. }
  assert (N1 : INR (n - 1) = INR n - 1). { rewrite minus_INR; [reflexivity|]. destruct OK as (_ & _ & _ & _ & _ & L & _). fold n in L. lia. }
  rewrite N1 in Q. apply Rabs_le_inv in SR. assert (SRU : sum row <= (1 + U) * tot) by lra.
  assert (Q2 : 2 * ((INR n - 1) * U) * sum row <= 2 * ((INR n - 1) * U) * ((1 + U) * tot)) by (apply Rmult_le_compat_l; [nra|exact SRU]).
  apply Rabs_le_inv in Q. assert (H : 2 * ((INR n - 1) * U) * ((1 + U) * tot) + U * tot <= 2 * (INR n * U) * tot). { assert ((INR n - 1) * U * U <= 1 / 1000 * U) by nra. assert (2 * ((INR n - 1) * U) * (1 + U) + U <= 2 * (INR n * U)) by nra. apply Rmult_le_compat_r with (r := tot) in H0; [lra|lra]. } apply Rabs_le. lra.
Qed.
Lemma s_pos : 0 < s.
Proof. pose proof s_err as Q. apply Rabs_le_inv in Q. pose proof tot_pos. assert (2 * (INR n * U) * tot <= 2 * (1 / 1000) * tot) by (apply Rmult_le_compat_r; lra). lra. Qed.
(* Every probability is accurate to a relative error of 4 (n+1) U, lies between 0 and 1, and the row sums to one. *)
Theorem float_product_accurate j : (j < n)%nat ->
  Rabs (nth j (f_normalize row s) 0 - wt j / tot) <= 4 * (INR n + 1) * U * (wt j / tot) + eta /\ 0 <= nth j (f_normalize row s) 0 <= 1.
Proof.
  intros J. assert (NTH : nth j (f_normalize row s) 0 = near (nth j row 0 / s)). { unfold f_normalize. rewrite (nth_indep _ 0 (fdiv 0 s)) by now rewrite map_length, row_len. now rewrite (map_nth (fun y => fdiv y s)). }
  rewrite NTH. pose proof U_small as UP. pose proof tot_pos as TP. pose proof s_pos as SPo. pose proof s_err as SE. pose proof (row_err j J) as RE. pose proof (wt_pos j J) as WP. pose proof n_pos as NP.
  assert (RIN : In (nth j row 0) row) by (apply nth_In; rewrite row_len; exact J). pose proof (proj1 (Forall_forall _ _) row_pos _ RIN) as R0. cbn in R0.
  assert (RS : nth j row 0 <= s) by (apply (float_sum_above row s); [exact SUM|exact row_double|exact row_pos|exact RIN]). set (a := nth j row 0) in *. split.
  - set (P := wt j / tot). assert (PP : 0 <= P) by (apply Rmult_le_pos; [exact WP|apply Rlt_le, Rinv_0_lt_compat; exact TP]). assert (WE : wt j = P * tot) by (unfold P; field; lra).
    set (N := INR n * U) in *. assert (N0 : U <= N) by (unfold N; nra). apply Rabs_le_inv in RE. apply Rabs_le_inv in SE. rewrite WE in RE.
    assert (QH : a / s <= P * (1 + (2 * N + U) * (101 / 100))). { apply Rmult_le_reg_r with s; [exact SPo|]. replace (a / s * s) with a by (field; lra). assert (B : (1 + U) <= (1 + (2 * N + U) * (101 / 100)) * (1 - 2 * N)) by nra. assert (P * tot * (1 + U) <= P * tot * ((1 + (2 * N + U) * (101 / 100)) * (1 - 2 * N))) by (apply Rmult_le_compat_l; [apply Rmult_le_pos; lra|exact B]). assert (P * (1 + (2 * N + U) * (101 / 100)) * ((1 - 2 * N) * tot) <= P * (1 + (2 * N + U) * (101 / 100)) * s) by (apply Rmult_le_compat_l; [apply Rmult_le_pos; lra|lra]). lra. }
    assert (QL : P * (1 - (2 * N + U)) <= a / s). { apply Rmult_le_reg_r with s; [exact SPo|]. replace (a / s * s) with a by (field; lra). assert (B : (1 - (2 * N + U)) * (1 + 2 * N) <= 1 - U) by nra. assert (P * tot * ((1 - (2 * N + U)) * (1 + 2 * N)) <= P * tot * (1 - U)) by (apply Rmult_le_compat_l; [apply Rmult_le_pos; lra|exact B]). assert (P * (1 - (2 * N + U)) * s <= P * (1 - (2 * N + U)) * ((1 + 2 * N) * tot)) by (apply Rmult_le_compat_l; [apply Rmult_le_pos; lra|lra]). lra. }
    pose proof (near_err (a / s)) as NE. assert (Q0 : 0 <= a / s) by (apply Rmult_le_pos; [exact R0|apply Rlt_le, Rinv_0_lt_compat; exact SPo]). rewrite (Rabs_pos_eq (a / s)) in NE by exact Q0. apply Rabs_le_inv in NE.
    assert (B2 : (2 * N + U) * (101 / 100) <= 1). { lra. } assert (Q2 : a / s <= P * 2) by (eapply Rle_trans; [exact QH|]; apply Rmult_le_compat_l; lra). assert (UQ : U * (a / s) <= U * (P * 2)) by (apply Rmult_le_compat_l; lra).
    assert (NPp : N * P + U * P >= 0) by nra. assert (0 <= N * P) by nra. assert (0 <= U * P) by nra. unfold N in *. apply Rabs_le. lra.
  - split; [apply near_pos; apply Rmult_le_pos; [exact R0|apply Rlt_le, Rinv_0_lt_compat; exact SPo]|]. assert (near 1 = 1). { apply near_double. unfold double. change 1 with (bpow radix2 0). apply generic_format_bpow. cbv. discriminate. }
    rewrite <- H. apply near_mono. apply Rmult_le_reg_r with s; [exact SPo|]. unfold Rdiv. rewrite Rmult_assoc, Rinv_l by lra. lra.
Qed.
Theorem float_product_sum : Rabs (sum (f_normalize row s) - 1) <= 4 * (INR n + 1) * U + INR n * eta.
Proof.
  pose proof tot_pos as TP. assert (L : length (f_normalize row s) = n) by (unfold f_normalize; now rewrite map_length, row_len). rewrite sum_nth, L.
  assert (ONE : rsum (fun j => / tot * wt j) (seq 0 n) = 1) by (rewrite rsum_scal; fold tot; field; lra). rewrite <- ONE at 1. eapply Rle_trans; [apply (rsum_diff _ _ (fun j => 4 * (INR n + 1) * U * (/ tot * wt j) + eta))|].
  - intros j J. apply in_seq in J. replace (/ tot * wt j) with (wt j / tot) by (unfold Rdiv; ring). apply float_product_accurate. lia.
  - rewrite (rsum_lin (fun j => / tot * wt j)), ONE, seq_length. lra.
Qed.
End Normalised.
Print Assumptions float_product_accurate.
Print Assumptions float_product_sum.

(* ---------------------------------------------------------------- chi square *)
(* x' is x >= 0 up to a relative error of c U *)
Definition rel (c x' x : R) : Prop := 0 <= x /\ (1 - c * U) * x <= x' <= (1 + c * U) * x.
Lemma rel_near c c' x' x : rel c x' x -> 0 <= c <= 50 -> c + 11 / 10 <= c' -> x = 0 \/ bpow radix2 (-1000) <= x -> rel c' (near x') x.
Proof.
  intros (P & L & H) C C' N. pose proof U_small as UP. assert (CU : 0 <= c * U <= / 1000000) by nra. destruct N as [->|N].
  - assert (x' = 0) as -> by lra. rewrite near_0. split; [lra|]. lra.
  - assert (BG : bpow radix2 (-1022) <= Rabs x'). { assert (bpow radix2 (-1022) <= bpow radix2 (-1000) / 2). { replace (bpow radix2 (-1000) / 2) with (bpow radix2 (-1001)) by (replace (-1000)%Z with (-1001 + 1)%Z by lia; rewrite bpow_plus; change (bpow radix2 1) with 2; lra). apply bpow_le. lia. } assert (x / 2 <= (1 - c * U) * x) by nra. rewrite Rabs_pos_eq; lra. }
    pose proof (near_big x' BG) as Q. assert (X0 : 0 <= x') by (assert (0 <= (1 - c * U) * x) by (apply Rmult_le_pos; lra); lra). rewrite (Rabs_pos_eq x') in Q by exact X0. apply Rabs_le_inv in Q. split; [exact P|]. 
    assert (A1 : (1 - c' * U) <= (1 - U) * (1 - c * U)) by nra. assert (A2 : (1 + U) * (1 + c * U) <= 1 + c' * U) by nra.
    assert ((1 - c' * U) * x <= (1 - U) * (1 - c * U) * x) by (apply Rmult_le_compat_r; lra). assert ((1 + U) * (1 + c * U) * x <= (1 + c' * U) * x) by (apply Rmult_le_compat_r; lra).
    assert ((1 - U) * ((1 - c * U) * x) <= (1 - U) * x') by (apply Rmult_le_compat_l; lra). assert ((1 + U) * x' <= (1 + U) * ((1 + c * U) * x)) by (apply Rmult_le_compat_l; lra). lra.
Qed.
Lemma rel_mul a b c x' x y' y : rel a x' x -> rel b y' y -> 0 <= a <= 50 -> 0 <= b <= 50 -> a + b + / 10 <= c -> rel c (x' * y') (x * y).
Proof.
  intros (P & L & H) (P2 & L2 & H2) A B C. pose proof U_small as UP. assert (AU : 0 <= a * U <= / 1000000) by nra. assert (BU : 0 <= b * U <= / 1000000) by nra.
  assert (ABU : (a * U) * (b * U) <= U / 100) by nra. assert (XY : 0 <= x * y) by (apply Rmult_le_pos; assumption). assert (CU : (a + b + / 10) * U <= c * U) by (apply Rmult_le_compat_r; lra).
  assert (L0 : 0 <= (1 - a * U) * x) by (apply Rmult_le_pos; lra). assert (L20 : 0 <= (1 - b * U) * y) by (apply Rmult_le_pos; lra). split; [exact XY|]. split.
  - eapply Rle_trans; [|apply Rmult_le_compat; [exact L0|exact L20|exact L|exact L2]]. replace ((1 - a * U) * x * ((1 - b * U) * y)) with ((1 - a * U) * (1 - b * U) * (x * y)) by ring. apply Rmult_le_compat_r; [exact XY|]. assert (0 <= (a * U) * (b * U)) by (apply Rmult_le_pos; lra). lra.
  - eapply Rle_trans; [apply Rmult_le_compat; [| |exact H|exact H2]; lra|]. replace ((1 + a * U) * x * ((1 + b * U) * y)) with ((1 + a * U) * (1 + b * U) * (x * y)) by ring. apply Rmult_le_compat_r; [exact XY|]. lra.
Qed.
Lemma rel_inv b c y' y : rel b y' y -> 0 < y -> 0 <= b <= 50 -> b + / 10 <= c -> rel c (/ y') (/ y).
Proof.
  intros (P & L & H) Y B C. pose proof U_small as UP. assert (BU : 0 <= b * U <= / 1000000) by nra. assert (CU : (b + / 10) * U <= c * U) by (apply Rmult_le_compat_r; lra).
  assert (Y' : 0 < y'). { assert (0 < (1 - b * U) * y) by (apply Rmult_lt_0_compat; lra). lra. } assert (IY : 0 < / y) by now apply Rinv_0_lt_compat. assert (BB : b * U * (b * U) <= U / 100) by nra. assert (B0 : 0 <= b * U * (b * U)) by (apply Rmult_le_pos; lra). split; [lra|]. split.
  - apply Rmult_le_reg_r with (y' * y); [now apply Rmult_lt_0_compat|]. replace ((1 - c * U) * / y * (y' * y)) with ((1 - c * U) * y') by (field; lra). replace (/ y' * (y' * y)) with y by (field; lra).
    destruct (Rle_dec 0 (1 - c * U)) as [G|G]; [|nra]. assert ((1 - c * U) * y' <= (1 - c * U) * ((1 + b * U) * y)) by (apply Rmult_le_compat_l; lra). assert ((1 - c * U) * (1 + b * U) <= 1) by nra. assert ((1 - c * U) * (1 + b * U) * y <= 1 * y) by (apply Rmult_le_compat_r; lra). lra.
  - apply Rmult_le_reg_r with (y' * y); [now apply Rmult_lt_0_compat|]. replace ((1 + c * U) * / y * (y' * y)) with ((1 + c * U) * y') by (field; lra). replace (/ y' * (y' * y)) with y by (field; lra).
    assert ((1 + c * U) * ((1 - b * U) * y) <= (1 + c * U) * y') by (apply Rmult_le_compat_l; lra). assert (1 <= (1 + c * U) * (1 - b * U)). { assert (c * U * (b * U) <= c * U / 1000000) by (assert (c * U * (b * U) <= c * U * / 1000000) by (apply Rmult_le_compat_l; lra); lra). nra. } assert (1 * y <= (1 + c * U) * (1 - b * U) * y) by (apply Rmult_le_compat_r; lra). lra.
Qed.
Lemma rel_refl x : 0 <= x -> rel 0 x x.
Proof. intros P. split; [exact P|]. lra. Qed.
(* a bin that takes part: the uncertainty is not zero, nothing over- or underflows *)
Definition bin_ok (q : R * R * R) : Prop := let '(a, b, s) := q in
  double a /\ double b /\ double s /\ (a = b \/ bpow radix2 (-250) <= Rabs (a - b)) /\ bpow radix2 (-250) <= Rabs s <= bpow radix2 250.
Definition chi_exact (q : R * R * R) : R := let '(a, b, s) := q in ((a - b) / s) * ((a - b) / s).
(* the term as compiled in one of three ways *)
Definition chi_computed (q : R * R * R) (t : R) : Prop := let '(a, b, s) := q in t = f_chi_term a b s \/ t = f_chi_term_rcp a b s \/ t = f_chi_term_sq a b s.
Lemma abs_sq x : Rabs x * Rabs x = x * x.
Proof. rewrite <- Rabs_mult. apply Rabs_pos_eq. apply Rle_0_sqr. Qed.
Lemma chi_term_rel q t : bin_ok q -> chi_computed q t -> rel 8 t (chi_exact q).
Proof.
  destruct q as ((a, b), s). intros (Da & Db & Ds & DD & S1 & S2) C. pose proof U_small as UP. unfold chi_exact.
  assert (SP : 0 < Rabs s) by (pose proof (bpow_gt_0 radix2 (-250)); lra). assert (SN : s <> 0) by (intros ->; rewrite Rabs_R0 in SP; lra).
  pose proof (sub_err a b Da Db) as E1. set (d := a - b) in *. set (df := fsub a b) in *. assert (D1 : rel 1 (Rabs df) (Rabs d)). { split; [apply Rabs_pos|]. assert (Rabs (Rabs df - Rabs d) <= U * Rabs d) by (eapply Rle_trans; [apply Rabs_triang_inv2|exact E1]). apply Rabs_le_inv in H. lra. }
  assert (DZ : Rabs d = 0 \/ bpow radix2 (-250) <= Rabs d). { destruct DD as [->|DD]; [left; unfold d; replace (b - b) with 0 by ring; apply Rabs_R0|right; exact DD]. } clear DD.
  assert (B5 : bpow radix2 (-250) * bpow radix2 (-250) = bpow radix2 (-500)) by (rewrite <- bpow_plus; reflexivity). assert (B6 : bpow radix2 250 * bpow radix2 250 = bpow radix2 500) by (rewrite <- bpow_plus; reflexivity).
  assert (B7 : / bpow radix2 500 = bpow radix2 (-500)) by (rewrite <- bpow_opp; reflexivity). assert (B8 : bpow radix2 (-500) * bpow radix2 (-500) = bpow radix2 (-1000)) by (rewrite <- bpow_plus; reflexivity).
  assert (B1000 : bpow radix2 (-1000) <= bpow radix2 (-500)) by (apply bpow_le; lia). pose proof (bpow_gt_0 radix2 (-250)) as P250. pose proof (bpow_gt_0 radix2 (-500)) as P500.
  assert (D2Z : d * d = 0 \/ bpow radix2 (-500) <= d * d). { rewrite <- abs_sq, <- B5. destruct DZ as [Z|Z]; [left; rewrite Z; ring|right; apply Rmult_le_compat; lra]. }
  assert (S2L : bpow radix2 (-500) <= s * s <= bpow radix2 500). { rewrite <- abs_sq, <- B5, <- B6. split; apply Rmult_le_compat; lra. }
  assert (D2 : rel (32 / 10) (fmul df df) (d * d)). { apply (rel_near (21 / 10)); [|lra|lra|destruct D2Z; [now left|right; lra]]. rewrite <- (abs_sq df), <- (abs_sq d). apply (rel_mul 1 1); try assumption; lra. }
  assert (SS : rel (11 / 10) (fmul s s) (s * s)). { apply (rel_near 0); [apply rel_refl; lra|lra|lra|right; lra]. }
  assert (IS : rel (12 / 10) (/ fmul s s) (/ (s * s))) by (apply (rel_inv (11 / 10)); try assumption; lra).
  assert (ISL : bpow radix2 (-500) <= / (s * s)) by (rewrite <- B7; apply Rinv_le_contravar; lra).
  assert (QZ : d / s * (d / s) = 0 \/ bpow radix2 (-1000) <= d / s * (d / s)). { replace (d / s * (d / s)) with (d * d * / (s * s)) by (field; exact SN). destruct D2Z as [->|Z]; [left; ring|right; rewrite <- B8; apply Rmult_le_compat; lra]. }
  assert (WK : forall c t', c <= 8 -> rel c t' (d / s * (d / s)) -> rel 8 t' (d / s * (d / s))). { intros c t' C8 (P & L & H). split; [exact P|]. assert (c * U * (d / s * (d / s)) <= 8 * U * (d / s * (d / s))) by (apply Rmult_le_compat_r; [exact P|apply Rmult_le_compat_r; lra]). lra. }
  destruct C as [-> | [-> | ->]].
  - apply (WK 6); [lra|]. unfold f_chi_term. fold df. unfold fdiv. apply (rel_near (45 / 10)); [|lra|lra|exact QZ]. replace (d / s * (d / s)) with (d * d * / (s * s)) by (field; exact SN). apply (rel_mul (32 / 10) (12 / 10)); try assumption; lra.
  - apply (WK 7); [lra|]. unfold f_chi_term_rcp. fold df. unfold fmul at 1. apply (rel_near (58 / 10)); [|lra|lra|exact QZ]. replace (d / s * (d / s)) with (d * d * / (s * s)) by (field; exact SN). apply (rel_mul (32 / 10) (24 / 10)); try assumption; try lra. unfold fdiv. apply (rel_near (13 / 10)); [|lra|lra|right; lra]. unfold Rdiv. rewrite Rmult_1_l. destruct IS as (P & L & H). split; [exact P|]. assert (0 <= U * / (s * s)) by (apply Rmult_le_pos; lra). lra.
  - apply (WK 6); [lra|]. unfold f_chi_term_sq. fold df. set (q := fdiv df s). assert (AQ : rel (23 / 10) (Rabs q) (Rabs d / Rabs s)).
    { unfold q, fdiv. rewrite near_abs. unfold Rdiv. rewrite Rabs_mult, (Rabs_inv s). apply (rel_near (12 / 10)); [|lra|lra|]. { apply (rel_mul 1 (1 / 10)); try lra; [exact D1|]. apply (rel_inv 0); try lra. apply rel_refl. lra. }
      destruct DZ as [->|Z]; [left; ring|right]. assert (/ bpow radix2 250 <= / Rabs s) by (apply Rinv_le_contravar; lra). assert (BI : / bpow radix2 250 = bpow radix2 (-250)) by (rewrite <- bpow_opp; reflexivity). rewrite BI in H. apply Rle_trans with (bpow radix2 (-500)); [exact B1000|]. rewrite <- B5. apply Rmult_le_compat; lra. }
    unfold fmul. apply (rel_near (48 / 10)); [|lra|lra|exact QZ]. rewrite <- (abs_sq q), <- (abs_sq (d / s)). unfold Rdiv in *. rewrite (Rabs_mult d), (Rabs_inv s). apply (rel_mul (23 / 10) (23 / 10)); try assumption; lra.
Qed.
Lemma chi_computed_double q t : chi_computed q t -> double t.
Proof. destruct q as ((a, b), s). intros [-> | [-> | ->]]; apply double_near. Qed.
(* Chi square of any set of bins, added in any order, each term compiled in any of the three ways. *)
Theorem float_chi_accurate bins terms chi : Forall bin_ok bins -> Forall2 chi_computed bins terms -> sums_to (0 :: terms) chi -> INR (length bins) * U <= 1 / 1000 ->
  Rabs (chi - sum (map chi_exact bins)) <= (3 * INR (length bins) + 8) * U * sum (map chi_exact bins).
Proof.
  intros BO F2 ST N. pose proof U_small as UP.
  assert (G : (1 - 8 * U) * sum (map chi_exact bins) <= sum terms <= (1 + 8 * U) * sum (map chi_exact bins) /\ Forall (fun t => 0 <= t) terms /\ Forall double terms /\ 0 <= sum (map chi_exact bins)).
  { clear ST N. induction F2 as [|q t bins terms C F2 IH]; [cbn; repeat split; try constructor; lra|]. inversion_clear BO as [|? ? B BO']. destruct (IH BO') as ((I1 & I2) & I3 & I4 & I5). destruct (chi_term_rel q t B C) as (P & L & H).
    unfold sum in *. cbn [map fold_right]. split; [split; lra|]. split; [|split; [|lra]]; constructor; try assumption; [|now apply (chi_computed_double q)]. assert (0 <= (1 - 8 * U) * chi_exact q) by (apply Rmult_le_pos; lra). lra. }
  destruct G as ((G1 & G2) & G3 & G4 & G5). assert (LEN : length terms = length bins) by (clear - F2; induction F2; cbn; congruence).
  assert (D0 : double 0) by apply generic_format_0. assert (SZ : INR (length (0 :: terms)) * U <= 1 / 2). { cbn [length]. rewrite S_INR, LEN. lra. }
  pose proof (float_sum_error (0 :: terms) chi ST (Forall_cons 0 D0 G4) SZ) as Q. rewrite (sum_abs_nonneg (0 :: terms)) in Q by (apply Forall_cons; [apply Rle_refl|exact G3]). replace (length (0%R :: terms) - 1)%nat with (length bins) in Q by (cbn; lia).
  assert (SE : sum (0 :: terms) = sum terms) by (unfold sum; cbn; ring). rewrite SE in Q. set (c := sum (map chi_exact bins)) in *. set (nu := INR (length bins) * U) in *. assert (0 <= nu) by (unfold nu; apply Rmult_le_pos; [apply pos_INR|lra]).
  assert (2 * nu * sum terms <= 2 * nu * ((1 + 8 * U) * c)) by (apply Rmult_le_compat_l; lra). assert (2 * nu * ((1 + 8 * U) * c) <= 3 * nu * c). { assert (2 * nu * (1 + 8 * U) <= 3 * nu) by nra. rewrite <- Rmult_assoc. apply Rmult_le_compat_r; lra. }
  apply Rabs_le_inv in Q. assert (EQ : (3 * INR (length bins) + 8) * U * c = 3 * nu * c + 8 * U * c) by (unfold nu; ring). rewrite EQ. apply Rabs_le. lra.
Qed.
Print Assumptions float_chi_accurate.
(* The guard std == 0 does not protect the division: the square of an uncertainty that is not zero can be. *)
Theorem chi_guard_refuted : exists s, double s /\ s <> 0 /\ fmul s s = 0.
Proof.
  exists (bpow radix2 (-540)). split; [apply generic_format_bpow; cbv; discriminate|]. split; [pose proof (bpow_gt_0 radix2 (-540)); lra|]. unfold fmul. rewrite <- bpow_plus. change (-540 + -540)%Z with (-1080)%Z.
  unfold near, fdouble. apply round_N_small with (ex := (-1079)%Z); [rewrite Rabs_pos_eq by apply bpow_ge_0; split; [apply bpow_le; lia|apply bpow_lt; lia]|]. unfold FLT_exp. lia.
Qed.
Print Assumptions chi_guard_refuted.
