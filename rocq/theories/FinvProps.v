(* The inverse of the normal distribution used for the uncertainties of rhosigchi (C87). *)
From Coq Require Import Reals Lia Lra Psatz.
From Coquelicot Require Import Coquelicot.
From Verif Require Import StatsModel StatsSpec StatsProofs ErfinvProofs StatsCdf FinvModel FinvProofs.
Local Open Scope R_scope.

(* For every random number between 0 and 1 the loop ends, with one finite value, and
   never divides by zero. *)
Theorem Finv_terminates y0 : 0 <= y0 <= 1 ->
  exists x n0, forall n, (n0 <= n)%nat -> Finv n y0 = FVal x.
Proof.
  intros Y. destruct (Finv_ends y0 Y) as (n0 & x & E). exists x, n0. intros n L.
  replace n with (n0 + (n - n0))%nat by lia. now apply finv_loop_more.
Qed.
Print Assumptions Finv_terminates.

(* Of the standard normal distribution, a fraction y0 lies below the value, up to the
   tolerance of one in a thousand and the rounding of the constant. *)
Theorem Finv_quantile n y0 x : Finv n y0 = FVal x ->
  exists p, mass m_infty x p /\ Rabs (p - y0) <= 1 / 1000 + 1 / 1000000000.
Proof.
  intros E. apply finv_loop_val in E; [|simpl; symmetry; apply Fc_0]. unfold eps in E.
  exists (cdf x - cdf m_infty). split; [apply mass_cdf|].
  replace (cdf m_infty) with 0 by (unfold cdf; simpl; lra).
  pose proof (Fc_cdf x) as C.
  replace (cdf x - 0 - y0) with ((Fc x - y0) - (Fc x - cdf x)) by ring.
  eapply Rle_trans; [apply Rabs_triang|]. rewrite Rabs_Ropp. lra.
Qed.
Print Assumptions Finv_quantile.

Lemma mirror_loop n y0 : forall s, 
  finv_loop n (1 - y0) (mkF (- xh s) (- xl s) (- xx s) (1 - yh s) (1 - yl s) (1 - yy s)) =
  match finv_loop n y0 s with FVal x => FVal (- x) | r => r end.
Proof.
  induction n as [|n IH]; intros s.
  - simpl. replace (1 - yy s - (1 - y0)) with (- (yy s - y0)) by ring. rewrite Rabs_Ropp.
    destruct (Rlt_dec _ _); reflexivity.
  - cbn [finv_loop xl xh xx yl yh yy].
    replace (1 - yy s - (1 - y0)) with (- (yy s - y0)) by ring. rewrite Rabs_Ropp.
    destruct (Rlt_dec (1 / 1000) (Rabs (yy s - y0))) as [T|T]; [|reflexivity].
    replace (1 - yl s - (1 - yh s)) with (yh s - yl s) by ring.
    destruct (Req_EM_T (yh s - yl s) 0) as [D|D]; [reflexivity|].
    set (x := xl s + (xh s - xl s) * (y0 - yl s) / (yh s - yl s)).
    replace (- xh s + (- xl s - - xh s) * (1 - y0 - (1 - yh s)) / (yh s - yl s)) with (- x)
      by (unfold x; field; exact D).
    rewrite Fc_neg.
    destruct (Rlt_dec y0 (Fc x)) as [A|A], (Rlt_dec (1 - y0) (1 - Fc x)) as [B|B]; try lra.
    + apply (IH (mkF x (xh s) x (Fc x) (yh s) (Fc x))).
    + apply (IH (mkF (xl s) x x (yl s) (Fc x) (Fc x))).
    + assert (E : Fc x = y0) by lra. 
      destruct n; simpl; replace (1 - Fc x - (1 - y0)) with 0 by lra;
        replace (Fc x - y0) with 0 by lra; rewrite Rabs_R0;
        (destruct (Rlt_dec (1 / 1000) 0); [lra|reflexivity]).
Qed.
(* The perturbations are symmetric: the mirrored random number gives the negative. *)
Theorem Finv_symmetric n y0 x : Finv n y0 = FVal x -> Finv n (1 - y0) = FVal (- x).
Proof.
  unfold Finv. intros E. pose proof (mirror_loop n y0 fstart) as M. rewrite E in M.
  rewrite <- M. f_equal. unfold fstart; simpl. f_equal; lra.
Qed.
Print Assumptions Finv_symmetric.

(* The full statement, that larger random numbers give larger values, fails: everything
   within the tolerance of one half gives exactly zero. *)
Theorem Finv_flat n y0 : Rabs (y0 - 1 / 2) <= 1 / 1000 -> Finv n y0 = FVal 0.
Proof.
  intros H. destruct n; unfold Finv; simpl;
    (destruct (Rlt_dec _ _) as [L|L]; [|reflexivity]);
    replace (5 / 10 - y0) with (- (y0 - 1 / 2)) in L by lra; rewrite Rabs_Ropp in L; lra.
Qed.
Print Assumptions Finv_flat.
Theorem Finv_strict_refuted : exists y0 y1, 0 < y0 < y1 /\ y1 < 1 /\
  forall n, Finv n y0 = FVal 0 /\ Finv n y1 = FVal 0.
Proof.
  exists (4995 / 10000), (5005 / 10000). repeat split; try lra; apply Finv_flat.
  - rewrite Rabs_left; lra.
  - rewrite Rabs_right; lra.
Qed.
Print Assumptions Finv_strict_refuted.
(* What holds instead: numbers further apart than twice the tolerance are not swapped. *)
Theorem Finv_increasing_partial n m y0 y1 x0 x1 :
  Finv n y0 = FVal x0 -> Finv m y1 = FVal x1 -> y0 + 2 / 1000 < y1 -> x0 < x1.
Proof.
  intros A B L. apply finv_loop_val in A; [|simpl; symmetry; apply Fc_0].
  apply finv_loop_val in B; [|simpl; symmetry; apply Fc_0]. unfold eps in *.
  apply Rabs_le_between in A, B. apply Fc_lt_inv. lra.
Qed.
Print Assumptions Finv_increasing_partial.

(* a case: the random number 0.3 has a value, and it is negative *)
Example Finv_03 : exists x n, Finv n (3 / 10) = FVal x /\ x < 0.
Proof.
  destruct (Finv_terminates (3 / 10)) as (x & n & E); [lra|].
  exists x, n. split; [now apply E|].
  apply Finv_increasing_partial with n n (3 / 10) (1 / 2); [now apply E| |lra].
  apply Finv_flat. replace (1 / 2 - 1 / 2) with 0 by ring. rewrite Rabs_R0. lra.
Qed.
