(* C29: Vector.transform. *)
From Coq Require Import Reals List Lra Lia.
From Verif Require Import TransformModel.
Import ListNotations.
Local Open Scope R_scope.

(* specification *)
Definition rv_ok (v : rvec) : Prop :=
  length (rv_E v) = length (rv_values v) /\ forall s, rv_std v = Some s -> length s = length (rv_values v).
Definition nonzero (v : rvec) : Prop := forall x, In x (rv_values v) -> x <> 0.

Lemma rmap2_length {A B C} (f : A -> B -> C) l : forall m, length m = length l -> length (rmap2 f l m) = length l.
Proof. induction l as [|x l IH]; intros [|y m] H; cbn in *; try lia. f_equal. apply IH. lia. Qed.
Lemma rmap2_nth {A B C} (f : A -> B -> C) d1 d2 d3 l : forall m i, length m = length l -> (i < length l)%nat ->
  nth i (rmap2 f l m) d3 = f (nth i l d1) (nth i m d2).
Proof.
  induction l as [|x l IH]; intros [|y m] i H Hi; cbn [length rmap2] in *; try lia.
  destruct i as [|i]; [reflexivity|]. cbn [nth]. apply IH; lia.
Qed.
Lemma list_ext {A} (l m : list A) d : length l = length m -> (forall i, (i < length l)%nat -> nth i l d = nth i m d) -> l = m.
Proof.
  revert m. induction l as [|x l IH]; intros [|y m] H E; cbn in *; try lia; [reflexivity|].
  f_equal; [exact (E O ltac:(lia))|]. apply IH; [lia|]. intros i Hi. exact (E (S i) ltac:(lia)).
Qed.

Lemma rmap3_length {A B C D} (g : A * B -> C -> D) (s : list A) (vs : list B) (t : list C) :
  length s = length vs -> length t = length vs -> length (rmap2 g (rmap2 pair s vs) t) = length vs.
Proof. intros H1 H2. rewrite rmap2_length; rewrite rmap2_length; lia. Qed.

(* bin-wise description of what transform does *)
Theorem transform_bins : forall c a v, rv_ok v ->
  rv_ok (transform c a v) /\ rv_E (transform c a v) = rv_E v /\
  length (rv_values (transform c a v)) = length (rv_values v) /\
  (forall i, (i < length (rv_values v))%nat ->
     nth i (rv_values (transform c a v)) 0 = c * nth i (rv_values v) 0 * exp (a * nth i (rv_E v) 0)) /\
  (rv_std v = None -> rv_std (transform c a v) = None) /\
  (forall s, rv_std v = Some s -> exists s', rv_std (transform c a v) = Some s' /\ length s' = length (rv_values v) /\
     forall i x, (i < length (rv_values v))%nat -> nth i s None = Some x ->
       (nth i (rv_values v) 0 <> 0 -> nth i s' None = Some (x * c * exp (a * nth i (rv_E v) 0))) /\
       (nth i (rv_values v) 0 = 0 -> nth i s' None = None)).
Proof.
  intros c a v [HE HS]. set (t := rmap2 (value_bin c a) (rv_values v) (rv_E v)).
  assert (LT : length t = length (rv_values v)) by (apply rmap2_length; exact HE).
  assert (NT : forall i, (i < length (rv_values v))%nat -> nth i t 0 = c * nth i (rv_values v) 0 * exp (a * nth i (rv_E v) 0)).
  { intros i Hi. unfold t. rewrite (rmap2_nth _ 0 0) by assumption. reflexivity. }
  assert (LS : forall s, rv_std v = Some s ->
     length (rmap2 (fun sv x => std_bin (fst sv) (snd sv) x) (rmap2 pair s (rv_values v)) t) = length (rv_values v)).
  { intros s Es. specialize (HS s Es). rewrite rmap2_length; rewrite rmap2_length; lia. }
  split.
  - split; cbn [transform rv_E rv_values rv_std]; fold t; [lia|]. intros s'. destruct (rv_std v) as [s|] eqn:Es; [|discriminate].
    intros H; injection H as <-. fold t. rewrite (LS s eq_refl). now symmetry.
  - split; [reflexivity|]. split; [exact LT|]. split; [exact NT|]. split; [intros E; cbn [transform rv_std]; now rewrite E|].
    intros s Es. cbn [transform rv_std]. rewrite Es. fold t. eexists. split; [reflexivity|]. split; [exact (LS s Es)|].
    intros i x Hi Hx. specialize (HS s Es).
    assert (E : nth i (rmap2 (fun sv x => std_bin (fst sv) (snd sv) x) (rmap2 pair s (rv_values v)) t) None = std_bin (nth i s None) (nth i (rv_values v) 0) (nth i t 0)).
    { rewrite (rmap2_nth _ ((None : rnan), 0) 0); [|rewrite rmap2_length; lia|rewrite rmap2_length; lia].
      rewrite (rmap2_nth (@pair rnan R) (None : rnan) 0) by lia. reflexivity. }
    rewrite E, Hx, NT by exact Hi. unfold std_bin. split; intros Z.
    + destruct (Req_EM_T _ 0); [contradiction|]. f_equal. field. exact Z.
    + destruct (Req_EM_T _ 0); [reflexivity|contradiction].
Qed.
Print Assumptions transform_bins.

Lemma in_nth {A} (l : list A) d i : (i < length l)%nat -> In (nth i l d) l.
Proof. intros H. now apply nth_In. Qed.

(* transform (1, 0) changes nothing (NaN uncertainties stay NaN) *)
Theorem transform_identity : forall v, rv_ok v -> nonzero v -> transform 1 0 v = v.
Proof.
  intros [vs es st] OK NZ. pose proof (transform_bins 1 0 _ OK) as (_ & _ & L & B & SN & SS). pose proof OK as [HE HS].
  cbn [rv_values rv_E rv_std] in *.
  assert (EV : rv_values (transform 1 0 (mkRV vs es st)) = vs).
  { apply (list_ext _ _ 0); [exact L|]. intros i Hi. rewrite L in Hi. rewrite (B i Hi).
    rewrite Rmult_0_l, exp_0. ring. }
  destruct st as [s|].
  - unfold transform in *. cbn [rv_values rv_E rv_std] in *. rewrite EV. f_equal. f_equal.
    specialize (HS s eq_refl). apply (list_ext _ _ None); [rewrite !rmap3_length; lia|].
    intros i Hi. rewrite rmap3_length in Hi by lia.
    rewrite (rmap2_nth _ ((None : rnan), 0) 0); [|rewrite rmap2_length; lia|rewrite rmap2_length; lia].
    rewrite (rmap2_nth (@pair rnan R) (None : rnan) 0) by lia. cbn [fst snd]. unfold std_bin. destruct (nth i s None) as [x|]; [|reflexivity].
    pose proof (NZ (nth i vs 0) (in_nth vs 0 i ltac:(lia))) as Z.
    destruct (Req_EM_T _ 0); [contradiction|]. f_equal. field. exact Z.
  - unfold transform in *. cbn [rv_values rv_E rv_std] in *. now rewrite EV.
Qed.
Print Assumptions transform_identity.

(* two transformations compose, provided the first constant is not zero *)
Theorem transform_compose_partial : forall c a d b v, rv_ok v -> nonzero v -> c <> 0 ->
  transform d b (transform c a v) = transform (c * d) (a + b) v.
Proof.
  intros c a d b [vs es st] OK NZ HC. pose proof OK as [HE HS]. cbn [rv_values rv_E rv_std] in *.
  assert (EB : forall v e, value_bin d b (value_bin c a v e) e = value_bin (c * d) (a + b) v e).
  { intros v e. unfold value_bin. rewrite Rmult_plus_distr_r, exp_plus. ring. }
  set (t1 := rmap2 (value_bin c a) vs es).
  assert (L1 : length t1 = length vs) by (apply rmap2_length; exact HE).
  assert (ET : rmap2 (value_bin d b) t1 es = rmap2 (value_bin (c * d) (a + b)) vs es).
  { apply (list_ext _ _ 0); [rewrite !rmap2_length; lia|]. intros i Hi. rewrite rmap2_length in Hi by lia.
    rewrite !(rmap2_nth _ 0 0) by lia. unfold t1. rewrite (rmap2_nth _ 0 0) by lia. apply EB. }
  unfold transform. cbn [rv_values rv_E rv_std]. fold t1. rewrite ET. f_equal. destruct st as [s|]; [|reflexivity].
  f_equal. specialize (HS s eq_refl). set (t2 := rmap2 (value_bin (c * d) (a + b)) vs es).
  assert (L2 : length t2 = length vs) by (apply rmap2_length; exact HE).
  set (s1 := rmap2 (fun sv x => std_bin (fst sv) (snd sv) x) (rmap2 pair s vs) t1).
  assert (LS1 : length s1 = length vs) by (unfold s1; rewrite rmap2_length; rewrite rmap2_length; lia).
  apply (list_ext _ _ None); [rewrite !rmap3_length; lia|].
  intros i Hi. rewrite rmap3_length in Hi by lia.
  rewrite (rmap2_nth _ ((None : rnan), 0) 0); [|rewrite rmap2_length; lia|rewrite rmap2_length; lia].
  rewrite (rmap2_nth (@pair rnan R) (None : rnan) 0) by lia. cbn [fst snd].
  rewrite (rmap2_nth _ ((None : rnan), 0) 0); [|rewrite rmap2_length; lia|rewrite rmap2_length; lia].
  rewrite (rmap2_nth (@pair rnan R) (None : rnan) 0) by lia. cbn [fst snd].
  unfold s1. rewrite (rmap2_nth _ ((None : rnan), 0) 0); [|rewrite rmap2_length; lia|rewrite rmap2_length; lia].
  rewrite (rmap2_nth (@pair rnan R) (None : rnan) 0) by lia. cbn [fst snd].
  unfold t2, t1. rewrite !(rmap2_nth _ 0 0) by lia.
  pose proof (NZ (nth i vs 0) (in_nth vs 0 i ltac:(lia))) as Z. destruct (nth i s None) as [x|]; [|reflexivity].
  cbn [std_bin]. destruct (Req_EM_T (nth i vs 0) 0); [contradiction|]. cbn [std_bin].
  assert (Z2 : value_bin c a (nth i vs 0) (nth i es 0) <> 0).
  { unfold value_bin. pose proof (exp_pos (a * nth i es 0)). apply Rmult_integral_contrapositive_currified; [|lra].
    now apply Rmult_integral_contrapositive_currified. }
  destruct (Req_EM_T _ 0); [contradiction|]. f_equal. field. split; assumption.
Qed.
Print Assumptions transform_compose_partial.

(* the relative uncertainty of every bin is unchanged *)
Theorem transform_relative_uncertainty : forall c a v s s' i x, rv_ok v -> nonzero v -> c <> 0 ->
  rv_std v = Some s -> rv_std (transform c a v) = Some s' -> (i < length (rv_values v))%nat -> nth i s None = Some x ->
  exists y, nth i s' None = Some y /\ y / nth i (rv_values (transform c a v)) 0 = x / nth i (rv_values v) 0.
Proof.
  intros c a v s s' i x OK NZ HC Es Es' Hi Hx. destruct (transform_bins c a v OK) as (_ & _ & _ & B & _ & SS).
  destruct (SS s Es) as (s2 & E2 & _ & H). rewrite Es' in E2. injection E2 as <-.
  destruct (H i x Hi Hx) as [H1 _]. pose proof (NZ _ (in_nth (rv_values v) 0 i Hi)) as Z.
  eexists. split; [exact (H1 Z)|]. rewrite (B i Hi). pose proof (exp_pos (a * nth i (rv_E v) 0)). field. repeat split; try assumption. lra.
Qed.
Print Assumptions transform_relative_uncertainty.

(* hypotheses are met by a vector with uncertainties *)
Example tr_v : rvec := mkRV [2; -3] [0; 1] (Some [Some 1; None]).
Example tr_ok : rv_ok tr_v /\ nonzero tr_v.
Proof. split; [split; [reflexivity|]; intros s H; injection H as <-; reflexivity|]. intros x [<-|[<-|[]]]; lra. Qed.
Example tr_inverse : transform (/ 5) (- 2) (transform 5 2 tr_v) = tr_v.
Proof.
  rewrite transform_compose_partial; [|apply tr_ok|apply tr_ok|lra].
  replace (5 * / 5) with 1 by field. replace (2 + - 2) with 0 by ring. apply transform_identity; apply tr_ok.
Qed.

(* C29 refuted for the constant 0: transforming by 0 and then by 1 loses the uncertainty
   (NaN), transforming by 0*1 does not. *)
Theorem transform_compose_refuted : exists v, rv_ok v /\ nonzero v /\ transform 1 0 (transform 0 0 v) <> transform (0 * 1) (0 + 0) v.
Proof.
  exists (mkRV [2] [0] (Some [Some 1])). split; [split; [reflexivity|]; intros s H; injection H as <-; reflexivity|].
  split; [intros x [<-|[]]; lra|]. unfold transform. cbn [rv_values rv_E rv_std rmap2 fst snd]. unfold std_bin, value_bin.
  destruct (Req_EM_T 2 0); [lra|]. destruct (Req_EM_T (0 * 2 * exp (0 * 0)) 0) as [e|n0]; [discriminate|]. exfalso. apply n0. ring.
Qed.
Print Assumptions transform_compose_refuted.
(* ... and the identity transformation destroys the uncertainty of an empty bin *)
Theorem transform_identity_zero_refuted : exists v, rv_ok v /\ rv_std v = Some [Some 1; Some 1] /\ rv_std (transform 1 0 v) <> rv_std v.
Proof.
  exists (mkRV [2; 0] [0; 1] (Some [Some 1; Some 1])). split; [split; [reflexivity|]; intros s H; injection H as <-; reflexivity|].
  split; [reflexivity|]. unfold transform. cbn [rv_values rv_E rv_std rmap2 fst snd]. unfold std_bin.
  destruct (Req_EM_T 0 0); [discriminate|]. congruence.
Qed.
Print Assumptions transform_identity_zero_refuted.
