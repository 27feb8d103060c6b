(* Lemmas about the rhosigchi iteration. *)
From Coq Require Import List ZArith QArith Qcanon Lia Bool.
From Verif Require Import Num PyBase IndexProofs RhosigchiModel.
Import ListNotations.
Local Open Scope Qc_scope.

Lemma in_zrange i a b : In i (zrange a b) <-> (a <= i < b)%Z.
Proof.
  unfold zrange. rewrite in_map_iff. split.
  - intros (k & E & K). apply in_seq in K. lia.
  - intros K. exists (Z.to_nat (i - a)). split; [lia|]. apply in_seq. lia.
Qed.
Lemma NoDup_zrange a b : NoDup (zrange a b).
Proof.
  unfold zrange. apply FinFun.Injective_map_NoDup; [|apply seq_NoDup].
  intros x y E. lia.
Qed.

Lemma upd_length {A} (l : list A) i x : length (upd l i x) = length l.
Proof. revert i. induction l as [|y l IH]; intros [|i]; simpl; auto. Qed.
Lemma nth_error_upd {A} (l : list A) i j x : (i < length l)%nat ->
  nth_error (upd l i x) j = if Nat.eqb i j then Some x else nth_error l j.
Proof.
  revert i j. induction l as [|y l IH]; intros [|i] [|j] K; simpl in *; try lia; auto.
  rewrite IH by lia. reflexivity.
Qed.

(* element i of a list, as a partial function of an integer *)
Definition zget {A} (l : list A) (i : Z) : option A :=
  if (i <? 0)%Z then None else nth_error l (Z.to_nat i).

Lemma at_zget {A} w (l : list A) i x : (0 <= i)%Z -> at_ w l i = Ok x <-> zget l i = Some x.
Proof.
  intros I. unfold at_, zget.
  replace (w && (i <? 0)%Z) with false.
  2: { symmetry. apply andb_false_intro2. lia. }
  replace (i <? 0)%Z with false by lia.
  destruct (nth_error l (Z.to_nat i)); split; intros E; inversion E; reflexivity.
Qed.
Lemma at_false {A} (l : list A) i x : at_ false l i = Ok x <-> zget l i = Some x.
Proof.
  unfold at_, zget; simpl. destruct (i <? 0)%Z; [split; intros E; discriminate E|].
  destruct (nth_error l (Z.to_nat i)); split; intros E; inversion E; reflexivity.
Qed.
Lemma zget_some {A} (l : list A) i : (0 <= i < Z.of_nat (length l))%Z -> exists x, zget l i = Some x.
Proof.
  intros K. unfold zget. replace (i <? 0)%Z with false by lia.
  destruct (nth_error l (Z.to_nat i)) as [x|] eqn:E; [now exists x|].
  apply nth_error_None in E. lia.
Qed.
Lemma zget_range {A} (l : list A) i x : zget l i = Some x -> (0 <= i < Z.of_nat (length l))%Z.
Proof.
  unfold zget. destruct (Z.ltb_spec i 0) as [L|L]; [discriminate|]. intros E.
  assert (nth_error l (Z.to_nat i) <> None) by congruence. apply nth_error_Some in H. lia.
Qed.

Lemma set_ok {A} w (l : list A) i x : (0 <= i < Z.of_nat (length l))%Z ->
  set_ w l i x = Ok (upd l (Z.to_nat i) x).
Proof.
  intros K. unfold set_.
  replace (w && (i <? 0)%Z) with false.
  2: { symmetry. apply andb_false_intro2. lia. }
  replace ((i <? 0)%Z || (Z.of_nat (length l) <=? i)%Z) with false; [reflexivity|].
  symmetry. apply orb_false_intro; lia.
Qed.
Lemma set_inv {A} w (l l' : list A) i x : (0 <= i)%Z -> set_ w l i x = Ok l' ->
  (0 <= i < Z.of_nat (length l))%Z /\ l' = upd l (Z.to_nat i) x.
Proof.
  intros I. unfold set_.
  replace (w && (i <? 0)%Z) with false.
  2: { symmetry. apply andb_false_intro2. lia. }
  destruct ((i <? 0)%Z || (Z.of_nat (length l) <=? i)%Z) eqn:E; [discriminate|].
  apply orb_false_elim in E. destruct E as [E1 E2]. intros K. inversion K. split; [lia|reflexivity].
Qed.
Lemma zget_upd {A} (l : list A) i j x : (0 <= i < Z.of_nat (length l))%Z ->
  zget (upd l (Z.to_nat i) x) j = if Z.eqb i j then Some x else zget l j.
Proof.
  intros K. unfold zget. destruct (Z.ltb_spec j 0) as [L|L].
  - destruct (Z.eqb_spec i j); [lia|reflexivity].
  - rewrite nth_error_upd by lia.
    destruct (Z.eqb_spec i j) as [->|N]; [now rewrite Nat.eqb_refl|].
    destruct (Nat.eqb_spec (Z.to_nat i) (Z.to_nat j)); [lia|reflexivity].
Qed.

(* a loop that sets entry i to a value that does not depend on the array *)
Lemma loop_set {A} w (e : Z -> result A) l acc out :
  (forall i, In i l -> (0 <= i)%Z) -> NoDup l ->
  loop (fun acc i => do x <- e i ;; set_ w acc i x) acc l = Ok out ->
  length out = length acc /\
  (forall i, In i l -> exists x, e i = Ok x /\ zget out i = Some x) /\
  (forall i, ~ In i l -> zget out i = zget acc i).
Proof.
  revert acc. induction l as [|i l IH]; intros acc P N; simpl.
  - intros E. injection E as ->. repeat split; auto. intros i [].
  - destruct (e i) as [x|] eqn:Ei; simpl; [|discriminate].
    destruct (set_ w acc i x) as [acc'|] eqn:Es; simpl; [|discriminate].
    intros E. apply set_inv in Es; [|apply P; now left]. destruct Es as (R & ->).
    inversion N as [|? ? N1 N2]; subst.
    destruct (IH (upd acc (Z.to_nat i) x)) as (HL & H1 & H2); [intros; apply P; now right|assumption|assumption|].
    rewrite upd_length in HL. split; [exact HL|]. split.
    + intros j [<-|J]; [|now apply H1].
      exists x. split; [exact Ei|]. rewrite H2 by assumption. rewrite zget_upd by exact R.
      now rewrite Z.eqb_refl.
    + intros j J. rewrite H2 by (intros K; apply J; now right).
      rewrite zget_upd by exact R. destruct (Z.eqb_spec i j) as [->|]; [|reflexivity].
      exfalso. apply J. now left.
Qed.
Lemma loop_set_ok {A} w (e : Z -> result A) l acc :
  (forall i, In i l -> (0 <= i < Z.of_nat (length acc))%Z) ->
  (forall i, In i l -> exists x, e i = Ok x) ->
  exists out, loop (fun acc i => do x <- e i ;; set_ w acc i x) acc l = Ok out.
Proof.
  revert acc. induction l as [|i l IH]; intros acc P Q; simpl; [eauto|].
  destruct (Q i (or_introl eq_refl)) as (x & ->). simpl.
  rewrite set_ok by (apply P; now left). simpl. apply IH.
  - intros j J. rewrite upd_length. apply P. now right.
  - intros j J. apply Q. now right.
Qed.
Lemma loop_ok {S} (P : S -> Prop) body l (s : S) :
  P s -> (forall i s, In i l -> P s -> exists s', body s i = Ok s' /\ P s') ->
  exists s', loop body s l = Ok s' /\ P s'.
Proof.
  revert s. induction l as [|i l IH]; intros s P0 H; simpl; [eauto|].
  destruct (H i s (or_introl eq_refl) P0) as (s' & -> & P1). simpl.
  apply IH; [exact P1|]. intros j t J. apply H. now right.
Qed.

(* ------------------------------------------------ the new value *)
Lemma sdiv_ok a b : b <> 0 -> sdiv a b = Ok (a / b).
Proof. intros N. unfold sdiv. destruct (qeqb_spec b 0); [contradiction|reflexivity]. Qed.
Lemma sdiv_inv a b x : sdiv a b = Ok x -> b <> 0 /\ x = a / b.
Proof.
  unfold sdiv. destruct (qeqb_spec b 0); [discriminate|]. intros E. injection E as <-. auto.
Qed.

Lemma var_ge_1 it : 1 < var it.
Proof.
  unfold var.
  repeat match goal with |- context [if ?b then _ else _] => destruct b end;
    apply qltb_lt; reflexivity.
Qed.

Lemma new_value_ok v old up down : 1 < v -> exists x, new_value v old up down = Ok x.
Proof.
  intros V. unfold new_value. destruct (qltb_spec 0 down) as [D|D]; [|eauto].
  rewrite sdiv_ok by (now apply Qclt_neq). simpl.
  assert (v <> 0) by (apply Qclt_neq; qlra).
  rewrite sdiv_ok by assumption. simpl.
  destruct (qltb (v * old) (up / down)); [eauto|]. destruct (qltb (up / down) (old / v)); eauto.
Qed.
Lemma div_le_mul v old : 1 < v -> 0 <= old -> old / v <= v * old.
Proof. intros V O. apply Qcdiv_le_l; [qlra|].
  assert (0 <= old * ((v - 1) * (v + 1))); [|qlra].
  apply Qcmult_nonneg; [exact O|]. apply Qcmult_nonneg; qlra.
Qed.
Lemma new_value_spec v old up down x : 1 < v -> 0 <= old -> new_value v old up down = Ok x ->
  0 <= x /\ ((x = 0 /\ down <= 0) \/ (old / v <= x /\ x <= v * old /\ 0 < down)).
Proof.
  intros V O. assert (V0 : v <> 0) by (apply Qclt_neq; qlra).
  assert (LO : 0 <= old / v) by (apply Qcdiv_nonneg; qlra).
  pose proof (div_le_mul v old V O) as LH.
  unfold new_value. destruct (qltb_spec 0 down) as [D|D].
  2: { intros E. injection E as <-. split; [apply Qcle_refl|left; auto]. }
  rewrite sdiv_ok by (now apply Qclt_neq). simpl. rewrite sdiv_ok by assumption. simpl.
  destruct (qltb_spec (v * old) (up / down)) as [A|A].
  - intros E. injection E as <-. split; [qlra|]. right. repeat split; auto using Qcle_refl.
  - destruct (qltb_spec (up / down) (old / v)) as [B|B]; intros E; injection E as <-.
    + split; [exact LO|]. right. repeat split; auto using Qcle_refl.
    + split; [qlra|]. right. auto.
Qed.

(* ------------------------------------------------ one step *)
Lemma step_entries w FgN sFgN L v rho sig rho0 sig0 rho' sig' :
  (0 <= igmin L)%Z ->
  step w FgN sFgN L v rho sig rho0 sig0 = Ok (rho', sig') ->
  exists nd, nd_table w FgN sFgN L rho sig = Ok nd /\
  length rho' = length rho0 /\ length sig' = length sig0 /\
  (forall ig, (igmin L <= ig < maxig L)%Z ->
     exists x, sig_entry w L v rho sig nd ig = Ok x /\ zget sig' ig = Some x) /\
  (forall ig, ~ (igmin L <= ig < maxig L)%Z -> zget sig' ig = zget sig0 ig) /\
  (forall iu, (0 <= iu < jmax L - igmin L + iu0 L)%Z ->
     exists x, rho_entry w L v rho sig nd iu = Ok x /\ zget rho' iu = Some x) /\
  (forall iu, ~ (0 <= iu < jmax L - igmin L + iu0 L)%Z -> zget rho' iu = zget rho0 iu).
Proof.
  intros GM. unfold step.
  destruct (nd_table w FgN sFgN L rho sig) as [nd|]; simpl; [|discriminate].
  match goal with |- (do _ <- ?a ;; _) = _ -> _ => destruct a as [s1|] eqn:E1 end; simpl; [|discriminate].
  match goal with |- (do _ <- ?a ;; _) = _ -> _ => destruct a as [r1|] eqn:E2 end; simpl; [|discriminate].
  intros E. injection E as <- <-. exists nd. split; [reflexivity|].
  apply loop_set in E1; [|intros i I; apply in_zrange in I; lia|apply NoDup_zrange].
  apply loop_set in E2; [|intros i I; apply in_zrange in I; lia|apply NoDup_zrange].
  destruct E1 as (L1 & A1 & B1), E2 as (L2 & A2 & B2).
  repeat split; auto.
  - intros ig K. apply A1. now apply in_zrange.
  - intros ig K. apply B1. now rewrite in_zrange.
  - intros ig K. apply A2. now apply in_zrange.
  - intros ig K. apply B2. now rewrite in_zrange.
Qed.

Lemma sig_entry_spec w L v rho sig nd ig x old : 1 < v -> (0 <= ig)%Z ->
  zget sig ig = Some old -> 0 <= old ->
  sig_entry w L v rho sig nd ig = Ok x -> exists up down, new_value v old up down = Ok x.
Proof.
  intros V I Z O. unfold sig_entry.
  match goal with |- (do _ <- ?a ;; _) = _ -> _ => destruct a as [ud|] eqn:E1 end; simpl; [|discriminate].
  rewrite (proj2 (at_zget w sig ig old I) Z). simpl. eauto.
Qed.
Lemma rho_entry_spec w L v rho sig nd iu x old : 1 < v -> (0 <= iu)%Z ->
  zget rho iu = Some old -> 0 <= old ->
  rho_entry w L v rho sig nd iu = Ok x -> exists up down, new_value v old up down = Ok x.
Proof.
  intros V I Z O. unfold rho_entry.
  match goal with |- (do _ <- ?a ;; _) = _ -> _ => destruct a as [ud|] eqn:E1 end; simpl; [|discriminate].
  rewrite (proj2 (at_zget w rho iu old I) Z). simpl. eauto.
Qed.
Lemma sig_entry_old w L v rho sig nd ig x : (0 <= ig)%Z ->
  sig_entry w L v rho sig nd ig = Ok x -> exists old, zget sig ig = Some old.
Proof.
  intros I. unfold sig_entry.
  match goal with |- (do _ <- ?a ;; _) = _ -> _ => destruct a as [ud|] eqn:E1 end; simpl; [|discriminate].
  destruct (at_ w sig ig) as [old|] eqn:E; simpl; [|discriminate].
  intros _. exists old. now apply (at_zget w).
Qed.
Lemma rho_entry_old w L v rho sig nd ig x : (0 <= ig)%Z ->
  rho_entry w L v rho sig nd ig = Ok x -> exists old, zget rho ig = Some old.
Proof.
  intros I. unfold rho_entry.
  match goal with |- (do _ <- ?a ;; _) = _ -> _ => destruct a as [ud|] eqn:E1 end; simpl; [|discriminate].
  destruct (at_ w rho ig) as [old|] eqn:E; simpl; [|discriminate].
  intros _. exists old. now apply (at_zget w).
Qed.

(* ------------------------------------------------ no error *)
Definition fits (L : limits) (rho sig : list Qc) (FgN sFgN : list (list Qc)) : Prop :=
  (0 <= jmin L)%Z /\ (0 <= igmin L)%Z /\ (0 <= iu0 L)%Z /\
  (jmax L <= Z.of_nat (length (igmax L)))%Z /\
  Z.of_nat (length rho) = (jmax L - igmin L + iu0 L)%Z /\
  (maxig L <= Z.of_nat (length sig))%Z /\ (jmax L + iu0 L <= Z.of_nat (length sig))%Z /\
  (forall ix gm, (jmin L <= ix < jmax L)%Z -> zget (igmax L) ix = Some gm ->
     (gm <= ix + iu0 L + 1)%Z) /\
  (forall ix, (jmin L <= ix < jmax L)%Z ->
     exists r sr, zget FgN ix = Some r /\ zget sFgN ix = Some sr /\
       (maxig L <= Z.of_nat (length r))%Z /\ (maxig L <= Z.of_nat (length sr))%Z).

Lemma fold_max_le l a x : (x <= a)%Z -> (x <= fold_left Z.max l a)%Z.
Proof. revert a. induction l as [|y l IH]; simpl; intros a K; [exact K|]. apply IH. lia. Qed.
Lemma zmax_in l x : In x l -> (x <= zmax l)%Z.
Proof.
  unfold zmax. generalize (hd 0%Z l) as a. induction l as [|y l IH]; simpl; intros a; [intros []|].
  intros [->|I]; [apply fold_max_le; lia|now apply IH].
Qed.
Lemma zget_In {A} (l : list A) i x : zget l i = Some x -> In x l.
Proof.
  unfold zget. destruct (i <? 0)%Z; [discriminate|]. apply nth_error_In.
Qed.
Lemma maxig_ge L ix gm : zget (igmax L) ix = Some gm -> (gm <= maxig L)%Z.
Proof. intros E. apply zmax_in. eapply zget_In; eassumption. Qed.

Lemma qcmul_pos (a b : Qc) : 0 < a -> 0 < b -> 0 < a * b.
Proof. intros A B. qnra. Qed.

Section Safe.
  Variables (w : bool) (L : limits) (rho sig : list Qc) (FgN sFgN : list (list Qc)).
  Hypothesis F : fits L rho sig FgN sFgN.

  Lemma at2_ok m ix ig r : (0 <= ix)%Z -> zget m ix = Some r -> (0 <= ig < Z.of_nat (length r))%Z ->
    exists x : Qc, at2 w m ix ig = Ok x /\ zget r ig = Some x.
  Proof.
    intros I Z K. destruct (zget_some r ig K) as (x & X). exists x. split; [|exact X].
    unfold at2. rewrite (proj2 (at_zget w m ix r I) Z). simpl. apply at_zget; [lia|exact X].
  Qed.
  Lemma row_sums_ok ix : (jmin L <= ix < jmax L)%Z ->
    exists f, row_sums w FgN sFgN L rho sig ix = Ok f.
  Proof.
    intros K. destruct F as (F1 & F2 & F3 & F4 & F5 & F6 & F7 & F8 & F9).
    destruct (zget_some (igmax L) ix) as (gm & GM); [lia|].
    pose proof (F8 ix gm K GM) as B. pose proof (maxig_ge L ix gm GM) as MG.
    destruct (F9 ix K) as (r & sr & R1 & R2 & R3 & R4).
    unfold row_sums. rewrite (proj2 (at_zget w (igmax L) ix gm ltac:(lia)) GM). simpl.
    destruct (loop_ok (fun _ => True) (sums_body w FgN sFgN L rho sig ix)
                (zrange (igmin L) gm) (0, 0, 0) I) as (f & E & _).
    - intros ig [[f1 f2] f3] IG _. apply in_zrange in IG. unfold sums_body.
      destruct (zget_some sig ig) as (s & S1); [lia|].
      destruct (zget_some rho (ix - ig + iu0 L)) as (rr & RR); [lia|].
      rewrite (proj2 (at_zget w sig ig s ltac:(lia)) S1). simpl.
      rewrite (proj2 (at_zget w rho (ix - ig + iu0 L) rr ltac:(lia)) RR). simpl.
      destruct (at2_ok sFgN ix ig sr ltac:(lia) R2 ltac:(lia)) as (sd & SD & _). rewrite SD. simpl.
      destruct (qltb_spec 0 sd) as [P|P]; [|eauto].
      assert (sd <> 0) by (now apply Qclt_neq).
      rewrite sdiv_ok by assumption. simpl.
      destruct (at2_ok FgN ix ig r ltac:(lia) R1 ltac:(lia)) as (ff & FF & _). rewrite FF. simpl.
      rewrite sdiv_ok; [simpl; eauto|]. apply Qclt_neq. now apply qcmul_pos.
    - rewrite E. simpl. destruct f as [[f1 f2] f3].
      destruct (qltb_spec 0 f1) as [P|P]; [|eauto].
      assert (0 < f1 * f1) by (now apply qcmul_pos).
      assert (0 < f1 * f1 * f1) by (now apply qcmul_pos).
      rewrite sdiv_ok by (now apply Qclt_neq). simpl.
      rewrite sdiv_ok by (now apply Qclt_neq). simpl. eauto.
  Qed.
  Lemma nd_row_ok row ix : (jmin L <= ix < jmax L)%Z -> Z.of_nat (length row) = size_use L ->
    exists row', nd_row w FgN sFgN L rho sig row ix = Ok row' /\ length row' = length row.
  Proof.
    intros K R. destruct (row_sums_ok ix K) as ([[f1 f2] f3] & E).
    destruct F as (F1 & F2 & F3 & F4 & F5 & F6 & F7 & F8 & F9).
    destruct (zget_some (igmax L) ix) as (gm & GM); [lia|].
    pose proof (maxig_ge L ix gm GM) as MG.
    destruct (F9 ix K) as (r & sr & R1 & R2 & R3 & R4).
    unfold nd_row. rewrite E. simpl. rewrite (proj2 (at_zget w (igmax L) ix gm ltac:(lia)) GM). simpl.
    apply (loop_ok (fun row' => length row' = length row)); [reflexivity|].
    intros ig row1 IG LR. apply in_zrange in IG. unfold nd_body.
    destruct (at2_ok sFgN ix ig sr ltac:(lia) R2 ltac:(lia)) as (sd & SD & _). rewrite SD. simpl.
    assert (SZ : (maxig L <= size_use L)%Z) by (unfold size_use; lia).
    destruct (qltb_spec 0 (f1 * sd)) as [P|P].
    - destruct (at2_ok FgN ix ig r ltac:(lia) R1 ltac:(lia)) as (ff & FF & _). rewrite FF. simpl.
      assert (N1 : f1 <> 0) by (intros ->; rewrite Qcmult_0_l in P; discriminate P).
      assert (N2 : sd <> 0) by (intros ->; rewrite Qcmult_0_r in P; discriminate P).
      assert (NZ : forall a b : Qc, a <> 0 -> b <> 0 -> a * b <> 0).
      { intros a b A B C. apply Qcmult_integral in C. tauto. }
      rewrite sdiv_ok by auto. simpl. rewrite sdiv_ok by auto. simpl.
      rewrite set_ok by lia. eexists. split; [reflexivity|]. now rewrite upd_length.
    - rewrite set_ok by lia. eexists. split; [reflexivity|]. now rewrite upd_length.
  Qed.

  (* the table is square *)
  Definition square (nd : list (list (Qc * Qc))) : Prop :=
    Z.of_nat (length nd) = Z.max 0 (size_use L) /\
    forall ix row, zget nd ix = Some row -> Z.of_nat (length row) = Z.max 0 (size_use L).
  Lemma nd_table_ok : exists nd, nd_table w FgN sFgN L rho sig = Ok nd /\ square nd.
  Proof.
    unfold nd_table. apply (loop_ok square).
    - split; [rewrite repeat_length; lia|]. intros ix row E. apply zget_In in E.
      apply repeat_spec in E. subst. rewrite repeat_length. lia.
    - intros ix m IX [S1 S2]. apply in_zrange in IX.
      assert (J : (0 <= jmin L)%Z) by apply F.
      assert (J2 : (0 <= iu0 L)%Z) by apply F.
      assert (SZ : (jmax L + iu0 L <= size_use L)%Z) by (unfold size_use; lia).
      destruct (zget_some m ix) as (row & R); [lia|].
      rewrite (proj2 (at_zget w m ix row ltac:(lia)) R). simpl.
      pose proof (S2 ix row R) as LR.
      destruct (nd_row_ok row ix IX ltac:(lia)) as (row' & E & LE). rewrite E. simpl.
      rewrite set_ok by lia. eexists. split; [reflexivity|]. split; [now rewrite upd_length|].
      intros iy ry. rewrite zget_upd by lia. destruct (Z.eqb_spec ix iy).
      + intros Q. injection Q as <-. lia.
      + apply S2.
  Qed.

  Lemma square_at nd ix ig : square nd -> (0 <= ix < size_use L)%Z -> (0 <= ig < size_use L)%Z ->
    exists e, at2 w nd ix ig = Ok e.
  Proof.
    intros [S1 S2] A B. destruct (zget_some nd ix) as (row & R); [lia|].
    pose proof (S2 ix row R) as LR. destruct (zget_some row ig) as (e & E); [lia|].
    exists e. unfold at2. rewrite (proj2 (at_zget w nd ix row ltac:(lia)) R). simpl.
    apply at_zget; [lia|exact E].
  Qed.
  Lemma sig_entry_ok v nd ig : 1 < v -> square nd -> (igmin L <= ig < maxig L)%Z ->
    exists x, sig_entry w L v rho sig nd ig = Ok x.
  Proof.
    intros V SQ K. destruct F as (F1 & F2 & F3 & F4 & F5 & F6 & F7 & F8 & F9).
    unfold sig_entry.
    destruct (loop_ok (fun _ => True) (sig_body w L rho nd ig)
                (zrange (Z.max (jmin L) ig) (jmax L)) (0, 0) I) as (ud & E & _).
    - intros ix s IX _. apply in_zrange in IX. unfold sig_body.
      destruct (zget_some rho (ix - ig + iu0 L)) as (r & R); [lia|].
      rewrite (proj2 (at_zget w rho (ix - ig + iu0 L)%Z r ltac:(lia)) R). simpl.
      destruct (square_at nd ix ig SQ) as (e & E); try (unfold size_use; lia).
      rewrite E. simpl. eauto.
    - rewrite E. simpl. destruct (zget_some sig ig) as (s & S1); [lia|].
      rewrite (proj2 (at_zget w sig ig s ltac:(lia)) S1). simpl. now apply new_value_ok.
  Qed.
  Lemma rho_entry_ok v nd iu : 1 < v -> square nd -> (0 <= iu < jmax L - igmin L + iu0 L)%Z ->
    exists x, rho_entry w L v rho sig nd iu = Ok x.
  Proof.
    intros V SQ K. destruct F as (F1 & F2 & F3 & F4 & F5 & F6 & F7 & F8 & F9).
    unfold rho_entry.
    destruct (loop_ok (fun _ => True) (rho_body w L sig nd iu)
                (zrange (Z.max (jmin L) iu) (jmax L)) (0, 0) I) as (ud & E & _).
    - intros ix s IX _. apply in_zrange in IX. unfold rho_body.
      destruct (zget_some sig (ix - iu + iu0 L)) as (r & R); [lia|].
      rewrite (proj2 (at_zget w sig (ix - iu + iu0 L)%Z r ltac:(lia)) R). simpl.
      destruct (square_at nd ix (ix - iu + iu0 L) SQ) as (e & E); try (unfold size_use; lia).
      rewrite E. simpl. eauto.
    - rewrite E. simpl. destruct (zget_some rho iu) as (s & S1); [lia|].
      rewrite (proj2 (at_zget w rho iu s ltac:(lia)) S1). simpl. now apply new_value_ok.
  Qed.

  Lemma step_ok v rho0 sig0 : 1 < v -> length rho0 = length rho -> length sig0 = length sig ->
    exists rs, step w FgN sFgN L v rho sig rho0 sig0 = Ok rs.
  Proof.
    intros V LR LS. unfold step. destruct nd_table_ok as (nd & E & SQ). rewrite E. simpl.
    destruct F as (F1 & F2 & F3 & F4 & F5 & F6 & F7 & F8 & F9).
    destruct (loop_set_ok w (sig_entry w L v rho sig nd) (zrange (igmin L) (maxig L)) sig0)
      as (s' & E1).
    - intros i K. apply in_zrange in K. lia.
    - intros i K. apply in_zrange in K. now apply sig_entry_ok.
    - rewrite E1. simpl.
      destruct (loop_set_ok w (rho_entry w L v rho sig nd)
                  (zrange 0 (jmax L - igmin L + iu0 L)) rho0) as (r' & E2).
      + intros i K. apply in_zrange in K. lia.
      + intros i K. apply in_zrange in K. now apply rho_entry_ok.
      + rewrite E2. simpl. eauto.
  Qed.
End Safe.
