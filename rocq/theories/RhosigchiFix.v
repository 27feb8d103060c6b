(* An exact factorisation is kept by the rhosigchi iteration. *)
From Coq Require Import List ZArith QArith Qcanon Lia Bool.
From Verif Require Import Num PyBase IndexProofs RhosigchiModel RhosigchiSpec RhosigchiProofs.
Import ListNotations.
Local Open Scope Qc_scope.

Lemma zget_entry l i x : zget l i = Some x -> entry l i = x.
Proof.
  unfold zget, entry. destruct (i <? 0)%Z; [discriminate|]. apply nth_error_nth.
Qed.
Lemma zget_gmax L ix gm : zget (igmax L) ix = Some gm -> gmax L ix = gm.
Proof.
  unfold zget, gmax. destruct (ix <? 0)%Z; [discriminate|]. apply nth_error_nth.
Qed.
Lemma at2_entry w m ix ig x : (0 <= ix)%Z -> (0 <= ig)%Z -> at2 w m ix ig = Ok x -> entry2 m ix ig = x.
Proof.
  intros I J. unfold at2. destruct (at_ w m ix) as [r|] eqn:E; simpl; [|discriminate].
  intros E2. apply at_zget in E; [|exact I]. apply at_zget in E2; [|exact J].
  unfold entry2. replace (ix <? 0)%Z with false by lia.
  unfold zget in E. replace (ix <? 0)%Z with false in E by lia.
  rewrite (nth_error_nth _ _ [] E). now apply zget_entry.
Qed.

(* the value written into the table *)
Definition nd_val w FgN sFgN (ix : Z) (f1 f2 f3 : Qc) (ig : Z) : result (Qc * Qc) :=
  do sd <- at2 w sFgN ix ig ;;
  if qltb 0 (f1 * sd) then
    do F <- at2 w FgN ix ig ;;
    do q <- sdiv F (f1 * (sd * sd)) ;;
    do d <- sdiv 1 ((f1 * sd) * (f1 * sd)) ;;
    Ok (f2 - f3 + q, d)
  else Ok (0, 0).
Lemma nd_body_val w FgN sFgN ix f1 f2 f3 row ig :
  nd_body w FgN sFgN ix f1 f2 f3 row ig
  = do x <- nd_val w FgN sFgN ix f1 f2 f3 ig ;; set_ w row ig x.
Proof.
  unfold nd_body, nd_val. destruct (at2 w sFgN ix ig) as [sd|]; simpl; [|reflexivity].
  destruct (qltb 0 (f1 * sd)); [|reflexivity].
  destruct (at2 w FgN ix ig) as [F|]; simpl; [|reflexivity].
  destruct (sdiv F (f1 * (sd * sd))) as [q|]; simpl; [|reflexivity].
  destruct (sdiv 1 (f1 * sd * (f1 * sd))) as [d|]; reflexivity.
Qed.
Lemma loop_ext {S} (b1 b2 : S -> Z -> result S) l s :
  (forall s i, b1 s i = b2 s i) -> loop b1 s l = loop b2 s l.
Proof.
  intros E. revert s. induction l as [|i l IH]; intros s; simpl; [reflexivity|].
  rewrite E. destruct (b2 s i); simpl; auto.
Qed.

Lemma loop_table {A} w (g : A -> Z -> result A) l m out :
  (forall i, In i l -> (0 <= i)%Z) -> NoDup l ->
  loop (fun m ix => do row <- at_ w m ix ;; do row' <- g row ix ;; set_ w m ix row') m l = Ok out ->
  (forall i, In i l -> exists row row', zget m i = Some row /\ g row i = Ok row' /\ zget out i = Some row') /\
  (forall i, ~ In i l -> zget out i = zget m i).
Proof.
  revert m. induction l as [|i l IH]; intros m P N; simpl.
  - intros E. injection E as ->. split; [intros i []|auto].
  - assert (I0 : (0 <= i)%Z) by (apply P; now left).
    destruct (at_ w m i) as [row|] eqn:Ea; simpl; [|discriminate].
    destruct (g row i) as [row'|] eqn:Eg; simpl; [|discriminate].
    destruct (set_ w m i row') as [m'|] eqn:Es; simpl; [|discriminate].
    apply set_inv in Es; [|exact I0]. destruct Es as (R & ->). intros E.
    inversion N as [|? ? N1 N2]; subst.
    destruct (IH (upd m (Z.to_nat i) row')) as (H1 & H2); [intros; apply P; now right|assumption|assumption|].
    split.
    + intros j [<-|J].
      * exists row, row'. split; [now apply (at_zget w)|]. split; [exact Eg|].
        rewrite H2 by assumption. rewrite zget_upd by exact R. now rewrite Z.eqb_refl.
      * destruct (H1 j J) as (r1 & r2 & Q1 & Q2 & Q3). exists r1, r2.
        rewrite zget_upd in Q1 by exact R. destruct (Z.eqb_spec i j) as [->|]; [contradiction|]. auto.
    + intros j J. rewrite H2 by (intros K; apply J; now right). rewrite zget_upd by exact R.
      destruct (Z.eqb_spec i j) as [->|]; [|reflexivity]. exfalso. apply J. now left.
Qed.

Section Fix.
  Variables (w : bool) (L : limits) (rho sig : list Qc) (FgN sFgN : list (list Qc)).
  Hypothesis G0 : (0 <= igmin L)%Z.
  Hypothesis J0 : (0 <= jmin L)%Z.
  Hypothesis FC : factorises L FgN sFgN rho sig.
  Hypothesis FT : forall ix gm, (jmin L <= ix < jmax L)%Z -> zget (igmax L) ix = Some gm ->
    (gm <= ix + iu0 L + 1)%Z.

  Local Notation P := (product L rho sig).
  Local Notation T := (row_total L rho sig).

  Lemma sums_value ix l f1 f2 f3 g :
    (jmin L <= ix < jmax L)%Z ->
    (forall ig, In ig l -> (igmin L <= ig < gmax L ix)%Z /\ (0 <= ix - ig + iu0 L)%Z) ->
    loop (sums_body w FgN sFgN L rho sig ix) (f1, f2, f3) l = Ok g ->
    exists h, g = (f1 + qsum (map (P ix) l), f2 + h, f3 + h / T ix).
  Proof.
    intros K. pose proof (proj1 (FC ix K)) as TP. assert (TN : T ix <> 0) by (now apply Qclt_neq).
    revert f1 f2 f3. induction l as [|ig l IH]; intros f1 f2 f3 Q; simpl.
    - intros E. injection E as <-. exists 0. f_equal; [f_equal|]; [ring|ring|field; exact TN].
    - destruct (Q ig (or_introl eq_refl)) as [IG IU].
      destruct (proj2 (FC ix K) ig IG) as [EF SP].
      destruct (at_ w sig ig) as [s|] eqn:Es; simpl; [|discriminate].
      destruct (at_ w rho (ix - ig + iu0 L)) as [r|] eqn:Er; simpl; [|discriminate].
      destruct (at2 w sFgN ix ig) as [sd|] eqn:Ed; simpl; [|discriminate].
      apply at_zget in Es; [|lia]. apply at_zget in Er; [|lia].
      apply at2_entry in Ed; [|lia|lia]. rewrite Ed in SP.
      assert (PE : P ix ig = s * r).
      { unfold product. now rewrite (zget_entry _ _ _ Es), (zget_entry _ _ _ Er). }
      assert (SN : sd <> 0) by (now apply Qclt_neq).
      rewrite (proj2 (qltb_lt 0 sd) SP). rewrite sdiv_ok by exact SN. simpl.
      destruct (at2 w FgN ix ig) as [F|] eqn:Ef; simpl; [|discriminate].
      apply at2_entry in Ef; [|lia|lia]. rewrite Ef, PE in EF.
      rewrite sdiv_ok. 2: { intros C. apply Qcmult_integral in C. tauto. }
      simpl. intros E. apply IH in E; [|intros; apply Q; now right].
      destruct E as (h & ->). exists (s * r / sd * (s * r / sd) + h).
      rewrite PE, EF. f_equal; [f_equal|]; [ring|ring|].
      field. auto.
  Qed.

  Lemma row_sums_value ix f1 f2 f3 : (jmin L <= ix < jmax L)%Z ->
    row_sums w FgN sFgN L rho sig ix = Ok (f1, f2, f3) -> f1 = T ix /\ f2 = f3.
  Proof.
    intros K. unfold row_sums.
    destruct (at_ w (igmax L) ix) as [gm|] eqn:Eg; simpl; [|discriminate].
    apply at_zget in Eg; [|lia]. pose proof (FT ix gm K Eg) as B.
    pose proof (zget_gmax _ _ _ Eg) as GM.
    destruct (loop (sums_body w FgN sFgN L rho sig ix) (0, 0, 0) (zrange (igmin L) gm)) as [g|] eqn:E;
      simpl; [|discriminate].
    apply sums_value in E; [|exact K|].
    2: { intros ig I. apply in_zrange in I. rewrite GM. lia. }
    destruct E as (h & ->). rewrite !Qcplus_0_l. rewrite <- GM. fold (T ix).
    pose proof (proj1 (FC ix K)) as TP. assert (TN : T ix <> 0) by (now apply Qclt_neq).
    rewrite (proj2 (qltb_lt 0 (T ix)) TP).
    assert (NZ : forall a b : Qc, a <> 0 -> b <> 0 -> a * b <> 0).
    { intros a b A B' C. apply Qcmult_integral in C. tauto. }
    rewrite sdiv_ok by auto. simpl. rewrite sdiv_ok by auto. simpl.
    intros Q. injection Q as <- <- <-. split; [reflexivity|]. field. exact TN.
  Qed.

  (* entries of the table: the numerator is the denominator times the product *)
  Lemma table_value nd ix ig n d :
    nd_table w FgN sFgN L rho sig = Ok nd -> (jmin L <= ix < jmax L)%Z -> (0 <= ig)%Z ->
    at2 w nd ix ig = Ok (n, d) ->
    n = P ix ig * d /\ 0 <= d /\ ((igmin L <= ig < gmax L ix)%Z -> 0 < d).
  Proof.
    intros E K I A. unfold nd_table in E.
    apply loop_table in E; [|intros i J; apply in_zrange in J; lia|apply NoDup_zrange].
    destruct E as [E _]. destruct (E ix) as (row & row' & R0 & R1 & R2); [now apply in_zrange|].
    apply zget_In, repeat_spec in R0. subst row.
    unfold at2 in A. rewrite (proj2 (at_zget w nd ix row' ltac:(lia)) R2) in A. simpl in A.
    apply at_zget in A; [|exact I].
    unfold nd_row in R1.
    destruct (row_sums w FgN sFgN L rho sig ix) as [[[f1 f2] f3]|] eqn:RS; simpl in R1; [|discriminate].
    destruct (row_sums_value ix f1 f2 f3 K RS) as [-> ->].
    destruct (at_ w (igmax L) ix) as [gm|] eqn:Eg; simpl in R1; [|discriminate].
    apply at_zget in Eg; [|lia]. rewrite (zget_gmax _ _ _ Eg).
    rewrite (loop_ext _ (fun row ig => do x <- nd_val w FgN sFgN ix (T ix) f3 f3 ig ;; set_ w row ig x)) in R1
      by (intros; apply nd_body_val).
    apply loop_set in R1; [|intros i J; apply in_zrange in J; lia|apply NoDup_zrange].
    destruct R1 as (_ & H1 & H2).
    destruct (Z_le_gt_dec (igmin L) ig) as [C1|C1]; [destruct (Z_lt_ge_dec ig gm) as [C2|C2]|].
    - destruct (H1 ig) as (x & X & Z1); [now apply in_zrange|].
      assert (x = (n, d)) by congruence. subst x.
      pose proof (proj1 (FC ix K)) as TP. assert (TN : T ix <> 0) by (now apply Qclt_neq).
      destruct (proj2 (FC ix K) ig) as [EF SP]; [rewrite (zget_gmax _ _ _ Eg); lia|].
      unfold nd_val in X. destruct (at2 w sFgN ix ig) as [sd|] eqn:Ed; simpl in X; [|discriminate].
      apply at2_entry in Ed; [|lia|lia]. rewrite Ed in SP.
      assert (SN : sd <> 0) by (now apply Qclt_neq).
      assert (TS : 0 < T ix * sd) by (now apply qcmul_pos).
      rewrite (proj2 (qltb_lt _ _) TS) in X.
      destruct (at2 w FgN ix ig) as [F|] eqn:Ef; simpl in X; [|discriminate].
      apply at2_entry in Ef; [|lia|lia]. rewrite Ef in EF.
      assert (NZ : forall a b : Qc, a <> 0 -> b <> 0 -> a * b <> 0).
      { intros a b A1 B' C. apply Qcmult_integral in C. tauto. }
      rewrite sdiv_ok in X by auto. simpl in X. rewrite sdiv_ok in X by auto. simpl in X.
      assert (XE : (f3 - f3 + F / (T ix * (sd * sd)), 1 / (T ix * sd * (T ix * sd))) = (n, d))
        by congruence.
      assert (N1 : n = f3 - f3 + F / (T ix * (sd * sd))) by congruence.
      assert (D1 : d = 1 / (T ix * sd * (T ix * sd))) by congruence.
      rewrite N1, D1, EF. split; [field; auto|].
      assert (0 < 1 / (T ix * sd * (T ix * sd))).
      { apply Qcdiv_pos; [reflexivity|]. now apply qcmul_pos. }
      split; [now apply Qclt_le_weak|auto].
    - rewrite H2 in A by (rewrite in_zrange; lia).
      apply zget_In, repeat_spec in A. injection A as -> ->.
      split; [ring|]. split; [apply Qcle_refl|lia].
    - rewrite H2 in A by (rewrite in_zrange; lia).
      apply zget_In, repeat_spec in A. injection A as -> ->.
      split; [ring|]. split; [apply Qcle_refl|lia].
  Qed.

  Lemma new_value_keep v old down x : 1 < v -> 0 <= old -> 0 < down ->
    new_value v old (old * down) down = Ok x -> x = old.
  Proof.
    intros V O D. assert (DN : down <> 0) by (now apply Qclt_neq).
    assert (VN : v <> 0) by (apply Qclt_neq; qlra).
    unfold new_value. rewrite (proj2 (qltb_lt _ _) D).
    rewrite sdiv_ok by exact DN. simpl. rewrite sdiv_ok by exact VN. simpl.
    replace (old * down / down) with old by (field; exact DN).
    assert (A : old <= v * old) by (assert (0 <= (v - 1) * old); [apply Qcmult_nonneg; qlra|qlra]).
    rewrite (proj2 (qltb_ge _ _) A).
    assert (B : old / v <= old) by (apply Qcdiv_le_l; [qlra|qlra]).
    rewrite (proj2 (qltb_ge _ _) B). intros E. now injection E.
  Qed.

  Lemma sig_loop nd ig l u d g :
    nd_table w FgN sFgN L rho sig = Ok nd -> (0 <= ig)%Z ->
    (forall ix, In ix l -> (jmin L <= ix < jmax L)%Z /\ (0 <= ix - ig + iu0 L)%Z) ->
    u = entry sig ig * d -> 0 <= d ->
    loop (sig_body w L rho nd ig) (u, d) l = Ok g ->
    fst g = entry sig ig * snd g /\ d <= snd g /\
    (forall ix, In ix l -> (igmin L <= ig < gmax L ix)%Z -> 0 < entry rho (ix - ig + iu0 L) -> 0 < snd g).
  Proof.
    intros ND I. revert u d. induction l as [|ix l IH]; intros u d Q U D; simpl.
    - intros E. injection E as <-. simpl. split; [exact U|]. split; [apply Qcle_refl|intros ? []].
    - destruct (Q ix (or_introl eq_refl)) as [K IU].
      unfold sig_body at 1.
      destruct (at_ w rho (ix - ig + iu0 L)) as [r|] eqn:Er; simpl; [|discriminate].
      destruct (at2 w nd ix ig) as [[n e]|] eqn:Ee; simpl; [|discriminate].
      apply at_zget in Er; [|lia]. apply zget_entry in Er.
      destruct (table_value nd ix ig n e ND K I Ee) as (EN & E0 & EP).
      assert (RR : 0 <= r * r * e).
      { apply Qcmult_nonneg; [|exact E0]. destruct (Qclt_le_dec r 0); [|now apply Qcmult_nonneg].
        replace (r * r) with ((- r) * (- r)) by ring. apply Qcmult_nonneg; qlra. }
      intros E. apply IH in E.
      + destruct E as (A & B & C). split; [exact A|]. split; [qlra|].
        intros iy [<-|Y] G R; [|now apply (C iy)].
        rewrite Er in R. specialize (EP G).
        assert (0 < r * r * e) by (apply qcmul_pos; [now apply qcmul_pos|exact EP]). qlra.
      + intros; apply Q; now right.
      + rewrite U, EN. unfold product. rewrite Er. ring.
      + qlra.
  Qed.
  Lemma rho_loop nd iu l u d g :
    nd_table w FgN sFgN L rho sig = Ok nd -> (0 <= iu)%Z ->
    (forall ix, In ix l -> (jmin L <= ix < jmax L)%Z /\ (0 <= ix - iu + iu0 L)%Z) ->
    u = entry rho iu * d -> 0 <= d ->
    loop (rho_body w L sig nd iu) (u, d) l = Ok g ->
    fst g = entry rho iu * snd g /\ d <= snd g /\
    (forall ix, In ix l -> (igmin L <= ix - iu + iu0 L < gmax L ix)%Z ->
       0 < entry sig (ix - iu + iu0 L) -> 0 < snd g).
  Proof.
    intros ND I. revert u d. induction l as [|ix l IH]; intros u d Q U D; simpl.
    - intros E. injection E as <-. simpl. split; [exact U|]. split; [apply Qcle_refl|intros ? []].
    - destruct (Q ix (or_introl eq_refl)) as [K IU]. unfold rho_body at 1.
      destruct (at_ w sig (ix - iu + iu0 L)) as [r|] eqn:Er; simpl; [|discriminate].
      destruct (at2 w nd ix (ix - iu + iu0 L)) as [[n e]|] eqn:Ee; simpl; [|discriminate].
      apply at_zget in Er; [|lia]. apply zget_entry in Er.
      destruct (table_value nd ix _ n e ND K IU Ee) as (EN & E0 & EP).
      assert (RR : 0 <= r * r * e).
      { apply Qcmult_nonneg; [|exact E0]. destruct (Qclt_le_dec r 0); [|now apply Qcmult_nonneg].
        replace (r * r) with ((- r) * (- r)) by ring. apply Qcmult_nonneg; qlra. }
      intros E. apply IH in E.
      + destruct E as (A & B & C). split; [exact A|]. split; [qlra|].
        intros iy [<-|Y] G R; [|now apply (C iy)].
        rewrite Er in R. specialize (EP G).
        assert (0 < r * r * e) by (apply qcmul_pos; [now apply qcmul_pos|exact EP]). qlra.
      + intros; apply Q; now right.
      + rewrite U, EN. unfold product. rewrite Er.
        replace (ix - (ix - iu + iu0 L) + iu0 L)%Z with iu by lia. ring.
      + qlra.
  Qed.
End Fix.
