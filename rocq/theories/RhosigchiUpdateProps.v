(* C108: one iteration of rhosigchi in closed form: what each new entry is, written with
   sums over the fitted region instead of loops over arrays. *)
From Coq Require Import List ZArith QArith Qcanon Lia Bool.
From Verif Require Import Num PyBase IndexProofs CutProofs RhosigchiModel RhosigchiSpec RhosigchiProofs RhosigchiFix RhosigchiProps.
Import ListNotations.
Local Open Scope Qc_scope.

(* ------------------------------------------------ specification *)
Definition total {A} (f : A -> Qc) (l : list A) : Qc := qsum (map f l).
Section Formula.
  Variables (L : limits) (FgN sFgN : list (list Qc)) (rho sig : list Qc).
  Local Notation F := (entry2 FgN).
  Local Notation sd := (entry2 sFgN).
  Local Notation P := (product L rho sig).
  Local Notation T := (row_total L rho sig).
  (* a bin of the fitted region with an uncertainty *)
  Definition counts_cell (ix ig : Z) : bool :=
    (igmin L <=? ig)%Z && (ig <? gmax L ix)%Z && qltb 0 (sd ix ig).
  Definition cells (ix : Z) : list Z := filter (fun ig => counts_cell ix ig) (zrange (igmin L) (gmax L ix)).
  (* sums over a row *)
  Definition row_pp (ix : Z) : Qc := total (fun ig => P ix ig * P ix ig / (sd ix ig * sd ix ig)) (cells ix).
  Definition row_pF (ix : Z) : Qc := total (fun ig => P ix ig * F ix ig / (sd ix ig * sd ix ig)) (cells ix).
  Definition nom (ix ig : Z) : Qc :=
    if counts_cell ix ig && qltb 0 (T ix)
    then row_pp ix / (T ix * T ix * T ix) - row_pF ix / (T ix * T ix) + F ix ig / (T ix * (sd ix ig * sd ix ig))
    else 0.
  Definition denom (ix ig : Z) : Qc :=
    if counts_cell ix ig && qltb 0 (T ix) then 1 / (T ix * T ix * (sd ix ig * sd ix ig)) else 0.
  Definition up_sig (ig : Z) : Qc :=
    total (fun ix => entry rho (ix - ig + iu0 L) * nom ix ig) (zrange (Z.max (jmin L) ig) (jmax L)).
  Definition down_sig (ig : Z) : Qc :=
    total (fun ix => entry rho (ix - ig + iu0 L) * entry rho (ix - ig + iu0 L) * denom ix ig) (zrange (Z.max (jmin L) ig) (jmax L)).
  Definition up_rho (iu : Z) : Qc :=
    total (fun ix => entry sig (ix - iu + iu0 L) * nom ix (ix - iu + iu0 L)) (zrange (Z.max (jmin L) iu) (jmax L)).
  Definition down_rho (iu : Z) : Qc :=
    total (fun ix => entry sig (ix - iu + iu0 L) * entry sig (ix - iu + iu0 L) * denom ix (ix - iu + iu0 L)) (zrange (Z.max (jmin L) iu) (jmax L)).
End Formula.
(* the quotient, limited to a change by the factor v *)
Definition limited (v old x : Qc) : Qc :=
  if qltb x (old / v) then old / v else if qltb (v * old) x then v * old else x.
Definition updated (v old up down : Qc) : Qc := if qltb 0 down then limited v old (up / down) else 0.

(* ------------------------------------------------ the loops *)
Lemma total_cons {A} (f : A -> Qc) a l : total f (a :: l) = f a + total f l.
Proof. reflexivity. Qed.
Lemma total_nonneg {A} (f : A -> Qc) l : (forall a, In a l -> 0 <= f a) -> 0 <= total f l.
Proof.
  induction l as [|a l IH]; intros H; [apply Qcle_refl|]. rewrite total_cons.
  assert (0 <= f a) by (apply H; now left). assert (0 <= total f l) by (apply IH; intros; apply H; now right). qlra.
Qed.
Lemma T_nonneg L rho sig ix : nonneg rho -> nonneg sig -> 0 <= row_total L rho sig ix.
Proof.
  intros A B. apply (total_nonneg (product L rho sig ix)). intros ig _. unfold product.
  apply Qcmult_nonneg; now apply entry_nonneg.
Qed.
Lemma new_value_updated v old up down : 1 < v -> 0 <= old -> new_value v old up down = Ok (updated v old up down).
Proof.
  intros V O. unfold new_value, updated, limited. destruct (qltb_spec 0 down) as [D|D]; [|reflexivity].
  rewrite sdiv_ok by (now apply Qclt_neq). cbn [rbind]. assert (v <> 0) by (apply Qclt_neq; qlra).
  rewrite sdiv_ok by assumption. cbn [rbind]. pose proof (div_le_mul v old V O) as LH.
  destruct (qltb_spec (v * old) (up / down)) as [A|A], (qltb_spec (up / down) (old / v)) as [B|B]; try reflexivity.
  exfalso. apply (Qclt_not_le _ _ A). apply Qcle_trans with (old / v); [now apply Qclt_le_weak|exact LH].
Qed.

Lemma triple_eq {A B C} (a a' : A) (b b' : B) (c c' : C) : a = a' -> b = b' -> c = c' -> (a, b, c) = (a', b', c').
Proof. congruence. Qed.
Lemma pair_eq {A B} (a a' : A) (b b' : B) : a = a' -> b = b' -> (a, b) = (a', b').
Proof. congruence. Qed.

Section Loops.
  Variables (w : bool) (L : limits) (rho sig : list Qc) (FgN sFgN : list (list Qc)).
  Hypothesis G0 : (0 <= igmin L)%Z.
  Hypothesis J0 : (0 <= jmin L)%Z.
  Hypothesis NR : nonneg rho.
  Hypothesis NS : nonneg sig.
  Hypothesis FT : forall ix gm, (jmin L <= ix < jmax L)%Z -> zget (igmax L) ix = Some gm -> (gm <= ix + iu0 L + 1)%Z.
  Local Notation P := (product L rho sig).
  Local Notation T := (row_total L rho sig).
  Local Notation cell := (counts_cell L sFgN).

  Lemma sums_general ix l f1 f2 f3 g : (jmin L <= ix < jmax L)%Z ->
    (forall ig, In ig l -> (igmin L <= ig < gmax L ix)%Z /\ (0 <= ix - ig + iu0 L)%Z) ->
    loop (sums_body w FgN sFgN L rho sig ix) (f1, f2, f3) l = Ok g ->
    g = (f1 + total (P ix) l,
         f2 + total (fun ig => P ix ig * P ix ig / (entry2 sFgN ix ig * entry2 sFgN ix ig)) (filter (fun ig => cell ix ig) l),
         f3 + total (fun ig => P ix ig * entry2 FgN ix ig / (entry2 sFgN ix ig * entry2 sFgN ix ig)) (filter (fun ig => cell ix ig) l)).
  Proof.
    intros K. revert f1 f2 f3. induction l as [|ig l IH]; intros f1 f2 f3 Q.
    - cbn [loop filter]. intros E. injection E as <-. unfold total. cbn [map qsum fold_right]. apply triple_eq; ring.
    - cbn [loop]. unfold sums_body at 1. destruct (Q ig (or_introl eq_refl)) as [IG IU].
      destruct (at_ w sig ig) as [s|] eqn:Es; cbn [rbind]; [|discriminate].
      destruct (at_ w rho (ix - ig + iu0 L)) as [r|] eqn:Er; cbn [rbind]; [|discriminate].
      destruct (at2 w sFgN ix ig) as [sd|] eqn:Ed; cbn [rbind]; [|discriminate].
      apply at_zget in Es; [|lia]. apply at_zget in Er; [|lia]. apply at2_entry in Ed; [|lia|lia].
      assert (PE : P ix ig = s * r).
      { unfold product. now rewrite (zget_entry _ _ _ Es), (zget_entry _ _ _ Er). }
      assert (CE : cell ix ig = qltb 0 sd).
      { unfold counts_cell. rewrite Ed. replace (igmin L <=? ig)%Z with true by lia. replace (ig <? gmax L ix)%Z with true by lia. reflexivity. }
      cbn [filter]. rewrite CE. destruct (qltb_spec 0 sd) as [SP|SP].
      + assert (SN : sd <> 0) by (now apply Qclt_neq).
        rewrite sdiv_ok by exact SN. cbn [rbind].
        destruct (at2 w FgN ix ig) as [F|] eqn:Ef; cbn [rbind]; [|discriminate].
        apply at2_entry in Ef; [|lia|lia].
        rewrite sdiv_ok. 2: { intros C. apply Qcmult_integral in C. tauto. }
        cbn [rbind]. intros E. apply IH in E; [|intros; apply Q; now right]. rewrite E.
        rewrite !total_cons, PE, Ef, Ed. apply triple_eq; [ring| |]; field; exact SN.
      + cbn [rbind]. intros E. apply IH in E; [|intros; apply Q; now right]. rewrite E.
        rewrite !total_cons, PE. apply triple_eq; ring.
  Qed.

  Lemma row_sums_general ix f1 f2 f3 : (jmin L <= ix < jmax L)%Z -> row_sums w FgN sFgN L rho sig ix = Ok (f1, f2, f3) ->
    f1 = T ix /\ (0 < T ix -> f2 = row_pp L sFgN rho sig ix / (T ix * T ix * T ix) /\ f3 = row_pF L FgN sFgN rho sig ix / (T ix * T ix)).
  Proof.
    intros K. unfold row_sums.
    destruct (at_ w (igmax L) ix) as [gm|] eqn:Eg; cbn [rbind]; [|discriminate].
    apply at_zget in Eg; [|lia]. pose proof (FT ix gm K Eg) as B. pose proof (zget_gmax _ _ _ Eg) as GM.
    destruct (loop (sums_body w FgN sFgN L rho sig ix) (0, 0, 0) (zrange (igmin L) gm)) as [g|] eqn:E; cbn [rbind]; [|discriminate].
    apply sums_general in E; [|exact K|intros ig I; apply in_zrange in I; rewrite GM; lia].
    rewrite E, !Qcplus_0_l, <- GM. fold (cells L sFgN ix).
    change (total (P ix) (zrange (igmin L) (gmax L ix))) with (T ix).
    change (total _ (cells L sFgN ix)) with (row_pp L sFgN rho sig ix) at 1.
    change (total _ (cells L sFgN ix)) with (row_pF L FgN sFgN rho sig ix).
    destruct (qltb_spec 0 (T ix)) as [TP|TP].
    - assert (TN : T ix <> 0) by (now apply Qclt_neq).
      assert (NZ : forall a b : Qc, a <> 0 -> b <> 0 -> a * b <> 0).
      { intros a b A' B' C. apply Qcmult_integral in C. tauto. }
      rewrite sdiv_ok by auto. cbn [rbind]. rewrite sdiv_ok by auto. cbn [rbind].
      intros Q. injection Q as <- <- <-. auto.
    - intros Q. injection Q as <- <- <-. split; [reflexivity|]. intros C. destruct (Qclt_not_le _ _ C TP).
  Qed.

  Lemma table_general nd ix ig e : nd_table w FgN sFgN L rho sig = Ok nd -> (jmin L <= ix < jmax L)%Z -> (0 <= ig)%Z ->
    at2 w nd ix ig = Ok e -> e = (nom L FgN sFgN rho sig ix ig, denom L sFgN rho sig ix ig).
  Proof.
    intros E K I A. unfold nd_table in E.
    apply loop_table in E; [|intros i J; apply in_zrange in J; lia|apply NoDup_zrange].
    destruct E as [E _]. destruct (E ix) as (row & row' & R0 & R1 & R2); [now apply in_zrange|].
    apply zget_In, repeat_spec in R0. subst row.
    unfold at2 in A. rewrite (proj2 (at_zget w nd ix row' ltac:(lia)) R2) in A. cbn [rbind] in A.
    apply at_zget in A; [|exact I].
    unfold nd_row in R1.
    destruct (row_sums w FgN sFgN L rho sig ix) as [[[f1 f2] f3]|] eqn:RS; cbn [rbind] in R1; [|discriminate].
    destruct (row_sums_general ix f1 f2 f3 K RS) as [-> RV].
    destruct (at_ w (igmax L) ix) as [gm|] eqn:Eg; cbn [rbind] in R1; [|discriminate].
    apply at_zget in Eg; [|lia]. pose proof (zget_gmax _ _ _ Eg) as GM.
    rewrite (loop_ext _ (fun row ig => do x <- nd_val w FgN sFgN ix (T ix) f2 f3 ig ;; set_ w row ig x)) in R1
      by (intros; apply nd_body_val).
    apply loop_set in R1; [|intros i J; apply in_zrange in J; lia|apply NoDup_zrange].
    destruct R1 as (_ & H1 & H2). unfold nom, denom.
    destruct ((igmin L <=? ig) && (ig <? gm))%Z eqn:IN.
    - assert (IG : (igmin L <= ig < gm)%Z) by lia.
      destruct (H1 ig) as (x & X & Z1); [now apply in_zrange|].
      assert (x = e) by congruence. subst x.
      unfold nd_val in X. destruct (at2 w sFgN ix ig) as [sd|] eqn:Ed; cbn [rbind] in X; [|discriminate].
      apply at2_entry in Ed; [|lia|lia].
      assert (CE : cell ix ig = qltb 0 sd) by (unfold counts_cell; rewrite Ed, GM, IN; reflexivity).
      rewrite CE, Ed. pose proof (T_nonneg L rho sig ix NR NS) as T0.
      destruct (qltb_spec 0 (T ix * sd)) as [TS|TS].
      + assert (TP : 0 < T ix). { apply Qcle_lt_or_eq in T0. destruct T0 as [T0|T0]; [exact T0|]. rewrite <- T0, Qcmult_0_l in TS. discriminate TS. }
        assert (SP : 0 < sd). { destruct (Qclt_le_dec 0 sd) as [S|S]; [exact S|]. exfalso. apply (Qclt_not_le _ _ TS).
          assert (0 <= T ix * (- sd)); [|qlra]. apply Qcmult_nonneg; qlra. }
        rewrite (proj2 (qltb_lt _ _) SP), (proj2 (qltb_lt _ _) TP). cbn [andb].
        assert (TN : T ix <> 0) by (now apply Qclt_neq). assert (SN : sd <> 0) by (now apply Qclt_neq).
        destruct (at2 w FgN ix ig) as [F|] eqn:Ef; cbn [rbind] in X; [|discriminate].
        apply at2_entry in Ef; [|lia|lia]. rewrite Ef.
        assert (NZ : forall a b : Qc, a <> 0 -> b <> 0 -> a * b <> 0).
        { intros a b A1 B' C. apply Qcmult_integral in C. tauto. }
        rewrite sdiv_ok in X by auto. cbn [rbind] in X. rewrite sdiv_ok in X by auto. cbn [rbind] in X.
        destruct (RV TP) as [-> ->]. assert (XE := f_equal (fun r => match r with Ok x => x | Raise _ => e end) X).
        cbn beta iota in XE. rewrite <- XE. apply pair_eq; [reflexivity|]. field. auto.
      + assert (e = (0, 0)) by congruence. subst e.
        destruct (qltb_spec 0 sd) as [SP|SP], (qltb_spec 0 (T ix)) as [TP|TP]; cbn [andb]; try reflexivity.
        exfalso. apply (Qclt_not_le _ _ (qcmul_pos _ _ TP SP) TS).
    - assert (CE : cell ix ig = false) by (unfold counts_cell; rewrite GM, IN; reflexivity). rewrite CE. cbn [andb].
      rewrite H2 in A by (rewrite in_zrange; lia). apply zget_In, repeat_spec in A. exact A.
  Qed.

  Lemma sig_loop_general nd ig l u d g : nd_table w FgN sFgN L rho sig = Ok nd -> (0 <= ig)%Z ->
    (forall ix, In ix l -> (jmin L <= ix < jmax L)%Z /\ (0 <= ix - ig + iu0 L)%Z) ->
    loop (sig_body w L rho nd ig) (u, d) l = Ok g ->
    g = (u + total (fun ix => entry rho (ix - ig + iu0 L) * nom L FgN sFgN rho sig ix ig) l,
         d + total (fun ix => entry rho (ix - ig + iu0 L) * entry rho (ix - ig + iu0 L) * denom L sFgN rho sig ix ig) l).
  Proof.
    intros ND I. revert u d. induction l as [|ix l IH]; intros u d Q; cbn [loop].
    - intros E. injection E as <-. unfold total. cbn [map qsum fold_right]. apply pair_eq; ring.
    - destruct (Q ix (or_introl eq_refl)) as [K IU]. unfold sig_body at 1.
      destruct (at_ w rho (ix - ig + iu0 L)) as [r|] eqn:Er; cbn [rbind]; [|discriminate].
      destruct (at2 w nd ix ig) as [e|] eqn:Ee; cbn [rbind]; [|discriminate].
      apply at_zget in Er; [|lia]. apply zget_entry in Er.
      pose proof (table_general nd ix ig e ND K I Ee) as TE. subst e. cbn [fst snd].
      intros E. apply IH in E; [|intros; apply Q; now right]. rewrite E, !total_cons, Er. apply pair_eq; ring.
  Qed.
  Lemma rho_loop_general nd iu l u d g : nd_table w FgN sFgN L rho sig = Ok nd -> (0 <= iu)%Z ->
    (forall ix, In ix l -> (jmin L <= ix < jmax L)%Z /\ (0 <= ix - iu + iu0 L)%Z) ->
    loop (rho_body w L sig nd iu) (u, d) l = Ok g ->
    g = (u + total (fun ix => entry sig (ix - iu + iu0 L) * nom L FgN sFgN rho sig ix (ix - iu + iu0 L)) l,
         d + total (fun ix => entry sig (ix - iu + iu0 L) * entry sig (ix - iu + iu0 L) * denom L sFgN rho sig ix (ix - iu + iu0 L)) l).
  Proof.
    intros ND I. revert u d. induction l as [|ix l IH]; intros u d Q; cbn [loop].
    - intros E. injection E as <-. unfold total. cbn [map qsum fold_right]. apply pair_eq; ring.
    - destruct (Q ix (or_introl eq_refl)) as [K IU]. unfold rho_body at 1.
      destruct (at_ w sig (ix - iu + iu0 L)) as [r|] eqn:Er; cbn [rbind]; [|discriminate].
      destruct (at2 w nd ix (ix - iu + iu0 L)) as [e|] eqn:Ee; cbn [rbind]; [|discriminate].
      apply at_zget in Er; [|lia]. apply zget_entry in Er.
      pose proof (table_general nd ix _ e ND K IU Ee) as TE. subst e. cbn [fst snd].
      intros E. apply IH in E; [|intros; apply Q; now right]. rewrite E, !total_cons, Er. apply pair_eq; ring.
  Qed.
End Loops.

(* ------------------------------------------------ the theorem *)
(* One iteration, C++ or Python: every entry in the ranges is the quotient of the two sums
   limited to a change by the factor v, or zero if nothing constrains it. *)
Theorem step_formula : forall wrap FgN sFgN L v rho sig rho0 sig0, fits L rho sig FgN sFgN -> 1 < v ->
  nonneg rho -> nonneg sig -> length rho0 = length rho -> length sig0 = length sig ->
  exists rho' sig', step wrap FgN sFgN L v rho sig rho0 sig0 = Ok (rho', sig') /\
  (forall ig, (igmin L <= ig < maxig L)%Z ->
     entry sig' ig = updated v (entry sig ig) (up_sig L FgN sFgN rho sig ig) (down_sig L sFgN rho sig ig)) /\
  (forall iu, (0 <= iu < jmax L - igmin L + iu0 L)%Z ->
     entry rho' iu = updated v (entry rho iu) (up_rho L FgN sFgN rho sig iu) (down_rho L sFgN rho sig iu)).
Proof.
  intros wrap FgN sFgN L v rho sig rho0 sig0 F V NR NS LR LS.
  destruct (step_ok wrap L rho sig FgN sFgN F v rho0 sig0 V LR LS) as ([rho' sig'] & E).
  exists rho', sig'. split; [exact E|].
  assert (GM : (0 <= igmin L)%Z) by apply F. assert (JM : (0 <= jmin L)%Z) by apply F.
  assert (IU0 : (0 <= iu0 L)%Z) by apply F.
  assert (FT : forall ix gm, (jmin L <= ix < jmax L)%Z -> zget (igmax L) ix = Some gm -> (gm <= ix + iu0 L + 1)%Z) by apply F.
  destruct (step_entries _ _ _ _ _ _ _ _ _ _ _ GM E) as (nd & ND & _ & _ & A & _ & C & _).
  split.
  - intros ig K. destruct (A ig K) as (x & X & Z). rewrite (zget_entry _ _ _ Z).
    destruct (sig_entry_old wrap L v rho sig nd ig x ltac:(lia) X) as (old & O).
    unfold sig_entry in X.
    destruct (loop (sig_body wrap L rho nd ig) (0, 0) (zrange (Z.max (jmin L) ig) (jmax L))) as [ud|] eqn:EL; cbn [rbind] in X; [|discriminate X].
    rewrite (proj2 (at_zget wrap sig ig old ltac:(lia)) O) in X. cbn [rbind] in X.
    apply (sig_loop_general wrap L rho sig FgN sFgN GM JM NR NS FT nd ig) in EL; [|exact ND|lia|intros iy IY; apply in_zrange in IY; lia].
    rewrite EL, !Qcplus_0_l in X. cbn [fst snd] in X. rewrite (zget_entry _ _ _ O).
    assert (O0 : 0 <= old) by (rewrite <- (zget_entry _ _ _ O); now apply entry_nonneg).
    rewrite new_value_updated in X by assumption. injection X as <-. reflexivity.
  - intros iu K. destruct (C iu K) as (x & X & Z). rewrite (zget_entry _ _ _ Z).
    destruct (rho_entry_old wrap L v rho sig nd iu x ltac:(lia) X) as (old & O).
    unfold rho_entry in X.
    destruct (loop (rho_body wrap L sig nd iu) (0, 0) (zrange (Z.max (jmin L) iu) (jmax L))) as [ud|] eqn:EL; cbn [rbind] in X; [|discriminate X].
    rewrite (proj2 (at_zget wrap rho iu old ltac:(lia)) O) in X. cbn [rbind] in X.
    apply (rho_loop_general wrap L rho sig FgN sFgN GM JM NR NS FT nd iu) in EL; [|exact ND|lia|intros iy IY; apply in_zrange in IY; lia].
    rewrite EL, !Qcplus_0_l in X. cbn [fst snd] in X. rewrite (zget_entry _ _ _ O).
    assert (O0 : 0 <= old) by (rewrite <- (zget_entry _ _ _ O); now apply entry_nonneg).
    rewrite new_value_updated in X by assumption. injection X as <-. reflexivity.
Qed.
Print Assumptions step_formula.

(* ------------------------------------------------ cases *)
(* With bins above the diagonal (iu0 > 0) the update leaves out their rows: here the matrix is
   exactly the product of rho and sig, yet the entry of sig at the bin above the diagonal
   becomes zero. *)
Definition up_L : limits := mkLim 0 1 0 [2%Z] 1.
Definition up_F : list (list Qc) := [[qn 1 2; qn 1 2]].
Definition up_sd : list (list Qc) := [[1; 1]].
Theorem exact_solution_lost_refuted :
  fits up_L [1; 1] [1; 1] up_F up_sd /\ factorises up_L up_F up_sd [1; 1] [1; 1] /\
  (forall wrap, exists rho' sig', step wrap up_F up_sd up_L (qn 12 10) [1; 1] [1; 1] [0; 0] [0; 0] = Ok (rho', sig') /\
     entry sig' 1 = 0 /\ entry rho' 1 = 0).
Proof.
  repeat split; try (cbn; lia).
  - intros ix gm K Z. cbn in K. assert (ix = 0%Z) by lia. subst ix. cbn in Z. injection Z as <-. cbn. lia.
  - intros ix K. cbn in K. assert (ix = 0%Z) by lia. subst ix. exists [qn 1 2; qn 1 2], [1; 1]. repeat split; cbn; lia.
  - assert (ix = 0%Z) by (cbn in H; lia). subst ix. apply qltb_lt. vm_compute. reflexivity.
  - assert (ix = 0%Z) by (cbn in H; lia). subst ix. assert (ig = 0 \/ ig = 1)%Z as [-> | ->] by (cbn in H0; lia); apply qeqb_eq; vm_compute; reflexivity.
  - assert (ix = 0%Z) by (cbn in H; lia). subst ix. assert (ig = 0 \/ ig = 1)%Z as [-> | ->] by (cbn in H0; lia); apply qltb_lt; vm_compute; reflexivity.
  - intros []; do 2 eexists; (split; [vm_compute; reflexivity|]); repeat split; apply qeqb_eq; vm_compute; reflexivity.
Qed.
Print Assumptions exact_solution_lost_refuted.
(* A bin without uncertainty is not fitted: sig becomes zero where all bins are like that,
   although the matrix is the product of rho and sig there. *)
Definition us_L : limits := mkLim 0 2 0 [1%Z; 2%Z] 0.
Theorem no_uncertainty_lost_refuted : exists FgN sFgN,
  fits us_L [1; 1] [1; 1] FgN sFgN /\
  (forall ix ig, (0 <= ix < 2)%Z -> (0 <= ig < gmax us_L ix)%Z -> entry2 FgN ix ig = product us_L [1; 1] [1; 1] ix ig / row_total us_L [1; 1] [1; 1] ix) /\
  (forall wrap, exists rho' sig', step wrap FgN sFgN us_L (qn 12 10) [1; 1] [1; 1] [0; 0] [0; 0] = Ok (rho', sig') /\ entry sig' 1 = 0).
Proof.
  exists [[1; 0]; [qn 1 2; qn 1 2]], [[1; 0]; [1; 0]]. repeat split; try (cbn; lia).
  - intros ix gm K Z. cbn in K. assert (ix = 0 \/ ix = 1)%Z as [-> | ->] by lia; cbn in Z; injection Z as <-; cbn; lia.
  - intros ix K. cbn in K. assert (ix = 0 \/ ix = 1)%Z as [-> | ->] by lia; do 2 eexists; repeat split; cbn; lia.
  - intros ix ig K G. assert (ix = 0 \/ ix = 1)%Z as [-> | ->] by lia.
    + change (gmax us_L 0) with 1%Z in G. assert (ig = 0)%Z as -> by lia. apply qeqb_eq; vm_compute; reflexivity.
    + change (gmax us_L 1) with 2%Z in G. assert (ig = 0 \/ ig = 1)%Z as [-> | ->] by lia; apply qeqb_eq; vm_compute; reflexivity.
  - intros []; do 2 eexists; (split; [vm_compute; reflexivity|]); repeat split; apply qeqb_eq; vm_compute; reflexivity.
Qed.
Print Assumptions no_uncertainty_lost_refuted.
