(* The rhosigchi iteration keeps positivity, moves by bounded steps and is free of
   errors (C63). *)
From Coq Require Import List ZArith QArith Qcanon Lia Bool.
From Verif Require Import Num PyBase IndexProofs CutProofs RhosigchiModel RhosigchiSpec
  RhosigchiProofs RhosigchiFix.
Import ListNotations.
Local Open Scope Qc_scope.

(* ------------------------------------------------ one iteration *)

Lemma entry_nonneg l i : nonneg l -> 0 <= entry l i.
Proof.
  intros N. unfold entry. destruct (i <? 0)%Z; [apply Qcle_refl|].
  destruct (nth_in_or_default (Z.to_nat i) l 0) as [I| ->]; [now apply N|apply Qcle_refl].
Qed.
Lemma entry_repeat0 n i : entry (repeat 0 n) i = 0.
Proof.
  unfold entry. destruct (i <? 0)%Z; [reflexivity|].
  destruct (nth_in_or_default (Z.to_nat i) (repeat 0 n) 0) as [I|E]; [|exact E].
  now apply repeat_spec in I.
Qed.
Lemma entry_zget l i : entry l i = match zget l i with Some x => x | None => 0 end.
Proof.
  unfold entry, zget. destruct (i <? 0)%Z; [reflexivity|].
  destruct (nth_error l (Z.to_nat i)) eqn:E; [now apply nth_error_nth|].
  apply nth_overflow. now apply nth_error_None.
Qed.

Lemma new_value_allowed v old up down x :
  1 < v -> 0 <= old -> new_value v old up down = Ok x -> allowed v old x.
Proof.
  intros V O E. destruct (new_value_spec v old up down x V O E) as [N [[A B]|(A & B & C)]].
  - split; [exact N|left; exact A].
  - split; [exact N|right; auto].
Qed.

(* One iteration of the C++ loop (wrap = false) or of its Python version (wrap = true):
   each written entry is the old one changed by at most the factor v, or zero. The other
   entries of the rows written to stay. *)
Theorem step_allowed wrap FgN sFgN L v rho sig rho0 sig0 rho' sig' :
  (0 <= igmin L)%Z -> 1 < v -> nonneg rho -> nonneg sig ->
  step wrap FgN sFgN L v rho sig rho0 sig0 = Ok (rho', sig') ->
  (forall ig, (igmin L <= ig < maxig L)%Z -> allowed v (entry sig ig) (entry sig' ig)) /\
  (forall ig, ~ (igmin L <= ig < maxig L)%Z -> entry sig' ig = entry sig0 ig) /\
  (forall iu, (0 <= iu < jmax L - igmin L + iu0 L)%Z -> allowed v (entry rho iu) (entry rho' iu)) /\
  (forall iu, ~ (0 <= iu < jmax L - igmin L + iu0 L)%Z -> entry rho' iu = entry rho0 iu).
Proof.
  intros G V NR NS E.
  destruct (step_entries _ _ _ _ _ _ _ _ _ _ _ G E) as (nd & _ & _ & _ & A & B & C & D).
  repeat split.
  1, 2: destruct (A ig H) as (x & X & Z); rewrite (zget_entry _ _ _ Z).
  1, 2: destruct (sig_entry_old wrap L v rho sig nd ig x ltac:(lia) X) as (old & O);
        rewrite ?(zget_entry _ _ _ O);
        assert (O0 : 0 <= old) by (rewrite <- (zget_entry _ _ _ O); now apply entry_nonneg);
        destruct (sig_entry_spec wrap L v rho sig nd ig x old V ltac:(lia) O O0 X) as (up & down & Q);
        apply (new_value_allowed v old up down x V O0 Q).
  - intros ig K. now rewrite !entry_zget, B.
  - destruct (C iu H) as (x & X & Z); rewrite (zget_entry _ _ _ Z).
    destruct (rho_entry_old wrap L v rho sig nd iu x ltac:(lia) X) as (old & O).
    assert (O0 : 0 <= old) by (rewrite <- (zget_entry _ _ _ O); now apply entry_nonneg).
    destruct (rho_entry_spec wrap L v rho sig nd iu x old V ltac:(lia) O O0 X) as (up & down & Q).
    apply (new_value_allowed v old up down x V O0 Q).
  - destruct (C iu H) as (x & X & Z); rewrite (zget_entry _ _ _ Z).
    destruct (rho_entry_old wrap L v rho sig nd iu x ltac:(lia) X) as (old & O).
    rewrite (zget_entry _ _ _ O).
    assert (O0 : 0 <= old) by (rewrite <- (zget_entry _ _ _ O); now apply entry_nonneg).
    destruct (rho_entry_spec wrap L v rho sig nd iu x old V ltac:(lia) O O0 X) as (up & down & Q).
    apply (new_value_allowed v old up down x V O0 Q).
  - intros iu K. now rewrite !entry_zget, D.
Qed.
Print Assumptions step_allowed.

(* A zero stays zero. *)
Theorem allowed_zero v new : allowed v 0 new -> new = 0.
Proof.
  intros [N [E|[A B]]]; [exact E|]. rewrite Qcmult_0_r in B. now apply Qcle_antisym.
Qed.
Print Assumptions allowed_zero.

(* ------------------------------------------------ all iterations *)

Lemma nonneg_entry l : (forall i, 0 <= entry l i) -> nonneg l.
Proof.
  intros E x I. destruct (In_nth l x 0 I) as (k & K & <-).
  specialize (E (Z.of_nat k)). unfold entry in E. replace (Z.of_nat k <? 0)%Z with false in E by lia.
  now rewrite Nat2Z.id in E.
Qed.

Definition rho_of (rows : list (list Qc * list Qc)) (k : nat) : list Qc := fst (nth k rows ([], [])).
Definition sig_of (rows : list (list Qc * list Qc)) (k : nat) : list Qc := snd (nth k rows ([], [])).

Lemma iterate_from_allowed wrap FgN sFgN L nr ns n : (0 <= igmin L)%Z ->
  forall it rho sig out, nonneg rho -> nonneg sig ->
  iterate_from wrap FgN sFgN L it rho sig (repeat (repeat 0 nr, repeat 0 ns) n) = Ok out ->
  length out = S n /\ nth 0 out ([], []) = (rho, sig) /\
  forall k, (k < n)%nat -> forall i,
    allowed (var (it + k)) (entry (rho_of out k) i) (entry (rho_of out (S k)) i) /\
    allowed (var (it + k)) (entry (sig_of out k) i) (entry (sig_of out (S k)) i).
Proof.
  intros G. induction n as [|n IH]; intros it rho sig out NR NS; simpl.
  - intros E. assert (out = [(rho, sig)]) as -> by congruence. repeat split; lia.
  - destruct (step wrap FgN sFgN L (var it) rho sig (repeat 0 nr) (repeat 0 ns)) as [[r1 s1]|] eqn:E1;
      simpl; [|intros Q; discriminate Q].
    destruct (iterate_from wrap FgN sFgN L (S it) r1 s1 (repeat (repeat 0 nr, repeat 0 ns) n))
      as [out1|] eqn:E2; simpl; [|intros Q; discriminate Q].
    intros E. assert (out = (rho, sig) :: out1) as -> by congruence. clear E.
    destruct (step_allowed _ _ _ _ _ _ _ _ _ _ _ G (var_ge_1 it) NR NS E1) as (A & B & C & D).
    assert (A' : forall i, allowed (var it) (entry sig i) (entry s1 i)).
    { intros i. destruct (Z_le_gt_dec (igmin L) i); [destruct (Z_lt_ge_dec i (maxig L))|].
      - apply A. lia.
      - rewrite B by lia. rewrite entry_repeat0. split; [apply Qcle_refl|now left].
      - rewrite B by lia. rewrite entry_repeat0. split; [apply Qcle_refl|now left]. }
    assert (C' : forall i, allowed (var it) (entry rho i) (entry r1 i)).
    { intros i. destruct (Z_le_gt_dec 0 i); [destruct (Z_lt_ge_dec i (jmax L - igmin L + iu0 L))|].
      - apply C. lia.
      - rewrite D by lia. rewrite entry_repeat0. split; [apply Qcle_refl|now left].
      - rewrite D by lia. rewrite entry_repeat0. split; [apply Qcle_refl|now left]. }
    destruct (IH (S it) r1 s1 out1) as (L1 & F1 & R1).
    + apply nonneg_entry. intros i. apply C'.
    + apply nonneg_entry. intros i. apply A'.
    + exact E2.
    + split; [simpl; lia|]. split; [reflexivity|].
      intros [|k] K i.
      * unfold rho_of, sig_of. cbn [nth]. rewrite F1. cbn [fst snd].
        replace (it + 0)%nat with it by lia. auto.
      * specialize (R1 k ltac:(lia) i). unfold rho_of, sig_of in *. cbn [nth].
        replace (it + S k)%nat with (S it + k)%nat by lia. exact R1.
Qed.

(* Over the whole run: the first row is the initial guess, and from each row to the next
   every entry changes by at most the factor of that iteration or becomes zero, and never
   becomes negative. *)
Theorem iterate_allowed wrap FgN sFgN L rho sig nr ns n out :
  (0 <= igmin L)%Z -> nonneg rho -> nonneg sig ->
  iterate wrap FgN sFgN L ((rho, sig) :: repeat (repeat 0 nr, repeat 0 ns) n) = Ok out ->
  length out = S n /\ rho_of out 0 = rho /\ sig_of out 0 = sig /\
  forall k, (k < n)%nat -> forall i,
    allowed (var (S k)) (entry (rho_of out k) i) (entry (rho_of out (S k)) i) /\
    allowed (var (S k)) (entry (sig_of out k) i) (entry (sig_of out (S k)) i).
Proof.
  intros G NR NS E. destruct (iterate_from_allowed wrap FgN sFgN L nr ns n G 1 rho sig out NR NS E)
    as (A & B & C).
  split; [exact A|]. unfold rho_of at 1, sig_of at 1. rewrite B. split; [reflexivity|]. split; [reflexivity|].
  intros k K i. exact (C k K i).
Qed.
Print Assumptions iterate_allowed.

(* the largest total change in n iterations *)
Fixpoint growth (n : nat) : Qc :=
  match n with O => 1 | S n' => growth n' * var (S n') end.
Lemma growth_pos n : 0 < growth n.
Proof.
  induction n as [|n IH]; simpl; [reflexivity|]. apply qcmul_pos; [exact IH|].
  pose proof (var_ge_1 (S n)). qlra.
Qed.

(* Hence the total change is bounded, and an entry that was zero once stays zero. *)
Theorem iterate_bounded wrap FgN sFgN L rho sig nr ns n out k i :
  (0 <= igmin L)%Z -> nonneg rho -> nonneg sig ->
  iterate wrap FgN sFgN L ((rho, sig) :: repeat (repeat 0 nr, repeat 0 ns) n) = Ok out ->
  (k <= n)%nat ->
  allowed (growth k) (entry rho i) (entry (rho_of out k) i) /\
  allowed (growth k) (entry sig i) (entry (sig_of out k) i).
Proof.
  intros G NR NS E K.
  destruct (iterate_allowed wrap FgN sFgN L rho sig nr ns n out G NR NS E) as (_ & R0 & S0 & H).
  assert (T : forall (x : nat -> Qc), 0 <= x O ->
    (forall k, (k < n)%nat -> allowed (var (S k)) (x k) (x (S k))) ->
    allowed (growth k) (x O) (x k)).
  { intros x X0 A. induction k as [|k IH].
    - split; [exact X0|]. right. simpl. split.
      + replace (x 0%nat / 1) with (x 0%nat) by (field; discriminate). apply Qcle_refl.
      + rewrite Qcmult_1_l. apply Qcle_refl.
    - specialize (IH ltac:(lia)). specialize (A k ltac:(lia)).
      destruct IH as [N0 IH], A as [N1 A]. split; [exact N1|].
      destruct A as [->|[A1 A2]]; [now left|].
      pose proof (var_ge_1 (S k)) as V. pose proof (growth_pos k) as GP.
      destruct IH as [Z|[B1 B2]].
      + left. rewrite Z, Qcmult_0_r in A2. now apply Qcle_antisym.
      + right. change (growth (S k)) with (growth k * var (S k)).
        assert (VN : var (S k) <> 0) by (apply Qclt_neq; qlra).
        assert (GN : growth k <> 0) by (now apply Qclt_neq).
        split.
        * apply Qcle_trans with (x k / var (S k)); [|exact A1].
          apply Qcdiv_le_l; [apply qcmul_pos; [exact GP|qlra]|].
          replace (x k / var (S k) * (growth k * var (S k))) with (x k * growth k) by (field; exact VN).
          replace (x 0%nat) with (x 0%nat / growth k * growth k) by (field; exact GN).
          apply Qcmult_le_compat_r; [exact B1|now apply Qclt_le_weak].
        * apply Qcle_trans with (var (S k) * x k); [exact A2|].
          replace (growth k * var (S k) * x 0%nat) with ((growth k * x 0%nat) * var (S k)) by ring.
          rewrite Qcmult_comm. apply Qcmult_le_compat_r; [exact B2|qlra]. }
  split.
  - rewrite <- R0. apply (T (fun k => entry (rho_of out k) i)).
    + rewrite R0. now apply entry_nonneg.
    + intros k' K'. apply H. exact K'.
  - rewrite <- S0. apply (T (fun k => entry (sig_of out k) i)).
    + rewrite S0. now apply entry_nonneg.
    + intros k' K'. apply H. exact K'.
Qed.
Print Assumptions iterate_bounded.

(* ------------------------------------------------ no error *)

(* If the arrays have the sizes that pyrhosigchi gives them and no counts lie more than
   iu0 bins above the diagonal, nothing is divided by zero and no index is out of range,
   in the C++ and in the Python version. *)
Theorem iterate_safe wrap FgN sFgN L rho sig n :
  fits L rho sig FgN sFgN ->
  exists out, iterate wrap FgN sFgN L
    ((rho, sig) :: repeat (repeat 0 (length rho), repeat 0 (length sig)) n) = Ok out.
Proof.
  intros F. unfold iterate. generalize 1%nat as it.
  assert (GM : (0 <= igmin L)%Z) by apply F.
  assert (T : forall n it rho1 sig1, length rho1 = length rho -> length sig1 = length sig ->
    exists out, iterate_from wrap FgN sFgN L it rho1 sig1
                  (repeat (repeat 0 (length rho), repeat 0 (length sig)) n) = Ok out).
  2: { intros it. now apply T. }
  clear n. induction n as [|n IH]; intros it rho1 sig1 LR LS; simpl; [eauto|].
  assert (F1 : fits L rho1 sig1 FgN sFgN) by (unfold fits in *; rewrite LR, LS; exact F).
  destruct (step_ok wrap L rho1 sig1 FgN sFgN F1 (var it) (repeat 0 (length rho)) (repeat 0 (length sig))
              (var_ge_1 it)) as ([r2 s2] & E).
  { now rewrite repeat_length. } { now rewrite repeat_length. }
  rewrite E. cbn [rbind fst snd].
  destruct (step_entries _ _ _ _ _ _ _ _ _ _ _ GM E) as (nd & _ & L1 & L2 & _).
  rewrite repeat_length in L1, L2.
  destruct (IH (S it) r2 s2 L1 L2) as (out & EO). rewrite EO. cbn [rbind]. eauto.
Qed.
Print Assumptions iterate_safe.

(* ------------------------------------------------ exact solutions *)

(* If the matrix is exactly the product of level density and transmission coefficient,
   the iteration keeps both, wherever at least one row constrains them. *)
Theorem exact_solution_kept wrap FgN sFgN L v rho sig rho0 sig0 rho' sig' :
  fits L rho sig FgN sFgN -> 1 < v -> nonneg rho -> nonneg sig ->
  factorises L FgN sFgN rho sig ->
  step wrap FgN sFgN L v rho sig rho0 sig0 = Ok (rho', sig') ->
  (forall ig ix, (igmin L <= ig < maxig L)%Z -> (Z.max (jmin L) ig <= ix < jmax L)%Z ->
     (ig < gmax L ix)%Z -> 0 < entry rho (ix - ig + iu0 L) ->
     entry sig' ig = entry sig ig) /\
  (forall iu ix, (0 <= iu < jmax L - igmin L + iu0 L)%Z -> (Z.max (jmin L) iu <= ix < jmax L)%Z ->
     (igmin L <= ix - iu + iu0 L < gmax L ix)%Z -> 0 < entry sig (ix - iu + iu0 L) ->
     entry rho' iu = entry rho iu).
Proof.
  intros F V NR NS FC E.
  assert (GM : (0 <= igmin L)%Z) by apply F. assert (JM : (0 <= jmin L)%Z) by apply F.
  assert (IU0 : (0 <= iu0 L)%Z) by apply F.
  assert (FT : forall ix gm, (jmin L <= ix < jmax L)%Z -> zget (igmax L) ix = Some gm ->
            (gm <= ix + iu0 L + 1)%Z) by apply F.
  destruct (step_entries _ _ _ _ _ _ _ _ _ _ _ GM E) as (nd & ND & _ & _ & A & _ & C & _).
  split.
  - intros ig ix K1 K2 K3 K4. destruct (A ig K1) as (x & X & Z). rewrite (zget_entry _ _ _ Z).
    destruct (sig_entry_old wrap L v rho sig nd ig x ltac:(lia) X) as (old & O).
    unfold sig_entry in X.
    destruct (loop (sig_body wrap L rho nd ig) (0, 0) (zrange (Z.max (jmin L) ig) (jmax L)))
      as [ud|] eqn:EL; cbn [rbind] in X; [|discriminate X].
    rewrite (proj2 (at_zget wrap sig ig old ltac:(lia)) O) in X. cbn [rbind] in X.
    assert (PRE : forall iy, In iy (zrange (Z.max (jmin L) ig) (jmax L)) ->
              (jmin L <= iy < jmax L)%Z /\ (0 <= iy - ig + iu0 L)%Z).
    { intros iy IY. apply in_zrange in IY. lia. }
    destruct (sig_loop wrap L rho sig FgN sFgN GM JM FC FT nd ig _ 0 0 ud ND ltac:(lia) PRE
                ltac:(ring) (Qcle_refl 0) EL) as (U & _ & P).
    assert (DP : 0 < snd ud). { apply (P ix); [apply in_zrange; lia|lia|exact K4]. }
    rewrite (zget_entry _ _ _ O) in *. rewrite U in X.
    apply (new_value_keep v old (snd ud) x V); [|exact DP|exact X].
    rewrite <- (zget_entry _ _ _ O). now apply entry_nonneg.
  - intros iu ix K1 K2 K3 K4. destruct (C iu K1) as (x & X & Z). rewrite (zget_entry _ _ _ Z).
    destruct (rho_entry_old wrap L v rho sig nd iu x ltac:(lia) X) as (old & O).
    unfold rho_entry in X.
    destruct (loop (rho_body wrap L sig nd iu) (0, 0) (zrange (Z.max (jmin L) iu) (jmax L)))
      as [ud|] eqn:EL; cbn [rbind] in X; [|discriminate X].
    rewrite (proj2 (at_zget wrap rho iu old ltac:(lia)) O) in X. cbn [rbind] in X.
    assert (PRE : forall iy, In iy (zrange (Z.max (jmin L) iu) (jmax L)) ->
              (jmin L <= iy < jmax L)%Z /\ (0 <= iy - iu + iu0 L)%Z).
    { intros iy IY. apply in_zrange in IY. lia. }
    destruct (rho_loop wrap L rho sig FgN sFgN GM JM FC FT nd iu _ 0 0 ud ND ltac:(lia) PRE
                ltac:(ring) (Qcle_refl 0) EL) as (U & _ & P).
    assert (DP : 0 < snd ud). { apply (P ix); [apply in_zrange; lia|lia|exact K4]. }
    rewrite (zget_entry _ _ _ O) in *. rewrite U in X.
    apply (new_value_keep v old (snd ud) x V); [|exact DP|exact X].
    rewrite <- (zget_entry _ _ _ O). now apply entry_nonneg.
Qed.
Print Assumptions exact_solution_kept.

(* ------------------------------------------------ normalisation *)

Lemma slice_bound_range n i : (0 <= n)%Z -> (0 <= slice_bound n i <= n)%Z.
Proof. intros N. unfold slice_bound. destruct (Z.ltb_spec i 0); lia. Qed.

(* The part of a row inside the limits is divided by its sum, so that it sums to one;
   outside the row is zero. *)
Theorem normalize_row_sum lo hi row r :
  normalize_row lo hi row = Some r -> py_slice row lo hi <> [] ->
  qsum r = 1 /\ length r = length row.
Proof.
  unfold normalize_row. set (part := py_slice row lo hi). intros E N.
  assert (PN : Nat.eqb (length part) 0 = false).
  { destruct part; [contradiction|reflexivity]. }
  rewrite PN in E. cbn [negb] in E. rewrite andb_true_r in E.
  destruct (qeqb_spec (qsum part) 0) as [Z|Z]; [discriminate E|].
  assert (E' : r = tab (length row) (fun j =>
     if (slice_bound (Z.of_nat (length row)) lo <=? Z.of_nat j)%Z
        && (Z.of_nat j <? slice_bound (Z.of_nat (length row)) hi)%Z
     then vget row j / qsum part else 0)) by congruence.
  clear E. rewrite E'. split; [|now rewrite tab_length].
  pose proof (slice_bound_range (Z.of_nat (length row)) lo ltac:(lia)) as A.
  pose proof (slice_bound_range (Z.of_nat (length row)) hi ltac:(lia)) as B.
  unfold part, py_slice in N.
  set (a := slice_bound (Z.of_nat (length row)) lo) in *.
  set (b := slice_bound (Z.of_nat (length row)) hi) in *.
  assert (AB : (a < b)%Z).
  { destruct (Z_lt_ge_dec a b); [assumption|]. exfalso. apply N.
    now replace (Z.to_nat (b - a)) with 0%nat by lia. }
  rewrite qsum_tab. rewrite (sumn_range _ (Z.to_nat a) (Z.to_nat (b - a))).
  - rewrite (sumn_ext _ _ (fun i => vget row (Z.to_nat a + i) / qsum part)).
    + rewrite sumn_div.
      assert (PE : qsum part = sumn (Z.to_nat (b - a)) (fun i => vget row (Z.to_nat a + i))).
      { rewrite qsum_nth. unfold part, py_slice. fold a b.
        rewrite firstn_length, skipn_length.
        replace (Nat.min (Z.to_nat (b - a)) (length row - Z.to_nat a)) with (Z.to_nat (b - a)) by lia.
        apply sumn_ext. intros i I. unfold vget. rewrite nth_firstn_lt by lia. apply nth_skipn. }
      rewrite <- PE. field. exact Z.
    + intros i I. replace ((a <=? Z.of_nat (Z.to_nat a + i))%Z && (Z.of_nat (Z.to_nat a + i) <? b)%Z) with true.
      * reflexivity.
      * symmetry. apply andb_true_intro. clear - A B AB I. clearbody a b. split; [apply Z.leb_le|apply Z.ltb_lt]; rewrite Nat2Z.inj_add, Z2Nat.id by lia; lia.
  - lia.
  - intros i I K. replace ((a <=? Z.of_nat i)%Z && (Z.of_nat i <? b)%Z) with false; [reflexivity|].
    symmetry. apply andb_false_iff. clear - A B AB I K. clearbody a b. destruct K; [left|right]; lia.
Qed.
Print Assumptions normalize_row_sum.

(* Non-negative rows are never divided by zero if they contain a positive entry, and stay
   non-negative. *)
Theorem normalize_row_nonneg lo hi row :
  nonneg row -> (exists x, In x (py_slice row lo hi) /\ 0 < x) ->
  exists r, normalize_row lo hi row = Some r /\ nonneg r.
Proof.
  intros N (x & X & XP). unfold normalize_row.
  assert (S0 : 0 < qsum (py_slice row lo hi)).
  { assert (PN : forall y, In y (py_slice row lo hi) -> 0 <= y).
    { intros y Y. apply N. eapply py_slice_in; eassumption. }
    revert X PN. induction (py_slice row lo hi) as [|y l IH]; [intros []|].
    simpl. intros [->|I] PN.
    - assert (0 <= qsum l) by (apply qsum_nonneg; intros; apply PN; now right). qlra.
    - assert (0 < qsum l) by (apply IH; [exact I|intros; apply PN; now right]).
      assert (0 <= y) by (apply PN; now left). qlra. }
  destruct (qeqb_spec (qsum (py_slice row lo hi)) 0) as [Z|Z]; [rewrite Z in S0; discriminate S0|].
  cbn [andb]. eexists. split; [reflexivity|].
  intros y Y. apply in_tab in Y. destruct Y as (i & I & ->).
  match goal with |- 0 <= if ?b then _ else _ => destruct b end; [|apply Qcle_refl].
  apply Qcdiv_nonneg; [|now apply Qclt_le_weak]. apply N. unfold vget. now apply nth_In.
Qed.
Print Assumptions normalize_row_nonneg.

(* ------------------------------------------------ a run *)

Definition fg_ex : list (list Qc) := [ql [1;0;0]; ql [3;1;0]; ql [2;3;5]]%Z.
Definition std_ex : list (list Qc) := [ql [1;1;1]; ql [1;1;1]; ql [1;1;1]]%Z.
(* the hypotheses of iterate_safe hold for a matrix filled up to the diagonal *)
Example run_ex : match run fg_ex std_ex 1 3 0 0 2 with
                 | Ok (Some rows) => Nat.eqb (length rows) 2 | _ => false end = true.
Proof. vm_compute. reflexivity. Qed.
Definition lim_ex : limits := mkLim 1 3 0 [0; 2; 3]%Z 0.
Example fits_ex : fits lim_ex (ql [1;1;1]%Z) (ql [1;1;1]%Z) fg_ex std_ex.
Proof.
  unfold fits, lim_ex; cbn [jmin jmax igmin igmax iu0 length]. repeat split; try lia;
    try (vm_compute; discriminate).
  - intros ix gm K. assert (ix = 1 \/ ix = 2)%Z as [-> | ->] by lia; cbn; intros E; injection E; lia.
  - intros ix K. assert (ix = 1 \/ ix = 2)%Z as [-> | ->] by lia; do 2 eexists;
      (split; [reflexivity|]; split; [reflexivity|]; split; vm_compute; discriminate).
Qed.
(* an exact product: rho = (1, 2, 4), sig = (2, 3, 5) *)
Definition rho_ex := ql [1;2;4]%Z.
Definition sig_ex := ql [2;3;5]%Z.
Definition fgn_ex : list (list Qc) :=
  [ql [0;0;0]%Z; [qn 4 7; qn 3 7; 0]; [qn 8 19; qn 6 19; qn 5 19]].
Example factor_ex : factorises lim_ex fgn_ex std_ex rho_ex sig_ex.
Proof.
  intros ix K. cbn [jmin jmax lim_ex] in K.
  assert (ix = 1 \/ ix = 2)%Z as [-> | ->] by lia; (split; [apply qltb_lt; reflexivity|]);
    intros ig G; change (igmin lim_ex) with 0%Z in G.
  - change (gmax lim_ex 1) with 2%Z in G. assert (ig = 0 \/ ig = 1)%Z as [-> | ->] by lia;
      (split; [apply qeqb_eq; reflexivity|apply qltb_lt; reflexivity]).
  - change (gmax lim_ex 2) with 3%Z in G. assert (ig = 0 \/ ig = 1 \/ ig = 2)%Z as [-> | [-> | ->]] by lia;
      (split; [apply qeqb_eq; reflexivity|apply qltb_lt; reflexivity]).
Qed.
Example keep_ex : match step false fgn_ex std_ex lim_ex (var 1) rho_ex sig_ex (ql [0;0;0]%Z) (ql [0;0;0]%Z) with
                  | Ok (r, s) => leqb r rho_ex && leqb s sig_ex
                  | _ => false end = true.
Proof. vm_compute. reflexivity. Qed.

(* ------------------------------------------------ where it goes wrong *)

(* A count more than u0 bins above the diagonal makes the code read outside of the level
   density array. *)
Theorem above_diagonal_refuted :
  exists fg std, nonneg (concat fg) /\ run fg std 1 3 0 0 4 = Raise IndexError.
Proof.
  exists [ql [1;0;0]; ql [3;1;1]; ql [2;3;5]]%Z, std_ex. split; [|vm_compute; reflexivity].
  intros x I. simpl in I. repeat (destruct I as [<-|I]; [apply qleb_le; reflexivity|]). destruct I.
Qed.
Print Assumptions above_diagonal_refuted.

(* Negative counts can make the sum of a row zero; it is divided by zero. *)
Theorem normalize_zero_refuted : exists fg, run fg std_ex 1 3 0 0 4 = Ok None.
Proof. exists [ql [1;0;0]; ql [-1;1;0]; ql [2;3;5]]%Z. vm_compute. reflexivity. Qed.
Print Assumptions normalize_zero_refuted.

(* The same happens to a disturbed matrix (pyrhosigchi.py 323-329) whose counts in a row
   were all set to zero. *)
Theorem normalize_array_zero_refuted :
  exists m, nonneg (concat m) /\ normalize_array m lim_ex = Ok None.
Proof.
  exists [ql [0;0;0]; ql [0;0;0]; ql [2;3;5]]%Z. split; [|vm_compute; reflexivity].
  intros x I. simpl in I. repeat (destruct I as [<-|I]; [apply qleb_le; reflexivity|]). destruct I.
Qed.
Print Assumptions normalize_array_zero_refuted.

(* Negative counts can give a negative transmission coefficient. *)
Theorem negative_counts_refuted :
  exists fg rows, run fg std_ex 1 3 0 0 2 = Ok (Some rows) /\
    exists k i, entry (sig_of rows k) i < 0.
Proof.
  set (fg := [ql [1;0;0]; ql [-3;5;0]; ql [-2;3;5]]%Z).
  assert (T : match run fg std_ex 1 3 0 0 2 with
              | Ok (Some rows) => qltb (entry (sig_of rows 1) 0) 0 | _ => false end = true)
    by (vm_compute; reflexivity).
  exists fg. destruct (run fg std_ex 1 3 0 0 2) as [[rows|]|]; try discriminate T.
  exists rows. split; [reflexivity|]. exists 1%nat, 0%Z. now apply qltb_lt.
Qed.
Print Assumptions negative_counts_refuted.

(* The uncertainties are not normalised with the counts: a matrix and its double (with
   doubled uncertainties) have the same normalised counts, but not the same
   uncertainties. *)
Theorem normalize_std_refuted :
  exists m std L r, normalize m std L = Ok (Some r, std) /\
    normalize (map (map (Qcmult (qz 2))) m) (map (map (Qcmult (qz 2))) std) L
      = Ok (Some r, map (map (Qcmult (qz 2))) std) /\
    map (map (Qcmult (qz 2))) std <> std.
Proof.
  exists fg_ex, std_ex, lim_ex.
  assert (T : match normalize_rows lim_ex 0 fg_ex,
                    normalize_rows lim_ex 0 (map (map (Qcmult (qz 2))) fg_ex) with
              | Ok (Some r1), Ok (Some r2) => lleqb r2 r1 | _, _ => false end = true)
    by (vm_compute; reflexivity).
  unfold normalize. destruct (normalize_rows lim_ex 0 fg_ex) as [[r1|]|]; try discriminate T.
  destruct (normalize_rows lim_ex 0 (map (map (Qcmult (qz 2))) fg_ex)) as [[r2|]|]; try discriminate T.
  apply lleqb_eq in T. subst r2. exists r1. repeat split.
  intros E. apply lleqb_eq in E. vm_compute in E. discriminate E.
Qed.
Print Assumptions normalize_std_refuted.

(* chisquare is not the sum of the terms divided by the degrees of freedom: the sum so
   far is divided again for each row. *)
Theorem chisquare_refuted :
  exists deg rows, (forall r e, In r rows -> In e r -> e <> None) /\ (0 < deg)%Z /\
    chi_of_rows deg rows
    <> qsum (map (fun e => match e with Some x => x | None => 0 end) (concat rows)) / qz deg.
Proof.
  exists 2%Z, [[Some (qz 4)]; [Some (qz 4)]]. split.
  - intros r e [<-|[<-|[]]] [<-|[]]; discriminate.
  - split; [lia|]. apply qeqb_neq. vm_compute. reflexivity.
Qed.
Print Assumptions chisquare_refuted.
