(* C108: the update of rhosigchi is the condition that chi square has no slope, and every
   entry moves against the slope. *)
From Coq Require Import List ZArith QArith Qcanon Reals Lia Bool.
From Coquelicot Require Import Coquelicot.
From Verif Require Import Num PyBase IndexProofs CutProofs RhosigchiModel RhosigchiSpec RhosigchiProofs RhosigchiFix RhosigchiProps
  ComptonProps RhosigchiUpdateProps.
From Coq Require Import Lra.
Import ListNotations.
Local Open Scope R_scope.

(* ------------------------------------------------ specification *)
Definition rtotal {A} (f : A -> R) (l : list A) : R := fold_right Rplus 0 (map f l).
(* the matrix modelled by rho and sig, as functions of real numbers *)
Definition model_row (L : limits) (rho sig : Z -> R) (ix : Z) : R :=
  rtotal (fun ig => sig ig * rho (ix - ig + iu0 L)%Z) (zrange (igmin L) (gmax L ix)).
Definition model_at (L : limits) (rho sig : Z -> R) (ix ig : Z) : R :=
  sig ig * rho (ix - ig + iu0 L)%Z / model_row L rho sig ix.
(* chi square: squared deviations over the fitted region, in units of the uncertainty *)
Definition chi2 (L : limits) (FgN sFgN : list (list Qc)) (rho sig : Z -> R) : R :=
  rtotal (fun ix => rtotal (fun ig => ((qr (entry2 FgN ix ig) - model_at L rho sig ix ig) / qr (entry2 sFgN ix ig)) ^ 2)
                           (zrange (igmin L) (gmax L ix))) (zrange (jmin L) (jmax L)).
Definition put (f : Z -> R) (i : Z) (x : R) : Z -> R := fun j => if Z.eqb j i then x else f j.
Definition as_fun (l : list Qc) : Z -> R := fun i => qr (entry l i).
(* every bin of the region has an uncertainty, and every row a model *)
Definition all_certain (L : limits) (sFgN : list (list Qc)) : Prop :=
  forall ix ig, (jmin L <= ix < jmax L)%Z -> (igmin L <= ig < gmax L ix)%Z -> (0 < entry2 sFgN ix ig)%Qc.
Definition rows_positive (L : limits) (rho sig : list Qc) : Prop :=
  forall ix, (jmin L <= ix < jmax L)%Z -> (0 < row_total L rho sig ix)%Qc.
(* the slopes of chi square *)
Definition slope_sig L FgN sFgN rho sig ig (d : R) : Prop :=
  is_derive (fun x => chi2 L FgN sFgN (as_fun rho) (put (as_fun sig) ig x)) (as_fun sig ig) d.
Definition slope_rho L FgN sFgN rho sig iu (d : R) : Prop :=
  is_derive (fun x => chi2 L FgN sFgN (put (as_fun rho) iu x) (as_fun sig)) (as_fun rho iu) d.

(* ------------------------------------------------ sums *)
Lemma rtotal_cons {A} (f : A -> R) a l : rtotal f (a :: l) = f a + rtotal f l.
Proof. reflexivity. Qed.
Lemma rtotal_ext {A} (f g : A -> R) l : (forall a, In a l -> f a = g a) -> rtotal f l = rtotal g l.
Proof.
  induction l as [|a l IH]; intros H; [reflexivity|]. rewrite !rtotal_cons, IH by (intros; apply H; now right).
  now rewrite H by (now left).
Qed.
Lemma rtotal_plus {A} (f g : A -> R) l : rtotal (fun a => f a + g a) l = rtotal f l + rtotal g l.
Proof. induction l as [|a l IH]; [unfold rtotal; cbn; lra|]. rewrite !rtotal_cons, IH. lra. Qed.
Lemma rtotal_scal {A} c (f : A -> R) l : rtotal (fun a => c * f a) l = c * rtotal f l.
Proof. induction l as [|a l IH]; [unfold rtotal; cbn; lra|]. rewrite !rtotal_cons, IH. lra. Qed.
Lemma rtotal_zero {A} (f : A -> R) l : (forall a, In a l -> f a = 0) -> rtotal f l = 0.
Proof.
  intros H. rewrite (rtotal_ext f (fun a => 0 * 1)) by (intros; rewrite H by assumption; lra). rewrite rtotal_scal. lra.
Qed.
Lemma rtotal_app {A} (f : A -> R) l m : rtotal f (l ++ m) = rtotal f l + rtotal f m.
Proof. induction l as [|a l IH]; [unfold rtotal; cbn; lra|]. cbn [app]. rewrite !rtotal_cons, IH. lra. Qed.
Lemma rtotal_pick (f : Z -> R) j0 l : NoDup l -> In j0 l -> rtotal (fun j => if Z.eqb j j0 then f j else 0) l = f j0.
Proof.
  induction l as [|a l IH]; intros N I; [destruct I|]. inversion N as [|? ? N1 N2]; subst. rewrite rtotal_cons.
  destruct I as [-> | I].
  - rewrite Z.eqb_refl, rtotal_zero; [lra|]. intros j J. destruct (Z.eqb_spec j j0) as [->|]; [contradiction|reflexivity].
  - destruct (Z.eqb_spec a j0) as [->|]; [contradiction|]. rewrite IH by assumption. lra.
Qed.
Lemma qr_total {A} (f : A -> Qc) l : qr (total f l) = rtotal (fun a => qr (f a)) l.
Proof. induction l as [|a l IH]; [apply qr_0|]. rewrite total_cons, qr_add, IH. reflexivity. Qed.
Lemma rtotal_derive {A} (f : A -> R -> R) (d : A -> R) x l : (forall a, In a l -> is_derive (f a) x (d a)) ->
  is_derive (fun y => rtotal (fun a => f a y) l) x (rtotal d l).
Proof.
  induction l as [|a l IH]; intros H.
  - apply (is_derive_const (K := R_AbsRing) (V := R_NormedModule) 0 x).
  - apply (is_derive_ext (fun y => f a y + rtotal (fun b => f b y) l)); [intros; reflexivity|]. rewrite rtotal_cons.
    apply (is_derive_plus (K := R_AbsRing) (V := R_NormedModule) (f a)); [apply H; now left|]. apply IH. intros; apply H; now right.
Qed.

(* ------------------------------------------------ one row *)
Lemma term_derive (F s : R) (p T : R -> R) p' T' x : T x <> 0 -> s <> 0 -> is_derive p x p' -> is_derive T x T' ->
  is_derive (fun y => ((F - p y / T y) / s) ^ 2) x (2 * ((F - p x / T x) / s) * (- (p' * T x - p x * T') / (T x * T x) / s)).
Proof.
  intros TN SN DP DT. auto_derive.
  - split; [now exists p'|]. split; [now exists T'|]. split; [exact TN|exact I].
  - assert (E1 : Derive (fun y : R => p y) x = p') by (apply is_derive_unique; exact DP).
    assert (E2 : Derive (fun y : R => T y) x = T') by (apply is_derive_unique; exact DT).
    rewrite E1, E2. field. auto.
Qed.
(* p_j depends on x only for j = j0, where its slope is b *)
Lemma row_derive (F s : Z -> R) (p : Z -> R -> R) (l : list Z) j0 b x : NoDup l -> (forall j, In j l -> s j <> 0) ->
  (forall j, In j l -> is_derive (p j) x (if Z.eqb j j0 then b else 0)) ->
  rtotal (fun j => p j x) l <> 0 ->
  is_derive (fun y => rtotal (fun j => ((F j - p j y / rtotal (fun k => p k y) l) / s j) ^ 2) l) x
    (let T := rtotal (fun j => p j x) l in
     if in_dec Z.eq_dec j0 l then
       2 * (b * p j0 x / (T * T * (s j0 * s j0)) -
            b * (rtotal (fun j => p j x * p j x / (s j * s j)) l / (T * T * T) - rtotal (fun j => p j x * F j / (s j * s j)) l / (T * T)
                 + F j0 / (T * (s j0 * s j0))))
     else 0).
Proof.
  intros N S D TN. set (T := rtotal (fun j => p j x) l) in *.
  assert (DT : is_derive (fun y => rtotal (fun k => p k y) l) x (rtotal (fun j => if Z.eqb j j0 then b else 0) l)) by (now apply rtotal_derive).
  set (T' := rtotal (fun j => if Z.eqb j j0 then b else 0) l) in *.
  assert (DS : is_derive (fun y => rtotal (fun j => ((F j - p j y / rtotal (fun k => p k y) l) / s j) ^ 2) l) x
    (rtotal (fun j => 2 * ((F j - p j x / T) / s j) * (- ((if Z.eqb j j0 then b else 0) * T - p j x * T') / (T * T) / s j)) l)).
  { apply (rtotal_derive (fun j y => ((F j - p j y / rtotal (fun k => p k y) l) / s j) ^ 2)). intros j J.
    apply (term_derive (F j) (s j) (p j) (fun y => rtotal (fun k => p k y) l)); [exact TN|now apply S|now apply D|exact DT]. }
  cbv zeta. refine (eq_rect _ (is_derive _ _) DS _ _). match goal with |- ?a = ?b => change (@eq R a b) end.
  destruct (in_dec Z.eq_dec j0 l) as [I|I].
  - assert (TE : T' = b) by (apply (rtotal_pick (fun _ => b)); assumption). rewrite TE.
    rewrite (rtotal_ext _ (fun j => (if Z.eqb j j0 then - 2 * b / T * ((F j - p j x / T) / (s j * s j)) else 0)
       + (2 * b / (T * T) * (p j x * F j / (s j * s j)) + (- 2 * b / (T * T * T)) * (p j x * p j x / (s j * s j))))).
    2:{ intros j J. pose proof (S j J). destruct (Z.eqb j j0); field; auto. }
    rewrite rtotal_plus, rtotal_plus, !rtotal_scal.
    rewrite (rtotal_pick (fun j => - 2 * b / T * ((F j - p j x / T) / (s j * s j))) j0 l N I).
    pose proof (S j0 I). field. auto.
  - assert (TE : T' = 0). { apply rtotal_zero. intros j J. destruct (Z.eqb_spec j j0) as [->|]; [contradiction|reflexivity]. }
    rewrite TE. apply rtotal_zero. intros j J. destruct (Z.eqb_spec j j0) as [->|]; [contradiction|]. pose proof (S j J). field. auto.
Qed.

Section Slopes.
  Variables (L : limits) (FgN sFgN : list (list Qc)) (rho sig : list Qc).
  Hypothesis AC : all_certain L sFgN.
  Hypothesis RP : rows_positive L rho sig.

  Lemma certain_cells ix : (jmin L <= ix < jmax L)%Z -> cells L sFgN ix = zrange (igmin L) (gmax L ix).
  Proof.
    intros K. unfold cells. assert (H : forall l, (forall ig, In ig l -> (igmin L <= ig < gmax L ix)%Z) -> filter (fun ig => counts_cell L sFgN ix ig) l = l).
    { induction l as [|g l IH]; intros H; [reflexivity|]. cbn [filter]. rewrite IH by (intros; apply H; now right).
      assert (G : (igmin L <= g < gmax L ix)%Z) by (apply H; now left).
      unfold counts_cell. rewrite (proj2 (qltb_lt _ _) (AC ix g K G)).
      replace (igmin L <=? g)%Z with true by lia. replace (g <? gmax L ix)%Z with true by lia. reflexivity. }
    apply H. intros ig I. now apply in_zrange in I.
  Qed.
  Lemma T_real ix : rtotal (fun ig => as_fun sig ig * as_fun rho (ix - ig + iu0 L)) (zrange (igmin L) (gmax L ix)) = qr (row_total L rho sig ix).
  Proof. change (row_total L rho sig ix) with (total (product L rho sig ix) (zrange (igmin L) (gmax L ix))). rewrite qr_total. apply rtotal_ext. intros ig _. unfold product. now rewrite qr_mul. Qed.
  Lemma T_ne ix : (jmin L <= ix < jmax L)%Z -> qr (row_total L rho sig ix) <> 0.
  Proof. intros K. apply qr_neq. apply Qclt_neq. now apply RP. Qed.
  Lemma sd_ne ix ig : (jmin L <= ix < jmax L)%Z -> (igmin L <= ig < gmax L ix)%Z -> entry2 sFgN ix ig <> 0%Qc.
  Proof. intros K G. apply Qclt_neq. now apply AC. Qed.
  Lemma pp_real ix : (jmin L <= ix < jmax L)%Z -> qr (row_pp L sFgN rho sig ix) =
    rtotal (fun ig => (as_fun sig ig * as_fun rho (ix - ig + iu0 L)%Z) * (as_fun sig ig * as_fun rho (ix - ig + iu0 L)%Z) / (qr (entry2 sFgN ix ig) * qr (entry2 sFgN ix ig)))
      (zrange (igmin L) (gmax L ix)).
  Proof.
    intros K. unfold row_pp. rewrite certain_cells, qr_total by exact K. apply rtotal_ext. intros ig I. apply in_zrange in I.
    pose proof (sd_ne ix ig K I) as SN. rewrite qr_div by (intros C; apply Qcmult_integral in C; tauto). unfold product. now rewrite !qr_mul.
  Qed.
  Lemma pF_real ix : (jmin L <= ix < jmax L)%Z -> qr (row_pF L FgN sFgN rho sig ix) =
    rtotal (fun ig => (as_fun sig ig * as_fun rho (ix - ig + iu0 L)%Z) * qr (entry2 FgN ix ig) / (qr (entry2 sFgN ix ig) * qr (entry2 sFgN ix ig)))
      (zrange (igmin L) (gmax L ix)).
  Proof.
    intros K. unfold row_pF. rewrite certain_cells, qr_total by exact K. apply rtotal_ext. intros ig I. apply in_zrange in I.
    pose proof (sd_ne ix ig K I) as SN. rewrite qr_div by (intros C; apply Qcmult_integral in C; tauto). unfold product. now rewrite !qr_mul.
  Qed.
  Lemma nom_real ix ig : (jmin L <= ix < jmax L)%Z -> (igmin L <= ig < gmax L ix)%Z ->
    let T := qr (row_total L rho sig ix) in let s := qr (entry2 sFgN ix ig) in
    qr (nom L FgN sFgN rho sig ix ig) = qr (row_pp L sFgN rho sig ix) / (T * T * T) - qr (row_pF L FgN sFgN rho sig ix) / (T * T)
      + qr (entry2 FgN ix ig) / (T * (s * s)) /\
    qr (denom L sFgN rho sig ix ig) = 1 / (T * T * (s * s)).
  Proof.
    intros K G. cbv zeta. unfold nom, denom.
    assert (C : counts_cell L sFgN ix ig = true).
    { unfold counts_cell. rewrite (proj2 (qltb_lt _ _) (AC ix ig K G)). replace (igmin L <=? ig)%Z with true by lia. replace (ig <? gmax L ix)%Z with true by lia. reflexivity. }
    rewrite C, (proj2 (qltb_lt _ _) (RP ix K)). cbn [andb].
    pose proof (sd_ne ix ig K G) as SN. assert (TN : row_total L rho sig ix <> 0%Qc) by (apply Qclt_neq; now apply RP).
    assert (NZ : forall a b : Qc, a <> 0%Qc -> b <> 0%Qc -> (a * b)%Qc <> 0%Qc).
    { intros a b A' B' Q. apply Qcmult_integral in Q. tauto. }
    split.
    - rewrite qr_add, qr_sub, !qr_div by auto. now rewrite !qr_mul.
    - rewrite qr_div by auto. rewrite !qr_mul, qr_1. reflexivity.
  Qed.
  Lemma outside ix ig : ~ (igmin L <= ig < gmax L ix)%Z -> nom L FgN sFgN rho sig ix ig = 0%Qc /\ denom L sFgN rho sig ix ig = 0%Qc.
  Proof.
    intros G. unfold nom, denom. assert (C : counts_cell L sFgN ix ig = false).
    { unfold counts_cell. destruct ((igmin L <=? ig)%Z && (ig <? gmax L ix)%Z) eqn:E; [lia|reflexivity]. }
    now rewrite C.
  Qed.

  (* the sums of the update run over the rows from max(jmin, k) on; below, nothing is added *)
  Lemma tail_rows (f : Z -> R) k : (forall ix, (jmin L <= ix < jmax L)%Z -> (ix < k)%Z -> f ix = 0) ->
    rtotal f (zrange (jmin L) (jmax L)) = rtotal f (zrange (Z.max (jmin L) k) (jmax L)).
  Proof.
    intros H. destruct (Z_le_gt_dec k (jmin L)) as [A|A]; [now rewrite Z.max_l by lia|].
    rewrite Z.max_r by lia. destruct (Z_le_gt_dec (jmax L) k) as [B|B].
    - rewrite (rtotal_zero f (zrange (jmin L) (jmax L))).
      + rewrite rtotal_zero; [reflexivity|]. intros a I. apply in_zrange in I. lia.
      + intros a I. apply in_zrange in I. apply H; lia.
    - assert (E : zrange (jmin L) (jmax L) = zrange (jmin L) k ++ zrange k (jmax L)).
      { unfold zrange. replace (Z.to_nat (jmax L - jmin L)) with (Z.to_nat (k - jmin L) + Z.to_nat (jmax L - k))%nat by lia.
        rewrite seq_app, map_app. f_equal. cbn [Nat.add].
        rewrite <- (Nat.add_0_r (Z.to_nat (k - jmin L))) at 1. generalize (Z.to_nat (jmax L - k)) as n. generalize 0%nat as a.
        intros a n. revert a. induction n as [|n IH]; intros a; [reflexivity|]. cbn [seq map]. f_equal; [lia|]. rewrite <- IH. do 2 f_equal. lia. }
      rewrite E, rtotal_app, (rtotal_zero f (zrange (jmin L) k)); [lra|]. intros a I. apply in_zrange in I. apply H; lia.
  Qed.

  Lemma sig_slope_lemma ig : (forall ix, (jmin L <= ix < jmax L)%Z -> (ix < ig)%Z -> (gmax L ix <= ig)%Z) ->
    slope_sig L FgN sFgN rho sig ig (2 * (as_fun sig ig * qr (down_sig L sFgN rho sig ig) - qr (up_sig L FgN sFgN rho sig ig))).
  Proof.
    intros H. unfold slope_sig, chi2, model_at, model_row.
    set (g := fun ix => 2 * (as_fun sig ig * (qr (entry rho (ix - ig + iu0 L)) * qr (entry rho (ix - ig + iu0 L)) * qr (denom L sFgN rho sig ix ig))
                      - qr (entry rho (ix - ig + iu0 L)) * qr (nom L FgN sFgN rho sig ix ig))).
    assert (E : 2 * (as_fun sig ig * qr (down_sig L sFgN rho sig ig) - qr (up_sig L FgN sFgN rho sig ig)) = rtotal g (zrange (jmin L) (jmax L))).
    { rewrite (tail_rows g ig).
      - unfold down_sig, up_sig. rewrite !qr_total.
        rewrite (rtotal_ext g (fun ix => (2 * as_fun sig ig) * qr (entry rho (ix - ig + iu0 L) * entry rho (ix - ig + iu0 L) * denom L sFgN rho sig ix ig)%Qc
           + (- 2) * qr (entry rho (ix - ig + iu0 L) * nom L FgN sFgN rho sig ix ig)%Qc)).
        2:{ intros ix _. unfold g. rewrite !qr_mul. ring. }
        rewrite rtotal_plus, !rtotal_scal. ring.
      - intros ix K Lt. unfold g. destruct (outside ix ig) as [-> ->]; [pose proof (H ix K Lt); lia|]. rewrite qr_0. ring. }
    rewrite E. apply (rtotal_derive (fun ix x => rtotal (fun ig0 => ((qr (entry2 FgN ix ig0) - put (as_fun sig) ig x ig0 * as_fun rho (ix - ig0 + iu0 L) /
        rtotal (fun ig1 => put (as_fun sig) ig x ig1 * as_fun rho (ix - ig1 + iu0 L)) (zrange (igmin L) (gmax L ix))) / qr (entry2 sFgN ix ig0)) ^ 2) (zrange (igmin L) (gmax L ix)))).
    intros ix I. apply in_zrange in I.
    assert (PE : forall j, put (as_fun sig) ig (as_fun sig ig) j = as_fun sig j).
    { intros j. unfold put. destruct (Z.eqb_spec j ig) as [->|]; reflexivity. }
    assert (TE : rtotal (fun j => put (as_fun sig) ig (as_fun sig ig) j * as_fun rho (ix - j + iu0 L)) (zrange (igmin L) (gmax L ix)) = qr (row_total L rho sig ix)).
    { rewrite <- T_real. apply rtotal_ext. intros j _. now rewrite PE. }
    pose proof (row_derive (fun j => qr (entry2 FgN ix j)) (fun j => qr (entry2 sFgN ix j))
      (fun j x => put (as_fun sig) ig x j * as_fun rho (ix - j + iu0 L)) (zrange (igmin L) (gmax L ix)) ig (as_fun rho (ix - ig + iu0 L)) (as_fun sig ig)) as RD.
    cbv beta zeta in RD. rewrite TE in RD. specialize (RD (NoDup_zrange _ _)).
    match type of RD with ?A -> ?B -> ?C -> _ => assert (HA : A); [|assert (HB : B); [|assert (HC : C); [now apply T_ne|specialize (RD HA HB HC)]]] end.
    { intros j J. apply in_zrange in J. apply qr_neq. now apply sd_ne. }
    { intros j J. unfold put. destruct (Z.eqb_spec j ig) as [->|NE]; auto_derive; trivial; ring. }
    refine (eq_rect _ (is_derive _ _) RD _ _). match goal with |- ?a = ?b => change (@eq R a b) end. unfold g. destruct (in_dec Z.eq_dec ig (zrange (igmin L) (gmax L ix))) as [IG|IG].
    - apply in_zrange in IG. destruct (nom_real ix ig I IG) as [-> ->]. rewrite (pp_real ix I), (pF_real ix I).
      rewrite (rtotal_ext (fun j => put (as_fun sig) ig (as_fun sig ig) j * _ * _ / _) (fun j => as_fun sig j * as_fun rho (ix - j + iu0 L) * (as_fun sig j * as_fun rho (ix - j + iu0 L)) / (qr (entry2 sFgN ix j) * qr (entry2 sFgN ix j))))
        by (intros j _; now rewrite PE).
      rewrite (rtotal_ext (fun j => put (as_fun sig) ig (as_fun sig ig) j * _ * _ / _) (fun j => as_fun sig j * as_fun rho (ix - j + iu0 L) * qr (entry2 FgN ix j) / (qr (entry2 sFgN ix j) * qr (entry2 sFgN ix j))))
        by (intros j _; now rewrite PE).
      rewrite PE. change (qr (entry rho (ix - ig + iu0 L))) with (as_fun rho (ix - ig + iu0 L)).
      assert (SN : qr (entry2 sFgN ix ig) <> 0) by (apply qr_neq; now apply sd_ne). pose proof (T_ne ix I). field. auto.
    - rewrite in_zrange in IG. destruct (outside ix ig IG) as [-> ->]. rewrite qr_0. ring.
  Qed.

  Lemma rho_slope_lemma iu : (forall ix, (jmin L <= ix < jmax L)%Z -> (ix < iu)%Z -> ~ (igmin L <= ix - iu + iu0 L < gmax L ix)%Z) ->
    slope_rho L FgN sFgN rho sig iu (2 * (as_fun rho iu * qr (down_rho L sFgN rho sig iu) - qr (up_rho L FgN sFgN rho sig iu))).
  Proof.
    intros H. unfold slope_rho, chi2, model_at, model_row.
    set (c := fun ix => (ix - iu + iu0 L)%Z).
    set (g := fun ix => 2 * (as_fun rho iu * (qr (entry sig (c ix)) * qr (entry sig (c ix)) * qr (denom L sFgN rho sig ix (c ix)))
                      - qr (entry sig (c ix)) * qr (nom L FgN sFgN rho sig ix (c ix)))).
    assert (E : 2 * (as_fun rho iu * qr (down_rho L sFgN rho sig iu) - qr (up_rho L FgN sFgN rho sig iu)) = rtotal g (zrange (jmin L) (jmax L))).
    { rewrite (tail_rows g iu).
      - unfold down_rho, up_rho. rewrite !qr_total.
        rewrite (rtotal_ext g (fun ix => (2 * as_fun rho iu) * qr (entry sig (ix - iu + iu0 L) * entry sig (ix - iu + iu0 L) * denom L sFgN rho sig ix (ix - iu + iu0 L))%Qc
           + (- 2) * qr (entry sig (ix - iu + iu0 L) * nom L FgN sFgN rho sig ix (ix - iu + iu0 L))%Qc)).
        2:{ intros ix _. unfold g, c. rewrite !qr_mul. ring. }
        rewrite rtotal_plus, !rtotal_scal. ring.
      - intros ix K Lt. unfold g. destruct (outside ix (c ix)) as [-> ->]; [now apply H|]. rewrite qr_0. ring. }
    rewrite E. apply (rtotal_derive (fun ix x => rtotal (fun ig0 => ((qr (entry2 FgN ix ig0) - as_fun sig ig0 * put (as_fun rho) iu x (ix - ig0 + iu0 L) /
        rtotal (fun ig1 => as_fun sig ig1 * put (as_fun rho) iu x (ix - ig1 + iu0 L)) (zrange (igmin L) (gmax L ix))) / qr (entry2 sFgN ix ig0)) ^ 2) (zrange (igmin L) (gmax L ix)))).
    intros ix I. apply in_zrange in I.
    assert (PE : forall j, put (as_fun rho) iu (as_fun rho iu) j = as_fun rho j).
    { intros j. unfold put. destruct (Z.eqb_spec j iu) as [->|]; reflexivity. }
    assert (TE : rtotal (fun j => as_fun sig j * put (as_fun rho) iu (as_fun rho iu) (ix - j + iu0 L)) (zrange (igmin L) (gmax L ix)) = qr (row_total L rho sig ix)).
    { rewrite <- T_real. apply rtotal_ext. intros j _. now rewrite PE. }
    pose proof (row_derive (fun j => qr (entry2 FgN ix j)) (fun j => qr (entry2 sFgN ix j))
      (fun j x => as_fun sig j * put (as_fun rho) iu x (ix - j + iu0 L)) (zrange (igmin L) (gmax L ix)) (c ix) (as_fun sig (c ix)) (as_fun rho iu)) as RD.
    cbv beta zeta in RD. rewrite TE in RD. specialize (RD (NoDup_zrange _ _)).
    match type of RD with ?A -> ?B -> ?C -> _ => assert (HA : A); [|assert (HB : B); [|assert (HC : C); [now apply T_ne|specialize (RD HA HB HC)]]] end.
    { intros j J. apply in_zrange in J. apply qr_neq. now apply sd_ne. }
    { intros j J. unfold put. destruct (Z.eqb_spec j (c ix)) as [->|NE].
      - unfold c. replace (ix - (ix - iu + iu0 L) + iu0 L)%Z with iu by lia. rewrite Z.eqb_refl. auto_derive; trivial; ring.
      - destruct (Z.eqb_spec (ix - j + iu0 L) iu) as [Q|Q]; [unfold c in NE; lia|]. auto_derive; trivial; ring. }
    refine (eq_rect _ (is_derive _ _) RD _ _). match goal with |- ?a = ?b => change (@eq R a b) end. unfold g. destruct (in_dec Z.eq_dec (c ix) (zrange (igmin L) (gmax L ix))) as [IG|IG].
    - apply in_zrange in IG. destruct (nom_real ix (c ix) I IG) as [-> ->]. rewrite (pp_real ix I), (pF_real ix I).
      rewrite (rtotal_ext (fun j => as_fun sig j * put (as_fun rho) iu (as_fun rho iu) _ * _ / _) (fun j => as_fun sig j * as_fun rho (ix - j + iu0 L) * (as_fun sig j * as_fun rho (ix - j + iu0 L)) / (qr (entry2 sFgN ix j) * qr (entry2 sFgN ix j))))
        by (intros j _; now rewrite PE).
      rewrite (rtotal_ext (fun j => as_fun sig j * put (as_fun rho) iu (as_fun rho iu) _ * _ / _) (fun j => as_fun sig j * as_fun rho (ix - j + iu0 L) * qr (entry2 FgN ix j) / (qr (entry2 sFgN ix j) * qr (entry2 sFgN ix j))))
        by (intros j _; now rewrite PE).
      rewrite PE. change (qr (entry sig (c ix))) with (as_fun sig (c ix)).
      replace (ix - c ix + iu0 L)%Z with iu by (unfold c; lia).
      assert (SN : qr (entry2 sFgN ix (c ix)) <> 0) by (apply qr_neq; now apply sd_ne). pose proof (T_ne ix I). field. auto.
    - rewrite in_zrange in IG. destruct (outside ix (c ix) IG) as [-> ->]. rewrite qr_0. ring.
  Qed.
End Slopes.

(* ------------------------------------------------ the theorems *)
Lemma qr_le' x y : (x <= y)%Qc <-> qr x <= qr y.
Proof. split; intros H; [apply Rnot_lt_le|apply Qcnot_lt_le]; intros C; apply qr_lt in C; [apply (Qclt_not_le _ _ C H)|lra]. Qed.
(* the new value lies on the same side of the old one as the quotient *)
Lemma updated_side v old up down : (1 < v)%Qc -> (0 < old)%Qc -> (0 < down)%Qc ->
  ((old < updated v old up down)%Qc <-> (old * down < up)%Qc) /\ ((updated v old up down < old)%Qc <-> (up < old * down)%Qc) /\
  (updated v old up down = old <-> up = (old * down)%Qc).
Proof.
  intros V O D. assert (VN : v <> 0%Qc) by (apply Qclt_neq; qlra). assert (DN : down <> 0%Qc) by (now apply Qclt_neq).
  assert (HI : (old < v * old)%Qc). { assert (0 < (v - 1) * old)%Qc; [apply qcmul_pos; qlra|qlra]. }
  assert (LO : (old / v < old)%Qc).
  { apply qr_lt. rewrite qr_div by exact VN. apply qr_lt in V. rewrite qr_1 in V. apply qr_lt in O. rewrite qr_0 in O.
    apply Rlt_div_l; [lra|]. nra. }
  assert (QU : forall q, q = (up / down)%Qc -> ((old < q)%Qc <-> (old * down < up)%Qc) /\ ((q < old)%Qc <-> (up < old * down)%Qc)).
  { intros q ->. assert (E : (up = up / down * down)%Qc) by (field; exact DN). set (q := (up / down)%Qc) in *. rewrite E. clear E.
    apply qr_lt in D. rewrite qr_0 in D. rewrite !qr_lt, !qr_mul. split; split; intros H; nra. }
  destruct (QU _ eq_refl) as [Q1 Q2]. unfold updated. rewrite (proj2 (qltb_lt _ _) D).
  assert (S : ((old < limited v old (up / down))%Qc <-> (old < up / down)%Qc) /\ ((limited v old (up / down) < old)%Qc <-> (up / down < old)%Qc)).
  { unfold limited. destruct (qltb_spec (up / down) (old / v)) as [A|A].
    - split; [|split; intros; [apply Qclt_trans with (old / v)%Qc; assumption|exact LO]].
      split; intros H; exfalso; [apply (Qclt_not_le _ _ H); now apply Qclt_le_weak|].
      apply (Qclt_not_le _ _ H). apply Qclt_le_weak. apply Qclt_trans with (old / v)%Qc; assumption.
    - destruct (qltb_spec (v * old) (up / down)) as [B|B]; [|tauto].
      split; [split; intros; [apply Qclt_trans with (v * old)%Qc; assumption|exact HI]|].
      split; intros H; exfalso; [apply (Qclt_not_le _ _ H); now apply Qclt_le_weak|].
      apply (Qclt_not_le _ _ H). apply Qclt_le_weak. apply Qclt_trans with (v * old)%Qc; assumption. }
  destruct S as [S1 S2]. split; [tauto|]. split; [tauto|].
  assert (T : forall a b : Qc, a = b <-> ~ (a < b)%Qc /\ ~ (b < a)%Qc).
  { intros a b. split; [intros ->; split; intros H; now apply Qclt_not_eq in H|].
    intros [H1 H2]. apply Qcle_antisym; now apply Qcnot_lt_le. }
  rewrite (T (limited v old (up / down)) old), (T up (old * down)%Qc). tauto.
Qed.

Section Descent.
  Variables (wrap : bool) (FgN sFgN : list (list Qc)) (L : limits) (v : Qc) (rho sig rho0 sig0 rho' sig' : list Qc).
  Hypothesis FI : fits L rho sig FgN sFgN.
  Hypothesis V : (1 < v)%Qc.
  Hypothesis NR : nonneg rho.
  Hypothesis NS : nonneg sig.
  Hypothesis LR : length rho0 = length rho.
  Hypothesis LS : length sig0 = length sig.
  Hypothesis E : step wrap FgN sFgN L v rho sig rho0 sig0 = Ok (rho', sig').
  Hypothesis AC : all_certain L sFgN.
  Hypothesis RP : rows_positive L rho sig.

  Lemma denom_pos ix ig : (jmin L <= ix < jmax L)%Z -> (igmin L <= ig < gmax L ix)%Z -> (0 < denom L sFgN rho sig ix ig)%Qc.
  Proof.
    intros K G. apply qr_lt. rewrite qr_0. destruct (nom_real L FgN sFgN rho sig AC RP ix ig K G) as [_ ->].
    pose proof (proj1 (qr_lt _ _) (AC ix ig K G)) as S. pose proof (proj1 (qr_lt _ _) (RP ix K)) as T. rewrite qr_0 in S, T.
    apply Rdiv_lt_0_compat; [lra|]. apply Rmult_lt_0_compat; apply Rmult_lt_0_compat; assumption.
  Qed.
  Lemma denom_nonneg ix ig : (jmin L <= ix < jmax L)%Z -> (0 <= denom L sFgN rho sig ix ig)%Qc.
  Proof.
    intros K. destruct (Z_le_gt_dec (igmin L) ig) as [A|A]; [destruct (Z_lt_ge_dec ig (gmax L ix)) as [B|B]|].
    - apply Qclt_le_weak, denom_pos; lia.
    - destruct (outside L FgN sFgN rho sig ix ig) as [_ ->]; [lia|apply Qcle_refl].
    - destruct (outside L FgN sFgN rho sig ix ig) as [_ ->]; [lia|apply Qcle_refl].
  Qed.
  Lemma total_pos {A} (f : A -> Qc) l a : In a l -> (0 < f a)%Qc -> (forall b, In b l -> (0 <= f b)%Qc) -> (0 < total f l)%Qc.
  Proof.
    induction l as [|b l IH]; intros I P N; [destruct I|]. rewrite total_cons. destruct I as [-> | I].
    - assert (0 <= total f l)%Qc by (apply total_nonneg; intros; apply N; now right). qlra.
    - assert (0 < total f l)%Qc by (apply IH; [assumption|assumption|intros; apply N; now right]).
      assert (0 <= f b)%Qc by (apply N; now left). qlra.
  Qed.
  Lemma square_nonneg (a b : Qc) : (0 <= b)%Qc -> (0 <= a * a * b)%Qc.
  Proof. intros B. apply qr_le'. rewrite !qr_mul, qr_0. apply qr_le' in B. rewrite qr_0 in B. nra. Qed.

  Lemma sig_descent ig ix : (igmin L <= ig < maxig L)%Z ->
    (forall iy, (jmin L <= iy < jmax L)%Z -> (iy < ig)%Z -> (gmax L iy <= ig)%Z) ->
    (0 < entry sig ig)%Qc -> (jmin L <= ix < jmax L)%Z -> (ig < gmax L ix)%Z -> (0 < entry rho (ix - ig + iu0 L))%Qc ->
    exists d, slope_sig L FgN sFgN rho sig ig d /\ (d < 0 <-> (entry sig ig < entry sig' ig)%Qc) /\
      (0 < d <-> (entry sig' ig < entry sig ig)%Qc) /\ (d = 0 <-> entry sig' ig = entry sig ig).
  Proof.
    intros K C SP J G P. eexists. split; [apply (sig_slope_lemma L FgN sFgN rho sig AC RP ig C)|].
    destruct (step_formula wrap FgN sFgN L v rho sig rho0 sig0 FI V NR NS LR LS) as (r & s & ES & U & _).
    rewrite E in ES. injection ES as <- <-. rewrite (U ig K).
    assert (DP : (0 < down_sig L sFgN rho sig ig)%Qc).
    { apply (total_pos _ _ ix).
      - apply in_zrange. destruct (Z_lt_ge_dec ix ig) as [Lt|]; [pose proof (C ix J Lt); lia|lia].
      - apply qcmul_pos; [now apply qcmul_pos|]. apply denom_pos; [exact J|lia].
      - intros iy I. apply in_zrange in I. apply square_nonneg. apply denom_nonneg. lia. }
    destruct (updated_side v (entry sig ig) (up_sig L FgN sFgN rho sig ig) (down_sig L sFgN rho sig ig) V SP DP) as (A1 & A2 & A3).
    rewrite A1, A2, A3. unfold as_fun. rewrite !qr_lt, !qr_mul. split; [lra|]. split; [lra|].
    split; [intros Z|intros ->; rewrite qr_mul; ring].
    assert (Q : qr (up_sig L FgN sFgN rho sig ig) = qr (entry sig ig * down_sig L sFgN rho sig ig)%Qc) by (rewrite qr_mul; lra).
    apply Qcle_antisym; apply qr_le'; lra.
  Qed.
  Lemma rho_descent iu ix : (0 <= iu < jmax L - igmin L + iu0 L)%Z ->
    (forall iy, (jmin L <= iy < jmax L)%Z -> (iy < iu)%Z -> ~ (igmin L <= iy - iu + iu0 L < gmax L iy)%Z) ->
    (0 < entry rho iu)%Qc -> (jmin L <= ix < jmax L)%Z -> (igmin L <= ix - iu + iu0 L < gmax L ix)%Z -> (0 < entry sig (ix - iu + iu0 L))%Qc ->
    exists d, slope_rho L FgN sFgN rho sig iu d /\ (d < 0 <-> (entry rho iu < entry rho' iu)%Qc) /\
      (0 < d <-> (entry rho' iu < entry rho iu)%Qc) /\ (d = 0 <-> entry rho' iu = entry rho iu).
  Proof.
    intros K C SP J G P. eexists. split; [apply (rho_slope_lemma L FgN sFgN rho sig AC RP iu C)|].
    destruct (step_formula wrap FgN sFgN L v rho sig rho0 sig0 FI V NR NS LR LS) as (r & s & ES & _ & U).
    rewrite E in ES. injection ES as <- <-. rewrite (U iu K).
    assert (DP : (0 < down_rho L sFgN rho sig iu)%Qc).
    { apply (total_pos _ _ ix).
      - apply in_zrange. destruct (Z_lt_ge_dec ix iu) as [Lt|]; [destruct (C ix J Lt G)|lia].
      - apply qcmul_pos; [now apply qcmul_pos|]. apply denom_pos; [exact J|lia].
      - intros iy I. apply in_zrange in I. apply square_nonneg. apply denom_nonneg. lia. }
    destruct (updated_side v (entry rho iu) (up_rho L FgN sFgN rho sig iu) (down_rho L sFgN rho sig iu) V SP DP) as (A1 & A2 & A3).
    rewrite A1, A2, A3. unfold as_fun. rewrite !qr_lt, !qr_mul. split; [lra|]. split; [lra|].
    split; [intros Z|intros ->; rewrite qr_mul; ring].
    assert (Q : qr (up_rho L FgN sFgN rho sig iu) = qr (entry rho iu * down_rho L sFgN rho sig iu)%Qc) by (rewrite qr_mul; lra).
    apply Qcle_antisym; apply qr_le'; lra.
  Qed.
End Descent.

(* If no bin of the region lies above the diagonal (iu0 = 0), every positive entry that some
   row constrains moves against the slope of chi square, and stays exactly where the slope
   is zero. *)
Theorem rhosigchi_descends_partial : forall wrap FgN sFgN L v rho sig rho0 sig0 rho' sig',
  fits L rho sig FgN sFgN -> (1 < v)%Qc -> nonneg rho -> nonneg sig -> length rho0 = length rho -> length sig0 = length sig ->
  step wrap FgN sFgN L v rho sig rho0 sig0 = Ok (rho', sig') -> all_certain L sFgN -> rows_positive L rho sig -> iu0 L = 0%Z ->
  (forall ix ig, (jmin L <= ix < jmax L)%Z -> (igmin L <= ig < gmax L ix)%Z -> (0 < entry sig ig)%Qc -> (0 < entry rho (ix - ig))%Qc ->
     (exists d, slope_sig L FgN sFgN rho sig ig d /\ (d < 0 <-> (entry sig ig < entry sig' ig)%Qc) /\
        (0 < d <-> (entry sig' ig < entry sig ig)%Qc) /\ (d = 0 <-> entry sig' ig = entry sig ig)) /\
     (exists d, slope_rho L FgN sFgN rho sig (ix - ig) d /\ (d < 0 <-> (entry rho (ix - ig) < entry rho' (ix - ig))%Qc) /\
        (0 < d <-> (entry rho' (ix - ig) < entry rho (ix - ig))%Qc) /\ (d = 0 <-> entry rho' (ix - ig) = entry rho (ix - ig)))).
Proof.
  intros wrap FgN sFgN L v rho sig rho0 sig0 rho' sig' FI V NR NS LR LS E AC RP I0 ix ig J G SP RPos.
  assert (FT : forall iy, (jmin L <= iy < jmax L)%Z -> exists gm, zget (igmax L) iy = Some gm /\ gmax L iy = gm /\ (gm <= iy + 1)%Z /\ (gm <= maxig L)%Z).
  { intros iy K. destruct FI as (F1 & F2 & F3 & F4 & F5 & F6 & F7 & F8 & F9).
    destruct (zget_some (igmax L) iy) as (gm & GM); [lia|]. exists gm. split; [exact GM|]. split; [now apply zget_gmax|].
    pose proof (F8 iy gm K GM). pose proof (maxig_ge L iy gm GM). lia. }
  assert (G0 : (0 <= igmin L)%Z) by apply FI.
  destruct (FT ix J) as (gm & _ & GM & GL & GX).
  split.
  - apply (sig_descent wrap FgN sFgN L v rho sig rho0 sig0 rho' sig' FI V NR NS LR LS E AC RP ig ix); try assumption; try lia.
    + intros iy K Lt. destruct (FT iy K) as (g' & _ & -> & H & _). lia.
    + now replace (ix - ig + iu0 L)%Z with (ix - ig)%Z by lia.
  - apply (rho_descent wrap FgN sFgN L v rho sig rho0 sig0 rho' sig' FI V NR NS LR LS E AC RP (ix - ig)%Z ix); try assumption; try lia.
    now replace (ix - (ix - ig) + iu0 L)%Z with ig by lia.
Qed.
Print Assumptions rhosigchi_descends_partial.
(* two rows: the first column rises, the second falls by the largest step *)
Definition gr_F : list (list Qc) := [[1; 0]; [qn 9 10; qn 1 10]]%Qc.
Definition gr_sd : list (list Qc) := [[1; 0]; [1; 1]]%Qc.
Example gr_case : fits us_L [1; 1]%Qc [1; 1]%Qc gr_F gr_sd /\ all_certain us_L gr_sd /\ rows_positive us_L [1; 1]%Qc [1; 1]%Qc /\
  exists rho' sig', step false gr_F gr_sd us_L (qn 12 10) [1; 1]%Qc [1; 1]%Qc [0; 0]%Qc [0; 0]%Qc = Ok (rho', sig') /\
    entry sig' 0 = qn 29 25 /\ entry sig' 1 = qn 5 6 /\ entry rho' 0 = qn 21 25 /\ entry rho' 1 = qn 6 5.
Proof.
  repeat split; try (cbn; lia).
  - intros ix gm K Z. cbn in K. assert (ix = 0 \/ ix = 1)%Z as [-> | ->] by lia; cbn in Z; injection Z as <-; cbn; lia.
  - intros ix K. cbn in K. assert (ix = 0 \/ ix = 1)%Z as [-> | ->] by lia; do 2 eexists; repeat split; cbn; lia.
  - intros ix ig K G. assert (ix = 0 \/ ix = 1)%Z as [-> | ->] by (cbn in K; lia).
    + change (gmax us_L 0) with 1%Z in G. assert (ig = 0)%Z as -> by (cbn in G; lia). apply qltb_lt; vm_compute; reflexivity.
    + change (gmax us_L 1) with 2%Z in G. assert (ig = 0 \/ ig = 1)%Z as [-> | ->] by (cbn in G; lia); apply qltb_lt; vm_compute; reflexivity.
  - intros ix K. assert (ix = 0 \/ ix = 1)%Z as [-> | ->] by (cbn in K; lia); apply qltb_lt; vm_compute; reflexivity.
  - do 2 eexists; (split; [vm_compute; reflexivity|]); repeat split; apply qeqb_eq; vm_compute; reflexivity.
Qed.
