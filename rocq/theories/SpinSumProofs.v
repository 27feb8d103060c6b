(* Lemmas on the spin sums. *)
From Coq Require Import String Permutation FinFun.
From Verif Require Import PyBase RebinModel Rebin2DProofs ResponseModel SpinSumModel SpinSumSpec.
Local Notation length := List.length (only parsing).

(* --- half-integers --- *)
Definition hz (z : Z) : Qc := qz z / qz 2.
Lemma hz_add a b : hz a + hz b = hz (a + b).
Proof. unfold hz. rewrite qz_add, qz_2. field. apply Qc_2_0. Qed.
Lemma hz_sub a b : hz a - hz b = hz (a - b).
Proof. unfold hz, Z.sub. rewrite qz_add, qz_opp, qz_2. field. apply Qc_2_0. Qed.
Lemma hz_le a b : hz a <= hz b <-> (a <= b)%Z.
Proof.
  split.
  - intros H. apply qz_le. assert (0 <= (hz b - hz a) * qz 2) by (apply Qcmult_nonneg; [qlra|discriminate]).
    assert (E : (hz b - hz a) * qz 2 = qz b - qz a) by (unfold hz; rewrite qz_2; field; apply Qc_2_0). rewrite E in *. qlra.
  - intros H. apply (proj1 (qz_le _ _)) in H. assert (0 <= (qz b - qz a) / qz 2) by (apply Qcdiv_nonneg; [qlra|discriminate]).
    assert (E : (qz b - qz a) / qz 2 = hz b - hz a) by (unfold hz; rewrite qz_2; field; apply Qc_2_0). rewrite E in *. qlra.
Qed.
Lemma hz_inj a b : hz a = hz b -> a = b.
Proof. intros H. apply Z.le_antisymm; apply (proj1 (hz_le _ _)); rewrite H; apply Qcle_refl. Qed.
Lemma hz_0 : hz 0 = 0. Proof. apply qeqb_eq. reflexivity. Qed.
Lemma hz_2 : 1 = hz 2. Proof. apply qeqb_eq. reflexivity. Qed.
Lemma hz_1 : qn 1 2 = hz 1. Proof. apply qeqb_eq. reflexivity. Qed.
Lemma hz_abs a : qabs (hz a) = hz (Z.abs a).
Proof.
  destruct (qabs_spec (hz a)) as [[H ->]|[H ->]].
  - rewrite <- hz_0 in H. apply (proj1 (hz_le _ _)) in H. f_equal. lia.
  - assert (a < 0)%Z. { apply Z.nle_gt. intros N. apply (proj2 (hz_le _ _)) in N. rewrite hz_0 in N. qlra. }
    replace (- hz a) with (hz 0 - hz a) by (rewrite hz_0; ring). rewrite hz_sub. f_equal. lia.
Qed.
Lemma hz_min a b : qmin (hz a) (hz b) = hz (Z.min a b).
Proof.
  unfold qmin. destruct (qleb_spec (hz a) (hz b)) as [H|H].
  - apply (proj1 (hz_le _ _)) in H. f_equal. lia.
  - assert (b < a)%Z. { apply Z.nle_gt. intros N. apply (proj2 (hz_le _ _)) in N. qlra. } f_equal. lia.
Qed.
Lemma half_hz n : half n = hz (Z.of_nat n). Proof. reflexivity. Qed.
Lemma qnat_hz n : qnat n = hz (2 * Z.of_nat n).
Proof. unfold hz, qnat. rewrite qz_mul. rewrite qz_2. field. apply Qc_2_0. Qed.
Lemma qceil_nat n : qceil (qnat n) = Z.of_nat n.
Proof.
  destruct (qceil_spec (qnat n)) as [H1 H2]. unfold qnat in *. 
  apply Z.le_antisymm.
  - assert (qceil (qz (Z.of_nat n)) - 1 < Z.of_nat n)%Z; [|lia]. apply qz_lt. unfold Z.sub. rewrite qz_add. rewrite qz_opp, qz_1. qlra.
  - apply qz_le. assumption.
Qed.
(* np.arange over a whole number of steps *)
Lemma arange_half a b m : (b - a = 2 * Z.of_nat m)%Z -> arange (hz a) (hz b) 1 = tab m (fun k => hz (a + 2 * Z.of_nat k)).
Proof.
  intros H. unfold arange. replace ((hz b - hz a) / 1) with (qnat m) by (rewrite hz_sub, H, <- qnat_hz; field; apply Qc_1_0).
  rewrite qceil_nat, Nat2Z.id. apply tab_ext. intros k Hk. replace (qnat k * 1) with (qnat k) by ring. rewrite qnat_hz, hz_add. reflexivity.
Qed.
Lemma NoDup_tab_half a m : NoDup (tab m (fun k => hz (a + 2 * Z.of_nat k))).
Proof.
  unfold tab. apply FinFun.Injective_map_NoDup; [|apply seq_NoDup]. intros x y E. apply hz_inj in E. lia.
Qed.

(* --- residual spins --- *)
Definition rmin2 (j l : nat) : Z :=
  let J := Z.of_nat j in let L := Z.of_nat l in
  Z.min (Z.min (Z.abs (J - 1 - 2 * L)) (Z.abs (J + 1 - 2 * L))) (Z.abs (J - 1 + 2 * L)).
Definition rmax2 (j l : nat) : Z := (Z.of_nat j + 1 + 2 * Z.of_nat l)%Z.
Lemma res_min_half j l : res_min (half j) (qnat l) = hz (rmin2 j l).
Proof.
  unfold res_min, rmin2. rewrite half_hz, qnat_hz, hz_1. rewrite !hz_sub, !hz_add, !hz_sub, !hz_abs, !hz_min. reflexivity.
Qed.
Lemma res_count j l : exists m, (rmax2 j l + 2 - rmin2 j l = 2 * Z.of_nat m)%Z.
Proof.
  exists (Z.to_nat ((rmax2 j l + 2 - rmin2 j l) / 2)). unfold rmax2, rmin2. rewrite Z2Nat.id by (apply Z.div_pos; lia).
  set (J := Z.of_nat j). set (L := Z.of_nat l).
  assert (P : exists q, (J + 1 + 2 * L + 2 - Z.min (Z.min (Z.abs (J - 1 - 2 * L)) (Z.abs (J + 1 - 2 * L))) (Z.abs (J - 1 + 2 * L)) = 2 * q)%Z).
  { destruct (Z.min_spec (Z.min (Z.abs (J - 1 - 2 * L)) (Z.abs (J + 1 - 2 * L))) (Z.abs (J - 1 + 2 * L))) as [[_ ->]|[_ ->]];
    [destruct (Z.min_spec (Z.abs (J - 1 - 2 * L)) (Z.abs (J + 1 - 2 * L))) as [[_ ->]|[_ ->]]|].
    - destruct (Z.abs_spec (J - 1 - 2 * L)) as [[_ ->]|[_ ->]]; [exists (2 + 2 * L)%Z|exists (J + 1)%Z]; ring.
    - destruct (Z.abs_spec (J + 1 - 2 * L)) as [[_ ->]|[_ ->]]; [exists (1 + 2 * L)%Z|exists (J + 2)%Z]; ring.
    - destruct (Z.abs_spec (J - 1 + 2 * L)) as [[_ ->]|[_ ->]]; [exists 2%Z|exists (J + 1 + 2 * L)%Z]; ring. }
  destruct P as [q ->]. rewrite Z.mul_comm, Z.div_mul by lia. ring.
Qed.
Lemma res_spins_half j l : exists m, (rmax2 j l + 2 - rmin2 j l = 2 * Z.of_nat m)%Z /\ res_spins (half j) (qnat l) = tab m (fun k => hz (rmin2 j l + 2 * Z.of_nat k)).
Proof.
  destruct (res_count j l) as [m H]. exists m. split; [assumption|]. unfold res_spins. rewrite res_min_half. unfold res_max.
  replace (half j + qn 1 2 + qnat l + 1) with (hz (rmax2 j l + 2)).
  - apply arange_half. exact H.
  - rewrite half_hz, qnat_hz, hz_1, hz_2, !hz_add. reflexivity.
Qed.
Lemma reachable_range j l r : reachable j l r <-> ((rmin2 j l <= Z.of_nat r <= rmax2 j l)%Z /\ exists k, (Z.of_nat r = rmin2 j l + 2 * k)%Z).
Proof.
  destruct (res_count j l) as [m M]. split.
  - intros (s & (A1 & A2 & A3 & A4) & (B1 & B2 & B3 & B4)). apply Nat.even_spec in A4. apply Nat.even_spec in B4. destruct A4 as [a A4]. destruct B4 as [b B4].
    assert (S2 : (s = j + 1 \/ (s + 1 = j))%nat) by lia.
    assert (K : exists k, (Z.of_nat r = rmax2 j l + 2 * k)%Z).
    { unfold rmax2. exists (Z.of_nat b - Z.of_nat a - 2 * Z.of_nat l)%Z. lia. }
    split; [unfold rmin2, rmax2 in *; lia|]. destruct K as [k K]. exists (k + Z.of_nat m - 1)%Z. lia.
  - intros ((A & B) & k & K).
    assert (PR : exists b, (r + j + 1 = 2 * b)%nat).
    { exists (Z.to_nat (k + Z.of_nat j + 2 + Z.of_nat l - Z.of_nat m)%Z). unfold rmin2, rmax2 in *. lia. }
    destruct PR as [b PR].
    assert (T1 : forall s, (s = j + 1 \/ s + 1 = j)%nat -> triangle j 1 s).
    { intros s Hs. repeat split; try lia. apply Nat.even_spec. destruct Hs as [->|Hs]; [exists (j + 1)%nat; lia|exists (s + 1)%nat; lia]. }
    assert (T2 : forall s, (s = j + 1 \/ s + 1 = j)%nat -> (s <= 2 * l + r)%nat -> (2 * l <= s + r)%nat -> (r <= s + 2 * l)%nat -> triangle s (2 * l) r).
    { intros s Hs X Y Z. repeat split; try lia. apply Nat.even_spec. destruct Hs as [->|Hs]; [exists (b + l)%nat; lia|exists (b + l - 1)%nat; lia]. }
    unfold rmin2, rmax2 in *.
    destruct (Z_le_gt_dec (Z.abs (Z.of_nat j + 1 - 2 * Z.of_nat l)) (Z.of_nat r)) as [C|C].
    + exists (j + 1)%nat. split; [apply T1; lia|apply T2; lia].
    + destruct j as [|j].
      * exfalso. lia.
      * exists j. split; [apply T1; lia|apply T2; lia].
Qed.
Lemma res_spins_in j l q : In q (res_spins (half j) (qnat l)) <-> exists r, q = half r /\ reachable j l r.
Proof.
  destruct (res_spins_half j l) as (m & M & ->). split.
  - intros H. apply in_tab in H. destruct H as (k & Hk & ->). exists (Z.to_nat (rmin2 j l + 2 * Z.of_nat k)).
    assert (0 <= rmin2 j l)%Z by (unfold rmin2; lia). rewrite half_hz, Z2Nat.id by lia. split; [reflexivity|].
    apply reachable_range. rewrite Z2Nat.id by lia. split; [lia|]. now exists (Z.of_nat k).
  - intros (r & -> & H). apply reachable_range in H. destruct H as (B & k & K). apply in_tab. exists (Z.to_nat k). split; [lia|].
    rewrite half_hz. f_equal. lia.
Qed.
Lemma res_spins_nodup j l : NoDup (res_spins (half j) (qnat l)).
Proof. destruct (res_spins_half j l) as (m & _ & ->). apply NoDup_tab_half. Qed.

(* --- final spins --- *)
Lemma final_bounds r : qmin (qabs (half r - 1)) (half r) = hz (Z.min (Z.abs (Z.of_nat r - 2)) (Z.of_nat r)) /\ half r + 1 + 1 = hz (Z.of_nat r + 2 + 2).
Proof. rewrite half_hz, hz_2. rewrite hz_sub, hz_abs, hz_min, !hz_add. split; reflexivity. Qed.
Lemma final_spins_in r q : In q (final_spins (half r)) <-> exists f, q = half f /\ dipole r f.
Proof.
  unfold final_spins. destruct (final_bounds r) as [E1 E2]. rewrite E1, E2. clear E1 E2.
  set (a := Z.min (Z.abs (Z.of_nat r - 2)) (Z.of_nat r)).
  assert (M : exists m, (Z.of_nat r + 2 + 2 - a = 2 * Z.of_nat m)%Z).
  { destruct r as [|[|r]]; [exists 2%nat; reflexivity|exists 2%nat; reflexivity|exists 3%nat; unfold a; lia]. }
  destruct M as [m M]. rewrite (arange_half _ _ m M). rewrite filter_In, in_tab. split.
  - intros ((k & Hk & ->) & F). exists (Z.to_nat (a + 2 * Z.of_nat k)). assert (0 <= a)%Z by (unfold a; lia). rewrite half_hz, Z2Nat.id by lia. split; [reflexivity|].
    assert (NZ : ~ (Z.of_nat r = 0 /\ a + 2 * Z.of_nat k = 0)%Z).
    { intros [R0 A0]. rewrite half_hz, A0, R0 in F. rewrite hz_0 in F. discriminate. }
    destruct r as [|[|r]].
    + assert (a = 0)%Z by reflexivity. assert (k = 1)%nat by lia. subst k. replace (Z.to_nat (a + 2 * Z.of_nat 1)) with 2%nat by lia. repeat split; lia.
    + assert (a = 1)%Z by reflexivity. assert (K : (k = 0 \/ k = 1)%nat) by lia.
      destruct K as [->| ->]; [replace (Z.to_nat (a + 2 * Z.of_nat 0)) with 1%nat by lia|replace (Z.to_nat (a + 2 * Z.of_nat 1)) with 3%nat by lia]; repeat split; lia.
    + assert (a = Z.of_nat r)%Z by (unfold a; lia). replace (Z.to_nat (a + 2 * Z.of_nat k)) with (r + 2 * k)%nat by lia.
      repeat split; try lia. apply Nat.even_spec. exists (r + 2 + k)%nat. lia.
  - intros (f & -> & (A & B & C & D)). apply Nat.even_spec in D. destruct D as [d D]. split.
    + exists (Z.to_nat (Z.of_nat d - Z.of_nat r - 1 + (Z.of_nat r - a) / 2)%Z). rewrite half_hz.
      destruct r as [|[|r]].
      * assert (a = 0)%Z by reflexivity. assert (f = 2)%nat by lia. subst f. assert (d = 2)%nat by lia. subst d. replace a with 0%Z. split; [cbn; lia|f_equal; reflexivity].
      * assert (a = 1)%Z by reflexivity. replace a with 1%Z. assert (F : (f = 1 /\ d = 2 \/ f = 3 /\ d = 3)%nat) by lia. destruct F as [[-> ->]|[-> ->]]; split; try (cbn; lia); f_equal; reflexivity.
      * assert (a = Z.of_nat r)%Z by (unfold a; lia). replace (Z.of_nat (S (S r)) - a)%Z with 2%Z by lia. change (2 / 2)%Z with 1%Z. split; [lia|]. f_equal. lia.
    + destruct (qeqb_spec (half r) (half f)) as [E|]; [|reflexivity]. destruct (qeqb_spec (half f) 0) as [E0|]; [|reflexivity].
      exfalso. rewrite half_hz, <- hz_0 in E0. apply hz_inj in E0. rewrite !half_hz in E. apply hz_inj in E. lia.
Qed.
Lemma final_spins_nodup r : NoDup (final_spins (half r)).
Proof.
  unfold final_spins. apply NoDup_filter. destruct (final_bounds r) as [E1 E2]. rewrite E1, E2. clear E1 E2.
  set (a := Z.min (Z.abs (Z.of_nat r - 2)) (Z.of_nat r)).
  assert (M : exists m, (Z.of_nat r + 2 + 2 - a = 2 * Z.of_nat m)%Z).
  { destruct r as [|[|r]]; [exists 2%nat; reflexivity|exists 2%nat; reflexivity|exists 3%nat; unfold a; lia]. }
  destruct M as [m M]. rewrite (arange_half _ _ m M). apply NoDup_tab_half.
Qed.
Lemma half_inj a b : half a = half b -> a = b.
Proof. rewrite !half_hz. intros H. apply hz_inj in H. lia. Qed.
Lemma NoDup_half l : NoDup l -> NoDup (map half l).
Proof. intros H. apply FinFun.Injective_map_NoDup; [intros a b; apply half_inj|assumption]. Qed.
Lemma qsum_flat_map {A} (f : A -> list Qc) l : qsum (flat_map f l) = qsum (map (fun x => qsum (f x)) l).
Proof. induction l as [|x l IH]; [reflexivity|]. cbn. rewrite qsum_app, IH. reflexivity. Qed.
(* the sum over summed_spins for any enumeration of the spins *)
Lemma spin_sum_lemma j l g Rs Fs : NoDup Rs -> (forall r, In r Rs <-> reachable j l r) ->
  (forall r, In r Rs -> NoDup (Fs r) /\ forall f, In f (Fs r) <-> dipole r f) ->
  qsum (map g (summed_spins (half j) (qnat l))) = qsum (map (fun r => qsum (map (fun f => g (half f)) (Fs r))) Rs).
Proof.
  intros N1 I1 HF. unfold summed_spins.
  assert (P : Permutation (res_spins (half j) (qnat l)) (map half Rs)).
  { apply NoDup_Permutation; [apply res_spins_nodup|now apply NoDup_half|]. intros q. rewrite res_spins_in, in_map_iff. split.
    - intros (r & -> & H). exists r. split; [reflexivity|now apply I1].
    - intros (r & <- & H). exists r. split; [reflexivity|now apply I1]. }
  rewrite flat_map_concat_map, concat_map, map_map, <- flat_map_concat_map, qsum_flat_map.
  rewrite (qsum_perm _ _ (Permutation_map _ P)). rewrite map_map. f_equal. apply map_ext_in. intros r Hr.
  destruct (HF r Hr) as [N2 I2]. rewrite <- (map_map half g). apply qsum_perm, Permutation_map.
  apply NoDup_Permutation; [apply final_spins_nodup|now apply NoDup_half|]. intros q. rewrite final_spins_in, in_map_iff. split.
  - intros (f & -> & H). exists f. split; [reflexivity|now apply I2].
  - intros (f & <- & H). exists f. split; [reflexivity|now apply I2].
Qed.
