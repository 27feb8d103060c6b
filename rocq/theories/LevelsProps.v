(* C80: the level density built from a file of discrete levels. *)
From Coq Require Import Reals ZArith List Lra Lia Permutation.
From Verif Require Import PyBase TransformModel LevelsModel.
Import ListNotations.
Local Open Scope R_scope.

(* ------------------------------------------------------------------ specification *)
(* number of elements with a property *)
Definition count (P : R -> Prop) (D : forall x, {P x} + {~ P x}) (l : list R) : nat :=
  length (filter (fun x => if D x then true else false) l).
(* a level at x keV in bin i of n bins of width b around e0 + i b, in MeV; the last bin
   includes its upper edge *)
Definition in_bin (e0 b : R) (n i : nat) (x : R) : Prop :=
  e0 + INR i * b - b / 2 <= x / 1000 /\
  (if Nat.eqb (S i) n then x / 1000 <= e0 + INR i * b + b / 2 else x / 1000 < e0 + INR i * b + b / 2).
Definition in_range (e0 b : R) (n : nat) (x : R) : Prop :=
  e0 - b / 2 <= x / 1000 <= e0 + INR n * b - b / 2.
Lemma in_bin_dec e0 b n i x : {in_bin e0 b n i x} + {~ in_bin e0 b n i x}.
Proof.
  unfold in_bin. destruct (Rle_dec (e0 + INR i * b - b / 2) (x / 1000)); [|right; tauto].
  destruct (Nat.eqb (S i) n); [destruct (Rle_dec (x / 1000) (e0 + INR i * b + b / 2))|destruct (Rlt_dec (x / 1000) (e0 + INR i * b + b / 2))];
  (left; tauto) || (right; tauto).
Defined.
Lemma in_range_dec e0 b n x : {in_range e0 b n x} + {~ in_range e0 b n x}.
Proof.
  unfold in_range. destruct (Rle_dec (e0 - b / 2) (x / 1000)); [|right; tauto].
  destruct (Rle_dec (x / 1000) (e0 + INR n * b - b / 2)); (left; tauto) || (right; tauto).
Defined.
Definition equidistant (e0 b : R) (n : nat) : list R := map (fun i => e0 + INR i * b) (seq 0 n).

(* ------------------------------------------------------------------ sums *)
Lemma total_app a b : total (a ++ b) = total a + total b.
Proof. unfold total. induction a as [|x a IH]; cbn; [ring|]. rewrite IH. ring. Qed.
Lemma total_ext {A} (f g : A -> R) l : (forall x, In x l -> f x = g x) -> total (map f l) = total (map g l).
Proof. intros H. f_equal. now apply map_ext_in. Qed.
Lemma total_plus {A} (f g : A -> R) l : total (map (fun x => f x + g x) l) = total (map f l) + total (map g l).
Proof. unfold total. induction l as [|x l IH]; cbn; [ring|]. rewrite IH. ring. Qed.
Lemma total_scale {A} c (f : A -> R) l : total (map (fun x => c * f x) l) = c * total (map f l).
Proof. unfold total. induction l as [|x l IH]; cbn; [ring|]. rewrite IH. ring. Qed.
Lemma total_swap {A B} (f : A -> B -> R) l m :
  total (map (fun i => total (map (fun k => f i k) m)) l) = total (map (fun k => total (map (fun i => f i k) l)) m).
Proof.
  induction l as [|x l IH].
  - cbn. induction m as [|y m IHm]; [reflexivity|]. cbn. unfold total in *. rewrite <- IHm. ring.
  - cbn [map]. unfold total at 1. cbn [fold_right]. fold (total (map (fun i => total (map (fun k => f i k) m)) l)). rewrite IH.
    rewrite <- total_plus. apply total_ext. intros k _. reflexivity.
Qed.
Lemma total_S f m : total (map f (seq 0 (S m))) = total (map f (seq 0 m)) + f m.
Proof. rewrite seq_S, map_app, total_app. cbn. ring. Qed.
Lemma total_S_front f m : total (map f (seq 0 (S m))) = f 0%nat + total (map (fun k => f (S k)) (seq 0 m)).
Proof. cbn [seq map]. rewrite <- seq_shift, map_map. reflexivity. Qed.
Lemma total_reverse f m : total (map f (seq 0 m)) = total (map (fun k => f (m - 1 - k)%nat) (seq 0 m)).
Proof.
  induction m as [|m IH]; [reflexivity|]. rewrite total_S, total_S_front, IH. replace (S m - 1 - 0)%nat with m by lia.
  rewrite Rplus_comm. f_equal. apply total_ext. intros k Hk. f_equal. lia.
Qed.
Lemma total_split f a b : total (map f (seq 0 (a + b))) = total (map f (seq 0 a)) + total (map (fun k => f (a + k)%nat) (seq 0 b)).
Proof.
  induction b as [|b IH]; [rewrite Nat.add_0_r; cbn; ring|]. rewrite Nat.add_succ_r, !total_S, IH. ring.
Qed.
Lemma total_const {A} c (l : list A) : total (map (fun _ => c) l) = INR (length l) * c.
Proof. induction l as [|x l IH]; [cbn; ring|]. cbn [map length]. rewrite S_INR. unfold total in *. cbn [fold_right]. rewrite IH. ring. Qed.
Lemma total_nth x : total (map (fun i => nth i x 0) (seq 0 (length x))) = total x.
Proof. induction x as [|a x IH]; [reflexivity|]. cbn [length]. rewrite total_S_front. cbn [nth]. rewrite IH. reflexivity. Qed.

(* ------------------------------------------------------------------ smoothing *)
Lemma reflect_period n i : reflect n (i + 2 * Z.of_nat n) = reflect n i.
Proof.
  unfold reflect. destruct n as [|n]; [cbn; now rewrite !Zmod_0_r, Z.add_0_r|].
  replace (i + 2 * Z.of_nat (S n))%Z with (i + 1 * (2 * Z.of_nat (S n)))%Z by ring.
  now rewrite Z_mod_plus_full.
Qed.
Lemma reflect_mirror n i : (0 < n)%nat -> reflect n (-1 - i) = reflect n i.
Proof.
  intros H. unfold reflect. set (p := (2 * Z.of_nat n)%Z). assert (Hp : (0 < p)%Z) by lia.
  pose proof (Z.mod_pos_bound i p Hp) as B.
  assert (E : ((-1 - i) mod p = p - 1 - i mod p)%Z).
  { symmetry. apply (Z.mod_unique _ _ (- (i / p) - 1)); [left; lia|]. pose proof (Z.div_mod i p). lia. }
  rewrite E. destruct (Z.ltb_spec (p - 1 - i mod p) (Z.of_nat n)), (Z.ltb_spec (i mod p) (Z.of_nat n)); f_equal; lia.
Qed.
Lemma reflect_in n i : (i < n)%nat -> reflect n (Z.of_nat i) = i.
Proof.
  intros H. unfold reflect. rewrite Z.mod_small by lia. destruct (Z.ltb_spec (Z.of_nat i) (Z.of_nat n)); [|lia]. apply Nat2Z.id.
Qed.
Lemma reflect_bound n i : (0 < n)%nat -> (reflect n i < n)%nat.
Proof.
  intros H. unfold reflect. pose proof (Z.mod_pos_bound i (2 * Z.of_nat n)).
  destruct (Z.ltb_spec (i mod (2 * Z.of_nat n)) (Z.of_nat n)); lia.
Qed.
Section Reflect.
Variable x : list R.
Let n := length x.
Hypothesis nonempty : (0 < n)%nat.
Definition ext (i : Z) : R := nth (reflect n i) x 0.
Definition window (a : Z) (m : nat) : R := total (map (fun i => ext (a + Z.of_nat i)) (seq 0 m)).
Lemma window_shift a : window (a + 1) (2 * n) = window a (2 * n).
Proof.
  unfold window. replace (2 * n)%nat with (S (2 * n - 1)) by lia. set (m := (2 * n - 1)%nat).
  rewrite total_S, total_S_front. rewrite Rplus_comm. f_equal.
  - unfold ext. rewrite <- (reflect_period n (a + Z.of_nat 0)). do 2 f_equal. lia.
  - apply total_ext. intros k _. f_equal. lia.
Qed.
Lemma window_any a : window a (2 * n) = window 0 (2 * n).
Proof.
  destruct (Z_le_gt_dec 0 a) as [H | H].
  - pattern a. apply natlike_ind; [reflexivity| |exact H]. intros z _ E. unfold Z.succ. now rewrite window_shift.
  - assert (E : forall k, (0 <= k)%Z -> window (- k) (2 * n) = window 0 (2 * n)).
    { apply natlike_ind; [reflexivity|]. intros z _ IH. rewrite <- (window_shift (- Z.succ z)).
      replace (- Z.succ z + 1)%Z with (- z)%Z by lia. exact IH. }
    replace a with (- - a)%Z by lia. apply E. lia.
Qed.
Lemma window_total : window 0 (2 * n) = 2 * total x.
Proof.
  unfold window. replace (2 * n)%nat with (n + n)%nat by lia. rewrite total_split.
  replace (total (map (fun i => ext (0 + Z.of_nat i)) (seq 0 n))) with (total x).
  - replace (total (map (fun k => ext (0 + Z.of_nat (n + k))) (seq 0 n))) with (total x); [ring|].
    rewrite <- (total_nth x). fold n. rewrite total_reverse. apply total_ext. intros k Hk. apply in_seq in Hk. unfold ext.
    f_equal. rewrite <- (reflect_period n). rewrite <- (reflect_mirror n _ nonempty).
    replace (-1 - (0 + Z.of_nat (n + k) + 2 * Z.of_nat n))%Z with (Z.of_nat (n - 1 - k) - 2 * (2 * Z.of_nat n))%Z by lia.
    rewrite <- (reflect_period n), <- (reflect_period n).
    replace (Z.of_nat (n - 1 - k) - 2 * (2 * Z.of_nat n) + 2 * Z.of_nat n + 2 * Z.of_nat n)%Z with (Z.of_nat (n - 1 - k)) by lia.
    symmetry. apply reflect_in. lia.
  - rewrite <- (total_nth x). fold n. apply total_ext. intros k Hk. apply in_seq in Hk. unfold ext. now rewrite Z.add_0_l, reflect_in by lia.
Qed.
(* the values seen at offset k and at offset -k are, together, all values twice *)
Lemma window_pair k : window k n + window (- k) n = 2 * total x.
Proof.
  rewrite <- window_total, <- (window_any (k - Z.of_nat n)). unfold window at 3. replace (2 * n)%nat with (n + n)%nat by lia.
  rewrite total_split. rewrite Rplus_comm. f_equal.
  - unfold window. rewrite total_reverse. apply total_ext. intros i Hi. apply in_seq in Hi. unfold ext. f_equal.
    rewrite <- (reflect_mirror n _ nonempty). f_equal. lia.
  - unfold window. apply total_ext. intros i _. f_equal. lia.
Qed.
End Reflect.
Lemma offsets_opp f r : total (map (fun k => f (- k)%Z) (offsets r)) = total (map f (offsets r)).
Proof.
  unfold offsets. rewrite !map_map. rewrite (total_reverse (fun k => f (Z.of_nat k - Z.of_nat r)%Z)). apply total_ext.
  intros k Hk. apply in_seq in Hk. f_equal. lia.
Qed.
(* a symmetric kernel with sum one keeps the total *)
Lemma correlate_total w r x : (forall k, w (- k)%Z = w k) -> total (map w (offsets r)) = 1 -> total (correlate w r x) = total x.
Proof.
  intros SY S1. destruct x as [|a x']; [reflexivity|]. set (x := a :: x'). assert (NE : (0 < length x)%nat) by (cbn; lia). clearbody x.
  unfold correlate. rewrite (total_swap (fun i k => w k * nth (reflect (length x) (Z.of_nat i + k)) x 0)).
  set (S := total _).
  assert (E1 : S = total (map (fun k => w k * window x k (length x)) (offsets r))).
  { unfold S. apply total_ext. intros k _. rewrite total_scale. f_equal. unfold window, ext. apply total_ext. intros i _. now rewrite Z.add_comm. }
  assert (E2 : S = total (map (fun k => w k * window x (- k) (length x)) (offsets r))).
  { rewrite E1. rewrite <- offsets_opp. apply total_ext. intros k _. now rewrite SY. }
  assert (E3 : S + S = 2 * total x * total (map w (offsets r))).
  { rewrite E1 at 1. rewrite E2. rewrite <- total_plus. rewrite <- total_scale. apply total_ext. intros k _.
    rewrite <- (window_pair x NE k). ring. }
  rewrite S1 in E3. Lra.lra.
Qed.
Lemma correlate_range w r x lo hi : (forall k, 0 <= w k) -> total (map w (offsets r)) = 1 ->
  (forall v, In v x -> lo <= v <= hi) -> forall v, In v (correlate w r x) -> lo <= v <= hi.
Proof.
  intros POS S1 HX v Hv. unfold correlate in Hv. apply in_map_iff in Hv. destruct Hv as (i & <- & Hi). apply in_seq in Hi.
  assert (NE : (0 < length x)%nat) by lia.
  assert (B : forall ks, lo * total (map w ks) <= total (map (fun k => w k * nth (reflect (length x) (Z.of_nat i + k)) x 0) ks) <= hi * total (map w ks)).
  { induction ks as [|k ks IH]; [cbn; Lra.lra|]. unfold total in *. cbn [map fold_right]. rewrite !Rmult_plus_distr_l.
    pose proof (HX _ (nth_In x 0 (reflect_bound (length x) (Z.of_nat i + k) NE))) as [L H].
    pose proof (Rmult_le_compat_l _ _ _ (POS k) L). pose proof (Rmult_le_compat_l _ _ _ (POS k) H). Lra.lra. }
  specialize (B (offsets r)). rewrite S1, !Rmult_1_r in B. exact B.
Qed.
Lemma bell_pos s k : 0 < bell s k. Proof. apply exp_pos. Qed.
Lemma bells_pos s r : 0 < total (map (bell s) (offsets r)).
Proof.
  unfold offsets. rewrite Nat.add_1_r. cbn [seq map]. unfold total. cbn [fold_right].
  assert (H : forall l, 0 <= fold_right Rplus 0 (map (bell s) l)).
  { induction l as [|k l IH]; [cbn; Lra.lra|]. cbn. pose proof (bell_pos s k). Lra.lra. }
  pose proof (bell_pos s (Z.of_nat 0 - Z.of_nat r)). specialize (H (map (fun k => (Z.of_nat k - Z.of_nat r)%Z) (seq 1 (2 * r)))). Lra.lra.
Qed.
Lemma weights_one s r : total (map (weight s r) (offsets r)) = 1.
Proof.
  unfold weight. rewrite (total_ext _ (fun k => / total (map (bell s) (offsets r)) * bell s k)) by (intros; unfold Rdiv; ring).
  rewrite total_scale. apply Rinv_l. pose proof (bells_pos s r). Lra.lra.
Qed.
Lemma weight_sym s r k : weight s r (- k) = weight s r k.
Proof. unfold weight, bell. do 3 f_equal. rewrite opp_IZR. ring. Qed.
Lemma weight_pos s r k : 0 <= weight s r k.
Proof. unfold weight. pose proof (bell_pos s k). pose proof (bells_pos s r). apply Rlt_le. now apply Rdiv_lt_0_compat. Qed.

(* Smoothing keeps the number of bins and the total, and stays between the smallest and the
   largest value. *)
Theorem smoothing_keeps_total : forall sigma x, total (gaussian_filter1d sigma x) = total x.
Proof. intros. apply correlate_total; [apply weight_sym|apply weights_one]. Qed.
Print Assumptions smoothing_keeps_total.
Theorem smoothing_stays_between : forall sigma x lo hi, (forall v, In v x -> lo <= v <= hi) ->
  length (gaussian_filter1d sigma x) = length x /\ forall v, In v (gaussian_filter1d sigma x) -> lo <= v <= hi.
Proof.
  intros. split; [unfold gaussian_filter1d, correlate; now rewrite map_length, seq_length|].
  apply correlate_range; [apply weight_pos|apply weights_one|assumption].
Qed.
Print Assumptions smoothing_stays_between.

(* ------------------------------------------------------------------ histogram *)
Lemma below_diff l a b : a <= b -> INR (below l b) - INR (below l a)
  = INR (length (filter (fun x => if Rle_dec a x then if Rlt_dec x b then true else false else false) l)).
Proof.
  intros H. rewrite <- minus_INR.
  - f_equal. unfold below. induction l as [|x l IH]; [reflexivity|]. cbn.
    destruct (Rlt_dec x b), (Rlt_dec x a), (Rle_dec a x); cbn [length] in *; try Lra.lra; try lia.
    assert (length (filter (fun x => if Rlt_dec x a then true else false) l) <= length (filter (fun x => if Rlt_dec x b then true else false) l))%nat; [|lia].
    clear - H. induction l as [|y l IH]; [auto|]. cbn. destruct (Rlt_dec y a), (Rlt_dec y b); cbn [length]; try Lra.lra; lia.
  - unfold below. induction l as [|y l IH]; [auto|]. cbn. destruct (Rlt_dec y a), (Rlt_dec y b); cbn [length]; try Lra.lra; lia.
Qed.
Lemma upto_diff l a b : a <= b -> INR (upto l b) - INR (below l a)
  = INR (length (filter (fun x => if Rle_dec a x then if Rle_dec x b then true else false else false) l)).
Proof.
  intros H. assert (LE : forall l, (below l a <= upto l b)%nat).
  { intros m. unfold below, upto. induction m as [|y m IH]; [auto|]. cbn. destruct (Rlt_dec y a), (Rle_dec y b); cbn [length]; try Lra.lra; lia. }
  rewrite <- minus_INR by apply LE. f_equal. induction l as [|x l IH]; [reflexivity|]. pose proof (LE l). unfold below, upto in *. cbn.
    destruct (Rle_dec x b), (Rlt_dec x a), (Rle_dec a x); cbn [length] in *; try Lra.lra; try lia.
Qed.
Definition hit (closed : bool) (a b x : R) : bool :=
  if Rle_dec a x then (if closed then (if Rle_dec x b then true else false) else (if Rlt_dec x b then true else false)) else false.
Lemma increasing_step a b rest : increasing (a :: b :: rest) = true -> a <= b /\ increasing (b :: rest) = true.
Proof. cbn. destruct (Rle_dec a b); [tauto|discriminate]. Qed.
Lemma histogram_length l : forall edges, length (histogram l edges) = (length edges - 1)%nat.
Proof. induction edges as [|a [|b rest] IH]; [reflexivity..|]. cbn [histogram length] in *. lia. Qed.
Lemma histogram_nth l : forall edges i, increasing edges = true -> (S i < length edges)%nat ->
  nth i (histogram l edges) 0 = INR (length (filter (hit (Nat.eqb (S (S i)) (length edges)) (nth i edges 0) (nth (S i) edges 0)) l)).
Proof.
  induction edges as [|a [|b rest] IH]; intros i IN HI; [cbn in HI; lia..|].
  apply increasing_step in IN. destruct IN as [LE IN]. destruct i as [|i].
  - cbn [nth histogram]. destruct rest as [|c rest]; cbn [length Nat.eqb].
    + rewrite upto_diff by assumption. reflexivity.
    + rewrite below_diff by assumption. reflexivity.
  - change (nth (S i) (histogram l (a :: b :: rest)) 0) with (nth i (histogram l (b :: rest)) 0).
    rewrite (IH i IN) by (cbn [length] in *; lia). reflexivity.
Qed.
Lemma histogram_total l : forall a b rest, total (histogram l (a :: b :: rest)) = INR (upto l (last (b :: rest) 0)) - INR (below l a).
Proof.
  intros a b rest. revert a b. induction rest as [|c rest IH]; intros a b.
  - cbn [histogram]. unfold total. cbn [fold_right last]. ring.
  - change (histogram l (a :: b :: c :: rest)) with ((INR (below l b) - INR (below l a)) :: histogram l (b :: c :: rest)).
    unfold total in *. cbn [fold_right]. rewrite IH. change (last (b :: c :: rest) 0) with (last (c :: rest) 0). ring.
Qed.
(* edges of equidistant bins *)
Lemma equidistant_nth e0 b n i : (i < n)%nat -> nth i (equidistant e0 b n) 0 = e0 + INR i * b.
Proof.
  intros H. unfold equidistant. rewrite (nth_indep _ 0 (e0 + INR 0 * b)) by (now rewrite map_length, seq_length).
  rewrite (map_nth (fun i => e0 + INR i * b)). now rewrite seq_nth.
Qed.
Lemma equidistant_last e0 b n : last (equidistant e0 b (S n)) 0 = e0 + INR n * b.
Proof. unfold equidistant. rewrite seq_S, map_app. cbn [map]. now rewrite last_last. Qed.
Lemma edges_equidistant e0 b n : bin_edges (equidistant e0 b (S n)) b = equidistant (e0 - b / 2) b (S (S n)).
Proof.
  unfold bin_edges. rewrite equidistant_last. unfold equidistant. rewrite (seq_S (S n)), !map_app, map_map. f_equal.
  - apply map_ext. intros i. ring.
  - cbn [map]. f_equal. rewrite Nat.add_0_l, (S_INR n). ring.
Qed.
Lemma equidistant_cons e0 b n : equidistant e0 b (S n) = e0 :: equidistant (e0 + b) b n.
Proof.
  unfold equidistant. cbn [seq map]. rewrite <- seq_shift, map_map. f_equal; [cbn; ring|]. apply map_ext. intros i. rewrite S_INR. ring.
Qed.
Lemma equidistant_increasing b n : 0 <= b -> forall e0, increasing (equidistant e0 b n) = true.
Proof.
  intros H. induction n as [|n IH]; intros e0; [reflexivity|]. rewrite equidistant_cons. destruct n as [|n]; [reflexivity|].
  specialize (IH (e0 + b)). rewrite equidistant_cons in *. change (increasing (e0 :: (e0 + b) :: equidistant (e0 + b + b) b n))
    with (if Rle_dec e0 (e0 + b) then increasing ((e0 + b) :: equidistant (e0 + b + b) b n) else false).
  destruct (Rle_dec e0 (e0 + b)); [exact IH|Lra.lra].
Qed.
Lemma filter_count {P : R -> Prop} (D : forall x, {P x} + {~ P x}) (g : R -> R) (f : R -> bool) l :
  (forall x, f (g x) = true <-> P x) -> length (filter f (map g l)) = count P D l.
Proof.
  intros H. unfold count. induction l as [|x l IH]; [reflexivity|]. cbn. specialize (H x). destruct (D x) as [p|p], (f (g x)) eqn:E; cbn [length].
  - now rewrite IH.
  - apply H in p. discriminate.
  - exfalso. apply p. now apply H.
  - exact IH.
Qed.

(* ------------------------------------------------------------------ C80 *)
(* levels of a file that is accepted *)
Definition accepted (levels : list R) : Prop := (length levels <= 1)%nat \/ total levels / 1000 / INR (length levels) < 20.
Lemma accepted_check levels : accepted levels ->
  (Nat.ltb 1 (length (map (fun e => e / 1000) levels)) && (if Rlt_dec (total (map (fun e => e / 1000) levels) / INR (length (map (fun e => e / 1000) levels))) 20 then false else true))%bool = false.
Proof.
  intros H. rewrite map_length. destruct (Nat.ltb_spec 1 (length levels)); [|reflexivity]. destruct H as [H | H]; [lia|].
  replace (total (map (fun e => e / 1000) levels)) with (total levels / 1000).
  - destruct (Rlt_dec _ 20); [reflexivity|contradiction].
  - rewrite (total_ext _ (fun e => / 1000 * e)) by (intros; field). rewrite total_scale, map_id. field.
Qed.
Lemma load_ok levels e0 b n r : accepted levels -> 0 < b -> (2 <= n)%nat ->
  load_discrete (Column levels) (equidistant e0 b n) r
  = let h := map (fun c => c / b) (histogram (map (fun e => e / 1000) levels) (equidistant (e0 - b / 2) b (S n))) in
    Ok (h, if Rlt_dec 0 r then Some (gaussian_filter1d (r / (23548 / 10000) / b) h) else None).
Proof.
  intros AC HB HN. unfold load_discrete. rewrite (accepted_check levels AC). destruct n as [|[|n]]; [lia..|].
  rewrite equidistant_cons. rewrite (equidistant_cons _ _ n) at 1. replace (e0 + b - e0) with b by ring.
  rewrite <- equidistant_cons. rewrite edges_equidistant. rewrite equidistant_increasing by Lra.lra.
  destruct (Req_EM_T b 0); [Lra.lra|reflexivity].
Qed.

(* The level density of a bin is the number of levels in the bin divided by its width. *)
Theorem levels_per_bin : forall levels e0 b n, accepted levels -> 0 < b -> (2 <= n)%nat ->
  exists v, load_levels_discrete (Column levels) (equidistant e0 b n) = Ok v /\
  rv_E v = equidistant e0 b n /\ rv_std v = None /\ length (rv_values v) = n /\
  forall i, (i < n)%nat -> nth i (rv_values v) 0 * b = INR (count (in_bin e0 b n i) (in_bin_dec e0 b n i) levels).
Proof.
  intros levels e0 b n AC HB HN. unfold load_levels_discrete. rewrite load_ok by assumption. cbn zeta.
  eexists. split; [reflexivity|]. cbn [rv_values rv_E rv_std].
  assert (LH : length (histogram (map (fun e => e / 1000) levels) (equidistant (e0 - b / 2) b (S n))) = n).
  { rewrite histogram_length. unfold equidistant. rewrite map_length, seq_length. lia. }
  split; [reflexivity|]. split; [reflexivity|]. split; [now rewrite map_length|]. intros i HI.
  rewrite (nth_indep _ 0 (0 / b)) by (now rewrite map_length, LH). rewrite (map_nth (fun c => c / b)).
  rewrite histogram_nth; [|apply equidistant_increasing; Lra.lra|unfold equidistant; rewrite map_length, seq_length; lia].
  rewrite !equidistant_nth by lia. replace (length (equidistant (e0 - b / 2) b (S n))) with (S n)
    by (unfold equidistant; now rewrite map_length, seq_length).
  rewrite (filter_count (in_bin_dec e0 b n i)).
  - field. Lra.lra.
  - intros x. unfold hit, in_bin. rewrite S_INR. change (S (S i) =? S n)%nat with (S i =? n)%nat.
    destruct (Nat.eqb (S i) n); destruct (Rle_dec _ (x / 1000)); try (split; [discriminate|intros [? ?]; Lra.lra]).
    + destruct (Rle_dec (x / 1000) _); split; try discriminate; intros; try split; Lra.lra.
    + destruct (Rlt_dec (x / 1000) _); split; try discriminate; intros; try split; Lra.lra.
Qed.
Print Assumptions levels_per_bin.

(* With or without smoothing the level density adds up to the number of levels within the
   range of the bins, is not negative, and is given on the energies of the argument. *)
Theorem levels_total : forall levels e0 b n r, accepted levels -> 0 < b -> (2 <= n)%nat ->
  exists v, load_levels_smooth (Column levels) (equidistant e0 b n) r = Ok v /\
  rv_E v = equidistant e0 b n /\ length (rv_values v) = n /\
  total (rv_values v) * b = INR (count (in_range e0 b n) (in_range_dec e0 b n) levels) /\
  (forall x, In x (rv_values v) -> 0 <= x <= INR (count (in_range e0 b n) (in_range_dec e0 b n) levels) / b).
Proof.
  intros levels e0 b n r AC HB HN. unfold load_levels_smooth. rewrite load_ok by assumption. cbn zeta.
  set (hs := histogram (map (fun e => e / 1000) levels) (equidistant (e0 - b / 2) b (S n))).
  set (N := INR (count (in_range e0 b n) (in_range_dec e0 b n) levels)).
  assert (LH : length hs = n).
  { unfold hs. rewrite histogram_length. unfold equidistant. rewrite map_length, seq_length. lia. }
  assert (TH : total (map (fun c => c / b) hs) * b = N).
  { rewrite (total_ext _ (fun c => / b * c)) by (intros; field; Lra.lra). rewrite total_scale, map_id.
    assert (T2 : total hs = N); [|rewrite T2; field; Lra.lra]. unfold hs. destruct n as [|n]; [lia|].
    rewrite equidistant_cons. rewrite equidistant_cons. rewrite histogram_total. rewrite <- equidistant_cons, equidistant_last.
    rewrite upto_diff.
    - unfold N. f_equal. apply filter_count. intros x. unfold in_range. rewrite (S_INR n).
      destruct (Rle_dec _ (x / 1000)); [destruct (Rle_dec (x / 1000) _)|]; split; try discriminate; intros; try split; Lra.lra.
    - pose proof (Rmult_le_pos _ _ (pos_INR n) (Rlt_le _ _ HB)). Lra.lra. }
  assert (PH : forall x, In x (map (fun c => c / b) hs) -> 0 <= x).
  { intros x Hx. apply in_map_iff in Hx. destruct Hx as (c & <- & Hc). apply Rmult_le_pos; [|apply Rlt_le; now apply Rinv_0_lt_compat].
    destruct (In_nth _ _ 0 Hc) as (i & Hi & <-). unfold hs. rewrite histogram_nth; [apply pos_INR|apply equidistant_increasing; Lra.lra|].
    rewrite LH in Hi. unfold equidistant. rewrite map_length, seq_length. lia. }
  assert (UP : forall l x, (forall y, In y l -> 0 <= y) -> In x l -> x <= total l).
  { clear. induction l as [|a l IH]; intros x P HIN; [destruct HIN|]. destruct HIN as [-> | H].
    - unfold total. cbn [fold_right]. assert (0 <= fold_right Rplus 0 l); [|Lra.lra]. assert (P' : forall y, In y l -> 0 <= y) by (intros; apply P; now right).
      clear - P'. induction l as [|y l IH]; [cbn; Lra.lra|]. cbn. pose proof (P' y (or_introl eq_refl)). assert (0 <= fold_right Rplus 0 l) by (apply IH; intros; apply P'; now right). Lra.lra.
    - assert (P' : forall y, In y l -> 0 <= y) by (intros; apply P; now right). specialize (IH x P' H). pose proof (P a (or_introl eq_refl)).
      unfold total in *. cbn [fold_right]. Lra.lra. }
  assert (BH : forall x, In x (map (fun c => c / b) hs) -> 0 <= x <= N / b).
  { intros x Hx. split; [now apply PH|]. rewrite <- TH. replace (total (map (fun c => c / b) hs) * b / b) with (total (map (fun c => c / b) hs)) by (field; Lra.lra).
    now apply UP. }
  destruct (Rlt_dec 0 r); eexists; (split; [reflexivity|]); cbn [rv_values rv_E]; (split; [reflexivity|]).
  - destruct (smoothing_stays_between (r / (23548 / 10000) / b) _ _ _ BH) as [E1 E2]. rewrite smoothing_keeps_total, E1, map_length. auto.
  - rewrite map_length. auto.
Qed.
Print Assumptions levels_total.

(* Which files and energies are accepted: more or less than one level with a mean below
   20 MeV, and at least two increasing energies. *)
Theorem levels_load_iff : forall file energy r,
  (exists v, load_levels_smooth file energy r = Ok v) <->
  exists levels e0 e1 rest, file = Column levels /\ accepted levels /\ energy = e0 :: e1 :: rest /\
    e0 <> e1 /\ increasing (bin_edges energy (e1 - e0)) = true.
Proof.
  intros file energy r. split.
  - intros [v H]. unfold load_levels_smooth, load_discrete in H. destruct file as [e|levels]; [discriminate|].
    destruct (Nat.ltb 1 _ && _)%bool eqn:CK; [discriminate|]. destruct energy as [|e0 [|e1 rest]]; [discriminate..|]. cbn zeta in H.
    destruct (increasing (bin_edges (e0 :: e1 :: rest) (e1 - e0))) eqn:IN; [|discriminate].
    destruct (Req_EM_T (e1 - e0) 0) as [Z|NZ]; [discriminate|].
    exists levels, e0, e1, rest. repeat (split; [first [reflexivity | idtac]|]); [|intros E; apply NZ; rewrite E; ring|exact IN].
    unfold accepted. rewrite map_length in CK. destruct (Nat.ltb_spec 1 (length levels)); [|left; lia]. right.
    cbn [andb] in CK. destruct (Rlt_dec _ 20) as [LT|]; [|discriminate].
    rewrite (total_ext _ (fun e => / 1000 * e)) in LT by (intros; field). rewrite total_scale, map_id in LT.
    replace (total levels / 1000) with (/ 1000 * total levels) by field. exact LT.
  - intros (levels & e0 & e1 & rest & -> & AC & -> & NE & IN). unfold load_levels_smooth, load_discrete.
    rewrite (accepted_check levels AC). cbn zeta. rewrite IN. destruct (Req_EM_T (e1 - e0) 0) as [Z|]; [exfalso; Lra.lra|].
    destruct (Rlt_dec 0 r); eexists; reflexivity.
Qed.
Print Assumptions levels_load_iff.
(* levels with a mean of 20 MeV or more (a file in other units than keV) are refused by the
   assertion *)
Theorem levels_units : forall levels energy r, ~ accepted levels ->
  load_levels_smooth (Column levels) energy r = Raise AssertionError /\ load_levels_discrete (Column levels) energy = Raise AssertionError.
Proof.
  intros levels energy r N. unfold load_levels_smooth, load_levels_discrete, load_discrete. rewrite map_length.
  assert (E : total (map (fun e => e / 1000) levels) = total levels / 1000).
  { clear. induction levels as [|a l IH]; cbn; [field|]. unfold total in *. cbn [fold_right map] in *. rewrite IH. field. }
  rewrite E. destruct (Nat.ltb_spec 1 (length levels)); [|exfalso; apply N; left; lia].
  destruct (Rlt_dec (total levels / 1000 / INR (length levels)) 20); [exfalso; apply N; now right|]. cbn [andb]. now split.
Qed.
Print Assumptions levels_units.
Example levels_units_example : load_levels_smooth (Column [0; 500000; 1000000]) [0; 1; 2] (/ 10) = Raise AssertionError.
Proof. apply levels_units. intros [H | H]; cbn in H; [lia|Lra.lra]. Qed.

(* C80 refuted: a file with one level is not accepted, although one without levels is. *)
Theorem single_level_refuted : exists e energy r,
  (forall v, load_levels_smooth (Single e) energy r <> Ok v) /\ exists v, load_levels_smooth (Column []) energy r = Ok v.
Proof.
  exists 511, (equidistant 0 (/ 10) 5), (/ 10). split; [discriminate|].
  destruct (levels_total [] 0 (/ 10) 5 (/ 10)) as (v & E & _); [left; cbn; lia|Lra.lra|lia|]. now exists v.
Qed.
Print Assumptions single_level_refuted.

(* three levels, two of them within the four bins of 0.5 MeV from 0 *)
Example levels_example : exists v, load_levels_smooth (Column [0; 846; 7000]) (equidistant 0 (/ 2) 4) (/ 10) = Ok v /\
  total (rv_values v) * / 2 = 2.
Proof.
  destruct (levels_total [0; 846; 7000] 0 (/ 2) 4 (/ 10)) as (v & E & _ & _ & T & _); [right; cbn; Lra.lra|Lra.lra|lia|].
  exists v. split; [exact E|]. rewrite T. unfold count. cbn [filter].
  destruct (in_range_dec _ _ _ 0) as [_|n]; [|exfalso; apply n; split; cbn; Lra.lra].
  destruct (in_range_dec _ _ _ 846) as [_|n]; [|exfalso; apply n; split; cbn; Lra.lra].
  destruct (in_range_dec _ _ _ 7000) as [[_ y]|_]; [exfalso; cbn in y; Lra.lra|]. reflexivity.
Qed.
