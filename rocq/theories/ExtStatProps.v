(* C116: the credibility bands of the extrapolations. *)
From Coq Require Import Reals List Sorted Permutation.
From Verif Require Import PyBase TransformModel TransformProps NormModel ExtStatModel GsfGaugeProps.
From Coq Require Import Lra Lia.
Import ListNotations.
Local Open Scope R_scope.

(* ------------------------------------------------------------------ specification *)
(* low <= median <= high, all three numbers *)
Definition band (st : rstat) : Prop :=
  exists m a b, rs_median st = Some m /\ rs_low st = Some a /\ rs_high st = Some b /\ a <= m <= b.
(* d times a line of the table *)
Definition scale_stat (d : R) (st : rstat) : rstat :=
  mkRS (option_map (Rmult d) (rs_median st)) (option_map (Rmult d) (rs_low st)) (option_map (Rmult d) (rs_high st)).
(* the fit depends on the data and the range of the fit, not on what was fitted before *)
Definition own_fit (fitf : rvec -> emodel -> R * R) : Prop := forall v m ab, fitf v (set_fit ab m) = fitf v m.
(* the extrapolation of one sample *)
Definition curve_of (fitf : rvec -> emodel -> R * R) (m : emodel) (g : rvec) (e : R) : option R :=
  model_value (em_high m) (fst (fitf g m)) (snd (fitf g m)) e.

(* ------------------------------------------------------------------ sorting *)
Lemma rinsert_perm x l : Permutation (x :: l) (rinsert x l).
Proof. induction l as [|y l IH]; cbn; [reflexivity|]. destruct (Rle_dec x y); [reflexivity|]. rewrite perm_swap. now constructor. Qed.
Lemma rsort_perm l : Permutation l (rsort l).
Proof. induction l as [|x l IH]; cbn; [constructor|]. rewrite IH at 1. apply rinsert_perm. Qed.
Lemma rinsert_sorted x l : StronglySorted Rle l -> StronglySorted Rle (rinsert x l).
Proof.
  induction l as [|y l IH]; intros H; cbn; [repeat constructor|]. inversion H as [|? ? S F]; subst. destruct (Rle_dec x y) as [L|L].
  - constructor; [exact H|]. constructor; [exact L|]. eapply Forall_impl; [|exact F]. intros z Hz. lra.
  - constructor; [now apply IH|]. apply (Permutation_Forall (rinsert_perm x l)). constructor; [lra|exact F].
Qed.
Lemma rsort_sorted l : StronglySorted Rle (rsort l).
Proof. induction l as [|x l IH]; cbn; [constructor|now apply rinsert_sorted]. Qed.
Lemma sorted_unique a : forall b, StronglySorted Rle a -> StronglySorted Rle b -> Permutation a b -> a = b.
Proof.
  induction a as [|x a IH]; intros b SA SB P; [now apply Permutation_nil in P|]. destruct b as [|y b]; [now apply Permutation_sym, Permutation_nil in P|].
  inversion SA as [|? ? SA' FA]; subst. inversion SB as [|? ? SB' FB]; subst. rewrite Forall_forall in FA, FB.
  assert (E : x = y).
  { assert (x = y \/ In y a) as [E|E] by (destruct (Permutation_in y (Permutation_sym P) (or_introl eq_refl)); auto); [exact E|].
    assert (x = y \/ In x b) as [E'|E'] by (destruct (Permutation_in x P (or_introl eq_refl)); auto); [exact E'|]. apply FA in E. apply FB in E'. lra. }
  subst y. f_equal. apply IH; try assumption. now apply Permutation_cons_inv in P.
Qed.
Lemma rsort_perm_eq l m : Permutation l m -> rsort l = rsort m.
Proof. intros P. apply sorted_unique; try apply rsort_sorted. now rewrite <- !rsort_perm. Qed.
Lemma rsort_scale d l : 0 < d -> rsort (map (Rmult d) l) = map (Rmult d) (rsort l).
Proof.
  intros D. apply sorted_unique; [apply rsort_sorted| |].
  - generalize (rsort_sorted l). induction (rsort l) as [|x s IH]; intros S; [constructor|]. inversion S as [|? ? S' F]; subst. cbn. constructor; [now apply IH|].
    apply Forall_forall. intros z Hz. apply in_map_iff in Hz. destruct Hz as (y & <- & Hy). rewrite Forall_forall in F. apply Rmult_le_compat_l; [lra|now apply F].
  - rewrite <- rsort_perm. apply Permutation_map. apply rsort_perm.
Qed.
Lemma sorted_nth s i j : StronglySorted Rle s -> (i <= j < length s)%nat -> nth i s 0 <= nth j s 0.
Proof.
  revert i j. induction s as [|x s IH]; intros i j S H; cbn in H; [lia|]. inversion S as [|? ? S' F]; subst. destruct i as [|i], j as [|j]; cbn; try lra; try lia.
  - rewrite Forall_forall in F. apply F. apply nth_In. lia. - apply IH; [assumption|lia].
Qed.

(* ------------------------------------------------------------------ quantiles *)
Lemma int_part_pos h : 0 <= h -> INR (Z.to_nat (Int_part h)) <= h < INR (Z.to_nat (Int_part h)) + 1.
Proof.
  intros H. destruct (base_Int_part h) as [B1 B2]. assert (0 <= Int_part h)%Z. { assert (-1 < Int_part h)%Z; [|lia]. apply lt_IZR. lra. }
  rewrite INR_IZR_INZ, Z2Nat.id by assumption. lra.
Qed.
Lemma r_at_between s h : StronglySorted Rle s -> s <> [] -> 0 <= h <= INR (length s - 1) ->
  let k := Z.to_nat (Int_part h) in (k < length s)%nat /\ nth k s 0 <= r_at s h <= nth (Nat.min (S k) (length s - 1)) s 0 /\
  ((S k < length s)%nat \/ h = INR k).
Proof.
  intros S NE H k. destruct (int_part_pos h (proj1 H)) as [K1 K2]. fold k in K1, K2.
  assert (LK : (k <= length s - 1)%nat) by (apply INR_le; lra). assert (L0 : (0 < length s)%nat) by (destruct s; [contradiction|cbn; lia]).
  split; [lia|]. assert (M : nth k s 0 <= nth (Nat.min (Datatypes.S k) (length s - 1)) s 0) by (apply sorted_nth; [exact S|lia]).
  split; [|destruct (Nat.eq_dec k (length s - 1)) as [E|E]; [right; rewrite E in *; lra|left; lia]].
  unfold r_at. fold k. split; [assert (0 <= (h - INR k) * (nth (Nat.min (Datatypes.S k) (length s - 1)) s 0 - nth k s 0)) by (apply Rmult_le_pos; lra); lra|].
  set (u := nth k s 0) in *. set (w := nth (Nat.min (Datatypes.S k) (length s - 1)) s 0) in *. nra.
Qed.
Lemma r_at_mono s h h' : StronglySorted Rle s -> s <> [] -> 0 <= h -> h <= h' -> h' <= INR (length s - 1) -> r_at s h <= r_at s h'.
Proof.
  intros S NE H0 HH H1. destruct (r_at_between s h S NE ltac:(lra)) as (K & B & _). destruct (r_at_between s h' S NE ltac:(lra)) as (K' & B' & _).
  set (k := Z.to_nat (Int_part h)) in *. set (k' := Z.to_nat (Int_part h')) in *.
  destruct (int_part_pos h H0) as [Q1 Q2]. destruct (int_part_pos h' ltac:(lra)) as [Q1' Q2']. fold k in Q1, Q2. fold k' in Q1', Q2'.
  assert (KK : (k <= k')%nat). { assert (k < Datatypes.S k')%nat; [|lia]. apply INR_lt. rewrite S_INR. lra. }
  destruct (Nat.eq_dec k k') as [E|E].
  - unfold r_at. fold k k'. rewrite <- E. set (u := nth k s 0) in *. assert (u <= nth (Nat.min (Datatypes.S k) (length s - 1)) s 0) by (apply sorted_nth; [exact S|lia]).
    apply Rplus_le_compat_l. apply Rmult_le_compat_r; lra.
  - assert (nth (Nat.min (Datatypes.S k) (length s - 1)) s 0 <= nth k' s 0) by (apply sorted_nth; [exact S|lia]). lra.
Qed.
Lemma div2_half n : (n = 2 * Nat.div2 n \/ n = 2 * Nat.div2 n + 1)%nat.
Proof. pose proof (Nat.div2_odd n) as H. destruct (Nat.odd n); cbn [Nat.b2n] in H; lia. Qed.
Lemma median_half l : rmedian l = rquantile (/ 2) l.
Proof.
  unfold rmedian, rquantile. destruct (rsort l) as [|x s] eqn:E; [reflexivity|]. f_equal. set (t := x :: s). assert (L0 : (0 < length t)%nat) by (cbn; lia).
  unfold r_at. set (n := (length t - 1)%nat). assert (EL : length t = S n) by (unfold n; lia).
  assert (IP : forall k r, / 2 * INR n = INR k + r -> 0 <= r < 1 -> Z.to_nat (Int_part (/ 2 * INR n)) = k).
  { intros k r EQ HR. assert (IPZ : Int_part (/ 2 * INR n) = Z.of_nat k). { destruct (base_Int_part (/ 2 * INR n)) as [B1 B2]. set (h := / 2 * INR n) in *. clearbody h. rewrite INR_IZR_INZ in EQ. assert (U : IZR (Int_part h) < IZR (Z.of_nat k + 1)) by (rewrite plus_IZR; lra). assert (V : IZR (Z.of_nat k) < IZR (Int_part h + 1)) by (rewrite plus_IZR; lra). apply lt_IZR in U, V. lia. } rewrite IPZ. apply Nat2Z.id. }
  destruct (div2_half n) as [D|D].
  - assert (IN : / 2 * INR n = INR (Nat.div2 n) + 0) by (rewrite D at 1; rewrite mult_INR; cbn [INR]; lra).
    rewrite (IP _ _ IN) by lra. rewrite IN. replace (Nat.div2 (length t)) with (Nat.div2 n); [lra|]. rewrite EL. destruct (div2_half (S n)); lia.
  - assert (IN : / 2 * INR n = INR (Nat.div2 n) + / 2) by (rewrite D at 1; rewrite plus_INR, mult_INR; cbn [INR]; lra).
    rewrite (IP _ _ IN) by lra. rewrite IN. replace (Nat.div2 (length t)) with (S (Nat.div2 n)) by (rewrite EL; destruct (div2_half (S n)); lia).
    replace (Nat.min (S (Nat.div2 n)) n) with (S (Nat.div2 n)) by lia. lra.
Qed.
Lemma rquantile_mono p q l a b : 0 <= p -> p <= q -> q <= 1 -> rquantile p l = Some a -> rquantile q l = Some b -> a <= b.
Proof.
  unfold rquantile. pose proof (rsort_sorted l) as S. destruct (rsort l) as [|x s]; [discriminate|]. intros P Q W H1 H2. injection H1 as <-. injection H2 as <-.
  pose proof (pos_INR (length (x :: s) - 1)) as NN. set (n := INR (length (x :: s) - 1)) in *. apply r_at_mono; try assumption; [discriminate|now apply Rmult_le_pos|now apply Rmult_le_compat_r|]. change (q * n <= n). assert (q * n <= 1 * n) by now apply Rmult_le_compat_r. lra.
Qed.
Lemma rquantile_some q l : l <> [] -> exists a, rquantile q l = Some a.
Proof. intros NE. unfold rquantile. destruct (rsort l) eqn:E; [|now eexists]. exfalso. apply NE. apply Permutation_nil. rewrite <- E. symmetry. apply rsort_perm. Qed.
Lemma r_at_scale d s h : s <> [] -> 0 <= h <= INR (length s - 1) -> r_at (map (Rmult d) s) h = d * r_at s h.
Proof.
  intros NE H. unfold r_at. rewrite map_length. replace 0 with (d * 0) by ring. rewrite !map_nth. rewrite Rmult_0_r. ring.
Qed.
Lemma rquantile_scale d q l : 0 < d -> 0 <= q <= 1 -> rquantile q (map (Rmult d) l) = option_map (Rmult d) (rquantile q l).
Proof.
  intros D Q. unfold rquantile. rewrite rsort_scale by exact D. destruct (rsort l) as [|x s]; [reflexivity|]. cbn [map option_map]. f_equal.
  change (d * x :: map (Rmult d) s) with (map (Rmult d) (x :: s)). rewrite map_length. apply r_at_scale; [discriminate|]. pose proof (pos_INR (length (x :: s) - 1)). nra.
Qed.
Lemma rmedian_scale d l : 0 < d -> rmedian (map (Rmult d) l) = option_map (Rmult d) (rmedian l).
Proof. intros D. rewrite !median_half. apply rquantile_scale; lra. Qed.
(* a quantile lies between two of the entries *)
Lemma rquantile_in q l a : 0 <= q <= 1 -> rquantile q l = Some a -> exists u w, In u l /\ In w l /\ u <= a <= w.
Proof.
  intros Q. unfold rquantile. pose proof (rsort_sorted l) as S. pose proof (rsort_perm l) as P. destruct (rsort l) as [|x s]; [discriminate|]. intros H. injection H as <-.
  set (t := x :: s) in *. assert (HR : 0 <= q * INR (length t - 1) <= INR (length t - 1)) by (pose proof (pos_INR (length t - 1)); nra).
  destruct (r_at_between t _ S ltac:(discriminate) HR) as (K & B & _). set (k := Z.to_nat (Int_part (q * INR (length t - 1)))) in *.
  exists (nth k t 0), (nth (Nat.min (Datatypes.S k) (length t - 1)) t 0). split; [|split; [|exact B]].
  - apply (Permutation_in _ (Permutation_sym P)). now apply nth_In. - apply (Permutation_in _ (Permutation_sym P)). apply nth_In. lia.
Qed.

(* ------------------------------------------------------------------ tables *)
Lemma somes_map l : somes (map Some l) = Some l.
Proof. induction l as [|x l IH]; cbn; [reflexivity|now rewrite IH]. Qed.
Lemma somes_perm a b l : Permutation a b -> somes a = Some l -> exists m, somes b = Some m /\ Permutation l m.
Proof.
  intros P. revert l. induction P as [|[x|] a b P IH|[x|] [y|] a|a b c P1 IH1 P2 IH2]; intros l H; cbn in *; try discriminate.
  - injection H as <-. exists []. now split. - destruct (somes a) as [t|]; [|discriminate]. injection H as <-. destruct (IH t eq_refl) as (m & -> & Q). exists (x :: m). split; [reflexivity|now constructor].
  - destruct (somes a) as [t|]; [|discriminate]. injection H as <-. exists (x :: y :: t). split; [reflexivity|apply perm_swap].
  - destruct (IH1 l H) as (m & E & Q). destruct (IH2 m E) as (m' & E' & Q'). exists m'. split; [exact E'|now transitivity m].
Qed.
Lemma colstat_perm p0 p1 a b : Permutation a b -> colstat p0 p1 a = colstat p0 p1 b.
Proof.
  intros P. unfold colstat. destruct (somes a) as [l|] eqn:E.
  - destruct (somes_perm a b l P E) as (m & -> & Q). cbn. unfold rmedian, rquantile. now rewrite (rsort_perm_eq l m Q).
  - destruct (somes b) as [m|] eqn:E'; [|reflexivity]. destruct (somes_perm b a m (Permutation_sym P) E') as (? & C & _). congruence.
Qed.
Lemma somes_scale d l : somes (map (option_map (Rmult d)) l) = option_map (map (Rmult d)) (somes l).
Proof. induction l as [|[x|] l IH]; cbn; try reflexivity. rewrite IH. now destruct (somes l). Qed.
Lemma colstat_scale d p0 p1 c : 0 < d -> 0 <= p0 <= 1 -> 0 <= p1 <= 1 -> colstat p0 p1 (map (option_map (Rmult d)) c) = option_map (scale_stat d) (colstat p0 p1 c).
Proof.
  intros D P0 P1. unfold colstat. rewrite somes_scale. destruct (somes c) as [l|]; [|reflexivity]. cbn. unfold scale_stat. cbn. now rewrite rmedian_scale, !rquantile_scale by assumption.
Qed.
Lemma fraction_iff p : fraction_ok p = true <-> 0 <= p <= 1.
Proof. unfold fraction_ok. destruct (Rle_dec 0 p), (Rle_dec p 1); split; intros; try discriminate; try lra; reflexivity. Qed.
Lemma colstat_band p0 p1 c st : 0 <= p0 <= / 2 -> / 2 <= p1 <= 1 -> c <> [] -> colstat p0 p1 c = Some st -> band st.
Proof.
  intros P0 P1 NE. unfold colstat. destruct (somes c) as [l|] eqn:E; [|discriminate]. cbn. intros H. injection H as <-.
  assert (NL : l <> []). { intros ->. destruct c as [|[x|] c]; [contradiction| |discriminate]. cbn in E. now destruct (somes c). }
  destruct (rquantile_some p0 l NL) as [a A]. destruct (rquantile_some p1 l NL) as [b B]. destruct (rquantile_some (/ 2) l NL) as [m M].
  exists m, a, b. cbn. rewrite median_half. repeat split; try assumption; [eapply (rquantile_mono p0 (/ 2)); eauto; lra|eapply (rquantile_mono (/ 2) p1); eauto; lra].
Qed.

(* ------------------------------------------------------------------ level density *)
(* at every energy: a band, within the models of the samples, whatever their order *)
Theorem nld_bands : forall model x samples p0 p1 t, samples <> [] -> 0 <= p0 <= / 2 -> / 2 <= p1 <= 1 ->
  nld_ext_stats model x samples p0 p1 = Ok t ->
  length t = length x /\
  (forall samples', Permutation samples samples' -> nld_ext_stats model x samples' p0 p1 = Ok t) /\
  forall j, (j < length x)%nat -> exists st, nth j t None = Some st /\ band st /\
    (forall v, rs_median st = Some v \/ rs_low st = Some v \/ rs_high st = Some v ->
       exists s s', In s samples /\ In s' samples /\ model (fst s) (snd s) (nth j x 0) <= v <= model (fst s') (snd s') (nth j x 0)).
Proof.
  intros model x samples p0 p1 t NE P0 P1. unfold nld_ext_stats, table. rewrite (proj2 (fraction_iff p0)), (proj2 (fraction_iff p1)) by lra. cbn [andb].
  assert (COL : forall ss j, (j < length x)%nat -> map (fun r => nth j r None) (map (fun s => map (fun e => Some (model (fst s) (snd s) e)) x) ss) = map Some (map (fun s : R * R => model (fst s) (snd s) (nth j x 0)) ss)).
  { intros ss j Hj. rewrite !map_map. apply map_ext. intros s. rewrite (nth_indep _ None (Some (model (fst s) (snd s) 0))) by now rewrite map_length.
    now rewrite (map_nth (fun e => Some (model (fst s) (snd s) e))). }
  intros H. injection H as <-. split; [now rewrite map_length, seq_length|]. split.
  - intros ss P. f_equal. apply map_ext_in. intros j Hj. apply in_seq in Hj. symmetry. apply colstat_perm. do 2 apply Permutation_map. exact P.
  - intros j Hj. rewrite (nth_indep _ None (colstat p0 p1 (map (fun r => nth 0 r None) (map (fun s => map (fun e => Some (model (fst s) (snd s) e)) x) samples)))) by now rewrite map_length, seq_length.
    rewrite (map_nth (fun j => colstat p0 p1 (map (fun r => nth j r None) (map (fun s => map (fun e => Some (model (fst s) (snd s) e)) x) samples)))). rewrite seq_nth by exact Hj. cbn [plus].
    rewrite COL by exact Hj. set (l := map (fun s : R * R => model (fst s) (snd s) (nth j x 0)) samples). assert (NL : l <> []) by (unfold l; destruct samples; [contradiction|discriminate]).
    unfold colstat. rewrite somes_map. cbn [option_map]. eexists. split; [reflexivity|]. split.
    + eapply (colstat_band p0 p1 (map Some l)); try assumption; [destruct l; [contradiction|discriminate]|]. unfold colstat. now rewrite somes_map.
    + cbn [rs_median rs_low rs_high]. rewrite median_half. intros v HV.
      assert (exists u w, In u l /\ In w l /\ u <= v <= w) as (u & w & U & W & B) by (destruct HV as [HV|[HV|HV]]; apply rquantile_in in HV; auto; lra).
      apply in_map_iff in U, W. destruct U as (s & <- & S). destruct W as (s' & <- & S'). exists s, s'. auto.
Qed.
Print Assumptions nld_bands.

(* ------------------------------------------------------------------ strength function *)
Lemma rows_fit fitf low high xl xh samples : own_fit fitf -> em_fit low = true ->
  ext_rows fitf low high xl xh samples = (map (fun g => map (curve_of fitf low g) xl) samples, map (fun g => map (curve_of fitf high g) xh) samples).
Proof.
  intros OF. revert low high. induction samples as [|g t IH]; intros low high HF; [reflexivity|]. cbn [ext_rows map]. unfold fit_models. rewrite HF.
  rewrite IH by exact HF. f_equal; f_equal; try reflexivity; apply map_ext; intros v; apply map_ext; intros e; unfold curve_of; cbn [set_fit em_high]; now rewrite OF.
Qed.
Lemma rows_fix fitf low high xl xh samples : em_fit low = false ->
  ext_rows fitf low high xl xh samples = (map (fun _ => values_at low xl) samples, map (fun _ => values_at high xh) samples).
Proof. intros HF. induction samples as [|g t IH]; [reflexivity|]. cbn [ext_rows map]. unfold fit_models. now rewrite HF, IH. Qed.
(* fitted extrapolations: the table is that of the samples' own curves, in any order *)
Theorem gsf_bands_fitted : forall fitf low high xl xh samples p0 p1 ta tb, own_fit fitf -> em_fit low = true ->
  samples <> [] -> 0 <= p0 <= / 2 -> / 2 <= p1 <= 1 -> gsf_ext_stats fitf low high xl xh samples p0 p1 = Ok (ta, tb) ->
  ta = map (fun e => colstat p0 p1 (map (fun g => curve_of fitf low g e) samples)) xl /\
  tb = map (fun e => colstat p0 p1 (map (fun g => curve_of fitf high g e) samples)) xh /\
  (forall samples', Permutation samples samples' -> gsf_ext_stats fitf low high xl xh samples' p0 p1 = Ok (ta, tb)) /\
  (forall st, In (Some st) ta \/ In (Some st) tb -> band st).
Proof.
  intros fitf low high xl xh samples p0 p1 ta tb OF HF NE P0 P1.
  assert (TB : forall m x ss, map (fun j => colstat p0 p1 (map (fun r => nth j r None) (map (fun g => map (curve_of fitf m g) x) ss))) (seq 0 (length x)) =
                          map (fun e => colstat p0 p1 (map (fun g => curve_of fitf m g e) ss)) x).
  { intros m x ss. apply (nth_ext _ _ (colstat p0 p1 (map (fun r => nth 0 r None) (map (fun g => map (curve_of fitf m g) x) ss))) (colstat p0 p1 (map (fun g => curve_of fitf m g 0) ss))); [now rewrite !map_length, seq_length|].
    intros j Hj. rewrite map_length, seq_length in Hj. rewrite (map_nth (fun j => colstat p0 p1 (map (fun r => nth j r None) (map (fun g => map (curve_of fitf m g) x) ss)))).
    rewrite (map_nth (fun e => colstat p0 p1 (map (fun g => curve_of fitf m g e) ss))). rewrite seq_nth by exact Hj. cbn [plus]. f_equal. rewrite map_map. apply map_ext. intros g.
    rewrite (nth_indep _ None (curve_of fitf m g 0)) by now rewrite map_length. now rewrite map_nth. }
  assert (ALL : forall ss, gsf_ext_stats fitf low high xl xh ss p0 p1 = if Nat.eqb (length xl) (length xh)
     then Ok (map (fun e => colstat p0 p1 (map (fun g => curve_of fitf low g e) ss)) xl, map (fun e => colstat p0 p1 (map (fun g => curve_of fitf high g e) ss)) xh) else Raise AssertionError).
  { intros ss. unfold gsf_ext_stats. destruct (Nat.eqb (length xl) (length xh)); [|reflexivity]. rewrite rows_fit by assumption. unfold table.
    rewrite (proj2 (fraction_iff p0)), (proj2 (fraction_iff p1)) by lra. cbn [andb rbind]. now rewrite !TB. }
  rewrite ALL. destruct (Nat.eqb (length xl) (length xh)) eqn:LE; [|discriminate]. intros H. injection H as <- <-. split; [reflexivity|]. split; [reflexivity|]. split.
  - intros ss P. rewrite ALL, ?LE. do 2 f_equal; apply map_ext; intros e; apply colstat_perm; apply Permutation_map; now symmetry.
  - intros st [I|I]; apply in_map_iff in I; destruct I as (e & E & _); refine (colstat_band p0 p1 _ st P0 P1 _ E); destruct samples; try contradiction; discriminate.
Qed.
Print Assumptions gsf_bands_fitted.
(* ... and follows the normalisation: samples d times as large, bands d times as large *)
Theorem gsf_bands_scale : forall fitf low high xl xh samples p0 p1 d, own_fit fitf -> em_fit low = true ->
  0 < d -> (forall g, In g samples -> follows fitf d g low /\ follows fitf d g high) ->
  forall ta tb, samples <> [] -> 0 <= p0 <= / 2 -> / 2 <= p1 <= 1 ->
  gsf_ext_stats fitf low high xl xh samples p0 p1 = Ok (ta, tb) ->
  gsf_ext_stats fitf low high xl xh (map (transform d 0) samples) p0 p1 = Ok (map (option_map (scale_stat d)) ta, map (option_map (scale_stat d)) tb).
Proof.
  intros fitf low high xl xh samples p0 p1 d OF HF D FO ta tb NE P0 P1 H.
  assert (Q0 : 0 <= p0 <= 1) by lra. assert (Q1 : 0 <= p1 <= 1) by lra.
  assert (LE : Nat.eqb (length xl) (length xh) = true) by (unfold gsf_ext_stats in H; destruct (Nat.eqb (length xl) (length xh)); [reflexivity|discriminate]).
  destruct (gsf_bands_fitted fitf low high xl xh samples p0 p1 ta tb OF HF NE P0 P1 H) as (-> & -> & _).
  destruct (gsf_ext_stats fitf low high xl xh (map (transform d 0) samples) p0 p1) as [[ta tb]|e] eqn:E.
  2: { exfalso. unfold gsf_ext_stats, table in E. rewrite LE, rows_fit, (proj2 (fraction_iff p0)), (proj2 (fraction_iff p1)) in E by assumption. discriminate. }
  assert (NE' : map (transform d 0) samples <> []) by (destruct samples; [contradiction|discriminate]).
  destruct (gsf_bands_fitted fitf low high xl xh _ p0 p1 ta tb OF HF NE' P0 P1 E) as (-> & -> & _). do 2 f_equal; rewrite map_map; apply map_ext; intros e; rewrite <- colstat_scale by assumption; f_equal; rewrite !map_map; apply map_ext_in; intros g Hg;
    destruct (FO g Hg) as [F1 F2]; unfold follows in F1, F2; unfold curve_of; rewrite ?F1, ?F2; cbn [fst snd]; unfold model_value.
  all: assert (X : forall s, exp (s + ln d) = d * exp s) by (intros s; rewrite exp_plus, exp_ln by exact D; ring).
  all: destruct (em_high _); [destruct (Req_EM_T e 0); [reflexivity|]|]; cbn [option_map]; f_equal; rewrite <- Rplus_assoc, X; unfold Rdiv; ring.
Qed.
Print Assumptions gsf_bands_scale.
(* the curve of a normalised strength function is the extrapolation reported with it *)
Theorem sample_curve_is_reported : forall fitf p ss nld model alpha low high gsf e0 t r e,
  em_fit low = true -> rv_E gsf = e0 :: t ->
  gsf_normalize fitf p ss nld model alpha low high gsf = Some r ->
  follows fitf (gr_B r) (transform 1 alpha gsf) (autorange e0 low) -> follows fitf (gr_B r) (transform 1 alpha gsf) (autorange e0 high) ->
  curve_of fitf (autorange e0 low) (gr_gsf r) e = model_value (em_high low) (em_scale (gr_low r)) (shift_after (gr_low r)) e /\
  curve_of fitf (autorange e0 high) (gr_gsf r) e = model_value (em_high high) (em_scale (gr_high r)) (shift_after (gr_high r)) e.
Proof.
  intros fitf p ss nld model alpha low high gsf e0 t r e HF HE. unfold gsf_normalize. change (rv_E (transform 1 alpha gsf)) with (rv_E gsf). rewrite HE. unfold fit_models. change (em_fit (autorange e0 low)) with (em_fit low). rewrite HF.
  set (v := transform 1 alpha gsf). set (ml := autorange e0 low). set (mh := autorange e0 high).
  destruct (extrapolate false (set_fit (fitf v ml) ml)) as [cl|]; [|discriminate]. destruct (extrapolate false (set_fit (fitf v mh) mh)) as [ch|]; [|discriminate].
  destruct (Gg_standard p ss (rv_curve v) cl ch nld model) as [g| |]; try discriminate. destruct (Req_EM_T g 0); [discriminate|]. unfold norm_to_shift_after. destruct (Rlt_dec 0 (np_Gg p / g)); [|discriminate].
  intros H. injection H as <-. cbn [gr_B gr_gsf gr_low gr_high]. unfold follows, curve_of. intros F1 F2. rewrite F1, F2. cbn. split; reflexivity.
Qed.
Print Assumptions sample_curve_is_reported.

(* Full statement: the bands also follow the normalisation when the parameters of the
   extrapolations are given (method "fix").  False: the samples are not looked at. *)
Lemma rquantile_repeat q a n : 0 <= q <= 1 -> rquantile q (repeat a (S n)) = Some a.
Proof.
  intros Q. destruct (rquantile_some q (repeat a (S n)) ltac:(discriminate)) as [v V]. rewrite V. f_equal. destruct (rquantile_in q _ v Q V) as (u & w & U & W & B).
  apply repeat_spec in U, W. lra.
Qed.
Lemma colstat_const p0 p1 o n : 0 <= p0 <= 1 -> 0 <= p1 <= 1 -> colstat p0 p1 (repeat o (S n)) = option_map (fun v => mkRS (Some v) (Some v) (Some v)) o.
Proof.
  intros P0 P1. unfold colstat. destruct o as [v|]; [|reflexivity]. assert (E : somes (repeat (Some v) (S n)) = Some (repeat v (S n))).
  { induction n as [|n IH]; [reflexivity|]. change (repeat (Some v) (S (S n))) with (Some v :: repeat (Some v) (S n)). cbn [somes]. rewrite IH. reflexivity. }
  rewrite E. cbn [option_map]. rewrite median_half, !rquantile_repeat by lra. reflexivity.
Qed.
Theorem gsf_bands_fixed : forall fitf low high xl xh samples p0 p1 ta tb, em_fit low = false -> samples <> [] ->
  0 <= p0 <= 1 -> 0 <= p1 <= 1 -> gsf_ext_stats fitf low high xl xh samples p0 p1 = Ok (ta, tb) ->
  ta = map (fun e => option_map (fun v => mkRS (Some v) (Some v) (Some v)) (model_value (em_high low) (em_scale low) (em_shift low) e)) xl /\
  tb = map (fun e => option_map (fun v => mkRS (Some v) (Some v) (Some v)) (model_value (em_high high) (em_scale high) (em_shift high) e)) xh /\
  (forall samples', samples' <> [] -> gsf_ext_stats fitf low high xl xh samples' p0 p1 = Ok (ta, tb)).
Proof.
  intros fitf low high xl xh samples p0 p1 ta tb HF NE P0 P1.
  assert (TB : forall m x (ss : list rvec), ss <> [] -> map (fun j => colstat p0 p1 (map (fun r => nth j r None) (map (fun _ => values_at m x) ss))) (seq 0 (length x)) =
     map (fun e => option_map (fun v => mkRS (Some v) (Some v) (Some v)) (model_value (em_high m) (em_scale m) (em_shift m) e)) x).
  { intros m x ss NS. set (f := fun e => option_map (fun v => mkRS (Some v) (Some v) (Some v)) (model_value (em_high m) (em_scale m) (em_shift m) e)).
    apply (nth_ext _ _ (f 0) (f 0)); [now rewrite !map_length, seq_length|]. intros j Hj. rewrite map_length, seq_length in Hj.
    rewrite (nth_indep _ (f 0) (colstat p0 p1 (map (fun r => nth 0 r None) (map (fun _ => values_at m x) ss)))) by now rewrite map_length, seq_length.
    rewrite (map_nth (fun j => colstat p0 p1 (map (fun r => nth j r None) (map (fun _ => values_at m x) ss)))). rewrite (map_nth f), seq_nth by exact Hj. cbn [plus]. rewrite map_map.
    destruct ss as [|g ss]; [contradiction|]. assert (ER : map (fun _ : rvec => nth j (values_at m x) None) (g :: ss) = repeat (nth j (values_at m x) None) (S (length ss))) by (clear; cbn; f_equal; induction ss as [|h ss IH]; cbn; [reflexivity|now rewrite IH]).
    rewrite ER, colstat_const by assumption. unfold f. f_equal. unfold values_at. rewrite (nth_indep _ None (model_value (em_high m) (em_scale m) (em_shift m) 0)) by now rewrite map_length. now rewrite map_nth. }
  assert (ALL : forall ss, ss <> [] -> gsf_ext_stats fitf low high xl xh ss p0 p1 = if Nat.eqb (length xl) (length xh)
     then Ok (map (fun e => option_map (fun v => mkRS (Some v) (Some v) (Some v)) (model_value (em_high low) (em_scale low) (em_shift low) e)) xl,
              map (fun e => option_map (fun v => mkRS (Some v) (Some v) (Some v)) (model_value (em_high high) (em_scale high) (em_shift high) e)) xh) else Raise AssertionError).
  { intros ss NS. unfold gsf_ext_stats. destruct (Nat.eqb (length xl) (length xh)); [|reflexivity]. rewrite rows_fix by assumption. unfold table.
    rewrite (proj2 (fraction_iff p0)), (proj2 (fraction_iff p1)) by lra. cbn [andb rbind]. now rewrite !TB. }
  rewrite ALL by exact NE. destruct (Nat.eqb (length xl) (length xh)); [|discriminate]. intros H. injection H as <- <-. repeat split; try reflexivity. intros ss NS. now rewrite ALL.
Qed.
Print Assumptions gsf_bands_fixed.
Definition fix_low : emodel := mkEM false 1 0 (Some (ln 2)) (Some 0) (Some 1) 5 false.
Definition fix_high : emodel := mkEM true 1 0 (Some (ln 2)) (Some 8) (Some 9) 5 false.
Theorem gsf_bands_fixed_refuted : ~ (forall fitf low high xl xh samples p0 p1 d ta tb, own_fit fitf -> 0 < d -> samples <> [] ->
  0 <= p0 <= / 2 -> / 2 <= p1 <= 1 -> (forall g, In g samples -> follows fitf d g low /\ follows fitf d g high) ->
  gsf_ext_stats fitf low high xl xh samples p0 p1 = Ok (ta, tb) ->
  gsf_ext_stats fitf low high xl xh (map (transform d 0) samples) p0 p1 = Ok (map (option_map (scale_stat d)) ta, map (option_map (scale_stat d)) tb)).
Proof.
  intros H. set (fitf := fun (v : rvec) (m : emodel) => (0, ln (nth 0 (rv_values v) 0))). set (g := mkRV [1; 1] [2; 3] None).
  assert (T : exists ta tb, gsf_ext_stats fitf fix_low fix_high [0] [8] [g] 0 1 = Ok (ta, tb)).
  { unfold gsf_ext_stats. cbn. unfold table. rewrite (proj2 (fraction_iff 0)), (proj2 (fraction_iff 1)) by lra. cbn. eexists. eexists. reflexivity. }
  destruct T as (ta & tb & T).
  assert (FO : follows fitf 2 g fix_low /\ follows fitf 2 g fix_high).
  { split; unfold follows, fitf; cbn; f_equal; unfold value_bin; rewrite Rmult_0_l, exp_0, ln_1, Rplus_0_l; f_equal; ring. }
  specialize (H fitf fix_low fix_high [0] [8] [g] 0 1 2 ta tb). assert (OF : own_fit fitf) by (intros ? ? ?; reflexivity).
  specialize (H OF ltac:(lra) ltac:(discriminate) ltac:(lra) ltac:(lra) ltac:(intros ? [<-|[]]; exact FO) T).
  destruct (gsf_bands_fixed fitf fix_low fix_high [0] [8] [g] 0 1 ta tb eq_refl ltac:(discriminate) ltac:(lra) ltac:(lra) T) as (EA & _ & AL). cbn [map] in H. rewrite AL in H by discriminate.
  injection H as H _. rewrite EA in H. cbn in H. injection H as H. pose proof (exp_pos (1 * 0 + 0)). lra.
Qed.
Print Assumptions gsf_bands_fixed_refuted.

(* what is refused *)
Theorem ext_stats_refuse : forall fitf model low high x xl xh nsamples gsamples p0 p1,
  (length xl <> length xh -> gsf_ext_stats fitf low high xl xh gsamples p0 p1 = Raise AssertionError) /\
  (~ (0 <= p0 <= 1 /\ 0 <= p1 <= 1) -> nld_ext_stats model x nsamples p0 p1 = Raise ValueError /\
     (length xl = length xh -> gsf_ext_stats fitf low high xl xh gsamples p0 p1 = Raise ValueError)) /\
  (0 <= p0 <= 1 /\ 0 <= p1 <= 1 -> (exists t, nld_ext_stats model x nsamples p0 p1 = Ok t) /\
     (length xl = length xh -> exists tt, gsf_ext_stats fitf low high xl xh gsamples p0 p1 = Ok tt)).
Proof.
  intros fitf model low high x xl xh ns gs p0 p1. split; [|split].
  - intros H. unfold gsf_ext_stats. now rewrite (proj2 (Nat.eqb_neq _ _) H).
  - intros H. assert (F : fraction_ok p0 && fraction_ok p1 = false).
    { destruct (fraction_ok p0) eqn:A; [|reflexivity]. destruct (fraction_ok p1) eqn:B; [|reflexivity]. exfalso. apply H. split; now apply fraction_iff. }
    unfold nld_ext_stats, gsf_ext_stats, table. rewrite F. split; [reflexivity|]. intros E. rewrite (proj2 (Nat.eqb_eq _ _) E). now destruct (ext_rows fitf low high xl xh gs).
  - intros [H0 H1]. unfold nld_ext_stats, gsf_ext_stats, table. rewrite (proj2 (fraction_iff p0)), (proj2 (fraction_iff p1)) by assumption. cbn [andb]. split; [now eexists|].
    intros E. rewrite (proj2 (Nat.eqb_eq _ _) E). destruct (ext_rows fitf low high xl xh gs). now eexists.
Qed.
Print Assumptions ext_stats_refuse.

(* ------------------------------------------------------------------ examples *)
(* two samples: the ends of the band are the two models, the median their mean *)
Example nld_band_ex : nld_ext_stats (fun T s e => T * e + s) [1; 4] [(3, 0); (1, 1)] 0 1 =
  Ok [Some (mkRS (Some (5 / 2)) (Some 2) (Some 3)); Some (mkRS (Some (17 / 2)) (Some 5) (Some 12))].
Proof.
  unfold nld_ext_stats, table. rewrite (proj2 (fraction_iff 0)), (proj2 (fraction_iff 1)) by lra. cbn. unfold colstat. cbn. unfold rmedian, rquantile, rsort. cbn.
  destruct (Rle_dec (3 * 1 + 0) (1 * 1 + 1)); [lra|]. destruct (Rle_dec (3 * 4 + 0) (1 * 4 + 1)); [lra|]. cbn. unfold r_at. cbn.
  assert (I0 : Int_part (0 * 1) = 0%Z) by (rewrite Rmult_0_l; destruct (base_Int_part 0) as [B1 B2]; assert (Int_part 0 < 1)%Z by (apply lt_IZR; lra); assert (-1 < Int_part 0)%Z by (apply lt_IZR; lra); lia).
  assert (I1 : Int_part (1 * 1) = 1%Z) by (rewrite Rmult_1_l; destruct (base_Int_part 1) as [B1 B2]; assert (Int_part 1 < 2)%Z by (apply lt_IZR; lra); assert (0 < Int_part 1)%Z by (apply lt_IZR; lra); lia).
  rewrite I0, I1. change (Z.to_nat 1) with 1%nat. change (Z.to_nat 0) with 0%nat. cbn. repeat first [lra | f_equal].
Qed.
(* a fit of the first value: follows the data, whatever was fitted before *)
Definition fit_low : emodel := mkEM false 1 0 None (Some 0) (Some 1) 5 true.
Definition fit_high : emodel := mkEM true 1 0 None (Some 8) (Some 9) 5 true.
Definition first_value (v : rvec) (m : emodel) : R * R := (0, ln (nth 0 (rv_values v) 0)).
Example gsf_bands_ex : own_fit first_value /\ em_fit fit_low = true /\
  (forall g, In g [mkRV [1; 1] [2; 3] None; mkRV [4; 5] [2; 3] None] -> follows first_value 3 g fit_low /\ follows first_value 3 g fit_high) /\
  curve_of first_value fit_low (mkRV [4; 5] [2; 3] None) (/ 2) = Some 4 /\
  exists t, gsf_ext_stats first_value fit_low fit_high [0; / 2] [8; 9] [mkRV [1; 1] [2; 3] None; mkRV [4; 5] [2; 3] None] (/ 5) (4 / 5) = Ok t.
Proof.
  split; [intros ? ? ?; reflexivity|]. split; [reflexivity|]. split; [|split].
  - assert (E : forall x, 0 < x -> ln (value_bin 3 0 x 2) = ln x + ln 3) by (intros x X; unfold value_bin; rewrite Rmult_0_l, exp_0, Rmult_1_r, ln_mult by lra; ring).
    intros g [<-|[<-|[]]]; split; unfold follows, first_value; cbn; f_equal; apply E; lra.
  - unfold curve_of, first_value. cbn. f_equal. rewrite Rmult_0_l, Rplus_0_l. apply exp_ln. lra.
  - apply (proj2 (ext_stats_refuse first_value (fun _ _ _ => 0) fit_low fit_high [] [0; / 2] [8; 9] [] _ (/ 5) (4 / 5))); [lra|reflexivity].
Qed.
