(* What the bounds and priors of the two optimisers mean for the result of the normalisation. *)
From Coq Require Import Reals List String Permutation.
From Coquelicot Require Import Rbar.
From Verif Require Import PyBase TransformModel TransformProps NormModel LikeModel LikeProps StatsModel NldTruthProps OptModel.
From Coq Require Import Lra Lia.
Import ListNotations.
Local Open Scope R_scope.
Local Notation length := List.length (only parsing).

(* what differential evolution looks for: the largest likelihood within the bounds *)
Definition guess_in {X} (box : X -> Prop) (F : X -> outc) (x : X) : Prop :=
  box x /\ exists l, F x = OVal l /\ forall y m, box y -> F y = OVal m -> m <= l.

(* ------------------------------------------------------------------ bounds by name *)
Definition names : list string := ["A"; "alpha"; "T"; "Eshift"]%string.
(* a dict with the keys in this order bounds the parameters it names, and no key is missing *)
Theorem bounds_named : forall b x, map fst b = names -> within b x ->
  (forall k v, In (k, v) (p0_of x) -> exists lo hi, lookup k b = Some (lo, hi) /\ lo <= v <= hi) /\
  exists w, edge_warnings b (p0_of x) = Ok w /\
    forall k v lo hi, In (k, v) (p0_of x) -> lookup k b = Some (lo, hi) -> (In k w <-> v = lo \/ v = hi).
Proof.
  intros b x N W. destruct b as [|[k1 [l1 h1]] [|[k2 [l2 h2]] [|[k3 [l3 h3]] [|[k4 [l4 h4]] [|? ?]]]]]; try discriminate N.
  injection N as -> -> -> ->. unfold within, plist in W. cbn in W. destruct W as (W1 & W2 & W3 & W4 & _).
  unfold p0_of, plist. cbn [combine]. split.
  - intros k v H. cbn [In] in H. destruct H as [H|[H|[H|[H|[]]]]]; injection H as <- <-; do 2 eexists; (split; [reflexivity|assumption]).
  - cbn [edge_warnings lookup String.eqb Ascii.eqb Bool.eqb rbind].
    destruct (Req_EM_T (p_A x) l1) as [A1|A1], (Req_EM_T (p_A x) h1) as [A2|A2], (Req_EM_T (p_alpha x) l2) as [B1|B1], (Req_EM_T (p_alpha x) h2) as [B2|B2],
      (Req_EM_T (p_T x) l3) as [C1|C1], (Req_EM_T (p_T x) h3) as [C2|C2], (Req_EM_T (p_Eshift x) l4) as [D1|D1], (Req_EM_T (p_Eshift x) h4) as [D2|D2];
      (eexists; split; [reflexivity|]; intros k v lo hi H E; cbn [In] in H; destruct H as [H|[H|[H|[H|[]]]]]; injection H as <- <-; cbn in E; injection E as <- <-; cbn [In];
       (split; [intros Q; try tauto; exfalso; repeat (destruct Q as [Q|Q]; try discriminate Q); try contradiction|intros [Q|Q]; try contradiction; tauto])).
Qed.
Print Assumptions bounds_named.
(* in another order the bounds are those of other parameters *)
Theorem bounds_order_refuted : exists b x lo hi, Permutation b default_bounds /\ within b x /\
  lookup "alpha" b = Some (lo, hi) /\ ~ (lo <= p_alpha x <= hi).
Proof.
  exists [("alpha", (/ 10, 20)); ("A", (/ 10, 1000)); ("T", (/ 10, 1)); ("Eshift", (- (5), 5))]%string, (mkP4 1 500 1 0), (/ 10), 20.
  split; [apply perm_swap|]. split; [unfold within; cbn; lra|]. split; [reflexivity|]. cbn. lra.
Qed.
Print Assumptions bounds_order_refuted.

(* ------------------------------------------------------------------ scale and slope of the input *)
(* bounds that go with data multiplied by c exp(bE) *)
Definition moved (c b : R) (d : bdict) : bdict :=
  match d with
  | (n1, (l1, h1)) :: (n2, (l2, h2)) :: t => (n1, (l1 / c, h1 / c)) :: (n2, (l2 - b, h2 - b)) :: t
  | _ => d
  end.
Lemma moved_within c b d x : 0 < c -> (2 <= length d)%nat -> (within (moved c b d) x <-> within d (redo c b x)).
Proof.
  intros HC HL. destruct d as [|[n1 [l1 h1]] [|[n2 [l2 h2]] t]]; cbn in HL; try lia. unfold within, plist, redo. cbn.
  assert (E : l1 / c <= p_A x <= h1 / c <-> l1 <= c * p_A x <= h1).
  { assert (Q : forall y, y = c * (y / c)) by (intros; field; lra). rewrite (Q l1) at 2. rewrite (Q h1) at 2. split; intros [H1 H2]; split.
    - now apply Rmult_le_compat_l; [lra|]. - now apply Rmult_le_compat_l; [lra|].
    - now apply Rmult_le_reg_l in H1. - now apply Rmult_le_reg_l in H2. }
  assert (E2 : l2 - b <= p_alpha x <= h2 - b <-> l2 <= b + p_alpha x <= h2) by lra. rewrite E, E2. reflexivity.
Qed.
(* with bounds moved along, the guesses correspond *)
Theorem guess_moved_bounds : forall idx model f c b nld d x, rv_ok nld -> 0 < c -> (2 <= length d)%nat ->
  (guess_in (within (moved c b d)) (objective idx model f (transform c b nld)) x <-> guess_in (within d) (objective idx model f nld) (redo c b x)) /\
  normalised (transform c b nld) x = normalised nld (redo c b x).
Proof.
  intros idx model f c b nld d x OK HC HL. split; [|apply (best_fit_gauge idx model f c b nld x OK ltac:(lra))]. unfold guess_in. rewrite moved_within by assumption.
  rewrite (objective_gauge idx model f c b nld x OK) by lra. split; intros (W & l & E & H); (split; [exact W|]); exists l; (split; [exact E|]); intros y m HY HM.
  - apply (H (undo c b y)).
    + rewrite moved_within by assumption. rewrite redo_undo by lra. exact HY.
    + rewrite objective_gauge by (try assumption; lra). now rewrite redo_undo by lra.
  - apply (H (redo c b y)).
    + now rewrite <- moved_within.
    + now rewrite <- objective_gauge by (try assumption; lra).
Qed.
Print Assumptions guess_moved_bounds.
(* with the same bounds they correspond if the best fit lies within the bounds in both cases *)
Theorem guess_same_bounds_partial : forall idx model f c b nld d x, rv_ok nld -> c <> 0 ->
  best (objective idx model f nld) (redo c b x) -> within d x -> within d (redo c b x) ->
  guess_in (within d) (objective idx model f (transform c b nld)) x /\ guess_in (within d) (objective idx model f nld) (redo c b x) /\
  normalised (transform c b nld) x = normalised nld (redo c b x).
Proof.
  intros idx model f c b nld d x OK HC B W1 W2. destruct (best_fit_gauge idx model f c b nld x OK HC) as [G1 G2]. pose proof (proj2 G1 B) as B'.
  split; [|split; [|exact G2]].
  - split; [exact W1|]. destruct B' as (l & E & H). exists l. split; [exact E|]. intros y m _. apply H.
  - split; [exact W2|]. destruct B as (l & E & H). exists l. split; [exact E|]. intros y m _. apply H.
Qed.
Print Assumptions guess_same_bounds_partial.
(* two parameter sets that normalise alike are the same up to the transformation *)
Lemma normalised_determines nld i j A1 a1 A2 a2 : rv_ok nld -> (i < length (rv_values nld))%nat -> (j < length (rv_values nld))%nat ->
  nth i (rv_values nld) 0 <> 0 -> nth j (rv_values nld) 0 <> 0 -> nth i (rv_E nld) 0 <> nth j (rv_E nld) 0 -> A1 <> 0 ->
  transform A1 a1 nld = transform A2 a2 nld -> A1 = A2 /\ a1 = a2.
Proof.
  intros OK Hi Hj Vi Vj NE HA T. pose proof OK as (LE & _).
  assert (X : forall k, (k < length (rv_values nld))%nat -> nth k (rv_values nld) 0 <> 0 -> A1 * exp (a1 * nth k (rv_E nld) 0) = A2 * exp (a2 * nth k (rv_E nld) 0)).
  { intros k Hk Vk. apply (f_equal rv_values) in T. apply (f_equal (fun l => nth k l 0)) in T. unfold transform in T. cbn [rv_values] in T.
    rewrite !(rmap2_nth _ 0 0 0) in T by lia. unfold value_bin in T. apply (Rmult_eq_reg_l (nth k (rv_values nld) 0)); [|exact Vk]. lra. }
  pose proof (X i Hi Vi) as Xi. pose proof (X j Hj Vj) as Xj.
  assert (HA2 : A2 <> 0). { intros ->. rewrite Rmult_0_l in Xi. apply Rmult_integral in Xi as [Xi|Xi]; [contradiction|]. pose proof (exp_pos (a1 * nth i (rv_E nld) 0)). lra. }
  assert (Y : forall k, (k = i \/ k = j) -> exp ((a1 - a2) * nth k (rv_E nld) 0) = A2 / A1).
  { intros k K. replace ((a1 - a2) * nth k (rv_E nld) 0) with (a1 * nth k (rv_E nld) 0 + - (a2 * nth k (rv_E nld) 0)) by ring. rewrite exp_plus, exp_Ropp.
    assert (XK : A1 * exp (a1 * nth k (rv_E nld) 0) = A2 * exp (a2 * nth k (rv_E nld) 0)) by (destruct K; subst k; assumption).
    pose proof (exp_pos (a2 * nth k (rv_E nld) 0)). apply (Rmult_eq_reg_l (A1 * exp (a2 * nth k (rv_E nld) 0))); [|apply Rmult_integral_contrapositive_currified; lra].
    transitivity (A1 * exp (a1 * nth k (rv_E nld) 0)); [field; lra|]. rewrite XK. field. exact HA. }
  pose proof (Y i (or_introl eq_refl)) as Yi. pose proof (Y j (or_intror eq_refl)) as Yj.
  assert (Z : (a1 - a2) * nth i (rv_E nld) 0 = (a1 - a2) * nth j (rv_E nld) 0) by (apply exp_inv; congruence).
  assert (a1 - a2 = 0).
  { assert (Z2 : (a1 - a2) * (nth i (rv_E nld) 0 - nth j (rv_E nld) 0) = 0) by lra. apply Rmult_integral in Z2 as [Z2|Z2]; [exact Z2|]. exfalso. apply NE. lra. }
  split; [|lra]. rewrite H, Rmult_0_l, exp_0 in Yi. apply (Rmult_eq_reg_l (/ A1)); [|now apply Rinv_neq_0_compat]. rewrite Rinv_l by exact HA. unfold Rdiv in Yi. lra.
Qed.
(* If the factor or the slope of the input exceeds the width of the bounds, no guess for the
   multiplied data, whatever the likelihood, gives the level density of any guess for the data. *)
Theorem guess_same_bounds_refuted : forall nld c b l1 h1 l2 h2 n1 n2 t x y i j, rv_ok nld ->
  (i < length (rv_values nld))%nat -> (j < length (rv_values nld))%nat ->
  nth i (rv_values nld) 0 <> 0 -> nth j (rv_values nld) 0 <> 0 -> nth i (rv_E nld) 0 <> nth j (rv_E nld) 0 ->
  0 < l1 -> 0 < c -> h1 < c * l1 \/ h2 < b + l2 ->
  within ((n1, (l1, h1)) :: (n2, (l2, h2)) :: t) x -> within ((n1, (l1, h1)) :: (n2, (l2, h2)) :: t) y ->
  normalised (transform c b nld) y <> normalised nld x.
Proof.
  intros nld c b l1 h1 l2 h2 n1 n2 t x y i j OK Hi Hj Vi Vj NE L1 HC OUT Wx Wy E. unfold within, plist in Wx, Wy. cbn in Wx, Wy.
  unfold normalised in E. rewrite transform_compose in E by (try assumption; lra).
  assert (Y0 : c * p_A y <> 0). { assert (0 < c * p_A y); [|lra]. apply Rmult_lt_0_compat; lra. }
  destruct (normalised_determines nld i j (c * p_A y) (b + p_alpha y) (p_A x) (p_alpha x) OK Hi Hj Vi Vj NE Y0 E) as [EA EB].
  destruct OUT as [OUT|OUT]; [|lra]. assert (c * l1 <= c * p_A y) by (apply Rmult_le_compat_l; lra). lra.
Qed.
Print Assumptions guess_same_bounds_refuted.

(* ------------------------------------------------------------------ priors *)
(* which guesses have a prior *)
Theorem prior_raises : forall inv g u1 u2 u3 u4,
  (p_alpha g < 0 -> prior inv g u1 u2 u3 u4 = Raise NotImplementedErr) /\
  (0 <= p_alpha g -> p_T g < 0 -> prior inv g u1 u2 u3 u4 = Raise ValueError) /\
  (0 <= p_alpha g -> 0 <= p_T g -> exists v, prior inv g u1 u2 u3 u4 = Ok v).
Proof.
  intros inv g u1 u2 u3 u4. unfold prior. destruct (Rlt_dec (p_alpha g) 0) as [A|A], (Rlt_dec (p_T g) 0) as [B|B]; repeat split; intros; try lra; try reflexivity; try (now eexists).
Qed.
Print Assumptions prior_raises.
Corollary default_bounds_have_prior : forall inv g u1 u2 u3 u4, within default_bounds g -> exists v, prior inv g u1 u2 u3 u4 = Ok v.
Proof. intros inv g u1 u2 u3 u4 W. unfold within in W. cbn in W. apply prior_raises; lra. Qed.
(* the prior of the scale follows the guess: data multiplied by c *)
Theorem prior_scale_gauge : forall inv A c u, 0 < A -> 0 < c ->
  prior_scale inv (A / c) u = match prior_scale inv A u with Finite t => Finite (t / c) | x => x end.
Proof.
  intros inv A c u HA HC. unfold prior_scale. replace ((0 - A / c) / (10 * (A / c))) with ((0 - A) / (10 * A)) by (field; lra).
  destruct (truncnorm_ppf_by inv u _ p_infty); try reflexivity. f_equal. field. lra.
Qed.
Print Assumptions prior_scale_gauge.
(* alpha and T: the logarithm is uniform between the logarithms of g/10 and 10 g *)
Theorem prior_log_uniform : forall g u y, 0 < g -> 0 < y ->
  (prior_log g u <= y <-> u <= ln (y / (g / 10)) / ln 100) /\ prior_log g (/ 2) = g.
Proof.
  intros g u y G Y. assert (L10 : 0 < ln 10) by (rewrite <- ln_1; apply ln_increasing; lra).
  assert (L100 : ln 100 = 2 * ln 10) by (replace 100 with (10 * 10) by ring; rewrite ln_mult by lra; ring).
  assert (E : forall v, prior_log g v = exp (ln (g / 10) + v * ln 100)).
  { intros v. unfold prior_log, Rpower. f_equal. rewrite L100. unfold Rdiv at 2. rewrite ln_mult by lra. rewrite ln_Rinv by lra. field. lra. }
  assert (LY : ln (y / (g / 10)) = ln y - ln (g / 10)) by (unfold Rdiv at 1; rewrite ln_mult by (try lra; apply Rinv_0_lt_compat; lra); rewrite ln_Rinv by lra; ring).
  split.
  - rewrite E, LY. assert (P : 0 < ln 100) by lra. assert (Q : u <= (ln y - ln (g / 10)) / ln 100 <-> ln (g / 10) + u * ln 100 <= ln y).
    { assert (QQ : (ln y - ln (g / 10)) / ln 100 * ln 100 = ln y - ln (g / 10)) by (field; lra). split; intros H.
      - apply (Rmult_le_compat_r (ln 100)) in H; lra.
      - apply (Rmult_le_reg_r (ln 100)); lra. }
    rewrite Q. split; intros H.
    + rewrite <- (ln_exp (ln (g / 10) + u * ln 100)). destruct H as [H|H]; [left; apply ln_increasing; [apply exp_pos|exact H]|right; now rewrite H].
    + rewrite <- (exp_ln y) by exact Y. destruct H as [H|H]; [left; now apply exp_increasing|right; now rewrite H].
  - rewrite E, L100. replace (ln (g / 10) + / 2 * (2 * ln 10)) with (ln (g / 10) + ln 10) by field. rewrite exp_plus, !exp_ln by lra. field.
Qed.
Print Assumptions prior_log_uniform.
(* The prior of the slope does not follow the guess: for data multiplied by exp(bE) other slopes
   of the normalised level density are allowed. *)
Theorem prior_slope_refuted : forall alpha b, 0 < alpha -> 0 < alpha - b -> b <> 0 ->
  ~ (forall y, (exists u, 0 <= u <= 1 /\ y = b + prior_log (alpha - b) u) <-> (exists u, 0 <= u <= 1 /\ y = prior_log alpha u)).
Proof.
  intros alpha b HA HB NB H.
  assert (R : forall g u, 0 < g -> 0 <= u <= 1 -> g / 10 <= prior_log g u).
  { intros g u G U. destruct (Rle_or_lt (g / 10) (prior_log g u)) as [Q|Q]; [exact Q|]. exfalso.
    assert (PP : 0 < prior_log g u) by apply exp_pos. pose proof (proj1 (proj1 (prior_log_uniform g u (prior_log g u) G PP)) (Rle_refl _)) as K.
    assert (LN : ln (prior_log g u / (g / 10)) < 0). { rewrite <- ln_1. apply ln_increasing; [apply Rdiv_lt_0_compat; lra|]. apply (Rmult_lt_reg_r (g / 10)); [lra|]. unfold Rdiv at 1. rewrite Rmult_assoc, Rinv_l by lra. lra. }
    assert (L100 : 0 < ln 100) by (rewrite <- ln_1; apply ln_increasing; lra).
    assert (ln (prior_log g u / (g / 10)) / ln 100 < 0); [|lra]. unfold Rdiv at 1. assert (0 < / ln 100) by now apply Rinv_0_lt_compat. nra. }
  assert (R0 : forall g, 0 < g -> prior_log g 0 = g / 10).
  { intros g G. unfold prior_log, Rpower. assert (L10 : 0 < ln 10) by (rewrite <- ln_1; apply ln_increasing; lra).
    replace ((0 * 2 + (ln g / ln 10 - 1)) * ln 10) with (ln g + - ln 10) by (field; lra). rewrite exp_plus, exp_Ropp, !exp_ln by lra. reflexivity. }
  destruct (Rlt_or_le b 0) as [N|N].
  - destruct (proj1 (H (b + prior_log (alpha - b) 0)) ltac:(exists 0; split; [lra|reflexivity])) as (u & U & E). rewrite R0 in E by lra. pose proof (R alpha u HA U). lra.
  - destruct (proj2 (H (prior_log alpha 0)) ltac:(exists 0; split; [lra|reflexivity])) as (u & U & E). rewrite R0 in E by lra. pose proof (R (alpha - b) u HB U). lra.
Qed.
Print Assumptions prior_slope_refuted.

(* ------------------------------------------------------------------ the warning about the scale *)
Definition with_A (A : R) (x : par4) : par4 := mkP4 A (p_alpha x) (p_T x) (p_Eshift x).
(* minus twice the likelihood as a function of t = 1/A, up to a constant *)
Lemma chi_convex al b t1 t2 t3 w : 0 < t1 -> 0 < t2 -> 0 < t3 -> 0 < b_s b -> 0 <= w <= 1 -> t2 = w * t1 + (1 - w) * t3 ->
  chi (/ t2) al b <= w * chi (/ t1) al b + (1 - w) * chi (/ t3) al b.
Proof.
  intros H1 H2 H3 HS HW E. set (e := exp (al * b_E b)). assert (0 < e) by apply exp_pos.
  assert (C : forall t, 0 < t -> chi (/ t) al b = ((b_v b * e - b_mu b * t) / (b_s b * e)) ^ 2).
  { intros t HT. unfold chi. fold e. field. repeat split; lra. }
  rewrite !C by assumption. rewrite E. set (k := b_s b * e). assert (0 < k) by now apply Rmult_lt_0_compat. set (p := b_v b * e). set (m := b_mu b).
  assert (D : w * ((p - m * t1) / k) ^ 2 + (1 - w) * ((p - m * t3) / k) ^ 2 - ((p - m * (w * t1 + (1 - w) * t3)) / k) ^ 2 = w * (1 - w) * (m * (t1 - t3) / k) ^ 2) by (field; lra).
  assert (0 <= w * (1 - w) * (m * (t1 - t3) / k) ^ 2); [|lra]. apply Rmult_le_pos; [apply Rmult_le_pos; lra|apply pow2_ge_0].
Qed.
Lemma rsum_chi_convex al bs t1 t2 t3 w : 0 < t1 -> 0 < t2 -> 0 < t3 -> (forall b, In b bs -> good b) -> 0 <= w <= 1 -> t2 = w * t1 + (1 - w) * t3 ->
  rsum (map (chi (/ t2) al) bs) <= w * rsum (map (chi (/ t1) al) bs) + (1 - w) * rsum (map (chi (/ t3) al) bs).
Proof.
  intros H1 H2 H3 G HW E. induction bs as [|b bs IH]; [cbn; lra|]. unfold rsum in *. cbn [map fold_right].
  pose proof (chi_convex al b t1 t2 t3 w H1 H2 H3 (proj2 (G b (or_introl eq_refl))) HW E). specialize (IH (fun b Hb => G b (or_intror Hb))). lra.
Qed.
Lemma ln_concave t1 t2 t3 w : 0 < t1 -> 0 < t2 -> 0 < t3 -> 0 <= w <= 1 -> t2 = w * t1 + (1 - w) * t3 -> w * ln t1 + (1 - w) * ln t3 <= ln t2.
Proof.
  intros H1 H2 H3 HW E. destruct (ln_tangent t1 t2 H1 H2) as [L1 _]. destruct (ln_tangent t3 t2 H3 H2) as [L3 _].
  assert (M1 : w * ln t1 <= w * (ln t2 + (t1 / t2 - 1))) by (apply Rmult_le_compat_l; lra).
  assert (M3 : (1 - w) * ln t3 <= (1 - w) * (ln t2 + (t3 / t2 - 1))) by (apply Rmult_le_compat_l; lra).
  assert (Z : w * (t1 / t2 - 1) + (1 - w) * (t3 / t2 - 1) = 0). { replace (w * (t1 / t2 - 1) + (1 - w) * (t3 / t2 - 1)) with ((w * t1 + (1 - w) * t3) / t2 - 1) by (field; lra). rewrite <- E. field. lra. }
  lra.
Qed.
(* along the scale the likelihood has no second maximum: between a scale and a better one it is better *)
Theorem scale_between : forall l h Sn nldSn x A1 A2 A3 v1 v3, (forall b, In b l -> good b) -> (forall b, In b h -> good b) -> 0 < snd nldSn -> p_T x <> 0 ->
  0 < A1 -> 0 < A3 -> (A1 < A2 < A3 \/ A3 < A2 < A1) ->
  L l h Sn nldSn (with_A A1 x) = OVal v1 -> L l h Sn nldSn (with_A A3 x) = OVal v3 -> v1 < v3 ->
  exists v2, L l h Sn nldSn (with_A A2 x) = OVal v2 /\ v1 < v2.
Proof.
  intros l h Sn nldSn x A1 A2 A3 v1 v3 Gl Gh HS HT P1 P3 B E1 E3 LT. destruct (lnlike_terms l h Sn nldSn Gl Gh HS) as (K & HK).
  assert (P2 : 0 < A2) by lra.
  rewrite (HK (with_A A1 x) P1 HT) in E1. rewrite (HK (with_A A3 x) P3 HT) in E3. injection E1 as E1. injection E3 as E3.
  exists (- / 2 * (deviations (with_A A2 x) l h Sn nldSn + INR (length (l ++ h)) * ln (p_A (with_A A2 x)) + p_alpha (with_A A2 x) * rsum (map b_E (l ++ h)) + K)).
  split; [apply (HK (with_A A2 x) P2 HT)|]. rewrite <- E1. rewrite <- E1, <- E3 in LT. cbn [with_A p_A p_alpha] in *.
  set (t1 := / A1). set (t2 := / A2). set (t3 := / A3).
  assert (T1 : 0 < t1) by now apply Rinv_0_lt_compat. assert (T2 : 0 < t2) by now apply Rinv_0_lt_compat. assert (T3 : 0 < t3) by now apply Rinv_0_lt_compat.
  assert (BT : t3 < t2 < t1 \/ t1 < t2 < t3). { unfold t1, t2, t3. destruct B as [[B1 B2]|[B1 B2]]; [left|right]; split; apply Rinv_lt_contravar; try assumption; now apply Rmult_lt_0_compat. }
  set (w := (t2 - t3) / (t1 - t3)). assert (NE : t1 - t3 <> 0) by lra.
  assert (HW : 0 <= w <= 1 /\ w < 1).
  { assert (W1 : w * (t1 - t3) = t2 - t3) by (unfold w; field; exact NE). destruct BT; nra. }
  assert (EW : t2 = w * t1 + (1 - w) * t3) by (unfold w; field; exact NE).
  assert (LA : forall A, 0 < A -> ln A = - ln (/ A)) by (intros A HA; rewrite ln_Rinv by exact HA; ring).
  pose proof (ln_concave t1 t2 t3 w T1 T2 T3 (proj1 HW) EW) as LC.
  assert (DV : deviations (with_A A2 x) l h Sn nldSn <= w * deviations (with_A A1 x) l h Sn nldSn + (1 - w) * deviations (with_A A3 x) l h Sn nldSn).
  { unfold deviations. cbn [with_A p_A p_alpha p_T p_Eshift].
    change (high_bins (with_A A1 x) h) with (high_bins x h). change (high_bins (with_A A2 x) h) with (high_bins x h). change (high_bins (with_A A3 x) h) with (high_bins x h).
    replace A1 with (/ t1) by (unfold t1; now rewrite Rinv_inv). replace A2 with (/ t2) by (unfold t2; now rewrite Rinv_inv). replace A3 with (/ t3) by (unfold t3; now rewrite Rinv_inv).
    pose proof (rsum_chi_convex (p_alpha x) l t1 t2 t3 w T1 T2 T3 Gl (proj1 HW) EW). pose proof (rsum_chi_convex (p_alpha x) (high_bins x h) t1 t2 t3 w T1 T2 T3 (high_good x h Gh) (proj1 HW) EW). lra. }
  pose proof (LA A1 P1 : ln A1 = - ln t1) as Q1. pose proof (LA A2 P2 : ln A2 = - ln t2) as Q2. pose proof (LA A3 P3 : ln A3 = - ln t3) as Q3.
  rewrite Q1, Q2. rewrite Q1, Q3 in LT.
  set (N := INR (length (l ++ h))) in *. assert (N0 : 0 <= N) by apply pos_INR. set (q := p_alpha x * rsum (map b_E (l ++ h)) + K) in *.
  assert (NL : N * (w * ln t1 + (1 - w) * ln t3) <= N * ln t2) by now apply Rmult_le_compat_l.
  set (d1 := deviations (with_A A1 x) l h Sn nldSn) in *. set (d2 := deviations (with_A A2 x) l h Sn nldSn) in *. set (d3 := deviations (with_A A3 x) l h Sn nldSn) in *.
  assert (X : d3 - N * ln t3 < d1 - N * ln t1) by lra.
  assert (Y : (1 - w) * (d3 - N * ln t3) < (1 - w) * (d1 - N * ln t1)) by (apply Rmult_lt_compat_l; lra).
  lra.
Qed.
Print Assumptions scale_between.
(* A guess whose scale is not at a bound, so that there is no warning about A, has the best scale
   of all positive ones for its slope and model. *)
Theorem no_warning_best_scale : forall l h Sn nldSn b x w A v u lo hi, (forall b, In b l -> good b) -> (forall b, In b h -> good b) -> 0 < snd nldSn ->
  map fst b = names -> lookup "A" b = Some (lo, hi) -> 0 < lo -> p_T x <> 0 -> guess_in (within b) (L l h Sn nldSn) x ->
  edge_warnings b (p0_of x) = Ok w -> ~ In "A"%string w ->
  0 < A -> L l h Sn nldSn (with_A A x) = OVal v -> L l h Sn nldSn x = OVal u -> v <= u.
Proof.
  intros l h Sn nldSn b x w A v u lo hi Gl Gh HS NM LK L0 HT (W & l0 & E0 & BEST) WA NW HA EV EU.
  destruct (bounds_named b x NM W) as (_ & w' & WA' & IFF). rewrite WA in WA'. injection WA' as <-.
  assert (IN : In ("A"%string, p_A x) (p0_of x)) by (left; reflexivity).
  assert (INT : p_A x <> lo /\ p_A x <> hi) by (split; intros Q; apply NW; apply (IFF _ _ _ _ IN LK); auto).
  destruct (bounds_named b x NM W) as (RG & _). destruct (RG _ _ IN) as (lo' & hi' & LK' & RNG). rewrite LK in LK'. injection LK' as <- <-.
  destruct (Rle_or_lt v u) as [Q|Q]; [exact Q|]. exfalso.
  assert (XE : with_A (p_A x) x = x) by (destruct x; reflexivity).
  (* a scale within the bounds on the way to A *)
  assert (exists A2, lo <= A2 <= hi /\ (p_A x < A2 < A \/ A < A2 < p_A x)) as (A2 & R2 & B2).
  { destruct (Rlt_or_le (p_A x) A) as [C|C].
    - exists ((p_A x + Rmin A hi) / 2). pose proof (Rmin_l A hi). pose proof (Rmin_r A hi). assert (p_A x < Rmin A hi) by (apply Rmin_glb_lt; lra). lra.
    - assert (A <> p_A x) by (intros ->; rewrite XE in EV; rewrite EV in EU; injection EU; lra).
      exists ((p_A x + Rmax A lo) / 2). pose proof (Rmax_l A lo). pose proof (Rmax_r A lo). assert (Rmax A lo < p_A x) by (apply Rmax_lub_lt; lra). lra. }
  rewrite <- XE in EU. destruct (scale_between l h Sn nldSn x (p_A x) A2 A u v Gl Gh HS HT ltac:(lra) HA B2 EU EV Q) as (v2 & E2 & GT).
  rewrite XE in EU. rewrite E0 in EU. injection EU as ->.
  assert (W2 : within b (with_A A2 x)).
  { destruct b as [|[k1 [l1 h1]] t]; [discriminate|]. injection NM as -> NM. cbn in LK. injection LK as -> ->. unfold within, plist in *. cbn in W |- *. split; [exact R2|exact (proj2 W)]. }
  pose proof (BEST _ _ W2 E2). lra.
Qed.
Print Assumptions no_warning_best_scale.

(* ------------------------------------------------------------------ examples *)
(* the data of truth_example with slope and model fixed: the guess is best_scale, without warning;
   with 1 as the lower bound of the scale the guess is 1, with a warning *)
Definition scale_bounds (lo : R) : bdict := [("A", (lo, 1000)); ("alpha", (0, 0)); ("T", (1, 1)); ("Eshift", (0, 0))]%string.
Lemma scale_bounds_in lo x : within (scale_bounds lo) x -> lo <= p_A x <= 1000 /\ x = scaled (p_A x) 1 0.
Proof. destruct x as [A al T Es]. unfold within, plist, scaled. cbn. intros (H & H2 & H3 & H4 & _). split; [exact H|]. f_equal; lra. Qed.
Example opt_case : let Sn := (const_temperature 1 0 7, 1) in let A0 := best_scale (tx_l ++ tx_h) in
  guess_in (within (scale_bounds (/ 10))) (L tx_l tx_h 7 Sn) (scaled A0 1 0) /\
  (exists w, edge_warnings (scale_bounds (/ 10)) (p0_of (scaled A0 1 0)) = Ok w /\ ~ In "A"%string w /\ In "alpha"%string w) /\
  guess_in (within (scale_bounds 1)) (L tx_l tx_h 7 Sn) (scaled 1 1 0) /\
  (exists w, edge_warnings (scale_bounds 1) (p0_of (scaled 1 1 0)) = Ok w /\ In "A"%string w).
Proof.
  intros Sn A0. destruct truth_example as (NF & _ & BS). fold Sn A0 in NF, BS.
  assert (CP : 0 < const_temperature 1 0 3). { unfold const_temperature. apply Rdiv_lt_0_compat; [apply exp_pos|lra]. }
  assert (G : forall b, In b (tx_l ++ tx_h) -> good b). { intros b Hb. cbn in Hb. destruct Hb as [<-|[<-|[<-|[]]]]; unfold good; cbn; lra. }
  destruct (likelihood_scale_biased 1 0 tx_l tx_h 7 Sn NF ltac:(lra) ltac:(cbn; lra) G ltac:(discriminate)) as (RG & m & EM & HB). fold A0 in RG, EM, HB.
  assert (W1 : within (scale_bounds (/ 10)) (scaled A0 1 0)) by (unfold within; cbn; lra). assert (W2 : within (scale_bounds 1) (scaled 1 1 0)) by (unfold within; cbn; lra).
  split; [|split; [|split]].
  - split; [exact W1|]. exists m. split; [exact EM|]. intros y n Wy EY. destruct (scale_bounds_in _ _ Wy) as [RY EQ]. rewrite EQ in EY. destruct (Req_EM_T (p_A y) A0) as [E|E].
    + rewrite E in EY. rewrite EM in EY. injection EY. lra.
    + destruct (HB (p_A y) ltac:(lra) E) as (a & EA & LA). rewrite EA in EY. injection EY as <-. lra.
  - destruct (bounds_named (scale_bounds (/ 10)) (scaled A0 1 0) eq_refl W1) as (_ & w & EW & I). exists w. split; [exact EW|]. split.
    + intros C. apply (I "A"%string A0 (/ 10) 1000) in C; [lra|left; reflexivity|reflexivity].
    + apply (I "alpha"%string 0 0 0); [right; left; reflexivity|reflexivity|now left].
  - split; [exact W2|]. destruct (HB 1 ltac:(lra) ltac:(lra)) as (a1 & E1 & _). exists a1. split; [exact E1|]. intros y n Wy EY. destruct (scale_bounds_in _ _ Wy) as [RY EQ]. rewrite EQ in EY.
    destruct (Req_EM_T (p_A y) 1) as [E|E]; [rewrite E, E1 in EY; injection EY; lra|].
    destruct (HB (p_A y) ltac:(lra) ltac:(lra)) as (a & EA & LA). rewrite EA in EY. injection EY as <-.
    destruct (scale_between tx_l tx_h 7 Sn (scaled 1 1 0) (p_A y) 1 A0 a m (fun b H => G b (in_or_app _ _ _ (or_introl H))) (fun b H => G b (in_or_app _ _ _ (or_intror H)))
      ltac:(cbn; lra) ltac:(cbn; lra) ltac:(lra) ltac:(lra) ltac:(right; lra) EA EM LA) as (v2 & E2 & L2).
    change (with_A 1 (scaled 1 1 0)) with (scaled 1 1 0) in E2. rewrite E1 in E2. injection E2 as <-. lra.
  - destruct (bounds_named (scale_bounds 1) (scaled 1 1 0) eq_refl W2) as (_ & w & EW & I). exists w. split; [exact EW|].
    apply (I "A"%string 1 1 1000); [left; reflexivity|reflexivity|now left].
Qed.
(* values 1 and 2 at 1 and 2 MeV, and 20000 times these, with the default bounds *)
Example opt_scale_case : forall x y, within default_bounds x -> within default_bounds y ->
  let nld := mkRV [1; 2] [1; 2] None in normalised (transform 20000 0 nld) y <> normalised nld x.
Proof.
  intros x y Wx Wy nld. apply (guess_same_bounds_refuted nld 20000 0 (/ 10) 1000 (/ 10) 20 "A" "alpha" [("T", (/ 10, 1)); ("Eshift", (- (5), 5))]%string x y 0 1); cbn; try lra; try lia; try assumption.
  split; [reflexivity|discriminate].
Qed.
(* the slope 1, and data steeper by exp(E/2) *)
Example opt_slope_case : ~ (forall y, (exists u, 0 <= u <= 1 /\ y = / 2 + prior_log (1 - / 2) u) <-> (exists u, 0 <= u <= 1 /\ y = prior_log 1 u)).
Proof. apply prior_slope_refuted; lra. Qed.
(* a guess with a negative slope, as a narrower dict of bounds may give, has no prior *)
Example opt_prior_case : forall inv u, prior inv (mkP4 1 (- (1)) 1 0) u u u u = Raise NotImplementedErr /\ prior inv (mkP4 1 1 (- (1)) 0) u u u u = Raise ValueError /\
  exists v, prior inv (mkP4 1 1 1 0) u u u u = Ok v.
Proof. intros inv u. split; [|split]; apply prior_raises; cbn; lra. Qed.
