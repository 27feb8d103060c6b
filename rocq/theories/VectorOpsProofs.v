From Verif Require Import PyBase Axis RebinModel RebinSpec RebinProofs Rebin2DProofs RebinFactorProofs MatrixModel CutSpec
  IndexProofs CutProofs VectorModel VectorSpec VectorProofs.

Definition ok_or_0 (r : result Qc) : Qc := match r with Ok x => x | Raise _ => 0 end.
Lemma closest_index_ok l vals e s : length vals = length l ->
  exists x, py_index (vals ++ [0]) (closest_index l e s) = Ok x.
Proof.
  intros Hl. unfold closest_index. set (k := searchsorted l e s).
  assert (exists j, (j < length (vals ++ [0%Qc]))%nat /\
     ((if (length l <=? k)%nat then 0 else Z.of_nat k) - 1 = Z.of_nat j \/
      (if (length l <=? k)%nat then 0 else Z.of_nat k) - 1 = -1 /\ j = length vals)%Z) as (j & Hj & H).
  { rewrite app_length. cbn. destruct (Nat.leb_spec (length l) k) as [H|H].
    - exists (length vals). split; [lia|right; lia].
    - destruct k as [|k].
      + exists (length vals). split; [lia|right; lia].
      + exists k. split; [lia|left; lia]. }
  destruct H as [->|[-> ->]].
  - rewrite (py_index_nat _ _ 0) by assumption. eauto.
  - unfold py_index. cbn [Z.ltb Z.compare]. rewrite app_length in *. cbn [length] in *.
    destruct (Z.leb_spec 0 (Z.of_nat (length vals + 1) + -1)); [|lia].
    destruct (Z.ltb_spec (Z.of_nat (length vals + 1) + -1) (Z.of_nat (length vals + 1))); [|lia]. cbn.
    destruct (nth_error _ _) eqn:E; [eauto|]. apply nth_error_None in E. rewrite app_length in E. cbn in E. lia.
Qed.
Lemma closest_values_lemma l vals E_new s : nondecreasing l -> length vals = length l ->
  exists out, closest_values l vals E_new s = Ok out /\ length out = length E_new /\
  forall k, (k < length E_new)%nat ->
    (forall i, in_bin l s (vget E_new k) i -> vget out k = vget vals i) /\
    ((forall i, ~ in_bin l s (vget E_new k) i) -> vget out k = 0).
Proof.
  intros Hs Hl. unfold closest_values.
  rewrite (rmapm_ok _ (fun e => ok_or_0 (py_index (vals ++ [0]) (closest_index l e s)))).
  2:{ intros e _. destruct (closest_index_ok l vals e s Hl) as [x ->]. reflexivity. }
  eexists. split; [reflexivity|]. split; [apply map_length|]. intros k Hk.
  assert (E : forall g : Qc -> Qc, vget (map g E_new) k = g (vget E_new k)).
  { intros g. unfold vget. rewrite (nth_indep _ 0 (g 0)) by (now rewrite map_length). apply map_nth. }
  rewrite E. destruct (closest_entry l vals (vget E_new k) s Hs Hl) as [H1 H2]. split.
  - intros i Hi. now rewrite (H1 i Hi).
  - intros Hno. now rewrite (H2 Hno).
Qed.
Lemma closest_lemma v E_new s : v_consistent v -> nondecreasing (v_E v) ->
  exists v', closest v E_new s = Ok v' /\ closest_copy v E_new s = Ok v' /\
  v_E v' = E_new /\ v_units v' = v_units v /\ v_consistent v' /\
  (forall k, (k < length E_new)%nat ->
    (forall i, in_bin (v_E v) s (vget E_new k) i -> vget (v_values v') k = vget (v_values v) i) /\
    ((forall i, ~ in_bin (v_E v) s (vget E_new k) i) -> vget (v_values v') k = 0)) /\
  match v_std v, v_std v' with
  | None, None => True
  | Some sd, Some sd' =>
      forall k, (k < length E_new)%nat ->
        (forall i, in_bin (v_E v) s (vget E_new k) i -> vget sd' k = vget sd i) /\
        ((forall i, ~ in_bin (v_E v) s (vget E_new k) i) -> vget sd' k = 0)
  | _, _ => False
  end.
Proof.
  intros [Hl Hsd] Hs. unfold closest, closest_copy, closest_data.
  rewrite (proj2 (sorted_b_lemma _) Hs).
  destruct (closest_values_lemma (v_E v) (v_values v) E_new s Hs (eq_sym Hl)) as (out & -> & L & H). cbn [rbind].
  destruct (v_std v) as [sd|].
  - destruct (closest_values_lemma (v_E v) sd E_new s Hs ltac:(congruence)) as (out' & -> & L' & H'). cbn [rbind].
    unfold mk_vector, v_verify. cbn. rewrite L, L', Nat.eqb_refl. cbn.
    eexists. repeat (split; [reflexivity|]). cbn. split; [split; cbn; congruence|]. auto.
  - cbn [rbind]. unfold mk_vector, v_verify. cbn. rewrite L, Nat.eqb_refl. cbn.
    eexists. repeat (split; [reflexivity|]). cbn. split; [split; cbn; [congruence|exact I]|]. auto.
Qed.
Lemma closest_unsorted_lemma v E_new s : ~ nondecreasing (v_E v) ->
  closest v E_new s = Raise RuntimeError /\ closest_copy v E_new s = Raise RuntimeError.
Proof.
  intros H. unfold closest, closest_copy, closest_data.
  destruct (sorted_b (v_E v)) eqn:E; [|split; reflexivity]. apply sorted_b_lemma in E. contradiction.
Qed.

(* --- cut_nan --- *)
Definition not_nan (x : option Qc) : bool := match x with Some _ => true | None => false end.
Lemma np_delete_nan {A} (vals : list (option Qc)) (l : list A) : length l = length vals ->
  np_delete (nan_mask vals) l = map snd (filter (fun p => not_nan (fst p)) (combine vals l)).
Proof.
  revert l. induction vals as [|x vals IH]; intros [|y l] H; cbn in *; try lia; [reflexivity|].
  destruct x; cbn; [f_equal|]; apply IH; lia.
Qed.
Lemma np_delete_self vals : np_delete (nan_mask vals) vals = filter not_nan vals.
Proof. induction vals as [|[x|] vals IH]; cbn; [reflexivity|f_equal; exact IH|exact IH]. Qed.
Lemma cut_nan_lemma v : length (n_E v) = length (n_values v) ->
  match n_std v with Some s => length s = length (n_values v) | None => True end ->
  n_values (cut_nan v) = filter not_nan (n_values v) /\
  n_E (cut_nan v) = map snd (filter (fun p => not_nan (fst p)) (combine (n_values v) (n_E v))) /\
  n_std (cut_nan v) =
    option_map (fun s => map snd (filter (fun p => not_nan (fst p)) (combine (n_values v) s))) (n_std v) /\
  (forall x, In x (n_values (cut_nan v)) -> x <> None) /\
  length (n_E (cut_nan v)) = length (n_values (cut_nan v)).
Proof.
  intros HE Hs. unfold cut_nan. cbv zeta. cbn [n_values n_E n_std].  rewrite np_delete_self, np_delete_nan by assumption.
  repeat split.
  - destruct (n_std v); cbn; [|reflexivity]. now rewrite np_delete_nan.
  - intros x Hx. apply filter_In in Hx as [_ Hx]. now destruct x.
  - rewrite map_length, (filter_map_length fst not_nan). now rewrite map_fst_combine by congruence.
Qed.
Lemma filter_true_all (l : list (option Qc)) : (forall x, In x l -> not_nan x = true) ->
  forall A (m : list A), np_delete (nan_mask l) m = m.
Proof.
  induction l as [|x l IH]; intros H A m; [reflexivity|]. cbn.
  assert (not_nan x = true) by (apply H; now left). destruct x; [|discriminate].
  destruct m; [reflexivity|]. f_equal. apply IH. intros; apply H; now right.
Qed.
Lemma cut_nan_idem v : length (n_E v) = length (n_values v) -> cut_nan (cut_nan v) = cut_nan v.
Proof.
  intros HE. assert (H : forall x, In x (n_values (cut_nan v)) -> not_nan x = true).
  { unfold cut_nan. cbn [n_values]. rewrite np_delete_self. intros x Hx. now apply filter_In in Hx. }
  unfold cut_nan at 1. rewrite !filter_true_all by assumption. unfold cut_nan in *. cbn [n_values n_E n_std] in *. f_equal.
  destruct (n_std v); cbn; [|reflexivity]. f_equal. apply filter_true_all. exact H.
Qed.

(* --- invariants over operations --- *)
Lemma rebin_1D_length c mi mo out : rebin_1D c mi mo = Ok out -> length out = length mo.
Proof.
  unfold rebin_1D. destruct mi as [|a [|b ?]]; try discriminate. destruct mo as [|x [|y t]]; try discriminate.
  destruct (_ <=? _)%nat; [|discriminate]. intros H. injection H as <-.
  change (length (tab (length (x :: y :: t)) (rb_bin c (length (a :: b :: l)) (a - (b - a) / qz 2) (b - a) (x - (y - x) / qz 2) (y - x))) = length (x :: y :: t)).
  apply tab_length.
Qed.
Lemma v_verify_ok v : v_verify v = Ok tt <-> v_consistent v.
Proof.
  unfold v_verify, v_consistent. destruct (Nat.eqb_spec (length (v_E v)) (length (v_values v))) as [E|E]; cbn.
  - destruct (v_std v) as [s|]; [|tauto].
    destruct (Nat.eqb_spec (length s) (length (v_values v))); split; try tauto; discriminate.
  - split; [discriminate|tauto].
Qed.
Lemma map2_length {A B C} (f : A -> B -> C) l m : length l = length m -> length (map2 f l m) = length l.
Proof. intros H. unfold map2. rewrite map_length, combine_length. lia. Qed.

Section Runs.
Variable sqrtf expf : Qc -> Qc.
Notation vrun := (vrun sqrtf expf).
Lemma keep_ok v r v' : VectorModel.keep v r = (v', Ok tt) -> r = Ok v'.
Proof. destruct r; cbn; congruence. Qed.
Lemma cumulative_cons v f v' : v_consistent v -> cumulative sqrtf v f = Ok v' -> v_consistent v'.
Proof.
  intros [H1 H2]. unfold cumulative. destruct (cum_factor_val v f); [|discriminate]. cbn.
  intros [= <-]. unfold cumsum. split; cbn.
  - now rewrite map_length, cumsum_from_length.
  - destruct (v_std v); cbn; [|exact I]. now rewrite !map_length, !cumsum_from_length, map_length.
Qed.
Lemma cut_cons v a b v' : v_consistent v -> v_cut v a b = Ok v' -> v_consistent v'.
Proof.
  intros [H1 H2]. unfold v_cut, v_cut_data.
  destruct (match a with Some e => Ok e | None => py_min (v_E v) end); [|discriminate].
  destruct (match b with Some e => Ok e | None => py_max (v_E v) end); [|discriminate]. cbn.
  intros [= <-]. split; cbn.
  - now apply py_slice_length.
  - destruct (v_std v); cbn; [|exact I]. now apply py_slice_length.
Qed.
Lemma units_cons v v' : v_consistent v -> to_MeV v = Ok v' \/ to_keV v = Ok v' -> v_consistent v'.
Proof.
  unfold v_consistent, to_MeV, to_keV. intros H. destruct (v_units v); intros [[= <-]|[= <-]]; cbn;
    rewrite ?map_length; assumption.
Qed.
Lemma rmapm_len {A B} (f : A -> result B) l out : rmapm f l = Ok out -> length out = length l.
Proof.
  revert out. induction l as [|x l IH]; intros out; cbn; [intros [= <-]; reflexivity|].
  destruct (f x); [|discriminate]. cbn. destruct (rmapm f l); [|discriminate]. cbn.
  intros [= <-]. cbn. f_equal. now apply IH.
Qed.
Lemma closest_cons v e s v' : v_consistent v -> closest v e s = Ok v' -> v_consistent v'.
Proof.
  intros [H1 H2]. unfold closest, closest_data. destruct (sorted_b (v_E v)); [|discriminate].
  destruct (closest_values (v_E v) (v_values v) e s) eqn:E1; [|discriminate]. cbn. apply rmapm_len in E1.
  destruct (v_std v).
  - destruct (closest_values (v_E v) l e s) eqn:E2; [|discriminate]. cbn. apply rmapm_len in E2.
    intros [= <-]. split; cbn; congruence.
  - cbn. intros [= <-]. split; cbn; [congruence|exact I].
Qed.
Lemma transform_cons v c a : v_consistent v -> v_consistent (v_transform expf v c a).
Proof.
  intros [H1 H2]. unfold v_transform. split; cbn.
  - now rewrite map2_length.
  - destruct (v_std v); cbn; [|exact I]. rewrite !map2_length; auto; rewrite ?map2_length; congruence.
Qed.
Lemma vrun_success_lemma v o v' : v_consistent v -> vrun v o = (v', Ok tt) -> v_consistent v'.
Proof.
  intros C. destruct o; cbn; intros H; try apply keep_ok in H.
  - eapply cut_cons; eauto.
  - unfold v_rebin in H. destruct (v_rebin_data v mids factor) as [[out new]|]; [|discriminate].
    injection H as <- H. now apply v_verify_ok in H.
  - eapply units_cons; eauto.
  - eapply units_cons; eauto.
  - eapply closest_cons; eauto.
  - eapply cumulative_cons; eauto.
  - injection H as <-. now apply transform_cons.
Qed.
Lemma vrun_failure_lemma v o v' e : v_consistent v -> vrun v o = (v', Raise e) ->
  (v_std v = None \/ forall ms f, o <> VRebin ms f) -> v' = v.
Proof.
  intros C H Hs. destruct o; cbn in H;
    try (unfold VectorModel.keep in H; match type of H with match ?r with _ => _ end = _ => destruct r end; congruence);
    try discriminate H.
  destruct Hs as [Hs|Hs]; [|exfalso; eapply Hs; reflexivity].
  unfold v_rebin in H. destruct (v_rebin_data v mids factor) as [[out new]|] eqn:E; [|congruence].
  exfalso. unfold v_rebin_data in E.
  destruct (match factor, mids with Some f, None => factor_mids (v_E v) f | None, Some ms => Ok ms | _, _ => Raise ValueError end);
    [|discriminate]. cbn in E.
  destruct (rebin_1D (v_values v) (v_E v) a) eqn:E1; [|discriminate]. cbn in E. injection E as <- <-.
  injection H as _ H. apply rebin_1D_length in E1.
  assert (v_verify (mkV a0 a (v_std v) (v_units v)) = Ok tt).
  { apply v_verify_ok. split; cbn; [congruence|now rewrite Hs]. }
  congruence.
Qed.
Lemma vrun_std_none v o : v_std v = None -> v_std (fst (vrun v o)) = None.
Proof.
  intros H. destruct o; cbn.
  - unfold v_cut, v_cut_data.
    destruct (match Emin with Some e => Ok e | None => py_min (v_E v) end); [|exact H].
    destruct (match Emax with Some e => Ok e | None => py_max (v_E v) end); [|exact H]. cbn. now rewrite H.
  - unfold v_rebin. destruct (v_rebin_data v mids factor) as [[out new]|]; exact H.
  - unfold to_MeV. destruct (v_units v); exact H.
  - unfold to_keV. destruct (v_units v); exact H.
  - unfold closest, closest_data. destruct (sorted_b (v_E v)); [|exact H].
    destruct (closest_values (v_E v) (v_values v) E_new s); [|exact H]. cbn. now rewrite H.
  - unfold cumulative. destruct (cum_factor_val v f); [|exact H]. cbn. now rewrite H.
  - now rewrite H.
Qed.
Lemma vruns_lemma os v : v_consistent v -> v_std v = None ->
  v_consistent (vruns sqrtf expf v os) /\ v_std (vruns sqrtf expf v os) = None.
Proof.
  revert v. induction os as [|o os IH]; intros v C Hs; cbn; [auto|].
  apply IH; [|now apply vrun_std_none].
  destruct (vrun v o) as [v' [[]|e]] eqn:E; cbn.
  - eapply vrun_success_lemma; eauto.
  - rewrite (vrun_failure_lemma v o v' e C E); auto.
Qed.
End Runs.

(* --- error --- *)
Definition v_sigma2 (v : vector) (s : option (list Qc)) (i : nat) : Qc :=
  match v_std v, s with
  | Some sd, Some s' => vget sd i * vget sd i + vget s' i * vget s' i
  | Some sd, None => vget sd i * vget sd i
  | None, Some s' => vget s' i * vget s' i
  | None, None => 1
  end.
Lemma v_sigma2_nonneg v s i : 0 <= v_sigma2 v s i.
Proof.
  unfold v_sigma2. destruct (v_std v), s; try (apply qleb_le; reflexivity); qnra.
Qed.
Lemma div0_nonneg a b : 0 <= a -> 0 <= b -> 0 <= div0 a b.
Proof. unfold div0. intros. destruct (qeqb b 0); [auto|]. now apply Qcdiv_nonneg. Qed.
Lemma Qcmult_eq0 x y : x * y = 0 -> x = 0 \/ y = 0.
Proof. apply Qcmult_integral. Qed.
Lemma div0_zero a b : div0 a b = 0 <-> b = 0 \/ a = 0.
Proof.
  unfold div0. destruct (qeqb_spec b 0) as [H|H]; [tauto|]. split.
  - intros E. right. unfold Qcdiv in E. apply Qcmult_eq0 in E as [E|E]; [exact E|].
    exfalso. assert (b * / b = 0) by (rewrite E; ring). rewrite Qcmult_inv_r in H0 by assumption.
    now apply Qc_1_0.
  - intros [?|E]; [contradiction|]. rewrite E. unfold Qcdiv. ring.
Qed.
Definition other_values (o : err_other) : list Qc :=
  match o with OtherVec w => v_values w | OtherArr a => a end.
Lemma v_error_eq v o s chi : v_error v o s = Ok chi ->
  chi = sumn (length (v_values v)) (fun i =>
    div0 ((vget (v_values v) i - vget (other_values o) i) * (vget (v_values v) i - vget (other_values o) i))
         (v_sigma2 v s i)).
Proof.
  unfold v_error. destruct o as [w|a]; cbn [rbind other_values].
  - destruct (v_equal_binning v w); [|discriminate]. cbn [rbind].
    match goal with |- (if ?b then _ else _) = _ -> _ => destruct b end; [|discriminate].
    intros [= <-]. apply qsum_tab.
  - match goal with |- (if ?b then _ else _) = _ -> _ => destruct b end; [|discriminate].
    intros [= <-]. apply qsum_tab.
Qed.
Lemma v_error_lemma v o s chi : v_error v o s = Ok chi ->
  0 <= chi /\
  (chi = 0 <-> forall i, (i < length (v_values v))%nat -> v_sigma2 v s i <> 0 ->
                 vget (v_values v) i = vget (other_values o) i).
Proof.
  intros H. apply v_error_eq in H. subst chi.
  assert (P : forall i, (i < length (v_values v))%nat -> 0 <= div0 ((vget (v_values v) i - vget (other_values o) i) * (vget (v_values v) i - vget (other_values o) i)) (v_sigma2 v s i)).
  { intros i _. apply div0_nonneg; [|apply v_sigma2_nonneg].
    set (x := vget (v_values v) i - vget (other_values o) i). qnra. }
  split; [now apply sumn_nonneg|]. split.
  - intros E i Hi Hn. pose proof (sumn_nonneg_0 _ _ P E i Hi) as E'. apply div0_zero in E' as [E'|E']; [contradiction|].
    apply Qcmult_eq0 in E' as [E'|E']; qlra.
  - intros H. apply sumn_0. intros i Hi. apply div0_zero.
    destruct (Qc_dec_eq (v_sigma2 v s i) 0) as [->|Hn]; [now left|]. right.
    rewrite (H i Hi Hn). ring.
Qed.
(* adding std to a vector whose own std has no zero entries never increases the measure *)
Lemma v_error_std_lemma v o s chi chi' sd : v_std v = Some sd ->
  (forall i, (i < length (v_values v))%nat -> vget sd i <> 0) ->
  v_error v o None = Ok chi -> v_error v o (Some s) = Ok chi' -> chi' <= chi.
Proof.
  intros Hsd Hnz H1 H2. apply v_error_eq in H1, H2. subst. apply sumn_le. intros i Hi.
  unfold v_sigma2. rewrite Hsd. specialize (Hnz i Hi). unfold div0.
  set (d := vget (v_values v) i - vget (other_values o) i). set (a := vget sd i) in *. set (b := vget s i).
  assert (Hp : 0 < a * a). { destruct (qltb_spec 0 a); [qnra|]. destruct (qltb_spec a 0); [qnra|]. exfalso. apply Hnz. qlra. }
  destruct (qeqb_spec (a * a) 0); [exfalso; qlra|]. destruct (qeqb_spec (a * a + b * b) 0); [exfalso; qnra|].
  assert (Hb : 0 <= b * b) by qnra.
  apply Qcdiv_le_l; [qlra|].
  replace (d * d / (a * a) * (a * a + b * b)) with (d * d + d * d / (a * a) * (b * b)).
  - assert (Hq : 0 <= d * d / (a * a)) by (apply Qcdiv_nonneg; qnra).
    pose proof (Qcmult_nonneg _ _ Hq Hb). qlra.
  - field. exact Hnz.
Qed.

(* --- cumulative: last entry and monotonicity --- *)
Lemma cumulative_last_lemma sqrtf v f v' c :
  cumulative sqrtf v f = Ok v' -> cum_factor_val v f = Ok c -> v_values v <> [] ->
  last (v_values v') 0 = c * qsum (v_values v).
Proof.
  intros H Hc Hne. apply cumulative_lemma in H as (c' & Hc' & L & _ & _ & H).
  assert (c' = c) by congruence. subst c'.
  assert (length (v_values v) <> 0)%nat by (destruct (v_values v); [contradiction|discriminate]).
  rewrite last_nth. fold (vget (v_values v') (length (v_values v') - 1)). rewrite L, H by lia.
  replace (S (length (v_values v) - 1)) with (length (v_values v)) by lia. now rewrite prefix_sum_all.
Qed.
Lemma cumulative_mono_lemma sqrtf v f v' c :
  cumulative sqrtf v f = Ok v' -> cum_factor_val v f = Ok c -> 0 <= c ->
  (forall x, In x (v_values v) -> 0 <= x) -> nondecreasing (v_values v').
Proof.
  intros H Hc Hpos Hnn. apply cumulative_lemma in H as (c' & Hc' & L & _ & _ & H).
  assert (c' = c) by congruence. subst c'. apply sorted_b_lemma.
  assert (G : forall l : list Qc, (forall i, (S i < length l)%nat -> vget l i <= vget l (S i)) -> sorted_b l = true).
  { induction l as [|x [|y t] IH]; intros G; try reflexivity.
    change (qleb x y && sorted_b (y :: t) = true). apply andb_true_iff. split.
    - apply qleb_le. apply (G 0%nat). cbn. lia.
    - apply IH. intros i Hi. apply (G (S i)). cbn in *. lia. }
  apply G. intros i Hi. rewrite !H by lia.
  pose proof (prefix_sum_mono (v_values v) (S i) Hnn) as M.
  qnra.
Qed.
Lemma cut_copy_same v a b v' : v_consistent v -> v_cut v a b = Ok v' -> v_cut_copy v a b = Ok v'.
Proof.
  intros C H. pose proof (cut_cons _ _ _ _ C H) as C'. unfold v_cut, v_cut_copy in *.
  destruct (v_cut_data v a b) as [[[vals E] s]|]; [|discriminate]. cbn in *. injection H as <-.
  unfold mk_vector. apply v_verify_ok in C'. rewrite C'. reflexivity.
Qed.
