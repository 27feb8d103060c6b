(* C11-C13 (vector part), C27, C28, C30: vectors.  Vocabulary in VectorSpec.v, CutSpec.v
   and RebinSpec.v. *)
From Coq Require Import String. Import Coq.Init.Datatypes.
From Verif Require Import PyBase Axis RebinSpec MatrixModel CutSpec VectorModel VectorSpec
  VectorProofs VectorOpsProofs.

(* C11: the cut keeps, in all three arrays, the entries from the bin nearest to the lower
   limit to the bin nearest to the upper one. *)
Theorem vector_cut_range : forall v Emin Emax,
  v_E v <> [] -> v_consistent v -> nondecreasing (v_E v) ->
  exists a b i j v',
    v_cut v Emin Emax = Ok v' /\
    match Emin with Some e => a = e | None => In a (v_E v) /\ forall y, In y (v_E v) -> a <= y end /\
    match Emax with Some e => b = e | None => In b (v_E v) /\ forall y, In y (v_E v) -> y <= b end /\
    nearest (v_E v) a i /\ nearest (v_E v) b j /\
    v_values v' = range_of i j (v_values v) /\ v_E v' = range_of i j (v_E v) /\
    v_std v' = option_map (range_of i j) (v_std v) /\ v_units v' = v_units v /\ v_consistent v'.
Proof. exact v_cut_lemma. Qed.
Print Assumptions vector_cut_range.
Theorem vector_cut_copy_same : forall v Emin Emax v',
  v_consistent v -> v_cut v Emin Emax = Ok v' -> v_cut_copy v Emin Emax = Ok v'.
Proof. exact cut_copy_same. Qed.
Print Assumptions vector_cut_copy_same.
(* The half-bin bounds hold for limits inside the axis (missing: limits outside, for which
   the claim fails, see the refutation below). *)
Theorem vector_cut_half_bin_partial : forall v a b v',
  v_consistent v -> equidistant (v_E v) ->
  axis_lo (v_E v) <= a -> a <= axis_hi (v_E v) -> axis_lo (v_E v) <= b -> b <= axis_hi (v_E v) ->
  v_cut v (Some a) (Some b) = Ok v' ->
  let h := width (v_E v) / qz 2 in
  (forall e, In e (v_E v') -> In e (v_E v) /\ a - h <= e /\ e <= b + h) /\
  (forall e, In e (v_E v) -> a + h <= e -> e <= b - h -> In e (v_E v')).
Proof. exact v_cut_half_lemma. Qed.
Print Assumptions vector_cut_half_bin_partial.
(* Both limits far above the axis: the last bin is kept although it is nowhere near them. *)
Theorem vector_cut_outside_refuted : exists v a b v' e,
  v_consistent v /\ equidistant (v_E v) /\ v_cut v (Some a) (Some b) = Ok v' /\
  In e (v_E v') /\ e < a - width (v_E v) / qz 2.
Proof.
  exists (mkV (ql [1;2;3]%Z) (ql [10;20;30]%Z) None KeV), (qz 1000), (qz 2000). eexists. exists (qz 30).
  split; [split; reflexivity || exact I|].
  split. { split; [cbn; lia|]. split; [reflexivity|]. intros i Hi. cbn in Hi.
           destruct i as [|[|[|?]]]; try lia; apply qeqb_eq; reflexivity. }
  split; [vm_compute; reflexivity|]. split; [now left|reflexivity].
Qed.
Print Assumptions vector_cut_outside_refuted.

(* C12: histories.  Every successful operation keeps the lengths equal; a failing one leaves
   the vector as it was unless it is a rebin of a vector with std. *)
Theorem vector_op_consistent : forall sqrtf expf v o v',
  v_consistent v -> vrun sqrtf expf v o = (v', Ok tt) -> v_consistent v'.
Proof. exact vrun_success_lemma. Qed.
Print Assumptions vector_op_consistent.
Theorem vector_failed_op_unchanged_partial : forall sqrtf expf v o v' e,
  v_consistent v -> vrun sqrtf expf v o = (v', Raise e) ->
  (v_std v = None \/ forall ms f, o <> VRebin ms f) -> v' = v.
Proof. exact vrun_failure_lemma. Qed.
Print Assumptions vector_failed_op_unchanged_partial.
Theorem vector_histories_consistent_partial : forall sqrtf expf os v,
  v_consistent v -> v_std v = None ->
  v_consistent (vruns sqrtf expf v os) /\ v_std (vruns sqrtf expf v os) = None.
Proof. exact vruns_lemma. Qed.
Print Assumptions vector_histories_consistent_partial.
(* Rebinning a vector with uncertainties raises ValueError *after* it has overwritten
   values and E: the object left behind is inconsistent. *)
Theorem vector_rebin_std_refuted : exists v mids v',
  v_consistent v /\ v_rebin v (Some mids) None = (v', Raise ValueError) /\ ~ v_consistent v'.
Proof.
  exists (mkV (ql [1;2;3;4]%Z) (ql [10;20;30;40]%Z) (Some (ql [1;1;1;1]%Z)) KeV), (ql [15;35]%Z).
  eexists. split; [split; reflexivity|]. split; [vm_compute; reflexivity|].
  intros [_ H]. cbn in H. discriminate.
Qed.
Print Assumptions vector_rebin_std_refuted.
(* cut_nan removes the same positions (those with a nan value) from all arrays. *)
Theorem cut_nan_removes_nan : forall v,
  length (n_E v) = length (n_values v) ->
  match n_std v with Some s => length s = length (n_values v) | None => True end ->
  n_values (cut_nan v) = filter not_nan (n_values v) /\
  n_E (cut_nan v) = map snd (filter (fun p => not_nan (fst p)) (combine (n_values v) (n_E v))) /\
  n_std (cut_nan v) =
    option_map (fun s => map snd (filter (fun p => not_nan (fst p)) (combine (n_values v) s))) (n_std v) /\
  (forall x, In x (n_values (cut_nan v)) -> x <> None) /\
  length (n_E (cut_nan v)) = length (n_values (cut_nan v)).
Proof. exact cut_nan_lemma. Qed.
Print Assumptions cut_nan_removes_nan.
Theorem cut_nan_idempotent : forall v,
  length (n_E v) = length (n_values v) -> cut_nan (cut_nan v) = cut_nan v.
Proof. exact cut_nan_idem. Qed.
Print Assumptions cut_nan_idempotent.

(* C13 (vectors) *)
Theorem vector_units_lossless : forall v, v_units v = KeV \/ v_units v = MeV ->
  exists m k, to_MeV v = Ok m /\ to_keV v = Ok k /\
    v_units m = MeV /\ v_units k = KeV /\
    to_MeV m = Ok m /\ to_keV k = Ok k /\ to_keV m = Ok k /\ to_MeV k = Ok m /\
    v_values m = v_values v /\ v_std m = v_std v /\ v_values k = v_values v /\ v_std k = v_std v /\
    (v_units v = KeV -> k = v) /\ (v_units v = MeV -> m = v) /\
    v_E k = map (fun e => e * qz 1000) (v_E m).
Proof. exact units_lemma. Qed.
Print Assumptions vector_units_lossless.
Theorem vector_units_unknown_raise : forall v s, v_units v = OtherUnits s ->
  to_MeV v = Raise NotImplementedErr /\ to_keV v = Raise NotImplementedErr.
Proof. exact units_bad_lemma. Qed.
Print Assumptions vector_units_unknown_raise.

(* C27 *)
Theorem cumulative_prefix_sums : forall sqrtf v f v', cumulative sqrtf v f = Ok v' ->
  exists c, cum_factor_val v f = Ok c /\
  length (v_values v') = length (v_values v) /\ v_E v' = v_E v /\ v_units v' = v_units v /\
  forall n, (n < length (v_values v))%nat -> vget (v_values v') n = c * prefix_sum (v_values v) (S n).
Proof. exact cumulative_lemma. Qed.
Print Assumptions cumulative_prefix_sums.
(* the standard deviations are added in quadrature and scaled like the values *)
Theorem cumulative_std : forall sqrtf v f v', cumulative sqrtf v f = Ok v' ->
  match v_std v, v_std v' with
  | None, None => True
  | Some s, Some s' => exists c, cum_factor_val v f = Ok c /\ length s' = length s /\
      forall n, (n < length s)%nat -> vget s' n = sqrtf (prefix_sum (map (fun x => x * x) s) (S n)) * c
  | _, _ => False
  end.
Proof. exact cumulative_std_lemma. Qed.
Print Assumptions cumulative_std.
(* the factor that is accepted: none, a number, or "dE" (any case) on an equidistant axis *)
Theorem cumulative_factor : forall v f c, cum_factor_val v f = Ok c <->
  match f with
  | FNone => c = 1
  | FNum q => c = q
  | FStr s => lower s = "de"%string /\ (2 <= length (v_E v))%nat /\
              c = nth 1 (v_E v) 0 - nth 0 (v_E v) 0 /\
              forall i, (S i < length (v_E v))%nat -> nth (S i) (v_E v) 0 - nth i (v_E v) 0 = c
  end.
Proof. exact cum_factor_lemma. Qed.
Print Assumptions cumulative_factor.
Theorem cumulative_last_is_total : forall sqrtf v f v' c,
  cumulative sqrtf v f = Ok v' -> cum_factor_val v f = Ok c -> v_values v <> [] ->
  last (v_values v') 0 = c * qsum (v_values v).
Proof. exact cumulative_last_lemma. Qed.
Print Assumptions cumulative_last_is_total.
Theorem cumulative_monotone : forall sqrtf v f v' c,
  cumulative sqrtf v f = Ok v' -> cum_factor_val v f = Ok c -> 0 <= c ->
  (forall x, In x (v_values v) -> 0 <= x) -> nondecreasing (v_values v').
Proof. exact cumulative_mono_lemma. Qed.
Print Assumptions cumulative_monotone.

(* C28 *)
Theorem closest_assigns_containing_bin : forall v E_new s,
  v_consistent v -> nondecreasing (v_E v) ->
  exists v', closest v E_new s = Ok v' /\ closest_copy v E_new s = Ok v' /\
  v_E v' = E_new /\ v_units v' = v_units v /\ v_consistent v' /\
  (forall k, (k < length E_new)%nat ->
    (forall i, in_bin (v_E v) s (vget E_new k) i -> vget (v_values v') k = vget (v_values v) i) /\
    ((forall i, ~ in_bin (v_E v) s (vget E_new k) i) -> vget (v_values v') k = 0)) /\
  match v_std v, v_std v' with
  | None, None => True
  | Some sd, Some sd' =>
      forall k, (k < length E_new)%nat ->
        (forall i, in_bin (v_E v) s (vget E_new k) i -> vget sd' k = vget sd i) /\
        ((forall i, ~ in_bin (v_E v) s (vget E_new k) i) -> vget sd' k = 0)
  | _, _ => False
  end.
Proof. exact closest_lemma. Qed.
Print Assumptions closest_assigns_containing_bin.
Theorem closest_unsorted_raises : forall v E_new s, ~ nondecreasing (v_E v) ->
  closest v E_new s = Raise RuntimeError /\ closest_copy v E_new s = Raise RuntimeError.
Proof. exact closest_unsorted_lemma. Qed.
Print Assumptions closest_unsorted_raises.

(* C30.  sigma^2 of bin i is std_v^2 + std^2, whichever are given (1 if neither is). *)
Theorem error_nonneg_and_zero_iff_agree : forall v o s chi, v_error v o s = Ok chi ->
  0 <= chi /\
  (chi = 0 <-> forall i, (i < length (v_values v))%nat -> v_sigma2 v s i <> 0 ->
                 vget (v_values v) i = vget (other_values o) i).
Proof. exact v_error_lemma. Qed.
Print Assumptions error_nonneg_and_zero_iff_agree.
(* Monotonicity in std: proved when the vector has its own std without zeros (missing: the
   other cases, which fail). *)
Theorem error_std_decreases_partial : forall v o s chi chi' sd, v_std v = Some sd ->
  (forall i, (i < length (v_values v))%nat -> vget sd i <> 0) ->
  v_error v o None = Ok chi -> v_error v o (Some s) = Ok chi' -> chi' <= chi.
Proof. exact v_error_std_lemma. Qed.
Print Assumptions error_std_decreases_partial.
(* A zero in the own std hides a disagreement, which the std argument then reveals. *)
Theorem error_std_increases_refuted : exists v o s chi chi',
  v_error v o None = Ok chi /\ v_error v o (Some s) = Ok chi' /\ chi < chi'.
Proof.
  exists (mkV (ql [1;2]%Z) (ql [10;20]%Z) (Some (ql [0;1]%Z)) KeV), (OtherArr (ql [5;2]%Z)), (ql [1;1]%Z).
  do 2 eexists. split; [vm_compute; reflexivity|]. split; [vm_compute; reflexivity|]. reflexivity.
Qed.
Print Assumptions error_std_increases_refuted.

(* Examples *)
Example exv : vector := mkV (ql [4;5;6;7]%Z) (ql [10;20;30;40]%Z) (Some (ql [1;2;3;4]%Z)) KeV.
Example exv_consistent : v_consistent exv. Proof. split; reflexivity. Qed.
Example exv_equidistant : equidistant (v_E exv).
Proof.
  split; [cbn; lia|]. split; [reflexivity|]. intros i Hi. cbn in Hi.
  destruct i as [|[|[|[|?]]]]; try lia; apply qeqb_eq; reflexivity.
Qed.
Example exv_cut : match v_cut exv (Some (qz 16)) (Some (qz 31)) with
  | Ok v' => leqb (v_E v') (ql [20;30]%Z) && leqb (v_values v') (ql [5;6]%Z) = true
  | Raise _ => False end.
Proof. vm_compute. reflexivity. Qed.
Example exv_closest : match closest exv (ql [5;10;19;20;39;40;41]%Z) SideRight with
  | Ok v' => leqb (v_values v') (ql [0;4;4;5;6;0;0]%Z) = true
  | Raise _ => False end.
Proof. vm_compute. reflexivity. Qed.
Example exv_cumulative : match cumulative (fun x => x) exv (FStr "dE") with
  | Ok v' => leqb (v_values v') (ql [40;90;150;220]%Z) = true
  | Raise _ => False end.
Proof. vm_compute. reflexivity. Qed.
Example exv_units : match to_MeV exv with
  | Ok v' => leqb (v_E v') [qn 1 100; qn 1 50; qn 3 100; qn 1 25] = true | Raise _ => False end.
Proof. vm_compute. reflexivity. Qed.
Example exv_error : match v_error exv (OtherArr (ql [4;5;6;11]%Z)) None with
  | Ok x => qeqb x 1 = true | Raise _ => False end.
Proof. vm_compute. reflexivity. Qed.
Example exv_nan :
  n_E (cut_nan (mkNV [Some (qz 1); None; Some (qz 3)] (ql [10;20;30]%Z) None)) = [qz 10; qz 30].
Proof. reflexivity. Qed.
