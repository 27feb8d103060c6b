(* C44, C45: Gaussian smoothing and shifting.  The Gaussian itself is any function that is
   non-negative, and positive at its centre (true of exp). *)
From Verif Require Import PyBase Axis RebinModel RebinSpec RebinProofs MatrixModel MatrixSpec SmoothModel SmoothSpec SmoothProofs.

Definition bell (g : Qc -> Qc -> Qc -> Qc) : Prop := (forall e m s, 0 <= s -> 0 <= g e m s) /\ (forall m s, 0 <= s -> 0 < g m m s).

(* C44: each count of bin i is spread with weights that sum to one, proportional to the
   Gaussian within the truncation, zero more than one bin outside of it.  The result is
   never nan. *)
Theorem smoothing_spreads_counts : forall gaussian, bell gaussian -> forall arr E fw t,
  equidistant E -> length arr = length E -> length fw = length E -> (forall x, In x fw -> 0 <= x) -> 0 <= t ->
  exists out W, gauss_smoothing gaussian arr E fw t = Ok (Some out) /\ length out = length E /\
    (forall j, (j < length E)%nat -> vget out j = sumn (length E) (fun i => pos_part (vget arr i) * W i j)) /\
    proper_weights (length E) W /\
    (forall i j, (i < length E)%nat -> (j < length E)%nat -> W i j <> 0 ->
       qabs (vget E j - vget E i) <= t * (vget fw i / qn 2355 1000) + width E) /\
    (forall i j k, (i < length E)%nat -> (j < length E)%nat -> (k < length E)%nat ->
       let s := vget fw i / qn 2355 1000 in
       qabs (vget E j - vget E i) <= t * s -> qabs (vget E k - vget E i) <= t * s ->
       W i j * gaussian (vget E k) (vget E i) s = W i k * gaussian (vget E j) (vget E i) s).
Proof. exact (fun g B => gauss_smoothing_lemma g (proj1 B) (proj2 B)). Qed.
Print Assumptions smoothing_spreads_counts.
Theorem smoothing_preserves_counts : forall gaussian, bell gaussian -> forall arr E fw t,
  equidistant E -> length arr = length E -> length fw = length E -> (forall x, In x fw -> 0 <= x) -> 0 <= t ->
  (forall x, In x arr -> 0 <= x) ->
  exists out, gauss_smoothing gaussian arr E fw t = Ok (Some out) /\ length out = length E /\
    (forall x, In x out -> 0 <= x) /\ qsum out = qsum arr.
Proof. exact (fun g B => gauss_smoothing_conserves g (proj1 B) (proj2 B)). Qed.
Print Assumptions smoothing_preserves_counts.
(* Negative counts are dropped: the total becomes that of the positive counts. *)
Theorem smoothing_drops_negative_counts : forall gaussian, bell gaussian -> forall arr E fw t,
  equidistant E -> length arr = length E -> length fw = length E -> (forall x, In x fw -> 0 <= x) -> 0 <= t ->
  exists out, gauss_smoothing gaussian arr E fw t = Ok (Some out) /\ length out = length E /\
    (forall x, In x out -> 0 <= x) /\ qsum out = qsum (map pos_part arr).
Proof. exact (fun g B => gauss_smoothing_total g (proj1 B) (proj2 B)). Qed.
Print Assumptions smoothing_drops_negative_counts.
Theorem smoothing_rejects_lengths : forall gaussian arr E fw t, length arr <> length E \/ length arr <> length fw ->
  gauss_smoothing gaussian arr E fw t = Raise ValueError.
Proof. exact gauss_smoothing_rejects_lemma. Qed.
Print Assumptions smoothing_rejects_lengths.
(* the matrix version: along Eg every row keeps its counts, along Ex every column *)
Theorem smoothing_matrix_rows : forall gaussian, bell gaussian -> forall m E f ax t nr,
  shaped m nr (length E) -> equidistant E -> to_plot_axis ax = Ok AxEg ->
  match f with FwNum q => 0 <= q | FwArr l => length l = length E /\ forall x, In x l -> 0 <= x end -> 0 <= t ->
  (forall r x, In r (a_rows m) -> In x r -> 0 <= x) ->
  exists rows, smooth_matrix gaussian m E f ax t = Ok rows /\
    Forall2 (fun r o => exists out, o = Some out /\ length out = length E /\ (forall x, In x out -> 0 <= x) /\ qsum out = qsum r)
      (a_rows m) rows.
Proof. exact (fun g B => smooth_matrix_rows g (proj1 B) (proj2 B)). Qed.
Print Assumptions smoothing_matrix_rows.
Theorem smoothing_matrix_cols : forall gaussian, bell gaussian -> forall m E f ax t nc,
  shaped m (length E) nc -> equidistant E -> to_plot_axis ax = Ok AxEx ->
  match f with FwNum q => 0 <= q | FwArr l => length l = length E /\ forall x, In x l -> 0 <= x end -> 0 <= t ->
  (forall r x, In r (a_rows m) -> In x r -> 0 <= x) ->
  exists cols, smooth_matrix gaussian m E f ax t = Ok cols /\
    Forall2 (fun j o => exists out, o = Some out /\ length out = length E /\ (forall x, In x out -> 0 <= x) /\ qsum out = qsum (col (a_rows m) j))
      (seq 0 nc) cols.
Proof. exact (fun g B => smooth_matrix_cols g (proj1 B) (proj2 B)). Qed.
Print Assumptions smoothing_matrix_cols.

(* C45 *)
Theorem shift_whole_bins : forall counts E k, equidistant E -> length counts = length E ->
  shift counts E (qz k * width E) = Ok (moved_by k counts).
Proof. exact shift_bins. Qed.
Print Assumptions shift_whole_bins.
Theorem shift_never_gains : forall counts E s, equidistant E -> length counts = length E ->
  exists out, shift counts E s = Ok out /\ length out = length E /\
    qsum out = counts_in counts (map (fun e => e + s) E) (axis_lo E) (axis_hi E) /\
    ((forall x, In x counts -> 0 <= x) -> (forall x, In x out -> 0 <= x) /\ qsum out <= qsum counts).
Proof. exact shift_any. Qed.
Print Assumptions shift_never_gains.
Theorem shift_matrix_whole_bins : forall rows E k, equidistant E -> (forall r, In r rows -> length r = length E) ->
  shift_matrix rows E (qz k * width E) = Ok (map (moved_by k) rows).
Proof. exact shift_matrix_bins. Qed.
Print Assumptions shift_matrix_whole_bins.

(* Examples: a bell-shaped function on the rationals *)
Example lorentz (e m s : Qc) : Qc := 1 / (1 + (e - m) * (e - m)).
Example lorentz_bell : bell lorentz.
Proof.
  assert (P : forall x : Qc, 0 <= x * x).
  { intros x. destruct (qleb_spec 0 x) as [H|H]; [now apply Qcmult_nonneg|]. assert (E : x * x = (- x) * (- x)) by ring. rewrite E. apply Qcmult_nonneg; qlra. }
  assert (G : forall e m s, 0 < lorentz e m s).
  { intros. unfold lorentz. apply Qcdiv_pos; [reflexivity|]. specialize (P (e - m)). qlra. }
  split; [intros; apply Qclt_le_weak, G|intros; apply G].
Qed.
Example sm_axis : list Qc := ql [10; 20; 30; 40; 50]%Z.
Example sm_axis_ok : equidistant sm_axis.
Proof. split; [cbn; lia|]. split; [reflexivity|]. intros [|[|[|[|[|i]]]]] Hi; cbn in Hi; try lia; now apply qeqb_eq. Qed.
Example sm_run : match gauss_smoothing lorentz (ql [0; 0; 7; 0; 1]%Z) sm_axis (ql [10; 10; 10; 10; 0]%Z) (qz 3) with
  | Ok (Some out) => qeqb (qsum out) (qz 8) && qltb 0 (nth 1 out 0) && qltb (nth 1 out 0) (nth 2 out 0) = true
  | _ => False end.
Proof. vm_compute. reflexivity. Qed.
Example sm_negative : match gauss_smoothing lorentz (ql [0; -3; 7; 0; 1]%Z) sm_axis (ql [10; 10; 10; 10; 0]%Z) (qz 3) with
  | Ok (Some out) => qeqb (qsum out) (qz 8) = true | _ => False end.
Proof. vm_compute. reflexivity. Qed.
Example sh_run : match shift (ql [1; 2; 3; 4; 5]%Z) sm_axis (qz (-20)) with
  | Ok out => leqb out (ql [3; 4; 5; 0; 0]%Z) = true | _ => False end.
Proof. vm_compute. reflexivity. Qed.
