(* Interpolation of matrices (library.py 233-290). *)
From Verif Require Import PyBase VectorModel InterpModel RebinModel CutSpec InterpProofs Rebin2DProofs MatInterpModel.

(* ---------------------------------------------------------------- specification *)
(* the straight line through (x0, y0) and (x1, y1) *)
Definition line2 (x0 x1 y0 y1 e : Qc) : Qc := ((x1 - e) * y0 + (e - x0) * y1) / (x1 - x0).
(* e lies between the points i and i+1 of the axis E *)
Definition in_cell (E : list Qc) (i : nat) (e : Qc) : Prop := (S i < length E)%nat /\ vget E i <= e /\ e <= vget E (S i).
Definition outside (E : list Qc) (e : Qc) : Prop := e < vget E 0 \/ vget E (length E - 1) < e.
Definition on_or_outside (E : list Qc) (e : Qc) : Prop := e <= vget E 0 \/ vget E (length E - 1) <= e.

(* ---------------------------------------------------------------- the value of interp1d *)
Definition fval (xs ys : list Qc) (e : Qc) : Qc :=
  if qltb e (vget xs 0) then 0 else if qltb (vget xs (length xs - 1)) e then 0 else segment xs ys (inner_k xs e - 1) e.
Lemma interp_fval xs ys e : increasing xs -> length xs = length ys -> (2 <= length xs)%nat -> interp1d xs ys (FillBoth 0 0) e = Ok (fval xs ys e).
Proof. intros S L T. rewrite interp_unfold by assumption. unfold fval. now repeat destruct (qltb _ _). Qed.
Lemma inner_k_range xs e : (2 <= length xs)%nat -> (1 <= inner_k xs e <= length xs - 1)%nat.
Proof. intros T. unfold inner_k. lia. Qed.
Lemma incr xs i j : increasing xs -> (i < j < length xs)%nat -> vget xs i < vget xs j.
Proof. intros X I. exact (incr_nth xs xs X eq_refl ltac:(lia) i j I). Qed.
Lemma seg_line xs ys i e : increasing xs -> (S i < length xs)%nat -> segment xs ys i e = line2 (vget xs i) (vget xs (S i)) (vget ys i) (vget ys (S i)) e.
Proof. intros S I. unfold segment, line2. pose proof (incr xs i (Datatypes.S i) S ltac:(lia)) as L. field. intros Z. qlra. Qed.
Lemma fval_cell xs ys e i : increasing xs -> length xs = length ys -> (2 <= length xs)%nat -> in_cell xs i e -> fval xs ys e = line2 (vget xs i) (vget xs (S i)) (vget ys i) (vget ys (S i)) e.
Proof.
  intros S L T (I & A & B). pose proof (interp_between xs ys (FillBoth 0 0) S L T e i I A B) as Q. rewrite interp_fval in Q by assumption.
  assert (fval xs ys e = segment xs ys i e) as -> by congruence. now apply seg_line.
Qed.
Lemma fval_out xs ys e : increasing xs -> outside xs e -> fval xs ys e = 0.
Proof.
  intros S [O|O]; unfold fval.
  - destruct (qltb_spec e (vget xs 0)) as [|G]; [reflexivity|exfalso; qlra].
  - destruct (qltb_spec e (vget xs 0)); [reflexivity|]. destruct (qltb_spec (vget xs (length xs - 1)) e) as [|G]; [reflexivity|exfalso; qlra].
Qed.
Lemma fval_node xs ys i : increasing xs -> length xs = length ys -> (2 <= length xs)%nat -> (i < length xs)%nat -> fval xs ys (vget xs i) = vget ys i.
Proof. intros S L T I. pose proof (interp_node xs ys (FillBoth 0 0) S L T i I) as Q. rewrite interp_fval in Q by assumption. congruence. Qed.
Lemma vget_map {A} (f : A -> Qc) l i d : (i < length l)%nat -> vget (map f l) i = f (nth i l d).
Proof. intros I. unfold vget. rewrite (nth_indep _ 0 (f d)) by (now rewrite map_length). apply map_nth. Qed.

Section M.
Variables (m : list (list Qc)) (nc : nat).
Hypothesis RM : rect m (length m) nc.
Lemma row_len i : (i < length m)%nat -> length (nth i m []) = nc.
Proof. intros I. apply RM. now apply nth_In. Qed.
Lemma col_len j : length (col m j) = length m. Proof. apply map_length. Qed.
Lemma col_get i j : (i < length m)%nat -> vget (col m j) i = mget m i j.
Proof. intros I. unfold col. now rewrite (vget_map _ _ _ []). Qed.

Lemma axis1_eq E Eo : increasing E -> (2 <= length E)%nat -> nc = length E ->
  interpolate_matrix_1D m nc E Eo 1 = Ok (map (fun r => map (fval E r) Eo) m).
Proof.
  intros S T L. unfold interpolate_matrix_1D. cbn [Z.eqb negb orb]. rewrite L, Nat.eqb_refl. cbn [negb].
  change (Pos.eqb 1 1) with true. cbn [orb negb].
  apply rmapm_ok. intros r R. apply rmapm_ok. intros e _. apply interp_fval; [assumption| |assumption]. rewrite <- L. symmetry. now apply RM.
Qed.
Lemma axis0_eq E Eo : increasing E -> (2 <= length E)%nat -> length m = length E ->
  interpolate_matrix_1D m nc E Eo 0 = Ok (map (fun e => map (fun j => fval E (col m j) e) (seq 0 nc)) Eo).
Proof.
  intros S T L. unfold interpolate_matrix_1D. cbn [Z.eqb negb orb]. rewrite L, Nat.eqb_refl. cbn [negb].
  apply rmapm_ok. intros e _. apply rmapm_ok. intros j _. apply interp_fval; [assumption| |assumption]. now rewrite col_len.
Qed.
End M.

(* The value that both orders of interpolation have in common. *)
Definition bival (E0 E1 : list Qc) (m : list (list Qc)) (e0 e1 : Qc) : Qc := fval E0 (map (fun r => fval E1 r e1) m) e0.
Lemma fval_zeros xs ys e : (forall i, vget ys i = 0) -> fval xs ys e = 0.
Proof. intros Z. unfold fval, segment. destruct (qltb _ _); [reflexivity|]. destruct (qltb _ _); [reflexivity|]. rewrite !Z. unfold Qcdiv. ring. Qed.
Lemma in_or_out xs e : (2 <= length xs)%nat -> outside xs e \/ exists i, in_cell xs i e.
Proof.
  intros T. destruct (qltb_spec e (vget xs 0)) as [|A]; [left; now left|]. destruct (qltb_spec (vget xs (length xs - 1)) e) as [|B]; [left; now right|].
  right. destruct (find_segment xs xs eq_refl T e) as (i & I); [qlra|qlra|]. exists i. exact I.
Qed.
Lemma vget_map0 {A} (f : A -> Qc) l i : (forall x, In x l -> f x = 0) -> vget (map f l) i = 0.
Proof.
  intros Z. unfold vget. destruct (Nat.lt_ge_cases i (length l)) as [L|L].
  - destruct l as [|d l']; [cbn in L; lia|]. rewrite (nth_indep _ 0 (f d)) by (now rewrite map_length). rewrite map_nth. apply Z. now apply nth_In.
  - apply nth_overflow. now rewrite map_length.
Qed.

(* the value inside a cell: bilinear in the four corners *)
Definition bilinear (E0 E1 : list Qc) (m : list (list Qc)) (i j : nat) (e0 e1 : Qc) : Qc :=
  line2 (vget E0 i) (vget E0 (S i))
    (line2 (vget E1 j) (vget E1 (S j)) (mget m i j) (mget m i (S j)) e1)
    (line2 (vget E1 j) (vget E1 (S j)) (mget m (S i) j) (mget m (S i) (S j)) e1) e0.
Lemma bival_cell E0 E1 m nc e0 e1 i j : rect m (length m) nc -> increasing E0 -> increasing E1 -> (2 <= length E0)%nat -> (2 <= length E1)%nat ->
  length m = length E0 -> nc = length E1 -> in_cell E0 i e0 -> in_cell E1 j e1 -> bival E0 E1 m e0 e1 = bilinear E0 E1 m i j e0 e1.
Proof.
  intros R S0 S1 T0 T1 L0 L1 C0 C1. unfold bival, bilinear. pose proof C0 as (I & _). rewrite (fval_cell _ _ _ i) by (try assumption; rewrite map_length; lia).
  rewrite !(vget_map _ _ _ []) by lia. rewrite !(fval_cell E1 _ e1 j) by (try assumption; rewrite (row_len m nc R); lia). reflexivity.
Qed.
Lemma bival_out E0 E1 m e0 e1 : increasing E0 -> increasing E1 -> outside E0 e0 \/ outside E1 e1 -> bival E0 E1 m e0 e1 = 0.
Proof.
  intros S0 S1 [O|O]; unfold bival; [now apply fval_out|]. apply fval_zeros. intros i. apply vget_map0. intros r _. now apply fval_out.
Qed.
Lemma bival_sym E0 E1 m nc e0 e1 : rect m (length m) nc -> increasing E0 -> increasing E1 -> (2 <= length E0)%nat -> (2 <= length E1)%nat ->
  length m = length E0 -> nc = length E1 -> fval E1 (map (fun j => fval E0 (col m j) e0) (seq 0 nc)) e1 = bival E0 E1 m e0 e1.
Proof.
  intros R S0 S1 T0 T1 L0 L1. destruct (in_or_out E0 e0 T0) as [O|[i C0]].
  { rewrite bival_out by tauto. apply fval_zeros. intros i. apply vget_map0. intros j _. now apply fval_out. }
  destruct (in_or_out E1 e1 T1) as [O|[j C1]]; [rewrite bival_out by tauto; now apply fval_out|].
  rewrite (bival_cell E0 E1 m nc e0 e1 i j) by assumption. pose proof C0 as (I & _). pose proof C1 as (J & _).
  rewrite (fval_cell E1 _ e1 j) by (try assumption; rewrite map_length, seq_length; lia). rewrite !(vget_map _ _ _ O), !seq_nth by (rewrite ?seq_length; lia). cbn [Nat.add].
  rewrite !(fval_cell E0 _ e0 i) by (try assumption; rewrite col_len; lia). rewrite !col_get by lia. unfold bilinear, line2.
  pose proof (incr E0 i (S i) S0 ltac:(lia)). pose proof (incr E1 j (S j) S1 ltac:(lia)). field. split; intros Z; qlra.
Qed.

(* ---------------------------------------------------------------- theorems: one axis *)
(* On its own energies a matrix is reproduced. *)
Theorem interp1_own_axis m nc E axis : rect m (length m) nc -> increasing E -> (2 <= length E)%nat -> axis = 0%Z \/ axis = 1%Z ->
  length E = (if (axis =? 0)%Z then length m else nc) -> interpolate_matrix_1D m nc E E axis = Ok m.
Proof.
  intros R S T A L. destruct A as [-> | ->]; cbn in L.
  - rewrite axis0_eq by (assumption || lia). f_equal. apply nth_ext with (d := map (fun j => fval E (col m j) 0) (seq 0 nc)) (d' := []); [rewrite map_length; lia|]. intros i I. rewrite map_length in I. rewrite (map_nth (fun e => map (fun j => fval E (col m j) e) (seq 0 nc)) E 0).
    apply nth_ext with (d := 0) (d' := 0); [rewrite map_length, seq_length, (row_len m nc R); lia|]. intros j J. rewrite map_length, seq_length in J. fold (vget E i).
    transitivity (vget (map (fun j => fval E (col m j) (vget E i)) (seq 0 nc)) j); [reflexivity|]. rewrite (vget_map _ _ _ O) by (now rewrite seq_length). rewrite seq_nth by assumption. cbn [Nat.add].
    rewrite fval_node by (try assumption; rewrite col_len; lia). apply col_get. lia.
  - rewrite axis1_eq by (assumption || lia). f_equal. rewrite <- (map_id m) at 2. apply map_ext_in. intros r Hr. apply (proj2 R) in Hr.
    apply nth_ext with (d := fval E r 0) (d' := 0); [rewrite map_length; lia|]. intros j J. rewrite map_length in J. rewrite map_nth. apply (fval_node E r j); try assumption; lia.
Qed.
Print Assumptions interp1_own_axis.

(* The two axes can be interpolated in either order, and the value of every bin is the bilinear
   one; where either energy is outside the axis it is zero. *)
Theorem interp1_commute m nc E0 E1 O0 O1 : rect m (length m) nc -> increasing E0 -> increasing E1 -> (2 <= length E0)%nat -> (2 <= length E1)%nat ->
  length m = length E0 -> nc = length E1 ->
  exists a b r, interpolate_matrix_1D m nc E1 O1 1 = Ok a /\ interpolate_matrix_1D a (length O1) E0 O0 0 = Ok r /\
                interpolate_matrix_1D m nc E0 O0 0 = Ok b /\ interpolate_matrix_1D b nc E1 O1 1 = Ok r /\ rect r (length O0) (length O1) /\
  forall k l, (k < length O0)%nat -> (l < length O1)%nat ->
    (forall i j, in_cell E0 i (vget O0 k) -> in_cell E1 j (vget O1 l) -> mget r k l = bilinear E0 E1 m i j (vget O0 k) (vget O1 l)) /\
    (outside E0 (vget O0 k) \/ outside E1 (vget O1 l) -> mget r k l = 0).
Proof.
  intros R S0 S1 T0 T1 L0 L1. set (a := map (fun r => map (fval E1 r) O1) m). set (b := map (fun e => map (fun j => fval E0 (col m j) e) (seq 0 nc)) O0).
  set (r := map (fun e0 => map (fun e1 => bival E0 E1 m e0 e1) O1) O0). exists a, b, r.
  assert (RA : rect a (length a) (length O1)). { split; [reflexivity|]. intros x X. apply in_map_iff in X as (y & <- & _). apply map_length. }
  assert (RB : rect b (length b) nc). { split; [reflexivity|]. intros x X. apply in_map_iff in X as (y & <- & _). now rewrite map_length, seq_length. }
  split; [now apply axis1_eq|]. split.
  { rewrite axis0_eq by (try assumption; unfold a; rewrite map_length; lia). f_equal. unfold r. apply map_ext. intros e0.
    apply nth_ext with (d := 0) (d' := 0); [now rewrite !map_length, seq_length|]. intros l K. rewrite map_length, seq_length in K.
    transitivity (vget (map (fun j => fval E0 (col a j) e0) (seq 0 (length O1))) l); [reflexivity|]. rewrite (vget_map _ _ _ O) by (now rewrite seq_length). rewrite seq_nth by assumption. cbn [Nat.add].
    transitivity (vget (map (fun e1 => bival E0 E1 m e0 e1) O1) l); [|reflexivity]. rewrite (vget_map _ _ _ 0) by assumption. unfold bival. f_equal. unfold col, a. rewrite map_map. apply map_ext. intros x. now rewrite (vget_map _ _ _ 0). }
  split; [now apply axis0_eq|]. split.
  { rewrite axis1_eq by assumption. f_equal. unfold b, r. rewrite map_map. apply map_ext. intros e0. apply map_ext. intros e1. now apply bival_sym. }
  assert (G : forall k l, (k < length O0)%nat -> (l < length O1)%nat -> mget r k l = bival E0 E1 m (vget O0 k) (vget O1 l)).
  { intros k l K K'. unfold mget, r. rewrite (nth_indep _ [] (map (fun e1 => bival E0 E1 m 0 e1) O1)) by (now rewrite map_length). rewrite (map_nth (fun e0 => map (fun e1 => bival E0 E1 m e0 e1) O1) O0 0). now rewrite (vget_map _ _ _ 0). }
  split. { split; [apply map_length|]. intros x X. apply in_map_iff in X as (y & <- & _). apply map_length. }
  intros k l K K'. rewrite G by assumption. split; [intros i j C0 C1; now apply (bival_cell E0 E1 m nc)|]. intros Hout. now apply bival_out.
Qed.
Print Assumptions interp1_commute.

(* ---------------------------------------------------------------- theorems: two axes *)
Lemma diffs_sorted (p : Qc -> Qc -> bool) (P : Qc -> Qc -> Prop) l : (forall x y, p x y = true <-> P x y) -> diffs p l = true <-> Sorted P l.
Proof.
  intros H. induction l as [|x [|y l] IH]; [split; [constructor|reflexivity]|split; [repeat constructor|reflexivity]|].
  change (diffs p (x :: y :: l)) with (p x y && diffs p (y :: l)). rewrite Bool.andb_true_iff, IH, H. split.
  - intros [A B]. constructor; [exact B|now constructor].
  - intros S. inversion S as [|? ? S1 S2]; subst. inversion S2; subst. split; assumption.
Qed.
Lemma diffs_increasing l : diffs qltb l = true <-> increasing l.
Proof.
  rewrite (diffs_sorted qltb Qclt). 2:{ intros x y. destruct (qltb_spec x y); split; intros; try easy. exfalso. qlra. }
  split; [|apply StronglySorted_Sorted]. apply Sorted_StronglySorted. intros a b c A B. qlra.
Qed.
(* in order, not necessarily strictly *)
Definition in_order (l : list Qc) : Prop := StronglySorted Qcle l.
Lemma diffs_order l : diffs qleb l = true <-> in_order l.
Proof.
  rewrite (diffs_sorted qleb Qcle). 2:{ intros x y. destruct (qleb_spec x y); split; intros; try easy. exfalso. qlra. }
  split; [|apply StronglySorted_Sorted]. apply Sorted_StronglySorted. intros a b c A B. qlra.
Qed.
Lemma masked_spec E e : masked E e = true <-> on_or_outside E e.
Proof. unfold masked, on_or_outside. rewrite Bool.orb_true_iff. destruct (qleb_spec e (vget E 0)), (qleb_spec (vget E (length E - 1)) e); split; intros [X|X]; try discriminate X; try (left; assumption); try (right; assumption); try (left; reflexivity); try (right; reflexivity); exfalso; qlra. Qed.

Definition fits (m : list (list Qc)) (nc : nat) (E0 E1 : list Qc) : Prop :=
  increasing E0 /\ increasing E1 /\ (2 <= length E0)%nat /\ (2 <= length E1)%nat /\ length m = length E0 /\ nc = length E1.
Lemma spline_value E0 E1 m nc e0 e1 : rect m (length m) nc -> fits m nc E0 E1 ->
  exists v, spline11 E0 E1 m e0 e1 = Ok v /\ (~ on_or_outside E0 e0 -> ~ on_or_outside E1 e1 -> v = bival E0 E1 m e0 e1).
Proof.
  intros R (S0 & S1 & T0 & T1 & L0 & L1). unfold spline11.
  rewrite (rmapm_ok _ (fun r => segment E1 r (inner_k E1 (clamp E1 e1) - 1) (clamp E1 e1))).
  2:{ intros r Hr. apply (proj2 R) in Hr. rewrite interp_unfold by (assumption || lia). reflexivity. }
  cbn [rbind]. rewrite interp_unfold by (try assumption; rewrite map_length; lia). eexists. split; [reflexivity|].
  intros N0 N1. unfold on_or_outside in *.
  assert (F : forall E e ys, ~ (e <= vget E 0 \/ vget E (length E - 1) <= e) -> clamp E e = e /\ fval E ys e = segment E ys (inner_k E e - 1) e).
  { intros E e ys N. unfold clamp, fval. destruct (qltb_spec e (vget E 0)) as [A|A]; [exfalso; apply N; left; qlra|]. destruct (qltb_spec (vget E (length E - 1)) e) as [B|B]; [exfalso; apply N; right; qlra|]. now split. }
  unfold bival. rewrite (proj2 (F E0 e0 (map (fun r => fval E1 r e1) m) N0)), (proj1 (F E0 e0 [] N0)), (proj1 (F E1 e1 [] N1)).
  assert (Q : map (fun r => segment E1 r (inner_k E1 e1 - 1) e1) m = map (fun r => fval E1 r e1) m); [|now rewrite Q].
  apply map_ext. intros r. symmetry. apply (F E1 e1 r N1).
Qed.

(* Between the first and the last energy of both axes the result is bilinear; on the outermost
   energies themselves and beyond them it is zero. *)
Theorem interp2_value m nc E0 E1 O0 O1 : rect m (length m) nc -> fits m nc E0 E1 -> in_order O0 -> in_order O1 ->
  exists r, interpolate_matrix_2D m nc E0 E1 O0 O1 = Ok r /\ rect r (length O0) (length O1) /\
  forall k l, (k < length O0)%nat -> (l < length O1)%nat ->
    (on_or_outside E0 (vget O0 k) \/ on_or_outside E1 (vget O1 l) -> mget r k l = 0) /\
    (~ on_or_outside E0 (vget O0 k) -> ~ on_or_outside E1 (vget O1 l) ->
     forall i j, in_cell E0 i (vget O0 k) -> in_cell E1 j (vget O1 l) -> mget r k l = bilinear E0 E1 m i j (vget O0 k) (vget O1 l)).
Proof.
  intros R F I0 I1. pose proof F as (S0 & S1 & T0 & T1 & L0 & L1).
  set (val := fun e0 e1 => if masked E0 e0 || masked E1 e1 then 0 else bival E0 E1 m e0 e1).
  exists (map (fun e0 => map (val e0) O1) O0). split.
  { unfold interpolate_matrix_2D. rewrite <- L0, <- L1, !Nat.eqb_refl. cbn [andb negb]. rewrite (proj2 (diffs_increasing E0) S0), (proj2 (diffs_increasing E1) S1), (proj2 (diffs_order O0) I0), (proj2 (diffs_order O1) I1).
    rewrite (proj2 (Nat.leb_le 2 (length m))), (proj2 (Nat.leb_le 2 nc)) by lia. cbn [andb negb]. apply rmapm_ok. intros e0 _. apply rmapm_ok. intros e1 _.
    destruct (spline_value E0 E1 m nc e0 e1 R F) as (v & -> & V). cbn [rbind]. unfold val. f_equal. destruct (masked E0 e0) eqn:M0; [reflexivity|]. destruct (masked E1 e1) eqn:M1; [reflexivity|]. cbn [orb].
    apply V; rewrite <- masked_spec; congruence. }
  split. { split; [apply map_length|]. intros x X. apply in_map_iff in X as (y & <- & _). apply map_length. }
  intros k l K K'. assert (G : mget (map (fun e0 => map (val e0) O1) O0) k l = val (vget O0 k) (vget O1 l)).
  { unfold mget. rewrite (nth_indep _ [] (map (val 0) O1)) by (now rewrite map_length). rewrite (map_nth (fun e0 => map (val e0) O1) O0 0). now rewrite (vget_map _ _ _ 0). }
  rewrite G. unfold val. split.
  - intros [M|M]; rewrite <- masked_spec in M; rewrite M; [reflexivity|]. now rewrite Bool.orb_true_r.
  - intros N0 N1 i j C0 C1. destruct (masked E0 (vget O0 k)) eqn:M0; [now apply masked_spec in M0|]. destruct (masked E1 (vget O1 l)) eqn:M1; [now apply masked_spec in M1|]. cbn [orb]. now apply (bival_cell E0 E1 m nc).
Qed.
Print Assumptions interp2_value.

(* On the matrix's own energies the inner bins are kept and the border is lost. *)
Theorem interp2_own_axes_partial m nc E0 E1 : rect m (length m) nc -> fits m nc E0 E1 ->
  exists r, interpolate_matrix_2D m nc E0 E1 E0 E1 = Ok r /\ rect r (length m) nc /\
  forall k l, (k < length m)%nat -> (l < nc)%nat ->
    mget r k l = if ((0 <? k) && (S k <? length m) && (0 <? l) && (S l <? nc))%nat then mget m k l else 0.
Proof.
  intros R F. pose proof F as (S0 & S1 & T0 & T1 & L0 & L1).
  assert (O : forall E, increasing E -> in_order E). { intros E S. induction S as [|x E S IH A]; constructor; [exact IH|]. eapply Forall_impl; [|exact A]. cbn. intros y Y. qlra. }
  destruct (interp2_value m nc E0 E1 E0 E1 R F (O _ S0) (O _ S1)) as (r & Q & RR & V). exists r. rewrite L0, L1. split; [rewrite <- L1; exact Q|]. split; [exact RR|].
  intros k l K K'. destruct (V k l K K') as [Z B]. clear V.
  assert (BO : forall E i, increasing E -> (2 <= length E)%nat -> (i < length E)%nat -> if ((0 <? i) && (S i <? length E))%nat then ~ on_or_outside E (vget E i) /\ in_cell E i (vget E i) else on_or_outside E (vget E i)).
  { intros E i S T I. destruct (Nat.ltb_spec 0 i) as [A|A]; cbn [andb].
    - destruct (Nat.ltb_spec (Datatypes.S i) (length E)) as [C|C].
      + pose proof (incr E 0 i S ltac:(lia)) as X. pose proof (incr E i (length E - 1) S ltac:(lia)) as Y. pose proof (incr E i (Datatypes.S i) S ltac:(lia)) as W. split; [intros [P|P]; qlra|]. split; [lia|]. split; qlra.
      + right. replace (length E - 1)%nat with i by lia. apply Qcle_refl.
    - left. replace i with 0%nat by lia. apply Qcle_refl. }
  pose proof (BO E0 k S0 T0 K) as B0. pose proof (BO E1 l S1 T1 K') as B1.
  destruct ((0 <? k)%nat && (S k <? length E0)%nat) eqn:Q0; cbn [andb]; [|apply Z; now left].
  destruct ((0 <? l)%nat && (S l <? length E1)%nat) eqn:Q1; [|apply Z; now right].
  destruct B0 as [N0 C0], B1 as [N1 C1]. rewrite (B N0 N1 k l C0 C1). unfold bilinear, line2.
  pose proof (incr E0 k (S k) S0 ltac:(destruct C0; lia)). pose proof (incr E1 l (S l) S1 ltac:(destruct C1; lia)). field. split; intros X; qlra.
Qed.
Print Assumptions interp2_own_axes_partial.

Definition border_m : list (list Qc) := [[1; qz 2]; [qz 3; qz 4]].
(* A matrix of two rows and two columns vanishes altogether. *)
Theorem interp2_own_axes_refuted : exists m nc E0 E1, rect m (length m) nc /\ fits m nc E0 E1 /\ msum m <> 0 /\
  interpolate_matrix_2D m nc E0 E1 E0 E1 = Ok (mtab (length m) nc (fun _ _ => 0)).
Proof.
  exists border_m, 2%nat, [qz 10; qz 20], [qz 10; qz 20]. split; [split; [reflexivity|]; intros r [<-|[<-|[]]]; reflexivity|].
  split. { repeat split; try (cbn; lia); repeat constructor. }
  split; [discriminate|reflexivity].
Qed.
Print Assumptions interp2_own_axes_refuted.

(* ---------------------------------------------------------------- the errors *)
Theorem interp_errors m nc E E0 E1 O0 O1 axis : rect m (length m) nc ->
  (axis <> 0%Z -> axis <> 1%Z -> interpolate_matrix_1D m nc E O0 axis = Raise IndexError) /\
  (length m <> length E -> interpolate_matrix_1D m nc E O0 0 = Raise RuntimeError) /\
  (nc <> length E -> interpolate_matrix_1D m nc E O0 1 = Raise RuntimeError) /\
  (length m <> length E0 \/ nc <> length E1 -> interpolate_matrix_2D m nc E0 E1 O0 O1 = Raise RuntimeError) /\
  (length m = length E0 -> nc = length E1 ->
   ~ (increasing E0 /\ increasing E1 /\ (2 <= length E0)%nat /\ (2 <= length E1)%nat /\ in_order O0 /\ in_order O1) -> interpolate_matrix_2D m nc E0 E1 O0 O1 = Raise ValueError).
Proof.
  intros R. repeat split.
  - intros A B. unfold interpolate_matrix_1D. destruct (Z.eqb_spec axis 0); [contradiction|]. destruct (Z.eqb_spec axis 1); [contradiction|]. reflexivity.
  - intros L. unfold interpolate_matrix_1D. cbn. destruct (Nat.eqb_spec (length m) (length E)); [contradiction|reflexivity].
  - intros L. unfold interpolate_matrix_1D. cbn. destruct (Nat.eqb_spec nc (length E)); [contradiction|reflexivity].
  - intros L. unfold interpolate_matrix_2D. destruct (Nat.eqb_spec (length m) (length E0)), (Nat.eqb_spec nc (length E1)); try reflexivity. destruct L; contradiction.
  - intros L0 L1 N. unfold interpolate_matrix_2D. rewrite L0, L1, !Nat.eqb_refl. cbn [andb negb].
    rewrite <- !diffs_increasing, <- !diffs_order in N. destruct (diffs qltb E0), (diffs qltb E1), (Nat.leb_spec 2 (length E0)), (Nat.leb_spec 2 (length E1)); try reflexivity. cbn [andb negb].
    destruct (diffs qleb O0), (diffs qleb O1); try reflexivity. exfalso. apply N. now repeat split.
Qed.
Print Assumptions interp_errors.

(* examples: three by three, between the points, on them and outside *)
Definition ex3 : list (list Qc) := [[1; qz 2; qz 3]; [qz 4; qz 5; qz 6]; [qz 7; qz 8; qz 9]].
Definition ex_ok (r : result (list (list Qc))) (t : list (list Qc)) : bool :=
  match r with Ok m => (length m =? length t)%nat && forallb (fun p => (length (fst p) =? length (snd p))%nat && forallb (fun q => qeqb (fst q) (snd q)) (combine (fst p) (snd p))) (combine m t) | Raise _ => false end.
Example interp1_ex : ex_ok (interpolate_matrix_1D ex3 3 [0; qz 2; qz 4] [qz 4; 1; qz 5] 1) [[qz 3; qz 3 / qz 2; 0]; [qz 6; qz 9 / qz 2; 0]; [qz 9; qz 15 / qz 2; 0]] = true.
Proof. vm_compute. reflexivity. Qed.
Example interp2_ex : ex_ok (interpolate_matrix_2D ex3 3 [0; qz 2; qz 4] [0; qz 2; qz 4] [0; 1; qz 2; qz 4] [1; qz 2; qz 3]) [[0; 0; 0]; [qz 3; qz 7 / qz 2; qz 4]; [qz 9 / qz 2; qz 5; qz 11 / qz 2]; [0; 0; 0]] = true.
Proof. vm_compute. reflexivity. Qed.
Example fits_ex : rect ex3 (length ex3) 3 /\ fits ex3 3 [0; qz 2; qz 4] [0; qz 2; qz 4].
Proof. split; [split; [reflexivity|]; intros r [<-|[<-|[<-|[]]]]; reflexivity|]. repeat split; try (cbn; lia); repeat constructor. Qed.
