From Coq Require Import String. Import Coq.Init.Datatypes.
From Verif Require Import PyBase Axis MatrixModel MatrixSpec VectorModel VectorSpec ArithModel ArithSpec
  CutProofs VectorProofs VectorOpsProofs.

Lemma aop_fun_spec o x y : op_spec o x y (aop_fun o x y).
Proof.
  destruct o; cbn; try reflexivity.
  - exists (x - y). split; [reflexivity|ring].
  - exists (y - x). split; [reflexivity|ring].
  - destruct (qeqb_spec y 0) as [H|H]; [now left|right]. split; [exact H|].
    exists (x / y). split; [reflexivity|]. field. exact H.
  - destruct (qeqb_spec x 0) as [H|H]; [now left|right]. split; [exact H|].
    exists (y / x). split; [reflexivity|]. field. exact H.
Qed.
Lemma isclose_iff a b : isclose a b = true <-> close a b.
Proof. apply qleb_le. Qed.
Lemma allclose_iff l m : allclose l m = true <-> close_axes l m.
Proof.
  revert m. induction l as [|x l IH]; intros [|y m]; cbn; split; intros H; try easy; try constructor; try inversion H; subst.
  - apply andb_true_iff in H as [H _]. now apply isclose_iff.
  - apply andb_true_iff in H as [_ H]. now apply IH.
  - apply andb_true_iff. split; [now apply isclose_iff|now apply IH].
Qed.
Lemma pair_eqb_iff p q : pair_eqb p q = true <-> p = q.
Proof.
  destruct p as [a b], q as [c d]. unfold pair_eqb. cbn. rewrite andb_true_iff, !Nat.eqb_eq.
  split; [intros [-> ->]; reflexivity|intros [= -> ->]; auto].
Qed.
Lemma map2_nth {A B C} (f : A -> B -> C) l m i da db dc : length l = length m -> (i < length l)%nat ->
  nth i (map2 f l m) dc = f (nth i l da) (nth i m db).
Proof.
  intros L H. unfold map2. rewrite (nth_indep _ dc (f da db)) by (rewrite map_length, combine_length; lia).
  rewrite (map_nth (fun p => f (fst p) (snd p)) _ (da, db)). now rewrite combine_nth.
Qed.

Lemma m_equal_binning_iff m w :
  (same_grid m w /\ m_equal_binning m w = Ok tt) \/ (~ same_grid m w /\ m_equal_binning m w = Raise ValueError).
Proof.
  unfold m_equal_binning, same_grid.
  destruct (pair_eqb (shape (values m)) (shape (values w))) eqn:E1; cbn.
  - apply pair_eqb_iff in E1.
    destruct (allclose (Ex m) (Ex w)) eqn:E2; cbn.
    + apply allclose_iff in E2. destruct (allclose (Eg m) (Eg w)) eqn:E3.
      * apply allclose_iff in E3. left. auto.
      * right. split; [|reflexivity]. intros (_ & _ & H). apply allclose_iff in H. congruence.
    + right. split; [|reflexivity]. intros (_ & H & _). apply allclose_iff in H. congruence.
  - right. split; [|reflexivity]. intros (H & _). apply pair_eqb_iff in H. congruence.
Qed.
Lemma m_arith_obj_lemma o m w : consistent m -> consistent w ->
  (same_grid m w -> exists r, m_arith o m (OpObj w) = Ok r /\
     x_Eg r = Eg m /\ x_Ex r = Ex m /\ x_std r = std m /\ x_state r = state m /\
     length (x_values r) = length (Ex m) /\
     forall i, (i < length (Ex m))%nat ->
       length (nth i (x_values r) []) = length (Eg m) /\
       forall j, (j < length (Eg m))%nat ->
         op_spec o (aget (values m) i j) (aget (values w) i j) (oget (nth i (x_values r) []) j)) /\
  (~ same_grid m w -> m_arith o m (OpObj w) = Raise ValueError).
Proof.
  intros [(C1 & C2 & C3) _] [(D1 & D2 & D3) _]. unfold m_arith.
  destruct (m_equal_binning_iff m w) as [[G ->]|[G ->]]; split; intros G'; try contradiction; [|reflexivity].
  cbn [rbind]. destruct G as (Gs & _). unfold shape, a_nr in Gs. injection Gs as G1 G2.
  eexists. split; [reflexivity|]. cbn. do 4 (split; [reflexivity|]).
  unfold zip2. assert (L : length (a_rows (values m)) = length (a_rows (values w))) by congruence.
  split; [now rewrite map2_length|]. intros i Hi.
  rewrite (map2_nth _ _ _ _ [] []) by (congruence || lia).
  assert (L1 : length (nth i (a_rows (values m)) []) = length (Eg m)) by (apply C3, nth_In; lia).
  assert (L2 : length (nth i (a_rows (values w)) []) = length (Eg m)).
  { transitivity (length (Eg w)); [apply D3, nth_In; lia|congruence]. }
  split; [rewrite map2_length; congruence|]. intros j Hj. unfold oget.
  rewrite (map2_nth _ _ _ _ 0 0) by (congruence || lia). apply aop_fun_spec.
Qed.
Lemma m_arith_num_lemma o m q : consistent m -> exists r, m_arith o m (OpNum q) = Ok r /\
     x_Eg r = Eg m /\ x_Ex r = Ex m /\ x_std r = std m /\ x_state r = state m /\
     length (x_values r) = length (Ex m) /\
     forall i, (i < length (Ex m))%nat ->
       length (nth i (x_values r) []) = length (Eg m) /\
       forall j, (j < length (Eg m))%nat ->
         op_spec o (aget (values m) i j) q (oget (nth i (x_values r) []) j).
Proof.
  intros [(C1 & C2 & C3) _]. eexists. split; [reflexivity|]. cbn. do 4 (split; [reflexivity|]).
  split; [now rewrite map_length|]. intros i Hi. rewrite (map_nth_in _ _ _ []) by lia.
  assert (L1 : length (nth i (a_rows (values m)) []) = length (Eg m)) by (apply C3, nth_In; lia).
  split; [now rewrite map_length|]. intros j Hj. unfold oget. rewrite (map_nth_in _ _ _ 0) by lia. apply aop_fun_spec.
Qed.
Lemma m_arith_other o m : m_arith o m OpOther = Raise TypeError.
Proof. reflexivity. Qed.

Lemma v_equal_binning_iff v w :
  (v_same_grid v w /\ v_equal_binning v w = Ok tt) \/ (~ v_same_grid v w /\ v_equal_binning v w = Raise ValueError).
Proof.
  unfold v_equal_binning, v_same_grid. destruct (Nat.eqb_spec (length (v_values v)) (length (v_values w))) as [E|E]; cbn.
  - destruct (allclose (v_E v) (v_E w)) eqn:E2.
    + apply allclose_iff in E2. auto.
    + right. split; [|reflexivity]. intros [_ H]. apply allclose_iff in H. congruence.
  - right. split; [|reflexivity]. tauto.
Qed.
Lemma v_arith_obj_lemma o v w :
  (v_same_grid v w -> exists r, v_arith o v (OpObj w) = Ok r /\
     xv_E r = v_E v /\ xv_std r = v_std v /\ xv_units r = v_units v /\
     length (xv_values r) = length (v_values v) /\
     forall i, (i < length (v_values v))%nat ->
       op_spec o (vget (v_values v) i) (vget (v_values w) i) (oget (xv_values r) i)) /\
  (~ v_same_grid v w -> v_arith o v (OpObj w) = Raise ValueError).
Proof.
  unfold v_arith. destruct (v_equal_binning_iff v w) as [[G ->]|[G ->]]; split; intros G'; try contradiction; [|reflexivity].
  cbn [rbind]. destruct G as [G _]. eexists. split; [reflexivity|]. cbn. do 3 (split; [reflexivity|]).
  split; [now rewrite map2_length|]. intros i Hi. unfold oget. rewrite (map2_nth _ _ _ _ 0 0) by assumption. apply aop_fun_spec.
Qed.
Lemma v_arith_num_lemma o v q : exists r, v_arith o v (OpNum q) = Ok r /\
     xv_E r = v_E v /\ xv_std r = v_std v /\ xv_units r = v_units v /\
     length (xv_values r) = length (v_values v) /\
     forall i, (i < length (v_values v))%nat -> op_spec o (vget (v_values v) i) q (oget (xv_values r) i).
Proof.
  eexists. split; [reflexivity|]. cbn. do 3 (split; [reflexivity|]).
  split; [now rewrite map_length|]. intros i Hi. unfold oget. rewrite (map_nth_in _ _ _ 0) by lia. apply aop_fun_spec.
Qed.

(* --- matrix product --- *)
Lemma dot_sumn l m : length l = length m -> dot l m = sumn (length l) (fun k => vget l k * vget m k).
Proof.
  intros L. unfold dot. rewrite qsum_nth, map2_length by assumption. apply sumn_ext. intros i Hi.
  unfold vget. now rewrite (map2_nth _ _ _ _ 0 0).
Qed.
Lemma matmul_lemma m w : consistent m -> consistent w ->
  length (Eg m) = length (Ex m) -> close_axes (Eg m) (Eg w) -> length (Ex w) = length (Eg m) ->
  exists r, m_matmul m w = Ok r /\ consistent r /\ Eg r = Eg m /\ Ex r = Ex m /\
    forall i j, (i < length (Ex m))%nat -> (j < length (Eg m))%nat ->
      aget (values r) i j = sumn (length (Eg m)) (fun k => aget (values m) i k * aget (values w) k j).
Proof.
  intros [(C1 & C2 & C3) C4] [(D1 & D2 & D3) _] Sq Ax Dim. unfold m_matmul.
  rewrite (proj2 (Nat.eqb_eq _ _) Sq). cbn [negb]. unfold bcast_allclose.
  assert (LE : length (Eg m) = length (Eg w)) by (clear -Ax; induction Ax; cbn; congruence).
  rewrite (proj2 (Nat.eqb_eq _ _) LE). cbn [rbind]. rewrite (proj2 (allclose_iff _ _) Ax). cbn [negb].
  rewrite C1. unfold a_nr. rewrite D2, Dim, Nat.eqb_refl. cbn [negb].
  eexists. split; [reflexivity|].
  assert (RL : forall i j, (i < length (Ex m))%nat -> (j < length (Eg m))%nat ->
     aget (values (with_values m (matprod (values m) (values w)))) i j =
     sumn (length (Eg m)) (fun k => aget (values m) i k * aget (values w) k j)).
  { intros i j Hi Hj. unfold aget, mget, with_values, matprod. cbn [values a_rows].
    rewrite (map_nth_in _ _ _ []) by lia. unfold vget at 1. rewrite nth_tab by lia.
    assert (L1 : length (nth i (a_rows (values m)) []) = length (Eg m)) by (apply C3, nth_In; lia).
    rewrite dot_sumn; [|unfold col; rewrite map_length; congruence].
    rewrite L1. apply sumn_ext. intros k Hk. f_equal. unfold vget at 1, col.
    now rewrite (map_nth_in _ _ _ []) by lia. }
  split; [|split; [reflexivity|split; [reflexivity|exact RL]]].
  split; [|exact C4]. unfold with_values, matprod, shaped. cbn. split; [congruence|].
  split; [now rewrite map_length|]. intros r Hr. apply in_map_iff in Hr as (x & <- & _). rewrite tab_length. congruence.
Qed.

(* --- equality --- *)
Lemma oclose_iff a b : oclose a b = true <-> oclose_spec a b.
Proof.
  destruct a as [x|], b as [y|]; cbn; split; intros H; try discriminate.
  - exists x, y. repeat split. now apply isclose_iff.
  - destruct H as (x' & y' & [= ->] & [= ->] & H). now apply isclose_iff.
  - destruct H as (x' & y' & _ & H & _). discriminate.
  - destruct H as (x' & y' & H & _). discriminate.
  - destruct H as (x' & y' & H & _). discriminate.
Qed.
Lemma oallclose_iff l m : oallclose l m = true <-> close_list l m.
Proof.
  revert m. induction l as [|x l IH]; intros [|y m]; cbn; split; intros H; try easy; try constructor; try inversion H; subst.
  - apply andb_true_iff in H as [H _]. now apply oclose_iff.
  - apply andb_true_iff in H as [_ H]. now apply IH.
  - apply andb_true_iff. split; [now apply oclose_iff|now apply IH].
Qed.
Lemma close_refl x : close x x.
Proof.
  unfold close. replace (x - x) with 0 by ring. unfold qabs at 1.
  destruct (qleb_spec 0 0) as [_|H]; [|exfalso; qlra].
  assert (0 <= qabs x) by (destruct (qabs_spec x) as [[? ->]|[? ->]]; qlra).
  assert (0 <= qn 1 100000000) by (apply qleb_le; reflexivity).
  assert (0 <= qn 1 100000) by (apply qleb_le; reflexivity). qnra.
Qed.
Lemma close_list_refl l : (forall x, In x l -> x <> None) -> close_list l l.
Proof.
  induction l as [|[x|] l IH]; intros H; constructor.
  - exists x, x. split; [reflexivity|split; [reflexivity|apply close_refl]].
  - apply IH. intros; apply H; now right.
  - exfalso. apply (H None); [now left|reflexivity].
  - apply IH. intros; apply H; now right.
Qed.
Lemma units_eqb_iff a b : units_eqb a b = true <-> a = b.
Proof.
  destruct a, b; cbn; split; intros H; try easy.
  - apply String.eqb_eq in H. congruence.
  - injection H as ->. apply String.eqb_refl.
Qed.
Lemma close_axes_some l m : close_axes l m <-> close_list (map Some l) (map Some m).
Proof.
  split.
  - induction 1; constructor; [|assumption]. exists x, y. auto.
  - revert m. induction l as [|x l IH]; intros [|y m] H; inversion H; subst; constructor.
    + match goal with H : oclose_spec _ _ |- _ => destruct H as (? & ? & [= <-] & [= <-] & ?) end. assumption.
    + now apply IH.
Qed.
Lemma v_eq_iff v w u u' : same_form v w ->
  exists b, v_eq v w u u' = Ok b /\ (b = true <-> all_close v w u u').
Proof.
  intros (L1 & L2 & L3). unfold v_eq, np_allclose, std_test. rewrite L1, Nat.eqb_refl. cbn [rbind].
  rewrite !map_length, L2, Nat.eqb_refl. cbn [rbind]. unfold all_close.
  pose proof (close_axes_some (n_E v) (n_E w)) as HE. pose proof (units_eqb_iff u u') as HU.
  pose proof (oallclose_iff (n_values v) (n_values w)) as HV.
  pose proof (oallclose_iff (map Some (n_E v)) (map Some (n_E w))) as HE'.
  destruct (n_std v) as [s|], (n_std w) as [t|]; try contradiction; cbn [rbind].
  - unfold np_allclose. rewrite L3, Nat.eqb_refl. cbn [rbind py_all truth_bool].
    pose proof (oallclose_iff s t) as Hst.
    destruct (oallclose (n_values v) (n_values w)), (oallclose (map Some (n_E v)) (map Some (n_E w))),
      (oallclose s t), (units_eqb u u'); cbn; eexists; (split; [reflexivity|]); split; intuition congruence.
  - destruct (oallclose (n_values v) (n_values w)), (oallclose (map Some (n_E v)) (map Some (n_E w))), (units_eqb u u');
      cbn; eexists; (split; [reflexivity|]); split; intuition congruence.
Qed.
Lemma v_eq_refl v u : no_nan v -> v_eq v v u u = Ok true.
Proof.
  intros [N1 N2]. destruct (v_eq_iff v v u u) as (b & -> & H).
  - split; [reflexivity|split; [reflexivity|]]. destruct (n_std v); reflexivity || exact I.
  - f_equal. apply H. split; [now apply close_list_refl|]. split.
    + apply close_axes_some, close_list_refl. intros x Hx. apply in_map_iff in Hx as (y & <- & _). discriminate.
    + split; [|reflexivity]. destruct (n_std v); [now apply close_list_refl|exact I].
Qed.

(* --- div0 --- *)
Lemma fin0_spec x y : div0_elem x y (fin0 (xdiv x y)).
Proof.
  unfold div0_elem. destruct x as [a| | |], y as [b| | |]; cbn.
  1:{ destruct (qeqb_spec b 0) as [H|H].
      - right. split; [intros z' [H' _]; contradiction|].
        destruct (qeqb a 0); [reflexivity|]. destruct (qltb 0 a); reflexivity.
      - left. split; [exact H|]. exists (a / b). split; [reflexivity|]. field. exact H. }
  all: try (left; reflexivity); right; (split; [intros z' H'; exact H'|]); try reflexivity;
    destruct (qltb b 0); reflexivity.
Qed.
Lemma fin0_finite x : finite (fin0 x) = true.
Proof. now destruct x. Qed.
Lemma bget_arr l i : (i < length l)%nat -> bget (DArr l) i = nth i l NaN.
Proof. destruct l as [|x [|y l]]; cbn; intros H; try reflexivity. destruct i; [reflexivity|lia]. Qed.
Lemma np_div0_arr_lemma a b c : (dlen a <> None \/ dlen b <> None) -> np_div0 a b = Ok c ->
  exists l, c = DArr l /\ forall i, (i < length l)%nat ->
    finite (nth i l NaN) = true /\ div0_elem (bget a i) (bget b i) (nth i l NaN).
Proof.
  intros Hab. destruct a as [la|x], b as [lb|y]; cbn [np_div0]; [| | |cbn in Hab; destruct Hab; congruence].
  - unfold xmap2. destruct (Nat.eqb_spec (length la) (length lb)) as [E|E].
    + cbn [rbind]. intros [= <-]. eexists. split; [reflexivity|]. intros i Hi.
      rewrite map_length, map2_length in Hi by assumption.
      rewrite (map_nth_in _ _ _ NaN) by (now rewrite map2_length).
      rewrite (map2_nth _ _ _ _ NaN NaN) by assumption. rewrite !bget_arr by congruence.
      split; [apply fin0_finite|apply fin0_spec].
    + destruct la as [|x [|x' la]].
      * destruct lb as [|y [|y' lb]]; try discriminate. cbn [rbind map]. intros [= <-]. eexists.
        split; [reflexivity|]. cbn. intros; lia.
      * cbn [rbind]. intros [= <-]. eexists. split; [reflexivity|]. intros i Hi.
        rewrite !map_length in Hi.
        rewrite (map_nth_in _ _ _ NaN) by (now rewrite map_length). rewrite (map_nth_in _ _ _ NaN) by assumption.
        rewrite (bget_arr lb) by assumption. split; [apply fin0_finite|apply fin0_spec].
      * destruct lb as [|y [|y' lb]]; try discriminate.
        cbn [rbind]. remember (x :: x' :: la) as la' eqn:El. intros [= <-]. eexists. split; [reflexivity|]. intros i Hi. rewrite !map_length in Hi.
        rewrite (map_nth_in _ _ _ NaN) by (now rewrite map_length). rewrite (map_nth_in _ _ _ NaN) by assumption.
        rewrite (bget_arr la') by assumption. split; [apply fin0_finite|apply fin0_spec].
  - intros [= <-]. eexists. split; [reflexivity|]. intros i Hi. rewrite !map_length in Hi.
    rewrite (map_nth_in _ _ _ NaN) by (now rewrite map_length). rewrite (map_nth_in _ _ _ NaN) by assumption.
    rewrite bget_arr by assumption. split; [apply fin0_finite|apply fin0_spec].
  - intros [= <-]. eexists. split; [reflexivity|]. intros i Hi. rewrite !map_length in Hi.
    rewrite (map_nth_in _ _ _ NaN) by (now rewrite map_length). rewrite (map_nth_in _ _ _ NaN) by assumption.
    rewrite bget_arr by assumption. split; [apply fin0_finite|apply fin0_spec].
Qed.
Lemma np_div0_num_lemma x y : exists z, np_div0 (DNum (Fin x)) (DNum (Fin y)) = Ok (DNum (Fin z)) /\
  div0_elem (Fin x) (Fin y) (Fin z) /\ z = div0 x y.
Proof.
  cbn. unfold div0. destruct (qeqb_spec y 0) as [H|H].
  - exists 0. split; [reflexivity|]. split; [|reflexivity]. right. split; [|reflexivity]. cbn. tauto.
  - exists (x / y). split; [reflexivity|]. split; [|reflexivity]. left. cbn. split; [exact H|].
    exists (x / y). split; [reflexivity|]. field. exact H.
Qed.
Lemma np_div0_arr_full a b : (dlen a <> None \/ dlen b <> None) ->
  (forall n, bcast_len a b n -> exists l, np_div0 a b = Ok (DArr l) /\ length l = n /\
     forall i, (i < n)%nat -> finite (nth i l NaN) = true /\ div0_elem (bget a i) (bget b i) (nth i l NaN)) /\
  ((forall n, ~ bcast_len a b n) -> np_div0 a b = Raise ValueError).
Proof.
  intros H. split.
  - intros n Hn. assert (E : exists l, np_div0 a b = Ok (DArr l) /\ length l = n).
    { destruct a as [la|x], b as [lb|y]; cbn [bcast_len] in Hn; try contradiction; cbn [np_div0].
      - unfold xmap2. destruct (Nat.eqb_spec (length la) (length lb)) as [E|E].
        + cbn [rbind]. eexists. split; [reflexivity|]. rewrite map_length, map2_length by assumption. lia.
        + destruct Hn as [[? ?]|[[H1 H2]|[H1 H2]]]; [lia| |].
          * destruct la as [|x [|? ?]]; cbn in H1; try lia. cbn [rbind]. eexists. split; [reflexivity|]. rewrite !map_length. exact H2.
          * destruct lb as [|y [|? ?]]; cbn in H2; try lia. cbn in E.
            destruct la as [|x [|? ?]]; cbn [rbind]; (eexists; split; [reflexivity|]); rewrite !map_length; exact H1 || (cbn in E; lia).
      - eexists. split; [reflexivity|]. now rewrite !map_length.
      - eexists. split; [reflexivity|]. now rewrite !map_length. }
    destruct E as (l & E & L). exists l. split; [exact E|]. split; [exact L|].
    destruct (np_div0_arr_lemma a b _ H E) as (l' & [= <-] & Hl). subst n. exact Hl.
  - intros Hn. destruct a as [la|x], b as [lb|y]; cbn [bcast_len] in Hn; cbn [np_div0].
    + unfold xmap2. destruct (Nat.eqb_spec (length la) (length lb)) as [E|E].
      * exfalso. apply (Hn (length la)). auto.
      * destruct la as [|x [|? ?]].
        -- destruct lb as [|y [|? ?]]; [exfalso; now apply E| |reflexivity]. exfalso. apply (Hn 0%nat). right. right. auto.
        -- exfalso. apply (Hn (length lb)). right. left. auto.
        -- destruct lb as [|y [|? ?]]; [reflexivity| |reflexivity]. exfalso. eapply Hn. right. right. split; reflexivity.
    + exfalso. eapply Hn. reflexivity.
    + exfalso. eapply Hn. reflexivity.
    + cbn in H. destruct H; congruence.
Qed.

(* --- matrix equality --- *)
Lemma np_allclose2_same a b : shape a = shape b -> (forall r, In r (a_rows a) -> length r = a_nc a) ->
  (forall r, In r (a_rows b) -> length r = a_nc b) ->
  exists c, np_allclose2 a b = Ok c /\ (c = true <-> close_arr a b).
Proof.
  intros S Ra Rb. unfold shape in S. injection S as S1 S2. unfold np_allclose2, dim_bcast, dim_len.
  rewrite S1, S2, !Nat.eqb_refl. cbn [orb andb]. eexists. split; [reflexivity|].
  replace (if (a_nr b =? 1)%nat then a_nr b else a_nr b) with (a_nr b) by (now destruct (a_nr b =? 1)%nat).
  replace (if (a_nc b =? 1)%nat then a_nc b else a_nc b) with (a_nc b) by (now destruct (a_nc b =? 1)%nat).
  assert (DI : forall n i, (i < n)%nat -> dim_ix n i = i).
  { intros n i Hi. unfold dim_ix. destruct (Nat.eqb_spec n 1); lia. }
  rewrite forallb_forall. unfold close_arr.
  assert (F2 : forall (A : Type) (P : A -> A -> Prop) (d : A) l m, length l = length m ->
    (Forall2 P l m <-> forall i, (i < length l)%nat -> P (nth i l d) (nth i m d))).
  { intros A P d l. induction l as [|x l IH]; intros [|y m] L; cbn in L; try discriminate.
    - split; [intros _ i Hi; cbn in Hi; lia|constructor].
    - injection L as L. specialize (IH m L). split.
      + intros H. inversion H; subst. intros [|i] Hi; cbn; [assumption|]. cbn in Hi. apply IH; [assumption|lia].
      + intros H. constructor; [apply (H 0%nat); cbn; lia|]. apply IH. intros i Hi. apply (H (S i)). cbn. lia. }
  rewrite (F2 _ _ [] (a_rows a) (a_rows b)) by exact S1. split.
  - intros H i Hi. rewrite (F2 _ _ 0) by (rewrite Ra, Rb by (apply nth_In; unfold a_nr in S1; lia); exact S2).
    intros j Hj. rewrite Ra in Hj by (now apply nth_In). apply isclose_iff.
    assert (Hi' : In i (seq 0 (a_nr b))) by (apply in_seq; unfold a_nr in *; lia).
    specialize (H i Hi'). rewrite forallb_forall in H.
    assert (Hj' : In j (seq 0 (a_nc b))) by (apply in_seq; lia).
    specialize (H j Hj'). rewrite !DI in H by (unfold a_nr in *; lia). exact H.
  - intros H i Hi. rewrite in_seq in Hi. apply forallb_forall. intros j Hj. rewrite in_seq in Hj.
    rewrite !DI by (unfold a_nr in *; lia). apply isclose_iff.
    assert (Hi' : (i < length (a_rows a))%nat) by (unfold a_nr in *; lia). specialize (H i Hi').
    assert (L1 : length (nth i (a_rows a) []) = a_nc a) by (now apply Ra, nth_In).
    assert (L2 : length (nth i (a_rows b) []) = a_nc b) by (apply Rb, nth_In; unfold a_nr in *; lia).
    rewrite (F2 _ _ 0) in H by congruence. apply H. lia.
Qed.
Lemma m_eq_lemma m w : consistent m -> consistent w -> length (Ex m) = length (Ex w) -> length (Eg m) = length (Eg w) ->
  ((std m = None) <-> (std w = None)) ->
  exists b, m_eq m w = Ok b /\ (b = true <-> m_close m w).
Proof.
  intros [(C1 & C2 & C3) CS] [(D1 & D2 & D3) DS] L1 L2 HS. unfold m_eq, bcast_allclose, m_close.
  destruct (np_allclose2_same (values m) (values w)) as (a & -> & Ha);
    [unfold shape, a_nr; congruence|now rewrite C1|now rewrite D1|]. cbn [rbind].
  rewrite L1, L2, !Nat.eqb_refl. cbn [rbind].
  pose proof (allclose_iff (Eg m) (Eg w)) as HG. pose proof (allclose_iff (Ex m) (Ex w)) as HX.
  assert (HT : ostate_eqb (state m) (state w) = true <-> state m = state w).
  { destruct (state m) as [s|], (state w) as [t|]; cbn; try (split; congruence).
    split; [intros H; destruct s, t; cbn in H; congruence|intros [= ->]; now destruct t]. }
  destruct (std m) as [s|], (std w) as [t|]; try (exfalso; destruct HS as [HS1 HS2]; (now specialize (HS1 eq_refl)) || now specialize (HS2 eq_refl)).
  - destruct CS as (E1 & E2 & E3), DS as (F1 & F2 & F3). unfold std_test2.
    destruct (np_allclose2_same s t) as (b & -> & Hb); [unfold shape, a_nr; congruence|now rewrite E1|now rewrite F1|].
    cbn [rbind py_all truth_bool].
    destruct a, b, (allclose (Eg m) (Eg w)), (allclose (Ex m) (Ex w)), (ostate_eqb (state m) (state w)); cbn;
      eexists; (split; [reflexivity|]); split; intuition congruence.
  - cbn [std_test2 rbind py_all truth_bool].
    destruct a, (allclose (Eg m) (Eg w)), (allclose (Ex m) (Ex w)), (ostate_eqb (state m) (state w)); cbn;
      eexists; (split; [reflexivity|]); split; intuition congruence.
Qed.
Lemma Forall2_refl {A} (P : A -> A -> Prop) (l : list A) : (forall x, P x x) -> Forall2 P l l.
Proof. intros H. induction l; constructor; auto. Qed.
Lemma m_eq_refl m : consistent m -> m_eq m m = Ok true.
Proof.
  intros C. destruct (m_eq_lemma m m C C eq_refl eq_refl) as (b & -> & H); [reflexivity|]. f_equal. apply H.
  unfold m_close, close_arr, close_axes. assert (R : forall x, close x x) by exact close_refl.
  repeat split; try (apply Forall2_refl; intros; try apply Forall2_refl; auto).
  destruct (std m); [|exact I]. apply Forall2_refl; intros; apply Forall2_refl; auto.
Qed.
