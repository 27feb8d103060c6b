(* Properties of the probabilities and of the fan method in the response interpolation. *)
From Verif Require Import PyBase Axis CutSpec IndexProofs RebinModel MatrixModel MatrixOpsProofs VectorModel SmoothModel InterpModel InterpProofs ResponseModel ResponseSpec ResponseProofs.

(* --- probabilities --- *)
Lemma Qcmult_pos x y : 0 < x -> 0 < y -> 0 < x * y.
Proof. intros. qnra. Qed.
Lemma cmp_matrix_nth r i : (i < nE r)%nat -> nth i (cmp_matrix r) [] = map (fun x => div0 x (sum_spec r i)) (nth i (r_cmp r) []).
Proof. intros H. unfold cmp_matrix. now rewrite nth_tab. Qed.
Lemma prob_nth r c i : (i < nE r)%nat -> vget (prob r c) i = div0 (vget c i) (sum_spec r i).
Proof. intros H. unfold prob, vget at 1. now rewrite nth_tab. Qed.
Lemma qsum_map_div0 l s : s <> 0 -> qsum (map (fun x => div0 x s) l) = qsum l / s.
Proof.
  intros H. unfold div0. destruct (qeqb_spec s 0); [contradiction|]. induction l as [|x l IH]; cbn; [|rewrite IH]; field; assumption.
Qed.
Lemma pcmp_nth r i : (i < nE r)%nat -> vget (pcmp r) i = qsum (map (fun x => div0 x (sum_spec r i)) (nth i (r_cmp r) [])).
Proof.
  intros H. unfold pcmp, vget. rewrite (map_nth_in qsum _ i [] 0) by (unfold cmp_matrix; now rewrite tab_length). now rewrite cmp_matrix_nth.
Qed.
Lemma pcmp_length r : length (pcmp r) = nE r.
Proof. unfold pcmp, cmp_matrix. now rewrite map_length, tab_length. Qed.
Lemma probabilities_sum r i : (i < nE r)%nat -> sum_spec r i <> 0 ->
  vget (pcmp r) i + vget (prob r (r_FE r)) i + vget (prob r (r_SE r)) i + vget (prob r (r_DE r)) i + vget (prob r (r_c511 r)) i = 1.
Proof.
  intros H Z. rewrite pcmp_nth, !prob_nth, qsum_map_div0 by assumption. unfold div0. destruct (qeqb_spec (sum_spec r i) 0); [contradiction|].
  unfold sum_spec in *. field. assumption.
Qed.
Lemma pcmp_nonneg r : counts_ok r -> nonneg (pcmp r).
Proof.
  intros C x Hx. apply (In_nth _ _ 0) in Hx. destruct Hx as (i & Hi & <-). rewrite pcmp_length in Hi. fold (vget (pcmp r) i). rewrite pcmp_nth by assumption.
  apply qsum_nonneg. intros y Hy. apply in_map_iff in Hy. destruct Hy as (z & <- & Hz). apply div0_nonneg; [|now apply sum_spec_nonneg].
  destruct (nth_in_or_default i (r_cmp r) []) as [I|E]; [destruct C as (_ & _ & _ & _ & F); now apply (F _ I)|rewrite E in Hz; destruct Hz].
Qed.
Lemma affine_sum (x y e a0 b0 c0 d0 f0 a1 b1 c1 d1 f1 : Qc) : y - x <> 0 -> a0 + b0 + c0 + d0 + f0 = 1 -> a1 + b1 + c1 + d1 + f1 = 1 ->
  (a0 + (a1 - a0) / (y - x) * (e - x)) + (b0 + (b1 - b0) / (y - x) * (e - x)) + (c0 + (c1 - c0) / (y - x) * (e - x)) +
  (d0 + (d1 - d0) / (y - x) * (e - x)) + (f0 + (f1 - f0) / (y - x) * (e - x)) = 1.
Proof.
  intros D S0 S1.
  transitivity ((a0 + b0 + c0 + d0 + f0) + ((a1 + b1 + c1 + d1 + f1) - (a0 + b0 + c0 + d0 + f0)) / (y - x) * (e - x)).
  - unfold Qcdiv. ring.
  - rewrite S0, S1. unfold Qcdiv. ring.
Qed.
Lemma interpolated_sum r e : table_ok r -> rows_filled r -> in_table r e ->
  exists a b c d f, f_pcmp r e = Ok a /\ f_pFE r e = Ok b /\ f_pSE r e = Ok c /\ f_pDE r e = Ok d /\ f_p511 r e = Ok f /\ a + b + c + d + f = 1 /\
    (counts_ok r -> 0 <= a /\ 0 <= b /\ 0 <= c /\ 0 <= d /\ 0 <= f).
Proof.
  intros T RF [I0 I1]. pose proof T as (T2 & SX & _).
  destruct (find_segment (r_Eg r) (pcmp r) (eq_sym (pcmp_length r)) T2 e I0 I1) as (i & Hi & A & B).
  pose proof (fun col fill => interp_between (r_Eg r) (prob r col) fill SX (eq_sym (prob_length r col)) T2 e i Hi A B) as P.
  pose proof (interp_between (r_Eg r) (pcmp r) Extrapolate SX (eq_sym (pcmp_length r)) T2 e i Hi A B) as PC.
  unfold f_pcmp, f_pFE, f_pSE, f_pDE, f_p511. rewrite PC, !P. do 5 eexists. do 5 (split; [reflexivity|]).
  pose proof (probabilities_sum r i ltac:(unfold nE; lia) (RF i ltac:(lia))) as S0.
  pose proof (probabilities_sum r (S i) ltac:(unfold nE; lia) (RF (S i) ltac:(lia))) as S1.
  pose proof (SSorted_nth _ _ 0 SX i (S i) ltac:(lia)) as L. change (vget (r_Eg r) i < vget (r_Eg r) (S i)) in L.
  assert (D : vget (r_Eg r) (S i) - vget (r_Eg r) i <> 0) by (intros Z; qlra).
  split.
  - unfold segment. now apply affine_sum.
  - intros C. pose proof C as (N1 & N2 & N3 & N4 & _).
    assert (NN : forall ys, length (r_Eg r) = length ys -> nonneg ys -> 0 <= segment (r_Eg r) ys i e).
    { intros ys Ly Ny. destruct (segment_weight (r_Eg r) ys SX Ly T2 i e Hi A B) as (w & W0 & W1 & -> & _).
      assert (0 <= (1 - w) * vget ys i) by (apply Qcmult_nonneg; [qlra|now apply nonneg_vget]).
      assert (0 <= w * vget ys (S i)) by (apply Qcmult_nonneg; [qlra|now apply nonneg_vget]). qlra. }
    repeat split; apply NN; (apply eq_sym, pcmp_length || apply eq_sym, prob_length || now apply pcmp_nonneg || now apply prob_nonneg).
Qed.

(* --- the fan method at a tabulated energy --- *)
Lemma index_exact E i : increasing E -> (i < length E)%nat -> index E (vget E i) = i.
Proof.
  intros SX Hi. assert (NE : E <> []) by (intros ->; cbn in Hi; lia).
  assert (ND : nondecreasing E).
  { clear Hi NE. induction SX as [|x l Hs IH Hf]; constructor; [assumption|]. revert Hf. apply Forall_impl. intros a Ha. now apply Qclt_le_weak. }
  apply (nearest_unique E (vget E i)); [now apply index_nearest_lemma|].
  assert (Z : nth i E 0 - vget E i = 0) by (unfold vget; ring). split; [assumption|]. rewrite Z.
  split; intros k Hk; destruct (qabs_spec (nth k E 0 - vget E i)) as [[A ->]|[A ->]]; try (destruct (qabs_spec 0) as [[_ ->]|[Q _]]; [qlra|qlra]).
  - assert (nth i E 0 < nth k E 0) by (apply (SSorted_nth _ _ 0 SX); lia). destruct (qabs_spec 0) as [[_ ->]|[Q _]]; unfold vget; qlra.
Qed.
Lemma compton_exact E Ei : qn 1 10 < E -> qn 1 10 <= Ei -> Ei < E -> E_compton E (1 - Ei / (E / qz 511 * (E - Ei))) = Ei.
Proof.
  intros H1 H2 H3. unfold E_compton. destruct (qltb_spec (qn 1 10) E) as [_|]; [|exfalso; qlra].
  assert (P : 0 < E) by (assert (0 < qn 1 10) by reflexivity; qlra).
  assert (Z1 : E <> 0) by (now apply Qclt_neq). assert (Z2 : E - Ei <> 0) by (intros Z; qlra). assert (Z3 : qz 511 <> 0) by (apply qeqb_neq; reflexivity).
  replace (1 + E / qz 511 * (1 - (1 - Ei / (E / qz 511 * (E - Ei))))) with (E / (E - Ei)) by (field; auto).
  field. auto.
Qed.
Lemma compton_edge_lt E : qn 1 10 < E -> E_compton E (- (1)) < E.
Proof.
  intros H. unfold E_compton. destruct (qltb_spec (qn 1 10) E) as [_|]; [|exfalso; qlra].
  assert (P : 0 < E) by (assert (0 < qn 1 10) by reflexivity; qlra).
  assert (D : 0 < 1 + E / qz 511 * (1 - - (1))). { assert (0 <= E / qz 511) by (apply Qcdiv_nonneg; [qlra|discriminate]). assert (0 <= E / qz 511 * (1 - - (1))) by (apply Qcmult_nonneg; [assumption|discriminate]). qlra. }
  assert (0 < E / (1 + E / qz 511 * (1 - - (1)))) by (apply Qcdiv_pos; assumption). qlra.
Qed.
Lemma z_lt_2 E Ei : qn 1 10 < E -> qn 1 10 <= Ei -> Ei < E_compton E (- (1)) -> Ei < E /\ 0 < Ei / (E / qz 511 * (E - Ei)) /\ Ei / (E / qz 511 * (E - Ei)) < qz 2.
Proof.
  intros H1 H2 H3. pose proof (compton_edge_lt E H1) as H4.
  assert (P : 0 < E) by (assert (0 < qn 1 10) by reflexivity; qlra). assert (Pi : 0 < Ei) by (assert (0 < qn 1 10) by reflexivity; qlra).
  assert (Z3 : qz 511 <> 0) by (apply qeqb_neq; reflexivity). assert (P5 : 0 < qz 511) by reflexivity.
  assert (L : Ei < E) by qlra. split; [assumption|].
  assert (D : 0 < E / qz 511 * (E - Ei)) by (apply Qcmult_pos; [apply Qcdiv_pos; assumption|qlra]).
  split; [apply Qcdiv_pos; assumption|]. apply Qcdiv_lt_l; [assumption|].
  unfold E_compton in H3. destruct (qltb_spec (qn 1 10) E) as [_|]; [|exfalso; qlra].
  set (D2 := 1 + E / qz 511 * (1 - - (1))) in *.
  assert (PD : 0 < D2). { unfold D2. assert (0 <= E / qz 511 * (1 - - (1))) by (apply Qcmult_nonneg; [apply Qcdiv_nonneg; [qlra|discriminate]|discriminate]). qlra. }
  assert (M : 0 < (E - E / D2 - Ei) * D2) by (apply Qcmult_pos; qlra).
  assert (Q : (E - E / D2 - Ei) * D2 = (E - Ei) * D2 - E) by (field; now apply Qclt_neq). rewrite Q in M.
  assert (Q2 : qz 2 * (E / qz 511 * (E - Ei)) - Ei = (E - Ei) * D2 - E). { unfold D2. rewrite qz_2. field. assumption. }
  qlra.
Qed.
Lemma dE_dtheta_pos E z : 0 < E -> 0 < z -> 0 < dE_dtheta E (1 - z).
Proof.
  intros P Z. unfold dE_dtheta. assert (P5 : 0 < qz 511) by reflexivity.
  assert (D : 0 < 1 + E / qz 511 * (1 - (1 - z))). { replace (1 - (1 - z)) with z by ring. assert (0 < E / qz 511 * z) by (apply Qcmult_pos; [apply Qcdiv_pos; assumption|assumption]). qlra. }
  apply Qcdiv_pos; [apply Qcdiv_pos; [now apply Qcmult_pos|assumption]|now apply Qcmult_pos].
Qed.
Lemma lin_low x a y b d : d <> 0 -> x <> y -> lin x x (a * d) y b / d = a.
Proof. intros D N. unfold lin. replace (x - x) with 0 by ring. unfold Qcdiv. replace (a * d + (b - a * d) * 0 * / (y - x)) with (a * d) by ring. field. assumption. Qed.
Lemma fan_loop_exact Eout E c : increasing Eout -> qn 1 10 < E -> c_Elow c = E -> c_Ehigh c <> E ->
  forall is_ R i_last R' k, NoDup is_ -> (forall i, In i is_ -> (i < length Eout)%nat /\ vget Eout i < E_compton E (- (1))) -> length R = length Eout ->
  fan_loop Eout E (E_compton E (- (1))) c is_ R i_last = Ok (R', k) ->
  forall i, vget R' i = if existsb (Nat.eqb i) is_ && qleb (qn 1 10) (vget Eout i) then vget (c_low c) i else vget R i.
Proof.
  intros SX HE CL CH. induction is_ as [|i rest IH]; intros R i_last R' k ND IN LR H q; cbn [fan_loop] in H.
  - injection H as <- _. reflexivity.
  - inversion ND as [|? ? NI ND']; subst. destruct (IN i (or_introl eq_refl)) as [Hi HC].
    assert (IN' : forall i, In i rest -> (i < length Eout)%nat /\ vget Eout i < E_compton (c_Elow c) (- (1))) by (intros; apply IN; now right).
    destruct (qltb_spec (vget Eout i) (qn 1 10)) as [B|B].
    + cbn [orb] in H. rewrite (IH R i_last R' k ND' IN' LR H). cbn [existsb]. destruct (Nat.eqb_spec q i) as [->|N]; [|reflexivity].
      assert (F : qleb (qn 1 10) (vget Eout i) = false) by (apply qleb_gt; assumption). rewrite F, !andb_false_r. reflexivity.
    + destruct (qltb_spec (E_compton (c_Elow c) (- (1))) (vget Eout i)) as [B'|B']; [exfalso; qlra|]. cbn [orb] in H.
      destruct (z_lt_2 (c_Elow c) (vget Eout i) HE B HC) as (L & Z1 & Z2).
      assert (P : 0 < c_Elow c) by (assert (0 < qn 1 10) by reflexivity; qlra).
      assert (D : c_Elow c / qz 511 * (c_Elow c - vget Eout i) <> 0).
      { apply Qclt_neq, Qcmult_pos; [apply Qcdiv_pos; [assumption|reflexivity]|qlra]. }
      assert (ZE : div0 (vget Eout i) (c_Elow c / qz 511 * (c_Elow c - vget Eout i)) = vget Eout i / (c_Elow c / qz 511 * (c_Elow c - vget Eout i))).
      { unfold div0. destruct (qeqb_spec (c_Elow c / qz 511 * (c_Elow c - vget Eout i)) 0); [contradiction|reflexivity]. }
      rewrite ZE in H. set (z := vget Eout i / (c_Elow c / qz 511 * (c_Elow c - vget Eout i))) in *.
      assert (T1 : qltb 0 z = true) by (apply qltb_lt; assumption). assert (T2 : qltb z (qz 2) = true) by (apply qltb_lt; assumption).
      rewrite T1, T2 in H. cbn [andb] in H.
      assert (CE : E_compton (c_Elow c) (1 - z) = vget Eout i) by (apply compton_exact; assumption).
      rewrite CE, index_exact in H by assumption.
      destruct (py_index (c_low c) (Z.of_nat i)) as [c1|] eqn:PI; [|discriminate]. cbn [rbind] in H.
      assert (C1 : c1 = vget (c_low c) i).
      { unfold py_index in PI. destruct (Z.ltb_spec (Z.of_nat i) 0); [lia|]. destruct (_ && _); [|discriminate]. rewrite Nat2Z.id in PI.
        destruct (nth_error (c_low c) i) as [y|] eqn:NE; [|discriminate]. injection PI as <-. symmetry. unfold vget. now apply nth_error_nth. }
      destruct (py_index (c_high c) _) as [c2|]; [|discriminate]. cbn [rbind] in H.
      assert (V : lin (c_Elow c) (c_Elow c) (c1 * dE_dtheta (c_Elow c) (1 - z)) (c_Ehigh c) (c2 * dE_dtheta (c_Ehigh c) (1 - z)) / dE_dtheta (c_Elow c) (1 - z) = c1).
      { apply lin_low; [apply Qclt_neq, dE_dtheta_pos; assumption|intros Q; apply CH; now rewrite <- Q]. }
      rewrite V in H. assert (LU : length (upd R i c1) = length Eout) by (rewrite upd_length; exact LR). rewrite (IH _ _ _ _ ND' IN' LU H). cbn [existsb].
      destruct (Nat.eqb_spec q i) as [->|N].
      * assert (F : existsb (Nat.eqb i) rest = false).
        { apply Bool.not_true_is_false. intros X. apply existsb_exists in X. destruct X as (y & Hy & Q). apply Nat.eqb_eq in Q. subst. contradiction. }
        rewrite F. cbn [andb orb]. assert (F2 : qleb (qn 1 10) (vget Eout i) = true) by (apply qleb_le; assumption). rewrite F2.
        unfold vget at 1. rewrite nth_upd by lia. now rewrite Nat.eqb_refl.
      * cbn [orb]. destruct (existsb (Nat.eqb q) rest && _); [reflexivity|]. unfold vget at 1. rewrite nth_upd by lia.
        destruct (Nat.eqb_spec q i); [contradiction|reflexivity].
Qed.
Lemma below_nearest E e i : increasing E -> (i < index E e)%nat -> vget E i < e.
Proof.
  intros SX Hi. assert (NE : E <> []) by (intros ->; cbn in Hi; lia).
  assert (ND : nondecreasing E).
  { clear Hi NE. induction SX as [|x l Hs IH Hf]; constructor; [assumption|]. revert Hf. apply Forall_impl. intros a Ha. now apply Qclt_le_weak. }
  destruct (index_nearest_lemma E e NE ND) as (H1 & H2 & _). specialize (H2 i ltac:(lia)).
  assert (L : nth i E 0 < nth (index E e) E 0) by (apply (SSorted_nth _ _ 0 SX); lia). unfold vget.
  destruct (qltb_spec (nth i E 0) e) as [|G]; [assumption|exfalso].
  destruct (qabs_spec (nth (index E e) E 0 - e)) as [[A Q]|[A Q]]; rewrite Q in H2; destruct (qabs_spec (nth i E 0 - e)) as [[B Q']|[B Q']]; rewrite Q' in H2; qlra.
Qed.
Lemma fan_exact Eout E c i_start i_stop R k : increasing Eout -> qn 1 10 < E -> c_Elow c = E -> c_Ehigh c <> E ->
  fan_method Eout E c i_start i_stop = Ok (R, k) ->
  forall i, (i < length Eout)%nat -> vget R i =
    if (i_start <=? i)%nat && (i <? index Eout (E_compton E (- (1))))%nat && (i <? i_stop)%nat && qleb (qn 1 10) (vget Eout i)
    then qmax 0 (vget (c_low c) i) else 0.
Proof.
  intros SX HE CL CH H i Hi. unfold fan_method in H. set (i_ce := Nat.min (index Eout (E_compton E (- (1)))) (Nat.min i_stop (length Eout))) in *.
  destruct (fan_loop _ _ _ _ _ _ _) as [[R0 k0]|] eqn:FL; [|discriminate]. cbn [rbind fst snd] in H. injection H as <- <-.
  pose proof (fan_loop_length _ _ _ _ _ _ _ _ _ FL) as LR. rewrite zeros_length in LR.
  assert (RNG : forall q, In q (seq i_start (i_ce - i_start)) -> (q < length Eout)%nat /\ vget Eout q < E_compton E (- (1))).
  { intros q Hq. apply in_seq in Hq. assert (q < i_ce)%nat by lia. unfold i_ce in *. split; [lia|apply below_nearest; [assumption|lia]]. }
  assert (X := fan_loop_exact Eout E c SX HE CL CH _ _ _ _ _ (seq_NoDup _ _) RNG (zeros_length _) FL i).
  assert (Z0 : vget (zeros (length Eout)) i = 0). { unfold vget, zeros. now apply nth_repeat. }
  rewrite Z0 in X. unfold vget at 1. unfold clip0. rewrite (map_nth_in _ R0 i 0 0) by lia. fold (vget R0 i). rewrite X.
  assert (EX : existsb (Nat.eqb i) (seq i_start (i_ce - i_start)) = (i_start <=? i)%nat && (i <? index Eout (E_compton E (- (1))))%nat && (i <? i_stop)%nat).
  { apply Bool.eq_iff_eq_true. rewrite existsb_exists, !andb_true_iff, Nat.leb_le, !Nat.ltb_lt. split.
    - intros (y & Hy & Q). apply Nat.eqb_eq in Q. subst y. apply in_seq in Hy. lia.
    - intros ((A & B) & D). exists i. split; [apply in_seq; lia|apply Nat.eqb_refl]. }
  rewrite EX. match goal with |- context [?a && qleb (qn 1 10) (vget Eout i)] => destruct (a && qleb (qn 1 10) (vget Eout i)) end.
  - unfold qmax. destruct (qltb_spec (vget (c_low c) i) 0) as [G|G]; destruct (qleb_spec 0 (vget (c_low c) i)) as [K|K]; try reflexivity; try (exfalso; qlra).
  - destruct (qltb_spec 0 0) as [G|]; [exfalso; qlra|reflexivity].
Qed.
