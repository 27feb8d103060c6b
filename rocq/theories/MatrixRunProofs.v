(* Lemmas on histories of matrix operations. *)
From Verif Require Import PyBase Axis RebinModel RebinProofs Rebin2DProofs RebinFactorProofs MatrixModel MatrixSpec CutSpec
  IndexProofs CutProofs MatrixProofs MatrixRebinProofs MatrixOpsProofs FillModel FillSpec FillProofs MatrixRunModel.

Definition shape_ok (m : matrix) : Prop := shaped (values m) (length (Ex m)) (length (Eg m)).

Lemma cut_shape m ax a b i j m' : shape_ok m -> cut_inplace m ax a b i j = Ok m' ->
  shape_ok m' /\ std m' = std m /\ state m' = state m.
Proof.
  intros (S1 & S2 & S3) H. unfold cut_inplace, cut_data in H.
  destruct (to_plot_axis ax) as [x|]; [|discriminate]. cbn [rbind] in H.
  destruct (cut_bounds (match x with AxEg => Eg m | _ => Ex m end) a b i j) as [[lo hi]|] eqn:E; [|discriminate].
  cbn [rbind] in H. destruct x; cbn [rbind] in H; [| |discriminate]; injection H as <-; cbn [values Ex Eg std state];
    (split; [|auto]); unfold shape_ok; cbn [values Ex Eg].
  - split; cbn [a_nc a_rows slice_cols].
    + apply py_slice_length. rewrite seq_length. exact S1.
    + split; [now rewrite map_length|]. intros r Hr. apply in_map_iff in Hr as (r' & <- & Hr). apply py_slice_length. auto.
  - split; cbn [a_nc a_rows slice_rows]; [exact S1|]. split; [now apply py_slice_length|].
    intros r Hr. apply py_slice_in in Hr. auto.
Qed.
Lemma mask_shape f a nr nc : shaped a nr nc -> shaped (mask_zero f a) nr nc.
Proof. intros (S1 & S2 & S3). unfold mask_zero, a_nr. rewrite S1, S2. apply mtab_shaped. Qed.
Lemma trapezoid_shape m a b c d m' : shape_ok m -> trapezoid_inplace m a b c d = Ok m' ->
  shape_ok m' /\ std m' = std m.
Proof.
  intros S H. unfold trapezoid_inplace, trapezoid_data in H.
  destruct (cut_inplace m (AInt 1) (Some a) (Some b) true true) as [m1|] eqn:E1; [|discriminate]. cbn [rbind] in H.
  destruct (match d with Some e => Ok e | None => _ end) as [eg|]; [|discriminate]. cbn [rbind] in H.
  destruct (cut_inplace m1 (AInt 0) (Some c) (Some eg) true true) as [m2|] eqn:E2; [|discriminate]. cbn [rbind] in H.
  apply cut_shape in E1 as (S1 & _ & _); [|exact S]. apply cut_shape in E2 as (S2 & _ & _); [|exact S1].
  destruct (qltb 0 (eg - b)).
  - destruct (2 <=? length (Ex m2))%nat; [|discriminate]. cbn [rbind] in H. injection H as <-. split; [exact S2|reflexivity].
  - destruct (pair_eqb (shape (values m2)) (length (Ex m2), length (Eg m2))); [|discriminate]. cbn [rbind] in H.
    injection H as <-. split; [|reflexivity]. unfold shape_ok. cbn [values Ex Eg with_values]. now apply mask_shape.
Qed.
Lemma rebin_1D_length c mi mo out : rebin_1D c mi mo = Ok out -> length out = length mo.
Proof.
  unfold rebin_1D. destruct mi as [|? [|? ?]]; try discriminate. destruct mo as [|? [|? ?]]; try discriminate.
  match goal with |- (if ?b then _ else _) = _ -> _ => destruct b; [|discriminate] end. cbv zeta. intros [= <-]. apply tab_length.
Qed.
Lemma rmapm_forall {A B} (f : A -> result B) (P : B -> Prop) l m : (forall x y, f x = Ok y -> P y) -> rmapm f l = Ok m ->
  forall y, In y m -> P y.
Proof.
  intros H. revert m. induction l as [|x l IH]; intros m E; cbn [rmapm] in E.
  - injection E as <-. intros y [].
  - destruct (f x) as [y|] eqn:Ex; [|discriminate]. cbn [rbind] in E. destruct (rmapm f l) as [ys|]; [|discriminate].
    cbn [rbind] in E. injection E as <-. intros z [<-|Hz]; [eapply H; eassumption|]. now apply (IH ys).
Qed.
Lemma rebin_data_shape m ex mids f v new : shape_ok m -> rebin_data m ex mids f = Ok (v, new) ->
  if ex then shaped v (length new) (length (Eg m)) else shaped v (length (Ex m)) (length new).
Proof.
  intros (S1 & S2 & S3). unfold rebin_data.
  destruct (match f, mids with Some f0, None => _ | None, Some ms => Ok ms | _, _ => Raise ValueError end) as [nw|]; [|discriminate].
  cbn [rbind]. destruct ex.
  - unfold rebin_2D. change (0 =? 0)%Z with true. cbn match.
    destruct (rmapm _ (seq 0 (a_nc (values m)))) as [cols|] eqn:E; [|discriminate]. cbn [rbind]. intros [= <- <-].
    split; [exact S1|]. cbn [a_rows a_nc]. split; [apply tab_length|].
    intros r Hr. apply in_tab in Hr as (i & _ & ->). rewrite map_length, (rmapm_length _ _ _ E), seq_length. exact S1.
  - unfold rebin_2D. change (1 =? 0)%Z with false. change (1 =? 1)%Z with true. cbn match.
    destruct (rmapm _ (a_rows (values m))) as [rows|] eqn:E; [|discriminate]. cbn [rbind]. intros [= <- <-].
    split; [reflexivity|]. cbn [a_rows a_nc]. split; [rewrite (rmapm_length _ _ _ E); exact S2|].
    apply (rmapm_forall _ (fun r => length r = length nw) _ _ (fun x y H => rebin_1D_length _ _ _ _ H) E).
Qed.
Lemma rebin_axis_shape m ex mids f : shape_ok m ->
  shape_ok (fst (rebin_axis m ex mids f)) /\ std (fst (rebin_axis m ex mids f)) = std m.
Proof.
  intros S. unfold rebin_axis. destruct (rebin_data m ex mids f) as [[v new]|] eqn:E.
  - cbv zeta. destruct ex; apply (rebin_data_shape _ _ _ _ _ _ S) in E; (split; [exact E|reflexivity]).
  - split; [exact S|reflexivity].
Qed.
Lemma rebin_shape m ax mids f : shape_ok m ->
  shape_ok (fst (rebin_inplace m ax mids f)) /\ std (fst (rebin_inplace m ax mids f)) = std m.
Proof.
  intros S. unfold rebin_inplace. destruct (to_plot_axis ax) as [x|]; [|now split].
  assert (A : forall ex, shape_ok (fst (rebin_axis m ex mids f)) /\ std (fst (rebin_axis m ex mids f)) = std m)
    by (intros; now apply rebin_axis_shape).
  assert (B : shape_ok (fst (match rebin_axis m false mids f with (m1, Ok _) => rebin_axis m1 true mids f | r => r end)) /\
    std (fst (match rebin_axis m false mids f with (m1, Ok _) => rebin_axis m1 true mids f | r => r end)) = std m).
  { specialize (A false). destruct (rebin_axis m false mids f) as [m1 [[]|e]]; [|exact A]. cbn [fst] in A. destruct A as [A1 A2].
    destruct (rebin_axis_shape m1 true mids f A1) as [B1 B2]. split; [exact B1|congruence]. }
  destruct mids, f; try (now split); destruct x; auto.
Qed.
Lemma verify_std m : shape_ok m -> verify_integrity m = Ok tt ->
  match std m with Some s => shape s = (length (Ex m), length (Eg m)) | None => True end.
Proof.
  intros (S1 & S2 & _) H. unfold verify_integrity in H. unfold a_nr in H. rewrite S1, S2, !Nat.eqb_refl in H. cbn [negb] in H.
  destruct (std m) as [s|]; [|exact I]. destruct (pair_eqb (shape (values m)) (shape s)) eqn:E; [|discriminate].
  unfold pair_eqb in E. apply andb_true_iff in E as [E1 E2]. apply Nat.eqb_eq in E1, E2. unfold shape, a_nr in *.
  cbn in E1, E2. congruence.
Qed.
Lemma rebin_axis_ok m ex mids f m' : rebin_axis m ex mids f = (m', Ok tt) -> verify_integrity m' = Ok tt.
Proof.
  unfold rebin_axis. destruct (rebin_data m ex mids f) as [[v new]|]; [|discriminate]. cbv zeta. intros [= <- H]. exact H.
Qed.
Lemma rebin_ok m ax mids f m' : rebin_inplace m ax mids f = (m', Ok tt) -> verify_integrity m' = Ok tt.
Proof.
  unfold rebin_inplace. destruct (to_plot_axis ax) as [x|]; [|discriminate].
  assert (B : match rebin_axis m false mids f with (m1, Ok _) => rebin_axis m1 true mids f | r => r end = (m', Ok tt) ->
     verify_integrity m' = Ok tt).
  { destruct (rebin_axis m false mids f) as [m1 [[]|e]]; [|discriminate]. apply rebin_axis_ok. }
  destruct mids, f; try discriminate; destruct x; try (apply rebin_axis_ok); exact B.
Qed.
Lemma verify_shape v eg ex s t : rectangular v -> verify_integrity (mkM v eg ex s t) = Ok tt -> shaped v (length ex) (length eg).
Proof.
  intros R. unfold verify_integrity. cbn [values Ex Eg std].
  destruct (Nat.eqb_spec (a_nr v) (length ex)) as [E1|]; [|discriminate]. cbn [negb].
  destruct (Nat.eqb_spec (a_nc v) (length eg)) as [E2|]; [|discriminate]. intros _. split; [exact E2|]. split; [exact E1|].
  intros r Hr. rewrite <- E2. auto.
Qed.
Lemma std_keep (s : option arr2) n k n' k' : match s with Some s => shaped s n k | None => True end ->
  match s with Some s => shape s = (n', k') | None => True end ->
  match s with Some s => shaped s n' k' | None => True end.
Proof.
  destruct s as [s|]; [|trivial]. intros (S1 & S2 & S3) H. unfold shape, a_nr in H. injection H as H1 H2.
  split; [exact H2|]. split; [exact H1|]. intros r Hr. rewrite (S3 r Hr). congruence.
Qed.
Lemma consistent_vals m m' : consistent m -> shape_ok m' -> length (Ex m') = length (Ex m) -> length (Eg m') = length (Eg m) ->
  std m' = std m -> consistent m'.
Proof. intros [_ T] S L1 L2 E. split; [exact S|]. now rewrite E, L1, L2. Qed.

Lemma to_lower_bin_eq m x : to_lower_bin m = Ok x -> x = mkM (values m) (map (fun e => e - halfbin (Eg m)) (Eg m))
              (map (fun e => e - halfbin (Ex m)) (Ex m)) (std m) (state m).
Proof. unfold to_lower_bin. destruct (Ex m) as [|a [|b l]]; try discriminate. destruct (Eg m) as [|a' [|b' l']]; try discriminate. congruence. Qed.
Lemma to_mid_bin_eq m x : to_mid_bin m = Ok x -> x = mkM (values m) (map (fun e => e + halfbin (Eg m)) (Eg m))
              (map (fun e => e + halfbin (Ex m)) (Ex m)) (std m) (state m).
Proof. unfold to_mid_bin. destruct (Ex m) as [|a [|b l]]; try discriminate. destruct (Eg m) as [|a' [|b' l']]; try discriminate. congruence. Qed.

Section R.
Variable gauss : nat -> nat -> Qc.
Variable argsort : list Qc -> list nat.
Hypothesis argsort_sorts : forall l, sorts l (argsort l).
Notation mrun := (mrun gauss argsort).
Notation mruns := (mruns gauss argsort).

Lemma fillneg_cons m : consistent m -> consistent (m_fill_negative gauss argsort m).
Proof. intros C. now apply (fill_negative_rows gauss argsort argsort_sorts m C). Qed.
(* every operation, successful or not, keeps the shape of a matrix without std, except a
   failing load *)
Lemma mrun_shape m o m' r : consistent m -> file_ok o -> mrun m o = (m', r) ->
  (r = Ok tt \/ (forall v eg ex, o <> MLoad v eg ex)) -> shape_ok m' /\ std m' = std m.
Proof.
  intros C F H HL. assert (S : shape_ok m) by (apply C).
  destruct o; cbn [MatrixRunModel.mrun] in H; unfold mkeep in H.
  - destruct (cut_inplace m ax Emin Emax imin imax) as [x|] eqn:E; injection H as <- <-; [|now split].
    apply cut_shape in E as (? & ? & ?); auto.
  - unfold cut_like_inplace in H.
    destruct (do lo <- py_min (Ex other) ;; do hi <- py_max (Ex other) ;; cut_inplace m (AInt 1) (Some lo) (Some hi) true true) as [m1|] eqn:E1;
      [|injection H as <- <-; now split].
    assert (H1 : shape_ok m1 /\ std m1 = std m).
    { destruct (py_min (Ex other)); [|discriminate]. cbn [rbind] in E1. destruct (py_max (Ex other)); [|discriminate]. cbn [rbind] in E1.
      apply cut_shape in E1 as (? & ? & ?); auto. }
    destruct H1 as [S1 T1].
    destruct (do lo <- py_min (Eg other) ;; do hi <- py_max (Eg other) ;; cut_inplace m1 (AInt 0) (Some lo) (Some hi) true true) as [m2|] eqn:E2;
      injection H as <- <-; [|auto].
    destruct (py_min (Eg other)); [|discriminate]. cbn [rbind] in E2. destruct (py_max (Eg other)); [|discriminate]. cbn [rbind] in E2.
    apply cut_shape in E2 as (? & ? & ?); [|exact S1]. split; [assumption|congruence].
  - destruct (rebin_shape m ax mids factor S) as [A B]. rewrite H in A, B. auto.
  - destruct (trapezoid_inplace m Ex_min Ex_max Eg_min Eg_max) as [x|] eqn:E; injection H as <- <-; [|now split].
    now apply trapezoid_shape in E.
  - destruct (cut_diagonal m p q) as [x|] eqn:E; injection H as <- <-; [|now split].
    unfold cut_diagonal in E. destruct p as [p|], q as [q|]; try discriminate. destruct (line_mask m p q); [|discriminate]. cbn [rbind] in E.
    destruct (pair_eqb (shape (values m)) (length (Ex m), length (Eg m))); [|discriminate]. injection E as <-.
    split; [|reflexivity]. unfold shape_ok. cbn [values Ex Eg with_values]. now apply mask_shape.
  - destruct (fill m eg ex c) as [x|] eqn:E; injection H as <- <-; [|now split]. unfold fill in E.
    match goal with E : (if ?b then _ else _) = _ |- _ => destruct b; [|discriminate] end. injection E as <-.
    split; [|reflexivity]. unfold shape_ok. cbn [values Ex Eg with_values]. destruct S as (S1 & S2 & S3). rewrite S1.
    apply shaped_mk. apply add_at_rect. split; assumption.
  - injection H as <- <-. split; [apply (fillneg_cons m C)|reflexivity].
  - injection H as <- <-. split; [now apply (remove_negative_lemma m C)|reflexivity].
  - injection H as <- <-. unfold fill_and_remove_negative. split; [|reflexivity].
    apply (remove_negative_lemma (m_fill_negative gauss argsort m)). now apply fillneg_cons.
  - destruct (to_lower_bin m) as [x|] eqn:E; injection H as <- <-; [|now split]. apply to_lower_bin_eq in E. subst x.
    split; [|reflexivity]. unfold shape_ok. cbn [values Ex Eg]. rewrite !map_length. exact S.
  - destruct (to_mid_bin m) as [x|] eqn:E; injection H as <- <-; [|now split]. apply to_mid_bin_eq in E. subst x.
    split; [|reflexivity]. unfold shape_ok. cbn [values Ex Eg]. rewrite !map_length. exact S.
  - destruct (set_state a); injection H as <- <-; now split.
  - injection H as <- Hr. destruct HL as [->|HL]; [|now specialize (HL v eg ex)]. split; [|reflexivity].
    apply (verify_shape _ _ _ _ _ F Hr).
Qed.
Lemma mrun_std m o m' : consistent m -> file_ok o -> slices o = false -> mrun m o = (m', Ok tt) -> consistent m'.
Proof.
  intros C F Sl H. destruct (mrun_shape m o m' (Ok tt) C F H (or_introl eq_refl)) as [S E].
  split; [exact S|]. rewrite E. destruct C as [CS CT].
  assert (V : verify_integrity m' = Ok tt -> match std m with Some s => shaped s (length (Ex m')) (length (Eg m')) | None => True end).
  { intros V. eapply std_keep; [exact CT|]. rewrite <- E. now apply verify_std. }
  destruct o; cbn in Sl; try discriminate; cbn [MatrixRunModel.mrun] in H; unfold mkeep in H.
  - apply V. now apply rebin_ok in H.
  - destruct (cut_diagonal m p q) as [x|] eqn:X; [|discriminate]. injection H as <-.
    unfold cut_diagonal in X. destruct p as [p|], q as [q|]; try discriminate. destruct (line_mask m p q); [|discriminate]. cbn [rbind] in X.
    destruct (pair_eqb (shape (values m)) (length (Ex m), length (Eg m))); [|discriminate]. injection X as <-. exact CT.
  - destruct (fill m eg ex c) as [x|] eqn:X; [|discriminate]. injection H as <-. unfold fill in X.
    match goal with E : (if ?b then _ else _) = _ |- _ => destruct b; [|discriminate] end. injection X as <-. exact CT.
  - injection H as <-. exact CT.
  - injection H as <-. exact CT.
  - injection H as <-. exact CT.
  - destruct (to_lower_bin m) as [x|] eqn:X; [|discriminate]. injection H as <-. apply to_lower_bin_eq in X. subst x.
    cbn [Ex Eg]. rewrite !map_length. exact CT.
  - destruct (to_mid_bin m) as [x|] eqn:X; [|discriminate]. injection H as <-. apply to_mid_bin_eq in X. subst x.
    cbn [Ex Eg]. rewrite !map_length. exact CT.
  - destruct (set_state a); [|discriminate]. injection H as <-. exact CT.
  - injection H as <- Hv. now apply V.
Qed.
Lemma mruns_lemma os m m' : consistent m -> (forall o, In o os -> file_ok o) ->
  (std m = None \/ forall o, In o os -> slices o = false) ->
  mruns m os = Ok m' -> consistent m'.
Proof.
  revert m. induction os as [|o os IH]; intros m C F HS H; cbn [MatrixRunModel.mruns] in H.
  - injection H as <-. exact C.
  - destruct (mrun m o) as [m1 [[]|e]] eqn:E; [|discriminate].
    destruct (mrun_shape m o m1 (Ok tt) C (F o (or_introl eq_refl)) E (or_introl eq_refl)) as [S1 T1].
    apply (IH m1).
    + destruct HS as [HS|HS].
      * split; [exact S1|]. now rewrite T1, HS.
      * apply (mrun_std m o m1 C (F o (or_introl eq_refl))); [|exact E]. apply HS. now left.
    + intros o' Ho. apply F. now right.
    + destruct HS as [HS|HS]; [left; congruence|right]. intros o' Ho. apply HS. now right.
    + exact H.
Qed.
(* failing operations other than load leave a matrix without std consistent *)
Lemma mrun_fail_lemma m o m' e : consistent m -> std m = None -> file_ok o -> mrun m o = (m', Raise e) ->
  (forall v eg ex, o <> MLoad v eg ex) -> consistent m'.
Proof.
  intros C N F H HL. destruct (mrun_shape m o m' (Raise e) C F H (or_intror HL)) as [S T]. split; [exact S|]. now rewrite T, N.
Qed.
End R.
