(* Lemmas: further facts for MatrixOpsProps. *)
From Verif Require Import PyBase Axis CutSpec MatrixModel MatrixSpec IndexProofs MatrixOpsProofs.

Lemma projection_normalized_lemma m ax Emin Emax p e : projection m ax Emin Emax false = Ok (p, e) ->
  exists q, projection m ax Emin Emax true = Ok (q, e) /\ length q = length p /\
    (qsum p <> 0 -> qsum q = 1 /\ forall i, (i < length p)%nat -> vget q i * qsum p = vget p i) /\
    (qsum p = 0 -> forall x, In x q -> x = 0).
Proof.
  unfold projection. destruct (to_plot_axis ax) as [a|]; [|discriminate]. cbn [rbind].
  match goal with |- rbind ?r _ = _ -> _ => destruct r as [p0|] end; [|discriminate]. cbn [rbind].
  intros [= <- <-]. eexists. split; [reflexivity|]. split; [apply map_length|]. apply normalize_lemma.
Qed.
Lemma projection_both_lemma m ax Emin Emax nrm : to_plot_axis ax = Ok AxBoth ->
  projection m ax Emin Emax nrm = Raise ValueError.
Proof. intros H. unfold projection. now rewrite H. Qed.
Lemma nearest_index l e i : nondecreasing l -> nearest l e i -> index l e = i.
Proof.
  intros S H. apply (nearest_unique l e); [|exact H]. apply index_nearest_lemma; [|exact S].
  destruct H as [H _]. destruct l; [cbn in H; lia|discriminate].
Qed.
Lemma cut_diagonal_nearest_lemma m p q x0 y0 x1 y1 : consistent m ->
  nondecreasing (Eg m) -> nondecreasing (Ex m) ->
  nearest (Eg m) (fst p) x0 -> nearest (Ex m) (snd p) y0 ->
  nearest (Eg m) (fst q) x1 -> nearest (Ex m) (snd q) y1 -> x0 <> x1 ->
  exists m', cut_diagonal m (Some p) (Some q) = Ok m' /\ consistent m' /\
    Eg m' = Eg m /\ Ex m' = Ex m /\ std m' = std m /\ state m' = state m /\
    (forall i j, (i < length (Ex m))%nat -> (j < length (Eg m))%nat ->
      (below_line (qnat x0, qnat y0) (qnat x1, qnat y1) (qnat j) (qnat i) -> aget (values m') i j = 0) /\
      (~ below_line (qnat x0, qnat y0) (qnat x1, qnat y1) (qnat j) (qnat i) -> aget (values m') i j = aget (values m) i j)) /\
    cut_diagonal m' (Some p) (Some q) = Ok m'.
Proof.
  intros C SG SX H1 H2 H3 H4 N. pose proof (cut_diagonal_lemma m p q C) as L. unfold bin_pt in L.
  rewrite (nearest_index _ _ _ SG H1), (nearest_index _ _ _ SX H2), (nearest_index _ _ _ SG H3), (nearest_index _ _ _ SX H4) in L.
  exact (L N).
Qed.
Lemma cut_diagonal_err_nearest m p q :
  cut_diagonal m None q = Raise ValueError /\ cut_diagonal m p None = Raise ValueError /\
  (forall a b x, nondecreasing (Eg m) -> nearest (Eg m) (fst a) x -> nearest (Eg m) (fst b) x ->
     cut_diagonal m (Some a) (Some b) = Raise AssertionError).
Proof.
  destruct (cut_diagonal_err m p q) as (H1 & H2 & H3). split; [exact H1|]. split; [exact H2|].
  intros a b x S A B. apply H3. now rewrite (nearest_index _ _ _ S A), (nearest_index _ _ _ S B).
Qed.
Lemma diagonal_elements_lemma a : (forall r, In r (a_rows a) -> length r = a_nc a) ->
  (forall i j, In (i, j) (diagonal_elements a) <->
     (i < a_nr a)%nat /\ (0 < j <= a_nc a)%nat /\ last_nonzero (nth i (a_rows a) []) (j - 1)) /\
  StronglySorted lt (map fst (diagonal_elements a)).
Proof.
  intros H. split.
  - intros i j. unfold diagonal_elements. rewrite diag_rows_in by exact H. rewrite Nat.sub_0_r. unfold a_nr. intuition lia.
  - apply diag_rows_sorted.
Qed.
