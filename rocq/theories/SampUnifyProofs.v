From Coq Require Import Sorted.
From Verif Require Import Num PyBase CutSpec SampStatModel SampStatSpec SampStatProofs.

Lemma qin_In x m : qin x m = true <-> In x m.
Proof.
  unfold qin. rewrite existsb_exists. split.
  - intros (y & I & H). apply qeqb_eq in H. now subst.
  - intros I. exists x. split; [exact I|]. now apply qeqb_eq.
Qed.

Lemma Forall2_weaken {A B} (R Q : A -> B -> Prop) l m : (forall x y, R x y -> Q x y) -> Forall2 R l m -> Forall2 Q l m.
Proof. intros H F. induction F; constructor; auto. Qed.

Lemma Forall2_diag {A} (R : A -> A -> Prop) l : (forall x, R x x) -> Forall2 R l l.
Proof. intros H. induction l; constructor; auto. Qed.

(* ---------------- union1d ---------------- *)
Lemma dedup_In x l : In x (dedup l) <-> In x l.
Proof.
  induction l as [|y l IH]; [reflexivity|]. cbn [dedup]. destruct l as [|z l]; [reflexivity|].
  destruct (qeqb_spec y z) as [->|N].
  - rewrite IH. cbn. tauto.
  - cbn [In] in *. rewrite IH. reflexivity.
Qed.
Lemma dedup_increasing l : ndec l -> increasing (dedup l).
Proof.
  intros H. induction H as [|x l H IH F]; [constructor|]. cbn [dedup].
  destruct l as [|y l]; [repeat constructor|].
  destruct (qeqb_spec x y) as [E|N]; [exact IH|]. constructor; [exact IH|].
  apply Forall_forall. intros z Hz. apply (proj1 (dedup_In _ _)) in Hz.
  inversion F as [|? ? F1 F2]; subst. inversion H as [|? ? H1 H2]; subst.
  assert (x < y) by (destruct (Qcle_lt_or_eq _ _ F1); [assumption|contradiction]).
  destruct Hz as [<-|Hz]; [assumption|]. rewrite Forall_forall in H2. specialize (H2 z Hz). qlra.
Qed.
Lemma union1d_In x a b : In x (union1d a b) <-> In x a \/ In x b.
Proof.
  unfold union1d. rewrite dedup_In, <- in_app_iff.
  split; apply Permutation_in; [symmetry|]; apply isort_perm.
Qed.
Lemma union1d_increasing a b : increasing (union1d a b).
Proof. apply dedup_increasing, isort_sorted. Qed.

(* ---------------- increasing lists ---------------- *)
Lemma increasing_ext l : forall m, increasing l -> increasing m -> (forall x, In x l <-> In x m) -> l = m.
Proof.
  induction l as [|x l IH]; intros m Hl Hm E.
  - destruct m as [|y m]; [reflexivity|]. exfalso. apply (E y). now left.
  - destruct m as [|y m]; [exfalso; apply (E x); now left|].
    inversion Hl as [|? ? L1 L2]; inversion Hm as [|? ? M1 M2]; subst.
    rewrite Forall_forall in L2, M2.
    assert (x = y) as ->.
    { destruct (proj1 (E x) (or_introl eq_refl)) as [A|A]; [now symmetry|].
      destruct (proj2 (E y) (or_introl eq_refl)) as [B|B]; [exact B|].
      specialize (M2 x A). specialize (L2 y B). exfalso. qlra. }
    f_equal. apply IH; auto. intros z. split; intros I.
    + destruct (proj1 (E z) (or_intror I)) as [A|A]; [|exact A]. subst z. specialize (L2 y I). exfalso. qlra.
    + destruct (proj2 (E z) (or_intror I)) as [A|A]; [|exact A]. subst z. specialize (M2 y I). exfalso. qlra.
Qed.
Lemma filter_increasing p l : increasing l -> increasing (filter p l).
Proof.
  intros H. induction H as [|x l H IH F]; cbn; [constructor|]. destruct (p x); [|exact IH].
  constructor; [exact IH|]. apply Forall_forall. intros y Hy. apply filter_In in Hy.
  rewrite Forall_forall in F. now apply F.
Qed.
Lemma filters_agree U E : increasing U -> increasing E ->
  filter (fun x => qin x E) U = filter (fun x => qin x U) E.
Proof.
  intros HU HE. apply increasing_ext; try now apply filter_increasing.
  intros x. rewrite !filter_In, !qin_In. tauto.
Qed.

(* ---------------- putting the values on the grid ---------------- *)
Lemma count_true_map {A} (p : A -> bool) l : count_true (map p l) = length (filter p l).
Proof.
  unfold count_true. induction l as [|x l IH]; cbn; [reflexivity|]. destruct (p x); cbn; congruence.
Qed.
Lemma mask_sel_pairs {B} (p : Qc -> bool) E : forall (vals : list B), length vals = length E ->
  exists P, map fst P = filter p E /\ map snd P = mask_sel (map p E) vals /\ P = filter (fun xv => p (fst xv)) (combine E vals).
Proof.
  induction E as [|x E IH]; intros vals L; cbn.
  - exists []. auto.
  - destruct vals as [|v vals]; [discriminate|]. cbn in L. destruct (IH vals) as (P & P1 & P2 & P3); [lia|].
    cbn. destruct (p x).
    + exists ((x, v) :: P). cbn. rewrite P1, P2, P3. auto.
    + exists P. auto.
Qed.
Fixpoint lookup (P : list (Qc * option Qc)) (e : Qc) : option Qc :=
  match P with [] => None | (x, v) :: P' => if qeqb x e then v else lookup P' e end.
Lemma value_at_lookup E : forall vals e, value_at E vals e = lookup (combine E vals) e.
Proof. induction E as [|x E IH]; intros [|v vals] e; cbn; auto. now rewrite IH. Qed.
Lemma lookup_filter p P e : p e = true -> lookup (filter (fun xv => p (fst xv)) P) e = lookup P e.
Proof.
  intros H. induction P as [|[x v] P IH]; cbn; [reflexivity|].
  destruct (qeqb_spec x e) as [->|N].
  - rewrite H. cbn. destruct (qeqb_spec e e); congruence.
  - destruct (p x); cbn; [|exact IH]. destruct (qeqb_spec x e); congruence.
Qed.
Lemma mask_put_lookup p U : forall P, NoDup U -> filter p U = map fst P ->
  mask_put (map p U) (map (fun _ => None) U) (map snd P) = map (fun e => if p e then lookup P e else None) U.
Proof.
  induction U as [|x U IH]; intros P N F; [reflexivity|].
  inversion N as [|? ? N1 N2]; subst. cbn [map mask_put]. cbn [filter] in F. destruct (p x) eqn:Px.
  - destruct P as [|[y v] P]; [discriminate|]. cbn [map fst] in F. injection F as -> F. cbn [map snd].
    cbn [lookup]. destruct (qeqb_spec y y) as [_|C]; [|congruence]. f_equal.
    rewrite (IH P N2 F). apply map_ext_in. intros e He. destruct (p e); [|reflexivity].
    destruct (qeqb_spec y e) as [->|_]; [contradiction|reflexivity].
  - f_equal. now apply IH.
Qed.
Lemma increasing_NoDup l : increasing l -> NoDup l.
Proof.
  intros H. induction H as [|x l H IH F]; constructor; auto. intros I. rewrite Forall_forall in F.
  specialize (F x I). qlra.
Qed.
Lemma value_at_map f U e : In e U -> value_at U (map f U) e = f e.
Proof.
  induction U as [|x U IH]; intros I; [destruct I|]. cbn. destruct (qeqb_spec x e) as [->|N]; [reflexivity|].
  apply IH. destruct I; [contradiction|assumption].
Qed.
Lemma value_at_absent E vals e : ~ In e E -> value_at E vals e = None.
Proof.
  revert vals. induction E as [|x E IH]; intros [|v vals] N; cbn; auto.
  destruct (qeqb_spec x e) as [->|M]; [exfalso; apply N; now left|]. apply IH. intros I. apply N. now right.
Qed.
Lemma extend_values_lemma U v : increasing U -> sane v ->
  exists v', vec_extend_values U v = Ok v' /\ s_E v' = U /\ length (s_val v') = length U /\ s_std v' = s_std v /\
    s_val v' = map (sample_at v) U.
Proof.
  intros HU (NE & HE & L). unfold vec_extend_values.
  assert (Lm : length (in1d (s_E v) U) = length (s_val v)) by (unfold in1d; now rewrite map_length, L).
  rewrite Lm, Nat.eqb_refl. cbn [negb].
  replace (count_true (in1d U (s_E v))) with (count_true (in1d (s_E v) U)).
  2:{ unfold in1d. rewrite !count_true_map. now rewrite (filters_agree U (s_E v) HU HE). }
  rewrite Nat.eqb_refl. cbn [negb]. eexists. split; [reflexivity|]. cbn [s_E s_val s_std].
  destruct (mask_sel_pairs (fun x => qin x U) (s_E v) (s_val v) L) as (P & P1 & P2 & P3).
  assert (X : mask_put (in1d U (s_E v)) (map (fun _ => None) U) (mask_sel (in1d (s_E v) U) (s_val v)) = map (sample_at v) U).
  { unfold in1d. rewrite <- P2.
    rewrite (mask_put_lookup (fun x => qin x (s_E v)) U P).
    - apply map_ext_in. intros e He. unfold sample_at. destruct (qin e (s_E v)) eqn:Q.
      + rewrite value_at_lookup, P3. apply (lookup_filter (fun x => qin x U)). now apply qin_In.
      + rewrite value_at_absent; [reflexivity|]. intros I. apply qin_In in I. congruence.
    - now apply increasing_NoDup.
    - rewrite P1. now apply filters_agree. }
  rewrite X. repeat split; auto. apply map_length.
Qed.

(* ---------------- argmin / argmax ---------------- *)
Lemma argbest_spec (better : Qc -> Qc -> bool) (R : Qc -> Qc -> Prop) :
  (forall x, R x x) -> (forall x y z, R x y -> R y z -> R x z) ->
  (forall x y, better y x = true -> R y x) -> (forall x y, better y x = false -> R x y) ->
  forall r pre i x, nth_error pre i = Some x -> (forall y, In y pre -> R x y) ->
  exists z, nth_error (pre ++ r) (argbest better i x (length pre) r) = Some z /\ (forall y, In y (pre ++ r) -> R z y).
Proof.
  intros Rr Rt B1 B2. induction r as [|y r IH]; intros pre i x N M; cbn [argbest].
  - rewrite app_nil_r. eauto.
  - replace (pre ++ y :: r) with ((pre ++ [y]) ++ r) by (rewrite <- app_assoc; reflexivity).
    replace (S (length pre)) with (length (pre ++ [y])) by (rewrite app_length; cbn; lia).
    destruct (better y x) eqn:B.
    + apply IH.
      * rewrite nth_error_app2 by lia. now rewrite Nat.sub_diag.
      * intros w Hw. apply in_app_iff in Hw. destruct Hw as [Hw|[<-|[]]]; [|apply Rr]. eapply Rt; eauto.
    + apply IH.
      * rewrite nth_error_app1; [exact N|]. apply nth_error_Some. congruence.
      * intros w Hw. apply in_app_iff in Hw. destruct Hw as [Hw|[<-|[]]]; auto.
Qed.
Lemma argmin_spec l : l <> [] -> exists z, nth_error l (argmin l) = Some z /\ forall y, In y l -> z <= y.
Proof.
  intros N. destruct l as [|x l]; [congruence|].
  refine (argbest_spec _ Qcle _ _ _ _ l [x] 0%nat x eq_refl _).
  - intros. apply Qcle_refl.
  - apply Qcle_trans.
  - intros a b H. apply qltb_lt in H. qlra.
  - intros a b H. now apply qltb_ge in H.
  - intros y [<-|[]]. apply Qcle_refl.
Qed.
Lemma argmax_spec l : l <> [] -> exists z, nth_error l (argmax l) = Some z /\ forall y, In y l -> y <= z.
Proof.
  intros N. destruct l as [|x l]; [congruence|].
  refine (argbest_spec _ (fun a b => b <= a) _ _ _ _ l [x] 0%nat x eq_refl _).
  - intros. apply Qcle_refl.
  - intros a b c H1 H2. eapply Qcle_trans; eassumption.
  - intros a b H. apply qltb_lt in H. qlra.
  - intros a b H. now apply qltb_ge in H.
  - intros y [<-|[]]. apply Qcle_refl.
Qed.

(* ---------------- the whole function ---------------- *)
Lemma rmapl_all {A B} (f : A -> result B) (g : A -> B) l : (forall x, In x l -> f x = Ok (g x)) -> rmapl f l = Ok (map g l).
Proof.
  induction l as [|x l IH]; intros H; [reflexivity|]. cbn. rewrite (H x) by now left. cbn.
  rewrite IH by (intros; apply H; now right). reflexivity.
Qed.
Lemma rmapl_rel {A B} (f : A -> result B) (R : A -> B -> Prop) l :
  (forall x, In x l -> exists y, f x = Ok y /\ R x y) -> exists l', rmapl f l = Ok l' /\ Forall2 R l l'.
Proof.
  induction l as [|x l IH]; intros H; [exists []; split; [reflexivity|constructor]|].
  destruct (H x) as (y & Hy & Ry); [now left|].
  destruct IH as (l' & Hl & Rl); [intros; apply H; now right|].
  exists (y :: l'). cbn. rewrite Hy. cbn. rewrite Hl. split; [reflexivity|]. now constructor.
Qed.
Lemma last_nth (x : Qc) r : forall d, last (x :: r) d = vget (x :: r) (length (x :: r) - 1).
Proof.
  revert x. induction r as [|y r IH]; intros x d; [reflexivity|].
  change (last (x :: y :: r) d) with (last (y :: r) d). rewrite IH. cbn [length]. unfold vget.
  replace (S (S (length r)) - 1)%nat with (S (S (length r) - 1)) by lia. reflexivity.
Qed.
Lemma extend_ends v : sane v -> vec_extend v = Ok (first_E v, last_E v).
Proof.
  intros (N & _ & _). unfold vec_extend, first_E, last_E. destruct (s_E v) as [|x r] eqn:E; [congruence|].
  rewrite last_nth. reflexivity.
Qed.

Lemma unify_lemma df : df <> [] -> Forall sane df ->
  (same_ends df /\ samples_unify_E df = Ok df) \/
  (~ same_ends df /\ exists v w df', In v df /\ In w df /\
    (forall u, In u df -> first_E v <= first_E u /\ last_E u <= last_E w) /\
    samples_unify_E df = Ok df' /\
    Forall2 (fun u u' => s_E u' = union1d (s_E v) (s_E w) /\ length (s_val u') = length (s_E u') /\
                         s_std u' = s_std u /\ s_val u' = map (sample_at u) (s_E u')) df df').
Proof.
  intros N H. rewrite Forall_forall in H. unfold samples_unify_E.
  rewrite (rmapl_all vec_extend (fun v => (first_E v, last_E v))) by (intros x Hx; apply extend_ends; auto).
  cbn [rbind]. set (ext := map (fun v => (first_E v, last_E v)) df).
  destruct ext as [|e0 er] eqn:Ee; [destruct df; [congruence|discriminate]|]. rewrite <- Ee.
  assert (I0 : exists v0, In v0 df /\ e0 = (first_E v0, last_E v0)).
  { destruct df as [|v0 dfr]; [congruence|]. exists v0. split; [now left|]. unfold ext in Ee. cbn in Ee. congruence. }
  destruct I0 as (v0 & I0 & ->).
  destruct (forallb _ ext) eqn:F.
  - left. split; [|reflexivity]. rewrite forallb_forall in F.
    assert (K : forall v, In v df -> first_E v0 = first_E v /\ last_E v0 = last_E v).
    { intros v Iv. specialize (F (first_E v, last_E v)). cbn [fst snd] in F.
      rewrite andb_true_iff, !qeqb_eq in F. apply F. unfold ext. now apply (in_map (fun v => (first_E v, last_E v))). }
    intros v w Iv Iw. destruct (K v Iv), (K w Iw). split; congruence.
  - right. split.
    { intros S. enough (forallb (fun e => qeqb (fst (first_E v0, last_E v0)) (fst e) && qeqb (snd (first_E v0, last_E v0)) (snd e)) ext = true) by congruence.
      apply forallb_forall. intros e Ie. unfold ext in Ie. apply in_map_iff in Ie. destruct Ie as (v & <- & Iv).
      cbn [fst snd]. rewrite andb_true_iff, !qeqb_eq. now apply S. }
    assert (M1 : map fst ext = map first_E df) by (unfold ext; rewrite map_map; now apply map_ext).
    assert (M2 : map snd ext = map last_E df) by (unfold ext; rewrite map_map; now apply map_ext).
    rewrite M1, M2.
    assert (Ne : map first_E df <> [] /\ map last_E df <> []) by (destruct df; [congruence|split; discriminate]).
    destruct (argmin_spec (map first_E df) (proj1 Ne)) as (zmin & Z1 & Z2).
    destruct (argmax_spec (map last_E df) (proj2 Ne)) as (zmax & Y1 & Y2).
    rewrite nth_error_map in Z1, Y1.
    destruct (nth_error df (argmin (map first_E df))) as [v|] eqn:Ev; [|discriminate].
    destruct (nth_error df (argmax (map last_E df))) as [w|] eqn:Ew; [|discriminate].
    injection Z1 as <-. injection Y1 as <-.
    rewrite (nth_error_nth df _ _ Ev), (nth_error_nth df _ _ Ew).
    destruct (rmapl_rel (vec_extend_values (union1d (s_E v) (s_E w)))
      (fun u u' => s_E u' = union1d (s_E v) (s_E w) /\ length (s_val u') = length (s_E u') /\
                         s_std u' = s_std u /\ s_val u' = map (sample_at u) (s_E u')) df) as (df' & D1 & D2).
    { intros u Iu. destruct (extend_values_lemma (union1d (s_E v) (s_E w)) u) as (u' & A & B & C & D & E);
        [apply union1d_increasing|auto|]. exists u'. split; [exact A|]. rewrite B. auto. }
    exists v, w, df'. split; [eapply nth_error_In; exact Ev|]. split; [eapply nth_error_In; exact Ew|].
    split; [|split; [exact D1|exact D2]]. intros u Iu. split; [apply Z2|apply Y2]; now apply in_map.
Qed.
