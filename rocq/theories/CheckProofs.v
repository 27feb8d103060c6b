(* Lemmas on the consistency checks and on cut_like. *)
From Verif Require Import PyBase Axis MatrixModel MatrixSpec CutSpec CutProofs MatrixProofs CheckModel.

Lemma shaped_nr_nc a : rect_arr a -> forall nr nc, a_nr a = nr -> a_nc a = nc -> shaped a nr nc.
Proof. intros H nr nc <- <-. split; [reflexivity|]. split; [reflexivity|exact H]. Qed.
Lemma constructor_accepts v eg ex s st m : rect_arr v -> (forall x, s = Some x -> rect_arr x) ->
  mk_matrix v eg ex s st = Ok m ->
  consistent m /\ values m = v /\ std m = s /\
  (forall e, eg = Some e -> Eg m = e) /\ (forall e, ex = Some e -> Ex m = e) /\
  (eg = None -> forall j, (j < length (Eg m))%nat -> nth j (Eg m) 0 = qnat j + qn 1 2) /\
  (ex = None -> forall i, (i < length (Ex m))%nat -> nth i (Ex m) 0 = qnat i + qn 1 2) /\
  Ok (state m) = set_state st.
Proof.
  intros RV RS. unfold mk_matrix. cbv zeta. set (ex' := match ex with Some e => e | None => _ end). set (eg' := match eg with Some e => e | None => _ end).
  destruct (verify_integrity _) as [[]|] eqn:V; [|discriminate]. cbn [rbind]. destruct (set_state st) as [t|] eqn:S; [|discriminate]. cbn [rbind].
  intros [= <-]. unfold verify_integrity in V. cbn [values Ex Eg std] in V.
  destruct (Nat.eqb_spec (a_nr v) (length ex')) as [E1|]; [|discriminate]. cbn [negb] in V.
  destruct (Nat.eqb_spec (a_nc v) (length eg')) as [E2|]; [|discriminate]. cbn [negb] in V.
  split.
  { split; cbn [values Ex Eg std]; [now apply shaped_nr_nc|]. destruct s as [s|]; [|exact I].
    destruct (pair_eqb (shape v) (shape s)) eqn:P; [|discriminate]. unfold pair_eqb, shape in P. cbn [fst snd] in P.
    apply andb_true_iff in P as [P1 P2]. apply Nat.eqb_eq in P1, P2. apply shaped_nr_nc; [now apply RS|congruence|congruence]. }
  cbn [values std Eg Ex state]. split; [reflexivity|]. split; [reflexivity|].
  split; [now intros e ->|]. split; [now intros e ->|].
  assert (D : forall n j, (j < length (default_axis n))%nat -> nth j (default_axis n) 0 = qnat j + qn 1 2).
  { intros n j Hj. unfold default_axis in Hj |- *. rewrite tab_length in Hj. now rewrite nth_tab. }
  split; [|split; [|reflexivity]].
  - intros EG j Hj. subst eg' eg. cbv beta iota. apply D. exact Hj.
  - intros EX j Hj. subst ex' ex. cbv beta iota. apply D. exact Hj.
Qed.
Lemma constructor_rejects v eg ex s st :
  (exists e, ex = Some e /\ length e <> a_nr v) \/ (exists e, eg = Some e /\ length e <> a_nc v) \/
  (exists x, s = Some x /\ (a_nr x <> a_nr v \/ a_nc x <> a_nc v)) ->
  mk_matrix v eg ex s st = Raise ValueError.
Proof.
  intros H. unfold mk_matrix. cbv zeta. set (ex' := match ex with Some e => e | None => _ end). set (eg' := match eg with Some e => e | None => _ end).
  unfold verify_integrity. cbn [values Ex Eg std].
  destruct (Nat.eqb_spec (a_nr v) (length ex')) as [E1|]; [|reflexivity]. cbn [negb].
  destruct (Nat.eqb_spec (a_nc v) (length eg')) as [E2|]; [|reflexivity]. cbn [negb].
  destruct H as [(e & -> & N)|[(e & -> & N)|(x & -> & N)]].
  - exfalso. apply N. symmetry. exact E1.
  - exfalso. apply N. symmetry. exact E2.
  - unfold pair_eqb, shape. cbn [fst snd].
    destruct (Nat.eqb_spec (a_nr v) (a_nr x)), (Nat.eqb_spec (a_nc v) (a_nc x)); cbn [andb]; try reflexivity. exfalso. destruct N; congruence.
Qed.
Lemma constructor_total v eg ex s st : (forall e, ex = Some e -> length e = a_nr v) -> (forall e, eg = Some e -> length e = a_nc v) ->
  (forall x, s = Some x -> a_nr x = a_nr v /\ a_nc x = a_nc v) -> (exists t, set_state st = Ok t) ->
  exists m, mk_matrix v eg ex s st = Ok m.
Proof.
  intros H1 H2 H3 (t & H4). unfold mk_matrix. cbv zeta. unfold verify_integrity. cbn [values Ex Eg std].
  assert (L : forall n, length (default_axis n) = n) by (intros; apply tab_length).
  assert (E1 : a_nr v = length match ex with Some e => e | None => default_axis (a_nr v) end) by (destruct ex; [symmetry; auto|now rewrite L]).
  assert (E2 : a_nc v = length match eg with Some e => e | None => default_axis (a_nc v) end) by (destruct eg; [symmetry; auto|now rewrite L]).
  rewrite <- E1, <- E2, !Nat.eqb_refl. cbn [negb]. destruct s as [s|].
  - destruct (H3 s eq_refl) as [P1 P2]. unfold pair_eqb, shape. cbn [fst snd]. rewrite P1, P2, !Nat.eqb_refl. cbn [andb rbind]. rewrite H4. cbn. eauto.
  - cbn [rbind]. rewrite H4. cbn. eauto.
Qed.

(* equidistance *)
Lemma diffs_length l : length (diffs l) = (length l - 1)%nat.
Proof. induction l as [|x [|y l] IH]; try reflexivity. change (diffs (x :: y :: l)) with ((y - x) :: diffs (y :: l)). cbn [length] in IH |- *. rewrite IH. lia. Qed.
Lemma diffs_nth l : forall i, (S i < length l)%nat -> nth i (diffs l) 0 = nth (S i) l 0 - nth i l 0.
Proof.
  induction l as [|x [|y l] IH]; intros i Hi; cbn in Hi; try lia.
  change (diffs (x :: y :: l)) with ((y - x) :: diffs (y :: l)). destruct i; [reflexivity|]. cbn [nth]. apply IH. cbn. lia.
Qed.
Lemma equidistant_check l : (2 < length l)%nat ->
  verify_equidistant l = Ok tt <->
  forall i, (S i < length l)%nat -> qabs ((nth (S i) l 0 - nth i l 0) - (nth 2 l 0 - nth 1 l 0)) < qn 15 10000000.
Proof.
  intros L. unfold verify_equidistant. rewrite (proj2 (Nat.ltb_lt _ _) L). cbv zeta.
  rewrite (diffs_nth l 1) by lia.
  assert (F : forallb (fun x => almost_zero (x - (nth 2 l 0 - nth 1 l 0))) (diffs l) = true <->
    forall i, (S i < length l)%nat -> qabs ((nth (S i) l 0 - nth i l 0) - (nth 2 l 0 - nth 1 l 0)) < qn 15 10000000).
  { rewrite forallb_forall. split.
    - intros H i Hi. rewrite <- diffs_nth by assumption. apply qltb_lt. apply H. apply nth_In. rewrite diffs_length. lia.
    - intros H x Hx. apply (In_nth _ _ 0) in Hx as (i & Hi & <-). rewrite diffs_length in Hi. unfold almost_zero. rewrite diffs_nth by lia.
      apply qltb_lt, H. lia. }
  destruct (forallb _ _); split; intros H; try reflexivity; try discriminate; [now apply F|]. apply F in H. discriminate.
Qed.
Lemma equidistant_ok l : (exists a0 a1, forall i, (i < length l)%nat -> nth i l 0 = a0 + a1 * qnat i) -> verify_equidistant l = Ok tt.
Proof.
  intros (a0 & a1 & H). destruct (Nat.ltb_spec 2 (length l)) as [L|L].
  - apply equidistant_check; [exact L|]. intros i Hi. rewrite !H by lia.
    assert (E : a0 + a1 * qnat (S i) - (a0 + a1 * qnat i) - (a0 + a1 * qnat 2 - (a0 + a1 * qnat 1)) = 0).
    { rewrite !qnat_S. ring. }
    rewrite E. vm_compute. reflexivity.
  - unfold verify_equidistant. destruct (Nat.ltb_spec 2 (length l)); [lia|]. reflexivity.
Qed.
Lemma qabs_bound x b : qabs x < b <-> - b < x /\ x < b.
Proof. destruct (qabs_spec x) as [[A ->]|[A ->]]; (split; [intros B; split|intros [B1 B2]]); qlra. Qed.
(* the positions deviate at most linearly *)
Lemma equidistant_deviation l : (2 < length l)%nat -> verify_equidistant l = Ok tt ->
  forall i, (i < length l)%nat -> qabs (nth i l 0 - (nth 0 l 0 + qnat i * (nth 2 l 0 - nth 1 l 0))) <= qnat i * qn 15 10000000.
Proof.
  intros L V. pose proof (proj1 (equidistant_check l L) V) as H. set (w := nth 2 l 0 - nth 1 l 0) in *. clearbody w.
  induction i as [|i IH]; intros Hi.
  - change (qnat 0) with 0. assert (E : nth 0 l 0 - (nth 0 l 0 + 0 * w) = 0) by ring. rewrite E. rewrite (Qcmult_0_l). vm_compute. discriminate.
  - specialize (IH ltac:(lia)). specialize (H i Hi). set (q := qn 15 10000000) in *. clearbody q.
    set (a := nth (S i) l 0) in *. set (b := nth i l 0) in *. set (z := nth 0 l 0) in *. clearbody a b z.
    rewrite qnat_S. set (n := qnat i) in *. clearbody n.
    apply qabs_bound in H as [H1 H2].
    assert (A1 : - (n * q) <= b - (z + n * w) /\ b - (z + n * w) <= n * q) by (destruct (qabs_spec (b - (z + n * w))) as [[A E]|[A E]]; rewrite E in IH; split; qlra).
    assert (E1 : (n + 1) * q = n * q + q) by ring. assert (E2 : a - (z + (n + 1) * w) = (b - (z + n * w)) + (a - b - w)) by ring.
    rewrite E1, E2. set (u := b - (z + n * w)) in *. set (v := a - b - w) in *. set (p := n * q) in *. clearbody u v p. clear E1 E2 IH Hi L V. destruct A1 as [A1 A1x].
    destruct (qabs_spec (u + v)) as [[A ->]|[A ->]]; qlra.
Qed.
Lemma check_integrity_lemma m c : rect_arr (values m) -> (forall s, std m = Some s -> rect_arr s) ->
  verify_integrity_eq m c = Ok tt <->
  consistent m /\ (c = true -> verify_equidistant (Ex m) = Ok tt /\ verify_equidistant (Eg m) = Ok tt).
Proof.
  intros RV RS. unfold verify_integrity_eq. split.
  - destruct (Nat.eqb_spec (a_nr (values m)) (length (Ex m))) as [E1|]; [|discriminate]. cbn [negb].
    destruct (Nat.eqb_spec (a_nc (values m)) (length (Eg m))) as [E2|]; [|discriminate]. cbn [negb].
    destruct (if c then _ else Ok tt) as [[]|] eqn:Q; [|discriminate]. cbn [rbind]. intros V. split.
    + split; [now apply shaped_nr_nc|]. destruct (std m) as [s|]; [|exact I]. destruct (pair_eqb _ _) eqn:P; [|discriminate].
      unfold pair_eqb, shape in P. cbn [fst snd] in P. apply andb_true_iff in P as [P1 P2]. apply Nat.eqb_eq in P1, P2.
      apply shaped_nr_nc; [now apply RS|congruence|congruence].
    + intros ->. destruct (verify_equidistant (Ex m)) as [[]|]; [|discriminate]. cbn [rbind] in Q. auto.
  - intros [[(S1 & S2 & S3) T] H]. unfold a_nr. rewrite S1, S2, !Nat.eqb_refl. cbn [negb].
    assert (Q : (if c then do _ <- verify_equidistant (Ex m);; verify_equidistant (Eg m) else Ok tt) = Ok tt).
    { destruct c; [|reflexivity]. destruct (H eq_refl) as [-> ->]. reflexivity. }
    rewrite Q. cbn [rbind]. destruct (std m) as [s|]; [|reflexivity]. destruct T as (T1 & T2 & T3). unfold pair_eqb, shape, a_nr. cbn [fst snd].
    rewrite S1, S2, T1, T2, !Nat.eqb_refl. reflexivity.
Qed.

(* cut_like *)
Lemma in_window_gen_incl a b : in_window_gen a b true true = in_window a b. Proof. reflexivity. Qed.
Lemma select_rows_shape {A} (p : Qc -> bool) E (v : list A) : length v = length E -> length (select p E v) = length (filter p E).
Proof.
  revert v. induction E as [|e E IH]; intros [|x v] H; cbn in H; try discriminate; [reflexivity|].
  unfold select in *. cbn. destruct (p e); cbn; rewrite IH by lia; reflexivity.
Qed.
Lemma select_in {A} (p : Qc -> bool) E (v : list A) x : In x (select p E v) -> In x v.
Proof. unfold select. rewrite in_map_iff. intros ([a b] & <- & H). apply filter_In in H as [H _]. now apply in_combine_r in H. Qed.
Lemma py_max_spec' l : l <> [] -> exists m, py_max l = Ok m /\ In m l /\ forall y, In y l -> y <= m.
Proof. apply py_max_spec. Qed.
Lemma cut_inplace_std v g x s t ax a b i j : cut_inplace (mkM v g x s t) ax a b i j =
  match cut_inplace (mkM v g x None None) ax a b i j with Ok m => Ok (mkM (values m) (Eg m) (Ex m) s t) | Raise e => Raise e end.
Proof.
  unfold cut_inplace, cut_data. cbn [Eg Ex values std state]. destruct (to_plot_axis ax) as [p|]; [|reflexivity]. cbn [rbind].
  destruct (cut_bounds _ a b i j) as [[lo hi]|]; [|reflexivity]. cbn [rbind]. destruct p; reflexivity.
Qed.
Section L.
Variables (m other : matrix) (lox hix log hig : Qc).
Hypothesis C : consistent m.
Hypothesis NX : Ex m <> []. Hypothesis NG : Eg m <> [].
Hypothesis IX : increasing (Ex m). Hypothesis IG : increasing (Eg m).
Hypothesis OX : (In lox (Ex other) /\ forall y, In y (Ex other) -> lox <= y) /\ (In hix (Ex other) /\ forall y, In y (Ex other) -> y <= hix).
Hypothesis OG : (In log (Eg other) /\ forall y, In y (Eg other) -> log <= y) /\ (In hig (Eg other) /\ forall y, In y (Eg other) -> y <= hig).
Let kx := in_window (Some lox) (Some hix).
Let kg := in_window (Some log) (Some hig).
Lemma py_min_is l a : In a l -> (forall y, In y l -> a <= y) -> py_min l = Ok a.
Proof.
  intros H1 H2. destruct (py_min_spec l) as (b & -> & H3 & H4); [now intros ->|]. f_equal.
  apply Qcle_antisym; [now apply H4|now apply H2].
Qed.
Lemma py_max_is l a : In a l -> (forall y, In y l -> y <= a) -> py_max l = Ok a.
Proof.
  intros H1 H2. destruct (py_max_spec l) as (b & -> & H3 & H4); [now intros ->|]. f_equal.
  apply Qcle_antisym; [now apply H2|now apply H4].
Qed.
Let step1 := mkM (mkArr (length (Eg m)) (select kx (Ex m) (a_rows (values m)))) (Eg m) (filter kx (Ex m)) (std m) (state m).
Lemma step1_eq : cut_inplace m (AInt 1) (Some lox) (Some hix) true true = Ok step1.
Proof. exact (cut_Ex_lemma m (AInt 1) (Some lox) (Some hix) true true C eq_refl NX IX (or_introl eq_refl) (or_introl eq_refl)). Qed.
Lemma step2_eq s t : cut_inplace (mkM (values step1) (Eg step1) (Ex step1) s t) (AInt 0) (Some log) (Some hig) true true =
  Ok (mkM (mkArr (length (filter kg (Eg m))) (map (select kg (Eg m)) (select kx (Ex m) (a_rows (values m)))))
          (filter kg (Eg m)) (filter kx (Ex m)) s t).
Proof.
  rewrite cut_inplace_std. destruct C as [(S1 & S2 & S3) _].
  rewrite (cut_Eg_lemma (mkM (values step1) (Eg step1) (Ex step1) None None) (AInt 0) (Some log) (Some hig) true true);
    [reflexivity| |reflexivity|exact NG|exact IG|now left|now left].
  split; [|exact I]. cbn [values Ex Eg step1]. split; [reflexivity|]. cbn [a_rows]. split; [now apply select_rows_shape|].
  intros r Hr. apply S3. now apply select_in in Hr.
Qed.
Lemma cut_like_inplace_lemma : cut_like_inplace m other =
  (mkM (mkArr (length (filter kg (Eg m))) (map (select kg (Eg m)) (select kx (Ex m) (a_rows (values m)))))
       (filter kg (Eg m)) (filter kx (Ex m)) (std m) (state m), Ok tt).
Proof.
  unfold cut_like_inplace. destruct OX as [[A1 A2] [A3 A4]], OG as [[B1 B2] [B3 B4]].
  rewrite (py_min_is _ lox), (py_max_is _ hix) by assumption. cbn [rbind]. rewrite step1_eq.
  rewrite (py_min_is _ log), (py_max_is _ hig) by assumption. cbn [rbind].
  change step1 with (mkM (values step1) (Eg step1) (Ex step1) (std m) (state m)). now rewrite step2_eq.
Qed.
Lemma cut_like_copy_lemma : cut_like_copy m other =
  Ok (mkM (mkArr (length (filter kg (Eg m))) (map (select kg (Eg m)) (select kx (Ex m) (a_rows (values m)))))
       (filter kg (Eg m)) (filter kx (Ex m)) None None).
Proof.
  unfold cut_like_copy. destruct OX as [[A1 A2] [A3 A4]], OG as [[B1 B2] [B3 B4]]. destruct C as [(S1 & S2 & S3) _].
  rewrite (py_min_is _ lox), (py_max_is _ hix) by assumption. cbn [rbind].
  rewrite (cut_copy_lemma m (AInt 1) (Some lox) (Some hix) true true step1);
    [| | exact S2 | exact S1 | exact step1_eq].
  2:{ intros r Hr. rewrite S1. now apply S3. }
  cbn [rbind]. rewrite (py_min_is _ log), (py_max_is _ hig) by assumption. cbn [rbind]. apply step2_eq.
Qed.
End L.
