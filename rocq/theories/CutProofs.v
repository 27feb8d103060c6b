From Verif Require Import PyBase Axis MatrixModel CutSpec IndexProofs Rebin2DProofs.

(* --- slices --- *)
Lemma slice_bound_nat n i : (i <= n)%nat -> slice_bound (Z.of_nat n) (Z.of_nat i) = Z.of_nat i.
Proof. intros H. unfold slice_bound. destruct (Z.ltb_spec (Z.of_nat i) 0); lia. Qed.
Lemma py_slice_nat {A} (l : list A) a b : (a <= length l)%nat -> (b <= length l)%nat ->
  py_slice l (Z.of_nat a) (Z.of_nat b) = firstn (b - a) (skipn a l).
Proof.
  intros Ha Hb. unfold py_slice. rewrite !slice_bound_nat by assumption.
  rewrite Nat2Z.id. f_equal. lia.
Qed.
Lemma py_slice_map {A B} (f : A -> B) l lo hi : py_slice (map f l) lo hi = map f (py_slice l lo hi).
Proof. unfold py_slice. now rewrite map_length, skipn_map, firstn_map. Qed.
Lemma py_slice_length {A B} (l : list A) (m : list B) lo hi :
  length l = length m -> length (py_slice l lo hi) = length (py_slice m lo hi).
Proof. intros H. unfold py_slice. now rewrite !firstn_length, !skipn_length, H. Qed.
Lemma py_slice_in {A} (l : list A) lo hi x : In x (py_slice l lo hi) -> In x l.
Proof.
  unfold py_slice. intros H. rewrite <- (firstn_skipn (Z.to_nat (slice_bound (Z.of_nat (length l)) lo)) l).
  apply in_or_app. right. rewrite <- (firstn_skipn (Z.to_nat (slice_bound (Z.of_nat (length l)) hi
    - slice_bound (Z.of_nat (length l)) lo)) (skipn _ l)). apply in_or_app. now left.
Qed.
Lemma map_fst_combine {A B} (l : list A) (v : list B) : length l = length v -> map fst (combine l v) = l.
Proof. revert v. induction l; destruct v; cbn; intros; try lia; f_equal; auto. Qed.
Lemma map_snd_combine {A B} (l : list A) (v : list B) : length l = length v -> map snd (combine l v) = v.
Proof. revert v. induction l; destruct v; cbn; intros; try lia; f_equal; auto. Qed.

(* --- counting on sorted lists --- *)
Lemma cnt_split {A} (p : A -> bool) l k d : (k <= length l)%nat ->
  (forall j, (j < k)%nat -> p (nth j l d) = true) ->
  (forall j, (k <= j < length l)%nat -> p (nth j l d) = false) ->
  length (filter p l) = k.
Proof.
  revert k. induction l as [|x l IH]; intros k Hk H1 H2; cbn in *; [lia|].
  destruct k as [|k].
  - rewrite (H2 O) by lia. apply IH; [lia|lia|]. intros j Hj. apply (H2 (S j)). lia.
  - rewrite (H1 O) by lia. cbn. f_equal. apply IH; [lia| |].
    + intros j Hj. apply (H1 (S j)). lia.
    + intros j Hj. apply (H2 (S j)). lia.
Qed.

Definition cnt_lt (l : list Qc) (e : Qc) : nat := length (filter (fun x => qltb x e) l).
Definition cnt_le (l : list Qc) (e : Qc) : nat := length (filter (fun x => qleb x e) l).
Lemma filter_length_le' {A} (p : A -> bool) l : (length (filter p l) <= length l)%nat.
Proof. induction l; cbn; [lia|]. destruct (p a); cbn; lia. Qed.

Lemma index_lo l e : l <> [] -> increasing l ->
  cnt_lt l e = (if qltb (nth (index l e) l 0) e then S (index l e) else index l e).
Proof.
  intros Hne Hs. pose proof (increasing_nondecreasing _ Hs) as Hs'.
  destruct (index_nearest_lemma l e Hne Hs') as (H1 & H2 & H3).
  set (i := index l e) in *. unfold cnt_lt.
  destruct (qltb_spec (nth i l 0) e) as [Hlt|Hge]; apply (cnt_split _ _ _ 0).
  - lia.
  - intros j Hj. apply qltb_lt. destruct (Nat.eq_dec j i) as [->|]; [assumption|].
    assert (nth j l 0 < nth i l 0) by (apply (SSorted_nth _ _ 0 Hs); lia). qlra.
  - intros j Hj. apply qltb_ge.
    destruct (qltb_spec (nth j l 0) e) as [H|H]; [exfalso|assumption].
    assert (nth i l 0 < nth j l 0) by (apply (SSorted_nth _ _ 0 Hs); lia).
    specialize (H2 j ltac:(lia)). revert H2. q_minmax; intros; qlra.
  - lia.
  - intros j Hj. apply qltb_lt.
    destruct (qltb_spec (nth j l 0) e) as [H|H]; [assumption|exfalso].
    assert (nth j l 0 < nth i l 0) by (apply (SSorted_nth _ _ 0 Hs); lia).
    specialize (H2 j ltac:(lia)). revert H2. q_minmax; intros; qlra.
  - intros j Hj. apply qltb_ge. destruct (Nat.eq_dec j i) as [->|]; [assumption|].
    assert (nth i l 0 < nth j l 0) by (apply (SSorted_nth _ _ 0 Hs); lia). qlra.
Qed.
Lemma index_hi l e : l <> [] -> increasing l ->
  cnt_le l e = (if qltb e (nth (index l e) l 0) then index l e else S (index l e)).
Proof.
  intros Hne Hs. pose proof (increasing_nondecreasing _ Hs) as Hs'.
  destruct (index_nearest_lemma l e Hne Hs') as (H1 & H2 & H3).
  set (i := index l e) in *. unfold cnt_le.
  destruct (qltb_spec e (nth i l 0)) as [Hlt|Hge]; apply (cnt_split _ _ _ 0).
  - lia.
  - intros j Hj. apply qleb_le.
    destruct (qleb_spec (nth j l 0) e) as [H|H]; [assumption|exfalso].
    assert (nth j l 0 < nth i l 0) by (apply (SSorted_nth _ _ 0 Hs); lia).
    specialize (H2 j ltac:(lia)). revert H2. q_minmax; intros; qlra.
  - intros j Hj. apply qleb_gt. destruct (Nat.eq_dec j i) as [->|]; [assumption|].
    assert (nth i l 0 < nth j l 0) by (apply (SSorted_nth _ _ 0 Hs); lia). qlra.
  - lia.
  - intros j Hj. apply qleb_le. destruct (Nat.eq_dec j i) as [->|]; [assumption|].
    assert (nth j l 0 < nth i l 0) by (apply (SSorted_nth _ _ 0 Hs); lia). qlra.
  - intros j Hj. apply qleb_gt.
    destruct (qleb_spec (nth j l 0) e) as [H|H]; [exfalso|assumption].
    assert (nth i l 0 < nth j l 0) by (apply (SSorted_nth _ _ 0 Hs); lia).
    specialize (H2 j ltac:(lia)). revert H2. q_minmax; intros; qlra.
Qed.

(* --- slice = filter on sorted keys --- *)
Lemma filter_none {A} (p : A -> bool) l : (forall x, In x l -> p x = false) -> filter p l = [].
Proof. induction l; cbn; intros H; [reflexivity|]. rewrite H by auto. apply IHl. auto. Qed.
Lemma filter_all {A} (p : A -> bool) l : (forall x, In x l -> p x = true) -> filter p l = l.
Proof. induction l; cbn; intros H; [reflexivity|]. rewrite H by auto. f_equal. apply IHl. auto. Qed.
(* p: upward closed (passed the lower limit), q: downward closed *)
Lemma kslice {A} (l : list (Qc * A)) (p q : Qc -> bool) :
  (forall x y, x < y -> p x = true -> p y = true) ->
  (forall x y, x < y -> q y = true -> q x = true) ->
  StronglySorted (fun x y => fst x < fst y) l ->
  firstn (length (filter (fun x => q (fst x)) l) - length (filter (fun x => negb (p (fst x))) l))
         (skipn (length (filter (fun x => negb (p (fst x))) l)) l)
  = filter (fun x => p (fst x) && q (fst x)) l.
Proof.
  intros Hp Hq. induction 1 as [|x l Hs IH Hf]; [reflexivity|]. rewrite Forall_forall in Hf.
  cbn [filter].
  assert (Hnq : q (fst x) = false -> forall y, In y l -> q (fst y) = false).
  { intros Hx y Hy. destruct (q (fst y)) eqn:E; [|reflexivity].
    apply (Hq (fst x)) in E; [congruence|]. auto. }
  destruct (p (fst x)) eqn:Px; cbn [negb andb].
  - assert (Hpy : forall y, In y l -> negb (p (fst y)) = false).
    { intros y Hy. apply negb_false_iff. apply (Hp (fst x)); auto. }
    rewrite (filter_none (fun x => negb (p (fst x))) l) in * by assumption.
    cbn [length skipn] in *. rewrite Nat.sub_0_r in *. destruct (q (fst x)) eqn:Qx.
    + cbn [length firstn]. f_equal. apply IH.
    + rewrite (filter_none (fun x => q (fst x)) l) by auto. cbn. symmetry.
      apply filter_none. intros y Hy. rewrite (Hnq eq_refl y Hy). apply andb_false_r.
  - cbn [length skipn]. destruct (q (fst x)) eqn:Qx.
    + cbn [length]. apply IH.
    + rewrite (filter_none (fun x => q (fst x)) l) by auto. cbn. symmetry.
      apply filter_none. intros y Hy. rewrite (Hnq eq_refl y Hy). apply andb_false_r.
Qed.
Lemma combine_sorted {A} (l : list Qc) (v : list A) : length l = length v -> increasing l ->
  StronglySorted (fun x y : Qc * A => fst x < fst y) (combine l v).
Proof.
  intros Hl Hs. revert v Hl. induction Hs as [|x l Hs IH Hf]; intros [|y v] Hl; cbn in *;
    try constructor; try lia.
  - apply IH. lia.
  - apply Forall_forall. intros [q w] Hq. apply in_combine_l in Hq. cbn.
    rewrite Forall_forall in Hf. auto.
Qed.
Lemma filter_map_length {A B} (f : A -> B) p l :
  length (filter (fun x => p (f x)) l) = length (filter p (map f l)).
Proof. induction l; cbn; [reflexivity|]. destruct (p (f a)); cbn; auto. Qed.
Lemma select_slice_gen {A} (l : list Qc) (v : list A) (p q : Qc -> bool) :
  (forall x y, x < y -> p x = true -> p y = true) ->
  (forall x y, x < y -> q y = true -> q x = true) ->
  length l = length v -> increasing l ->
  py_slice v (Z.of_nat (length (filter (fun x => negb (p x)) l))) (Z.of_nat (length (filter q l)))
  = select (fun e => p e && q e) l v.
Proof.
  intros Hp Hq Hl Hs. rewrite <- (map_snd_combine l v Hl) at 1. rewrite py_slice_map. unfold select.
  f_equal. rewrite py_slice_nat.
  - rewrite <- (kslice _ p q Hp Hq) by (now apply combine_sorted).
    rewrite (filter_map_length fst (fun x => negb (p x))), (filter_map_length fst q).
    now rewrite map_fst_combine.
  - rewrite combine_length, <- Hl, Nat.min_id. apply filter_length_le'.
  - rewrite combine_length, <- Hl, Nat.min_id. apply filter_length_le'.
Qed.
Lemma cnt_lt_negb l a : cnt_lt l a = length (filter (fun x => negb (qleb a x)) l).
Proof. reflexivity. Qed.
Lemma cnt_le_negb l a : cnt_le l a = length (filter (fun x => negb (qltb a x)) l).
Proof. unfold cnt_le. f_equal. apply filter_ext. intros x. unfold qltb. now rewrite negb_involutive. Qed.
Lemma up_le a x y : x < y -> qleb a x = true -> qleb a y = true.
Proof. rewrite !qleb_le. intros. qlra. Qed.
Lemma up_lt a x y : x < y -> qltb a x = true -> qltb a y = true.
Proof. rewrite !qltb_lt. intros. qlra. Qed.
Lemma dn_le b x y : x < y -> qleb y b = true -> qleb x b = true.
Proof. rewrite !qleb_le. intros. qlra. Qed.
Lemma dn_lt b x y : x < y -> qltb y b = true -> qltb x b = true.
Proof. rewrite !qltb_lt. intros. qlra. Qed.
Lemma select_slice {A} (l : list Qc) (v : list A) a b : length l = length v -> increasing l ->
  py_slice v (Z.of_nat (cnt_lt l a)) (Z.of_nat (cnt_le l b))
  = select (fun e => qleb a e && qleb e b) l v.
Proof. apply (select_slice_gen l v (qleb a) (fun e => qleb e b) (up_le a) (dn_le b)). Qed.
Lemma select_self p l : select p l l = filter p l.
Proof.
  unfold select. induction l as [|x l IH]; [reflexivity|]. cbn. destruct (p x); cbn; now rewrite IH.
Qed.
Lemma select_ext {A} p q l (v : list A) : (forall e, In e l -> p e = q e) -> select p l v = select q l v.
Proof.
  intros H. unfold select. f_equal. apply filter_ext_in. intros [e x] Hin. apply H.
  now apply in_combine_l in Hin.
Qed.

(* --- min and max --- *)
Lemma list_min_spec l x : list_min x l <= x /\ (forall y, In y l -> list_min x l <= y) /\
  (list_min x l = x \/ In (list_min x l) l).
Proof.
  revert x. induction l as [|z l IH]; intros x; cbn.
  - split; [auto|]. split; [easy|auto].
  - destruct (qltb_spec z x) as [H|H].
    + destruct (IH z) as (A & B & C). split; [qlra|]. split.
      * intros y [<-|Hy]; auto.
      * right. destruct C as [->|C]; auto.
    + destruct (IH x) as (A & B & C). split; [auto|]. split.
      * intros y [<-|Hy]; auto. qlra.
      * destruct C as [C|C]; auto.
Qed.
Lemma list_max_spec l x : x <= list_max x l /\ (forall y, In y l -> y <= list_max x l) /\
  (list_max x l = x \/ In (list_max x l) l).
Proof.
  revert x. induction l as [|z l IH]; intros x; cbn.
  - split; [auto|]. split; [easy|auto].
  - destruct (qltb_spec x z) as [H|H].
    + destruct (IH z) as (A & B & C). split; [qlra|]. split.
      * intros y [<-|Hy]; auto.
      * right. destruct C as [->|C]; auto.
    + destruct (IH x) as (A & B & C). split; [auto|]. split.
      * intros y [<-|Hy]; auto. qlra.
      * destruct C as [C|C]; auto.
Qed.
Lemma py_min_spec l : l <> [] -> exists m, py_min l = Ok m /\ In m l /\ forall y, In y l -> m <= y.
Proof.
  destruct l as [|x l]; [congruence|]. intros _. exists (list_min x l).
  destruct (list_min_spec l x) as (A & B & C). split; [reflexivity|]. split.
  - destruct C as [C|C]; [left; auto|right; auto].
  - intros y [<-|Hy]; auto.
Qed.
Lemma py_max_spec l : l <> [] -> exists m, py_max l = Ok m /\ In m l /\ forall y, In y l -> y <= m.
Proof.
  destruct l as [|x l]; [congruence|]. intros _. exists (list_max x l).
  destruct (list_max_spec l x) as (A & B & C). split; [reflexivity|]. split.
  - destruct C as [C|C]; [left; auto|right; auto].
  - intros y [<-|Hy]; auto.
Qed.

Lemma py_index_nat {A} (l : list A) i d : (i < length l)%nat -> py_index l (Z.of_nat i) = Ok (nth i l d).
Proof.
  intros H. unfold py_index. destruct (Z.ltb_spec (Z.of_nat i) 0); [lia|].
  destruct (Z.leb_spec 0 (Z.of_nat i)); [|lia]. destruct (Z.ltb_spec (Z.of_nat i) (Z.of_nat (length l))); [|lia].
  cbn. rewrite Nat2Z.id, (nth_error_nth' l d) by assumption. reflexivity.
Qed.

(* effective limits *)
Definition lim_min (l : list Qc) (E : option Qc) : result Qc :=
  match E with Some e => Ok e | None => py_min l end.
Definition lim_max (l : list Qc) (E : option Qc) : result Qc :=
  match E with Some e => Ok e | None => py_max l end.

Lemma cut_bounds_eq l Emin Emax imin imax a b : l <> [] -> increasing l ->
  lim_min l Emin = Ok a -> lim_max l Emax = Ok b ->
  cut_bounds l Emin Emax imin imax =
  Ok ((Z.of_nat (cnt_lt l a) + (if imin then 0 else 1))%Z,
      (Z.of_nat (cnt_le l b) - (if imax then 0 else 1))%Z).
Proof.
  intros Hne Hs Ha Hb. unfold cut_bounds. unfold lim_min, lim_max in *. rewrite Ha, Hb. cbn [rbind].
  pose proof (increasing_nondecreasing _ Hs) as Hs'.
  destruct (index_nearest_lemma l a Hne Hs') as (Hia & _).
  destruct (index_nearest_lemma l b Hne Hs') as (Hib & _).
  rewrite (py_index_nat l _ 0 Hia). cbn [rbind]. rewrite (py_index_nat l _ 0 Hib). cbn [rbind].
  rewrite index_lo, index_hi by assumption. f_equal. f_equal.
  - destruct (qltb_spec (nth (index l a) l 0) a), imin; lia.
  - destruct (qltb_spec b (nth (index l b) l 0)), imax; lia.
Qed.

Lemma lim_min_ok l E : l <> [] -> exists a, lim_min l E = Ok a /\
  forall e, In e l -> qleb a e = match E with Some x => qleb x e | None => true end.
Proof.
  intros Hne. destruct E as [x|]; cbn.
  - now exists x.
  - destruct (py_min_spec l Hne) as (m & -> & _ & Hm). exists m. split; [reflexivity|].
    intros e He. apply qleb_le. auto.
Qed.
Lemma lim_max_ok l E : l <> [] -> exists a, lim_max l E = Ok a /\
  forall e, In e l -> qleb e a = match E with Some x => qleb e x | None => true end.
Proof.
  intros Hne. destruct E as [x|]; cbn.
  - now exists x.
  - destruct (py_max_spec l Hne) as (m & -> & _ & Hm). exists m. split; [reflexivity|].
    intros e He. apply qleb_le. auto.
Qed.

Lemma cut_inclusive l Emin Emax : l <> [] -> increasing l ->
  exists lo hi, cut_bounds l Emin Emax true true = Ok (lo, hi) /\
  forall A (v : list A), length l = length v -> py_slice v lo hi = select (in_window Emin Emax) l v.
Proof.
  intros Hne Hs. destruct (lim_min_ok l Emin Hne) as (a & Ha & Hpa).
  destruct (lim_max_ok l Emax Hne) as (b & Hb & Hpb).
  do 2 eexists. split; [now apply cut_bounds_eq; eauto|].
  intros A v Hl. rewrite Z.add_0_r, Z.sub_0_r, select_slice by assumption.
  apply select_ext. intros e He. unfold in_window. now rewrite <- Hpa, <- Hpb.
Qed.

(* exclusive limits that lie on a bin *)
Lemma cnt_lt_in l e : increasing l -> In e l -> cnt_le l e = S (cnt_lt l e).
Proof.
  intros Hs Hin. apply (In_nth _ _ 0) in Hin as (k & Hk & He).
  assert (cnt_lt l e = k).
  { apply (cnt_split _ _ _ 0); [lia| |]; intros j Hj.
    - apply qltb_lt. rewrite <- He. apply (SSorted_nth _ _ 0 Hs). lia.
    - apply qltb_ge. rewrite <- He. destruct (Nat.eq_dec j k) as [->|]; [auto|].
      apply Qclt_le_weak. apply (SSorted_nth _ _ 0 Hs). lia. }
  assert (cnt_le l e = S k).
  { apply (cnt_split _ _ _ 0); [lia| |]; intros j Hj.
    - apply qleb_le. rewrite <- He. destruct (Nat.eq_dec j k) as [->|]; [auto|].
      apply Qclt_le_weak. apply (SSorted_nth _ _ 0 Hs). lia.
    - apply qleb_gt. rewrite <- He. apply (SSorted_nth _ _ 0 Hs). lia. }
  lia.
Qed.

Definition on_bin (l : list Qc) (E : option Qc) (inclusive : bool) : Prop :=
  inclusive = true \/ exists a, E = Some a /\ In a l.

Lemma cut_on_bin l Emin Emax imin imax : l <> [] -> increasing l ->
  on_bin l Emin imin -> on_bin l Emax imax ->
  exists lo hi, cut_bounds l Emin Emax imin imax = Ok (lo, hi) /\
  forall A (v : list A), length l = length v ->
    py_slice v lo hi = select (in_window_gen Emin Emax imin imax) l v.
Proof.
  intros Hne Hs Omin Omax. destruct (lim_min_ok l Emin Hne) as (a & Ha & Hpa).
  destruct (lim_max_ok l Emax Hne) as (b & Hb & Hpb).
  do 2 eexists. split; [now apply cut_bounds_eq; eauto|].
  intros A v Hl. unfold in_window_gen.
  destruct imin, imax.
  - rewrite Z.add_0_r, Z.sub_0_r, select_slice by assumption.
    apply select_ext. intros e He. now rewrite <- Hpa, <- Hpb.
  - destruct Omax as [?|(b' & Eb & Hb')]; [congruence|]. subst Emax. injection Hb as <-.
    rewrite (cnt_lt_in l b') by assumption.
    replace (Z.of_nat (S (cnt_lt l b')) - 1)%Z with (Z.of_nat (cnt_lt l b')) by lia.
    rewrite Z.add_0_r.
    unfold cnt_lt at 2.
    rewrite cnt_lt_negb, (select_slice_gen l v (qleb a) (fun e => qltb e b') (up_le a) (dn_lt b')) by assumption.
    apply select_ext. intros e He. now rewrite <- Hpa.
  - destruct Omin as [?|(a' & Ea & Ha')]; [congruence|]. subst Emin. injection Ha as <-.
    replace (Z.of_nat (cnt_lt l a') + 1)%Z with (Z.of_nat (S (cnt_lt l a'))) by lia.
    rewrite <- (cnt_lt_in l a') by assumption. rewrite Z.sub_0_r.
    rewrite (cnt_le_negb l a'). unfold cnt_le.
    rewrite (select_slice_gen l v (qltb a') (fun e => qleb e b) (up_lt a') (dn_le b)) by assumption.
    apply select_ext. intros e He. now rewrite <- Hpb.
  - destruct Omin as [?|(a' & Ea & Ha')]; [congruence|]. subst Emin. injection Ha as <-.
    destruct Omax as [?|(b' & Eb & Hb')]; [congruence|]. subst Emax. injection Hb as <-.
    rewrite (cnt_lt_in l b') by assumption.
    replace (Z.of_nat (S (cnt_lt l b')) - 1)%Z with (Z.of_nat (cnt_lt l b')) by lia.
    replace (Z.of_nat (cnt_lt l a') + 1)%Z with (Z.of_nat (S (cnt_lt l a'))) by lia.
    rewrite <- (cnt_lt_in l a') by assumption. rewrite (cnt_le_negb l a'). unfold cnt_lt.
    apply (select_slice_gen l v (qltb a') (fun e => qltb e b') (up_lt a') (dn_lt b')); assumption.
Qed.

(* what an exclusive lower limit does in general: it drops the first bin of the inclusive cut *)
Lemma skipn_S_tl {A} (l : list A) n : skipn (S n) l = tl (skipn n l).
Proof. revert n. induction l as [|a l IH]; destruct n; try reflexivity. apply (IH n). Qed.
Lemma slice_tl {A} (v : list A) a b : (a <= length v)%nat -> (b <= length v)%nat ->
  py_slice v (Z.of_nat a + 1) (Z.of_nat b) = tl (py_slice v (Z.of_nat a) (Z.of_nat b)).
Proof.
  intros Ha Hb. rewrite (py_slice_nat v a b) by assumption.
  destruct (Nat.eq_dec a (length v)) as [->|Hne].
  - rewrite skipn_all, firstn_nil. unfold py_slice.
    replace (slice_bound (Z.of_nat (length v)) (Z.of_nat (length v) + 1)) with (Z.of_nat (length v)).
    2:{ unfold slice_bound. destruct (Z.ltb_spec (Z.of_nat (length v) + 1) 0); lia. }
    rewrite Nat2Z.id, skipn_all, firstn_nil. reflexivity.
  - replace (Z.of_nat a + 1)%Z with (Z.of_nat (S a)) by lia. rewrite py_slice_nat by lia.
    rewrite skipn_S_tl. destruct (b - a)%nat as [|n] eqn:E.
    + replace (b - S a)%nat with O by lia. reflexivity.
    + replace (b - S a)%nat with n by lia. destruct (skipn a v); [now rewrite firstn_nil|reflexivity].
Qed.
Lemma slice_removelast {A} (v : list A) a b : (a < b)%nat -> (b <= length v)%nat ->
  py_slice v (Z.of_nat a) (Z.of_nat b - 1) = removelast (py_slice v (Z.of_nat a) (Z.of_nat b)).
Proof.
  intros Hab Hb. replace (Z.of_nat b - 1)%Z with (Z.of_nat (b - 1)) by lia.
  rewrite !py_slice_nat by lia. replace (b - a)%nat with (S (b - 1 - a)) by lia.
  rewrite removelast_firstn; [reflexivity|]. rewrite skipn_length. lia.
Qed.
