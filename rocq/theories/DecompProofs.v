From Verif Require Import PyBase MatrixModel CutSpec IndexProofs MatrixOpsProofs DecompModel DecompSpec.

Lemma nth_error_nth_lt {A} (l : list A) i d : (i < length l)%nat -> nth_error l i = Some (nth i l d).
Proof. intros H. now apply nth_error_nth'. Qed.

Lemma nth_upd' {A} (l : list A) i x k d : nth k (upd l i x) d = if ((k =? i) && (i <? length l))%nat then x else nth k l d.
Proof.
  destruct (Nat.ltb_spec i (length l)) as [H|H]; [rewrite (nth_upd l i x k d H)|rewrite (upd_out l i x H)].
  - now rewrite andb_true_r.
  - now rewrite andb_false_r.
Qed.

Section Product.
Variable V : Type.
Variable v0 : V.
Variable vmul : V -> V -> V.
Notation pinV := (pin V).
Notation row_while := (row_while V vmul).
Notation raw_product := (raw_product V v0 vmul).
Notation step_task := (step_task V vmul).
Notation pstep := (pstep V vmul).
Notation prun := (prun V v0 vmul).
Notation prod_at := (prod_at V vmul).

(* value the product stores in bin (i,j) *)
Definition pval (p : pinV) (i j : nat) : V :=
  vmul (nth (index (p_E p) (vget (p_Ex p) i - vget (p_Eg p) j)) (p_nld p) v0) (nth j (p_T p) v0).

Lemma index_bound l e : l <> [] -> (index l e < length l)%nat.
Proof.
  destruct l as [|x t]; [congruence|]. intros _. unfold index.
  assert (H : forall t p i, (index_scan e p i t <= i + length t)%nat).
  { clear. induction t as [|y t IH]; intros p i; cbn [index_scan length]; [lia|].
    cbv zeta. destruct (qltb _ _); [lia|]. specialize (IH ((y - e) * (y - e)) (S i)). lia. }
  specialize (H t ((x - e) * (x - e)) 0%nat). cbn [length]. lia.
Qed.

Lemma halfbin_some (p : pinV) : (2 <= length (p_Eg p))%nat -> halfbin p = Some (half_width p).
Proof.
  unfold halfbin, half_width, vget. destruct (p_Eg p) as [|a [|b t]]; cbn [length]; try lia. intros _. reflexivity.
Qed.
Lemma eg_max_some (p : pinV) i : pin_ok p -> (i < length (p_Ex p))%nat ->
  eg_max p i = Some (vget (p_Ex p) i + vget (p_res p) i + half_width p).
Proof.
  intros (H2 & _ & _ & _ & HR) Hi. unfold eg_max. rewrite (halfbin_some p H2).
  rewrite (nth_error_nth_lt _ _ 0 Hi), (nth_error_nth_lt (p_res p) i 0) by lia. reflexivity.
Qed.
Lemma body_some (p : pinV) i j : pin_ok p -> (i < length (p_Ex p))%nat -> (j < length (p_Eg p))%nat ->
  exists e k, e_final p i j = Some e /\ nld_index p e = Some k /\ prod_at p k j = Some (pval p i j).
Proof.
  intros (H2 & HE & HN & HT & HR) Hi Hj. exists (vget (p_Ex p) i - vget (p_Eg p) j), (index (p_E p) (vget (p_Ex p) i - vget (p_Eg p) j)).
  unfold e_final. rewrite (nth_error_nth_lt _ _ 0 Hi), (nth_error_nth_lt _ _ 0 Hj). split; [reflexivity|].
  pose proof (index_bound (p_E p) (vget (p_Ex p) i - vget (p_Eg p) j) HE) as B.
  split; [unfold nld_index; destruct (p_E p); [congruence|reflexivity]|].
  unfold DecompModel.prod_at. rewrite (nth_error_nth_lt (p_nld p) _ v0) by lia. rewrite (nth_error_nth_lt (p_T p) _ v0) by lia. reflexivity.
Qed.

(* the row loop *)
Lemma row_while_lemma (p : pinV) i emax : pin_ok p -> (i < length (p_Ex p))%nat -> nondecreasing (p_Eg p) ->
  forall f j row, (j + f = length (p_Eg p))%nat -> length row = length (p_Eg p) ->
  exists row', row_while p i emax f j row = Some row' /\ length row' = length row /\
  forall c, (c < length (p_Eg p))%nat ->
    nth c row' v0 = if ((j <=? c)%nat && qleb (vget (p_Eg p) c) emax)%bool then pval p i c else nth c row v0.
Proof.
  intros OK Hi ND. induction f as [|f IH]; intros j row HJ HL; cbn [DecompModel.row_while].
  - exists row. split; [reflexivity|]. split; [reflexivity|]. intros c Hc.
    assert ((j <=? c)%nat = false) as -> by (apply Nat.leb_gt; lia). reflexivity.
  - rewrite (nth_error_nth_lt _ j 0) by lia. change (nth j (p_Eg p) 0) with (vget (p_Eg p) j).
    destruct (qleb_spec (vget (p_Eg p) j) emax) as [HG|HG].
    + destruct (body_some p i j OK Hi) as (e & k & E1 & E2 & E3); [lia|]. rewrite E1, E2, E3.
      destruct (IH (S j) (upd row j (pval p i j))) as (row' & R1 & R2 & R3); [lia|now rewrite upd_length|].
      exists row'. split; [exact R1|]. split; [now rewrite R2, upd_length|]. intros c Hc. rewrite (R3 c Hc).
      rewrite nth_upd'. destruct (Nat.eqb_spec c j) as [->|NE].
      * replace (S j <=? j)%nat with false by (symmetry; apply Nat.leb_gt; lia). rewrite Nat.leb_refl. cbn [andb].
        rewrite (proj2 (qleb_le _ _) HG). destruct (Nat.ltb_spec j (length row)); [reflexivity|lia].
      * cbn [andb]. destruct (Nat.leb_spec (S j) c), (Nat.leb_spec j c); try lia; reflexivity.
    + exists row. split; [reflexivity|]. split; [reflexivity|]. intros c Hc.
      destruct (Nat.leb_spec j c) as [L|L]; [|reflexivity]. cbn [andb].
      destruct (qleb_spec (vget (p_Eg p) c) emax) as [H|H]; [|reflexivity]. exfalso.
      destruct (Nat.eq_dec j c) as [->|NE]; [qlra|].
      pose proof (SSorted_nth _ _ 0 ND j c ltac:(lia)) as Q. cbv beta in Q. unfold vget in *. qlra.
Qed.
Lemma row_while_some (p : pinV) i emax : pin_ok p -> (i < length (p_Ex p))%nat ->
  forall f j row, (j + f = length (p_Eg p))%nat -> exists row', row_while p i emax f j row = Some row' /\ length row' = length row.
Proof.
  intros OK Hi. induction f as [|f IH]; intros j row HJ; cbn [DecompModel.row_while]; [eexists; split; reflexivity|].
  rewrite (nth_error_nth_lt _ j 0) by lia. destruct (qleb _ _); [|eexists; split; reflexivity].
  destruct (body_some p i j OK Hi) as (e & k & E1 & E2 & E3); [lia|]. rewrite E1, E2, E3.
  destruct (IH (S j) (upd row j (pval p i j))) as (r & R1 & R2); [lia|]. exists r. split; [exact R1|]. now rewrite R2, upd_length.
Qed.

Definition row_from (p : pinV) (i : nat) (r : list V) : option (list V) :=
  match eg_max p i with Some e => row_while p i e (length (p_Eg p)) 0 r | None => None end.

Lemma rows_loop_some (p : pinV) : forall f i m m', rows_loop V vmul p f i m = Some m' -> (i + f <= length m)%nat ->
  length m' = length m /\ forall r, (r < length m)%nat ->
    if ((i <=? r) && (r <? i + f))%nat then row_from p r (nth r m []) = Some (nth r m' []) else nth r m' [] = nth r m [].
Proof.
  induction f as [|f IH]; intros i m m' E B; cbn [rows_loop] in E.
  - injection E as <-. split; [reflexivity|]. intros r Hr. rewrite Nat.add_0_r.
    destruct (Nat.leb_spec i r), (Nat.ltb_spec r i); cbn [andb]; try lia; reflexivity.
  - unfold do_row in E. destruct (eg_max p i) as [e|] eqn:EM; [|discriminate].
    destruct (row_while p i e _ 0 (nth i m [])) as [row|] eqn:ER; [|discriminate].
    apply IH in E as (L & H); [|rewrite upd_length; lia]. rewrite upd_length in *. split; [exact L|]. intros r Hr.
    specialize (H r Hr). rewrite (nth_upd' m i row r []) in H. destruct (Nat.eqb_spec r i) as [EQ|NE]; [subst r|].
    + replace (S i <=? i)%nat with false in H by (symmetry; apply Nat.leb_gt; lia). cbn [andb] in H.
      destruct (Nat.ltb_spec i (length m)); [|lia].
      rewrite Nat.leb_refl. destruct (Nat.ltb_spec i (i + S f)); [|lia]. cbn [andb].
      unfold row_from. now rewrite EM, H.
    + cbn [andb] in H.
      destruct (Nat.leb_spec (S i) r), (Nat.ltb_spec r (S i + f)), (Nat.leb_spec i r), (Nat.ltb_spec r (i + S f)); cbn [andb] in *; try lia; exact H.
Qed.
Lemma rows_loop_complete (p : pinV) : forall f i m, (i + f <= length m)%nat ->
  (forall r, (i <= r < i + f)%nat -> row_from p r (nth r m []) <> None) -> rows_loop V vmul p f i m <> None.
Proof.
  induction f as [|f IH]; intros i m B H; cbn [rows_loop]; [discriminate|].
  pose proof (H i ltac:(lia)) as Hi. unfold row_from in Hi. unfold do_row.
  destruct (eg_max p i) as [e|]; [|congruence]. destruct (row_while p i e _ 0 (nth i m [])) as [row|]; [|congruence].
  apply IH; [rewrite upd_length; lia|]. intros r Hr. rewrite nth_upd'.
  destruct (Nat.eqb_spec r i) as [->|NE]; [lia|]. cbn [andb]. apply H. lia.
Qed.

Lemma zeros_length (p : pinV) : length (zeros_m V v0 p) = length (p_Ex p).
Proof. apply repeat_length. Qed.
Lemma nth_zeros (p : pinV) r : (r < length (p_Ex p))%nat -> nth r (zeros_m V v0 p) [] = repeat v0 (length (p_Eg p)).
Proof. intros H. unfold zeros_m. rewrite nth_indep with (d' := repeat v0 (length (p_Eg p))) by now rewrite repeat_length. apply nth_repeat. Qed.

(* raw_product determined row by row *)
Lemma raw_product_char (p : pinV) m : (2 <= length (p_Eg p))%nat ->
  (raw_product p = Some m <-> length m = length (p_Ex p) /\
    forall r, (r < length (p_Ex p))%nat -> row_from p r (repeat v0 (length (p_Eg p))) = Some (nth r m [])).
Proof.
  intros H2. unfold DecompModel.raw_product. rewrite (halfbin_some p H2). split.
  - intros E. apply rows_loop_some in E as (L & H); [|rewrite zeros_length; lia]. rewrite zeros_length in *. split; [exact L|].
    intros r Hr. specialize (H r Hr). rewrite nth_zeros in H by exact Hr.
    destruct (Nat.leb_spec 0 r); [|lia]. destruct (Nat.ltb_spec r (0 + length (p_Ex p))); [|lia]. exact H.
  - intros [L H].
    destruct (rows_loop V vmul p (length (p_Ex p)) 0 (zeros_m V v0 p)) as [m'|] eqn:E.
    + f_equal. apply rows_loop_some in E as (L' & H'); [|rewrite zeros_length; lia]. rewrite zeros_length in *.
      apply (list_eq_nth _ _ []); [congruence|]. intros r Hr. rewrite L' in Hr. specialize (H' r Hr). rewrite nth_zeros in H' by exact Hr.
      destruct (Nat.leb_spec 0 r); [|lia]. destruct (Nat.ltb_spec r (0 + length (p_Ex p))); [|lia]. cbn [andb] in H'.
      rewrite (H r Hr) in H'. congruence.
    + exfalso. revert E. apply rows_loop_complete; [rewrite zeros_length; lia|]. intros r Hr. rewrite nth_zeros by lia.
      rewrite H by lia. discriminate.
Qed.

Lemma raw_product_ok (p : pinV) : pin_ok p -> nondecreasing (p_Eg p) ->
  exists m, raw_product p = Some m /\ length m = length (p_Ex p) /\
  (forall r, (r < length (p_Ex p))%nat -> length (nth r m []) = length (p_Eg p)) /\
  forall i j, (i < length (p_Ex p))%nat -> (j < length (p_Eg p))%nat ->
    nth j (nth i m []) v0 = if qleb (vget (p_Eg p) j) (vget (p_Ex p) i + vget (p_res p) i + half_width p) then pval p i j else v0.
Proof.
  intros OK ND.
  set (rw := fun i => match row_from p i (repeat v0 (length (p_Eg p))) with Some r => r | None => [] end).
  assert (R : forall i, (i < length (p_Ex p))%nat -> row_from p i (repeat v0 (length (p_Eg p))) = Some (rw i) /\
    length (rw i) = length (p_Eg p) /\ forall j, (j < length (p_Eg p))%nat ->
    nth j (rw i) v0 = if qleb (vget (p_Eg p) j) (vget (p_Ex p) i + vget (p_res p) i + half_width p) then pval p i j else v0).
  { intros i Hi. unfold rw, row_from. rewrite (eg_max_some p i OK Hi).
    destruct (row_while_lemma p i (vget (p_Ex p) i + vget (p_res p) i + half_width p) OK Hi ND (length (p_Eg p)) 0 (repeat v0 (length (p_Eg p)))) as (r & R1 & R2 & R3);
      [lia|apply repeat_length|]. rewrite R1. split; [reflexivity|]. split; [now rewrite R2, repeat_length|].
    intros j Hj. rewrite (R3 j Hj). cbn [Nat.leb andb]. now rewrite nth_repeat. }
  exists (tab (length (p_Ex p)) rw). assert (L : length (tab (length (p_Ex p)) rw) = length (p_Ex p)) by apply tab_length.
  split; [apply raw_product_char; [apply OK|]; split; [exact L|]; intros r Hr; rewrite nth_tab by exact Hr; apply R, Hr|].
  split; [exact L|]. split.
  - intros r Hr. rewrite nth_tab by exact Hr. apply R, Hr.
  - intros i j Hi Hj. rewrite nth_tab by exact Hi. now apply R.
Qed.

(* ---- the parallel loop ---- *)
(* result of letting task i alone run to the end from local state (row, c) *)
Definition finish (p : pinV) (i : nat) (row : list V) (c : pc) : option (list V) :=
  let n := length (p_Eg p) in
  match c with
  | PStart => row_from p i row
  | PTest e j => if (j <? n)%nat then row_while p i e (n - j) j row else Some row
  | PFinal e j =>
      match e_final p i j with
      | Some ef => match nld_index p ef with
                   | Some k => match prod_at p k j with Some x => row_while p i e (n - S j) (S j) (upd row j x) | None => None end
                   | None => None end
      | None => None end
  | PIndex e j ef =>
      match nld_index p ef with
      | Some k => match prod_at p k j with Some x => row_while p i e (n - S j) (S j) (upd row j x) | None => None end
      | None => None end
  | PStore e j k => match prod_at p k j with Some x => row_while p i e (n - S j) (S j) (upd row j x) | None => None end
  | PDone => Some row
  | PBad => None
  end.
Lemma test_fold (p : pinV) i e j row :
  (if (j <? length (p_Eg p))%nat then row_while p i e (length (p_Eg p) - j) j row else Some row) = row_while p i e (length (p_Eg p) - j) j row.
Proof. destruct (Nat.ltb_spec j (length (p_Eg p))); [reflexivity|]. replace (length (p_Eg p) - j)%nat with O by lia. reflexivity. Qed.

Lemma step_other (p : pinV) i m c r : r <> i -> nth r (fst (step_task p i m c)) [] = nth r m [].
Proof.
  intros NE. destruct c; cbn [DecompModel.step_task fst]; try reflexivity.
  - destruct (eg_max p i); reflexivity.
  - destruct (_ <? _)%nat; [|reflexivity]. destruct (nth_error _ _); reflexivity.
  - destruct (e_final p i j); reflexivity.
  - destruct (nld_index p e); reflexivity.
  - destruct (prod_at p k j); [|reflexivity]. cbn [fst]. rewrite nth_upd'. destruct (Nat.eqb_spec r i); [congruence|]. reflexivity.
Qed.
Lemma step_length (p : pinV) i m c : length (fst (step_task p i m c)) = length m.
Proof.
  destruct c; cbn [DecompModel.step_task fst]; try reflexivity.
  - destruct (eg_max p i); reflexivity.
  - destruct (_ <? _)%nat; [|reflexivity]. destruct (nth_error _ _); reflexivity.
  - destruct (e_final p i j); reflexivity.
  - destruct (nld_index p e); reflexivity.
  - destruct (prod_at p k j); [|reflexivity]. apply upd_length.
Qed.
Lemma finish_step (p : pinV) i m c : (i < length m)%nat ->
  finish p i (nth i (fst (step_task p i m c)) []) (snd (step_task p i m c)) = finish p i (nth i m []) c.
Proof.
  intros Hi. destruct c; cbn [DecompModel.step_task]; try reflexivity.
  - cbn [finish]. unfold row_from. destruct (eg_max p i) as [e|]; cbn [fst snd finish]; [|reflexivity].
    rewrite test_fold. now rewrite Nat.sub_0_r.
  - cbn [finish]. destruct (Nat.ltb_spec j (length (p_Eg p))) as [H|H]; [|reflexivity].
    destruct (length (p_Eg p) - j)%nat as [|f] eqn:F; [lia|]. cbn [DecompModel.row_while].
    destruct (nth_error (p_Eg p) j) as [g|]; cbn [fst snd]; [|reflexivity].
    destruct (qleb g emax); cbn [finish]; [|reflexivity]. replace (length (p_Eg p) - S j)%nat with f by lia. reflexivity.
  - cbn [finish]. destruct (e_final p i j); reflexivity.
  - cbn [finish]. destruct (nld_index p e); reflexivity.
  - cbn [finish]. destruct (prod_at p k j) as [x|]; cbn [fst snd finish]; [|reflexivity].
    rewrite test_fold, nth_upd', Nat.eqb_refl. destruct (Nat.ltb_spec i (length m)); [|lia]. reflexivity.
Qed.

(* invariant of the whole program *)
Definition pinv (p : pinV) (s : pstate V) : Prop :=
  length (fst s) = length (p_Ex p) /\ length (snd s) = length (p_Ex p) /\
  forall i, (i < length (p_Ex p))%nat ->
    finish p i (nth i (fst s) []) (nth i (snd s) PBad) = row_from p i (repeat v0 (length (p_Eg p))).
Lemma pinit_inv p : pinv p (pinit V v0 p).
Proof.
  unfold pinit, pinv. cbn [fst snd]. rewrite repeat_length. split; [apply zeros_length|]. split; [reflexivity|].
  intros i Hi. rewrite nth_zeros by exact Hi. rewrite nth_indep with (d' := PStart) by now rewrite repeat_length.
  rewrite nth_repeat. reflexivity.
Qed.
Lemma pstep_inv p s i : pinv p s -> pinv p (pstep p s i).
Proof.
  intros (L1 & L2 & H). unfold DecompModel.pstep. destruct (nth_error (snd s) i) as [c|] eqn:E; [|repeat split; assumption].
  assert (Hi : (i < length (p_Ex p))%nat) by (rewrite <- L2; apply nth_error_Some; congruence).
  apply (nth_error_nth _ _ PBad) in E.
  pose proof (step_length p i (fst s) c) as SL. pose proof (step_other p i (fst s) c) as SO.
  pose proof (finish_step p i (fst s) c ltac:(lia)) as FS.
  destruct (step_task p i (fst s) c) as [m c']. cbn [fst snd] in *.
  split; [cbn [fst]; lia|]. split; [cbn [snd]; now rewrite upd_length|]. intros r Hr. cbn [fst snd]. rewrite nth_upd'.
  destruct (Nat.eqb_spec r i) as [->|NE].
  - destruct (Nat.ltb_spec i (length (snd s))); [|lia]. cbn [andb]. rewrite FS, <- E. now apply H.
  - cbn [andb]. rewrite SO by congruence. now apply H.
Qed.
Lemma prun_inv p sched : pinv p (prun p sched).
Proof.
  unfold DecompModel.prun. assert (G : forall s, pinv p s -> pinv p (fold_left (pstep p) sched s)).
  { induction sched as [|i t IH]; intros s Hs; cbn [fold_left]; [exact Hs|]. apply IH, pstep_inv, Hs. }
  apply G, pinit_inv.
Qed.
Lemma parallel_lemma p sched : (2 <= length (p_Eg p))%nat -> all_done (prun p sched) ->
  raw_product p = Some (fst (prun p sched)).
Proof.
  intros H2 D. destruct (prun_inv p sched) as (L1 & L2 & H). apply (raw_product_char p _ H2). split; [exact L1|].
  intros r Hr. rewrite <- (H r Hr). rewrite (D (nth r (snd (prun p sched)) PBad)); [reflexivity|]. apply nth_In. lia.
Qed.
(* a finished row is final, whatever the other tasks are doing *)
Lemma parallel_row_lemma p sched m i : (2 <= length (p_Eg p))%nat -> raw_product p = Some m -> (i < length (p_Ex p))%nat ->
  nth i (snd (prun p sched)) PBad = PDone -> nth i (fst (prun p sched)) [] = nth i m [].
Proof.
  intros H2 E Hi D. destruct (prun_inv p sched) as (_ & _ & H). apply (raw_product_char p m H2) in E as [_ R].
  specialize (H i Hi). rewrite D, (R i Hi) in H. cbn [finish] in H. congruence.
Qed.

(* termination *)
Definition rank (n : nat) (c : pc) : nat :=
  match c with
  | PStart => 4 * n + 2
  | PTest _ j => 4 * (n - j) + 1
  | PFinal _ j => 4 * (n - j)
  | PIndex _ j _ => 4 * (n - j) - 1
  | PStore _ j _ => 4 * (n - j) - 2
  | PDone => 0
  | PBad => 0
  end.
(* inside the loop body j < n *)
Definition in_range (n : nat) (c : pc) : Prop :=
  match c with PFinal _ j | PIndex _ j _ | PStore _ j _ => (j < n)%nat | _ => True end.
Lemma step_rank (p : pinV) i m c : in_range (length (p_Eg p)) c ->
  in_range (length (p_Eg p)) (snd (step_task p i m c)) /\
  (rank (length (p_Eg p)) (snd (step_task p i m c)) <= rank (length (p_Eg p)) c - 1)%nat.
Proof.
  intros HR. destruct c; cbn [DecompModel.step_task].
  - destruct (eg_max p i); cbn [snd rank in_range]; split; auto; lia.
  - destruct (Nat.ltb_spec j (length (p_Eg p))); [|cbn; split; auto; lia].
    destruct (nth_error _ _) as [g|]; [|cbn; split; auto; lia]. destruct (qleb g emax); cbn [snd rank in_range]; split; auto; lia.
  - cbn [in_range] in HR. destruct (e_final p i j); cbn [snd rank in_range]; split; auto; lia.
  - cbn [in_range] in HR. destruct (nld_index p e); cbn [snd rank in_range]; split; auto; lia.
  - cbn [in_range] in HR. destruct (prod_at p k j); cbn [snd rank in_range]; split; auto; lia.
  - cbn; split; auto.
  - cbn; split; auto.
Qed.
Lemma run_rank p : forall sched s i, (i < length (snd s))%nat ->
  (forall r, (r < length (snd s))%nat -> in_range (length (p_Eg p)) (nth r (snd s) PBad)) ->
  (rank (length (p_Eg p)) (nth i (snd (fold_left (pstep p) sched s)) PBad) <=
   rank (length (p_Eg p)) (nth i (snd s) PBad) - count_occ Nat.eq_dec sched i)%nat.
Proof.
  induction sched as [|k t IH]; intros s i Hi HR; cbn [fold_left count_occ]; [lia|].
  assert (SP : length (snd (pstep p s k)) = length (snd s) /\
    (forall r, (r < length (snd s))%nat -> in_range (length (p_Eg p)) (nth r (snd (pstep p s k)) PBad)) /\
    (rank (length (p_Eg p)) (nth i (snd (pstep p s k)) PBad) <= rank (length (p_Eg p)) (nth i (snd s) PBad) - (if Nat.eq_dec k i then 1 else 0))%nat).
  { unfold DecompModel.pstep. destruct (nth_error (snd s) k) as [c|] eqn:E.
    - assert (Hk : (k < length (snd s))%nat) by (apply nth_error_Some; congruence).
      apply (nth_error_nth _ _ PBad) in E. pose proof (HR k Hk) as HRk. rewrite E in HRk.
      pose proof (step_rank p k (fst s) c HRk) as [S1 S2]. destruct (step_task p k (fst s) c) as [m c']. cbn [snd] in *.
      split; [apply upd_length|]. split.
      + intros r Hr. rewrite nth_upd'. destruct (Nat.eqb_spec r k) as [->|NE]; cbn [andb].
        * destruct (Nat.ltb_spec k (length (snd s))); [exact S1|lia].
        * now apply HR.
      + rewrite nth_upd'. destruct (Nat.eqb_spec i k) as [->|NE]; cbn [andb].
        * destruct (Nat.ltb_spec k (length (snd s))); [|lia]. destruct (Nat.eq_dec k k); [|congruence]. rewrite E. exact S2.
        * destruct (Nat.eq_dec k i); [congruence|]. lia.
    - split; [reflexivity|]. split; [exact HR|]. destruct (Nat.eq_dec k i) as [->|]; [|lia].
      apply nth_error_None in E. lia. }
  destruct SP as (P1 & P2 & P3). specialize (IH (pstep p s k) i ltac:(lia)). rewrite P1 in IH. specialize (IH P2).
  destruct (Nat.eq_dec k i); lia.
Qed.
Lemma parallel_terminates_lemma p sched : pin_ok p ->
  (forall i, (i < length (p_Ex p))%nat -> (4 * length (p_Eg p) + 2 <= count_occ Nat.eq_dec sched i)%nat) ->
  all_done (prun p sched).
Proof.
  intros OK HF c HC. destruct (prun_inv p sched) as (L1 & L2 & H).
  apply (In_nth _ _ PBad) in HC as (i & Hi & <-). rewrite L2 in Hi.
  assert (LI : length (snd (pinit V v0 p)) = length (p_Ex p)) by apply repeat_length.
  assert (NI : forall r, (r < length (p_Ex p))%nat -> nth r (snd (pinit V v0 p)) PBad = PStart).
  { intros r Hr. unfold pinit. cbn [snd]. rewrite nth_indep with (d' := PStart) by now rewrite repeat_length. apply nth_repeat. }
  pose proof (run_rank p sched (pinit V v0 p) i ltac:(lia)) as R. rewrite LI in R.
  specialize (R ltac:(intros r Hr; rewrite (NI r Hr); exact I)). rewrite (NI i Hi) in R. cbn [rank] in R.
  specialize (HF i Hi). fold (prun p sched) in R. specialize (H i Hi).
  assert (R0 : rank (length (p_Eg p)) (nth i (snd (prun p sched)) PBad) = 0%nat) by lia.
  assert (NB : nth i (snd (prun p sched)) PBad <> PBad).
  { intros C. rewrite C in H. cbn [finish] in H. unfold row_from in H. rewrite (eg_max_some p i OK Hi) in H.
    destruct (row_while_some p i (vget (p_Ex p) i + vget (p_res p) i + half_width p) OK Hi (length (p_Eg p)) 0 (repeat v0 (length (p_Eg p)))) as (r & E & _); [lia|].
    congruence. }
  assert (IR : in_range (length (p_Eg p)) (nth i (snd (prun p sched)) PBad)).
  { clear - NI LI Hi. unfold DecompModel.prun. revert i Hi.
    assert (G : forall s, length (snd s) = length (p_Ex p) -> (forall r, (r < length (p_Ex p))%nat -> in_range (length (p_Eg p)) (nth r (snd s) PBad)) ->
       forall r, (r < length (p_Ex p))%nat -> in_range (length (p_Eg p)) (nth r (snd (fold_left (pstep p) sched s)) PBad)).
    { induction sched as [|k t IH]; intros s Ls HR; cbn [fold_left]; [exact HR|]. apply IH.
      - unfold DecompModel.pstep. destruct (nth_error (snd s) k); [|exact Ls]. destruct (step_task p k (fst s) p0). cbn [snd]. now rewrite upd_length.
      - intros r Hr. unfold DecompModel.pstep. destruct (nth_error (snd s) k) as [c|] eqn:E; [|now apply HR].
        assert (Hk : (k < length (snd s))%nat) by (apply nth_error_Some; congruence).
        apply (nth_error_nth _ _ PBad) in E. pose proof (HR k ltac:(lia)) as HRk. rewrite E in HRk.
        pose proof (step_rank p k (fst s) c HRk) as [S1 _]. destruct (step_task p k (fst s) c) as [m c']. cbn [snd] in *.
        rewrite nth_upd'. destruct (Nat.eqb_spec r k) as [->|NE]; cbn [andb]; [|now apply HR].
        destruct (Nat.ltb_spec k (length (snd s))); [exact S1|lia]. }
    intros i Hi. apply G; [exact LI| |exact Hi]. intros r Hr. rewrite (NI r Hr). exact I. }
  destruct (nth i (snd (prun p sched)) PBad); cbn [rank in_range] in *; try lia; congruence.
Qed.
End Product.
