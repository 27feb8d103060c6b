(* Lemmas on the first-generation method. *)
From Verif Require Import PyBase Axis RebinModel RebinProofs Rebin2DProofs MatrixModel MatrixSpec MatrixOpsProofs VectorModel VectorOpsProofs ArithModel ArithProofs
  FillProofs UnfoldModel UnfoldProofs UnfoldApplyProofs FirstGenModel FirstGenSpec.

(* --- multiplicities --- *)
Lemma dot_nonneg l m : (forall x, In x l -> 0 <= x) -> (forall x, In x m -> 0 <= x) -> 0 <= dot l m.
Proof.
  revert m. induction l as [|x l IH]; intros [|y m] H1 H2; try (cbn; apply Qcle_refl).
  unfold dot in *. cbn. assert (A : 0 <= x * y) by (apply Qcmult_nonneg; [apply H1|apply H2]; now left).
  specialize (IH m (fun z Hz => H1 z (or_intror Hz)) (fun z Hz => H2 z (or_intror Hz))). unfold map2 in IH. qlra.
Qed.
Lemma qsum_nonneg l : (forall x, In x l -> 0 <= x) -> 0 <= qsum l.
Proof. induction l as [|x l IH]; intros H; cbn; [apply Qcle_refl|]. specialize (H x (or_introl eq_refl)) as H0. assert (0 <= qsum l) by (apply IH; intros; apply H; now right). qlra. Qed.
Lemma div0_nonneg a b : 0 <= a -> 0 <= b -> 0 <= div0 a b.
Proof.
  intros Ha Hb. unfold div0. destruct (qeqb_spec b 0) as [|N]; [apply Qcle_refl|].
  unfold Qcdiv. apply Qcmult_nonneg; [exact Ha|]. apply Qclt_le_weak. apply Qcinv_pos. destruct (qltb_spec 0 b); [assumption|]. exfalso. apply N. qlra.
Qed.
Lemma dot_masked_nonneg thr : 0 <= thr -> forall eg row, (forall x, In x row -> 0 <= x) ->
  0 <= dot eg (map2 (fun e x => if qltb e thr then 0 else x) eg row).
Proof.
  intros HT. induction eg as [|e eg IH]; intros [|x row] H; try (unfold dot; cbn; apply Qcle_refl).
  unfold dot, map2 in *. cbn. assert (A : 0 <= e * (if qltb e thr then 0 else x)).
  { destruct (qltb_spec e thr) as [L|L]; [rewrite Qcmult_0_r; apply Qcle_refl|]. apply Qcmult_nonneg; [qlra|]. apply H. now left. }
  specialize (IH row (fun z Hz => H z (or_intror Hz))). qlra.
Qed.
Lemma mult_stat_nonneg g eg ex row : 0 <= g_shift g -> 0 <= g_upper g -> (g_slide g = true -> 0 <= g_lower g) -> 0 <= ex -> (forall x, In x row -> 0 <= x) ->
  0 <= mult_stat_row g eg ex row.
Proof.
  intros H1 H2 H3 H4 H5. unfold mult_stat_row. cbv zeta. apply div0_nonneg.
  - destruct (qmin_spec (ex - g_shift g) (g_entry g)) as [[? ->]|[? ->]];
      match goal with |- context [qmax ?a 0] => destruct (qmax_spec a 0) as [[? ->]|[? ->]] end; qlra.
  - assert (T : 0 <= slide_of g ex).
    { unfold slide_of. destruct (g_slide g); [|exact H2]. specialize (H3 eq_refl).
      destruct (qmax_spec (ex * g_ratio g) (g_lower g)) as [[? ->]|[? ->]];
        match goal with |- context [qmin ?a ?b] => destruct (qmin_spec a b) as [[? ->]|[? ->]] end; qlra. }
    apply div0_nonneg; [now apply dot_masked_nonneg|]. apply qsum_nonneg. intros x Hx. unfold map2 in Hx. apply in_map_iff in Hx as ([e y] & <- & Hy).
    cbn. destruct (qltb e _); [apply Qcle_refl|]. apply H5. now apply in_combine_r in Hy.
Qed.
Lemma mult_total_nonneg eg ex row : 0 <= mult_total_row eg ex row.
Proof. unfold mult_total_row. cbv zeta. destruct (qltb_spec (div0 ex (div0 (dot eg row) (qsum row))) 0); qlra. Qed.
Lemma multiplicity_nonneg g m : (g_method g = Statistical -> 0 <= g_shift g /\ 0 <= g_upper g /\ (g_slide g = true -> 0 <= g_lower g)) ->
  (forall e, In e (Ex m) -> 0 <= e) -> (forall r x, In r (a_rows (values m)) -> In x r -> 0 <= x) ->
  forall x, In x (multiplicity g m) -> 0 <= x.
Proof.
  intros HP HE HV x Hx. unfold multiplicity, map2 in Hx. apply in_map_iff in Hx as ([e r] & <- & Hp). cbn [fst snd].
  pose proof (in_combine_l _ _ _ _ Hp). pose proof (in_combine_r _ _ _ _ Hp).
  destruct (g_method g); [|apply mult_total_nonneg]. destruct (HP eq_refl) as (? & ? & ?). apply mult_stat_nonneg; auto. eauto.
Qed.
Lemma existsb_neg_false l : (forall x, In x l -> 0 <= x) -> existsb (fun x => qltb x 0) l = false.
Proof. intros H. apply not_true_iff_false. intros E. apply existsb_exists in E as (x & Hx & L). apply qltb_lt in L. specialize (H x Hx). qlra. Qed.
Lemma existsb_neg_inv l : existsb (fun x => qltb x 0) l = false -> forall x, In x l -> 0 <= x.
Proof. intros H x Hx. destruct (qleb_spec 0 x) as [|N]; [assumption|]. exfalso. assert (existsb (fun x => qltb x 0) l = true); [|congruence]. apply existsb_exists. exists x. split; [exact Hx|]. now apply qltb_lt. Qed.
Lemma negative_entry_inv a : negative_entry a = false -> forall r x, In r (a_rows a) -> In x r -> 0 <= x.
Proof.
  intros H r x Hr. apply existsb_neg_inv. unfold negative_entry in H. apply not_true_iff_false. intros E.
  assert (existsb (existsb (fun x => qltb x 0)) (a_rows a) = true); [|congruence]. apply existsb_exists. eauto.
Qed.

(* --- weights --- *)
Lemma normalize_rows_length W : length (normalize_rows W) = length W. Proof. apply map_length. Qed.
Lemma flip_get n H i k : (i < length H)%nat -> (k < n)%nat -> mget (flip_weights n H) i k = if (k <? i)%nat then mget H i (i - k) else 0.
Proof. intros. unfold mget at 1, flip_weights, vget. now rewrite !nth_tab. Qed.
Lemma flip_row_length n H i : (i < length H)%nat -> length (nth i (flip_weights n H) []) = n.
Proof. intros. unfold flip_weights. rewrite nth_tab by assumption. apply tab_length. Qed.

Definition clip0 (x : Qc) : Qc := if qltb x 0 then 0 else x.
Lemma clip0_nonneg x : 0 <= clip0 x. Proof. unfold clip0. destruct (qltb_spec x 0); qlra. Qed.
(* the row i of the weights, before normalisation *)
Definition wraw (k n : nat) (Hr Wo : list (list Qc)) (i : nat) : list Qc :=
  map clip0 (if (4 <? k)%nat then map2 (fun a b => qn 7 10 * a + qn 3 10 * b) (nth i (flip_weights n Hr) []) (nth i Wo [])
             else nth i (flip_weights n Hr) []).
Lemma fg_weights_row k n Hr Wo i : length Hr = n -> ((4 < k)%nat -> length Wo = n) -> (i < n)%nat ->
  nth i (fg_weights k n Hr Wo) [] = map (fun x => div0 x (qsum (wraw k n Hr Wo i))) (wraw k n Hr Wo i).
Proof.
  intros L1 L2 Hi. unfold fg_weights, normalize_rows, wraw. cbv zeta. destruct (Nat.ltb_spec 4 k) as [K|K].
  - rewrite map_map. rewrite (map_nth_in _ _ _ []).
    2:{ unfold zip2. rewrite map2_length; unfold flip_weights; rewrite tab_length; [lia|symmetry; rewrite L2; lia]. }
    unfold zip2. rewrite (map2_nth _ _ _ _ [] []) by (unfold flip_weights; rewrite ?tab_length, ?L2; lia). reflexivity.
  - rewrite map_map. rewrite (map_nth_in _ _ _ []) by (unfold flip_weights; rewrite tab_length; lia). reflexivity.
Qed.
Lemma fg_weights_length k n Hr Wo : length Hr = n -> ((4 < k)%nat -> length Wo = n) -> length (fg_weights k n Hr Wo) = n.
Proof.
  intros L1 L2. unfold fg_weights. cbv zeta. rewrite normalize_rows_length, map_length. destruct (Nat.ltb_spec 4 k) as [K|K].
  - unfold zip2. rewrite map2_length; unfold flip_weights; rewrite tab_length; [lia|symmetry; rewrite L2; lia].
  - unfold flip_weights. rewrite tab_length. exact L1.
Qed.
Lemma wraw_nonneg k n Hr Wo i x : In x (wraw k n Hr Wo i) -> 0 <= x.
Proof. unfold wraw. rewrite in_map_iff. intros (y & <- & _). apply clip0_nonneg. Qed.
Lemma wraw_length k n Hr Wo i : length Hr = n -> (i < n)%nat -> ((4 < k)%nat -> length (nth i Wo []) = n) -> length (wraw k n Hr Wo i) = n.
Proof.
  intros L Hi LW. unfold wraw. rewrite map_length. destruct (Nat.ltb_spec 4 k) as [K|K].
  - rewrite map2_length; rewrite flip_row_length by lia; [reflexivity|symmetry; now apply LW].
  - now apply flip_row_length; lia.
Qed.
Lemma wraw_zero k n Hr Wo i j : length Hr = n -> (i < n)%nat -> ((4 < k)%nat -> length (nth i Wo []) = n) ->
  ((4 < k)%nat -> forall j, (i <= j < n)%nat -> mget Wo i j = 0) -> (i <= j < n)%nat -> vget (wraw k n Hr Wo i) j = 0.
Proof.
  intros L Hi LW ZW Hj. unfold wraw, vget. destruct (Nat.ltb_spec 4 k) as [K|K].
  - rewrite (map_nth_in _ _ _ 0) by (rewrite map2_length; rewrite flip_row_length by lia; [lia|symmetry; now apply LW]).
    rewrite (map2_nth _ _ _ _ 0 0) by (rewrite ?flip_row_length, ?LW; lia).
    change (nth j (nth i (flip_weights n Hr) []) 0) with (mget (flip_weights n Hr) i j).
    change (nth j (nth i Wo []) 0) with (mget Wo i j).
    rewrite flip_get by lia. rewrite ZW by lia. destruct (Nat.ltb_spec j i); [lia|].
    assert (E : qn 7 10 * 0 + qn 3 10 * 0 = 0) by ring. rewrite E. reflexivity.
  - rewrite (map_nth_in _ _ _ 0) by (rewrite flip_row_length; lia).
    change (nth j (nth i (flip_weights n Hr) []) 0) with (mget (flip_weights n Hr) i j).
    rewrite flip_get by lia. destruct (Nat.ltb_spec j i); [lia|]. reflexivity.
Qed.
Lemma qsum_zero_all l : (forall x, In x l -> 0 <= x) -> qsum l = 0 -> forall x, In x l -> x = 0.
Proof.
  induction l as [|y l IH]; intros H S x Hx; [destruct Hx|]. cbn in S.
  assert (A : 0 <= y) by (apply H; now left). assert (B : 0 <= qsum l) by (apply qsum_nonneg; intros; apply H; now right).
  destruct Hx as [<-|Hx]; [qlra|]. apply IH; [intros; apply H; now right|qlra|exact Hx].
Qed.
Lemma fg_weights_proper k n Hr Wo : length Hr = n -> ((4 < k)%nat -> decay_weights n Wo) -> decay_weights n (fg_weights k n Hr Wo).
Proof.
  intros L DW.
  assert (LW : (4 < k)%nat -> length Wo = n) by (intros K; apply (DW K)).
  split; [now apply fg_weights_length|]. intros i Hi.
  assert (LR : (4 < k)%nat -> length (nth i Wo []) = n) by (intros K; apply (proj2 (DW K) i Hi)).
  assert (ZR : (4 < k)%nat -> forall j, (i <= j < n)%nat -> mget Wo i j = 0) by (intros K; apply (proj2 (DW K) i Hi)).
  pose proof (wraw_length k n Hr Wo i L Hi LR) as WL.
  rewrite fg_weights_row by assumption. set (w := wraw k n Hr Wo i) in *.
  assert (G : forall j, (j < n)%nat -> mget (fg_weights k n Hr Wo) i j = div0 (vget w j) (qsum w)).
  { intros j Hj. unfold mget. rewrite fg_weights_row by assumption. fold w. unfold vget. rewrite (map_nth_in _ _ _ 0) by lia. reflexivity. }
  assert (NN : forall j, 0 <= vget w j).
  { intros j. apply vget_nonneg. intros x. apply wraw_nonneg. }
  assert (SN : 0 <= qsum w) by (apply qsum_nonneg; intros x; apply wraw_nonneg).
  split; [now rewrite map_length|]. split; [|split].
  - intros j Hj. rewrite G by assumption. now apply div0_nonneg.
  - intros j Hj. rewrite G by lia. unfold w. rewrite wraw_zero by assumption. unfold div0. destruct (qeqb _ 0); [reflexivity|]. unfold Qcdiv; ring.
  - destruct (qeqb_spec (qsum w) 0) as [Z|Z].
    + right. intros j Hj. rewrite G by assumption. unfold div0. now rewrite (proj2 (qeqb_eq _ _) Z).
    + left. rewrite (sumn_ext _ _ (fun j => vget w j / qsum w)).
      2:{ intros j Hj. rewrite G by assumption. unfold div0. now rewrite (proj2 (qeqb_neq _ _) Z). }
      rewrite sumn_div. rewrite <- WL, <- qsum_nth. field. exact Z.
Qed.

(* --- row normalised start --- *)
Lemma row_norm_step_length H p : length (row_norm_step H p) = length H.
Proof. apply upd_length. Qed.
Lemma row_norm_fold_length l : forall H, length (fold_left row_norm_step l H) = length H.
Proof. induction l as [|p l IH]; intros H; [reflexivity|]. cbn. now rewrite IH, row_norm_step_length. Qed.
Definition norm_row (ny : nat) (r : list Qc) : list Qc :=
  match first_nonzero 0 (rev r) with
  | Some j => set_prefix (map (fun _ => 0) r) (ny - j) (1 / qnat (Nat.max 1 (ny - j)))
  | None => map (fun _ => 0) r
  end.
Lemma row_norm_fold ny : forall rows i0 H, length H = (i0 + length rows)%nat ->
  (forall i, (i < length rows)%nat -> nth (i0 + i) H [] = map (fun _ => 0) (nth i rows [])) ->
  (forall i, (i < i0)%nat -> nth i (fold_left row_norm_step (diag_rows ny i0 rows) H) [] = nth i H []) /\
  (forall i, (i < length rows)%nat -> nth (i0 + i) (fold_left row_norm_step (diag_rows ny i0 rows) H) [] = norm_row ny (nth i rows [])).
Proof.
  induction rows as [|r rows IH]; intros i0 H L Z; [split; [reflexivity|cbn; intros; lia]|].
  cbn [diag_rows]. cbn [length] in L, Z.
  set (H' := match first_nonzero 0 (rev r) with Some j => row_norm_step H (i0, (ny - j)%nat) | None => H end).
  assert (EF : fold_left row_norm_step (match first_nonzero 0 (rev r) with Some j => (i0, (ny - j)%nat) :: diag_rows ny (S i0) rows | None => diag_rows ny (S i0) rows end) H
    = fold_left row_norm_step (diag_rows ny (S i0) rows) H') by (unfold H'; destruct (first_nonzero 0 (rev r)); reflexivity).
  rewrite EF.
  assert (L' : length H' = (S i0 + length rows)%nat) by (unfold H'; destruct (first_nonzero 0 (rev r)); rewrite ?row_norm_step_length; lia).
  assert (O : forall i, i <> i0 -> nth i H' [] = nth i H []).
  { intros i Hi. unfold H'. destruct (first_nonzero 0 (rev r)); [|reflexivity]. unfold row_norm_step. cbn [fst snd]. rewrite nth_upd by lia.
    destruct (Nat.eqb_spec i i0); [contradiction|reflexivity]. }
  destruct (IH (S i0) H' L') as [A B].
  { intros i Hi. rewrite O by lia. specialize (Z (S i) ltac:(lia)). cbn [nth] in Z. rewrite <- Z. f_equal. lia. }
  split.
  - intros i Hi. rewrite A by lia. apply O. lia.
  - intros [|i] Hi; cbn [nth].
    + rewrite Nat.add_0_r. rewrite A by lia. unfold H', norm_row. specialize (Z 0%nat ltac:(lia)). rewrite Nat.add_0_r in Z. cbn [nth] in Z.
      destruct (first_nonzero 0 (rev r)); [|exact Z]. unfold row_norm_step. cbn [fst snd]. rewrite nth_upd by lia. rewrite Nat.eqb_refl. now rewrite Z.
    + cbn [length] in Hi. rewrite <- B by lia. f_equal. lia.
Qed.
Lemma row_normalized_row a i : (i < a_nr a)%nat -> nth i (row_normalized a) [] = norm_row (a_nc a) (nth i (a_rows a) []).
Proof.
  intros Hi. unfold row_normalized, diagonal_elements, a_nr in *.
  destruct (row_norm_fold (a_nc a) (a_rows a) 0 (map (map (fun _ => 0)) (a_rows a))) as [_ B].
  - now rewrite map_length.
  - intros k Hk. cbn [plus]. now rewrite (map_nth_in _ _ _ []) by assumption.
  - exact (B i Hi).
Qed.
Lemma row_normalized_length a : length (row_normalized a) = a_nr a.
Proof. unfold row_normalized. rewrite row_norm_fold_length. apply map_length. Qed.
Lemma norm_row_length ny r : length (norm_row ny r) = length r.
Proof. unfold norm_row. destruct (first_nonzero 0 (rev r)); [unfold set_prefix; rewrite tab_length|]; apply map_length. Qed.

(* --- the loop --- *)
Section Loop.
Variables (m : matrix) (N : list (list Qc)) (vc : option (list Qc)).
Hypothesis C : consistent m.
Let n := length (Ex m).
Let nc := length (Eg m).
Hypothesis NL : length N = n.
Hypothesis NR : forall r, In r N -> length r = n.
Hypothesis VC : forall c, vc = Some c -> length c = n \/ length c = 1%nat.

Lemma rebin_rows_length H Hr : length H = n -> rebin_2D (a_nc (values m)) H (Eg m) (Ex m) 1 = Ok Hr -> length Hr = n.
Proof. intros L E. unfold rebin_2D in E. cbn in E. apply rmapm_length in E. congruence. Qed.
Lemma NW_shaped W : decay_weights n W -> shaped (mkArr n match vc with None => zip2 Qcmult N W | Some c => map (fun r => bmul r c) (zip2 Qcmult N W) end) n n.
Proof.
  intros [LW HW]. assert (Z1 : length (zip2 Qcmult N W) = n) by (unfold zip2; rewrite map2_length; congruence).
  assert (Z2 : forall r, In r (zip2 Qcmult N W) -> length r = n).
  { intros r Hr. apply (In_nth _ _ []) in Hr as (i & Hi & <-). rewrite Z1 in Hi. unfold zip2. rewrite (map2_nth _ _ _ _ [] []) by lia.
    assert (LN : length (nth i N []) = n) by (apply NR, nth_In; lia). rewrite map2_length; [exact LN|]. rewrite LN. symmetry. apply (HW i Hi). }
  destruct vc as [c|].
  - split; [reflexivity|]. cbn [a_rows]. split; [now rewrite map_length|]. intros r Hr. apply in_map_iff in Hr as (x & <- & Hx). unfold bmul.
    specialize (VC c eq_refl). destruct c as [|c0 [|c1 c]].
    + destruct VC as [V|V]; [|discriminate]. rewrite map2_length by (rewrite Z2 by exact Hx; congruence). now apply Z2.
    + rewrite map_length. now apply Z2.
    + destruct VC as [V|V]; [|discriminate]. rewrite map2_length by (rewrite Z2 by exact Hx; congruence). now apply Z2.
  - split; [reflexivity|]. split; [exact Z1|exact Z2].
Qed.
Lemma NW_get W i k : decay_weights n W -> (i < n)%nat -> (k < n)%nat ->
  mget match vc with None => zip2 Qcmult N W | Some c => map (fun r => bmul r c) (zip2 Qcmult N W) end i k = mget N i k * mget W i k * factor vc k.
Proof.
  intros [LW HW] Hi Hk. assert (Z1 : length (zip2 Qcmult N W) = n) by (unfold zip2; rewrite map2_length; congruence).
  assert (LN : length (nth i N []) = n) by (apply NR, nth_In; lia). destruct (HW i Hi) as [LWi _].
  assert (Z2 : mget (zip2 Qcmult N W) i k = mget N i k * mget W i k).
  { unfold mget, vget, zip2. rewrite (map2_nth _ _ _ _ [] []) by lia. now rewrite (map2_nth _ _ _ _ 0 0) by lia. }
  assert (LZ : length (nth i (zip2 Qcmult N W) []) = n).
  { unfold zip2. rewrite (map2_nth _ _ _ _ [] []) by lia. rewrite map2_length; congruence. }
  unfold factor. destruct vc as [c|]; [|rewrite Z2; ring]. rewrite <- Z2. unfold mget. rewrite (map_nth_in _ _ _ []) by lia.
  specialize (VC c eq_refl). unfold bmul. destruct c as [|c0 [|c1 c]].
  - cbn in VC. lia.
  - unfold vget at 1. rewrite (map_nth_in _ _ _ 0) by lia. reflexivity.
  - destruct VC as [V|V]; [|discriminate]. unfold vget at 1. rewrite (map2_nth _ _ _ _ 0 0) by lia. reflexivity.
Qed.
Lemma subtract_lemma W : decay_weights n W ->
  shaped (mkArr nc (fg_subtract n N W vc (values m))) n nc /\
  forall i j, (i < n)%nat -> (j < nc)%nat ->
    mget (fg_subtract n N W vc (values m)) i j =
    aget (values m) i j - sumn n (fun k => mget N i k * mget W i k * factor vc k * aget (values m) k j).
Proof.
  intros DW. pose proof (NW_shaped W DW) as SN. destruct C as [SV _]. fold n nc in SV.
  pose proof (matprod_shaped _ _ n n nc SN SV) as (P1 & P2 & P3). pose proof SV as (V1 & V2 & V3).
  unfold fg_subtract. cbv zeta. set (G := matprod _ (values m)) in *. split.
  - split; [reflexivity|]. cbn [a_rows]. assert (LZ : length (zip2 Qcminus (a_rows (values m)) (a_rows G)) = n) by (unfold zip2; rewrite map2_length; congruence).
    split; [exact LZ|]. intros r Hr. apply (In_nth _ _ []) in Hr as (i & Hi & <-). rewrite LZ in Hi. unfold zip2. rewrite (map2_nth _ _ _ _ [] []) by lia.
    rewrite map2_length; [apply V3, nth_In; lia|]. rewrite V3, P3; [reflexivity|apply nth_In; lia|apply nth_In; lia].
  - intros i j Hi Hj. assert (L1 : length (nth i (a_rows (values m)) []) = nc) by (apply V3, nth_In; lia).
    assert (L2 : length (nth i (a_rows G) []) = nc) by (apply P3, nth_In; lia).
    unfold mget at 1, vget, zip2. rewrite (map2_nth _ _ _ _ [] []) by lia. rewrite (map2_nth _ _ _ _ 0 0) by lia.
    change (aget (values m) i j - aget G i j = aget (values m) i j - sumn n (fun k => mget N i k * mget W i k * factor vc k * aget (values m) k j)).
    f_equal. unfold G. rewrite (matprod_get _ _ n n nc) by assumption. apply sumn_ext. intros k Hk. rewrite <- NW_get by assumption. reflexivity.
Qed.
(* one step *)
Lemma step_lemma k H Wo H' W' : length H = n -> ((4 < k)%nat -> decay_weights n Wo) ->
  fg_step k H Wo N m vc = Ok (H', W') ->
  decay_weights n W' /\ shaped (mkArr nc H') n nc /\
  forall i j, (i < n)%nat -> (j < nc)%nat -> mget H' i j = aget (values m) i j - sumn n (fun k => mget N i k * mget W' i k * factor vc k * aget (values m) k j).
Proof.
  intros LH DW. unfold fg_step. destruct (rebin_2D _ H _ _ 1) as [Hr|] eqn:R; [|discriminate]. cbn [rbind]. cbv zeta. intros [= <- <-].
  fold n. pose proof (rebin_rows_length H Hr LH R) as LR. pose proof (fg_weights_proper k n Hr Wo LR DW) as D. split; [exact D|].
  now apply subtract_lemma.
Qed.
(* the weights and the spectrum after any number of iterations *)
Lemma loop_lemma f : forall k H W H' W', length H = n -> ((0 < k)%nat -> decay_weights n W /\ shaped (mkArr nc H) n nc) ->
  fg_loop f k H W N m vc = Ok (H', W') -> (0 < k + f)%nat ->
  decay_weights n W' /\ shaped (mkArr nc H') n nc /\
  ((0 < f)%nat -> forall i j, (i < n)%nat -> (j < nc)%nat ->
    mget H' i j = aget (values m) i j - sumn n (fun k => mget N i k * mget W' i k * factor vc k * aget (values m) k j)).
Proof.
  induction f as [|f IH]; intros k H W H' W' LH I E P; cbn [fg_loop] in E.
  - injection E as <- <-. destruct (I ltac:(lia)). split; [assumption|]. split; [assumption|]. lia.
  - destruct (fg_step k H W N m vc) as [[H1 W1]|] eqn:ST; [|discriminate]. cbn [rbind] in E.
    destruct (_ || _); [discriminate|].
    destruct (step_lemma k H W H1 W1 LH) as (D & SH & F); [intros K; apply I; lia|exact ST|].
    destruct f as [|f].
    + cbn in E. injection E as <- <-. auto.
    + destruct (IH (S k) H1 W1 H' W') as (A & B & F2); [apply SH|auto|exact E|lia|]. split; [exact A|]. split; [exact B|]. intros _. apply F2. lia.
Qed.
End Loop.

(* --- lower rows do not see higher rows --- *)
Lemma rmapm_nth {A B} (f : A -> result B) l o d d' i : rmapm f l = Ok o -> (i < length l)%nat -> f (nth i l d) = Ok (nth i o d').
Proof.
  revert o i. induction l as [|x l IH]; intros o i E Hi; [cbn in Hi; lia|]. cbn in E. destruct (f x) as [y|] eqn:Fx; [|discriminate].
  cbn [rbind] in E. destruct (rmapm f l) as [t|] eqn:R; [|discriminate]. cbn [rbind] in E. injection E as <-.
  destruct i as [|i]; [exact Fx|]. cbn [nth]. apply IH; [reflexivity|cbn in Hi; lia].
Qed.
Lemma rebin_rows_agree i n nc H H' mi mo Hr Hr' : length H = n -> length H' = n -> (i < n)%nat -> agree_upto i H H' ->
  rebin_2D nc H mi mo 1 = Ok Hr -> rebin_2D nc H' mi mo 1 = Ok Hr' -> agree_upto i Hr Hr'.
Proof.
  intros L L' Hi A E E' r Hrr. unfold rebin_2D in E, E'. cbn in E, E'.
  pose proof (rmapm_nth _ _ _ [] [] r E ltac:(lia)) as P. pose proof (rmapm_nth _ _ _ [] [] r E' ltac:(lia)) as P'.
  cbv beta in P, P'. rewrite (A r Hrr) in P. congruence.
Qed.
Lemma mget_agree i (H H' : list (list Qc)) r k : agree_upto i H H' -> (r <= i)%nat -> mget H r k = mget H' r k.
Proof. intros A Hr. unfold mget. now rewrite A. Qed.
Lemma weights_agree i k n Hr Hr' Wo Wo' : length Hr = n -> length Hr' = n -> ((4 < k)%nat -> length Wo = n /\ length Wo' = n /\ agree_upto i Wo Wo') -> (i < n)%nat ->
  agree_upto i Hr Hr' -> agree_upto i (fg_weights k n Hr Wo) (fg_weights k n Hr' Wo').
Proof.
  intros L L' LW Hi A r Hrr. rewrite !fg_weights_row by (try assumption; try lia; intros K; apply LW; exact K).
  assert (EF : nth r (flip_weights n Hr) [] = nth r (flip_weights n Hr') []).
  { unfold flip_weights. rewrite !nth_tab by lia. apply list_eq_nth with (d := 0); [now rewrite !tab_length|]. intros c Hc. rewrite tab_length in Hc.
    rewrite !nth_tab by exact Hc. destruct (c <? r)%nat; [|reflexivity]. now apply (mget_agree i). }
  assert (EW : wraw k n Hr Wo r = wraw k n Hr' Wo' r).
  { unfold wraw. rewrite EF. destruct (Nat.ltb_spec 4 k) as [K|K]; [|reflexivity]. destruct (LW K) as (_ & _ & AW). now rewrite AW. }
  now rewrite EW.
Qed.
Section Local.
Variables (m m' : matrix) (N N' : list (list Qc)) (vc : option (list Qc)) (i : nat).
Hypothesis C : consistent m.
Hypothesis C' : consistent m'.
Hypothesis EEg : Eg m' = Eg m.
Hypothesis EEx : Ex m' = Ex m.
Let n := length (Ex m).
Let nc := length (Eg m).
Hypothesis Hi : (i < n)%nat.
Hypothesis AV : agree_upto i (a_rows (values m)) (a_rows (values m')).
Hypothesis NL : length N = n.
Hypothesis NR : forall r, In r N -> length r = n.
Hypothesis NL' : length N' = n.
Hypothesis NR' : forall r, In r N' -> length r = n.
Hypothesis AN : forall r k, (r <= i)%nat -> (k <= i)%nat -> mget N r k = mget N' r k.
Hypothesis VC : forall c, vc = Some c -> length c = n \/ length c = 1%nat.
Lemma step_agree k H H' Wo Wo' H1 W1 H1' W1' : length H = n -> length H' = n -> agree_upto i H H' ->
  ((4 < k)%nat -> decay_weights n Wo /\ decay_weights n Wo' /\ agree_upto i Wo Wo') ->
  fg_step k H Wo N m vc = Ok (H1, W1) -> fg_step k H' Wo' N' m' vc = Ok (H1', W1') ->
  agree_upto i H1 H1' /\ agree_upto i W1 W1'.
Proof.
  intros L L' A AW S S'.
  assert (NR2 : forall r, In r N' -> length r = length (Ex m')) by (rewrite EEx; exact NR').
  assert (VC2 : forall c, vc = Some c -> length c = length (Ex m') \/ length c = 1%nat) by (rewrite EEx; exact VC).
  pose proof (step_lemma m N vc C NL NR VC k H Wo H1 W1 L ltac:(intros K; apply AW; exact K) S) as (D & SH & F).
  pose proof (step_lemma m' N' vc C' ltac:(rewrite EEx; exact NL') NR2 VC2 k H' Wo' H1' W1' ltac:(rewrite EEx; exact L') ltac:(rewrite EEx; intros K; apply AW; exact K) S') as (D' & SH' & F').
  rewrite EEx in D'. rewrite EEx, EEg in SH', F'. fold n in D, D'. fold n nc in SH, F, SH', F'.
  assert (AW1 : agree_upto i W1 W1').
  { unfold fg_step in S, S'. destruct (rebin_2D _ H _ _ 1) as [Hr|] eqn:R; [|discriminate]. destruct (rebin_2D _ H' _ _ 1) as [Hr'|] eqn:R'; [|discriminate].
    cbn [rbind] in S, S'. cbv zeta in S, S'. injection S as _ <-. injection S' as _ <-. rewrite EEx. fold n.
    replace (a_nc (values m')) with (a_nc (values m)) in R'.
    2:{ destruct C as [(c1 & _) _], C' as [(c2 & _) _]. congruence. }
    rewrite EEx, EEg in R'. apply weights_agree.
    - now apply (rebin_rows_length m H).
    - now apply (rebin_rows_length m H').
    - intros K. destruct (AW K) as (DD & DD' & AA). split; [apply DD|]. split; [apply DD'|exact AA].
    - exact Hi.
    - eapply rebin_rows_agree; [exact L|exact L'|exact Hi|exact A|exact R|exact R']. }
  split; [|exact AW1]. intros r Hr. destruct SH as (_ & P2 & P3), SH' as (_ & Q2 & Q3). cbn [a_rows] in *.
  apply list_eq_nth with (d := 0).
  - rewrite P3, Q3 by (apply nth_In; lia). reflexivity.
  - intros j Hj. rewrite P3 in Hj by (apply nth_In; lia).
    change (mget H1 r j = mget H1' r j). rewrite F, F' by lia.
    assert (AVr : forall r, (r <= i)%nat -> aget (values m) r j = aget (values m') r j) by (intros; unfold aget; now apply (mget_agree i)).
    rewrite AVr by exact Hr. f_equal. apply sumn_ext. intros c Hc. destruct (le_lt_dec r c) as [G|G].
    + destruct D as [_ D], D' as [_ D']. destruct (D r ltac:(lia)) as (_ & _ & Z & _), (D' r ltac:(lia)) as (_ & _ & Z' & _).
      rewrite Z, Z' by lia. ring.
    + rewrite AN by lia. rewrite (mget_agree i W1 W1') by assumption. rewrite AVr by lia. reflexivity.
Qed.
Lemma loop_agree f : forall k H H' W W' H1 W1 H1' W1', length H = n -> length H' = n -> agree_upto i H H' ->
  ((0 < k)%nat -> decay_weights n W /\ decay_weights n W' /\ agree_upto i W W') ->
  fg_loop f k H W N m vc = Ok (H1, W1) -> fg_loop f k H' W' N' m' vc = Ok (H1', W1') -> agree_upto i H1 H1'.
Proof.
  assert (NR2 : forall r, In r N' -> length r = length (Ex m')) by (rewrite EEx; exact NR').
  assert (VC2 : forall c, vc = Some c -> length c = length (Ex m') \/ length c = 1%nat) by (rewrite EEx; exact VC).
  induction f as [|f IH]; intros k H H' W W' H1 W1 H1' W1' L L' A AW E E'; cbn [fg_loop] in E, E'.
  - injection E as <- _. injection E' as <- _. exact A.
  - destruct (fg_step k H W N m vc) as [[Ha Wa]|] eqn:ST; [|discriminate]. destruct (fg_step k H' W' N' m' vc) as [[Hb Wb]|] eqn:ST'; [|discriminate].
    cbn [rbind] in E, E'. destruct (_ || _); [discriminate|]. destruct (_ || _); [discriminate|].
    pose proof (step_lemma m N vc C NL NR VC k H W Ha Wa L ltac:(intros K; apply AW; lia) ST) as (D & SH & _).
    pose proof (step_lemma m' N' vc C' ltac:(rewrite EEx; exact NL') NR2 VC2 k H' W' Hb Wb ltac:(rewrite EEx; exact L') ltac:(rewrite EEx; intros K; apply AW; lia) ST') as (D' & SH' & _).
    rewrite EEx in D', SH'. fold n in D, SH, D', SH'.
    destruct (step_agree k H H' W W' Ha Wa Hb Wb) as [P Q]; try assumption. { intros K. apply AW. lia. }
    eapply (IH (S k)); [| | |intros _|exact E|exact E']; try assumption; [apply SH|apply SH'|]. auto.
Qed.
End Local.

(* --- the normalisation --- *)
Lemma projection_Ex_all m : consistent m -> Eg m <> [] -> projection m (AInt 1) None None false = Ok (map qsum (a_rows (values m)), Ex m).
Proof.
  intros [(C1 & C2 & C3) _] NE. unfold projection.
  change (to_plot_axis (AInt 1)) with (Ok AxEx). cbn [rbind].
  assert (LE : length (Eg m) <> 0%nat) by (destruct (Eg m); [contradiction|discriminate]).
  replace (proj_bounds (Eg m) None None) with (Ok (0%Z, Z.of_nat (length (Eg m) - 1))).
  2:{ destruct (Eg m) as [|g0 gs]; [contradiction|]. unfold proj_bounds. cbn [rbind]. do 2 f_equal. cbn [length]. lia. }
  cbn [rbind slice_cols a_rows]. do 2 f_equal. rewrite map_map. apply map_ext_in. intros r Hr. f_equal.
  change 0%Z with (Z.of_nat 0). rewrite py_slice_range by (rewrite (C3 r Hr); lia). rewrite skipn_O.
  replace (S (length (Eg m) - 1) - 0)%nat with (length r) by (rewrite (C3 r Hr); lia). apply firstn_all.
Qed.
Lemma projection_Ex_empty m : Eg m = [] -> projection m (AInt 1) None None false = Raise IndexError.
Proof. intros E. unfold projection. replace (to_plot_axis (AInt 1)) with (Ok AxEx) by reflexivity. cbn [rbind]. now rewrite E. Qed.
Lemma multiplicity_length g m : consistent m -> length (multiplicity g m) = length (Ex m).
Proof. intros [(C1 & C2 & C3) _]. unfold multiplicity. apply map2_length. congruence. Qed.
Lemma multiplicity_get g m i : consistent m -> (i < length (Ex m))%nat ->
  vget (multiplicity g m) i = (match g_method g with Statistical => mult_stat_row g (Eg m) | TotalMult => mult_total_row (Eg m) end) (vget (Ex m) i) (nth i (a_rows (values m)) []).
Proof. intros [(C1 & C2 & C3) _] Hi. unfold multiplicity, vget. now rewrite (map2_nth _ _ _ _ 0 []) by lia. Qed.
Lemma mult_norm_lemma g m N : consistent m -> mult_norm g m = Ok N ->
  length N = length (Ex m) /\ (forall r, In r N -> length r = length (Ex m)) /\
  forall i k, (i < length (Ex m))%nat -> (k < length (Ex m))%nat ->
    mget N i k = div0 (counts_of m i * vget (multiplicity g m) k) (vget (multiplicity g m) i * counts_of m k).
Proof.
  intros C E. pose proof (multiplicity_length g m C) as LM. unfold mult_norm in E. cbv zeta in E.
  destruct (existsb _ (multiplicity g m)); [discriminate|].
  destruct (Eg m) as [|g0 gs] eqn:EE; [rewrite (projection_Ex_empty m EE) in E; discriminate|].
  rewrite (projection_Ex_all m C ltac:(congruence)) in E. cbn [rbind] in E. injection E as <-.
  pose proof C as [(C1 & C2 & C3) _].
  assert (LP : length (map qsum (a_rows (values m))) = length (Ex m)) by now rewrite map_length.
  split; [rewrite map2_length; congruence|]. split.
  - intros r Hr. apply (In_nth _ _ []) in Hr as (i & Hi & <-). rewrite map2_length in Hi by congruence. rewrite (map2_nth _ _ _ _ 0 0) by congruence. rewrite map2_length; congruence.
  - intros i k Hi Hk. unfold mget. rewrite (map2_nth _ _ _ _ 0 0) by congruence.
    unfold vget at 1. rewrite (map2_nth _ _ _ _ 0 0) by congruence. unfold counts_of.
    rewrite !(map_nth_in _ _ _ []) by congruence. reflexivity.
Qed.
Lemma mult_norm_agree g m m' N N' i : consistent m -> consistent m' -> Eg m' = Eg m -> Ex m' = Ex m -> (i < length (Ex m))%nat ->
  agree_upto i (a_rows (values m)) (a_rows (values m')) -> mult_norm g m = Ok N -> mult_norm g m' = Ok N' ->
  forall r k, (r <= i)%nat -> (k <= i)%nat -> mget N r k = mget N' r k.
Proof.
  intros C C' EG EX Hi A E E' r k Hr Hk. destruct (mult_norm_lemma g m N C E) as (_ & _ & F), (mult_norm_lemma g m' N' C' E') as (_ & _ & F').
  rewrite EX in F'. rewrite F, F' by lia. rewrite !multiplicity_get by (rewrite ?EX; auto; lia). unfold counts_of. rewrite EG, EX, !A by lia. reflexivity.
Qed.

Lemma weights_follow k n Hr Wo i j : length Hr = n -> ((4 < k)%nat -> decay_weights n Wo) -> (i < n)%nat -> (j < i)%nat ->
  let h l := clip0 (if (4 <? k)%nat then qn 7 10 * mget Hr i (i - l) + qn 3 10 * mget Wo i l else mget Hr i (i - l)) in
  mget (fg_weights k n Hr Wo) i j = div0 (h j) (sumn i h).
Proof.
  intros L DW Hi Hj h.
  assert (LW : (4 < k)%nat -> length Wo = n) by (intros K; apply (DW K)).
  assert (LR : (4 < k)%nat -> length (nth i Wo []) = n) by (intros K; apply (proj2 (DW K) i Hi)).
  assert (ZR : (4 < k)%nat -> forall j, (i <= j < n)%nat -> mget Wo i j = 0) by (intros K; apply (proj2 (DW K) i Hi)).
  pose proof (wraw_length k n Hr Wo i L Hi LR) as WL.
  assert (V : forall l, (l < i)%nat -> vget (wraw k n Hr Wo i) l = h l).
  { intros l Hl. unfold h, wraw, vget. destruct (Nat.ltb_spec 4 k) as [K|K].
    - rewrite (map_nth_in _ _ _ 0) by (rewrite map2_length; rewrite flip_row_length by lia; [lia|symmetry; now apply LR]).
      rewrite (map2_nth _ _ _ _ 0 0) by (rewrite ?flip_row_length, ?LR; lia).
      change (nth l (nth i (flip_weights n Hr) []) 0) with (mget (flip_weights n Hr) i l). rewrite flip_get by lia. destruct (Nat.ltb_spec l i); [reflexivity|lia].
    - rewrite (map_nth_in _ _ _ 0) by (rewrite flip_row_length; lia).
      change (nth l (nth i (flip_weights n Hr) []) 0) with (mget (flip_weights n Hr) i l). rewrite flip_get by lia. destruct (Nat.ltb_spec l i); [reflexivity|lia]. }
  unfold mget at 1. rewrite fg_weights_row by assumption. unfold vget at 1. rewrite (map_nth_in _ _ _ 0) by lia.
  change (nth j (wraw k n Hr Wo i) 0) with (vget (wraw k n Hr Wo i) j). rewrite V by exact Hj. f_equal.
  rewrite qsum_nth, WL. replace n with (i + (n - i))%nat at 1 by lia. rewrite sumn_plus. replace (sumn (n - i) _) with 0.
  2:{ symmetry. apply sumn_0. intros l Hl. apply wraw_zero; auto. lia. }
  rewrite Qcplus_0_r. apply sumn_ext. exact V.
Qed.
