(* Lemmas on FirstGeneration.apply, on repeated calls and on allgen_from_primary. *)
From Verif Require Import PyBase Axis RebinModel MatrixModel MatrixSpec CutSpec IndexProofs CutProofs MatrixOpsProofs VectorModel VectorSpec VectorProofs VectorOpsProofs ArithModel ArithProofs
  FillProofs UnfoldModel UnfoldProofs UnfoldApplyProofs FirstGenModel FirstGenSpec FirstGenProofs.

(* --- valley correction --- *)
Lemma index_scan_lt e prev i rest : (index_scan e prev i rest < S (i + length rest))%nat.
Proof.
  revert prev i. induction rest as [|x t IH]; intros prev i; cbn [index_scan length]; [lia|].
  cbv zeta. destruct (qltb prev _); [lia|]. specialize (IH ((x - e) * (x - e)) (S i)). lia.
Qed.
Lemma index_lt l e : l <> [] -> (index l e < length l)%nat.
Proof. destruct l as [|x t]; [contradiction|]. intros _. cbn [index length]. pose proof (index_scan_lt e ((x - e) * (x - e)) 0 t). lia. Qed.
Lemma bcast_true_lengths l m : bcast_allclose l m = Ok true -> length l = length m \/ length l = 1%nat \/ length m = 1%nat.
Proof.
  unfold bcast_allclose. destruct (Nat.eqb_spec (length l) (length m)); [auto|].
  destruct l as [|x [|y l]]; destruct m as [|x' [|y' m]]; cbn; intros; auto; discriminate.
Qed.
Lemma cut_valley_length g m g' c : valley_ok g -> cut_valley g m = (g', Ok (Some c)) -> length c = length (Ex m) \/ length c = 1%nat.
Proof.
  intros V E. unfold cut_valley in E. destruct (g_valley g) as [v|] eqn:GV; [|discriminate]. destruct (V v GV) as [[VL _] VN].
  destruct (py_min (Ex m)) as [lo|] eqn:E1; [|discriminate]. cbn [rbind] in E. destruct (py_max (Ex m)) as [hi|] eqn:E2; [|discriminate]. cbn [rbind] in E.
  unfold v_cut, v_cut_data in E. cbn [rbind] in E. cbn [v_E v_values] in E.
  set (a := Z.of_nat (index (v_E v) lo)) in *. set (b := (Z.of_nat (index (v_E v) hi) + 1)%Z) in *.
  destruct (bcast_allclose (py_slice (v_E v) a b) (Ex m)) as [t|] eqn:B; [|discriminate]. cbn [rbind] in E. destruct t; [|discriminate]. cbn [negb] in E.
  destruct (existsb _ _); [discriminate|]. injection E as _ <-.
  rewrite <- (py_slice_length (v_E v) (v_values v) a b VL).
  destruct (bcast_true_lengths _ _ B) as [?|[?|L1]]; [auto|auto|]. right.
  assert (LH : lo = hi).
  { destruct (Ex m) as [|e [|e' t]]; cbn in L1; try discriminate. cbn in E1, E2. congruence. }
  pose proof (index_lt (v_E v) hi VN). unfold a, b. rewrite LH.
  replace (Z.of_nat (index (v_E v) hi) + 1)%Z with (Z.of_nat (S (index (v_E v) hi))) by lia.
  rewrite py_slice_nat by lia. rewrite firstn_length, skipn_length. lia.
Qed.

(* --- the call --- *)
Lemma rn_shaped a nr nc : shaped a nr nc -> shaped (mkArr nc (row_normalized a)) nr nc.
Proof.
  intros (A1 & A2 & A3). split; [reflexivity|]. cbn [a_rows]. assert (L : length (row_normalized a) = nr) by (rewrite row_normalized_length; exact A2).
  split; [exact L|]. intros r Hr. apply (In_nth _ _ []) in Hr as (i & Hi & <-). rewrite L in Hi. rewrite row_normalized_row by (unfold a_nr; lia).
  rewrite norm_row_length. apply A3, nth_In. lia.
Qed.
Lemma fg_core_lemma g m vc r : consistent m -> (forall c, vc = Some c -> length c = length (Ex m) \/ length c = 1%nat) ->
  fg_core g m vc = Ok r ->
  exists N Hf Wf, mult_norm g m = Ok N /\
    fg_loop (g_iter g) 0 (row_normalized (values m)) (row_normalized (values m)) N m vc = Ok (Hf, Wf) /\
    shaped (mkArr (length (Eg m)) Hf) (length (Ex m)) (length (Eg m)) /\
    ((0 < g_iter g)%nat -> decay_weights (length (Ex m)) Wf /\
      forall i j, (i < length (Ex m))%nat -> (j < length (Eg m))%nat ->
        mget Hf i j = aget (values m) i j - sumn (length (Ex m)) (fun k => mget N i k * mget Wf i k * factor vc k * aget (values m) k j)) /\
    r = mkM (amap clip (mkArr (length (Eg m)) Hf)) (Eg m) (Ex m) None (Some FIRST_GENERATION).
Proof.
  intros C VC E. unfold fg_core in E. cbv zeta in E. destruct (mult_norm g m) as [N|] eqn:EN; [|discriminate]. cbn [rbind] in E.
  destruct (mult_norm_lemma g m N C EN) as (NL & NR & _). pose proof C as [SV _].
  destruct (fg_loop _ 0 _ _ N m vc) as [[Hf Wf]|] eqn:EL; [|discriminate]. cbn [rbind] in E.
  exists N, Hf, Wf. split; [reflexivity|]. split; [exact EL|].
  assert (SH : shaped (mkArr (length (Eg m)) Hf) (length (Ex m)) (length (Eg m)) /\ ((0 < g_iter g)%nat -> decay_weights (length (Ex m)) Wf /\
      forall i j, (i < length (Ex m))%nat -> (j < length (Eg m))%nat ->
        mget Hf i j = aget (values m) i j - sumn (length (Ex m)) (fun k => mget N i k * mget Wf i k * factor vc k * aget (values m) k j))).
  { destruct (g_iter g) as [|f] eqn:GI.
    - cbn [fg_loop] in EL. injection EL as <- <-. split; [now apply rn_shaped|lia].
    - destruct (loop_lemma m N vc C NL NR VC (S f) 0 _ _ _ _ ltac:(apply (rn_shaped _ _ _ SV)) ltac:(lia) EL ltac:(lia)) as (D & SH & F).
      split; [exact SH|]. intros _. split; [exact D|]. apply F. lia. }
  destruct SH as [SH F]. split; [exact SH|]. split; [exact F|].
  unfold mk_matrix in E. cbv zeta in E. destruct (verify_integrity _); [|discriminate]. cbn [rbind set_state] in E. injection E as <-.
  destruct SV as (SV1 & _ & _). rewrite SV1. reflexivity.
Qed.
Lemma fg_acted_inv g m g' r : fg_apply_acted g m = (g', Ok r) ->
  (forall e, In e (Ex m) -> 0 <= e) /\ (forall row x, In row (a_rows (values m)) -> In x row -> 0 <= x) /\
  exists vc, cut_valley g m = (g', Ok vc) /\ fg_core g m vc = Ok r.
Proof.
  unfold fg_apply_acted. destruct (existsb _ (Ex m)) eqn:X; [discriminate|]. destruct (negative_entry (values m)) eqn:NE; [discriminate|].
  destruct (cut_valley g m) as [g1 rv] eqn:CV. intros E. injection E as -> E. destruct rv as [vc|]; [|discriminate]. cbn [rbind] in E.
  split; [now apply existsb_neg_inv|]. split; [now apply negative_entry_inv|]. eauto.
Qed.
Lemma fg_valley_len g m g' vc : valley_ok g -> cut_valley g m = (g', Ok vc) -> forall c, vc = Some c -> length c = length (Ex m) \/ length c = 1%nat.
Proof. intros V E c ->. now apply (cut_valley_length g m g'). Qed.
(* C34 *)
Lemma fg_result_lemma act g u g' r m : act u = Ok m -> consistent m -> valley_ok g -> fg_apply act g u = (g', Ok r) ->
  consistent r /\ Eg r = Eg m /\ Ex r = Ex m /\ std r = None /\ state r = Some FIRST_GENERATION /\
  forall i j, (i < length (Ex m))%nat -> (j < length (Eg m))%nat -> 0 <= aget (values r) i j.
Proof.
  intros A C V E. unfold fg_apply in E. rewrite A in E. destruct (fg_acted_inv g m g' r E) as (_ & _ & vc & CV & K).
  destruct (fg_core_lemma g m vc r C (fg_valley_len g m g' vc V CV) K) as (N & Hf & Wf & _ & _ & SH & _ & ->). cbn [values Eg Ex std state].
  split; [split; [now apply amap_shaped|exact I]|]. repeat (split; [reflexivity|]). intros i j Hi Hj.
  rewrite (aget_amap _ _ _ _ (length (Ex m)) (length (Eg m))) by assumption. apply (proj1 (proj2 (proj2 (clip_spec _)))).
Qed.
Lemma fg_rejects_lemma act g u m : act u = Ok m -> (exists e, In e (Ex m) /\ e < 0) \/ (exists row x, In row (a_rows (values m)) /\ In x row /\ x < 0) ->
  fg_apply act g u = (g, Raise ValueError).
Proof.
  intros A H. unfold fg_apply. rewrite A. unfold fg_apply_acted. destruct (existsb (fun x => qltb x 0) (Ex m)) eqn:X; [reflexivity|].
  destruct (negative_entry (values m)) eqn:NE; [reflexivity|]. exfalso. destruct H as [(e & He & L)|(row & x & Hr & Hx & L)].
  - pose proof (existsb_neg_inv _ X e He). qlra.
  - pose proof (negative_entry_inv _ NE row x Hr Hx). qlra.
Qed.
(* the subtraction formula *)
Lemma fg_formula_lemma act g u g' r m : act u = Ok m -> consistent m -> valley_ok g -> (0 < g_iter g)%nat -> fg_apply act g u = (g', Ok r) ->
  exists W vc, decay_weights (length (Ex m)) W /\ cut_valley g m = (g', Ok vc) /\
  forall i j, (i < length (Ex m))%nat -> (j < length (Eg m))%nat ->
    aget (values r) i j = clip (aget (values m) i j - sumn i (fun k => gen_norm g m i k * mget W i k * factor vc k * aget (values m) k j)).
Proof.
  intros A C V GI E. unfold fg_apply in E. rewrite A in E. destruct (fg_acted_inv g m g' r E) as (_ & _ & vc & CV & K).
  destruct (fg_core_lemma g m vc r C (fg_valley_len g m g' vc V CV) K) as (N & Hf & Wf & EN & _ & SH & F & ->). destruct (F GI) as [D FF].
  exists Wf, vc. split; [exact D|]. split; [exact CV|]. intros i j Hi Hj. cbn [values].
  rewrite (aget_amap _ _ _ _ (length (Ex m)) (length (Eg m))) by assumption. f_equal. unfold aget at 1. cbn [a_rows]. rewrite FF by assumption. f_equal.
  destruct (mult_norm_lemma g m N C EN) as (_ & _ & NV). destruct D as [_ D]. destruct (D i Hi) as (_ & _ & Z & _).
  replace (length (Ex m)) with (i + (length (Ex m) - i))%nat at 1 by lia. rewrite sumn_plus.
  replace (sumn (length (Ex m) - i) _) with 0.
  2:{ symmetry. apply sumn_0. intros k Hk. rewrite Z by lia. ring. }
  rewrite Qcplus_0_r. apply sumn_ext. intros k Hk. rewrite NV by lia. reflexivity.
Qed.
(* C36 *)
Lemma cut_valley_Ex g m m' : Ex m' = Ex m -> cut_valley g m' = cut_valley g m.
Proof. intros E. unfold cut_valley. now rewrite E. Qed.
Lemma fg_local_lemma act g u u' g1 g2 r r' m m' i : act u = Ok m -> act u' = Ok m' -> consistent m -> consistent m' ->
  Eg m' = Eg m -> Ex m' = Ex m -> valley_ok g -> (i < length (Ex m))%nat ->
  (forall k j, (k <= i)%nat -> (j < length (Eg m))%nat -> aget (values m) k j = aget (values m') k j) ->
  fg_apply act g u = (g1, Ok r) -> fg_apply act g u' = (g2, Ok r') ->
  forall k j, (k <= i)%nat -> (j < length (Eg m))%nat -> aget (values r) k j = aget (values r') k j.
Proof.
  intros A A' C C' EG EX V Hi AG E E' k j Hk Hj. unfold fg_apply in E, E'. rewrite A in E. rewrite A' in E'.
  destruct (fg_acted_inv g m g1 r E) as (_ & _ & vc & CV & K). destruct (fg_acted_inv g m' g2 r' E') as (_ & _ & vc' & CV' & K').
  rewrite (cut_valley_Ex g m m' EX), CV in CV'. injection CV' as <- <-.
  pose proof (fg_valley_len g m g1 vc V CV) as VL.
  destruct (fg_core_lemma g m vc r C VL K) as (N & Hf & Wf & EN & EL & SH & _ & ->).
  destruct (fg_core_lemma g m' vc r' C' ltac:(rewrite EX; exact VL) K') as (N' & Hf' & Wf' & EN' & EL' & SH' & _ & ->).
  rewrite EG, EX in SH'. cbn [values]. rewrite EG. rewrite !(aget_amap _ _ _ _ (length (Ex m)) (length (Eg m))) by (assumption || lia). f_equal.
  unfold aget. cbn [a_rows]. apply (mget_agree i); [|exact Hk].
  assert (AV : agree_upto i (a_rows (values m)) (a_rows (values m'))).
  { pose proof C as [(c1 & c2 & c3) _]. pose proof C' as [(d1 & d2 & d3) _]. rewrite EG, EX in *. intros q Hq. apply list_eq_nth with (d := 0).
    - rewrite (c3 (nth q (a_rows (values m)) [])), (d3 (nth q (a_rows (values m')) [])) by (apply nth_In; lia). reflexivity.
    - intros p Hp. rewrite c3 in Hp by (apply nth_In; lia). exact (AG q p Hq Hp). }
  destruct (mult_norm_lemma g m N C EN) as (NL & NR & _). destruct (mult_norm_lemma g m' N' C' EN') as (NL' & NR' & _). rewrite EX in NL', NR'.
  pose proof C as [SV _]. pose proof C' as [SV' _]. rewrite EX, EG in SV'.
  eapply (loop_agree m m' N N' vc i C C' EG EX Hi AV NL NR NL' NR' (mult_norm_agree g m m' N N' i C C' EG EX Hi AV EN EN') VL (g_iter g) 0%nat (row_normalized (values m)) (row_normalized (values m')) (row_normalized (values m)) (row_normalized (values m')) _ Wf _ Wf');
    [apply (rn_shaped _ _ _ SV)|apply (rn_shaped _ _ _ SV')| |lia|exact EL|exact EL'].
  intros q Hq. pose proof SV as (c1 & c2 & _). pose proof SV' as (d1 & d2 & _). rewrite !row_normalized_row by (unfold a_nr; lia). rewrite c1, d1. now rewrite AV.
Qed.
(* the lowest row is returned unchanged *)
Lemma fg_lowest_lemma act g u g' r m : act u = Ok m -> consistent m -> valley_ok g -> (0 < g_iter g)%nat -> fg_apply act g u = (g', Ok r) ->
  forall j, (0 < length (Ex m))%nat -> (j < length (Eg m))%nat -> aget (values r) 0 j = aget (values m) 0 j.
Proof.
  intros A C V GI E j Hx Hj. destruct (fg_formula_lemma act g u g' r m A C V GI E) as (W & vc & _ & _ & F). rewrite F by assumption. cbn [sumn].
  unfold fg_apply in E. rewrite A in E. destruct (fg_acted_inv g m g' r E) as (_ & NN & _). pose proof C as [(c1 & c2 & c3) _].
  assert (P : 0 <= aget (values m) 0 j).
  { apply (NN (nth 0 (a_rows (values m)) [])); [apply nth_In; lia|]. unfold aget, mget, vget. apply nth_In. rewrite c3 by (apply nth_In; lia). exact Hj. }
  unfold clip. destruct (qltb_spec 0 (aget (values m) 0 j - 0)); qlra.
Qed.
(* C37: the assertion of multiplicity_normalization cannot fire *)
Lemma fg_succeeds_lemma act g u m : act u = Ok m -> consistent m -> params_ok g -> g_valley g = None ->
  (forall e, In e (Ex m) -> 0 <= e) -> (forall row x, In row (a_rows (values m)) -> In x row -> 0 <= x) ->
  (2 <= length (Eg m))%nat -> (2 <= length (Ex m))%nat ->
  exists r, fg_apply act g u = (g, Ok r).
Proof.
  intros A C P V HX HV NG2 NX2.
  assert (RB : forall rows, length rows = length (Ex m) -> (forall r, In r rows -> length r = length (Eg m)) -> exists o, rebin_2D (length (Eg m)) rows (Eg m) (Ex m) 1 = Ok o).
  { intros rows _ HR. unfold rebin_2D. cbn [Z.eqb Pos.eqb]. induction rows as [|r rows IH]; cbn [rmapm]; [eauto|].
    assert (R1 : exists o, rebin_1D r (Eg m) (Ex m) = Ok o).
    { unfold rebin_1D. pose proof (HR r (or_introl eq_refl)) as LR. destruct (Eg m) as [|g0 [|g1 gs]]; [cbn in NG2; lia|cbn in NG2; lia|].
      destruct (Ex m) as [|x0 [|x1 xs]]; [cbn in NX2; lia|cbn in NX2; lia|]. rewrite LR, Nat.leb_refl. cbv zeta. eauto. }
    destruct R1 as [o ->]. cbn [rbind]. destruct IH as [os ->]; [intros; apply HR; now right|]. cbn [rbind]. eauto. }
  assert (NG : Eg m <> []) by (destruct (Eg m); [cbn in NG2; lia|discriminate]).
  assert (NX : Ex m <> []) by (destruct (Ex m); [cbn in NX2; lia|discriminate]). unfold fg_apply. rewrite A. unfold fg_apply_acted. rewrite (existsb_neg_false _ HX).
  assert (NE : negative_entry (values m) = false).
  { apply not_true_iff_false. intros T. unfold negative_entry in T. apply existsb_exists in T as (row & Hr & T). apply existsb_exists in T as (x & Hx & T).
    apply qltb_lt in T. specialize (HV row x Hr Hx). qlra. }
  rewrite NE. unfold cut_valley. rewrite V. cbn [rbind]. unfold fg_core. cbv zeta.
  pose proof (multiplicity_nonneg g m P HX HV) as MN.
  assert (EN : exists N, mult_norm g m = Ok N).
  { unfold mult_norm. cbv zeta. rewrite (existsb_neg_false _ MN). rewrite (projection_Ex_all m C NG). cbn [rbind]. eauto. }
  destruct EN as [N EN]. rewrite EN. cbn [rbind]. destruct (mult_norm_lemma g m N C EN) as (NL & NR & _). pose proof C as [SV _].
  assert (LP : forall f k H W, shaped (mkArr (length (Eg m)) H) (length (Ex m)) (length (Eg m)) -> ((0 < k)%nat -> decay_weights (length (Ex m)) W) ->
     exists o, fg_loop f k H W N m None = Ok o /\ shaped (mkArr (length (Eg m)) (fst o)) (length (Ex m)) (length (Eg m))).
  { induction f as [|f IH]; intros k H W SH DW; cbn [fg_loop]; [exists (H, W); auto|].
    destruct SH as (_ & S2 & S3). cbn [a_rows] in *. pose proof SV as (c1 & c2 & c3).
    destruct (RB H S2 S3) as [Hr ER]. assert (ST : exists H' W', fg_step k H W N m None = Ok (H', W')).
    { unfold fg_step. rewrite c1, ER. cbn [rbind]. cbv zeta. eauto. }
    destruct ST as (H' & W' & ST). rewrite ST. cbn [rbind].
    replace (Nat.eqb (a_nr (values m)) 0 || Nat.eqb (a_nc (values m)) 0)%bool with false.
    2:{ unfold a_nr. rewrite c1, c2. destruct (Ex m); [contradiction|]. destruct (Eg m); [contradiction|]. reflexivity. }
    destruct (step_lemma m N None C NL NR ltac:(discriminate) k H W H' W' S2 ltac:(intros; apply DW; lia) ST) as (D & SH' & _).
    apply IH; auto. }
  destruct (LP (g_iter g) 0%nat (row_normalized (values m)) (row_normalized (values m)) (rn_shaped _ _ _ SV) ltac:(lia)) as ([Hf Wf] & EL & SH).
  rewrite EL. cbn [rbind fst] in *. destruct SV as (c1 & c2 & c3). destruct SH as (_ & S2 & _). cbn [a_rows] in S2.
  unfold mk_matrix, verify_integrity. cbn [values Ex Eg std]. unfold a_nr. cbn [a_rows a_nc]. rewrite S2, c1, !Nat.eqb_refl. cbn [negb rbind set_state]. eauto.
Qed.

(* --- repeated calls --- *)
Lemma fg_novalley_state act g u : g_valley g = None -> fst (fg_apply act g u) = g.
Proof.
  intros V. unfold fg_apply, fg_apply_acted, cut_valley. destruct (act u); [|reflexivity]. rewrite V.
  destruct (existsb _ _); [reflexivity|]. destruct (negative_entry _); reflexivity.
Qed.
Lemma fg_history_lemma act g us : g_valley g = None -> fg_calls act g us = g.
Proof. intros V. unfold fg_calls. induction us as [|u us IH]; [reflexivity|]. cbn [fold_left]. rewrite fg_novalley_state by exact V. exact IH. Qed.

Lemma range_of_length {A} i j (l : list A) : (j < length l)%nat -> (i <= j)%nat -> length (range_of i j l) = (S j - i)%nat.
Proof. intros. unfold range_of. rewrite firstn_length, skipn_length. lia. Qed.
Lemma range_of_nth {A} i j (l : list A) d k : (k < S j - i)%nat -> nth k (range_of i j l) d = nth (i + k) l d.
Proof. intros. unfold range_of. now rewrite nth_firstn_lt, nth_skipn by lia. Qed.
Lemma nearest_range l e a i j : nearest l e a -> (i <= a <= j)%nat -> (j < length l)%nat -> nearest (range_of i j l) e (a - i).
Proof.
  intros (N1 & N2 & N3) Ha Hj. rewrite <- (Nat.sub_add i a) in N1 by lia.
  assert (L : length (range_of i j l) = (S j - i)%nat) by (apply range_of_length; lia).
  split; [lia|]. split; intros k Hk; rewrite L in Hk; rewrite !range_of_nth by lia; replace (i + (a - i))%nat with a by lia; [apply N2|apply N3]; lia.
Qed.
Lemma SSorted_sub {A} (R : A -> A -> Prop) n l : StronglySorted R l -> StronglySorted R (firstn n l) /\ StronglySorted R (skipn n l).
Proof.
  intros H. revert n. induction H as [|x l H IH F]; intros n; destruct n; cbn; try (split; constructor; fail).
  - split; constructor; assumption.
  - destruct (IH n) as [I1 I2]. split; [|exact I2]. constructor; [exact I1|]. rewrite Forall_forall in *. intros y Hy. apply F. rewrite <- (firstn_skipn n l). apply in_or_app. now left.
Qed.
Lemma range_of_full {A} (l : list A) n : length l = n -> range_of 0 (n - 1) l = l.
Proof. intros L. unfold range_of. rewrite skipn_O. rewrite <- L. destruct l; [reflexivity|]. replace (S (length (a :: l) - 1) - 0)%nat with (length (a :: l)) by (cbn; lia). apply firstn_all. Qed.
Lemma v_cut_idempotent v lo hi v' : v_E v <> [] -> v_consistent v -> nondecreasing (v_E v) ->
  v_cut v (Some lo) (Some hi) = Ok v' -> v_cut v' (Some lo) (Some hi) = Ok v'.
Proof.
  intros NE C SS E. destruct (v_cut_lemma v (Some lo) (Some hi) NE C SS) as (a & b & i & j & w & E2 & -> & -> & Ni & Nj & EV & EE & ES & EU & CC).
  rewrite E in E2. injection E2 as <-.
  destruct (le_lt_dec i j) as [L|L].
  - pose proof Nj as (Hj & _ & _). assert (LE : length (v_E v') = (S j - i)%nat) by (rewrite EE; now apply range_of_length).
    assert (NE' : v_E v' <> []) by (intros Z0; rewrite Z0 in LE; cbn [length] in LE; lia).
    assert (S' : nondecreasing (v_E v')).
    { rewrite EE. unfold range_of, nondecreasing in *. apply SSorted_sub. now apply SSorted_sub. }
    destruct (v_cut_lemma v' (Some lo) (Some hi) NE' CC S') as (a & b & i' & j' & w & E3 & -> & -> & Ni' & Nj' & EV' & EE' & ES' & EU' & _).
    pose proof (nearest_range (v_E v) lo i i j Ni ltac:(lia) Hj) as A1. pose proof (nearest_range (v_E v) hi j i j Nj ltac:(lia) Hj) as A2. rewrite <- EE in A1, A2.
    pose proof (nearest_unique _ _ _ _ Ni' A1) as ->. pose proof (nearest_unique _ _ _ _ Nj' A2) as ->. rewrite Nat.sub_diag in *.
    rewrite E3. f_equal. destruct CC as [CC1 CC2].
    replace (j - i)%nat with (length (v_E v') - 1)%nat in EV', EE', ES' by lia.
    rewrite range_of_full in EE' by reflexivity. rewrite range_of_full in EV' by congruence.
    assert (ES2 : v_std w = v_std v').
    { rewrite ES'. destruct (v_std v') as [s|]; [|reflexivity]. cbn [option_map]. f_equal. apply range_of_full. congruence. }
    destruct v' as [va ea sa ua], w as [vb eb sb ub]. cbn [v_values v_E v_std v_units] in *. congruence.
  - assert (R0 : forall A (l : list A), range_of i j l = []) by (intros; unfold range_of; replace (S j - i)%nat with 0%nat by lia; reflexivity).
    destruct v' as [va ea sa ua]. cbn in *. rewrite R0 in EV, EE. subst va ea. unfold v_cut, v_cut_data. cbn [rbind v_E v_values v_std v_units index].
    destruct sa as [s|]; [|reflexivity]. destruct (v_std v); cbn in ES; [|discriminate]. rewrite R0 in ES. injection ES as ->. reflexivity.
Qed.
Lemma cut_valley_again g m g' r m' : (forall v, g_valley g = Some v -> v_E v <> [] /\ v_consistent v /\ nondecreasing (v_E v)) ->
  cut_valley g m = (g', r) -> Ex m' = Ex m -> cut_valley g' m' = (g', r).
Proof.
  intros V E EX. unfold cut_valley in *. destruct (g_valley g) as [v|] eqn:GV.
  2:{ injection E as <- <-. now rewrite GV. }
  destruct (V v eq_refl) as (NE & C & S). rewrite EX.
  destruct (py_min (Ex m)) as [lo|] eqn:E1; cbn [rbind] in *; [|injection E as <- <-; now rewrite GV].
  destruct (py_max (Ex m)) as [hi|] eqn:E2; cbn [rbind] in *; [|injection E as <- <-; now rewrite GV].
  destruct (v_cut v (Some lo) (Some hi)) as [v'|] eqn:EC; [|injection E as <- <-; rewrite GV; now rewrite EC].
  injection E as <- <-. cbn [set_valley g_valley]. rewrite (v_cut_idempotent v lo hi v' NE C S EC). reflexivity.
Qed.
Definition same_but_valley (g g' : fgen) : Prop := exists o, g' = mkFG (g_iter g) (g_method g) (g_upper g) (g_lower g) (g_ratio g) (g_shift g) (g_entry g) o (g_slide g).
Lemma cut_valley_same g m : same_but_valley g (fst (cut_valley g m)).
Proof.
  unfold cut_valley, same_but_valley. destruct g as [a b c d e f h v s]. cbn [g_valley g_iter g_method g_upper g_lower g_ratio g_shift g_entry g_slide].
  destruct v as [v|]; [|now exists None]. destruct (do lo <- _ ;; _) as [v'|]; [exists (Some v')|exists (Some v)]; reflexivity.
Qed.
Lemma fg_core_same g g' m vc : same_but_valley g g' -> fg_core g' m vc = fg_core g m vc.
Proof. intros [o ->]. reflexivity. Qed.
(* a call with the same Ex axis after another one *)
Lemma fg_again_lemma act g u m g' : act u = Ok m ->
  (forall v, g_valley g = Some v -> v_E v <> [] /\ v_consistent v /\ nondecreasing (v_E v)) ->
  fst (fg_apply act g u) = g' -> forall u' m', act u' = Ok m' -> Ex m' = Ex m -> snd (fg_apply act g' u') = snd (fg_apply act g u') /\
    (g' <> g -> fst (fg_apply act g' u') = g').
Proof.
  intros A V E u' m' A' EX. unfold fg_apply in *. rewrite A in E. rewrite A'. unfold fg_apply_acted in *. rewrite EX.
  destruct (existsb (fun x => qltb x 0) (Ex m)) eqn:X; [split; [reflexivity|cbn [fst] in E |- *; congruence]|].
  destruct (negative_entry (values m)).
  { cbn [fst] in E. subst g'. split; [reflexivity|congruence]. }
  destruct (cut_valley g m) as [g1 rv] eqn:CV. cbn [fst] in E. subst g1.
  rewrite (cut_valley_again g m g' rv m' V CV EX). rewrite (cut_valley_Ex g m m' EX), CV.
  destruct (negative_entry (values m')); [split; reflexivity|]. cbn [fst snd]. split; [|reflexivity].
  destruct rv as [vc|]; [|reflexivity]. cbn [rbind]. apply fg_core_same. pose proof (cut_valley_same g m) as SB. now rewrite CV in SB.
Qed.
Lemma fg_state_dichotomy act g u m : act u = Ok m -> fst (fg_apply act g u) = g \/ fst (fg_apply act g u) = fst (cut_valley g m).
Proof. intros A. unfold fg_apply, fg_apply_acted. rewrite A. destruct (existsb _ _); [auto|]. destruct (negative_entry _); [auto|]. destruct (cut_valley g m); auto. Qed.
Lemma fg_same_axis_lemma act g ex us u :
  (forall v, g_valley g = Some v -> v_E v <> [] /\ v_consistent v /\ nondecreasing (v_E v)) ->
  (forall w, In w (u :: us) -> exists m, act w = Ok m /\ Ex m = ex) ->
  snd (fg_apply act (fg_calls act g us) u) = snd (fg_apply act g u).
Proof.
  intros V H. assert (INV : fg_calls act g us = g \/ exists w m, In w us /\ act w = Ok m /\ fst (fg_apply act g w) = fg_calls act g us).
  { assert (G : forall l g1, (forall w, In w l -> In w us) -> (g1 = g \/ exists w m, In w us /\ act w = Ok m /\ fst (fg_apply act g w) = g1) ->
       fg_calls act g1 l = g \/ exists w m, In w us /\ act w = Ok m /\ fst (fg_apply act g w) = fg_calls act g1 l).
    { unfold fg_calls. induction l as [|x l IH]; intros g1 HL I; cbn [fold_left]; [exact I|]. apply IH; [intros; apply HL; now right|].
      assert (Hx : In x us) by (apply HL; now left). destruct (H x (or_intror Hx)) as (mx & Ax & Exx).
      destruct I as [->|(w & m & Hw & Aw & Ew)].
      - right. exists x, mx. auto.
      - destruct (H w (or_intror Hw)) as (m2 & Aw2 & Exw). rewrite Aw in Aw2. injection Aw2 as <-.
        destruct (fg_again_lemma act g w m g1 Aw V Ew x mx Ax ltac:(congruence)) as [_ K].
        destruct (fg_state_dichotomy act g w m Aw) as [D|D].
        + right. exists x, mx. split; [exact Hx|]. split; [exact Ax|]. rewrite <- Ew. rewrite D. reflexivity.
        + right. exists w, m. split; [exact Hw|]. split; [exact Aw|]. rewrite Ew.
          (* g1 is the object with its vector cut to this axis *)
          rewrite Ew in D. unfold fg_apply. rewrite Ax. unfold fg_apply_acted.
          destruct (existsb _ (Ex mx)); [reflexivity|]. destruct (negative_entry (values mx)); [reflexivity|].
          rewrite D. rewrite (cut_valley_again g m (fst (cut_valley g m)) (snd (cut_valley g m)) mx V ltac:(now destruct (cut_valley g m)) ltac:(congruence)). reflexivity. }
    apply G; auto. }
  destruct (H u (or_introl eq_refl)) as (mu & Au & Exu). destruct INV as [->|(w & m & Hw & Aw & Ew)]; [reflexivity|].
  destruct (H w (or_intror Hw)) as (m2 & Aw2 & Exw). rewrite Aw in Aw2. injection Aw2 as <-.
  apply (fg_again_lemma act g w m _ Aw V Ew u mu Au). congruence.
Qed.

(* counts subtracted from a row *)
Lemma subtracted_counts g m i W : consistent m -> (i < length (Ex m))%nat -> vget (multiplicity g m) i <> 0 ->
  (forall k, (k < i)%nat -> counts_of m k <> 0) ->
  sumn (length (Eg m)) (fun j => sumn i (fun k => gen_norm g m i k * mget W i k * aget (values m) k j)) =
  counts_of m i / vget (multiplicity g m) i * sumn i (fun k => mget W i k * vget (multiplicity g m) k).
Proof.
  intros [(C1 & C2 & C3) _] Hi MN CN. rewrite sumn_swap. rewrite <- sumn_scal. apply sumn_ext. intros k Hk.
  rewrite sumn_scal. change (fun j => aget (values m) k j) with (aget (values m) k). replace (sumn (length (Eg m)) (aget (values m) k)) with (counts_of m k).
  2:{ unfold counts_of. rewrite qsum_nth. rewrite C3 by (apply nth_In; lia). reflexivity. }
  unfold gen_norm, div0. specialize (CN k Hk). destruct (qeqb_spec (vget (multiplicity g m) i * counts_of m k) 0) as [Z|Z].
  - destruct (Qcmult_integral _ _ Z); contradiction.
  - field. auto.
Qed.
