(* Lemmas on Unfolder.apply. *)
From Verif Require Import PyBase Axis RebinModel RebinProofs Rebin2DProofs MatrixModel MatrixSpec MatrixOpsProofs VectorModel VectorOpsProofs ArithModel ArithSpec ArithProofs
  FillProofs SmoothModel SmoothSpec SmoothProofs UnfoldModel UnfoldSpec UnfoldProofs.

Lemma rmapm_seq {B} (f : nat -> result B) (g : nat -> B) n : (forall i, (i < n)%nat -> f i = Ok (g i)) ->
  rmapm f (seq 0 n) = Ok (tab n g).
Proof. intros H. unfold tab. apply rmapm_ok. intros i Hi. apply in_seq in Hi. apply H. lia. Qed.
Lemma rmapm_inv {A B} (f : A -> result B) l m d : rmapm f l = Ok m -> forall i a, (i < length l)%nat -> f (nth i l a) = Ok (nth i m d).
Proof.
  revert m. induction l as [|x l IH]; intros m H i a Hi; cbn in Hi; [lia|]. cbn [rmapm] in H.
  destruct (f x) as [y|] eqn:E; [|discriminate]. cbn [rbind] in H. destruct (rmapm f l) as [ys|]; [|discriminate]. cbn [rbind] in H.
  injection H as <-. destruct i; cbn; [exact E|]. apply IH; [reflexivity|lia].
Qed.
Lemma negative_entry_false a nr nc : shaped a nr nc -> negative_entry a = false ->
  forall i j, (i < nr)%nat -> (j < nc)%nat -> 0 <= aget a i j.
Proof.
  intros (S1 & S2 & S3) H i j Hi Hj. unfold negative_entry in H.
  destruct (qleb_spec 0 (aget a i j)) as [|N]; [assumption|]. exfalso.
  assert (existsb (existsb (fun x => qltb x 0)) (a_rows a) = true); [|congruence].
  apply existsb_exists. exists (nth i (a_rows a) []). split; [apply nth_In; lia|]. apply existsb_exists.
  exists (aget a i j). split; [|now apply qltb_lt]. unfold aget, mget, vget. apply nth_In. rewrite S3; [exact Hj|]. apply nth_In. lia.
Qed.
Lemma update_values_ok un raw R : update_values un raw = Ok R ->
  u_R un = Some R /\ a_nr (values R) = a_nc (values R) /\ length (Eg raw) = length (Eg R) /\
  allclose (Eg raw) (Eg R) = true /\ negative_entry (values raw) = false /\ negative_entry (values R) = false.
Proof.
  unfold update_values. destruct (u_R un) as [R0|]; [|discriminate].
  destruct (Nat.eqb_spec (a_nr (values R0)) (a_nc (values R0))); [|discriminate]. cbn [negb].
  destruct (Nat.eqb_spec (length (Eg raw)) (length (Eg R0))); [|discriminate]. cbn [negb].
  destruct (allclose (Eg raw) (Eg R0)) eqn:A; [|discriminate]. cbn [negb].
  destruct (negative_entry (values raw) || negative_entry (values R0)) eqn:N; [discriminate|]. intros [= <-].
  apply orb_false_iff in N as [N1 N2]. repeat split; auto.
Qed.
Lemma response_square R : consistent R -> a_nr (values R) = a_nc (values R) -> shaped (values R) (length (Eg R)) (length (Eg R)).
Proof. intros [(S1 & S2 & S3) _] H. unfold a_nr in H. split; [exact S1|]. split; [congruence|exact S3]. Qed.

Section O.
Variable filter1d : Qc -> list Qc -> list Qc.
Variable gaussian : Qc -> Qc -> Qc -> Qc.
Notation apply := (apply filter1d gaussian).

(* a table with columns of equal length *)
Definition tab_ok (t : resp_tab) : Prop :=
  let n := length (t_E t) in
  length (t_fwhm t) = n /\ length (t_eff t) = n /\ length (t_pf t) = n /\ length (t_ps t) = n /\ length (t_pd t) = n /\ length (t_pa t) = n.
Lemma map2_len {A B C} (f : A -> B -> C) l m n : length l = n -> length m = n -> length (map2 f l m) = n.
Proof. intros H1 H2. rewrite map2_length; congruence. Qed.
Lemma shift_length l E s out : shift l E s = Ok out -> length out = length E.
Proof.
  unfold shift, rebin_1D. destruct (map (fun e => e + s) E) as [|? [|? ?]]; try discriminate. destruct E as [|? [|? ?]]; try discriminate.
  match goal with |- (if ?b then _ else _) = _ -> _ => destruct b; [|discriminate] end. cbv zeta. intros [= <-]. apply tab_length.
Qed.
Definition olen (o : option (list Qc)) (n : nat) : Prop := match o with Some l => length l = n | None => True end.
Lemma orow_len a b f n : olen a n -> olen b n -> olen (orow a b f) n.
Proof. destruct a, b; cbn; auto. intros. now apply map2_len. Qed.
Lemma smooth_olen l E fw t o : gauss_smoothing gaussian l E fw t = Ok o -> olen o (length E).
Proof. destruct o as [x|]; cbn; [|trivial]. apply gauss_smoothing_length. Qed.
Lemma oshift_olen o E s o' : oshift o E s = Ok o' -> olen o' (length E).
Proof.
  destruct o as [x|]; cbn [oshift].
  - destruct (shift x E s) as [y|] eqn:S; [|discriminate]. cbn [rbind]. intros [= <-]. cbn. now apply shift_length in S.
  - intros [= <-]. exact I.
Qed.
Lemma compton_row_length t a b c d r u out : tab_ok t -> length r = length (t_E t) -> length u = length (t_E t) ->
  compton_row gaussian t a b c d r u = Ok out -> length out = length (t_E t).
Proof.
  intros (T1 & T2 & T3 & T4 & T5 & T6) Lr Lu H. unfold compton_row in H. cbv zeta in H.
  destruct (gauss_smoothing gaussian (map2 Qcmult (t_pf t) u) _ _ _) as [uf|] eqn:E1; [|discriminate]. cbn [rbind] in H.
  destruct (gauss_smoothing gaussian (map2 Qcmult (t_ps t) u) _ _ _) as [us0|] eqn:E2; [|discriminate]. cbn [rbind] in H.
  destruct (oshift us0 _ _) as [us|] eqn:E3; [|discriminate]. cbn [rbind] in H.
  destruct (gauss_smoothing gaussian (map2 Qcmult (t_pd t) u) _ _ _) as [ud0|] eqn:E4; [|discriminate]. cbn [rbind] in H.
  destruct (oshift ud0 _ _) as [ud|] eqn:E5; [|discriminate]. cbn [rbind] in H.
  destruct (i_from_E _ _) as [i|]; [|discriminate]. cbn [rbind] in H.
  destruct (gauss_smoothing gaussian (tab _ _) _ _ _) as [ua|] eqn:E6; [|discriminate]. cbn [rbind] in H.
  apply smooth_olen in E1, E2, E4, E6. apply oshift_olen in E3, E5.
  assert (W : olen (orow (orow us ud Qcplus) ua Qcplus) (length (t_E t))) by (apply orow_len; [now apply orow_len|assumption]).
  destruct (orow (Some r) _ Qcminus) as [c0|]; [|injection H as <-; rewrite map_length; exact Lu].
  destruct (gauss_smoothing gaussian c0 _ _ _) as [cc|] eqn:E7; [|discriminate]. cbn [rbind] in H. apply smooth_olen in E7.
  assert (D : olen (orow (orow (Some r) cc Qcminus) (orow (orow us ud Qcplus) ua Qcplus) Qcminus) (length (t_E t))).
  { apply orow_len; [|exact W]. apply orow_len; [exact Lr|exact E7]. }
  destruct (orow (orow (Some r) cc Qcminus) _ Qcminus) as [dd|]; injection H as <-.
  - cbn in D. apply map2_len; [now apply map2_len|assumption].
  - now rewrite map_length.
Qed.

(* everything apply does after its checks *)
Lemma apply_shape un raw resp un' m : consistent raw ->
  (forall R, u_R (set_R un resp) = Some R -> consistent R) ->
  (forall t, u_tab un = Some t -> tab_ok t) ->
  apply un raw resp = (un', Ok m) ->
  exists R isc rows rows',
    update_values (set_R un resp) raw = Ok R /\ (0 < u_num_iter un)%nat /\ shaped (values R) (length (Eg raw)) (length (Eg raw)) /\
    u_iscores un' = Some isc /\ length isc = length (Ex raw) /\
    (exists f0, fluctuations filter1d (Eg raw) (values raw) = Ok f0 /\
     forall i, (i < length (Ex raw))%nat -> select_iteration (cap_min un)
       (map (scores filter1d (u_weight un) (values raw) f0 (nth 1 (Eg raw) 0 - nth 0 (Eg raw) 0)) (unfold_cube (values raw) (values R) (u_num_iter un))) i
       = Ok (nth i isc 0%nat)) /\
    length rows = length (Ex raw) /\
    (forall i, (i < length (Ex raw))%nat -> (nth i isc 0%nat < u_num_iter un)%nat /\
       nth i rows [] = nth i (a_rows (fst (ustate (values raw) (values R) (nth i isc 0%nat)))) []) /\
    (if u_compton un then compton_subtraction gaussian (set_R un resp) R (values raw) rows else Ok rows) = Ok rows' /\
    shaped (mkArr (length (Eg raw)) rows') (length (Ex raw)) (length (Eg raw)) /\
    m = mkM (amap clip (mkArr (length (Eg raw)) rows')) (Eg raw) (Ex raw) None (Some UNFOLDED).
Proof.
  intros [(S1 & S2 & S3) _] CR CT H. unfold UnfoldModel.apply in H. cbv zeta in H.
  assert (NI : u_num_iter (set_R un resp) = u_num_iter un) by (destruct resp; reflexivity).
  assert (CM : cap_min (set_R un resp) = cap_min un) by (unfold cap_min; destruct resp; reflexivity).
  assert (UC : u_compton (set_R un resp) = u_compton un) by (destruct resp; reflexivity).
  assert (UW : u_weight (set_R un resp) = u_weight un) by (destruct resp; reflexivity).
  assert (UT : u_tab (set_R un resp) = u_tab un) by (destruct resp; reflexivity).
  destruct (update_values (set_R un resp) raw) as [R|] eqn:U; [|discriminate].
  pose proof (update_values_ok _ _ _ U) as (UR & SQ & LE & AC & N1 & N2).
  pose proof (response_square R (CR R UR) SQ) as SR. rewrite <- LE in SR.
  destruct (fluctuations filter1d (Eg raw) (values raw)) as [f0|] eqn:F; [|discriminate].
  rewrite NI, CM, UC, UW in H.
  destruct ((0 <? u_num_iter un)%nat && negb (a_nc (values raw) =? a_nr (values R))%nat); [discriminate|].
  destruct (Nat.eqb_spec (u_num_iter un) 0) as [Z|Z]; [discriminate|].
  destruct (rmapm (select_iteration _ _) (seq 0 (a_nr (values raw)))) as [isc|] eqn:SI; [|discriminate].
  injection H as <- H. unfold a_nr in SI, H. rewrite S2 in SI, H.
  pose proof (rmapm_length _ _ _ SI) as LI. rewrite seq_length in LI.
  destruct (rmapm (fun i => pick_row _ _ _) (seq 0 (length (Ex raw)))) as [rows|] eqn:PR; [|discriminate]. cbn [rbind] in H.
  pose proof (rmapm_length _ _ _ PR) as LR. rewrite seq_length in LR.
  destruct (if u_compton un then _ else Ok rows) as [rows'|] eqn:CO; [|discriminate]. cbn [rbind] in H.
  destruct (mk_matrix _ _ _ _ _) as [m0|] eqn:MK; [|discriminate]. cbn [rbind] in H. injection H as <-.
  assert (RI : forall i, (i < length (Ex raw))%nat -> (nth i isc 0%nat < u_num_iter un)%nat /\
       nth i rows [] = nth i (a_rows (fst (ustate (values raw) (values R) (nth i isc 0%nat)))) []).
  { intros i Hi. pose proof (rmapm_inv _ _ _ [] PR i 0%nat) as P. rewrite seq_length in P. specialize (P Hi). rewrite seq_nth in P by assumption.
    cbn [plus] in P. unfold pick_row in P. rewrite cube_length in P. destruct (Nat.ltb_spec (nth i isc 0%nat) (u_num_iter un)) as [L|]; [|discriminate].
    injection P as P. split; [exact L|]. rewrite <- P. now rewrite cube_nth. }
  assert (SH : shaped (mkArr (length (Eg raw)) rows) (length (Ex raw)) (length (Eg raw))).
  { split; [reflexivity|]. split; [exact LR|]. intros r Hr. cbn in Hr. apply (In_nth _ _ []) in Hr as (i & Hi & <-).
    rewrite LR in Hi. destruct (RI i Hi) as [_ ->].
    destruct (ustate_shaped (values raw) (values R) (length (Ex raw)) (length (Eg raw)) (conj S1 (conj S2 S3)) SR (nth i isc 0%nat)) as [(U1 & U2 & U3) _].
    apply U3, nth_In. lia. }
  assert (SH' : shaped (mkArr (length (Eg raw)) rows') (length (Ex raw)) (length (Eg raw))).
  { destruct (u_compton un); [|injection CO as <-; exact SH].
    unfold compton_subtraction in CO. rewrite UT in CO. destruct (u_tab un) as [t|] eqn:T; [|discriminate].
    destruct (Nat.eqb_spec (length (t_E t)) (length (Eg R))) as [LT|]; [|discriminate]. cbn [negb] in CO.
    destruct (leqb (t_E t) (Eg R)); [|discriminate]. cbn [negb] in CO.
    destruct (tweak_vals _) as [[[[a b] c] d]|]; [|discriminate]. cbn [rbind] in CO.
    destruct SH as (_ & SHr & SHl). cbn [a_rows] in SHr, SHl.
    assert (LC : length (combine (a_rows (values raw)) rows) = length (Ex raw)) by (rewrite combine_length; lia).
    split; [reflexivity|]. cbn [a_rows a_nc]. split; [rewrite (rmapm_length _ _ _ CO); exact LC|].
    intros r Hr. apply (In_nth _ _ []) in Hr as (i & Hi & <-). rewrite (rmapm_length _ _ _ CO) in Hi.
    pose proof (rmapm_inv _ _ _ [] CO i ([], []) Hi) as P.
    apply compton_row_length in P; [rewrite P; congruence|now apply CT|..].
    - rewrite combine_nth by congruence. cbn [fst]. rewrite S3; [congruence|]. apply nth_In. lia.
    - rewrite combine_nth by congruence. cbn [snd]. rewrite SHl; [congruence|]. apply nth_In. lia. }
  exists R, isc, rows, rows'. split; [reflexivity|]. split; [lia|]. split; [exact SR|]. split; [reflexivity|]. split; [exact LI|]. split.
  { exists f0. split; [reflexivity|]. intros i Hi. pose proof (rmapm_inv _ _ _ 0%nat SI i 0%nat) as P. rewrite seq_length in P. specialize (P Hi).
    rewrite seq_nth in P by assumption. exact P. }
  split; [exact LR|]. split; [exact RI|]. split; [exact CO|]. split; [exact SH'|].
  rewrite S1 in MK. unfold mk_matrix in MK. cbv zeta in MK. destruct (verify_integrity _); [|discriminate]. cbn [rbind set_state] in MK.
  injection MK as <-. reflexivity.
Qed.
(* C43 *)
Lemma apply_nonneg un raw resp un' m : consistent raw ->
  (forall R, u_R (set_R un resp) = Some R -> consistent R) ->
  (forall t, u_tab un = Some t -> tab_ok t) ->
  apply un raw resp = (un', Ok m) ->
  consistent m /\ Eg m = Eg raw /\ Ex m = Ex raw /\ state m = Some UNFOLDED /\ std m = None /\
  forall i j, (i < length (Ex raw))%nat -> (j < length (Eg raw))%nat -> 0 <= aget (values m) i j.
Proof.
  intros C CR CT H. destruct (apply_shape un raw resp un' m C CR CT H) as (R & isc & rows & rows' & _ & _ & _ & _ & _ & _ & _ & _ & _ & SH & ->).
  split; [|split; [reflexivity|split; [reflexivity|split; [reflexivity|split; [reflexivity|]]]]].
  - split; [|exact I]. cbn [values Ex Eg]. now apply amap_shaped.
  - intros i j Hi Hj. cbn [values]. rewrite (aget_amap _ _ _ _ (length (Ex raw)) (length (Eg raw))) by assumption.
    apply (proj1 (proj2 (proj2 (clip_spec _)))).
Qed.
(* C42: selected iterations *)
Lemma apply_selection un raw resp un' m : consistent raw ->
  (forall R, u_R (set_R un resp) = Some R -> consistent R) ->
  (forall t, u_tab un = Some t -> tab_ok t) ->
  apply un raw resp = (un', Ok m) ->
  exists R f0 isc, u_R (set_R un resp) = Some R /\ fluctuations filter1d (Eg raw) (values raw) = Ok f0 /\
    u_iscores un' = Some isc /\ length isc = length (Ex raw) /\
    forall i, (i < length (Ex raw))%nat ->
      (nth i isc 0 < u_num_iter un)%nat /\ (u_min_iter un <= nth i isc 0)%nat /\
      exists b, best (map (fun p => nth i (scores filter1d (u_weight un) (values raw) f0 (nth 1 (Eg raw) 0 - nth 0 (Eg raw) 0) p) NaN)
                     (unfold_cube (values raw) (values R) (u_num_iter un))) b /\
        nth i isc 0%nat = Nat.max b (u_min_iter un).
Proof.
  intros C CR CT H. destruct (apply_shape un raw resp un' m C CR CT H) as (R & isc & rows & rows' & U & NI & SR & UI & LI & (f0 & F & SEL) & LR & RI & _ & _ & _).
  apply update_values_ok in U as (UR & _). exists R, f0, isc. split; [exact UR|]. split; [exact F|]. split; [exact UI|]. split; [exact LI|]. intros i Hi.
  set (sc := map _ _) in SEL.
  destruct (select_best (cap_min un) sc i) as (b & B & E).
  { intros Z. apply (f_equal (@length _)) in Z. unfold sc in Z. rewrite map_length, cube_length in Z. cbn in Z. lia. }
  pose proof (SEL i Hi) as S1. rewrite E in S1. injection S1 as S1.
  destruct (RI i Hi) as [LT _]. rewrite <- S1 in LT |- *.
  assert (MI : (u_min_iter un < u_num_iter un)%nat) by (unfold cap_min in LT; lia).
  assert (CM : cap_min un = u_min_iter un) by (unfold cap_min; lia). rewrite CM in *.
  split; [exact LT|]. split; [lia|]. exists b. split; [|reflexivity]. unfold sc in B. rewrite map_map in B. exact B.
Qed.
(* C40 at the level of apply: the rows returned *)
Lemma apply_rows un raw resp un' m : consistent raw -> u_compton un = false ->
  (forall R, u_R (set_R un resp) = Some R -> consistent R) ->
  apply un raw resp = (un', Ok m) ->
  exists R isc, u_R (set_R un resp) = Some R /\ u_iscores un' = Some isc /\
  forall i j, (i < length (Ex raw))%nat -> (j < length (Eg raw))%nat ->
    aget (values m) i j = pos_part (sumn (length (Eg raw)) (fun l => aget (values raw) i l *
      geometric (length (Eg raw)) (id_minus (aget (values R))) (nth i isc 0%nat) l j)).
Proof.
  intros C NC CR H.
  unfold UnfoldModel.apply in H.
  assert (H2 := H). clear H.
  assert (CT : forall t, u_tab (mkU (u_R un) (u_num_iter un) (u_min_iter un) (u_weight un) false None (u_tweak un) (u_iscores un)) = Some t -> tab_ok t) by discriminate.
  set (un0 := mkU (u_R un) (u_num_iter un) (u_min_iter un) (u_weight un) false None (u_tweak un) (u_iscores un)) in *.
  assert (AP : exists un'', apply un0 raw resp = (un'', Ok m) /\ u_iscores un'' = u_iscores un').
  { unfold UnfoldModel.apply. cbv zeta in H2 |- *.
    assert (UV : update_values (set_R un0 resp) raw = update_values (set_R un resp) raw) by (unfold update_values; destruct resp; reflexivity).
    rewrite UV. destruct (update_values (set_R un resp) raw) as [R|]; [|discriminate].
    destruct (fluctuations filter1d (Eg raw) (values raw)) as [f0|]; [|discriminate].
    assert (E1 : u_num_iter (set_R un0 resp) = u_num_iter (set_R un resp)) by (destruct resp; reflexivity).
    assert (E2 : cap_min (set_R un0 resp) = cap_min (set_R un resp)) by (destruct resp; reflexivity).
    assert (E3 : u_weight (set_R un0 resp) = u_weight (set_R un resp)) by (destruct resp; reflexivity).
    assert (E4 : u_compton (set_R un0 resp) = false) by (destruct resp; reflexivity).
    assert (E5 : u_compton (set_R un resp) = false) by (destruct resp; exact NC).
    rewrite E1, E2, E3, E4. rewrite E5 in H2.
    destruct (_ && _); [discriminate|]. destruct (_ =? 0)%nat; [discriminate|].
    destruct (rmapm (select_iteration _ _) _) as [isc|]; [|discriminate]. injection H2 as <- H2.
    eexists. split; [apply f_equal2; [reflexivity|exact H2]|]. reflexivity. }
  destruct AP as (un'' & AP & EI).
  assert (RE : u_R (set_R un0 resp) = u_R (set_R un resp)) by (destruct resp; reflexivity).
  assert (CR0 : forall R, u_R (set_R un0 resp) = Some R -> consistent R) by (intros R; rewrite RE; apply CR).
  destruct (apply_shape un0 raw resp un'' m C CR0 CT AP) as (R & isc & rows & rows' & U & NI & SR & UI & LI & _ & LR & RI & CO & SH & ->).
  apply update_values_ok in U as (UR & _). exists R, isc. rewrite <- RE. split; [exact UR|]. split; [congruence|]. intros i j Hi Hj.
  cbn [values]. rewrite (aget_amap _ _ _ _ (length (Ex raw)) (length (Eg raw))) by assumption.
  cbn in CO. injection CO as <-.
  change (clip (aget (mkArr (length (Eg raw)) rows) i j)) with (pos_part (aget (mkArr (length (Eg raw)) rows) i j)). f_equal.
  unfold aget at 1, mget. cbn [a_rows]. destruct (RI i Hi) as [_ ->].
  change (vget (nth i (a_rows ?a) []) j) with (aget a i j).
  rewrite <- (closed_form (values raw) (values R) (length (Ex raw)) (length (Eg raw)) (proj1 C) SR _ i j Hi Hj). reflexivity.
Qed.
(* valid calls succeed *)
Lemma apply_total un raw R : consistent raw -> (2 <= length (Eg raw))%nat -> consistent R -> update_values un raw = Ok R ->
  u_compton un = false -> (u_min_iter un < u_num_iter un)%nat -> exists un' m, apply un raw None = (un', Ok m).
Proof.
  intros [(S1 & S2 & S3) _] LG CR U NC MI. unfold UnfoldModel.apply. cbv zeta. cbn [set_R]. rewrite U.
  pose proof (update_values_ok _ _ _ U) as (UR & SQ & LE & AC & N1 & N2).
  pose proof (response_square R CR SQ) as (R1 & R2 & R3).
  destruct (fluctuations filter1d (Eg raw) (values raw)) as [f0|] eqn:F.
  2:{ unfold fluctuations in F. destruct (Eg raw) as [|? [|? ?]]; cbn in LG; try lia. discriminate. }
  assert (E : (a_nc (values raw) =? a_nr (values R))%nat = true) by (apply Nat.eqb_eq; unfold a_nr; congruence).
  rewrite E. cbn [negb]. rewrite andb_false_r. destruct (Nat.eqb_spec (u_num_iter un) 0); [lia|].
  assert (CM : cap_min un = u_min_iter un) by (unfold cap_min; lia). rewrite CM, NC.
  set (sc := map _ _).
  assert (SCN : sc <> []). { intros Z. apply (f_equal (@length _)) in Z. unfold sc in Z. rewrite map_length, cube_length in Z. cbn in Z. lia. }
  assert (SEL : forall i, exists k, select_iteration (u_min_iter un) sc i = Ok k /\ (k < u_num_iter un)%nat).
  { intros i. destruct (select_best (u_min_iter un) sc i SCN) as (b & (B & _) & EB). exists (Nat.max b (u_min_iter un)). split; [exact EB|].
    unfold sc in B. rewrite !map_length, cube_length in B. lia. }
  destruct (rmapm_forall2 (select_iteration (u_min_iter un) sc) (fun _ k => (k < u_num_iter un)%nat) (seq 0 (a_nr (values raw)))) as (isc & EI & FI).
  { intros i _. apply SEL. }
  rewrite EI.
  assert (LI : forall i, (nth i isc 0 < u_num_iter un)%nat).
  { intros i. destruct (Nat.ltb_spec i (length isc)) as [L|L]; [|rewrite nth_overflow by exact L; lia].
    clear - FI L. revert i L. induction FI; intros [|i] L; cbn in L |- *; try lia. apply IHFI. lia. }
  rewrite (rmapm_seq _ (fun i => nth i (a_rows (fst (nth (nth i isc 0%nat) (unfold_cube (values raw) (values R) (u_num_iter un)) (mkArr 0 [], mkArr 0 [])))) [])).
  2:{ intros i _. unfold pick_row. rewrite cube_length. specialize (LI i). destruct (Nat.ltb_spec (nth i isc 0%nat) (u_num_iter un)); [reflexivity|lia]. }
  cbn [rbind]. unfold mk_matrix. cbv zeta. unfold verify_integrity. cbn [values Ex Eg std].
  unfold a_nr at 1. cbn [a_rows a_nc]. rewrite tab_length. unfold a_nr. rewrite S1, S2, !Nat.eqb_refl. cbn. eauto.
Qed.
(* errors *)
Lemma apply_min_iter un raw R : consistent raw -> (0 < length (Ex raw))%nat -> (2 <= length (Eg raw))%nat ->
  consistent R -> update_values un raw = Ok R -> (0 < u_num_iter un)%nat -> (u_num_iter un <= u_min_iter un)%nat ->
  exists un', apply un raw None = (un', Raise IndexError) /\ u_min_iter un' = u_num_iter un.
Proof.
  intros [(S1 & S2 & S3) _] NE LG CR U NI MI. unfold UnfoldModel.apply. cbv zeta. cbn [set_R]. rewrite U.
  pose proof (update_values_ok _ _ _ U) as (UR & SQ & LE & AC & N1 & N2).
  pose proof (response_square R CR SQ) as (R1 & R2 & R3).
  destruct (fluctuations filter1d (Eg raw) (values raw)) as [f0|] eqn:F.
  2:{ unfold fluctuations in F. destruct (Eg raw) as [|? [|? ?]]; cbn in LG; try lia. discriminate. }
  assert (E : (a_nc (values raw) =? a_nr (values R))%nat = true) by (apply Nat.eqb_eq; unfold a_nr; congruence).
  rewrite E. cbn [negb]. rewrite andb_false_r. destruct (Nat.eqb_spec (u_num_iter un) 0); [lia|].
  assert (CM : cap_min un = u_num_iter un) by (unfold cap_min; lia). rewrite CM.
  set (sc := map _ _).
  assert (SCN : sc <> []). { intros Z. apply (f_equal (@length _)) in Z. unfold sc in Z. rewrite map_length, cube_length in Z. cbn in Z. lia. }
  assert (SEL : forall i, (i < a_nr (values raw))%nat -> select_iteration (u_num_iter un) sc i = Ok (u_num_iter un)).
  { intros i _. destruct (select_best (u_num_iter un) sc i SCN) as (b & (B & _) & EB). rewrite EB. f_equal.
    unfold sc in B. rewrite !map_length, cube_length in B. lia. }
  rewrite (rmapm_seq _ (fun _ => u_num_iter un) _ SEL).
  assert (PR : rmapm (fun i => pick_row (unfold_cube (values raw) (values R) (u_num_iter un)) (nth i (tab (a_nr (values raw)) (fun _ => u_num_iter un)) 0%nat) i)
            (seq 0 (a_nr (values raw))) = Raise IndexError).
  { unfold a_nr. rewrite S2. destruct (length (Ex raw)) as [|k]; [lia|]. cbn [seq rmapm]. unfold pick_row at 1. rewrite cube_length.
    cbn [nth tab map seq]. now rewrite Nat.ltb_irrefl. }
  rewrite PR. cbn [rbind]. eexists. split; [reflexivity|]. cbn. congruence.
Qed.
Lemma apply_rejects un raw resp :
  (u_R (set_R un resp) = None -> apply un raw resp = (set_R un resp, Raise AssertionError)) /\
  (forall R, u_R (set_R un resp) = Some R ->
     (a_nr (values R) <> a_nc (values R) -> apply un raw resp = (set_R un resp, Raise AssertionError)) /\
     (a_nr (values R) = a_nc (values R) ->
        length (Eg raw) <> length (Eg R) \/ allclose (Eg raw) (Eg R) = false \/
        (exists row x, In row (a_rows (values raw)) /\ In x row /\ x < 0) \/
        (exists row x, In row (a_rows (values R)) /\ In x row /\ x < 0) ->
        apply un raw resp = (set_R un resp, Raise ValueError))).
Proof.
  assert (NG : forall a, (exists row x, In row (a_rows a) /\ In x row /\ x < 0) -> negative_entry a = true).
  { intros a (row & x & H1 & H2 & H3). apply existsb_exists. exists row. split; [exact H1|]. apply existsb_exists. exists x. split; [exact H2|]. now apply qltb_lt. }
  split.
  - intros H. unfold UnfoldModel.apply, update_values. cbv zeta. now rewrite H.
  - intros R H. split.
    + intros N. unfold UnfoldModel.apply, update_values. cbv zeta. rewrite H. destruct (Nat.eqb_spec (a_nr (values R)) (a_nc (values R))); [contradiction|]. reflexivity.
    + intros SQ D. unfold UnfoldModel.apply, update_values. cbv zeta. rewrite H. rewrite (proj2 (Nat.eqb_eq _ _) SQ). cbn [negb].
      destruct (Nat.eqb_spec (length (Eg raw)) (length (Eg R))) as [L|]; [|reflexivity]. cbn [negb].
      destruct (allclose (Eg raw) (Eg R)); [|reflexivity]. cbn [negb].
      destruct D as [D|[D|[D|D]]]; [contradiction|discriminate|rewrite (NG _ D)|rewrite (NG _ D), orb_true_r]; reflexivity.
Qed.
Lemma fold_lemma un m R : u_R un = Some R -> consistent m -> consistent R -> length (Ex R) = length (Eg R) -> length (Eg m) = length (Eg R) ->
  exists m', fold un m = Ok m' /\ consistent m' /\ Eg m' = Eg m /\ Ex m' = Ex m /\
  (forall i j, (i < length (Ex m))%nat -> (j < length (Eg m))%nat ->
     aget (values m') i j = sumn (length (Eg m)) (fun l => aget (values m) i l * aget (values R) l j)) /\
  (row_stochastic (length (Eg m)) (aget (values R)) ->
     forall i, (i < length (Ex m))%nat -> sumn (length (Eg m)) (aget (values m') i) = sumn (length (Eg m)) (aget (values m) i)).
Proof.
  intros UR [Sm Tm] [SR _] SQ L. assert (SR' : shaped (values R) (length (Eg m)) (length (Eg m))) by (rewrite L; rewrite SQ in SR; exact SR).
  unfold fold. rewrite UR. assert (E : (a_nc (values m) =? a_nr (values R))%nat = true).
  { apply Nat.eqb_eq. destruct Sm as (M1 & _). destruct SR' as (_ & R2 & _). unfold a_nr. congruence. }
  rewrite E. eexists. split; [reflexivity|].
  assert (G : forall i j, (i < length (Ex m))%nat -> (j < length (Eg m))%nat ->
     aget (values (with_values m (matprod (values m) (values R)))) i j = sumn (length (Eg m)) (fun l => aget (values m) i l * aget (values R) l j)).
  { intros i j Hi Hj. cbn [values with_values]. now apply (matprod_get _ _ (length (Ex m)) (length (Eg m)) (length (Eg m))). }
  split; [|split; [reflexivity|split; [reflexivity|split; [exact G|]]]].
  - split; [|exact Tm]. cbn [values with_values Ex Eg]. now apply (matprod_shaped _ _ _ (length (Eg m))).
  - intros HR i Hi. rewrite (sumn_ext _ _ (fun j => sumn (length (Eg m)) (fun l => aget (values m) i l * aget (values R) l j))) by (intros; now apply G).
    rewrite sumn_swap. apply sumn_ext. intros l Hl. rewrite sumn_scal, HR by assumption. ring.
Qed.
(* the score of a row, when the raw spectrum fluctuates at all *)
Lemma scores_row r f0 u f w a1 nr n i : shaped r nr n -> shaped u nr n -> shaped f nr n -> length f0 = nr -> (i < nr)%nat -> nth i f0 0 <> 0 ->
  nth i (scores filter1d w r f0 a1 (u, f)) NaN =
  Fin ((1 - w) * chi2 n (aget r i) (aget f i) + w * (fluct_row filter1d a1 (nth i (a_rows u) []) / nth i f0 0)).
Proof.
  intros (R1 & R2 & R3) (U1 & U2 & U3) (F1 & F2 & F3) L0 Hi N0.
  unfold scores. cbn [fst snd]. assert (LC : length (chi_square r f) = nr) by (unfold chi_square; rewrite map2_length; congruence).
  assert (LM : length (map (fluct_row filter1d a1) (a_rows u)) = nr) by (now rewrite map_length).
  rewrite (map2_nth _ _ _ _ 0 (0, 0)); [|rewrite combine_length; lia|lia].
  rewrite combine_nth by congruence. cbn [fst snd]. rewrite (map_nth_in _ _ _ []) by lia.
  unfold score_row. cbn [xdiv]. rewrite (proj2 (qeqb_neq _ _) N0). cbn [xmul xadd]. f_equal.
  assert (CH : nth i (chi_square r f) 0 = chi2 n (aget r i) (aget f i)).
  { unfold chi_square. rewrite (map2_nth _ _ _ _ [] []) by lia.
    assert (LA : length (nth i (a_rows r) []) = n) by (apply R3, nth_In; lia).
    assert (LB : length (nth i (a_rows f) []) = n) by (apply F3, nth_In; lia).
    rewrite qsum_nth, map2_length, LA by congruence. unfold chi2. apply sumn_ext. intros j Hj. unfold vget at 1.
    rewrite (map2_nth _ _ _ _ 0 0) by lia. fold (vget (nth i (a_rows r) []) j). fold (vget (nth i (a_rows f) []) j).
    fold (mget (a_rows r) i j). fold (mget (a_rows f) i j). fold (aget r i j). fold (aget f i j).
    unfold div0. destruct (qltb_spec 0 (aget r i j)) as [P|P].
    - rewrite (proj2 (qeqb_neq _ 0)) by (now apply Qclt_neq). reflexivity.
    - reflexivity. }
  rewrite CH. field. exact N0.
Qed.
End O.
