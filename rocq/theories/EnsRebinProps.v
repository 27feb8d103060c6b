(* C81, C82: rebinning the first generation ensemble, and the accessors of its members. *)
From Coq Require Import String.
From Verif Require Import PyBase RebinModel RebinSpec RebinProofs Rebin2DProofs Axis MatrixModel MatrixSpec MatrixRebinProofs ArithModel Conc EnsembleModel EnsembleSpec EnsembleProofs EnsembleGenProofs EnsRebinModel.
Local Open Scope list_scope.
Local Open Scope nat_scope.

(* ------------------------------------------------------------------ specification *)
(* an ensemble whose first generation members have the binning of its firstgen matrix *)
Definition uniform (e : ensemble) : Prop :=
  let m := e_firstgen e in
  shaped (values m) (List.length (Ex m)) (List.length (Eg m)) /\
  e_fgs e <> [] /\ (forall v, In v (e_fgs e) -> shaped v (List.length (Ex m)) (List.length (Eg m))) /\
  equidistant (Ex m) /\ equidistant (Eg m).
(* w are the values of v, with axes ex and eg, after Matrix.rebin of both axes *)
Definition rebinned_as_matrix (ex eg out : list Qc) (v w : arr2) : Prop :=
  rebin_inplace (mkM v eg ex None None) (AStr "both") (Some out) None = (mkM w out out None None, Ok tt).

(* ------------------------------------------------------------------ proofs *)
Lemma spec_same counts mids i : equidistant mids -> List.length counts = List.length mids -> i < List.length mids ->
  rebin_spec counts mids mids i = vget counts i.
Proof.
  intros E L H. pose proof (rebin_identity_lemma counts mids E L) as A. rewrite (rebin_1D_ok counts mids mids E E L) in A.
  injection A as A. rewrite <- A at 2. unfold vget. now rewrite nth_tab.
Qed.
Lemma same_cols counts nr nc mids : rect counts nr nc -> List.length mids = nr -> equidistant mids ->
  mtab (List.length mids) nc (fun i j => rebin_spec (col counts j) mids mids i) = counts.
Proof.
  intros R L E. apply (rect_ext _ _ nr nc); [rewrite <- L; apply mtab_rect|assumption|]. intros i j Hi Hj. rewrite mget_mtab by lia.
  rewrite spec_same; [apply col_get|assumption|rewrite col_length; destruct R; congruence|lia].
Qed.
Lemma same_rows counts nr nc mids : rect counts nr nc -> List.length mids = nc -> equidistant mids ->
  mtab nr (List.length mids) (fun i j => rebin_spec (nth i counts []) mids mids j) = counts.
Proof.
  intros R L E. apply (rect_ext _ _ nr nc); [rewrite <- L; apply mtab_rect|assumption|]. intros i j Hi Hj. rewrite mget_mtab by lia.
  rewrite spec_same; [reflexivity|assumption|rewrite (rect_row counts nr nc); auto|lia].
Qed.
Lemma rebin_values_eq ex eg out v : shaped v (List.length ex) (List.length eg) -> equidistant ex -> equidistant eg -> equidistant out ->
  exists w, rebin_values ex eg out v = Ok w /\ shaped w (List.length out) (List.length out) /\ rebinned_as_matrix ex eg out v w.
Proof.
  intros SH HX HG HO. destruct (shaped_rect _ _ _ SH) as [R NC].
  pose proof (rebin_2D_cols (a_rows v) _ _ ex out R eq_refl HX HO) as C0.
  set (c0 := mtab (List.length out) (List.length eg) (fun i j => rebin_spec (col (a_rows v) j) ex out i)) in *.
  assert (R0 : rect c0 (List.length out) (List.length eg)) by apply mtab_rect.
  pose proof (rebin_2D_rows c0 _ _ eg out R0 eq_refl HG HO) as C1.
  set (c1 := mtab (List.length out) (List.length out) (fun i j => rebin_spec (nth i c0 []) eg out j)) in *.
  exists (mkArr (List.length out) c1).
  assert (E1 : (if leqb out ex then Ok v else do rows <- rebin_2D (a_nc v) (a_rows v) ex out 0%Z ;; Ok (mkArr (a_nc v) rows)) = Ok (mkArr (List.length eg) c0)).
  { destruct (leqb out ex) eqn:L.
    - apply leqb_eq in L. subst out. unfold c0. rewrite (same_cols (a_rows v) (List.length ex) (List.length eg)) by auto. rewrite <- NC. now destruct v.
    - rewrite NC, C0. reflexivity. }
  assert (E2 : (if leqb out eg then Ok (mkArr (List.length eg) c0) else do rows <- rebin_2D (a_nc (mkArr (List.length eg) c0)) (a_rows (mkArr (List.length eg) c0)) eg out 1%Z ;; Ok (mkArr (List.length out) rows)) = Ok (mkArr (List.length out) c1)).
  { destruct (leqb out eg) eqn:L.
    - apply leqb_eq in L. subst out. unfold c1. rewrite (same_rows c0 (List.length eg) (List.length eg)) by auto. reflexivity.
    - cbn [a_nc a_rows]. rewrite C1. reflexivity. }
  split; [unfold rebin_values; rewrite E1; cbn [rbind]; exact E2|].
  split; [apply shaped_mk; apply mtab_rect|].
  unfold rebinned_as_matrix, rebin_inplace. change (to_plot_axis (AStr "both")) with (Ok AxBoth : result paxis). cbv beta iota.
  pose proof (rebin_2D_rows (a_rows v) _ _ eg out R eq_refl HG HO) as D0.
  set (d0 := mtab (List.length ex) (List.length out) (fun i j => rebin_spec (nth i (a_rows v) []) eg out j)) in *.
  assert (RD : rect d0 (List.length ex) (List.length out)) by apply mtab_rect.
  pose proof (rebin_2D_cols d0 _ _ ex out RD eq_refl HX HO) as D1.
  set (d1 := mtab (List.length out) (List.length out) (fun i j => rebin_spec (col d0 j) ex out i)) in *.
  assert (DC : d1 = c1) by (exact (rebin_2D_commute_lemma (a_rows v) _ _ ex out eg out d0 c0 d1 c1 R eq_refl eq_refl HX HO HG HO D0 D1 C0 C1)).
  unfold rebin_axis at 1. unfold rebin_data. cbn [rbind values Eg Ex std state]. rewrite NC, D0. cbn [rbind].
  rewrite verify_ok; [|split; [|exact I]; cbn [values Ex Eg]; apply shaped_mk; exact RD].
  unfold rebin_axis, rebin_data. cbn [rbind values Eg Ex std state a_nc a_rows]. rewrite D1. cbn [rbind].
  rewrite verify_ok; [|split; [|exact I]; cbn [values Ex Eg]; apply shaped_mk; apply mtab_rect]. now rewrite DC.
Qed.
Lemma shaped_shape v r c : shaped v r c -> shape v = (r, c).
Proof. intros (A & B & _). unfold shape, a_nr. now rewrite A, B. Qed.
Lemma pair_eqb_refl p : pair_eqb p p = true.
Proof. unfold pair_eqb. now rewrite !Nat.eqb_refl. Qed.
Lemma rebin_members_eq ex eg out : equidistant ex -> equidistant eg -> equidistant out ->
  forall l, (forall v, In v l -> shaped v (List.length ex) (List.length eg)) ->
  exists ws, rmapm (rebin_member ex eg out) l = Ok ws /\ List.length ws = List.length l /\
    (forall w, In w ws -> shaped w (List.length out) (List.length out)) /\
    forall i v, nth_error l i = Some v -> exists w, nth_error ws i = Some w /\ rebinned_as_matrix ex eg out v w.
Proof.
  intros HX HG HO. induction l as [|v l IH]; intros SH.
  - exists []. split; [reflexivity|]. split; [reflexivity|]. split; [intros w []|]. intros [|i] v; discriminate.
  - destruct IH as (ws & E & L & S & P); [intros; apply SH; now right|].
    destruct (rebin_values_eq ex eg out v (SH v (or_introl eq_refl)) HX HG HO) as (w & E1 & S1 & P1).
    exists (w :: ws). cbn [rmapm]. unfold rebin_member at 1. rewrite E1. cbn [rbind]. rewrite (shaped_shape _ _ _ S1), pair_eqb_refl. cbn [rbind]. rewrite E.
    split; [reflexivity|]. split; [cbn; lia|]. split; [intros x [<- | Hx]; [exact S1|now apply S]|].
    intros [|i] u; cbn [nth_error]; [|apply P]. intros H. injection H as <-. now exists w.
Qed.
Lemma ens_std_shaped sqrtq l nr nc : l <> [] -> (forall v, In v l -> shaped v nr nc) -> shaped (ens_std sqrtq l) nr nc.
Proof.
  intros NE SH. destruct l as [|a t]; [congruence|]. destruct (SH a (or_introl eq_refl)) as (A & B & _). cbn [ens_std].
  unfold a_nr. rewrite A, B. apply shaped_mk. exact (mtab_rect nr nc _).
Qed.
Lemma mk_matrix_ok v eg ex st t : shaped v (List.length ex) (List.length eg) -> set_state st = Ok t ->
  mk_matrix v (Some eg) (Some ex) None st = Ok (mkM v eg ex None t).
Proof. intros S E. unfold mk_matrix. rewrite verify_ok; [|split; [exact S|exact I]]. cbn [rbind]. rewrite E. reflexivity. Qed.

(* ------------------------------------------------------------------ C81 *)
(* Rebinning gives every first generation member, and the matrix firstgen, the values that
   Matrix.rebin on both axes gives; the standard deviations are the spread of the rebinned
   members; nothing else changes, and only firstgen_std.npy is written. *)
Theorem ensemble_rebin_memberwise : forall sqrtq e out d, uniform e -> equidistant out ->
  ~ (out = Ex (e_firstgen e) /\ out = Eg (e_firstgen e)) ->
  exists e' sd, run (ens_rebin sqrtq e out "firstgen") d = (dset (dset d (Top TStdFg) FTorn) (Top TStdFg) (FMat sd), Ok e') /\
    let ex := Ex (e_firstgen e) in let eg := Eg (e_firstgen e) in
    e_firstgen e' = mkM (values (e_firstgen e')) out out None None /\
    rebinned_as_matrix ex eg out (values (e_firstgen e)) (values (e_firstgen e')) /\
    List.length (e_fgs e') = List.length (e_fgs e) /\
    (forall i v, nth_error (e_fgs e) i = Some v -> exists w, nth_error (e_fgs e') i = Some w /\ rebinned_as_matrix ex eg out v w) /\
    is_spread sqrtq (e_fgs e') (values (e_std_fg e')) /\ Ex (e_std_fg e') = out /\ Eg (e_std_fg e') = out /\ state (e_std_fg e') = Some STD /\
    sd = strip (e_std_fg e') /\
    e_raws e' = e_raws e /\ e_unfs e' = e_unfs e /\ e_std_raw e' = e_std_raw e /\ e_std_unf e' = e_std_unf e.
Proof.
  intros sqrtq e out d (SF & NE & SM & HX & HG) HO ND. set (m := e_firstgen e) in *.
  destruct (rebin_members_eq (Ex m) (Eg m) out HX HG HO (e_fgs e) SM) as (ws & EW & LW & SW & PW).
  destruct (rebin_values_eq (Ex m) (Eg m) out (values m) SF HX HG HO) as (fv & EF & SFv & PF).
  assert (WNE : ws <> []) by (intros ->; destruct (e_fgs e); [congruence|discriminate]).
  pose proof (ens_std_shaped sqrtq ws _ _ WNE SW) as SS.
  unfold ens_rebin. cbn [String.eqb]. change (String.eqb "firstgen" "firstgen") with true. cbv iota zeta. fold m.
  destruct (leqb out (Ex m) && leqb out (Eg m)) eqn:L.
  { exfalso. apply andb_true_iff in L as [L1 L2]. apply leqb_eq in L1, L2. now apply ND. }
  rewrite EW, EF. cbn [pbind pret]. rewrite (mk_matrix_ok fv out out SNone None SFv eq_refl). cbn [pbind Eg Ex].
  rewrite (mk_matrix_ok (ens_std sqrtq ws) out out (SStr "std") (Some STD) SS eq_refl). cbn [pbind].
  unfold save, fits. cbn [values Ex Eg]. rewrite (shaped_shape _ _ _ SS), pair_eqb_refl. cbn [pbind Conc.run pret].
  eexists _, _. split; [reflexivity|]. cbn [e_firstgen e_fgs e_std_fg e_raws e_unfs e_std_raw e_std_unf values Ex Eg state].
  repeat match goal with |- _ /\ _ => split end; try reflexivity; try assumption. apply ens_std_spread.
Qed.
Print Assumptions ensemble_rebin_memberwise.
(* Whatever the members were, after a rebinning that succeeds all of them, and the matrix
   firstgen, have the requested number of bins on both axes. *)
Lemma run_pbind_pret {A B} (r : result A) (k : A -> fprog B) d d' b :
  run (pbind (pret r) k) d = (d', Ok b) -> exists a, r = Ok a /\ run (k a) d = (d', Ok b).
Proof. destruct r as [a|x]; cbn; [eauto|discriminate]. Qed.
Theorem ensemble_rebin_shapes : forall sqrtq e out d d' e',
  ~ (out = Ex (e_firstgen e) /\ out = Eg (e_firstgen e)) -> run (ens_rebin sqrtq e out "firstgen") d = (d', Ok e') ->
  (forall v, In v (e_fgs e') -> shape v = (List.length out, List.length out)) /\ List.length (e_fgs e') = List.length (e_fgs e) /\
  shape (values (e_firstgen e')) = (List.length out, List.length out) /\ shape (values (e_std_fg e')) = (List.length out, List.length out).
Proof.
  intros sqrtq e out d d' e' ND H. unfold ens_rebin in H. change (String.eqb "firstgen" "firstgen") with true in H. cbv iota zeta in H.
  set (m := e_firstgen e) in *. destruct (leqb out (Ex m) && leqb out (Eg m)) eqn:L.
  { exfalso. apply andb_true_iff in L as [L1 L2]. apply leqb_eq in L1, L2. now apply ND. }
  apply run_pbind_pret in H as (fgs & E1 & H). apply run_pbind_pret in H as (v & E2 & H).
  apply run_pbind_pret in H as (fg & E3 & H). apply run_pbind_pret in H as (sd & E4 & H).
  assert (S : e_fgs e' = fgs /\ e_firstgen e' = fg /\ e_std_fg e' = sd).
  { unfold save in H. destruct (fits sd); cbn in H; [|discriminate]. injection H as _ <-. now cbn. }
  destruct S as (-> & -> & ->).
  assert (V : forall w st t, mk_matrix w (Some out) (Some out) None st = Ok t -> shape (values t) = (List.length out, List.length out) /\ Ex t = out /\ Eg t = out).
  { intros w st t M. unfold mk_matrix in M. destruct (verify_integrity _) as [[]|x] eqn:VI; [|discriminate].
    cbn [rbind] in M. destruct (set_state st) as [q|]; [|discriminate]. cbn [rbind] in M. injection M as <-. cbn [values Ex Eg].
    unfold verify_integrity in VI. cbn [values Ex Eg] in VI. unfold shape, pair_eqb in *.
    destruct (Nat.eqb_spec (a_nr w) (List.length out)) as [->|]; [|discriminate].
    destruct (Nat.eqb_spec (a_nc w) (List.length out)) as [->|]; [auto|discriminate]. }
  destruct (V _ _ _ E3) as (V1 & X1 & X2). rewrite X1, X2 in E4. destruct (V _ _ _ E4) as (V2 & _).
  split; [|split; [now apply rmapm_length in E1|now split]].
  intros w Hw. clear - E1 Hw. revert w Hw. generalize dependent fgs. induction (e_fgs e) as [|a l IH]; intros fgs E1 w Hw; cbn [rmapm] in E1.
  - injection E1 as <-. destruct Hw.
  - destruct (rebin_member (Ex m) (Eg m) out a) as [b|] eqn:EB; [|discriminate]. cbn [rbind] in E1.
    destruct (rmapm _ l) as [bs|]; [|discriminate]. cbn [rbind] in E1. injection E1 as <-. destruct Hw as [<- | Hw]; [|eapply IH; eauto].
    unfold rebin_member in EB. destruct (rebin_values _ _ _ a) as [w|]; [|discriminate]. cbn [rbind] in EB.
    destruct (pair_eqb _ _) eqn:P; [|discriminate]. injection EB as <-. destruct (shape w) as [r c]. unfold pair_eqb in P. cbn in P.
    apply andb_true_iff in P as [P1 P2]. apply Nat.eqb_eq in P1, P2. now subst.
Qed.
Print Assumptions ensemble_rebin_shapes.
(* Counts are conserved in every member if the new bins cover the old ones on both axes. *)
Theorem rebinned_member_counts : forall ex eg out v w, shaped v (List.length ex) (List.length eg) ->
  equidistant ex -> equidistant eg -> equidistant out ->
  (axis_lo out <= axis_lo ex)%Qc -> (axis_hi ex <= axis_hi out)%Qc -> (axis_lo out <= axis_lo eg)%Qc -> (axis_hi eg <= axis_hi out)%Qc ->
  rebinned_as_matrix ex eg out v w -> msum (a_rows w) = msum (a_rows v).
Proof.
  intros ex eg out v w SH HX HG HO X1 X2 G1 G2 H. destruct (shaped_rect _ _ _ SH) as [R NC].
  unfold rebinned_as_matrix, rebin_inplace in H. change (to_plot_axis (AStr "both")) with (Ok AxBoth : result paxis) in H. cbv beta iota in H.
  unfold rebin_axis at 1 in H. unfold rebin_data in H. cbn [rbind values Eg Ex std state] in H. rewrite NC in H.
  pose proof (rebin_2D_rows (a_rows v) _ _ eg out R eq_refl HG HO) as D0. rewrite D0 in H. cbn [rbind] in H.
  set (d0 := mtab (List.length ex) (List.length out) (fun i j => rebin_spec (nth i (a_rows v) []) eg out j)) in *.
  assert (RD : rect d0 (List.length ex) (List.length out)) by apply mtab_rect.
  rewrite verify_ok in H; [|split; [|exact I]; cbn [values Ex Eg]; apply shaped_mk; exact RD].
  unfold rebin_axis, rebin_data in H. cbn [rbind values Eg Ex std state a_nc a_rows] in H.
  destruct (rebin_2D (List.length out) d0 ex out 0%Z) as [d1|] eqn:D1; [|discriminate]. cbn [rbind] in H.
  apply pair_equal_spec in H as [H _]. injection H as <-. cbn [a_rows].
  destruct (rebin_2D_cols_conserve d0 _ _ ex out d1 RD eq_refl HX HO X1 X2 D1) as (_ & _ & ->).
  now destruct (rebin_2D_rows_conserve (a_rows v) _ _ eg out d0 R eq_refl HG HO G1 G2 D0) as (_ & _ & ->).
Qed.
Print Assumptions rebinned_member_counts.
(* Asking for the binning that is there changes nothing; other members than firstgen are
   refused. *)
Theorem ensemble_rebin_nothing : forall sqrtq e out d member,
  (out = Ex (e_firstgen e) -> out = Eg (e_firstgen e) -> run (ens_rebin sqrtq e out "firstgen") d = (d, Ok e)) /\
  (member <> "firstgen"%string -> run (ens_rebin sqrtq e out member) d = (d, Raise NotImplementedErr)).
Proof.
  intros sqrtq e out d member. split.
  - intros E1 E2. unfold ens_rebin. change (String.eqb "firstgen" "firstgen") with true. cbv iota zeta.
    rewrite (proj2 (leqb_eq out (Ex (e_firstgen e))) E1), (proj2 (leqb_eq out (Eg (e_firstgen e))) E2). reflexivity.
  - intros N. unfold ens_rebin. destruct (String.eqb_spec member "firstgen"); [contradiction|reflexivity].
Qed.
Print Assumptions ensemble_rebin_nothing.

Lemma load_members_same sh k l : forall d d', (forall i, d' (Member k i) = d (Member k i)) ->
  snd (run (load_members sh k l) d') = snd (run (load_members sh k l) d).
Proof.
  induction l as [|i t IH]; intros d d' H; [reflexivity|]. cbn [load_members]. rewrite !run_pbind. unfold load_file. cbn [Conc.run pret]. rewrite H.
  destruct (match d (Member k i) with Some f => read_file f | None => Raise OSErr end) as [m|]; [|reflexivity].
  rewrite !run_pbind. cbn [Conc.run pret]. destruct (pair_eqb _ _); [|reflexivity]. rewrite !run_pbind. specialize (IH d d' H).
  destruct (run (load_members sh k t) d) as [d1 r1], (run (load_members sh k t) d') as [d2 r2]. cbn [snd] in IH. subst r2. destruct r1; reflexivity.
Qed.
(* C81 refuted: the rebinned ensemble is not stored.  A later load gives the members and the
   matrix firstgen of before, with the standard deviations of the rebinned ones. *)
Theorem rebin_then_load_refuted : forall sqrtq e out d d' e' raws unfs fgs L L', uniform e -> equidistant out ->
  ~ (out = Ex (e_firstgen e) /\ out = Eg (e_firstgen e)) ->
  run (ens_rebin sqrtq e out "firstgen") d = (d', Ok e') ->
  snd (run (ens_load raws unfs fgs) d) = Ok L -> snd (run (ens_load raws unfs fgs) d') = Ok L' ->
  l_fgs L' = l_fgs L /\ l_firstgen L' = l_firstgen L /\ values (l_std_fg L') = values (e_std_fg e') /\
  shape (values (l_std_fg L')) = (List.length out, List.length out).
Proof.
  intros sqrtq e out d d' e' raws unfs fgs L L' U HO ND H H1 H2.
  destruct (ensemble_rebin_memberwise sqrtq e out d U HO ND) as (e2 & sd & H' & _ & _ & LF & PM & SP & SX & SG & _ & SD & _).
  rewrite H in H'. injection H' as HD HE. subst e2.
  assert (DM : forall k i, d' (Member k i) = d (Member k i)) by (intros; rewrite HD; reflexivity).
  assert (DT : forall t, t <> TStdFg -> d' (Top t) = d (Top t)) by (intros t N; rewrite HD; destruct t; try reflexivity; contradiction).
  assert (DS : d' (Top TStdFg) = Some (FMat sd)) by (rewrite HD; reflexivity).
  assert (RO : forall sh k l d, exists r, run (load_members sh k l) d = (d, r)).
  { clear. intros sh k l d. induction l as [|i t [r R]]; [eexists; reflexivity|]. cbn [load_members]. rewrite run_pbind. unfold load_file. cbn [Conc.run pret].
    destruct (match d (Member k i) with Some f => read_file f | None => Raise OSErr end) as [m|]; [|eexists; reflexivity].
    rewrite run_pbind. cbn [Conc.run pret]. destruct (pair_eqb _ _); [|eexists; reflexivity]. rewrite run_pbind, R. destruct r; eexists; reflexivity. }
  unfold ens_load in H1, H2. rewrite run_pbind in H1, H2. unfold load_file in H1 at 1. unfold load_file in H2 at 1. cbn [Conc.run pret] in H1, H2.
  rewrite DT in H2 by discriminate.
  destruct (match d (Top TRaw) with Some f => read_file f | None => Raise OSErr end) as [rw|]; [|discriminate].
  rewrite run_pbind in H1, H2. unfold load_file in H1 at 1. unfold load_file in H2 at 1. cbn [Conc.run pret] in H1, H2.
  rewrite DT in H2 by discriminate.
  destruct (match d (Top TFirstgen) with Some f => read_file f | None => Raise OSErr end) as [fg|]; [|discriminate].
  rewrite run_pbind in H1, H2. cbn [Conc.run pret] in H1, H2. destruct (Nat.eqb _ _ && Nat.eqb _ _); [|discriminate].
  rewrite run_pbind in H1, H2. cbn [Conc.run pret] in H1, H2. destruct (Nat.ltb 0 _); [|discriminate]. cbv zeta in H1, H2.
  assert (STEP : forall k l, exists r, run (load_members (shape (values rw)) k l) d = (d, r) /\ run (load_members (shape (values rw)) k l) d' = (d', r)).
  { intros k l. destruct (RO (shape (values rw)) k l d) as [r R], (RO (shape (values rw)) k l d') as [r' R']. exists r. split; [exact R|].
    pose proof (load_members_same (shape (values rw)) k l d d' (DM k)) as E. rewrite R, R' in E. cbn [snd] in E. now subst r'. }
  destruct (STEP KRaw raws) as (r1 & A1 & B1). rewrite run_pbind, A1 in H1. rewrite run_pbind, B1 in H2. destruct r1 as [o1|]; [|discriminate].
  destruct (STEP KUnf unfs) as (r2 & A2 & B2). rewrite run_pbind, A2 in H1. rewrite run_pbind, B2 in H2. destruct r2 as [o2|]; [|discriminate].
  destruct (STEP KFg fgs) as (r3 & A3 & B3). rewrite run_pbind, A3 in H1. rewrite run_pbind, B3 in H2. destruct r3 as [o3|]; [|discriminate].
  rewrite run_pbind in H1, H2. unfold load_file in H1 at 1. unfold load_file in H2 at 1. cbn [Conc.run pret] in H1, H2. rewrite DT in H2 by discriminate.
  destruct (match d (Top TStdRaw) with Some f => read_file f | None => Raise OSErr end) as [sr|]; [|discriminate].
  rewrite run_pbind in H1, H2. unfold load_file in H1 at 1. unfold load_file in H2 at 1. cbn [Conc.run pret] in H1, H2. rewrite DT in H2 by discriminate.
  destruct (match d (Top TStdUnf) with Some f => read_file f | None => Raise OSErr end) as [su|]; [|discriminate].
  rewrite run_pbind in H1, H2. unfold load_file in H1. unfold load_file in H2. cbn [Conc.run pret] in H1, H2. rewrite DS in H2.
  destruct (match d (Top TStdFg) with Some f => read_file f | None => Raise OSErr end) as [sf|]; [|discriminate].
  destruct (read_file (FMat sd)) as [sf'|] eqn:RF; [|discriminate]. cbn [Conc.run pret snd] in H1, H2. injection H1 as <-. injection H2 as <-.
  cbn [l_fgs l_firstgen l_std_fg]. split; [reflexivity|]. split; [reflexivity|]. cbn [read_file] in RF. apply mk_matrix_fits in RF as (FT & V & _).
  rewrite V, SD. cbn [strip values]. split; [reflexivity|]. unfold fits in FT. destruct SP as [SP _].
  destruct U as (_ & NE & SM & HX & HG). destruct (e_fgs e) as [|v0 t0] eqn:EF; [congruence|].
  destruct (PM 0 v0 eq_refl) as (w & W & PW). destruct (e_fgs e') as [|w0 t1]; [discriminate|]. injection W as ->.
  rewrite (SP w) by (now left). destruct (rebin_values_eq _ _ out v0 (SM v0 (or_introl eq_refl)) HX HG HO) as (w' & _ & SW & PW').
  unfold rebinned_as_matrix in PW, PW'. rewrite PW in PW'. apply pair_equal_spec in PW' as [PW' _]. injection PW' as <-. exact (shaped_shape _ _ _ SW).
Qed.
Print Assumptions rebin_then_load_refuted.

(* ------------------------------------------------------------------ C82 *)
(* element number i, counted from the end if i is negative *)
Definition at_position {A} (l : list A) (i : Z) (x : A) : Prop :=
  (0 <= i /\ nth_error l (Z.to_nat i) = Some x)%Z \/
  (i < 0 /\ 0 <= Z.of_nat (List.length l) + i /\ nth_error l (Z.to_nat (Z.of_nat (List.length l) + i)) = Some x)%Z.
(* m holds the values of member i with the axes of a *)
Definition holds (ens : list arr2) (a : matrix) (i : Z) (st : option mstate) (m : matrix) : Prop :=
  exists v, at_position ens i v /\ m = mkM v (Eg a) (Ex a) None st.
Lemma py_index_spec {A} (l : list A) i x : py_index l i = Ok x <-> at_position l i x.
Proof.
  unfold py_index, at_position. destruct (Z.ltb_spec i 0) as [N|P].
  - destruct (Z.leb_spec 0 (Z.of_nat (List.length l) + i)) as [A1|A1]; cbn [andb].
    + destruct (Z.ltb_spec (Z.of_nat (List.length l) + i) (Z.of_nat (List.length l))) as [A2|A2]; [|lia].
      destruct (nth_error l _) as [y|] eqn:E; split.
      * intros H. injection H as ->. right. split; [exact N|]. split; [exact A1|reflexivity].
      * intros [[H _]|(_ & _ & H)]; [lia|]. now injection H as ->.
      * discriminate.
      * intros [[H _]|(_ & _ & H)]; [lia|]. congruence.
    + split; [discriminate|]. intros [[H _]|(_ & H & _)]; lia.
  - destruct (Z.leb_spec 0 i) as [_|]; [|lia]. cbn [andb]. destruct (Z.ltb_spec i (Z.of_nat (List.length l))) as [A2|A2].
    + destruct (nth_error l _) as [y|] eqn:E; split.
      * intros H. injection H as ->. left. split; [lia|reflexivity].
      * intros [[_ H]|(H & _)]; [|lia]. now injection H as ->.
      * discriminate.
      * intros [[_ H]|(H & _)]; [|lia]. congruence.
    + split; [discriminate|]. intros [[_ H]|(H & _)]; [|lia]. exfalso.
      assert (nth_error l (Z.to_nat i) <> None) by congruence. apply nth_error_Some in H0. lia.
Qed.
Lemma one_member ens a st t i m : (forall v, In v ens -> shaped v (List.length (Ex a)) (List.length (Eg a))) -> set_state st = Ok t ->
  ((do v <- py_index ens i ;; mk_matrix v (Some (Eg a)) (Some (Ex a)) None st) = Ok m <-> holds ens a i t m).
Proof.
  intros SH ST. assert (IN : forall v, at_position ens i v -> In v ens).
  { intros v [[_ H]|(_ & _ & H)]; eapply nth_error_In; exact H. }
  split.
  - destruct (py_index ens i) as [v|] eqn:E; [|discriminate]. cbn [rbind]. apply py_index_spec in E.
    rewrite (mk_matrix_ok v _ _ st t (SH v (IN v E)) ST). intros H. injection H as <-. now exists v.
  - intros (v & P & ->). rewrite (proj2 (py_index_spec ens i v) P). cbn [rbind]. exact (mk_matrix_ok v _ _ st t (SH v (IN v P)) ST).
Qed.
Lemma rmapm_spec {A B} (f : A -> result B) l : forall ms, rmapm f l = Ok ms <-> Forall2 (fun x y => f x = Ok y) l ms.
Proof.
  induction l as [|x l IH]; intros ms; cbn [rmapm].
  - split; [intros H; injection H as <-; constructor|]. intros H. now inversion H.
  - split.
    + destruct (f x) as [y|] eqn:E; [|discriminate]. cbn [rbind]. destruct (rmapm f l) as [ys|] eqn:E2; [|discriminate]. cbn [rbind].
      intros H. injection H as <-. constructor; [exact E|]. now apply IH.
    + intros H. inversion H as [|? y ? ys E1 E2]. subst. rewrite E1. cbn [rbind]. apply IH in E2. rewrite E2. reflexivity.
Qed.
Lemma members_of_spec ens a st1 st2 t1 t2 : (forall v, In v ens -> shaped v (List.length (Ex a)) (List.length (Eg a))) ->
  set_state st1 = Ok t1 -> set_state st2 = Ok t2 ->
  (forall i m, members_of ens a st1 st2 (IOne i) = Ok (inl m) <-> holds ens a i t1 m) /\
  (forall l ms, members_of ens a st1 st2 (IMany l) = Ok (inr ms) <-> Forall2 (fun i m => holds ens a i t2 m) l ms).
Proof.
  intros SH S1 S2. split.
  - intros i m. rewrite <- (one_member ens a st1 t1 i m SH S1). unfold members_of. cbv zeta.
    destruct (do v <- py_index ens i ;; mk_matrix v (Some (Eg a)) (Some (Ex a)) None st1) as [x|]; cbn; split; intros H; try discriminate; injection H as ->; reflexivity.
  - intros l ms. unfold members_of. cbv zeta.
    assert (E : rmapm (fun i => do v <- py_index ens i ;; mk_matrix v (Some (Eg a)) (Some (Ex a)) None st2) l = Ok ms <-> Forall2 (fun i m => holds ens a i t2 m) l ms).
    { rewrite rmapm_spec. split; intros H; (induction H; constructor; [|assumption]); apply (one_member ens a st2 t2); assumption. }
    rewrite <- E. destruct (rmapm _ l) as [x|]; cbn; split; intros H; try discriminate; injection H as ->; reflexivity.
Qed.
(* Members of an ensemble: a number gives the member with that number (negative numbers count
   from the end), a list gives the members in the order of the list; the axes are those of the
   matrix of the ensemble.  Only members asked for by a number know their state. *)
Theorem members_by_index_partial : forall raw e,
  (forall v, In v (e_raws e) \/ In v (e_unfs e) -> shaped v (List.length (Ex raw)) (List.length (Eg raw))) ->
  (forall v, In v (e_fgs e) -> shaped v (List.length (Ex (e_firstgen e))) (List.length (Eg (e_firstgen e)))) ->
  (forall i m, get_raw raw e (IOne i) = Ok (inl m) <-> holds (e_raws e) raw i None m) /\
  (forall i m, get_unfolded raw e (IOne i) = Ok (inl m) <-> holds (e_unfs e) raw i (Some UNFOLDED) m) /\
  (forall i m, get_firstgen e (IOne i) = Ok (inl m) <-> holds (e_fgs e) (e_firstgen e) i (Some FIRST_GENERATION) m) /\
  (forall l ms, get_raw raw e (IMany l) = Ok (inr ms) <-> Forall2 (fun i m => holds (e_raws e) raw i None m) l ms) /\
  (forall l ms, get_unfolded raw e (IMany l) = Ok (inr ms) <-> Forall2 (fun i m => holds (e_unfs e) raw i None m) l ms) /\
  (forall l ms, get_firstgen e (IMany l) = Ok (inr ms) <-> Forall2 (fun i m => holds (e_fgs e) (e_firstgen e) i None m) l ms).
Proof.
  intros raw e S1 S2.
  destruct (members_of_spec (e_raws e) raw SNone SNone None None (fun v H => S1 v (or_introl H)) eq_refl eq_refl) as [A1 A2].
  destruct (members_of_spec (e_unfs e) raw (SStr "unfolded") SNone (Some UNFOLDED) None (fun v H => S1 v (or_intror H)) eq_refl eq_refl) as [B1 B2].
  destruct (members_of_spec (e_fgs e) (e_firstgen e) (SStr "firstgen") SNone (Some FIRST_GENERATION) None S2 eq_refl eq_refl) as [C1 C2].
  repeat match goal with |- _ /\ _ => split end; assumption.
Qed.
Print Assumptions members_by_index_partial.

(* ------------------------------------------------------------------ a concrete ensemble *)
Definition x_arr (a b c d : Z) : arr2 := mkArr 2 [[qz a; qz b]; [qz c; qz d]].
Definition x_ax (l : list Z) : list Qc := map qz l.
Definition x_mat (v : arr2) (l : list Z) : matrix := mkM v (x_ax l) (x_ax l) None None.
Definition x_ens : ensemble :=
  let v1 := x_arr 4 2 0 8 in let v2 := x_arr 2 2 4 0 in
  mkEns [v1; v2] [v1; v2] [v1; v2] (x_mat v1 [0; 2]%Z) (x_mat v1 [0; 2]%Z) (x_mat v1 [0; 2]%Z) (x_mat v1 [0; 2]%Z).
Lemma x_shaped a b c d : shaped (x_arr a b c d) 2 2.
Proof. split; [reflexivity|]. split; [reflexivity|]. intros r [<- | [<- | []]]; reflexivity. Qed.
Lemma x_equidistant l : (2 <=? List.length l) = true -> (0 <? nth 1 l 0 - nth 0 l 0)%Z = true ->
  forallb (fun i => (nth i l 0 =? nth 0 l 0 + Z.of_nat i * (nth 1 l 0 - nth 0 l 0))%Z) (seq 0 (List.length l)) = true -> equidistant (x_ax l).
Proof.
  intros H1 H2 H3. assert (N : forall i, (nth i (x_ax l) 0 = qz (nth i l 0%Z))%Qc).
  { intros i. unfold x_ax. rewrite <- qz_0. apply map_nth. }
  unfold equidistant, width. rewrite !N. unfold x_ax at 1. rewrite map_length. apply Nat.leb_le in H1. split; [exact H1|].
  rewrite <- qz_sub. split; [rewrite <- qz_0; apply (proj1 (qz_lt _ _)); now apply Z.ltb_lt|].
  intros i Hi. unfold x_ax in Hi. rewrite map_length in Hi. rewrite N. rewrite forallb_forall in H3.
  specialize (H3 i). rewrite in_seq in H3. specialize (H3 ltac:(lia)). apply Z.eqb_eq in H3. rewrite H3, qz_add, qz_mul. reflexivity.
Qed.
Example x_uniform : uniform x_ens /\ equidistant (x_ax [-1; 0; 1; 2; 3]%Z) /\ equidistant (x_ax [0; 4]%Z) /\
  ~ (x_ax [-1; 0; 1; 2; 3]%Z = Ex (e_firstgen x_ens) /\ x_ax [-1; 0; 1; 2; 3]%Z = Eg (e_firstgen x_ens)).
Proof.
  assert (E : equidistant (x_ax [0; 2]%Z)) by (apply x_equidistant; reflexivity).
  split.
  - split; [apply x_shaped|]. split; [discriminate|]. split; [intros v [<- | [<- | []]]; apply x_shaped|]. split; exact E.
  - split; [apply x_equidistant; reflexivity|]. split; [apply x_equidistant; reflexivity|]. intros [H _]. apply (f_equal (@List.length Qc)) in H. discriminate.
Qed.
(* the axes of this ensemble are covered by the new bins, so all members keep their counts *)
Example x_rebinned : exists e' d', run (ens_rebin (fun x => x) x_ens (x_ax [-1; 0; 1; 2; 3]%Z) "firstgen") (fun _ => None) = (d', Ok e') /\
  map (fun a => msum (a_rows a)) (e_fgs e') = map (fun a => msum (a_rows a)) (e_fgs x_ens).
Proof.
  destruct x_uniform as (U & E5 & _ & ND).
  destruct (ensemble_rebin_memberwise (fun x => x) x_ens _ (fun _ => None) U E5 ND) as (e' & sd & R & _ & _ & L & PM & _).
  exists e'. eexists. split; [exact R|]. destruct U as (_ & _ & SM & HX & HG).
  destruct (PM 0 _ eq_refl) as (w0 & W0 & P0). destruct (PM 1 _ eq_refl) as (w1 & W1 & P1).
  destruct (e_fgs e') as [|y0 [|y1 [|y2 t]]]; try discriminate L. injection W0 as ->. injection W1 as ->. cbn [map e_fgs x_ens].
  assert (C : forall v w, In v (e_fgs x_ens) -> rebinned_as_matrix (Ex (e_firstgen x_ens)) (Eg (e_firstgen x_ens)) (x_ax [-1; 0; 1; 2; 3]%Z) v w -> msum (a_rows w) = msum (a_rows v)).
  { intros v w Hv Hw. eapply rebinned_member_counts; [exact (SM v Hv)|exact HX|exact HG|exact E5|..|exact Hw]; apply qleb_le; vm_compute; reflexivity. }
  rewrite (C _ _ (or_introl eq_refl) P0), (C _ _ (or_intror (or_introl eq_refl)) P1). reflexivity.
Qed.
(* the last member, asked for as -1, and as the only element of a list *)
Example x_last : get_unfolded (x_mat (x_arr 0 0 0 0) [0; 2]%Z) x_ens (IOne (-1)) = Ok (inl (mkM (x_arr 2 2 4 0) (x_ax [0; 2]%Z) (x_ax [0; 2]%Z) None (Some UNFOLDED))) /\
  get_unfolded (x_mat (x_arr 0 0 0 0) [0; 2]%Z) x_ens (IMany [(-1)%Z]) = Ok (inr [mkM (x_arr 2 2 4 0) (x_ax [0; 2]%Z) (x_ax [0; 2]%Z) None None]).
Proof. split; reflexivity. Qed.
(* C82 refuted: a list of numbers does not give the same matrices as the numbers do *)
Theorem members_state_refuted : exists raw e i m m', get_unfolded raw e (IOne i) = Ok (inl m) /\ get_unfolded raw e (IMany [i]) = Ok (inr [m']) /\ state m <> state m'.
Proof. do 5 eexists. split; [apply x_last|]. split; [apply x_last|]. discriminate. Qed.
Print Assumptions members_state_refuted.
