(* Lemmas: conversions, projections, fill, diagonal cuts, trapezoid. *)
From Verif Require Import PyBase Axis RebinModel RebinProofs Rebin2DProofs RebinFactorProofs MatrixModel MatrixSpec CutSpec
  IndexProofs CutProofs MatrixProofs MatrixRebinProofs.

(* --- bin edge conversions --- *)
Lemma halfbin_map l c : (2 <= length l)%nat -> halfbin (map (fun e => e + c) l) = halfbin l.
Proof. destruct l as [|x [|y l]]; cbn; intros H; try lia. unfold halfbin. cbn. f_equal. ring. Qed.
Lemma halfbin_map_sub l c : (2 <= length l)%nat -> halfbin (map (fun e => e - c) l) = halfbin l.
Proof. destruct l as [|x [|y l]]; cbn; intros H; try lia. unfold halfbin. cbn. f_equal. ring. Qed.
Lemma map_sub_add (l : list Qc) c : map (fun e => e + c) (map (fun e => e - c) l) = l.
Proof. rewrite map_map. rewrite <- (map_id l) at 2. apply map_ext. intros. ring. Qed.
Lemma map_add_sub (l : list Qc) c : map (fun e => e - c) (map (fun e => e + c) l) = l.
Proof. rewrite map_map. rewrite <- (map_id l) at 2. apply map_ext. intros. ring. Qed.
Lemma to_lower_ok m : (2 <= length (Ex m))%nat -> (2 <= length (Eg m))%nat ->
  to_lower_bin m = Ok (mkM (values m) (map (fun e => e - halfbin (Eg m)) (Eg m))
              (map (fun e => e - halfbin (Ex m)) (Ex m)) (std m) (state m)).
Proof.
  intros H1 H2. unfold to_lower_bin. destruct (Ex m) as [|a [|b t]]; cbn in H1; try lia.
  destruct (Eg m) as [|a' [|b' t']]; cbn in H2; try lia. reflexivity.
Qed.
Lemma to_mid_ok m : (2 <= length (Ex m))%nat -> (2 <= length (Eg m))%nat ->
  to_mid_bin m = Ok (mkM (values m) (map (fun e => e + halfbin (Eg m)) (Eg m))
              (map (fun e => e + halfbin (Ex m)) (Ex m)) (std m) (state m)).
Proof.
  intros H1 H2. unfold to_mid_bin. destruct (Ex m) as [|a [|b t]]; cbn in H1; try lia.
  destruct (Eg m) as [|a' [|b' t']]; cbn in H2; try lia. reflexivity.
Qed.
Lemma lower_mid_lemma m : (2 <= length (Ex m))%nat -> (2 <= length (Eg m))%nat ->
  exists l u, to_lower_bin m = Ok l /\ to_mid_bin l = Ok m /\ to_mid_bin m = Ok u /\ to_lower_bin u = Ok m /\
    values l = values m /\ std l = std m /\ state l = state m /\
    (forall i, (i < length (Ex m))%nat -> nth i (Ex l) 0 = nth i (Ex m) 0 - (nth 1 (Ex m) 0 - nth 0 (Ex m) 0) / qz 2) /\
    (forall i, (i < length (Eg m))%nat -> nth i (Eg l) 0 = nth i (Eg m) 0 - (nth 1 (Eg m) 0 - nth 0 (Eg m) 0) / qz 2).
Proof.
  intros H1 H2. eexists. eexists. split; [now apply to_lower_ok|].
  split. { rewrite to_mid_ok by (cbn; now rewrite map_length). cbn. rewrite !halfbin_map_sub by assumption.
           rewrite !map_sub_add. now destruct m. }
  split; [now apply to_mid_ok|].
  split. { rewrite to_lower_ok by (cbn; now rewrite map_length). cbn. rewrite !halfbin_map by assumption.
           rewrite !map_add_sub. now destruct m. }
  cbn. do 3 (split; [reflexivity|]).
  split; intros i Hi; now rewrite (map_nth_in _ _ _ 0).
Qed.
Lemma lower_short_lemma m : (length (Ex m) < 2)%nat \/ (length (Eg m) < 2)%nat ->
  to_lower_bin m = Raise IndexError /\ to_mid_bin m = Raise IndexError.
Proof.
  unfold to_lower_bin, to_mid_bin. intros H.
  destruct (Ex m) as [|a [|b t]]; try (split; reflexivity).
  destruct (Eg m) as [|a' [|b' t']]; try (split; reflexivity). cbn in H. lia.
Qed.

(* --- projections --- *)
Lemma py_slice_range {A} (l : list A) lo hi : (lo < length l)%nat -> (hi < length l)%nat ->
  py_slice l (Z.of_nat lo) (Z.of_nat hi + 1) = firstn (S hi - lo) (skipn lo l).
Proof.
  replace (Z.of_nat hi + 1)%Z with (Z.of_nat (S hi)) by lia. intros. now apply py_slice_nat; lia.
Qed.
Lemma qsum_slice l lo hi : (hi < length l)%nat ->
  qsum (firstn (S hi - lo) (skipn lo l)) = sum_between lo hi (vget l).
Proof.
  intros H. rewrite qsum_nth. rewrite firstn_length, skipn_length, Nat.min_l by lia. apply sumn_ext.
  intros k Hk. unfold vget. rewrite nth_firstn_lt by assumption. now rewrite nth_skipn.
Qed.
Lemma proj_bounds_ok l Emin Emax : l <> [] -> nondecreasing l ->
  exists lo hi, proj_bounds l Emin Emax = Ok (Z.of_nat lo, Z.of_nat hi) /\
    (lo < length l)%nat /\ (hi < length l)%nat /\ proj_lim l Emin Emax lo hi.
Proof.
  intros Hne Hs. unfold proj_bounds, proj_lim.
  assert (Hl : (0 < length l)%nat) by (destruct l; [contradiction|cbn; lia]).
  exists (match Emin with Some e => index l e | None => 0%nat end).
  exists (match Emax with Some e => index l e | None => (length l - 1)%nat end).
  assert (N : forall e, nearest l e (index l e)) by (intros; now apply index_nearest_lemma).
  split.
  { destruct l as [|x t]; [contradiction|]. destruct Emin, Emax; cbn [rbind]; repeat f_equal; try lia; cbn [length]; try lia. }
  split; [destruct Emin as [e|]; [apply (N e)|lia]|].
  split; [destruct Emax as [e|]; [apply (N e)|lia]|].
  split; [destruct Emin|destruct Emax]; auto.
Qed.
Lemma normalize_lemma (p : list Qc) : let q := map (fun x => div0 x (qsum p)) p in
  (qsum p <> 0 -> qsum q = 1 /\ forall i, (i < length p)%nat -> vget q i * qsum p = vget p i) /\
  (qsum p = 0 -> forall x, In x q -> x = 0).
Proof.
  intros q. split.
  - intros H. subst q. unfold div0. rewrite (proj2 (qeqb_neq _ _) H). split.
    + rewrite qsum_nth, map_length.
      rewrite (sumn_ext _ _ (fun i => vget p i / qsum p)).
      * rewrite sumn_div, <- qsum_nth. unfold Qcdiv. now rewrite Qcmult_inv_r.
      * intros i Hi. unfold vget. rewrite (nth_indep _ 0 (0 / qsum p)) by now rewrite map_length.
        now rewrite (map_nth (fun x => x / qsum p)).
    + intros i Hi. unfold vget. rewrite (nth_indep _ 0 (0 / qsum p)) by now rewrite map_length.
      rewrite (map_nth (fun x => x / qsum p)). field. exact H.
  - intros H x Hx. apply in_map_iff in Hx as (y & <- & _). unfold div0. rewrite H.
    now rewrite (proj2 (qeqb_eq 0 0) eq_refl).
Qed.
Lemma col_slice rows lo n j : col (firstn n (skipn lo rows)) j = firstn n (skipn lo (col rows j)).
Proof. unfold col. now rewrite skipn_map, firstn_map. Qed.
Lemma vget_col rows i j : (i < length rows)%nat -> vget (col rows j) i = mget rows i j.
Proof.
  intros H. unfold vget, col, mget. rewrite (nth_indep _ 0 (vget [] j)) by now rewrite map_length.
  now rewrite (map_nth (fun r => vget r j)).
Qed.
Lemma projection_Eg_lemma m ax Emin Emax nrm : consistent m -> to_plot_axis ax = Ok AxEg ->
  Ex m <> [] -> nondecreasing (Ex m) ->
  exists lo hi p, proj_lim (Ex m) Emin Emax lo hi /\ (lo < length (Ex m))%nat /\ (hi < length (Ex m))%nat /\
    length p = length (Eg m) /\
    (forall j, (j < length (Eg m))%nat -> vget p j = sum_between lo hi (fun i => aget (values m) i j)) /\
    projection m ax Emin Emax nrm = Ok (if nrm then map (fun x => div0 x (qsum p)) p else p, Eg m).
Proof.
  intros [(C1 & C2 & C3) _] A Hne Hs. unfold projection. rewrite A. cbn [rbind].
  destruct (proj_bounds_ok _ Emin Emax Hne Hs) as (lo & hi & -> & H1 & H2 & L). cbn [rbind].
  exists lo, hi. eexists. split; [exact L|]. split; [exact H1|]. split; [exact H2|].
  split; [|split; [|destruct nrm; reflexivity]].
  - now rewrite tab_length.
  - cbn [slice_rows a_nc a_rows]. intros j Hj. unfold vget at 1. rewrite nth_tab by congruence.
    rewrite py_slice_range, col_slice, qsum_slice by (unfold col; rewrite ?map_length; lia).
    + apply sumn_ext. intros k Hk. apply vget_col. lia.
Qed.
Lemma projection_Ex_lemma m ax Emin Emax nrm : consistent m -> to_plot_axis ax = Ok AxEx ->
  Eg m <> [] -> nondecreasing (Eg m) ->
  exists lo hi p, proj_lim (Eg m) Emin Emax lo hi /\ (lo < length (Eg m))%nat /\ (hi < length (Eg m))%nat /\
    length p = length (Ex m) /\
    (forall i, (i < length (Ex m))%nat -> vget p i = sum_between lo hi (fun j => aget (values m) i j)) /\
    projection m ax Emin Emax nrm = Ok (if nrm then map (fun x => div0 x (qsum p)) p else p, Ex m).
Proof.
  intros [(C1 & C2 & C3) _] A Hne Hs. unfold projection. rewrite A. cbn [rbind].
  destruct (proj_bounds_ok _ Emin Emax Hne Hs) as (lo & hi & -> & H1 & H2 & L). cbn [rbind].
  exists lo, hi. eexists. split; [exact L|]. split; [exact H1|]. split; [exact H2|].
  split; [|split; [|destruct nrm; reflexivity]].
  - unfold slice_cols. cbn [a_rows]. now rewrite !map_length.
  - unfold slice_cols. cbn [a_rows]. intros i Hi. rewrite map_map. unfold vget at 1.
    rewrite (nth_indep _ 0 (qsum (py_slice [] (Z.of_nat lo) (Z.of_nat hi + 1)))) by (rewrite map_length; lia).
    rewrite (map_nth (fun r => qsum (py_slice r (Z.of_nat lo) (Z.of_nat hi + 1)))).
    rewrite py_slice_range, qsum_slice; [reflexivity|..];
      (rewrite C3; [assumption|]; apply nth_In; lia).
Qed.
Lemma total_sumn m : consistent m ->
  total m = sumn (length (Ex m)) (fun i => sumn (length (Eg m)) (fun j => aget (values m) i j)).
Proof.
  intros [(C1 & C2 & C3) _]. unfold total, msum. rewrite qsum_nth, map_length, C2. apply sumn_ext. intros i Hi.
  unfold vget. rewrite (nth_indep _ 0 (qsum [])) by (rewrite map_length; lia). rewrite map_nth.
  rewrite qsum_nth. rewrite C3 by (apply nth_In; lia). apply sumn_ext. intros j Hj. reflexivity.
Qed.
Lemma projection_total_lemma m ax ax' : consistent m -> to_plot_axis ax = Ok ax' -> ax' <> AxBoth ->
  Ex m <> [] -> Eg m <> [] ->
  exists p e, projection m ax None None false = Ok (p, e) /\ qsum p = total m.
Proof.
  intros C A Hb H1 H2. rewrite (total_sumn m C).
  destruct C as [(C1 & C2 & C3) _]. unfold projection. rewrite A. cbn [rbind].
  destruct ax'; [| |contradiction].
  - replace (proj_bounds (Ex m) None None) with (Ok (Z.of_nat 0, Z.of_nat (length (Ex m) - 1))).
    2:{ destruct (Ex m); [contradiction|]. unfold proj_bounds. cbn [rbind]. do 2 f_equal. cbn [length]. lia. }
    cbn [rbind slice_rows a_nc a_rows]. eexists. eexists. split; [reflexivity|]. rewrite qsum_tab, C1, sumn_swap.
    apply sumn_ext. intros j Hj.
    assert (Hne : length (Ex m) <> 0%nat) by (destruct (Ex m); [contradiction|discriminate]).
    rewrite py_slice_range, col_slice, qsum_slice by (unfold col; rewrite ?map_length; lia).
    + unfold sum_between. assert (length (Ex m) <> 0)%nat by (destruct (Ex m); [contradiction|discriminate]).
      replace (S (length (Ex m) - 1) - 0)%nat with (length (Ex m)) by lia. apply sumn_ext. intros i Hi. apply vget_col. lia.
  - replace (proj_bounds (Eg m) None None) with (Ok (Z.of_nat 0, Z.of_nat (length (Eg m) - 1))).
    2:{ destruct (Eg m); [contradiction|]. unfold proj_bounds. cbn [rbind]. do 2 f_equal. cbn [length]. lia. }
    cbn [rbind slice_cols a_nc a_rows]. eexists. eexists. split; [reflexivity|].
    rewrite map_map, qsum_nth, map_length, C2. apply sumn_ext. intros i Hi. unfold vget at 1.
    rewrite (nth_indep _ 0 (qsum (py_slice [] (Z.of_nat 0) (Z.of_nat (length (Eg m) - 1) + 1)))) by (rewrite map_length; lia).
    rewrite (map_nth (fun r => qsum (py_slice r (Z.of_nat 0) (Z.of_nat (length (Eg m) - 1) + 1)))).
    assert (length (Eg m) <> 0)%nat by (destruct (Eg m); [contradiction|discriminate]).
    assert (Lr : length (nth i (a_rows (values m)) []) = length (Eg m)) by (apply C3, nth_In; lia).
    rewrite py_slice_range, qsum_slice by lia.
    unfold sum_between. replace (S (length (Eg m) - 1) - 0)%nat with (length (Eg m)) by lia. reflexivity.
Qed.

(* --- fill --- *)
Lemma upd_length {A} (l : list A) i x : length (upd l i x) = length l.
Proof. revert i. induction l; intros [|i]; cbn; auto. Qed.
Lemma nth_upd {A} (l : list A) i x k d : (i < length l)%nat ->
  nth k (upd l i x) d = if Nat.eqb k i then x else nth k l d.
Proof.
  revert i k. induction l as [|y l IH]; intros i k H; cbn in H; [lia|].
  destruct i as [|i], k as [|k]; cbn; try reflexivity. apply IH. lia.
Qed.
Lemma upd_out {A} (l : list A) i x : (length l <= i)%nat -> upd l i x = l.
Proof.
  revert i. induction l as [|y l IH]; intros i H; [reflexivity|]. destruct i; cbn in *; [lia|]. f_equal. apply IH. lia.
Qed.
Lemma in_upd {A} (l : list A) i x y : In y (upd l i x) -> y = x \/ In y l.
Proof.
  revert i. induction l as [|z l IH]; intros [|i]; cbn; try tauto.
  - intros [<-|H]; auto.
  - intros [<-|H]; auto. apply IH in H. tauto.
Qed.
Lemma add_at_get rows i j c nr nc a b : rect rows nr nc -> (i < nr)%nat -> (j < nc)%nat -> (a < nr)%nat -> (b < nc)%nat ->
  mget (add_at rows i j c) a b = mget rows a b + (if Nat.eqb a i && Nat.eqb b j then c else 0).
Proof.
  intros [R1 R2] Hi Hj Ha Hb. unfold mget, add_at. rewrite nth_upd by lia.
  destruct (Nat.eqb_spec a i) as [->|N]; cbn; [|ring].
  unfold vget at 1. rewrite nth_upd by (rewrite R2; [lia|apply nth_In; lia]).
  destruct (Nat.eqb_spec b j) as [->|N]; [reflexivity|]. unfold vget. ring.
Qed.
Lemma add_at_rect rows i j c nr nc : rect rows nr nc -> rect (add_at rows i j c) nr nc.
Proof.
  intros [R1 R2]. unfold add_at. split; [now rewrite upd_length|]. intros r Hr.
  destruct (Nat.lt_ge_cases i (length rows)) as [H|H].
  - apply in_upd in Hr as [->|Hr]; [|auto]. rewrite upd_length. apply R2, nth_In, H.
  - rewrite upd_out in Hr by assumption. auto.
Qed.
Lemma fill_lemma m eg ex c : consistent m -> Eg m <> [] -> Ex m <> [] -> nondecreasing (Eg m) -> nondecreasing (Ex m) ->
  exists i j m', nearest (Ex m) ex i /\ nearest (Eg m) eg j /\ fill m eg ex c = Ok m' /\ consistent m' /\
    Eg m' = Eg m /\ Ex m' = Ex m /\ std m' = std m /\ state m' = state m /\
    (forall a b, (a < length (Ex m))%nat -> (b < length (Eg m))%nat ->
       aget (values m') a b = aget (values m) a b + (if Nat.eqb a i && Nat.eqb b j then c else 0)).
Proof.
  intros C H1 H2 S1 S2. pose proof C as [(C1 & C2 & C3) C4].
  assert (Ni := index_nearest_lemma (Ex m) ex H2 S2). assert (Nj := index_nearest_lemma (Eg m) eg H1 S1).
  assert (Hi := proj1 Ni). assert (Hj := proj1 Nj).
  exists (index (Ex m) ex), (index (Eg m) eg). eexists. split; [exact Ni|]. split; [exact Nj|].
  unfold fill. unfold a_nr. rewrite C1, C2. rewrite (proj2 (Nat.ltb_lt _ _) Hi), (proj2 (Nat.ltb_lt _ _) Hj). cbn [andb].
  split; [reflexivity|]. cbn.
  assert (R : rect (a_rows (values m)) (length (Ex m)) (length (Eg m))) by (split; assumption).
  split; [|split; [reflexivity|split; [reflexivity|split; [reflexivity|split; [reflexivity|]]]]].
  - split; [|exact C4]. unfold shaped. cbn. split; [reflexivity|]. apply (add_at_rect _ _ _ _ _ _ R).
  - intros a b Ha Hb. unfold aget. cbn [with_values values a_rows]. now apply (add_at_get _ _ _ _ _ _ _ _ R).
Qed.
Lemma sumn_delta n k c : (k < n)%nat -> sumn n (fun a => if Nat.eqb a k then c else 0) = c.
Proof.
  intros H. rewrite (sumn_single n _ k H).
  - now rewrite Nat.eqb_refl.
  - intros i _ N. now rewrite (proj2 (Nat.eqb_neq _ _) N).
Qed.
Lemma fill_total_lemma m eg ex c m' : consistent m -> Eg m <> [] -> Ex m <> [] ->
  nondecreasing (Eg m) -> nondecreasing (Ex m) -> fill m eg ex c = Ok m' -> total m' = total m + c.
Proof.
  intros C H1 H2 S1 S2 F. destruct (fill_lemma m eg ex c C H1 H2 S1 S2) as (i & j & m2 & Ni & Nj & F2 & C' & EG & EX & _ & _ & H).
  assert (m2 = m') by congruence. subst m2. rewrite (total_sumn m C), (total_sumn m' C'), EG, EX.
  rewrite (sumn_ext _ _ (fun a => sumn (length (Eg m)) (fun b => aget (values m) a b) + (if Nat.eqb a i then c else 0))).
  - rewrite sumn_add, sumn_delta; [reflexivity|]. apply (proj1 Ni).
  - intros a Ha. rewrite (sumn_ext _ _ (fun b => aget (values m) a b + (if Nat.eqb a i && Nat.eqb b j then c else 0))).
    + rewrite sumn_add. f_equal. destruct (Nat.eqb a i); cbn [andb].
      * apply sumn_delta. apply (proj1 Nj).
      * now apply sumn_0.
    + intros b Hb. now apply H.
Qed.
(* histories of fill *)
Lemma arr_ext a b nr nc : shaped a nr nc -> shaped b nr nc ->
  (forall i j, (i < nr)%nat -> (j < nc)%nat -> aget a i j = aget b i j) -> a = b.
Proof.
  destruct a as [na ra], b as [nb rb]. unfold shaped, aget, mget. cbn. intros (A1 & A2 & A3) (B1 & B2 & B3) H. f_equal; [congruence|].
  apply (list_eq_nth _ _ []); [congruence|]. intros i Hi.
  assert (L1 : length (nth i ra []) = nc) by (apply A3, nth_In; lia).
  assert (L2 : length (nth i rb []) = nc) by (apply B3, nth_In; lia).
  apply (list_eq_nth _ _ 0); [congruence|]. intros j Hj. apply H; lia.
Qed.
Lemma fills_lemma es m : consistent m -> Eg m <> [] -> Ex m <> [] -> nondecreasing (Eg m) -> nondecreasing (Ex m) ->
  exists m', fills m es = Ok m' /\ consistent m' /\ Eg m' = Eg m /\ Ex m' = Ex m /\ std m' = std m /\ state m' = state m /\
  forall a b, (a < length (Ex m))%nat -> (b < length (Eg m))%nat ->
    aget (values m') a b = aget (values m) a b +
      qsum (map (fun e => if Nat.eqb a (index (Ex m) (snd (fst e))) && Nat.eqb b (index (Eg m) (fst (fst e))) then snd e else 0) es).
Proof.
  revert m. induction es as [|[[eg ex] c] es IH]; intros m C H1 H2 S1 S2.
  - exists m. split; [reflexivity|]. split; [exact C|]. do 4 (split; [reflexivity|]). intros. cbn. ring.
  - destruct (fill_lemma m eg ex c C H1 H2 S1 S2) as (i & j & m1 & Ni & Nj & F & C' & EG & EX & ES & ET & H).
    destruct (IH m1 C') as (m' & F' & C'' & EG' & EX' & ES' & ET' & H'); try congruence.
    exists m'. cbn [fills]. rewrite F. cbn [rbind]. split; [exact F'|]. split; [exact C''|].
    do 4 (split; [congruence|]). intros a b Ha Hb. rewrite H' by (rewrite ?EX, ?EG; assumption). rewrite H by assumption.
    rewrite EX, EG. cbn [map qsum fst snd].
    assert (Ei : i = index (Ex m) ex) by (apply (nearest_unique (Ex m) ex); [exact Ni|now apply index_nearest_lemma]).
    assert (Ej : j = index (Eg m) eg) by (apply (nearest_unique (Eg m) eg); [exact Nj|now apply index_nearest_lemma]).
    rewrite <- Ei, <- Ej. ring.
Qed.
Lemma fills_perm_lemma es es' m : Permutation es es' -> consistent m -> Eg m <> [] -> Ex m <> [] ->
  nondecreasing (Eg m) -> nondecreasing (Ex m) -> exists m', fills m es = Ok m' /\ fills m es' = Ok m'.
Proof.
  intros P C H1 H2 S1 S2.
  destruct (fills_lemma es m C H1 H2 S1 S2) as (m1 & F1 & (C1 & _) & EG1 & EX1 & ES1 & ET1 & G1).
  destruct (fills_lemma es' m C H1 H2 S1 S2) as (m2 & F2 & (C2 & _) & EG2 & EX2 & ES2 & ET2 & G2).
  exists m1. split; [exact F1|]. rewrite F2. f_equal.
  destruct m1 as [v1 g1 x1 s1 t1], m2 as [v2 g2 x2 s2 t2]. cbn in *. subst. f_equal.
  apply (arr_ext _ _ _ _ C2 C1). intros i j Hi Hj. rewrite G1, G2 by assumption. f_equal.
  symmetry. apply qsum_perm, Permutation_map, P.
Qed.

(* --- diagonal cut --- *)
Lemma mtab_shaped nr nc f : shaped (mkArr nc (mtab nr nc f)) nr nc.
Proof.
  unfold shaped, mtab. cbn. split; [reflexivity|]. split; [apply tab_length|]. intros r Hr.
  apply in_tab in Hr as (i & _ & ->). apply tab_length.
Qed.
Lemma mtab_get nr nc f i j : (i < nr)%nat -> (j < nc)%nat -> mget (mtab nr nc f) i j = f i j.
Proof. intros Hi Hj. unfold mget, mtab, vget. rewrite nth_tab by assumption. now rewrite nth_tab. Qed.
Lemma line_below x0 y0 x1 y1 c r : x1 <> x0 ->
  qltb r ((y1 - y0) / (x1 - x0) * c + (y0 - (y1 - y0) / (x1 - x0) * x0)) = true <->
  below_line (x0, y0) (x1, y1) c r.
Proof.
  intros H. assert (D : x1 - x0 <> 0). { intros E. apply H. replace x1 with (x1 - x0 + x0) by ring. rewrite E. ring. }
  rewrite qltb_lt. unfold below_line. cbn.
  assert (E : ((y1 - y0) / (x1 - x0) * c + (y0 - (y1 - y0) / (x1 - x0) * x0) - y0) * (x1 - x0) = (y1 - y0) * (c - x0)).
  { field. exact D. }
  split.
  - intros L. eexists. split; [exact E|exact L].
  - intros (y & Ey & L). rewrite <- E in Ey.
    assert (y - y0 = (y1 - y0) / (x1 - x0) * c + (y0 - (y1 - y0) / (x1 - x0) * x0) - y0).
    { apply (f_equal (fun z => z / (x1 - x0))) in Ey. unfold Qcdiv in Ey at 1 2.
      rewrite <- !Qcmult_assoc, Qcmult_inv_r, !Qcmult_1_r in Ey by assumption. exact Ey. }
    assert (y = (y1 - y0) / (x1 - x0) * c + (y0 - (y1 - y0) / (x1 - x0) * x0)).
    { replace y with (y - y0 + y0) by ring. rewrite H0. ring. }
    congruence.
Qed.
Lemma qnat_inj a b : qnat a = qnat b -> a = b.
Proof. intros H. unfold qnat in H. apply qz_inj in H. lia. Qed.
Definition bin_pt (m : matrix) (p : Qc * Qc) : Qc * Qc :=
  (qnat (index (Eg m) (fst p)), qnat (index (Ex m) (snd p))).
Lemma cut_diagonal_lemma m p q : consistent m -> index (Eg m) (fst p) <> index (Eg m) (fst q) ->
  exists m', cut_diagonal m (Some p) (Some q) = Ok m' /\ consistent m' /\
    Eg m' = Eg m /\ Ex m' = Ex m /\ std m' = std m /\ state m' = state m /\
    (forall i j, (i < length (Ex m))%nat -> (j < length (Eg m))%nat ->
      (below_line (bin_pt m p) (bin_pt m q) (qnat j) (qnat i) -> aget (values m') i j = 0) /\
      (~ below_line (bin_pt m p) (bin_pt m q) (qnat j) (qnat i) -> aget (values m') i j = aget (values m) i j)) /\
    cut_diagonal m' (Some p) (Some q) = Ok m'.
Proof.
  intros C H. pose proof C as [(C1 & C2 & C3) C4].
  unfold cut_diagonal at 1. unfold line_mask, line_coeffs.
  rewrite (proj2 (Nat.eqb_neq _ _) (not_eq_sym H)). cbn [rbind].
  assert (SH : pair_eqb (shape (values m)) (length (Ex m), length (Eg m)) = true).
  { unfold shape, a_nr. rewrite C1, C2. unfold pair_eqb. cbn. now rewrite !Nat.eqb_refl. }
  rewrite SH.
  set (mask := fun r c : nat => qltb (qnat r) _).
  assert (MB : forall i j, mask i j = true <-> below_line (bin_pt m p) (bin_pt m q) (qnat j) (qnat i)).
  { intros i j. unfold mask. apply line_below. cbn. intros E. apply qnat_inj in E. congruence. }
  assert (G : forall v i j, shaped v (length (Ex m)) (length (Eg m)) -> (i < length (Ex m))%nat -> (j < length (Eg m))%nat ->
     aget (mask_zero mask v) i j = if mask i j then 0 else aget v i j).
  { intros v i j (V1 & V2 & _) Hi Hj. unfold mask_zero, aget at 1. cbn [a_rows]. apply mtab_get; unfold a_nr; lia. }
  assert (SHP : forall v, shaped v (length (Ex m)) (length (Eg m)) -> shaped (mask_zero mask v) (length (Ex m)) (length (Eg m))).
  { intros v (V1 & V2 & _). unfold mask_zero, a_nr. rewrite V1, V2. apply mtab_shaped. }
  assert (SV : shaped (values m) (length (Ex m)) (length (Eg m))) by (repeat split; assumption).
  exists (with_values m (mask_zero mask (values m))). split; [reflexivity|].
  cbn [with_values values Eg Ex std state].
  split; [split; [now apply SHP|exact C4]|]. do 4 (split; [reflexivity|]). split.
  - intros i j Hi Hj. rewrite G by assumption. pose proof (MB i j) as MB'.
    split; intros B; destruct (mask i j); try reflexivity; [|exfalso; apply B]; intuition congruence.
  - unfold cut_diagonal, line_mask, line_coeffs. cbn [with_values Eg Ex values].
    rewrite (proj2 (Nat.eqb_neq _ _) (not_eq_sym H)). cbn [rbind]. fold mask.
    pose proof (SHP _ SV) as (S1 & S2 & _). unfold shape, a_nr. rewrite S1, S2.
    unfold pair_eqb. cbn [fst snd]. rewrite !Nat.eqb_refl. cbn [andb]. f_equal. unfold with_values. cbn. f_equal.
    apply (arr_ext _ _ (length (Ex m)) (length (Eg m))); [now apply SHP, SHP|now apply SHP|].
    intros i j Hi Hj. rewrite !G by auto. now destruct (mask i j).
Qed.
Lemma cut_diagonal_err m p q :
  cut_diagonal m None q = Raise ValueError /\ cut_diagonal m p None = Raise ValueError /\
  (forall a b, index (Eg m) (fst a) = index (Eg m) (fst b) -> cut_diagonal m (Some a) (Some b) = Raise AssertionError).
Proof.
  split; [reflexivity|]. split; [destruct p; reflexivity|]. intros a b H.
  unfold cut_diagonal, line_mask, line_coeffs. now rewrite H, Nat.eqb_refl.
Qed.

(* --- diagonal elements --- *)
Lemma first_nonzero_spec r j k : first_nonzero j r = Some k <->
  (j <= k)%nat /\ (k - j < length r)%nat /\ vget r (k - j) <> 0 /\ forall i, (i < k - j)%nat -> vget r i = 0.
Proof.
  revert j. induction r as [|x r IH]; intros j; cbn [first_nonzero].
  - split; [discriminate|]. cbn. lia.
  - destruct (qeqb_spec x 0) as [H|H].
    + rewrite IH. split.
      * intros (H1 & H2 & H3 & H4). split; [lia|]. split; [cbn; lia|].
        replace (k - j)%nat with (S (k - S j)) by lia. split; [exact H3|].
        intros [|i] Hi; [exact H|]. apply H4. lia.
      * intros (H1 & H2 & H3 & H4). assert (k <> j). { intros ->. rewrite Nat.sub_diag in H3. apply H3, H. }
        cbn in H2. replace (k - j)%nat with (S (k - S j)) in * by lia.
        split; [lia|]. split; [lia|]. split; [exact H3|]. intros i Hi. apply (H4 (S i)). lia.
    + split.
      * intros [= <-]. rewrite Nat.sub_diag. split; [lia|]. split; [cbn; lia|]. split; [exact H|]. lia.
      * intros (H1 & H2 & H3 & H4). f_equal. destruct (Nat.eq_dec j k) as [|N]; [assumption|].
        exfalso. apply H. apply (H4 0%nat). lia.
Qed.
Lemma first_nonzero_rev r k : first_nonzero 0 (rev r) = Some k <-> last_nonzero r (length r - S k) /\ (k < length r)%nat.
Proof.
  rewrite first_nonzero_spec, Nat.sub_0_r, rev_length. unfold last_nonzero. split.
  - intros (_ & H2 & H3 & H4). split; [|exact H2]. split; [lia|].
    split. { unfold vget in *. now rewrite rev_nth in H3. }
    intros i Hi. specialize (H4 (length r - S i)%nat ltac:(lia)). unfold vget in *. rewrite rev_nth in H4 by lia.
    now replace (length r - S (length r - S i))%nat with i in H4 by lia.
  - intros ((H1 & H2 & H3) & H4). split; [lia|]. split; [exact H4|]. unfold vget in *. split; [now rewrite rev_nth|].
    intros i Hi. rewrite rev_nth by lia. apply H3. lia.
Qed.
Lemma diag_rows_in ny rows i0 i j : (forall r, In r rows -> length r = ny) ->
  In (i, j) (diag_rows ny i0 rows) <->
  (i0 <= i)%nat /\ (i - i0 < length rows)%nat /\ (0 < j <= ny)%nat /\ last_nonzero (nth (i - i0) rows []) (j - 1).
Proof.
  revert i0. induction rows as [|r rows IH]; intros i0 L.
  - cbn. split; [tauto|lia].
  - assert (Lr : length r = ny) by (apply L; now left).
    assert (IH' := IH (S i0) (fun r' Hr => L r' (or_intror Hr))).
    assert (Tail : In (i, j) (diag_rows ny (S i0) rows) <->
      (i0 < i)%nat /\ (i - i0 < S (length rows))%nat /\ (0 < j <= ny)%nat /\ last_nonzero (nth (i - i0) (r :: rows) []) (j - 1)).
    { rewrite IH'. split.
      - intros (H1 & H2 & H3 & H4). split; [lia|]. split; [lia|]. split; [lia|].
        replace (i - i0)%nat with (S (i - S i0)) by lia. exact H4.
      - intros (H1 & H2 & H3 & H4). replace (i - i0)%nat with (S (i - S i0)) in * by lia. repeat split; try lia. 1:exact (proj1 H4). all: apply (proj2 H4). }
    cbn [diag_rows]. destruct (first_nonzero 0 (rev r)) as [k|] eqn:E.
    + apply first_nonzero_rev in E as [E1 E2]. cbn [In]. rewrite Tail. split.
      * intros [[= <- <-]|(H1 & H2 & H3 & H4)].
        -- rewrite Nat.sub_diag. cbn. split; [lia|]. split; [lia|]. split; [lia|]. rewrite <- Lr.
           now replace (length r - k - 1)%nat with (length r - S k)%nat by lia.
        -- cbn [length]. split; [lia|]. tauto.
      * intros (H1 & H2 & H3 & H4). destruct (Nat.eq_dec i i0) as [->|N].
        -- left. rewrite Nat.sub_diag in H4. cbn in H4. f_equal.
           destruct E1 as (A1 & A2 & A3), H4 as (B1 & B2 & B3).
           destruct (Nat.lt_trichotomy (length r - S k) (j - 1)) as [T|[T|T]]; [|lia|].
           ++ exfalso. apply B2, A3. lia.
           ++ exfalso. apply A2, B3. lia.
        -- right. cbn [length] in H2. split; [lia|]. tauto.
    + rewrite Tail. cbn [length]. split; [intros (H1 & ?); split; [lia|assumption]|].
      intros (H1 & H2 & H3 & H4). destruct (Nat.eq_dec i i0) as [->|N]; [|split; [lia|tauto]].
      exfalso. rewrite Nat.sub_diag in H4. cbn in H4.
      assert (X : first_nonzero 0 (rev r) = Some (length r - j)%nat).
      { apply first_nonzero_rev. split; [|lia]. now replace (length r - S (length r - j))%nat with (j - 1)%nat by lia. }
      congruence.
Qed.
Lemma diag_rows_sorted ny rows i0 : Sorted.StronglySorted lt (map fst (diag_rows ny i0 rows)) /\
  forall i, In i (map fst (diag_rows ny i0 rows)) -> (i0 <= i)%nat.
Proof.
  revert i0. induction rows as [|r rows IH]; intros i0; cbn [diag_rows].
  - split; [constructor|intros i []].
  - destruct (IH (S i0)) as [S1 S2]. destruct (first_nonzero 0 (rev r)) as [k|].
    + cbn. split.
      * constructor; [assumption|]. apply Forall_forall. intros i Hi. apply S2 in Hi. lia.
      * intros i [<-|Hi]; [lia|]. apply S2 in Hi. lia.
    + split; [assumption|]. intros i Hi. apply S2 in Hi. lia.
Qed.
