(* Lemmas on the unfolding iteration. *)
From Verif Require Import PyBase Axis RebinModel RebinProofs Rebin2DProofs MatrixModel MatrixSpec MatrixOpsProofs VectorModel VectorSpec VectorProofs VectorOpsProofs ArithModel ArithSpec ArithProofs
  FillProofs SmoothModel SmoothSpec SmoothProofs UnfoldModel UnfoldSpec.

Lemma matprod_shaped a b nr n nc : shaped a nr n -> shaped b n nc -> shaped (matprod a b) nr nc.
Proof.
  intros (A1 & A2 & A3) (B1 & B2 & B3). unfold matprod, shaped. cbn. split; [exact B1|]. split; [now rewrite map_length|].
  intros r Hr. apply in_map_iff in Hr as (x & <- & _). now rewrite tab_length.
Qed.
Lemma matprod_get a b nr n nc i j : shaped a nr n -> shaped b n nc -> (i < nr)%nat -> (j < nc)%nat ->
  aget (matprod a b) i j = sumn n (fun l => aget a i l * aget b l j).
Proof.
  intros (A1 & A2 & A3) (B1 & B2 & B3) Hi Hj. unfold aget at 1, mget, matprod. cbn [a_rows].
  rewrite (map_nth_in _ _ _ []) by lia. unfold vget. rewrite nth_tab by lia.
  assert (L : length (nth i (a_rows a) []) = n) by (apply A3, nth_In; lia).
  rewrite dot_sumn; [|unfold col; rewrite map_length; congruence]. rewrite L. apply sumn_ext. intros l Hl.
  now rewrite col_get.
Qed.
Lemma azip_shaped f a b nr n : shaped a nr n -> shaped b nr n -> shaped (azip f a b) nr n.
Proof.
  intros (A1 & A2 & A3) (B1 & B2 & B3). unfold azip, zip2, shaped. cbn [a_nc a_rows]. split; [exact A1|].
  rewrite map2_length by congruence. split; [exact A2|]. intros r Hr. unfold map2 in Hr at 1. apply in_map_iff in Hr as ([x y] & <- & Hr).
  cbn [fst snd]. rewrite map2_length; [apply A3; now apply in_combine_l in Hr|]. rewrite A3, B3; [reflexivity|now apply in_combine_r in Hr|now apply in_combine_l in Hr].
Qed.
Lemma azip_get f a b nr n i j : shaped a nr n -> shaped b nr n -> (i < nr)%nat -> (j < n)%nat ->
  aget (azip f a b) i j = f (aget a i j) (aget b i j).
Proof.
  intros (A1 & A2 & A3) (B1 & B2 & B3) Hi Hj. unfold aget, mget, azip, zip2, vget. cbn [a_rows].
  assert (LA : length (nth i (a_rows a) []) = n) by (apply A3, nth_In; lia).
  assert (LB : length (nth i (a_rows b) []) = n) by (apply B3, nth_In; lia).
  rewrite (map2_nth _ _ _ _ [] []) by lia. now rewrite (map2_nth _ _ _ _ 0 0) by lia.
Qed.

(* closed form of the k-th pair *)
Fixpoint ustate (r R : arr2) (k : nat) : arr2 * arr2 :=
  match k with
  | O => (r, matprod r R)
  | S k' => let p := ustate r R k' in
            let u' := azip Qcplus (fst p) (azip Qcminus r (snd p)) in (u', matprod u' R)
  end.
Lemma iterates_nth r R n : forall k0 j d, (j < n)%nat ->
  nth j (iterates r R n (S k0) (fst (ustate r R k0)) (snd (ustate r R k0))) d = ustate r R (S k0 + j).
Proof.
  induction n as [|n IH]; intros k0 j d Hj; [lia|]. cbn [iterates].
  assert (E : step r R (fst (ustate r R k0)) (snd (ustate r R k0)) (S k0) = ustate r R (S k0)) by reflexivity.
  cbv zeta. rewrite E. destruct j as [|j]; cbn [nth].
  - now rewrite Nat.add_0_r.
  - rewrite IH by lia. f_equal. lia.
Qed.
Lemma cube_nth r R n k d : (k < n)%nat -> nth k (unfold_cube r R n) d = ustate r R k.
Proof.
  intros H. unfold unfold_cube. destruct n as [|n]; [lia|]. cbn [iterates]. cbv zeta.
  change (step r R r (amap (fun _ => 0) r) 0) with (ustate r R 0).
  destruct k as [|k]; [reflexivity|]. cbn [nth]. rewrite iterates_nth by lia. reflexivity.
Qed.
Lemma iterates_length r R n : forall k u f, length (iterates r R n k u f) = n.
Proof. induction n; intros; cbn; [reflexivity|]. now rewrite IHn. Qed.
Lemma cube_length r R n : length (unfold_cube r R n) = n.
Proof. apply iterates_length. Qed.

Section I.
Variables (r R : arr2) (nr n : nat).
Hypothesis Sr : shaped r nr n.
Hypothesis SR : shaped R n n.
Let u k := fst (ustate r R k).
Let f k := snd (ustate r R k).
Let A := id_minus (aget R).

Lemma ustate_shaped k : shaped (u k) nr n /\ shaped (f k) nr n.
Proof.
  induction k as [|k [IH1 IH2]].
  - split; [exact Sr|]. now apply (matprod_shaped r R nr n n).
  - assert (S1 : shaped (u (S k)) nr n) by (apply azip_shaped; [exact IH1|]; now apply azip_shaped).
    split; [exact S1|]. now apply (matprod_shaped (u (S k)) R nr n n).
Qed.
Lemma f_get k i j : (i < nr)%nat -> (j < n)%nat -> aget (f k) i j = sumn n (fun l => aget (u k) i l * aget R l j).
Proof.
  intros Hi Hj. assert (E : f k = matprod (u k) R) by (destruct k; reflexivity). rewrite E.
  apply (matprod_get _ _ nr n n); auto. apply ustate_shaped.
Qed.
Lemma u_S k i j : (i < nr)%nat -> (j < n)%nat -> aget (u (S k)) i j = aget (u k) i j + (aget r i j - aget (f k) i j).
Proof.
  intros Hi Hj. destruct (ustate_shaped k) as [S1 S2].
  change (u (S k)) with (azip Qcplus (u k) (azip Qcminus r (f k))).
  rewrite (azip_get _ _ _ nr n) by (auto using azip_shaped). now rewrite (azip_get _ _ _ nr n) by auto.
Qed.
Lemma sumn_id_r m g j : (j < m)%nat -> sumn m (fun l => g l * idm l j) = g j.
Proof.
  intros H. rewrite (sumn_single _ _ j).
  - unfold idm. rewrite Nat.eqb_refl. ring.
  - exact H.
  - intros i Hi N. unfold idm. destruct (Nat.eqb_spec i j); [contradiction|]. ring.
Qed.
Lemma sub_mul g j : (j < n)%nat -> g j - sumn n (fun l => g l * aget R l j) = sumn n (fun l => g l * A l j).
Proof.
  intros H. rewrite <- (sumn_id_r n g j H) at 1. rewrite <- sumn_sub. apply sumn_ext. intros l Hl. unfold A, id_minus. ring.
Qed.
Lemma residual k i j : (i < nr)%nat -> (j < n)%nat ->
  aget r i j - aget (f k) i j = sumn n (fun l => aget r i l * mpow n A (S k) l j).
Proof.
  intros Hi. revert j. induction k as [|k IH]; intros j Hj.
  - rewrite f_get by assumption. change (u 0) with r. rewrite (sub_mul (fun l => aget r i l)) by assumption.
    apply sumn_ext. intros l Hl. f_equal. cbn [mpow]. unfold mmul. symmetry.
    rewrite (sumn_single _ _ l Hl); [unfold idm; rewrite Nat.eqb_refl; ring|]. intros m Hm N. unfold idm.
    destruct (Nat.eqb_spec l m); [congruence|ring].
  - rewrite f_get by assumption.
    rewrite (sumn_ext n _ (fun l => aget (u k) i l * aget R l j + (aget r i l - aget (f k) i l) * aget R l j)).
    2:{ intros l Hl. rewrite u_S by assumption. ring. }
    rewrite sumn_add, <- f_get by assumption.
    transitivity ((aget r i j - aget (f k) i j) - sumn n (fun l => (aget r i l - aget (f k) i l) * aget R l j)); [ring|].
    rewrite (sub_mul (fun l => aget r i l - aget (f k) i l)) by assumption.
    rewrite (sumn_ext n _ (fun l => sumn n (fun m => aget r i m * (mpow n A (S k) m l * A l j)))).
    2:{ intros l Hl. rewrite IH by assumption. rewrite <- sumn_scal_r. apply sumn_ext. intros; ring. }
    rewrite sumn_swap. apply sumn_ext. intros m Hm. rewrite sumn_scal. reflexivity.
Qed.
Lemma closed_form k i j : (i < nr)%nat -> (j < n)%nat ->
  aget (u k) i j = sumn n (fun l => aget r i l * geometric n A k l j).
Proof.
  intros Hi Hj. induction k as [|k IH].
  - change (u 0) with r. symmetry. rewrite <- (sumn_id_r n (fun l => aget r i l) j Hj). apply sumn_ext. intros l Hl.
    unfold geometric. cbn. ring.
  - rewrite u_S by assumption. rewrite IH, residual by assumption. rewrite <- sumn_add. apply sumn_ext. intros l Hl.
    unfold geometric. cbn [sumn]. ring.
Qed.
Lemma fixed_point k m i : (i < nr)%nat -> (forall j, (j < n)%nat -> aget (f k) i j = aget r i j) ->
  forall j, (j < n)%nat -> aget (u (k + m)) i j = aget (u k) i j /\ aget (f (k + m)) i j = aget r i j.
Proof.
  intros Hi H. induction m as [|m IH]; intros j Hj.
  - rewrite Nat.add_0_r. auto.
  - rewrite Nat.add_succ_r. assert (E : forall l, (l < n)%nat -> aget (u (S (k + m))) i l = aget (u k) i l).
    { intros l Hl. rewrite u_S by assumption. destruct (IH l Hl) as [-> ->]. ring. }
    split; [now apply E|]. rewrite f_get by assumption. rewrite <- (H j Hj), f_get by assumption. apply sumn_ext. intros l Hl. now rewrite E.
Qed.
Lemma identity_response k i j : (forall a b, (a < n)%nat -> (b < n)%nat -> aget R a b = idm a b) ->
  (i < nr)%nat -> (j < n)%nat -> aget (u k) i j = aget r i j.
Proof.
  intros HR Hi Hj. apply (fixed_point 0 k i Hi); [|exact Hj]. intros l Hl. rewrite f_get by assumption.
  rewrite (sumn_ext n _ (fun m => aget (u 0) i m * idm m l)) by (intros; now rewrite HR).
  now apply sumn_id_r with (g := fun m => aget (u 0) i m).
Qed.
Lemma fold_counts k i : row_stochastic n (aget R) -> (i < nr)%nat ->
  sumn n (aget (f k) i) = sumn n (aget (u k) i).
Proof.
  intros HR Hi. rewrite (sumn_ext n _ (fun j => sumn n (fun l => aget (u k) i l * aget R l j))) by (intros; now apply f_get).
  rewrite sumn_swap. apply sumn_ext. intros l Hl. rewrite sumn_scal, HR by assumption. ring.
Qed.
Lemma counts_kept k i : row_stochastic n (aget R) -> (i < nr)%nat -> sumn n (aget (u k) i) = sumn n (aget r i).
Proof.
  intros HR Hi. induction k as [|k IH]; [reflexivity|].
  rewrite (sumn_ext n _ (fun j => aget (u k) i j + (aget r i j - aget (f k) i j))) by (intros; now apply u_S).
  rewrite sumn_add, sumn_sub, fold_counts, IH by assumption. ring.
Qed.
End I.

Lemma mpow_ext n A B k i j : (forall a b, (a < n)%nat -> (b < n)%nat -> A a b = B a b) -> (i < n)%nat -> (j < n)%nat ->
  mpow n A k i j = mpow n B k i j.
Proof.
  intros H Hi. revert j. induction k as [|k IH]; intros j Hj; [reflexivity|]. cbn [mpow]. unfold mmul. apply sumn_ext. intros l Hl.
  rewrite IH by assumption. now rewrite H.
Qed.
(* each row on its own *)
Lemma rows_independent r r' R nr nr' n i i' k j : shaped r nr n -> shaped r' nr' n -> shaped R n n ->
  (i < nr)%nat -> (i' < nr')%nat -> (forall l, (l < n)%nat -> aget r i l = aget r' i' l) -> (j < n)%nat ->
  aget (fst (ustate r R k)) i j = aget (fst (ustate r' R k)) i' j.
Proof.
  intros Sr Sr' SR Hi Hi' H Hj. rewrite (closed_form r R nr n Sr SR), (closed_form r' R nr' n Sr' SR) by assumption.
  apply sumn_ext. intros l Hl. now rewrite H.
Qed.

(* --- selection of the iteration --- *)
Lemma xltb_xlt x y : xltb x y = true <-> xlt x y.
Proof. destruct x, y; cbn; try (split; [discriminate|tauto]); try (split; auto). - now rewrite qltb_lt. - now rewrite qltb_lt. Qed.
Lemma xlt_trans x y z : xlt x y -> xlt y z -> xlt x z.
Proof. destruct x, y, z; cbn; try tauto. intros. qlra. Qed.
Lemma xlt_irrefl x : ~ xlt x x.
Proof. destruct x; cbn; try tauto. qlra. Qed.
Lemma xlt_neg_trans x y z : y <> NaN -> xlt x z -> ~ xlt y z -> xlt x y.
Proof. destruct x, y, z; cbn; try tauto; try congruence. intros. destruct (qltb_spec q0 q1); [tauto|]. qlra. Qed.
Lemma xnlt_trans x y z : y <> NaN -> ~ xlt y x -> ~ xlt z y -> ~ xlt z x.
Proof.
  destruct x, y, z; cbn; try tauto; try congruence. intros _ H1 H2 H.
  destruct (qltb_spec q0 q); [tauto|]. destruct (qltb_spec q1 q0); [tauto|]. qlra.
Qed.
Lemma is_nan x : {x = NaN} + {x <> NaN}. Proof. destruct x; [right|right|right|left]; congruence. Qed.

Lemma argminx_from_lemma l : forall pre b ib,
  ib = (b) -> (b < length pre)%nat -> best pre b ->
  best (pre ++ l) (argminx_from (nth b pre NaN) ib (length pre) l).
Proof.
  induction l as [|x l IH]; intros pre b ib -> Hb HB.
  - rewrite app_nil_r. cbn. destruct (nth b pre NaN); exact HB.
  - cbn [argminx_from]. destruct (is_nan (nth b pre NaN)) as [Nb|Nb].
    + rewrite Nb. destruct HB as [_ [[_ H]|[H _]]]; [|exfalso; now apply (H b)]. split; [rewrite app_length; lia|]. left.
      split; [rewrite app_nth1 by lia; exact Nb|]. intros j Hj. rewrite app_nth1 by lia. now apply H.
    + destruct HB as [_ [[H _]|(H1 & H2 & H3)]]; [congruence|].
      destruct (is_nan x) as [->|Nx].
      * assert (BN : best (pre ++ NaN :: l) (length pre)).
        { split; [rewrite app_length; cbn; lia|]. left. split; [rewrite app_nth2, Nat.sub_diag by lia; reflexivity|].
          intros j Hj. rewrite app_nth1 by lia. now apply H1. }
        destruct (nth b pre NaN); [exact BN..|congruence].
      * assert (G : best (pre ++ [x]) (if xltb x (nth b pre NaN) then length pre else b)).
        { destruct (xltb x (nth b pre NaN)) eqn:C.
          - apply xltb_xlt in C. split; [rewrite app_length; cbn; lia|]. right. rewrite (app_nth2 pre [x] NaN (n := length pre)), Nat.sub_diag by lia. cbn [nth].
            split; [|split].
            + intros j Hj. rewrite app_length in Hj. cbn in Hj. destruct (Nat.eqb_spec j (length pre)) as [->|N].
              * rewrite app_nth2, Nat.sub_diag by lia. exact Nx.
              * rewrite app_nth1 by lia. apply H1. lia.
            + intros j Hj. rewrite app_length in Hj. cbn in Hj. destruct (Nat.eqb_spec j (length pre)) as [->|N].
              * rewrite app_nth2, Nat.sub_diag by lia. apply xlt_irrefl.
              * rewrite app_nth1 by lia. intros K. apply (H2 j); [lia|]. eapply xlt_trans; eassumption.
            + intros j Hj. rewrite app_nth1 by lia. apply xlt_neg_trans with (z := nth b pre NaN); [apply H1; lia|exact C|]. apply H2. lia.
          - assert (C' : ~ xlt x (nth b pre NaN)) by (intros K; apply xltb_xlt in K; congruence).
            split; [rewrite app_length; cbn; lia|]. right. rewrite (app_nth1 pre [x] NaN) by lia.
            split; [|split].
            + intros j Hj. rewrite app_length in Hj. cbn in Hj. destruct (Nat.eqb_spec j (length pre)) as [->|N].
              * rewrite app_nth2, Nat.sub_diag by lia. exact Nx.
              * rewrite app_nth1 by lia. apply H1. lia.
            + intros j Hj. rewrite app_length in Hj. cbn in Hj. destruct (Nat.eqb_spec j (length pre)) as [->|N].
              * rewrite app_nth2, Nat.sub_diag by lia. exact C'.
              * rewrite app_nth1 by lia. apply H2. lia.
            + intros j Hj. rewrite app_nth1 by lia. now apply H3. }
        replace (pre ++ x :: l) with ((pre ++ [x]) ++ l) by (rewrite <- app_assoc; reflexivity).
        specialize (IH (pre ++ [x]) (if xltb x (nth b pre NaN) then length pre else b) _ eq_refl).
        rewrite app_length in IH. cbn [length] in IH. rewrite Nat.add_1_r in IH.
        assert (Q : ((if xltb x (nth b pre NaN) then length pre else b) < S (length pre))%nat) by (destruct (xltb x (nth b pre NaN)); lia).
        specialize (IH Q G).
        replace (match nth b pre NaN with NaN => b | _ => match x with NaN => length pre | _ =>
            if xltb x (nth b pre NaN) then argminx_from x (length pre) (S (length pre)) l
            else argminx_from (nth b pre NaN) b (S (length pre)) l end end)
          with (if xltb x (nth b pre NaN) then argminx_from x (length pre) (S (length pre)) l
            else argminx_from (nth b pre NaN) b (S (length pre)) l) by (destruct (nth b pre NaN), x; congruence).
        destruct (xltb x (nth b pre NaN)).
        -- rewrite app_nth2, Nat.sub_diag in IH by lia. exact IH.
        -- rewrite app_nth1 in IH by lia. exact IH.
Qed.
Lemma argminx_best l : l <> [] -> exists k, argminx l = Ok k /\ best l k.
Proof.
  destruct l as [|x l]; [congruence|]. intros _. exists (argminx_from x 0 1 l). split; [reflexivity|].
  apply (argminx_from_lemma l [x] 0%nat 0%nat eq_refl); [cbn; lia|].
  split; [cbn; lia|]. cbn [nth]. destruct (is_nan x) as [->|N].
  - left. split; [reflexivity|]. intros j Hj. lia.
  - right. cbn [length]. split; [|split].
    + intros [|j] Hj; [exact N|lia].
    + intros [|j] Hj; [apply xlt_irrefl|lia].
    + intros j Hj. lia.
Qed.
Lemma select_best mi sc i : sc <> [] ->
  exists b, best (map (fun l => nth i l NaN) sc) b /\ select_iteration mi sc i = Ok (Nat.max b mi).
Proof.
  intros H. destruct (argminx_best (map (fun l => nth i l NaN) sc)) as (b & E & B).
  { destruct sc; [congruence|]. discriminate. }
  exists b. split; [exact B|]. unfold select_iteration. rewrite E. cbn [rbind]. f_equal.
  destruct (Nat.ltb_spec b mi); lia.
Qed.
