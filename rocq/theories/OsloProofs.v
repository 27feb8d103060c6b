(* C48: the product for real-valued level densities and transmissions. *)
From Coq Require Import Reals Lra Qreals.
From Verif Require Import PyBase MatrixModel CutSpec IndexProofs DecompModel DecompSpec DecompProofs.
Local Open Scope R_scope.

(* the real number of an energy *)
Definition qr (q : Qc) : R := Q2R (this q).
Lemma qr_sub x y : qr (x - y)%Qc = qr x - qr y.
Proof. unfold qr. rewrite <- Q2R_minus. apply Qeq_eqR. apply (tq_sub _ _ _ _ (tq_refl x) (tq_refl y)). Qed.

(* decomposition.pyx:215-221 for real values; None = not a finite number *)
Fixpoint rsum (l : list R) : R := match l with [] => 0 | x :: t => x + rsum t end.
Definition rdiv_row (r : list R) : list (option R) :=
  map (fun x => if Req_EM_T (rsum r) 0 then None else Some (x / rsum r)) r.
(* decomposition.pyx:17-77 *)
Definition nld_T_product_R (p : pin R) : option (list (list (option R))) :=
  match raw_product R 0 Rmult p with None => None | Some m => Some (map rdiv_row m) end.

Lemma rsum_scal c l : rsum (map (Rmult c) l) = c * rsum l.
Proof. induction l as [|x l IH]; cbn [map rsum]; [ring|]. rewrite IH. ring. Qed.
Lemma rdiv_row_scal c r : c <> 0 -> rdiv_row (map (Rmult c) r) = rdiv_row r.
Proof.
  intros HC. unfold rdiv_row. rewrite map_map, rsum_scal. apply map_ext. intros x.
  destruct (Req_EM_T (c * rsum r) 0) as [E|E], (Req_EM_T (rsum r) 0) as [F|F]; try reflexivity.
  - exfalso. apply Rmult_integral in E. tauto.
  - exfalso. apply E. rewrite F. ring.
  - f_equal. field. split; assumption.
Qed.

Section Oslo.
Variables (p p' : pin R) (A B alpha : R).
Hypothesis (OK : pin_ok p) (ND : nondecreasing (p_Eg p)) (HA : A <> 0) (HB : B <> 0).
Hypothesis (SE : p_E p' = p_E p) (SG : p_Eg p' = p_Eg p) (SX : p_Ex p' = p_Ex p) (SR : p_res p' = p_res p).
Hypothesis (LN : length (p_nld p') = length (p_nld p)) (LT : length (p_T p') = length (p_T p)).
Hypothesis (TN : forall k, (k < length (p_nld p))%nat -> nth k (p_nld p') 0 = A * nth k (p_nld p) 0 * exp (alpha * qr (vget (p_E p) k))).
Hypothesis (TT : forall j, (j < length (p_T p))%nat -> nth j (p_T p') 0 = B * nth j (p_T p) 0 * exp (alpha * qr (vget (p_Eg p) j))).
Hypothesis (AL : forall i j, (i < length (p_Ex p))%nat -> (j < length (p_Eg p))%nat -> allowed p i j -> In (vget (p_Ex p) i - vget (p_Eg p) j)%Qc (p_E p)).
Hypothesis (NE : nondecreasing (p_E p)).

Lemma index_exact e : In e (p_E p) -> vget (p_E p) (index (p_E p) e) = e.
Proof.
  intros H. destruct OK as (_ & HE & _). pose proof (index_nearest_lemma (p_E p) e HE NE) as (H1 & H2 & _).
  apply (In_nth _ _ 0%Qc) in H as (k & Hk & Ek). specialize (H2 k Hk). rewrite Ek in H2. unfold vget.
  clear - H2. revert H2. destruct (qabs_spec (e - e)%Qc) as [[_ ->]|[? ->]], (qabs_spec (nth (index (p_E p) e) (p_E p) 0 - e)%Qc) as [[? ->]|[? ->]]; intros HH; qlra.
Qed.

Lemma pval_scal i j : (i < length (p_Ex p))%nat -> (j < length (p_Eg p))%nat -> allowed p i j ->
  pval R 0 Rmult p' i j = A * B * exp (alpha * qr (vget (p_Ex p) i)) * pval R 0 Rmult p i j.
Proof.
  intros Hi Hj HAl. unfold pval. rewrite SE, SG, SX. set (e := (vget (p_Ex p) i - vget (p_Eg p) j)%Qc).
  pose proof (AL i j Hi Hj HAl) as HI. fold e in HI. pose proof (index_exact e HI) as IE.
  destruct OK as (_ & HE & HN & HT & _). pose proof (index_bound (p_E p) e HE) as IB.
  rewrite TN by lia. rewrite TT by lia. rewrite IE. unfold e. rewrite qr_sub.
  replace (alpha * qr (vget (p_Ex p) i)) with (alpha * (qr (vget (p_Ex p) i) - qr (vget (p_Eg p) j)) + alpha * qr (vget (p_Eg p) j)) by ring.
  rewrite exp_plus. fold e. ring.
Qed.
Lemma oslo_lemma : nld_T_product_R p' = nld_T_product_R p.
Proof.
  assert (OK' : pin_ok p'). { destruct OK as (H1 & H2 & H3 & H4 & H5). unfold pin_ok. rewrite SE, SG, SX, SR, LN, LT. auto. }
  destruct (raw_product_ok R 0 Rmult p OK ND) as (m & E & L & LR & H).
  destruct (raw_product_ok R 0 Rmult p' OK') as (m' & E' & L' & LR' & H'); [now rewrite SG|].
  unfold nld_T_product_R. rewrite E, E'. f_equal. apply (list_eq_nth _ _ []); [rewrite !map_length; congruence|].
  intros i Hi. rewrite map_length, L', SX in Hi.
  rewrite !(map_nth rdiv_row _ [] i : nth i (map rdiv_row _) [] = _).
  rewrite <- (rdiv_row_scal (A * B * exp (alpha * qr (vget (p_Ex p) i))) (nth i m [])).
  - f_equal. apply (list_eq_nth _ _ 0); [rewrite map_length; rewrite LR', LR by (rewrite ?SX; exact Hi); now rewrite SG|].
    intros j Hj. rewrite LR', SG in Hj by (rewrite SX; exact Hi). rewrite H' by (rewrite ?SX, ?SG; assumption).
    rewrite nth_indep with (d' := A * B * exp (alpha * qr (vget (p_Ex p) i)) * 0) by (rewrite map_length, LR; assumption).
    rewrite map_nth. rewrite H by assumption. unfold half_width. rewrite SG, SX, SR. fold (half_width p).
    destruct (qleb_spec (vget (p_Eg p) j) (vget (p_Ex p) i + vget (p_res p) i + half_width p)%Qc) as [C|C].
    + apply pval_scal; assumption.
    + ring.
  - pose proof (exp_pos (alpha * qr (vget (p_Ex p) i))).
    apply Rmult_integral_contrapositive_currified; [apply Rmult_integral_contrapositive_currified; assumption|]. apply Rgt_not_eq. exact H0.
Qed.
End Oslo.
