(* C103: the degeneracy of the Oslo method is the only one. *)
From Coq Require Import Reals Lra.
From Verif Require Import PyBase MatrixModel CutSpec IndexProofs DecompModel DecompSpec DecompProofs TransformModel ComptonProps OsloProofs OsloProps.
Import Lra.
Local Open Scope R_scope.

(* neighbouring energies are d apart *)
Definition equidistant (d : Qc) (l : list Qc) : Prop :=
  forall k, (S k < length l)%nat -> vget l (S k) = (vget l k + d)%Qc.
(* the filled bins of the product: every row but the first has two, the last row reaches
   furthest, and it reaches at most one bin further than the row before it *)
Definition staircase (p : pin R) : Prop :=
  let last := (length (p_Ex p) - 1)%nat in
  (2 <= length (p_Ex p))%nat /\
  (forall i, (1 <= i <= last)%nat -> allowed p i 1) /\
  (forall i j, (i <= last)%nat -> allowed p i j -> allowed p last j) /\
  (forall j, (S j < length (p_Eg p))%nat -> allowed p last (S j) -> allowed p (last - 1) j).
Definition positive (l : list R) : Prop := forall x, In x l -> 0 < x.
(* two level densities and transmissions on the same grids *)
Definition same_grids (p p' : pin R) : Prop :=
  p_E p' = p_E p /\ p_Eg p' = p_Eg p /\ p_Ex p' = p_Ex p /\ p_res p' = p_res p /\
  length (p_nld p') = length (p_nld p) /\ length (p_T p') = length (p_T p).

(* the algebra: r (kk i j) * t j = c i on a staircase of cells *)
Section Staircase.
Variables (nx : nat) (al : nat -> nat -> Prop) (r t c : nat -> R) (kk : nat -> nat -> nat).
Hypothesis (N2 : (2 <= nx)%nat).
Hypothesis (PRE : forall i j, al i (S j) -> al i j).
Hypothesis (K2 : forall i j, (i < nx)%nat -> al i (S j) -> kk i j = S (kk i (S j))).
Hypothesis (K3 : forall i j, (S i < nx)%nat -> al i j -> al (S i) (S j) -> kk (S i) (S j) = kk i j).
Hypothesis (EQ : forall i j, (i < nx)%nat -> al i j -> r (kk i j) * t j = c i).
Hypothesis (PR : forall i j, (i < nx)%nat -> al i j -> 0 < r (kk i j)).
Hypothesis (PT : forall i j, (i < nx)%nat -> al i j -> 0 < t j).
Hypothesis (H1 : forall i, (1 <= i < nx)%nat -> al i 1%nat).
Hypothesis (H2 : forall j, al (nx - 1)%nat (S j) -> al (nx - 2)%nat j).
Hypothesis (H3 : forall i j, (i < nx)%nat -> al i j -> al (nx - 1)%nat j).

Lemma al_0 i j : al i j -> al i 0%nat.
Proof. induction j as [|j IH]; intros H; [exact H|]. apply IH, PRE, H. Qed.
Let q := t 1%nat / t 0%nat.
Lemma q_pos : 0 < q.
Proof.
  pose proof (H1 (nx - 1) ltac:(lia)) as L. unfold q.
  apply Rdiv_lt_0_compat; [apply (PT (nx - 1)); [lia|exact L]|apply (PT (nx - 1)); [lia|apply (al_0 _ 1), L]].
Qed.
Lemma t_step j : al (nx - 1)%nat (S j) -> t (S j) = q * t j.
Proof.
  induction j as [|j IH]; intros A.
  - unfold q. field. apply Rgt_not_eq, (PT (nx - 1)); [lia|]. apply PRE, A.
  - pose proof (PRE _ _ A) as A1. pose proof (PRE _ _ A1) as A0. specialize (IH A1).
    pose proof (H2 _ A) as B1. pose proof (PRE _ _ B1) as B0.
    assert (SI : S (nx - 2) = (nx - 1)%nat) by lia.
    pose proof (K3 (nx - 2) j ltac:(lia) B0) as E0. rewrite SI in E0. specialize (E0 A1).
    pose proof (K3 (nx - 2) (S j) ltac:(lia) B1) as E1. rewrite SI in E1. specialize (E1 A).
    pose proof (EQ (nx - 1) (S j) ltac:(lia) A1) as F1. pose proof (EQ (nx - 1) (S (S j)) ltac:(lia) A) as F2.
    pose proof (EQ (nx - 2) j ltac:(lia) B0) as G0. pose proof (EQ (nx - 2) (S j) ltac:(lia) B1) as G1.
    rewrite E0 in F1. rewrite E1 in F2. rewrite <- F2 in F1. rewrite <- G1 in G0.
    pose proof (PR (nx - 2) j ltac:(lia) B0) as P0. pose proof (PR (nx - 2) (S j) ltac:(lia) B1) as P1.
    pose proof (PT (nx - 1) j ltac:(lia) A0) as T0.
    set (R1 := r (kk (nx - 2)%nat j)) in *. set (R2 := r (kk (nx - 2)%nat (S j))) in *.
    (* R1 t(j+1) = R2 t(j+2), R1 t(j) = R2 t(j+1) *)
    assert (X : R1 = R2 * q). { apply (Rmult_eq_reg_r (t j)); [|lra]. rewrite G0, IH. ring. }
    apply (Rmult_eq_reg_l R2); [|lra]. rewrite <- F1, X. ring.
Qed.
Lemma t_geo j : al (nx - 1)%nat j -> t j = t 0%nat * q ^ j.
Proof.
  induction j as [|j IH]; intros A; [cbn; ring|]. rewrite (t_step j A), (IH (PRE _ _ A)). cbn [pow]. ring.
Qed.
Let f i j := r (kk i j) / q ^ kk i j.
Lemma f_step i j : (i < nx)%nat -> al i (S j) -> f i j = f i (S j).
Proof.
  intros Hi A. pose proof (PRE _ _ A) as A0. pose proof (EQ i j Hi A0) as E0. pose proof (EQ i (S j) Hi A) as E1.
  rewrite <- E1 in E0. rewrite (t_step j (H3 i _ Hi A)) in E0. pose proof (PT i j Hi A0) as T0.
  assert (X : r (kk i j) = r (kk i (S j)) * q). { apply (Rmult_eq_reg_r (t j)); [|lra]. rewrite E0. ring. }
  unfold f. rewrite X, (K2 i j Hi A). cbn [pow]. pose proof q_pos as Q. field. split; [apply pow_nonzero|]; lra.
Qed.
Lemma f_row i j : (i < nx)%nat -> al i j -> f i j = f i 0%nat.
Proof. intros Hi. induction j as [|j IH]; intros A; [reflexivity|]. rewrite <- f_step by assumption. apply IH, PRE, A. Qed.
Lemma f_up i : (S i < nx)%nat -> al i 0%nat -> f (S i) 0%nat = f i 0%nat.
Proof.
  intros Hi A. pose proof (H1 (S i) ltac:(lia)) as A1. rewrite (f_step (S i) 0 Hi A1).
  unfold f. now rewrite (K3 i 0 Hi A A1).
Qed.
Lemma f_all i j : (i < nx)%nat -> al i j -> f i j = f 1%nat 0%nat.
Proof.
  intros Hi A. rewrite (f_row i j Hi A). apply al_0 in A. destruct i as [|i].
  - symmetry. apply f_up; [lia|exact A].
  - clear A. induction i as [|i IH]; [reflexivity|]. rewrite f_up; [|lia|]. { apply IH. lia. } apply (al_0 _ 1), H1. lia.
Qed.
Lemma staircase_geometric : exists a b g, 0 < a /\ 0 < b /\ 0 < g /\
  forall i j, (i < nx)%nat -> al i j -> r (kk i j) = a * g ^ kk i j /\ t j = b * g ^ j.
Proof.
  pose proof q_pos as Q. exists (f 1%nat 0%nat), (t 0%nat), q.
  assert (A10 : al 1%nat 0%nat) by (apply (al_0 _ 1), H1; lia).
  split. { unfold f. apply Rdiv_lt_0_compat; [apply PR; [lia|exact A10]|apply pow_lt, Q]. }
  split. { apply (PT 1); [lia|exact A10]. }
  split; [exact Q|]. intros i j Hi A. split.
  - rewrite <- (f_all i j Hi A). unfold f. field. apply pow_nonzero. lra.
  - apply t_geo, (H3 i j Hi A).
Qed.
End Staircase.

Lemma equidistant_at d l : equidistant d l -> forall k, (k < length l)%nat -> vget l k = (vget l 0 + qz (Z.of_nat k) * d)%Qc.
Proof.
  intros H k. induction k as [|k IH]; intros Hk.
  - change (qz (Z.of_nat 0)) with 0%Qc. ring.
  - rewrite H by exact Hk. rewrite IH by lia. rewrite Nat2Z.inj_succ. unfold Z.succ. rewrite qz_add. change (qz 1) with 1%Qc. ring.
Qed.

Lemma rsum_nonneg l : (forall x, In x l -> 0 <= x) -> 0 <= rsum l.
Proof.
  induction l as [|x l IH]; intros H; cbn [rsum]; [lra|].
  assert (0 <= x) by (apply H; now left). assert (0 <= rsum l) by (apply IH; intros y Hy; apply H; now right). lra.
Qed.
Lemma rsum_pos l x : (forall y, In y l -> 0 <= y) -> In x l -> 0 < x -> 0 < rsum l.
Proof.
  induction l as [|y l IH]; intros H I P; [destruct I|]. cbn [rsum].
  assert (0 <= y) by (apply H; now left).
  assert (0 <= rsum l) by (apply rsum_nonneg; intros z Hz; apply H; now right).
  destruct I as [-> | I]; [lra|]. assert (0 < rsum l) by (apply IH; [intros z Hz; apply H; now right|exact I|exact P]). lra.
Qed.
Lemma rdiv_row_nth row j : (j < length row)%nat -> rsum row <> 0 ->
  nth j (rdiv_row row) None = Some (nth j row 0 / rsum row).
Proof.
  intros Hj Hs. unfold rdiv_row. set (g := fun x => if Req_EM_T (rsum row) 0 then None else Some (x / rsum row)).
  rewrite nth_indep with (d' := g 0) by (now rewrite map_length).
  rewrite map_nth. unfold g. destruct (Req_EM_T (rsum row) 0); [contradiction|reflexivity].
Qed.
Lemma positive_nth l k : positive l -> (k < length l)%nat -> 0 < nth k l 0.
Proof. intros H Hk. apply H, nth_In, Hk. Qed.
Lemma allowed_below p i j : nondecreasing (p_Eg p) -> (S j < length (p_Eg p))%nat -> allowed (V:=R) p i (S j) -> allowed p i j.
Proof.
  intros ND L A. unfold allowed in *. assert (vget (p_Eg p) j <= vget (p_Eg p) (S j))%Qc; [|qlra].
  unfold vget. revert ND L. generalize (p_Eg p). clear. intros l ND. revert j. induction ND as [|x l ND IH F]; intros j L; cbn [length] in L; [lia|].
  destruct j as [|j]; cbn [nth].
  - rewrite Forall_forall in F. apply F, nth_In. lia.
  - apply IH. lia.
Qed.
Lemma equidistant_sorted d l : (0 < d)%Qc -> equidistant d l -> nondecreasing l.
Proof.
  intros D. induction l as [|x l IH]; intros H; [constructor|].
  pose proof (equidistant_at d _ H) as AT. constructor.
  - apply IH. intros k Hk. apply (H (S k)). cbn [length]. lia.
  - rewrite Forall_forall. intros y Hy. apply (In_nth _ _ 0%Qc) in Hy as (k & Hk & <-).
    specialize (AT (S k)). cbn [length] in AT. specialize (AT ltac:(lia)). unfold vget in AT. cbn [nth] in AT. rewrite AT.
    assert (0 <= qz (Z.of_nat (S k)))%Qc by (rewrite <- qz_0; apply (proj1 (qz_le _ _)); lia).
    assert (0 <= qz (Z.of_nat (S k)) * d)%Qc by qnra. qlra.
Qed.
Lemma Qcmult_reg_r' (x y d : Qc) : d <> 0%Qc -> (x * d = y * d)%Qc -> x = y.
Proof. intros N E. transitivity (x * d / d)%Qc; [field; exact N|]. rewrite E. field. exact N. Qed.
Lemma equidistant_inj d l k k' : (0 < d)%Qc -> equidistant d l -> (k < length l)%nat -> (k' < length l)%nat ->
  vget l k = vget l k' -> k = k'.
Proof.
  intros D H Hk Hk' E. rewrite (equidistant_at d l H k Hk), (equidistant_at d l H k' Hk') in E.
  assert (X : (qz (Z.of_nat k) = qz (Z.of_nat k'))%Qc).
  { assert (Y : (qz (Z.of_nat k) * d = qz (Z.of_nat k') * d)%Qc) by qlra. apply (Qcmult_reg_r' _ _ d); [|exact Y]. intros Z. rewrite Z in D. qlra. }
  apply qz_inj in X. lia.
Qed.

(* the bins of the level density and of the transmission the product depends on *)
Definition used_E (p : pin R) (k : nat) : Prop :=
  (k < length (p_E p))%nat /\ exists i j, (i < length (p_Ex p))%nat /\ (j < length (p_Eg p))%nat /\ allowed p i j /\
    vget (p_E p) k = (vget (p_Ex p) i - vget (p_Eg p) j)%Qc.
Definition used_Eg (p : pin R) (j : nat) : Prop :=
  (j < length (p_Eg p))%nat /\ exists i, (i < length (p_Ex p))%nat /\ allowed p i j.

Section Unique.
Variables (p p' : pin R) (d : Qc).
Hypothesis (OK : pin_ok p) (SG : same_grids p p') (D : (0 < d)%Qc).
Hypothesis (QE : equidistant d (p_E p)) (QG : equidistant d (p_Eg p)) (QX : equidistant d (p_Ex p)).
Hypothesis (AL : aligned p) (ST : staircase p).
Hypothesis (P1 : positive (p_nld p)) (P2 : positive (p_T p)) (P1' : positive (p_nld p')) (P2' : positive (p_T p')).
Hypothesis (EQ : nld_T_product_R p' = nld_T_product_R p).

Let kk i j := index (p_E p) (vget (p_Ex p) i - vget (p_Eg p) j)%Qc.
Let al i j := (j < length (p_Eg p))%nat /\ allowed p i j.
Let NE := equidistant_sorted d _ D QE.
Let NG := equidistant_sorted d _ D QG.
Lemma kk_bound i j : (kk i j < length (p_E p))%nat.
Proof. apply index_bound, OK. Qed.
Lemma kk_energy i j : (i < length (p_Ex p))%nat -> al i j -> vget (p_E p) (kk i j) = (vget (p_Ex p) i - vget (p_Eg p) j)%Qc.
Proof. intros Hi (Hj & A). unfold kk. apply (index_exact p OK NE). apply AL; assumption. Qed.
Lemma kk_left i j : (i < length (p_Ex p))%nat -> al i (S j) -> kk i j = S (kk i (S j)).
Proof.
  intros Hi A. assert (A0 : al i j). { destruct A as (L & A). split; [lia|]. apply allowed_below; assumption. }
  pose proof (kk_energy i j Hi A0) as E0. pose proof (kk_energy i (S j) Hi A) as E1. destruct A as (L & _). rewrite (QG j L) in E1.
  assert (X : vget (p_E p) (kk i j) = (vget (p_E p) (kk i (S j)) + d)%Qc) by (rewrite E0, E1; ring).
  pose proof (kk_bound i j) as B0. pose proof (kk_bound i (S j)) as B1.
  rewrite (equidistant_at d _ QE _ B0), (equidistant_at d _ QE _ B1) in X.
  assert (Y : (qz (Z.of_nat (kk i j)) * d = qz (Z.of_nat (S (kk i (S j)))) * d)%Qc).
  { rewrite Nat2Z.inj_succ. unfold Z.succ. rewrite qz_add, qz_1. 
    assert (Z : (qz (Z.of_nat (kk i j)) * d = qz (Z.of_nat (kk i (S j))) * d + d)%Qc) by qlra. rewrite Z. ring. }
  apply Qcmult_reg_r' in Y; [|clear NE NG; intros Z; rewrite Z in D; qlra]. apply qz_inj in Y. lia.
Qed.
Lemma kk_diag i j : (S i < length (p_Ex p))%nat -> al i j -> al (S i) (S j) -> kk (S i) (S j) = kk i j.
Proof.
  intros Hi _ (L & _). unfold kk. f_equal. rewrite (QX i Hi), (QG j L). ring.
Qed.
Lemma pin_ok' : pin_ok p'.
Proof.
  destruct SG as (S1 & S2 & S3 & S4 & S5 & S6). destruct OK as (O1 & O2 & O3 & O4 & O5).
  unfold pin_ok. rewrite S1, S2, S3, S4, S5, S6. auto.
Qed.
Let r k := nth k (p_nld p') 0 / nth k (p_nld p) 0.
Let t j := nth j (p_T p') 0 / nth j (p_T p) 0.
Lemma r_pos k : (k < length (p_E p))%nat -> 0 < r k.
Proof.
  intros Hk. destruct SG as (S1 & S2 & S3 & S4 & S5 & S6). destruct OK as (O1 & O2 & O3 & O4 & O5).
  apply Rdiv_lt_0_compat; apply positive_nth; try assumption; lia.
Qed.
Lemma t_pos j : (j < length (p_Eg p))%nat -> 0 < t j.
Proof.
  intros Hk. destruct SG as (S1 & S2 & S3 & S4 & S5 & S6). destruct OK as (O1 & O2 & O3 & O4 & O5).
  apply Rdiv_lt_0_compat; apply positive_nth; try assumption; lia.
Qed.
Lemma pval_pos i j : (j < length (p_Eg p))%nat -> 0 < pval R 0 Rmult p i j.
Proof.
  intros Hj. destruct OK as (O1 & O2 & O3 & O4 & O5). pose proof (kk_bound i j) as B. unfold kk in B.
  unfold pval. apply Rmult_lt_0_compat; apply positive_nth; try assumption; lia.
Qed.
Lemma pval_ratio i j : (j < length (p_Eg p))%nat -> pval R 0 Rmult p' i j = r (kk i j) * t j * pval R 0 Rmult p i j.
Proof.
  intros Hj. destruct SG as (S1 & S2 & S3 & S4 & S5 & S6). destruct OK as (O1 & O2 & O3 & O4 & O5).
  pose proof (kk_bound i j) as B. unfold pval. rewrite S1, S2, S3. fold (kk i j). unfold r, t.
  pose proof (positive_nth (p_nld p) (kk i j) P1 ltac:(lia)). pose proof (positive_nth (p_T p) j P2 ltac:(lia)). field. lra.
Qed.
(* all filled bins of a row have the same ratio *)
Lemma row_ratio i : (i < length (p_Ex p))%nat -> exists c, forall j, al i j -> r (kk i j) * t j = c.
Proof.
  intros Hi. pose proof SG as (S1 & S2 & S3 & S4 & S5 & S6).
  destruct (raw_product_ok R 0 Rmult p OK NG) as (m & E & L & LR & H).
  destruct (raw_product_ok R 0 Rmult p' pin_ok') as (m' & E' & L' & LR' & H'); [now rewrite S2|].
  unfold nld_T_product_R in EQ. rewrite E, E' in EQ. injection EQ as EQm.
  assert (ER : rdiv_row (nth i m' []) = rdiv_row (nth i m [])).
  { pose proof (f_equal (fun l => nth i l []) EQm) as X. cbv beta in X.
    now rewrite !(map_nth rdiv_row _ [] i : nth i (map rdiv_row _) [] = _) in X. }
  set (row := nth i m []) in *. set (row' := nth i m' []) in *.
  assert (LL : length row = length (p_Eg p)) by (apply LR, Hi).
  assert (LL' : length row' = length (p_Eg p)) by (unfold row'; rewrite LR' by (rewrite S3; exact Hi); now rewrite S2).
  assert (V : forall j, (j < length (p_Eg p))%nat -> nth j row 0 = if qleb (vget (p_Eg p) j) (vget (p_Ex p) i + vget (p_res p) i + half_width p)%Qc then pval R 0 Rmult p i j else 0).
  { intros j Hj. unfold row. now apply H. }
  assert (V' : forall j, (j < length (p_Eg p))%nat -> nth j row' 0 = if qleb (vget (p_Eg p) j) (vget (p_Ex p) i + vget (p_res p) i + half_width p)%Qc then pval R 0 Rmult p' i j else 0).
  { intros j Hj. unfold row'. rewrite H' by (rewrite ?S2, ?S3; assumption). unfold half_width. rewrite S2, S3, S4. reflexivity. }
  assert (PP : forall j, (j < length (p_Eg p))%nat -> 0 < pval R 0 Rmult p' i j).
  { intros j Hj. rewrite pval_ratio by exact Hj. pose proof (r_pos (kk i j) (kk_bound i j)). pose proof (t_pos j Hj). pose proof (pval_pos i j Hj).
    apply Rmult_lt_0_compat; [apply Rmult_lt_0_compat|]; assumption. }
  assert (NN : forall x, In x row -> 0 <= x).
  { intros x Hx. apply (In_nth _ _ 0) in Hx as (j & Hj & <-). rewrite LL in Hj. rewrite V by exact Hj.
    pose proof (pval_pos i j Hj). destruct (qleb _ _); lra. }
  assert (NN' : forall x, In x row' -> 0 <= x).
  { intros x Hx. apply (In_nth _ _ 0) in Hx as (j & Hj & <-). rewrite LL' in Hj. rewrite V' by exact Hj.
    pose proof (PP j Hj). destruct (qleb _ _); lra. }
  exists (rsum row' / rsum row). intros j (Hj & A).
  assert (C : qleb (vget (p_Eg p) j) (vget (p_Ex p) i + vget (p_res p) i + half_width p)%Qc = true) by (apply qleb_le; exact A).
  specialize (V j Hj). specialize (V' j Hj). rewrite C in V, V'. pose proof (pval_pos i j Hj) as Q. pose proof (PP j Hj) as Q'.
  assert (SP : 0 < rsum row). { apply (rsum_pos row (nth j row 0) NN); [apply nth_In; lia|]. rewrite V. exact Q. }
  assert (SP' : 0 < rsum row'). { apply (rsum_pos row' (nth j row' 0) NN'); [apply nth_In; lia|]. rewrite V'. exact Q'. }
  pose proof (f_equal (fun l => nth j l None) ER) as X. cbv beta in X.
  rewrite !rdiv_row_nth in X by (try lia; lra). injection X as X. rewrite V, V', pval_ratio in X by exact Hj.
  apply (Rmult_eq_reg_r (pval R 0 Rmult p i j)); [|lra]. apply (Rmult_eq_reg_r (/ rsum row')); [|apply Rinv_neq_0_compat; lra].
  unfold Rdiv in X. rewrite X. field. lra.
Qed.
Lemma row_ratios : exists c, forall i j, (i < length (p_Ex p))%nat -> al i j -> r (kk i j) * t j = c i.
Proof.
  assert (X : forall n, (n <= length (p_Ex p))%nat -> exists c, forall i j, (i < n)%nat -> al i j -> r (kk i j) * t j = c i).
  { induction n as [|n IH]; intros Hn; [exists (fun _ => 0); intros; lia|].
    destruct (IH ltac:(lia)) as (c & Hc). destruct (row_ratio n ltac:(lia)) as (x & Hx).
    exists (fun i => if (i =? n)%nat then x else c i). intros i j Hi A. destruct (Nat.eqb_spec i n) as [->|N]; [apply Hx, A|apply Hc; [lia|exact A]]. }
  apply X. lia.
Qed.
Lemma unique_lemma : exists A B alpha, 0 < A /\ 0 < B /\
  (forall k, used_E p k -> nth k (p_nld p') 0 = A * nth k (p_nld p) 0 * exp (alpha * qr (vget (p_E p) k))) /\
  (forall j, used_Eg p j -> nth j (p_T p') 0 = B * nth j (p_T p) 0 * exp (alpha * qr (vget (p_Eg p) j))).
Proof.
  destruct row_ratios as (c & Hc). pose proof ST as (T0 & T1 & T2 & T3).
  assert (LG : (2 <= length (p_Eg p))%nat) by apply OK.
  destruct (staircase_geometric (length (p_Ex p)) al r t c kk T0) as (a & b & g & Pa & Pb & Pg & H).
  - intros i j (L & A). split; [lia|]. apply allowed_below; assumption.
  - intros i j Hi A. now apply kk_left.
  - intros i j Hi A A1. now apply kk_diag.
  - intros i j Hi A. now apply Hc.
  - intros i j Hi A. apply r_pos, kk_bound.
  - intros i j Hi (L & A). now apply t_pos.
  - intros i Hi. split; [lia|]. apply T1. lia.
  - intros j (L & A). split; [lia|]. replace (length (p_Ex p) - 2)%nat with (length (p_Ex p) - 1 - 1)%nat by lia. now apply T3.
  - intros i j Hi (L & A). split; [exact L|]. apply (T2 i j); [lia|exact A].
  - assert (PD : 0 < qr d) by (rewrite <- ComptonProps.qr_0; now apply ComptonProps.qr_lt).
    set (alpha := ln g / qr d).
    assert (EX : forall l k, equidistant d l -> (k < length l)%nat -> exp (alpha * qr (vget l k)) = exp (alpha * qr (vget l 0)) * g ^ k).
    { intros l k Hl Hk. induction k as [|k IH]; [cbn [pow]; ring|].
      rewrite (Hl k Hk). change qr with ComptonProps.qr. rewrite ComptonProps.qr_add. change ComptonProps.qr with qr.
      rewrite Rmult_plus_distr_l, exp_plus, IH by lia. replace (alpha * qr d) with (ln g) by (unfold alpha; field; lra).
      rewrite exp_ln by exact Pg. cbn [pow]. ring. }
    exists (a / exp (alpha * qr (vget (p_E p) 0))), (b / exp (alpha * qr (vget (p_Eg p) 0))), alpha.
    split; [apply Rdiv_lt_0_compat; [exact Pa|apply exp_pos]|]. split; [apply Rdiv_lt_0_compat; [exact Pb|apply exp_pos]|]. split.
    + intros k (Hk & i & j & Hi & Hj & A & E).
      assert (K : k = kk i j). { apply (equidistant_inj d (p_E p)); try assumption; [apply kk_bound|]. rewrite kk_energy; [exact E|exact Hi|split; assumption]. }
      destruct (H i j Hi (conj Hj A)) as (R & _). rewrite <- K in R. rewrite (EX _ k QE Hk).
      pose proof (positive_nth (p_nld p) k P1) as N. assert (Nk : (k < length (p_nld p))%nat) by (destruct OK as (_ & _ & -> & _); exact Hk). specialize (N Nk).
      unfold r in R. transitivity (a * g ^ k * nth k (p_nld p) 0). { rewrite <- R. field. lra. } field. apply Rgt_not_eq, exp_pos.
    + intros j (Hj & i & Hi & A). destruct (H i j Hi (conj Hj A)) as (_ & R). rewrite (EX _ j QG Hj).
      assert (Nj : (j < length (p_T p))%nat) by (destruct OK as (_ & _ & _ & -> & _); exact Hj).
      pose proof (positive_nth (p_T p) j P2 Nj) as N.
      unfold t in R. transitivity (b * g ^ j * nth j (p_T p) 0). { rewrite <- R. field. lra. } field. apply Rgt_not_eq, exp_pos.
Qed.
End Unique.

(* equal products on an equidistant, aligned grid: the two solutions differ by a
   transformation with common slope, in every bin the product depends on *)
Theorem oslo_unique : forall (p p' : pin R) d, pin_ok p -> same_grids p p' -> (0 < d)%Qc ->
  equidistant d (p_E p) -> equidistant d (p_Eg p) -> equidistant d (p_Ex p) -> aligned p -> staircase p ->
  positive (p_nld p) -> positive (p_T p) -> positive (p_nld p') -> positive (p_T p') ->
  nld_T_product_R p' = nld_T_product_R p ->
  exists A B alpha, 0 < A /\ 0 < B /\
  (forall k, used_E p k -> nth k (p_nld p') 0 = nth k (p_nld (transformed_inputs A B alpha p)) 0) /\
  (forall j, used_Eg p j -> nth j (p_T p') 0 = nth j (p_T (transformed_inputs A B alpha p)) 0).
Proof.
  intros p p' d OK SG D QE QG QX AL ST P1 P2 P3 P4 EQ.
  destruct (unique_lemma p p' d OK SG D QE QG QX AL ST P1 P2 P3 P4 EQ) as (A & B & alpha & PA & PB & H1 & H2).
  exists A, B, alpha. split; [exact PA|]. split; [exact PB|]. pose proof OK as (_ & _ & HN & HT & _).
  assert (M : forall l k, (k < length l)%nat -> nth k (map qr l) 0 = qr (vget l k)).
  { intros l k Hk. rewrite nth_indep with (d' := qr 0%Qc) by now rewrite map_length. apply map_nth. }
  unfold transformed_inputs, transform; cbn [p_nld p_T rv_values rv_E]. split.
  - intros k U. pose proof (proj1 U) as Hk. rewrite (H1 k U), rmap2_value_nth by (rewrite ?map_length; lia). now rewrite M by lia.
  - intros j U. pose proof (proj1 U) as Hj. rewrite (H2 j U), rmap2_value_nth by (rewrite ?map_length; lia). now rewrite M by lia.
Qed.
Print Assumptions oslo_unique.

(* if every bin is used, the solutions with the same product are exactly the transformed ones *)
Theorem oslo_solutions : forall (p p' : pin R) d, pin_ok p -> same_grids p p' -> (0 < d)%Qc ->
  equidistant d (p_E p) -> equidistant d (p_Eg p) -> equidistant d (p_Ex p) -> aligned p -> staircase p ->
  positive (p_nld p) -> positive (p_T p) -> positive (p_nld p') -> positive (p_T p') ->
  (forall k, (k < length (p_E p))%nat -> used_E p k) -> (forall j, (j < length (p_Eg p))%nat -> used_Eg p j) ->
  (nld_T_product_R p' = nld_T_product_R p <->
   exists A B alpha, 0 < A /\ 0 < B /\ p' = transformed_inputs A B alpha p).
Proof.
  intros p p' d OK SG D QE QG QX AL ST P1 P2 P3 P4 U1 U2. split.
  - intros EQ. destruct (oslo_unique p p' d OK SG D QE QG QX AL ST P1 P2 P3 P4 EQ) as (A & B & alpha & PA & PB & H1 & H2).
    exists A, B, alpha. split; [exact PA|]. split; [exact PB|]. destruct SG as (S1 & S2 & S3 & S4 & S5 & S6).
    destruct OK as (_ & _ & HN & HT & _).
    destruct p' as [n' t' res' E' G' X']. cbn [p_E p_Eg p_Ex p_res p_nld p_T] in *. subst res' E' G' X'.
    assert (X : n' = p_nld (transformed_inputs A B alpha p)).
    { apply (list_eq_nth _ _ 0).
      - unfold transformed_inputs, transform. cbn [p_nld rv_values rv_E]. rewrite rmap2_value_length by (rewrite map_length; lia). exact S5.
      - intros k Hk. apply H1, U1. lia. }
    assert (Y : t' = p_T (transformed_inputs A B alpha p)).
    { apply (list_eq_nth _ _ 0).
      - unfold transformed_inputs, transform. cbn [p_T rv_values rv_E]. rewrite rmap2_value_length by (rewrite map_length; lia). exact S6.
      - intros k Hk. apply H2, U2. lia. }
    rewrite X, Y. reflexivity.
  - intros (A & B & alpha & PA & PB & ->). apply oslo_degeneracy; try assumption; try lra; apply (equidistant_sorted d); assumption.
Qed.
Print Assumptions oslo_solutions.

(* with a single row the product fixes less: two solutions not related by any transformation *)
Definition one_row (nld T : list R) : pin R := mkPin nld T (ql [0]%Z) (ql [0; 1; 2]%Z) (ql [0; 1; 2]%Z) (ql [2]%Z).
Theorem oslo_one_row_refuted : exists p p', pin_ok p /\ same_grids p p' /\
  equidistant 1 (p_E p) /\ equidistant 1 (p_Eg p) /\ aligned p /\
  positive (p_nld p) /\ positive (p_T p) /\ positive (p_nld p') /\ positive (p_T p') /\
  nld_T_product_R p' = nld_T_product_R p /\
  forall A B alpha, p_nld p' <> p_nld (transformed_inputs A B alpha p).
Proof.
  exists (one_row [1; 1; 1] [1; 1; 1]), (one_row [1; 2; 1] [1; / 2; 1]).
  assert (EQD : equidistant 1 (ql [0; 1; 2]%Z)).
  { intros k Hk. cbn in Hk. destruct k as [|[|k]]; [apply qeqb_eq; vm_compute; reflexivity|apply qeqb_eq; vm_compute; reflexivity|lia]. }
  assert (PP : forall a b c, 0 < a -> 0 < b -> 0 < c -> positive [a; b; c]).
  { intros a b c Ha Hb Hc x [<- | [<- | [<- | []]]]; assumption. }
  split; [repeat split; cbn; try lia; discriminate|]. split; [repeat split|]. split; [exact EQD|]. split; [exact EQD|].
  split.
  { intros i j Hi Hj _. cbn in Hi, Hj. assert (H : forall e l, existsb (fun x => qeqb e x) l = true -> In e l).
    { intros e l. rewrite existsb_exists. intros (x & Hx & E). apply qeqb_eq in E. now subst. }
    destruct i as [|i]; [|lia]. destruct j as [|[|[|j]]]; try lia; apply H; vm_compute; reflexivity. }
  split; [apply PP; lra|]. split; [apply PP; lra|]. split; [apply PP; lra|]. split; [apply PP; lra|]. split.
  - unfold nld_T_product_R.
    assert (E : raw_product R 0 Rmult (one_row [1; 1; 1] [1; 1; 1]) = Some [[1 * 1; 1 * 1; 1 * 1]]) by reflexivity.
    assert (E' : raw_product R 0 Rmult (one_row [1; 2; 1] [1; / 2; 1]) = Some [[1 * 1; 2 * / 2; 1 * 1]]) by reflexivity.
    rewrite E, E'. replace (2 * / 2) with (1 * 1) by lra. reflexivity.
  - intros A B alpha H. unfold transformed_inputs, transform, one_row in H. cbn [p_nld p_E rv_values rv_E ql map rmap2] in H.
    unfold value_bin in H. injection H as H0 H1 H2.
    assert (Q0 : qr (qz 0) = 0) by (rewrite qz_0; apply ComptonProps.qr_0).
    assert (Q1 : qr (qz 1) = 1) by (rewrite qz_1; apply ComptonProps.qr_1).
    assert (Q2 : qr (qz 2) = 2). { replace (qz 2) with (1 + 1)%Qc by (apply qeqb_eq; vm_compute; reflexivity). change qr with ComptonProps.qr. rewrite ComptonProps.qr_add, ComptonProps.qr_1. lra. }
    rewrite Q0, Rmult_0_r, exp_0 in H0. rewrite Q1, !Rmult_1_r in H1. rewrite Q2 in H2.
    replace (alpha * 2) with (alpha + alpha) in H2 by ring. rewrite exp_plus in H2.
    assert (A = 1) by lra. subst A. assert (X : exp alpha = 2) by lra. rewrite X in H2. lra.
Qed.
Print Assumptions oslo_one_row_refuted.

(* three rows; all hypotheses hold and every bin is used *)
Example ou : pin R := mkPin [1; 2; 4] [3; 5; 7] (ql [0; 0; 0]%Z) (ql [0; 1; 2]%Z) (ql [1; 2; 3]%Z) (ql [1; 2; 3]%Z).
Example ou_ok : pin_ok ou /\ aligned ou /\ staircase ou /\ equidistant 1 (p_E ou) /\ equidistant 1 (p_Eg ou) /\ equidistant 1 (p_Ex ou) /\
  (forall k, (k < length (p_E ou))%nat -> used_E ou k) /\ (forall j, (j < length (p_Eg ou))%nat -> used_Eg ou j).
Proof.
  assert (AB : forall i j, qleb (vget (p_Eg ou) j) (vget (p_Ex ou) i + vget (p_res ou) i + half_width ou)%Qc = true -> allowed ou i j)
    by (intros i j H; now apply qleb_le).
  assert (NB : forall i j, qleb (vget (p_Eg ou) j) (vget (p_Ex ou) i + vget (p_res ou) i + half_width ou)%Qc = false -> ~ allowed ou i j).
  { intros i j H A. apply qleb_le in A. congruence. }
  assert (EQD : forall z, (0 <= z <= 1)%Z -> equidistant 1 (ql [z; z + 1; z + 2]%Z)).
  { intros z Hz k Hk. cbn in Hk. assert (Z : (z = 0 \/ z = 1)%Z) by lia.
    destruct Z as [-> | ->]; (destruct k as [|[|k]]; [apply qeqb_eq; vm_compute; reflexivity|apply qeqb_eq; vm_compute; reflexivity|lia]). }
  split; [repeat split; cbn; try lia; discriminate|]. split.
  { intros i j Hi Hj HA. cbn in Hi, Hj.
    assert (H : forall e l, existsb (fun x => qeqb e x) l = true -> In e l).
    { intros e l. rewrite existsb_exists. intros (x & Hx & E). apply qeqb_eq in E. now subst. }
    destruct i as [|[|[|i]]], j as [|[|[|j]]]; try lia;
      first [apply H; vm_compute; reflexivity | exfalso; revert HA; apply NB; vm_compute; reflexivity]. }
  split.
  { split; [cbn; lia|]. cbn [ou p_Ex length Nat.sub]. split; [|split].
    - intros i Hi. change (length (ql [1; 2; 3]%Z)) with 3%nat in Hi. destruct i as [|[|[|i]]]; try lia; apply AB; vm_compute; reflexivity.
    - intros i j Hi HA. change (length (ql [1; 2; 3]%Z)) with 3%nat in *. cbn [Nat.sub] in *. unfold allowed in *.
      assert (L : (vget (p_Ex ou) i + vget (p_res ou) i <= vget (p_Ex ou) 2 + vget (p_res ou) 2)%Qc)
        by (destruct i as [|[|[|i]]]; try lia; apply qleb_le; vm_compute; reflexivity).
      fold ou in HA |- *. qlra.
    - intros j Hj HA. change (length (ql [1; 2; 3]%Z)) with 3%nat in *. cbn [Nat.sub] in *. cbn in Hj. destruct j as [|[|j]]; try lia; apply AB; vm_compute; reflexivity. }
  split; [apply (EQD 0%Z); lia|]. split; [apply (EQD 1%Z); lia|]. split; [apply (EQD 1%Z); lia|]. split.
  - intros k Hk. split; [exact Hk|]. cbn in Hk. exists 2%nat, (2 - k)%nat. split; [cbn; lia|]. split; [change (length (p_Eg ou)) with 3%nat; lia|].
    destruct k as [|[|[|k]]]; try lia; (split; [apply AB; vm_compute; reflexivity|apply qeqb_eq; vm_compute; reflexivity]).
  - intros j Hj. split; [exact Hj|]. cbn in Hj. exists 2%nat. split; [cbn; lia|].
    destruct j as [|[|[|j]]]; try lia; apply AB; vm_compute; reflexivity.
Qed.
(* doubling one bin of the level density alone changes the product *)
Example ou_distinct : nld_T_product_R (mkPin [1; 4; 4] [3; 5; 7] (p_res ou) (p_E ou) (p_Eg ou) (p_Ex ou)) <> nld_T_product_R ou.
Proof.
  destruct ou_ok as (H1 & H2 & H3 & H4 & H5 & H6 & H7 & H8). intros EQ.
  assert (PP : forall a b c, 0 < a -> 0 < b -> 0 < c -> positive [a; b; c]).
  { intros a b c Ha Hb Hc x [<- | [<- | [<- | []]]]; assumption. }
  apply (oslo_solutions ou _ 1) in EQ; try assumption; try (apply PP; lra); [|repeat split|qlra].
  destruct EQ as (A & B & alpha & _ & _ & E). apply (f_equal p_T) in E as ET. apply (f_equal p_nld) in E. revert E ET.
  unfold transformed_inputs, transform, ou. cbn [p_nld p_T p_Eg p_E rv_values rv_E ql map rmap2].
  unfold value_bin. intros E ET. injection E as E0 E1 E2. 
  assert (Q0 : qr (qz 0) = 0) by (rewrite qz_0; apply ComptonProps.qr_0).
  assert (Q1 : qr (qz 1) = 1) by (rewrite qz_1; apply ComptonProps.qr_1).
  assert (Q2 : qr (qz 2) = 2). { replace (qz 2) with (1 + 1)%Qc by (apply qeqb_eq; vm_compute; reflexivity). change qr with ComptonProps.qr. rewrite ComptonProps.qr_add, ComptonProps.qr_1. lra. }
  rewrite Q0, Rmult_0_r, exp_0 in E0. rewrite Q1, !Rmult_1_r in E1. rewrite Q2 in E2.
  replace (alpha * 2) with (alpha + alpha) in E2 by ring. rewrite exp_plus in E2.
  assert (A = 1) by lra. subst A. assert (X : exp alpha = 2) by lra. rewrite X in E2. lra.
Qed.
