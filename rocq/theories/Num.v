(* Numbers used by the model: the canonical rationals [Qc] of the standard
   library (exact arithmetic replaces float64; see DESIGN.md), boolean
   comparisons, truncation, finite sums, and a translation tactic that lets
   [lra]/[nra] decide goals over [Qc]. *)
From Coq Require Export List Arith ZArith QArith Qcanon Lia Bool Lqa.
From Coq Require Export Permutation.
From Coq Require Import Qround Qabs.
Export ListNotations.
#[global] Open Scope Qc_scope.
#[global] Arguments Qred : simpl never.
#[global] Arguments Qcplus : simpl never.
#[global] Arguments Qcminus : simpl never.
#[global] Arguments Qcmult : simpl never.
#[global] Arguments Qcopp : simpl never.
#[global] Arguments Qcinv : simpl never.
#[global] Arguments Qcdiv : simpl never.
#[global] Arguments Q2Qc : simpl never.

(* ------------------------------------------------------------------ *)
(* Literals and integer embedding *)
Definition qn (n : Z) (d : positive) : Qc := Q2Qc (n # d).
Definition qz (n : Z) : Qc := Q2Qc (inject_Z n).
Definition qnat (n : nat) : Qc := qz (Z.of_nat n).

(* Boolean comparisons (IEEE comparisons on finite values) *)
Definition qleb (x y : Qc) : bool := Qle_bool (this x) (this y).
Definition qltb (x y : Qc) : bool := negb (qleb y x).
Definition qeqb (x y : Qc) : bool := Qeq_bool (this x) (this y).

Definition qmax (x y : Qc) : Qc := if qleb x y then y else x.
Definition qmin (x y : Qc) : Qc := if qleb x y then x else y.
Definition qabs (x : Qc) : Qc := if qleb 0 x then x else - x.

(* C/Python int(): truncation towards zero; floor; ceiling *)
Definition qtrunc (x : Qc) : Z := Z.quot (Qnum (this x)) (Zpos (Qden (this x))).
Definition qfloor (x : Qc) : Z := Qfloor (this x).
Definition qceil (x : Qc) : Z := Qceiling (this x).

(* ------------------------------------------------------------------ *)
(* Translation of Qc facts to Q facts *)
Lemma tq_eq x y X Y : this x == X -> this y == Y -> X == Y -> x = y.
Proof. intros Hx Hy H. apply Qc_is_canon. now rewrite Hx, Hy. Qed.
Lemma tq_eq_h x y X Y : this x == X -> this y == Y -> x = y -> X == Y.
Proof. intros Hx Hy ->. now rewrite <- Hx, <- Hy. Qed.
Lemma tq_le x y X Y : this x == X -> this y == Y -> (X <= Y)%Q -> x <= y.
Proof. intros Hx Hy H. unfold Qcle. now rewrite Hx, Hy. Qed.
Lemma tq_le_h x y X Y : this x == X -> this y == Y -> x <= y -> (X <= Y)%Q.
Proof. intros Hx Hy H. unfold Qcle in H. now rewrite Hx, Hy in H. Qed.
Lemma tq_lt x y X Y : this x == X -> this y == Y -> (X < Y)%Q -> x < y.
Proof. intros Hx Hy H. unfold Qclt. now rewrite Hx, Hy. Qed.
Lemma tq_lt_h x y X Y : this x == X -> this y == Y -> x < y -> (X < Y)%Q.
Proof. intros Hx Hy H. unfold Qclt in H. now rewrite Hx, Hy in H. Qed.
Lemma tq_add x y X Y : this x == X -> this y == Y -> this (x + y) == (X + Y)%Q.
Proof. intros Hx Hy. unfold Qcplus, Q2Qc; cbn [this]. now rewrite Qred_correct, Hx, Hy. Qed.
Lemma tq_mul x y X Y : this x == X -> this y == Y -> this (x * y) == (X * Y)%Q.
Proof. intros Hx Hy. unfold Qcmult, Q2Qc; cbn [this]. now rewrite Qred_correct, Hx, Hy. Qed.
Lemma tq_opp x X : this x == X -> this (- x) == (- X)%Q.
Proof. intros Hx. unfold Qcopp, Q2Qc; cbn [this]. now rewrite Qred_correct, Hx. Qed.
Lemma tq_sub x y X Y : this x == X -> this y == Y -> this (x - y) == (X - Y)%Q.
Proof. intros Hx Hy. unfold Qcminus, Qminus. apply tq_add; [exact Hx | apply tq_opp; exact Hy]. Qed.
Lemma tq_inv x X : this x == X -> this (/ x) == (/ X)%Q.
Proof. intros Hx. unfold Qcinv, Q2Qc; cbn [this]. now rewrite Qred_correct, Hx. Qed.
Lemma tq_div x y X Y : this x == X -> this y == Y -> this (x / y) == (X / Y)%Q.
Proof. intros Hx Hy. unfold Qcdiv, Qdiv. apply tq_mul; [exact Hx | apply tq_inv; exact Hy]. Qed.
Lemma tq_lit q : this (Q2Qc q) == q.
Proof. unfold Q2Qc; cbn [this]. apply Qred_correct. Qed.
Lemma tq_refl x : this x == this x.
Proof. reflexivity. Qed.

Ltac tq e :=
  lazymatch e with
  | Qcplus ?a ?b => let p := tq a in let q := tq b in constr:(tq_add a b _ _ p q)
  | Qcminus ?a ?b => let p := tq a in let q := tq b in constr:(tq_sub a b _ _ p q)
  | Qcmult ?a ?b => let p := tq a in let q := tq b in constr:(tq_mul a b _ _ p q)
  | Qcdiv ?a ?b => let p := tq a in let q := tq b in constr:(tq_div a b _ _ p q)
  | Qcopp ?a => let p := tq a in constr:(tq_opp a _ p)
  | Q2Qc ?q => constr:(tq_lit q)
  | qn ?n ?d => constr:(tq_lit (n # d))
  | qz ?n => constr:(tq_lit (inject_Z n))
  | _ => constr:(tq_refl e)
  end.

Ltac tq_hyps :=
  repeat match goal with
  | H : ~ (@eq Qc _ _) |- _ => clear H
  | H : ~ (Qcle _ _) |- _ => apply Qcnot_le_lt in H
  | H : ~ (Qclt _ _) |- _ => apply Qcnot_lt_le in H
  | H : @eq Qc ?a ?b |- _ =>
      let p := tq a in let q := tq b in
      let H' := fresh in pose proof (tq_eq_h a b _ _ p q H) as H'; clear H
  | H : Qcle ?a ?b |- _ =>
      let p := tq a in let q := tq b in
      let H' := fresh in pose proof (tq_le_h a b _ _ p q H) as H'; clear H
  | H : Qclt ?a ?b |- _ =>
      let p := tq a in let q := tq b in
      let H' := fresh in pose proof (tq_lt_h a b _ _ p q H) as H'; clear H
  end.
Ltac tq_goal :=
  match goal with
  | |- @eq Qc ?a ?b => let p := tq a in let q := tq b in apply (tq_eq a b _ _ p q)
  | |- Qcle ?a ?b => let p := tq a in let q := tq b in apply (tq_le a b _ _ p q)
  | |- Qclt ?a ?b => let p := tq a in let q := tq b in apply (tq_lt a b _ _ p q)
  | |- ~ (@eq Qc ?a ?b) => let H := fresh in intro H
  | |- ~ (Qcle ?a ?b) => apply Qclt_not_le; tq_goal
  | |- ~ (Qclt ?a ?b) => apply Qcle_not_lt; tq_goal
  | |- False => idtac
  | |- _ => exfalso
  end.
(* Linear (nonlinear) arithmetic over Qc. *)
Ltac qlra := tq_goal; tq_hyps; unfold inject_Z in *; lra.
Ltac qnra := tq_goal; tq_hyps; unfold inject_Z in *; nra.

(* ------------------------------------------------------------------ *)
(* Specifications of the boolean comparisons *)
Lemma qleb_le x y : qleb x y = true <-> x <= y.
Proof. unfold qleb, Qcle. apply Qle_bool_iff. Qed.
Lemma qleb_gt x y : qleb x y = false <-> y < x.
Proof.
  split.
  - intros H. apply Qcnot_le_lt. intros C. apply qleb_le in C. congruence.
  - intros H. destruct (qleb x y) eqn:E; [|reflexivity].
    apply qleb_le in E. exfalso. revert E. now apply Qclt_not_le.
Qed.
Lemma qltb_lt x y : qltb x y = true <-> x < y.
Proof. unfold qltb. rewrite negb_true_iff. apply qleb_gt. Qed.
Lemma qltb_ge x y : qltb x y = false <-> y <= x.
Proof. unfold qltb. rewrite negb_false_iff. apply qleb_le. Qed.
Lemma qeqb_eq x y : qeqb x y = true <-> x = y.
Proof.
  unfold qeqb. split.
  - intros H. apply Qc_is_canon. now apply Qeq_bool_iff.
  - intros ->. apply Qeq_bool_iff. reflexivity.
Qed.
Lemma qeqb_neq x y : qeqb x y = false <-> x <> y.
Proof.
  split.
  - intros H C. apply qeqb_eq in C. congruence.
  - intros H. destruct (qeqb x y) eqn:E; [|reflexivity]. apply qeqb_eq in E. contradiction.
Qed.
Lemma qleb_spec x y : BoolSpec (x <= y) (y < x) (qleb x y).
Proof. destruct (qleb x y) eqn:E; constructor; [now apply qleb_le | now apply qleb_gt]. Qed.
Lemma qltb_spec x y : BoolSpec (x < y) (y <= x) (qltb x y).
Proof. destruct (qltb x y) eqn:E; constructor; [now apply qltb_lt | now apply qltb_ge]. Qed.
Lemma qeqb_spec x y : BoolSpec (x = y) (x <> y) (qeqb x y).
Proof. destruct (qeqb x y) eqn:E; constructor; [now apply qeqb_eq | now apply qeqb_neq]. Qed.

Lemma Qc_dec_eq (x y : Qc) : {x = y} + {x <> y}.
Proof. destruct (qeqb x y) eqn:E; [left; now apply qeqb_eq | right; now apply qeqb_neq]. Qed.

Lemma qmax_spec x y : (x <= y /\ qmax x y = y) \/ (y < x /\ qmax x y = x).
Proof. unfold qmax. destruct (qleb_spec x y); auto. Qed.
Lemma qmin_spec x y : (x <= y /\ qmin x y = x) \/ (y < x /\ qmin x y = y).
Proof. unfold qmin. destruct (qleb_spec x y); auto. Qed.
Lemma qabs_spec x : (0 <= x /\ qabs x = x) \/ (x < 0 /\ qabs x = - x).
Proof. unfold qabs. destruct (qleb_spec 0 x); auto. Qed.
Ltac q_minmax1 a b spec :=
  let H := fresh in let E := fresh in
  destruct (spec a b) as [[H E]|[H E]]; rewrite E in *; clear E.
Ltac q_minmax :=
  repeat match goal with
  | |- context [qmax ?a ?b] => q_minmax1 a b qmax_spec
  | |- context [qmin ?a ?b] => q_minmax1 a b qmin_spec
  | |- context [qabs ?a] =>
      let H := fresh in let E := fresh in
      destruct (qabs_spec a) as [[H E]|[H E]]; rewrite E in *; clear E
  | _ : context [qmax ?a ?b] |- _ => q_minmax1 a b qmax_spec
  | _ : context [qmin ?a ?b] |- _ => q_minmax1 a b qmin_spec
  | _ : context [qabs ?a] |- _ =>
      let H := fresh in let E := fresh in
      destruct (qabs_spec a) as [[H E]|[H E]]; rewrite E in *; clear E
  end.

Lemma Qcle_refl' x : x <= x. Proof. apply Qcle_refl. Qed.
#[global] Hint Resolve Qcle_refl' : core.

(* integer embedding *)
Lemma qz_add a b : qz (a + b) = qz a + qz b.
Proof. unfold qz. apply Qc_is_canon. rewrite tq_lit.
  rewrite (tq_add _ _ _ _ (tq_lit _) (tq_lit _)). rewrite inject_Z_plus; reflexivity. Qed.
Lemma qz_mul a b : qz (a * b) = qz a * qz b.
Proof. unfold qz. apply Qc_is_canon. rewrite tq_lit.
  rewrite (tq_mul _ _ _ _ (tq_lit _) (tq_lit _)). rewrite inject_Z_mult; reflexivity. Qed.
Lemma qz_opp a : qz (- a) = - qz a.
Proof. unfold qz. apply Qc_is_canon. rewrite tq_lit.
  rewrite (tq_opp _ _ (tq_lit _)). rewrite inject_Z_opp; reflexivity. Qed.
Lemma qz_sub a b : qz (a - b) = qz a - qz b.
Proof. unfold Z.sub, Qcminus. now rewrite qz_add, qz_opp. Qed.
Lemma qz_0 : qz 0 = 0. Proof. now apply qeqb_eq. Qed.
Lemma qz_1 : qz 1 = 1. Proof. now apply qeqb_eq. Qed.
Lemma qz_2 : qz 2 = 1 + 1. Proof. now apply qeqb_eq. Qed.
Lemma qz_le a b : (a <= b)%Z <-> qz a <= qz b.
Proof. unfold qz, Qcle. rewrite !tq_lit. rewrite Zle_Qle; reflexivity. Qed.
Lemma qz_lt a b : (a < b)%Z <-> qz a < qz b.
Proof. unfold qz, Qclt. rewrite !tq_lit. rewrite Zlt_Qlt; reflexivity. Qed.
Lemma qz_inj a b : qz a = qz b -> a = b.
Proof. intros H. pose proof (qz_le a b). pose proof (qz_le b a). rewrite H in *.
  assert (a <= b)%Z by (apply H0; auto). assert (b <= a)%Z by (apply H1; auto). lia. Qed.
Lemma qnat_S n : qnat (S n) = qnat n + 1.
Proof. unfold qnat. rewrite Nat2Z.inj_succ. unfold Z.succ. now rewrite qz_add, qz_1. Qed.
Lemma qnat_0 : qnat 0 = 0. Proof. apply qz_0. Qed.
Lemma qnat_1 : qnat 1 = 1. Proof. apply qz_1. Qed.
Lemma qnat_add a b : qnat (a + b) = qnat a + qnat b.
Proof. unfold qnat. now rewrite Nat2Z.inj_add, qz_add. Qed.
Lemma qnat_mul a b : qnat (a * b) = qnat a * qnat b.
Proof. unfold qnat. now rewrite Nat2Z.inj_mul, qz_mul. Qed.
Lemma qnat_sub a b : (b <= a)%nat -> qnat (a - b) = qnat a - qnat b.
Proof. intros H. unfold qnat. now rewrite Nat2Z.inj_sub, qz_sub. Qed.
Lemma qnat_nonneg n : 0 <= qnat n.
Proof. unfold qnat. rewrite <- qz_0. apply (proj1 (qz_le _ _)). lia. Qed.
Lemma qnat_pos n : (0 < n)%nat -> 0 < qnat n.
Proof. intros. unfold qnat. rewrite <- qz_0. apply (proj1 (qz_lt _ _)). lia. Qed.
Lemma qnat_le a b : (a <= b)%nat <-> qnat a <= qnat b.
Proof. unfold qnat. rewrite Nat2Z.inj_le. apply qz_le. Qed.
Lemma qnat_lt a b : (a < b)%nat <-> qnat a < qnat b.
Proof. unfold qnat. rewrite Nat2Z.inj_lt. apply qz_lt. Qed.

(* floor and truncation *)
Lemma qfloor_spec x : qz (qfloor x) <= x /\ x < qz (qfloor x) + 1.
Proof.
  unfold qfloor. split.
  - unfold Qcle, qz. rewrite tq_lit. apply Qfloor_le.
  - unfold Qclt, qz. change 1 with (Q2Qc 1).
    rewrite (tq_add _ _ _ _ (tq_lit _) (tq_lit _)).
    pose proof (Qlt_floor (this x)) as H. rewrite inject_Z_plus in H. exact H.
Qed.
Lemma qfloor_unique x z : qz z <= x -> x < qz z + 1 -> qfloor x = z.
Proof.
  intros H1 H2. destruct (qfloor_spec x) as [H3 H4].
  assert (qz z < qz (qfloor x + 1)) by (rewrite qz_add, qz_1; qlra).
  assert (qz (qfloor x) < qz (z + 1)) by (rewrite qz_add, qz_1; qlra).
  apply qz_lt in H, H0. lia.
Qed.
Lemma qceil_spec x : qz (qceil x) - 1 < x /\ x <= qz (qceil x).
Proof.
  unfold qceil. split.
  - unfold Qclt, qz. change 1 with (Q2Qc 1).
    rewrite (tq_sub _ _ _ _ (tq_lit _) (tq_lit _)).
    pose proof (Qceiling_lt (this x)) as H. unfold Z.sub in H. rewrite inject_Z_plus in H. exact H.
  - unfold Qcle, qz. rewrite tq_lit. apply Qle_ceiling.
Qed.
Lemma qtrunc_nonneg x : 0 <= x -> qtrunc x = qfloor x.
Proof.
  intros H. unfold qtrunc, qfloor, Qfloor. destruct (this x) as [n d] eqn:E. cbn [Qnum Qden].
  assert (0 <= n)%Z.
  { unfold Qcle in H. change (this 0) with 0%Q in H. rewrite E in H. unfold Qle in H. cbn in H. lia. }
  apply Z.quot_div_nonneg; lia.
Qed.
Lemma qtrunc_opp x : qtrunc (- x) = (- qtrunc x)%Z.
Proof.
  unfold qtrunc, Qcopp, Q2Qc. cbn [this]. 
  rewrite Qred_opp, (canon x). destruct (this x) as [n d]. cbn.
  rewrite Z.quot_opp_l by lia. reflexivity.
Qed.
Lemma qtrunc_neg x : x <= 0 -> qtrunc x = qceil x.
Proof.
  intros H. replace x with (- (- x)) at 1 by ring. rewrite qtrunc_opp, qtrunc_nonneg by qlra.
  destruct (qfloor_spec (-x)) as [H1 H2]. destruct (qceil_spec x) as [H3 H4].
  enough (qfloor (- x) = - qceil x)%Z by lia.
  apply qfloor_unique; rewrite qz_opp; qlra.
Qed.

(* ------------------------------------------------------------------ *)
(* Finite sums *)
Fixpoint qsum (l : list Qc) : Qc :=
  match l with [] => 0 | x :: l' => x + qsum l' end.
Fixpoint sumn (n : nat) (f : nat -> Qc) : Qc :=
  match n with O => 0 | S k => sumn k f + f k end.
Definition tab {A} (n : nat) (f : nat -> A) : list A := map f (seq 0 n).
Definition vget (l : list Qc) (i : nat) : Qc := nth i l 0.

Lemma tab_length {A} n (f : nat -> A) : length (tab n f) = n.
Proof. unfold tab. now rewrite map_length, seq_length. Qed.
Lemma nth_tab {A} n (f : nat -> A) d i : (i < n)%nat -> nth i (tab n f) d = f i.
Proof.
  intros H. unfold tab. rewrite (nth_indep _ _ (f O)) by (now rewrite map_length, seq_length).
  now rewrite map_nth, seq_nth.
Qed.
Lemma tab_ext {A} n (f g : nat -> A) :
  (forall i, (i < n)%nat -> f i = g i) -> tab n f = tab n g.
Proof.
  intros H. unfold tab. apply map_ext_in. intros a Ha. apply in_seq in Ha. apply H. lia.
Qed.
Lemma tab_S {A} n (f : nat -> A) : tab (S n) f = tab n f ++ [f n].
Proof. unfold tab. rewrite seq_S, map_app. reflexivity. Qed.
Lemma list_eq_nth {A} (l m : list A) d :
  length l = length m -> (forall i, (i < length l)%nat -> nth i l d = nth i m d) -> l = m.
Proof. intros H1 H2. apply (nth_ext _ _ d d); assumption. Qed.
Lemma tab_nth {A} (l : list A) d : tab (length l) (fun i => nth i l d) = l.
Proof.
  apply (list_eq_nth _ _ d); rewrite tab_length; [reflexivity|].
  intros i Hi. now rewrite nth_tab.
Qed.
Lemma map_tab {A B} (g : A -> B) n f : map g (tab n f) = tab n (fun i => g (f i)).
Proof. unfold tab. now rewrite map_map. Qed.
Lemma in_tab {A} n (f : nat -> A) x : In x (tab n f) <-> exists i, (i < n)%nat /\ x = f i.
Proof.
  unfold tab. rewrite in_map_iff. split.
  - intros (i & E & H). apply in_seq in H. exists i. split; [lia | auto].
  - intros (i & H & E). exists i. split; [auto | apply in_seq; lia].
Qed.

Lemma qsum_app l m : qsum (l ++ m) = qsum l + qsum m.
Proof. induction l as [|x l IH]; cbn; [ring | rewrite IH; ring]. Qed.
Lemma qsum_tab n f : qsum (tab n f) = sumn n f.
Proof.
  induction n as [|n IH]; [reflexivity|].
  rewrite tab_S, qsum_app, IH. cbn. ring.
Qed.
Lemma qsum_nth l : qsum l = sumn (length l) (vget l).
Proof. rewrite <- qsum_tab. f_equal. symmetry. apply tab_nth. Qed.

Lemma sumn_ext n f g : (forall i, (i < n)%nat -> f i = g i) -> sumn n f = sumn n g.
Proof.
  induction n as [|n IH]; intros H; cbn; [reflexivity|].
  rewrite IH by (intros; apply H; lia). now rewrite H by lia.
Qed.
Lemma sumn_0 n f : (forall i, (i < n)%nat -> f i = 0) -> sumn n f = 0.
Proof.
  induction n as [|n IH]; intros H; cbn; [reflexivity|].
  rewrite IH by (intros; apply H; lia). rewrite H by lia. ring.
Qed.
Lemma sumn_add n f g : sumn n (fun i => f i + g i) = sumn n f + sumn n g.
Proof. induction n as [|n IH]; cbn; [ring | rewrite IH; ring]. Qed.
Lemma sumn_sub n f g : sumn n (fun i => f i - g i) = sumn n f - sumn n g.
Proof. induction n as [|n IH]; cbn; [ring | rewrite IH; ring]. Qed.
Lemma sumn_scal n c f : sumn n (fun i => c * f i) = c * sumn n f.
Proof. induction n as [|n IH]; cbn; [ring | rewrite IH; ring]. Qed.
Lemma sumn_scal_r n c f : sumn n (fun i => f i * c) = sumn n f * c.
Proof. induction n as [|n IH]; cbn; [ring | rewrite IH; ring]. Qed.
Lemma sumn_div n c f : sumn n (fun i => f i / c) = sumn n f / c.
Proof. unfold Qcdiv. apply sumn_scal_r. Qed.
Lemma sumn_opp n f : sumn n (fun i => - f i) = - sumn n f.
Proof. induction n as [|n IH]; cbn; [ring | rewrite IH; ring]. Qed.
Lemma sumn_const n c : sumn n (fun _ => c) = qnat n * c.
Proof. induction n as [|n IH]; cbn [sumn]; [rewrite qnat_0; ring | rewrite IH, qnat_S; ring]. Qed.
Lemma sumn_swap n m f :
  sumn n (fun i => sumn m (fun j => f i j)) = sumn m (fun j => sumn n (fun i => f i j)).
Proof.
  induction n as [|n IH]; cbn [sumn].
  - symmetry. now apply sumn_0.
  - rewrite IH, <- sumn_add. reflexivity.
Qed.
Lemma sumn_le n f g : (forall i, (i < n)%nat -> f i <= g i) -> sumn n f <= sumn n g.
Proof.
  induction n as [|n IH]; intros H; cbn; [auto|].
  assert (sumn n f <= sumn n g) by (apply IH; intros; apply H; lia).
  assert (f n <= g n) by (apply H; lia). qlra.
Qed.
Lemma sumn_nonneg n f : (forall i, (i < n)%nat -> 0 <= f i) -> 0 <= sumn n f.
Proof.
  intros H. rewrite <- (sumn_0 n (fun _ => 0)) by reflexivity. now apply sumn_le.
Qed.
Lemma sumn_nonneg_0 n f :
  (forall i, (i < n)%nat -> 0 <= f i) -> sumn n f = 0 -> forall i, (i < n)%nat -> f i = 0.
Proof.
  induction n as [|n IH]; intros H S i Hi; [lia|]. cbn in S.
  assert (0 <= sumn n f) by (apply sumn_nonneg; intros; apply H; lia).
  assert (0 <= f n) by (apply H; lia).
  destruct (Nat.eq_dec i n) as [->|Hne]; [qlra|].
  apply IH; [intros; apply H; lia | qlra | lia].
Qed.
Lemma sumn_plus n m f : sumn (n + m) f = sumn n f + sumn m (fun i => f (n + i)%nat).
Proof.
  induction m as [|m IH]; cbn [sumn].
  - rewrite Nat.add_0_r. ring.
  - rewrite Nat.add_succ_r. cbn [sumn]. rewrite IH. ring.
Qed.
Lemma sumn_S_l n f : sumn (S n) f = f 0%nat + sumn n (fun i => f (S i)).
Proof. change (S n) with (1 + n)%nat. rewrite sumn_plus. cbn. ring. Qed.
Lemma sumn_single n f k :
  (k < n)%nat -> (forall i, (i < n)%nat -> i <> k -> f i = 0) -> sumn n f = f k.
Proof.
  intros Hk H. induction n as [|n IH]; [lia|]. cbn [sumn].
  destruct (Nat.eq_dec k n) as [->|Hne].
  - rewrite sumn_0; [ring|]. intros i Hi. apply H; lia.
  - rewrite IH; [|lia|intros; apply H; lia]. rewrite (H n); [ring|lia|auto].
Qed.
Lemma sumn_tele n (g : nat -> Qc) : sumn n (fun i => g (S i) - g i) = g n - g O.
Proof. induction n as [|n IH]; cbn; [ring | rewrite IH; ring]. Qed.
(* a sum over an index sub-range [a, a+k) of [0,n) when the rest vanishes *)
Lemma sumn_range n a k f :
  (a + k <= n)%nat -> (forall i, (i < n)%nat -> (i < a \/ a + k <= i)%nat -> f i = 0) ->
  sumn n f = sumn k (fun i => f (a + i)%nat).
Proof.
  intros Hle H. replace n with (a + (k + (n - a - k)))%nat by lia.
  rewrite sumn_plus, sumn_0 by (intros; apply H; lia).
  rewrite sumn_plus. rewrite (sumn_0 (n - a - k)) by (intros; apply H; lia). ring.
Qed.
Lemma qsum_nonneg l : (forall x, In x l -> 0 <= x) -> 0 <= qsum l.
Proof.
  induction l as [|x l IH]; intros H; cbn; [auto|].
  assert (0 <= x) by (apply H; now left).
  assert (0 <= qsum l) by (apply IH; intros; apply H; now right). qlra.
Qed.
Lemma qsum_map_ext {A} (f g : A -> Qc) l :
  (forall x, In x l -> f x = g x) -> qsum (map f l) = qsum (map g l).
Proof. intros H. now rewrite (map_ext_in _ _ _ H). Qed.
Lemma qsum_perm l m : Permutation l m -> qsum l = qsum m.
Proof. induction 1; cbn; try congruence; ring. Qed.

Lemma Qcmult_nonneg x y : 0 <= x -> 0 <= y -> 0 <= x * y.
Proof. intros. qnra. Qed.
Lemma Qcinv_nonneg x : 0 <= x -> 0 <= / x.
Proof.
  intros H. unfold Qcle in *. rewrite (tq_inv _ _ (tq_refl x)).
  change (this 0) with 0%Q in *. now apply Qinv_le_0_compat.
Qed.
Lemma Qcinv_pos x : 0 < x -> 0 < / x.
Proof.
  intros H. unfold Qclt in *. rewrite (tq_inv _ _ (tq_refl x)).
  change (this 0) with 0%Q in *. now apply Qinv_lt_0_compat.
Qed.
Lemma Qcdiv_nonneg x y : 0 <= x -> 0 <= y -> 0 <= x / y.
Proof. intros. unfold Qcdiv. apply Qcmult_nonneg; [auto | now apply Qcinv_nonneg]. Qed.
Lemma Qcdiv_pos x y : 0 < x -> 0 < y -> 0 < x / y.
Proof. intros H1 H2. unfold Qcdiv. apply Qcinv_pos in H2. qnra. Qed.
Lemma Qclt_neq x : 0 < x -> x <> 0.
Proof. intros H ->. now apply Qclt_not_eq in H. Qed.
Lemma Qc_1_0 : (1:Qc) <> 0. Proof. apply qeqb_neq. reflexivity. Qed.
Lemma Qc_2_0 : (1 + 1 : Qc) <> 0. Proof. apply qeqb_neq. reflexivity. Qed.
Lemma Qcdiv_le_l x y z : 0 < z -> x <= y * z -> x / z <= y.
Proof.
  intros Hz H. assert (Hi := Qcinv_pos z Hz). unfold Qcdiv.
  replace y with (y * z * / z) by (field; now apply Qclt_neq). qnra.
Qed.
Lemma Qcdiv_le_r x y z : 0 < z -> y * z <= x -> y <= x / z.
Proof.
  intros Hz H. assert (Hi := Qcinv_pos z Hz). unfold Qcdiv.
  replace y with (y * z * / z) by (field; now apply Qclt_neq). qnra.
Qed.
Lemma Qcdiv_lt_l x y z : 0 < z -> x < y * z -> x / z < y.
Proof.
  intros Hz H. assert (Hi := Qcinv_pos z Hz). unfold Qcdiv.
  replace y with (y * z * / z) by (field; now apply Qclt_neq). qnra.
Qed.
Lemma Qcdiv_lt_r x y z : 0 < z -> y * z < x -> y < x / z.
Proof.
  intros Hz H. assert (Hi := Qcinv_pos z Hz). unfold Qcdiv.
  replace y with (y * z * / z) by (field; now apply Qclt_neq). qnra.
Qed.

(* Comparison of lists by value, for [vm_compute] examples *)
Fixpoint leqb (l m : list Qc) : bool :=
  match l, m with
  | [], [] => true
  | x :: l', y :: m' => qeqb x y && leqb l' m'
  | _, _ => false
  end.
Lemma leqb_eq l m : leqb l m = true <-> l = m.
Proof.
  revert m. induction l as [|x l IH]; intros [|y m]; cbn; split; intros H; try easy.
  - apply andb_true_iff in H as [H1 H2]. f_equal; [now apply qeqb_eq | now apply IH].
  - injection H as -> ->. apply andb_true_iff. split; [now apply qeqb_eq | now apply IH].
Qed.
Fixpoint lleqb (l m : list (list Qc)) : bool :=
  match l, m with
  | [], [] => true
  | x :: l', y :: m' => leqb x y && lleqb l' m'
  | _, _ => false
  end.
Lemma lleqb_eq l m : lleqb l m = true <-> l = m.
Proof.
  revert m. induction l as [|x l IH]; intros [|y m]; cbn; split; intros H; try easy.
  - apply andb_true_iff in H as [H1 H2]. f_equal; [now apply leqb_eq | now apply IH].
  - injection H as -> ->. apply andb_true_iff. split; [now apply leqb_eq | now apply IH].
Qed.
(* integer lists as Qc lists *)
Definition ql (l : list Z) : list Qc := map qz l.

(* --- more list facts --- *)
Lemma nth_firstn_lt {A} (l : list A) n i d : (i < n)%nat -> nth i (firstn n l) d = nth i l d.
Proof.
  revert n i. induction l as [|x l IH]; intros n i H.
  - now rewrite firstn_nil.
  - destruct n; [lia|]. destruct i; cbn; [reflexivity|]. apply IH. lia.
Qed.
Lemma nth_skipn {A} (l : list A) n i d : nth i (skipn n l) d = nth (n + i) l d.
Proof.
  revert n i. induction l as [|x l IH]; intros n i.
  - rewrite skipn_nil. destruct i; destruct n; reflexivity.
  - destruct n; cbn; [reflexivity|]. apply IH.
Qed.
Lemma map_nth_in {A B} (f : A -> B) l i da db : (i < length l)%nat -> nth i (map f l) db = f (nth i l da).
Proof. intros H. rewrite (nth_indep _ db (f da)) by now rewrite map_length. apply map_nth. Qed.
