(* C48: the degeneracy of the Oslo method. *)
From Coq Require Import Reals Lra.
From Verif Require Import PyBase CutSpec DecompModel DecompSpec TransformModel OsloProofs.
Local Open Scope R_scope.

(* rho and T transformed with Vector.transform (vector.py:264-297) by (A, alpha) and
   (B, alpha) *)
Definition transformed_inputs (A B alpha : R) (p : pin R) : pin R :=
  mkPin (rv_values (transform A alpha (mkRV (p_nld p) (map qr (p_E p)) None)))
        (rv_values (transform B alpha (mkRV (p_T p) (map qr (p_Eg p)) None)))
        (p_res p) (p_E p) (p_Eg p) (p_Ex p).
(* every final energy Ex-Eg that is used lies on the level-density grid *)
Definition aligned (p : pin R) : Prop :=
  forall i j, (i < length (p_Ex p))%nat -> (j < length (p_Eg p))%nat -> allowed p i j ->
    In (vget (p_Ex p) i - vget (p_Eg p) j)%Qc (p_E p).

Lemma rmap2_value_length c a l : forall m, length m = length l -> length (rmap2 (value_bin c a) l m) = length l.
Proof. induction l as [|x l IH]; intros [|y m] H; cbn in *; try lia. f_equal. apply IH. lia. Qed.
Lemma rmap2_value_nth c a l : forall m i, length m = length l -> (i < length l)%nat ->
  nth i (rmap2 (value_bin c a) l m) 0 = c * nth i l 0 * exp (a * nth i m 0).
Proof.
  induction l as [|x l IH]; intros [|y m] i H Hi; cbn [length rmap2] in *; try lia.
  destruct i as [|i]; [reflexivity|]. cbn [nth]. apply IH; lia.
Qed.
Theorem oslo_degeneracy : forall (p : pin R) A B alpha, pin_ok p -> nondecreasing (p_Eg p) -> nondecreasing (p_E p) -> aligned p ->
  A <> 0 -> B <> 0 -> nld_T_product_R (transformed_inputs A B alpha p) = nld_T_product_R p.
Proof.
  intros p A B alpha OK N1 N2 AL HA HB. pose proof OK as (_ & _ & HN & HT & _).
  assert (M : forall l k, (k < length l)%nat -> nth k (map qr l) 0 = qr (vget l k)).
  { intros l k Hk. rewrite nth_indep with (d' := qr 0%Qc) by now rewrite map_length. apply map_nth. }
  apply (oslo_lemma p (transformed_inputs A B alpha p) A B alpha); try assumption; try reflexivity;
    unfold transformed_inputs, transform; cbn [p_nld p_T rv_values rv_E].
  - apply rmap2_value_length. rewrite map_length. lia.
  - apply rmap2_value_length. rewrite map_length. lia.
  - intros k Hk. rewrite rmap2_value_nth by (rewrite ?map_length; lia). now rewrite M by lia.
  - intros j Hj. rewrite rmap2_value_nth by (rewrite ?map_length; lia). now rewrite M by lia.
Qed.
Print Assumptions oslo_degeneracy.

(* an aligned configuration in which three final energies occur *)
Example ox : pin R := mkPin [1; 2; 4] [3; 5] (ql [0; 0]%Z) (ql [-1; 0; 1]%Z) (ql [1; 2]%Z) (ql [1; 2]%Z).
Example ox_ok : pin_ok ox /\ aligned ox /\ nondecreasing (p_Eg ox) /\ nondecreasing (p_E ox).
Proof.
  split; [repeat split; cbn; try lia; discriminate|]. split.
  - intros i j Hi Hj _. cbn in Hi, Hj.
    assert (H : forall e l, existsb (fun x => qeqb e x) l = true -> In e l).
    { intros e l. rewrite existsb_exists. intros (x & Hx & E). apply qeqb_eq in E. now subst. }
    destruct i as [|[|i]], j as [|[|j]]; try lia; apply H; vm_compute; reflexivity.
  - split; (repeat constructor; apply qleb_le; vm_compute; reflexivity).
Qed.
Example ox_degenerate : nld_T_product_R (transformed_inputs 7 (-2) 3 ox) = nld_T_product_R ox.
Proof. destruct ox_ok as (H1 & H2 & H3 & H4). apply oslo_degeneracy; try assumption; Lra.lra. Qed.
