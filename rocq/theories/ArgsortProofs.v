(* A concrete np.argsort (insertion sort on the keys). *)
From Verif Require Import PyBase FillModel FillSpec.
From Coq Require Import Sorting.Sorted.

Fixpoint ins (l : list Qc) (i : nat) (o : list nat) : list nat :=
  match o with
  | [] => [i]
  | j :: t => if qleb (vget l i) (vget l j) then i :: o else j :: ins l i t
  end.
Definition argsort_ins (l : list Qc) : list nat := fold_right (ins l) [] (seq 0 (length l)).

Lemma ins_perm l i o : Permutation (ins l i o) (i :: o).
Proof.
  induction o as [|j o IH]; cbn; [reflexivity|]. destruct (qleb (vget l i) (vget l j)); [reflexivity|].
  rewrite IH. apply perm_swap.
Qed.
Lemma ins_sorted l i o : StronglySorted (fun a b => vget l a <= vget l b) o ->
  StronglySorted (fun a b => vget l a <= vget l b) (ins l i o).
Proof.
  induction 1 as [|j o S IH F]; cbn; [repeat constructor|].
  destruct (qleb_spec (vget l i) (vget l j)) as [H|H].
  - constructor; [now constructor|]. constructor; [exact H|]. eapply Forall_impl; [|exact F]. cbn. intros; qlra.
  - constructor; [exact IH|]. apply Forall_forall. intros x Hx. apply (Permutation_in _ (ins_perm l i o)) in Hx as [<-|Hx]; [qlra|].
    rewrite Forall_forall in F. auto.
Qed.
Lemma sorted_nth l o : StronglySorted (fun a b => vget l a <= vget l b) o -> forall a b, (a < b < length o)%nat ->
  vget l (nth a o 0%nat) <= vget l (nth b o 0%nat).
Proof.
  induction 1 as [|j o S IH F]; cbn [length]; intros a b H; [lia|]. destruct b as [|b]; [lia|].
  destruct a as [|a]; cbn [nth].
  - rewrite Forall_forall in F. apply F. apply nth_In. lia.
  - apply IH. lia.
Qed.
Lemma argsort_ins_sorts l : sorts l (argsort_ins l).
Proof.
  unfold argsort_ins. split.
  - induction (seq 0 (length l)) as [|i s IH]; cbn; [reflexivity|]. rewrite ins_perm. now constructor.
  - apply sorted_nth. induction (seq 0 (length l)) as [|i s IH]; cbn; [constructor|]. now apply ins_sorted.
Qed.
