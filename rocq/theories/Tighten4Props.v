(* Statements about exceptions and values that other theorems leave open: the uncertainty
   assumed for a level density without one, refused discrete levels, the exception that ends an
   extraction, indices out of range, attributes an object does not have. *)
From Coq Require Import List ZArith QArith Qcanon Lia Bool.
From Verif Require Import Num PyBase Axis MatrixModel RebinModel VectorModel ArithModel.
From Verif Require RhosigchiModel RscSetupModel NormStateModel AliasModel.
Import ListNotations.
Local Notation length := List.length (only parsing).
Local Open Scope Qc_scope.

(* ---------------------------------------------------------------- assumed uncertainties *)
Module NS := NormStateModel.
(* a level density without uncertainties is given 30 % in every bin; energies, values and unit
   are kept, and an uncertainty that is there is replaced *)
Theorem fake_std_relative : forall v, exists s, NS.v_std (NS.fake_std v) = Some s /\ length s = length (NS.v_val v) /\
  (forall i, (i < length s)%nat -> qz 10 * nth i s 0 = qz 3 * nth i (NS.v_val v) 0) /\
  NS.v_E (NS.fake_std v) = NS.v_E v /\ NS.v_val (NS.fake_std v) = NS.v_val v /\ NS.v_MeV (NS.fake_std v) = NS.v_MeV v.
Proof.
  intros v. eexists. split; [reflexivity|]. rewrite map_length. split; [reflexivity|]. split; [|repeat split].
  intros i Hi. rewrite (nth_indep _ 0 (0 * Q2Qc (3 # 10))) by (rewrite map_length; exact Hi). rewrite (map_nth (fun x => x * Q2Qc (3 # 10))).
  set (x := nth i (NS.v_val v) 0). replace (Q2Qc (3 # 10)) with (qz 3 / qz 10) by (apply Qc_is_canon; reflexivity). field. discriminate.
Qed.
Print Assumptions fake_std_relative.
Example fake_std_example : NS.v_std (NS.fake_std (NS.mkVec [1; qz 2] [qz 10; qz 20] None true)) = Some [qz 3; qz 6].
Proof. cbn. f_equal. f_equal; [|f_equal]; apply Qc_is_canon; reflexivity. Qed.

(* ---------------------------------------------------------------- discrete levels *)
(* assigning discrete levels: ValueError if a level density on other energies is there,
   otherwise they are stored and nothing else changes *)
Theorem set_discrete_cases : forall L B P O (s : NS.nst L B P O) w,
  match NS.n_nld _ _ _ _ s with
  | Some n => (NS.v_E n = NS.v_E w -> exists s', NS.set_discrete _ _ _ _ s (Some w) = Ok s' /\ NS.n_disc _ _ _ _ s' = Some w /\ NS.n_nld _ _ _ _ s' = NS.n_nld _ _ _ _ s) /\
              (NS.v_E n <> NS.v_E w -> NS.set_discrete _ _ _ _ s (Some w) = Raise ValueError)
  | None => exists s', NS.set_discrete _ _ _ _ s (Some w) = Ok s' /\ NS.n_disc _ _ _ _ s' = Some w /\ NS.n_nld _ _ _ _ s' = NS.n_nld _ _ _ _ s
  end.
Proof.
  intros L B P O s w. destruct (NS.n_nld _ _ _ _ s) as [n|] eqn:E; unfold NS.set_discrete; rewrite E; [|eexists; repeat split].
  destruct (leqb (NS.v_E n) (NS.v_E w)) eqn:LE.
  - apply leqb_eq in LE. split; [intros _; eexists; repeat split|]. intros C. contradiction.
  - split; [|reflexivity]. intros C. apply leqb_eq in C. congruence.
Qed.
Print Assumptions set_discrete_cases.

(* ---------------------------------------------------------------- extraction *)
(* an extraction ends with the exception of the preparation of its matrices, and so does the
   loop over the members, whatever members follow *)
Theorem extract_stops : forall V (finish : matrix -> matrix -> RscSetupModel.setup -> result V) axes v rest std fg a b c d e,
  mk_matrix v (Some (fst axes)) (Some (snd axes)) None SNone = Ok fg ->
  snd (RscSetupModel.prepare fg std a b c d) = Raise e ->
  snd (RscSetupModel.pyrhosigchi finish fg std a b c d) = Raise e /\
  RscSetupModel.extract_members finish axes (RscSetupModel.Fresh v :: rest) std a b c d = Raise e.
Proof.
  intros V finish axes v rest std fg a b c d e M P.
  assert (X : snd (RscSetupModel.pyrhosigchi finish fg std a b c d) = Raise e).
  { unfold RscSetupModel.pyrhosigchi. destruct (RscSetupModel.prepare fg std a b c d) as [[f s] r]. cbn in P. subst r. reflexivity. }
  split; [exact X|]. cbn [RscSetupModel.extract_members]. rewrite M. cbn [rbind].
  destruct (RscSetupModel.pyrhosigchi finish fg std a b c d) as [s' r]. cbn in X. now subst r.
Qed.
Print Assumptions extract_stops.

(* ---------------------------------------------------------------- indices *)
(* assignment to an element: IndexError outside, with or without counting from the end;
   otherwise that element is replaced and no other *)
Theorem set_index : forall A (l : list A) i x,
  (forall wrap, (Z.of_nat (length l) <= i \/ i < - Z.of_nat (length l))%Z -> RhosigchiModel.set_ wrap l i x = Raise IndexError) /\
  (- Z.of_nat (length l) <= i < 0 -> RhosigchiModel.set_ false l i x = Raise IndexError /\ RhosigchiModel.set_ true l i x = RhosigchiModel.set_ true l (i + Z.of_nat (length l)) x)%Z /\
  (forall wrap, (0 <= i < Z.of_nat (length l))%Z -> exists l', RhosigchiModel.set_ wrap l i x = Ok l' /\ length l' = length l /\ nth_error l' (Z.to_nat i) = Some x /\
     forall j, (j < length l)%nat -> j <> Z.to_nat i -> nth_error l' j = nth_error l j).
Proof.
  intros A l i x. unfold RhosigchiModel.set_. split; [|split].
  - intros wrap H. destruct wrap; cbn [andb].
    + destruct (i <? 0)%Z eqn:E1.
      * apply Z.ltb_lt in E1. replace (i + Z.of_nat (length l) <? 0)%Z with true by (symmetry; apply Z.ltb_lt; lia). reflexivity.
      * apply Z.ltb_ge in E1. replace (Z.of_nat (length l) <=? i)%Z with true by (symmetry; apply Z.leb_le; lia). now rewrite orb_true_r.
    + destruct (i <? 0)%Z eqn:E1; [reflexivity|]. apply Z.ltb_ge in E1. replace (Z.of_nat (length l) <=? i)%Z with true by (symmetry; apply Z.leb_le; lia). reflexivity.
  - intros H. cbn [andb]. replace (i <? 0)%Z with true by (symmetry; apply Z.ltb_lt; lia). split; [reflexivity|].
    assert (F : (i + Z.of_nat (length l) <? 0)%Z = false) by (apply Z.ltb_ge; lia). now rewrite !F.
  - intros wrap H. replace (i <? 0)%Z with false by (symmetry; apply Z.ltb_ge; lia). rewrite andb_false_r.
    replace (i <? 0)%Z with false by (symmetry; apply Z.ltb_ge; lia). replace (Z.of_nat (length l) <=? i)%Z with false by (symmetry; apply Z.leb_gt; lia). cbn [orb].
    eexists. split; [reflexivity|]. assert (K : (Z.to_nat i < length l)%nat) by lia. revert K. generalize (Z.to_nat i) as n. clear H.
    induction l as [|y l IH]; intros n K; cbn [length] in *; [lia|]. destruct n as [|n].
    + cbn. split; [reflexivity|]. split; [reflexivity|]. intros [|j] _ C; [contradiction|reflexivity].
    + destruct (IH n ltac:(lia)) as (L & N & O). cbn. split; [f_equal; exact L|]. split; [exact N|]. intros [|j] J C; [reflexivity|]. cbn. apply O; lia.
Qed.
Print Assumptions set_index.

(* ---------------------------------------------------------------- attributes *)
(* an object without the attribute raises AttributeError, a name without an object NameError *)
Theorem eval_missing : forall s i a,
  (nth_error (AliasModel.objs s) i = None -> AliasModel.eval s (AliasModel.SAttr i a) = Raise NameError /\ AliasModel.eval2 s (AliasModel.SAttr2 i a) = Raise NameError) /\
  (forall o, nth_error (AliasModel.objs s) i = Some o -> AliasModel.attr1 o a = None -> AliasModel.eval s (AliasModel.SAttr i a) = Raise AttributeError) /\
  (forall o, nth_error (AliasModel.objs s) i = Some o -> AliasModel.attr2 o a = None -> AliasModel.eval2 s (AliasModel.SAttr2 i a) = Raise AttributeError).
Proof.
  intros s i a. unfold AliasModel.eval, AliasModel.eval2, AliasModel.find_obj. split; [|split].
  - intros ->. split; reflexivity.
  - intros o -> E. cbn [rbind]. now rewrite E.
  - intros o -> E. cbn [rbind]. now rewrite E.
Qed.
Print Assumptions eval_missing.
(* a vector has no gamma energies *)
Example eval_missing_example : forall v a, AliasModel.attr2 (AliasModel.HVec v) a = None.
Proof. intros v []; reflexivity. Qed.
