(* C10: histories of matrix operations.  Vocabulary in MatrixSpec.v, FillSpec.v. *)
From Verif Require Import PyBase Axis MatrixModel MatrixSpec FillModel FillSpec MatrixRunModel MatrixRunProofs ArgsortProofs.

(* Any sequence of successful operations keeps values, axes and std consistent, for a
   matrix without std or if none of the operations is a cut, cut_like or trapezoid
   (missing: these three on a matrix with std, where the claim is false). *)
Theorem matrix_histories_consistent_partial : forall gauss argsort, (forall l, sorts l (argsort l)) ->
  forall os m m', consistent m -> (forall o, In o os -> file_ok o) ->
  (std m = None \/ forall o, In o os -> slices o = false) ->
  mruns gauss argsort m os = Ok m' -> consistent m'.
Proof. exact mruns_lemma. Qed.
Print Assumptions matrix_histories_consistent_partial.
(* A failing operation on a matrix without std leaves a consistent matrix, unless it is a
   load, which assigns before it checks. *)
Theorem matrix_failed_op_consistent : forall gauss argsort, (forall l, sorts l (argsort l)) ->
  forall m o m' e, consistent m -> std m = None -> file_ok o ->
  mrun gauss argsort m o = (m', Raise e) -> (forall v eg ex, o <> MLoad v eg ex) -> consistent m'.
Proof. exact mrun_fail_lemma. Qed.
Print Assumptions matrix_failed_op_consistent.
Definition ms := mkM (mkArr 2 [ql [1;2]; ql [3;4]; ql [5;6]]%Z) (ql [10;20]%Z) (ql [1;2;3]%Z)
                     (Some (mkArr 2 [ql [1;1]; ql [1;1]; ql [1;1]]%Z)) None.
Example ms_ok : consistent ms.
Proof. split; (split; [reflexivity|split; [reflexivity|]]); cbn; intros r [<-|[<-|[<-|[]]]]; reflexivity. Qed.
Theorem matrix_cut_std_refuted : forall gauss argsort, exists m o m',
  consistent m /\ mrun gauss argsort m o = (m', Ok tt) /\ ~ consistent m'.
Proof.
  intros gauss argsort. exists ms, (MCut (AInt 1) (Some (qz 2)) None true true). eexists. split; [exact ms_ok|].
  split; [vm_compute; reflexivity|]. intros [_ [_ [H _]]]. cbn in H. discriminate.
Qed.
Print Assumptions matrix_cut_std_refuted.
Theorem matrix_load_not_atomic_refuted : forall gauss argsort, exists m o m',
  consistent m /\ file_ok o /\ mrun gauss argsort m o = (m', Raise ValueError) /\ ~ consistent m'.
Proof.
  intros gauss argsort. exists ms, (MLoad (mkArr 1 [ql [1]%Z]) (ql [1;2]%Z) (ql [1]%Z)). eexists. split; [exact ms_ok|].
  split; [intros r [<-|[]]; reflexivity|]. split; [vm_compute; reflexivity|]. intros [[H _] _]. cbn in H. discriminate.
Qed.
Print Assumptions matrix_load_not_atomic_refuted.
(* the hypothesis on argsort is satisfiable *)
Theorem some_argsort_sorts : forall l, sorts l (argsort_ins l).
Proof. exact argsort_ins_sorts. Qed.
Print Assumptions some_argsort_sorts.
Example run_example : exists m', mruns (fun _ _ => 1) argsort_ins
   (mkM (mkArr 3 [ql [1;2;-3]; ql [3;4;0]; ql [5;6;1]]%Z) (ql [10;20;30]%Z) (ql [1;2;3]%Z) None None)
   [MCut (AInt 1) (Some (qz 2)) None true true; MRemoveNegative; MRebin (AInt 0) None (Some (qn 3 2)); MFill (qz 11) (qz 3) (qz 2);
    MState (SState RAW); MToLower; MCutDiagonal (Some (qz 0, qz 2)) (Some (qz 30, qz 3))] = Ok m' /\
   state m' = Some RAW.
Proof. eexists. split; [vm_compute; reflexivity|reflexivity]. Qed.
(* the premise on the operations of such a run *)
Example run_example_files : forall o, In o [MCut (AInt 1) (Some (qz 2)) None true true; MRemoveNegative; MLoad (mkArr 1 [[1]; [1]]) (ql [1]%Z) (ql [1; 2]%Z); MToLower] -> file_ok o.
Proof. intros o [<-|[<-|[<-|[<-|[]]]]]; try exact I. intros r [<-|[<-|[]]]; reflexivity. Qed.
