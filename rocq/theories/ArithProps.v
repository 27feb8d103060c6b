(* C14, C15, C21: arithmetic, equality, div0.  Vocabulary in ArithSpec.v. *)
From Verif Require Import PyBase Axis MatrixModel MatrixSpec VectorModel ArithModel ArithSpec ArithProofs.

(* C14: an operation on two matrices works exactly when shapes and axes agree (up to the
   tolerance of numpy), gives the element-wise result and keeps the left operand's axes,
   std and state. *)
Theorem matrix_arith_elementwise : forall o m w, consistent m -> consistent w ->
  (same_grid m w -> exists r, m_arith o m (OpObj w) = Ok r /\
     x_Eg r = Eg m /\ x_Ex r = Ex m /\ x_std r = std m /\ x_state r = state m /\
     length (x_values r) = length (Ex m) /\
     forall i, (i < length (Ex m))%nat ->
       length (nth i (x_values r) []) = length (Eg m) /\
       forall j, (j < length (Eg m))%nat ->
         op_spec o (aget (values m) i j) (aget (values w) i j) (oget (nth i (x_values r) []) j)) /\
  (~ same_grid m w -> m_arith o m (OpObj w) = Raise ValueError).
Proof. exact m_arith_obj_lemma. Qed.
Print Assumptions matrix_arith_elementwise.
Theorem matrix_arith_scalar : forall o m q, consistent m -> exists r, m_arith o m (OpNum q) = Ok r /\
     x_Eg r = Eg m /\ x_Ex r = Ex m /\ x_std r = std m /\ x_state r = state m /\
     length (x_values r) = length (Ex m) /\
     forall i, (i < length (Ex m))%nat ->
       length (nth i (x_values r) []) = length (Eg m) /\
       forall j, (j < length (Eg m))%nat ->
         op_spec o (aget (values m) i j) q (oget (nth i (x_values r) []) j).
Proof. exact m_arith_num_lemma. Qed.
Print Assumptions matrix_arith_scalar.
Theorem vector_arith_elementwise : forall o v w,
  (v_same_grid v w -> exists r, v_arith o v (OpObj w) = Ok r /\
     xv_E r = v_E v /\ xv_std r = v_std v /\ xv_units r = v_units v /\
     length (xv_values r) = length (v_values v) /\
     forall i, (i < length (v_values v))%nat ->
       op_spec o (vget (v_values v) i) (vget (v_values w) i) (oget (xv_values r) i)) /\
  (~ v_same_grid v w -> v_arith o v (OpObj w) = Raise ValueError).
Proof. exact v_arith_obj_lemma. Qed.
Print Assumptions vector_arith_elementwise.
Theorem vector_arith_scalar : forall o v q, exists r, v_arith o v (OpNum q) = Ok r /\
     xv_E r = v_E v /\ xv_std r = v_std v /\ xv_units r = v_units v /\
     length (xv_values r) = length (v_values v) /\
     forall i, (i < length (v_values v))%nat -> op_spec o (vget (v_values v) i) q (oget (xv_values r) i).
Proof. exact v_arith_num_lemma. Qed.
Print Assumptions vector_arith_scalar.
(* The matrix product of a square matrix with a matrix on the same axes. *)
Theorem matmul_is_matrix_product : forall m w, consistent m -> consistent w ->
  length (Eg m) = length (Ex m) -> close_axes (Eg m) (Eg w) -> length (Ex w) = length (Eg m) ->
  exists r, m_matmul m w = Ok r /\ consistent r /\ Eg r = Eg m /\ Ex r = Ex m /\
    forall i j, (i < length (Ex m))%nat -> (j < length (Eg m))%nat ->
      aget (values r) i j = sumn (length (Eg m)) (fun k => aget (values m) i k * aget (values w) k j).
Proof. exact matmul_lemma. Qed.
Print Assumptions matmul_is_matrix_product.
(* The check of the axes is not symmetric: a + b can work while b + a raises. *)
Definition tol_lo : Qc := 1.
Definition tol_hi : Qc := (1 + qn 1 100000000) / (1 - qn 1 100000).
Theorem arith_binning_check_symmetric_refuted : exists v w : vector,
  is_ok (v_arith OAdd v (OpObj w)) = true /\ v_arith OAdd w (OpObj v) = Raise ValueError.
Proof.
  exists (mkV [1;1] [tol_lo; qz 5] None KeV), (mkV [1;1] [tol_hi; qz 5] None KeV).
  split; vm_compute; reflexivity.
Qed.
Print Assumptions arith_binning_check_symmetric_refuted.
Definition exA := mkM (mkArr 2 [ql [1;2]; ql [3;4]; ql [5;6]]%Z) (ql [10;20]%Z) (ql [1;2;3]%Z) None (Some RAW).
Definition exB := mkM (mkArr 2 [ql [7;0]; ql [1;1]; ql [2;2]]%Z) (ql [10;20]%Z) (ql [1;2;3]%Z) None None.
Example exA_ok : consistent exA /\ consistent exB.
Proof. split; (split; [|exact I]); (split; [reflexivity|split; [reflexivity|]]); cbn; intros r [<-|[<-|[<-|[]]]]; reflexivity. Qed.
Example exAB_grid : same_grid exA exB.
Proof. split; [reflexivity|]. split; apply allclose_iff; reflexivity. Qed.
Definition ooeqb (a b : option Qc) : bool :=
  match a, b with Some x, Some y => qeqb x y | None, None => true | _, _ => false end.
Example exAB_div : exists r, m_arith ODiv exA (OpObj exB) = Ok r /\
  forallb (fun p => ooeqb (fst p) (snd p))
    (combine (concat (x_values r)) [Some (qn 1 7); None; Some (qz 3); Some (qz 4); Some (qn 5 2); Some (qz 3)]) = true.
Proof. eexists. split; [reflexivity|]. vm_compute. reflexivity. Qed.

(* C15: equality.  For vectors whose arrays have equal lengths == returns a bool, which is
   True exactly when all entries agree up to tolerance and the units are the same; it is
   reflexive without nan.  (Missing, because false: symmetry, reflexivity with nan, never
   raising; see the refutations.) *)
Theorem vector_eq_decides_closeness_partial : forall v w u u', same_form v w ->
  exists b, v_eq v w u u' = Ok b /\ (b = true <-> all_close v w u u').
Proof. exact v_eq_iff. Qed.
Print Assumptions vector_eq_decides_closeness_partial.
Theorem vector_eq_reflexive_partial : forall v u, no_nan v -> v_eq v v u u = Ok true.
Proof. exact v_eq_refl. Qed.
Print Assumptions vector_eq_reflexive_partial.
Theorem matrix_eq_decides_closeness_partial : forall m w, consistent m -> consistent w ->
  length (Ex m) = length (Ex w) -> length (Eg m) = length (Eg w) -> (std m = None <-> std w = None) ->
  exists b, m_eq m w = Ok b /\ (b = true <-> m_close m w).
Proof. exact m_eq_lemma. Qed.
Print Assumptions matrix_eq_decides_closeness_partial.
Theorem matrix_eq_reflexive : forall m, consistent m -> m_eq m m = Ok true.
Proof. exact m_eq_refl. Qed.
Print Assumptions matrix_eq_reflexive.
Theorem eq_symmetric_refuted : exists v w u, v_eq v w u u = Ok true /\ v_eq w v u u = Ok false.
Proof.
  exists (mkNV [Some tol_lo] [qz 5] None), (mkNV [Some tol_hi] [qz 5] None), KeV. split; vm_compute; reflexivity.
Qed.
Print Assumptions eq_symmetric_refuted.
Theorem eq_nan_not_reflexive_refuted : exists v u, v_eq v v u u = Ok false.
Proof. exists (mkNV [Some 1; None] [qz 5; qz 6] None), KeV. vm_compute. reflexivity. Qed.
Print Assumptions eq_nan_not_reflexive_refuted.
(* Different lengths raise, and so does a vector with std compared with one without -
   unless one has length 1, which is broadcast, so that vectors of different length may
   compare equal. *)
Theorem eq_never_raises_refuted : exists v w u,
  v_eq v w u u = Raise ValueError /\ n_std v = None /\ n_std w = None /\ no_nan v /\ no_nan w.
Proof.
  exists (mkNV [Some 1; Some 1] [qz 5; qz 6] None), (mkNV [Some 1; Some 1; Some 1] [qz 5; qz 6; qz 7] None), KeV.
  split; [vm_compute; reflexivity|]. do 2 (split; [reflexivity|]).
  split; (split; [|exact I]); cbn; intros x H; intuition (subst; discriminate).
Qed.
Print Assumptions eq_never_raises_refuted.
Theorem eq_std_raises_refuted : exists v w u,
  v_eq v w u u = Raise ValueError /\ v_eq w v u u = Raise TypeError /\ n_values v = n_values w /\ n_E v = n_E w.
Proof.
  exists (mkNV [Some 1; Some 1] [qz 5; qz 6] None), (mkNV [Some 1; Some 1] [qz 5; qz 6] (Some [Some 1; Some 1])), KeV.
  repeat split; vm_compute; reflexivity.
Qed.
Print Assumptions eq_std_raises_refuted.
Theorem eq_broadcast_refuted : exists v w u,
  v_eq v w u u = Ok true /\ length (n_values v) <> length (n_values w).
Proof.
  exists (mkNV [Some 1] [qz 5] None), (mkNV [Some 1; Some 1; Some 1] [qz 5; qz 5; qz 5] None), KeV.
  split; [vm_compute; reflexivity|cbn; lia].
Qed.
Print Assumptions eq_broadcast_refuted.
Example eq_example : v_eq (mkNV [Some 1; Some (qz 7)] [qz 5; qz 6] (Some [Some 1; Some 1]))
                          (mkNV [Some 1; Some (qz 7 + qn 1 100000000)] [qz 5; qz 6] (Some [Some 1; Some 1])) KeV KeV = Ok true
  /\ m_eq exA exB = Ok false.
Proof. split; vm_compute; reflexivity. Qed.

(* C21: on arrays (with broadcasting) every element of div0 is finite, equals the quotient
   where that is finite and is 0 elsewhere; shapes that cannot be broadcast raise. *)
Theorem div0_arrays_partial : forall a b, (dlen a <> None \/ dlen b <> None) ->
  (forall n, bcast_len a b n -> exists l, np_div0 a b = Ok (DArr l) /\ length l = n /\
     forall i, (i < n)%nat -> finite (nth i l NaN) = true /\ div0_elem (bget a i) (bget b i) (nth i l NaN)) /\
  ((forall n, ~ bcast_len a b n) -> np_div0 a b = Raise ValueError).
Proof. exact np_div0_arr_full. Qed.
Print Assumptions div0_arrays_partial.
(* two finite Python numbers (missing: non-finite ones, refuted below) *)
Theorem div0_numbers_partial : forall x y, exists z,
  np_div0 (DNum (Fin x)) (DNum (Fin y)) = Ok (DNum (Fin z)) /\ div0_elem (Fin x) (Fin y) (Fin z) /\ z = div0 x y.
Proof. exact np_div0_num_lemma. Qed.
Print Assumptions div0_numbers_partial.
Theorem div0_scalar_nonfinite_refuted : exists x y z,
  np_div0 (DNum x) (DNum y) = Ok (DNum z) /\ finite z = false.
Proof. exists PInf, (Fin 1), PInf. split; reflexivity. Qed.
Print Assumptions div0_scalar_nonfinite_refuted.
Example div0_example : np_div0 (DArr [Fin 1; Fin 0; PInf; Fin 1]) (DArr [Fin 0; Fin 0; Fin 1; PInf]) =
  Ok (DArr [Fin 0; Fin 0; Fin 0; Fin 0]) /\ bcast_len (DArr [Fin 1]) (DArr [Fin 0; Fin 1]) 2.
Proof. split; [vm_compute; reflexivity|right; left; auto]. Qed.
