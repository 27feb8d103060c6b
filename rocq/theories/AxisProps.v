(* C16, C17: axis names and states.  Vocabulary in AxisSpec.v. *)
From Coq Require Import Ascii String. Import Coq.Init.Datatypes.
From Verif Require Import PyBase Axis AxisSpec AxisProofs.

Theorem axis_name_denotes : forall s,
  (forall a, to_plot_axis (AStr s) = Ok a <-> one_of s (axis_names a)) /\
  ((forall a, ~ one_of s (axis_names a)) -> to_plot_axis (AStr s) = Raise ValueError).
Proof. exact axis_str_lemma. Qed.
Print Assumptions axis_name_denotes.
Theorem axis_number_denotes : forall n,
  (forall a, to_plot_axis (AInt n) = Ok a <-> n = axis_number a) /\
  ((forall a, n <> axis_number a) -> to_plot_axis (AInt n) = Raise ValueError).
Proof. exact axis_int_lemma. Qed.
Print Assumptions axis_number_denotes.
Theorem axis_name_unique : forall s a b, one_of s (axis_names a) -> one_of s (axis_names b) -> a = b.
Proof. exact one_of_axis_excl. Qed.
Print Assumptions axis_name_unique.
Example axis_example : to_plot_axis (AStr "eGeX") = Ok AxBoth /\ to_plot_axis (AStr "EX") = Ok AxEx /\
  to_plot_axis (AStr "z") = Raise ValueError /\ to_plot_axis (AInt 3) = Raise ValueError.
Proof. repeat split. Qed.

(* C17: names and enum members denote the same states; what does not denote a state raises
   (KeyError or ValueError). *)
Theorem state_assignment_denotes : forall a, (forall s, set_state a = Ok s <-> denotes a s) /\
  ((forall s, ~ denotes a s) -> exists e, set_state a = Raise e /\ (e = KeyError \/ e = ValueError)).
Proof. exact set_state_denotes. Qed.
Print Assumptions state_assignment_denotes.
Theorem state_argument_unique : forall a s t, denotes a s -> denotes a t -> s = t.
Proof. exact denotes_fun. Qed.
Print Assumptions state_argument_unique.
(* after any history the state is what the last valid assignment denotes *)
Theorem state_is_last_valid_assignment : forall cur l a rest s,
  denotes a s -> (forall b, In b rest -> forall t, ~ denotes b t) ->
  assign_all cur (l ++ a :: rest) = s.
Proof. exact assign_all_last. Qed.
Print Assumptions state_is_last_valid_assignment.
Theorem state_ne_negates_eq_partial : forall s t,
  state_ne s (PState t) = negb (state_eq s (PState t)) /\ (state_eq s (PState t) = true <-> s = t).
Proof. exact state_ne_lemma. Qed.
Print Assumptions state_ne_negates_eq_partial.
(* against plain integers both comparisons are False *)
Theorem state_ne_refuted : exists s o, state_eq s o = false /\ state_ne s o = false.
Proof. exists RAW, (PInt 1). split; reflexivity. Qed.
Print Assumptions state_ne_refuted.
Example state_example : assign_all None [SStr "Raw"; SStr "unknown"; SState STD; SStr "FIRSTgen"; SOther; SStr "Standard Deviation"]
  = Some FIRST_GENERATION.
Proof. reflexivity. Qed.
