(* Refusals of the normaliser of the strength function and of the iteration (C66, C63). *)
From Verif Require Import PyBase NormStateModel RhosigchiModel.
From Coq Require Import Lia.
Import ListNotations.
Local Open Scope Qc_scope.

(* ------------------------------------------------------------------ normalizer_gsf.py 157-180 *)
(* No strength function: AssertionError.  No level density and no normaliser to take it from:
   AttributeError.  A normaliser that has not run: TypeError.  State and disk are kept. *)
Theorem gsf_normalize_refuses : forall L B P O tr M mo gp sc b (s : gst L B P O M) d, g_regen _ _ _ _ _ s = true ->
  let run := gsf_normalize L B P O tr M mo gp sc b s d in
  (b_gsf _ _ _ _ _ b = None -> g_in _ _ _ _ _ s = None -> run = (s, d, Raise AssertionError)) /\
  (b_gsf _ _ _ _ _ b <> None \/ g_in _ _ _ _ _ s <> None -> b_nld _ _ _ _ _ b = None ->
     (b_norm _ _ _ _ _ b = None -> g_norm _ _ _ _ _ s = None -> run = (s, d, Raise AttributeError)) /\
     (forall n, b_norm _ _ _ _ _ b = Some n \/ (b_norm _ _ _ _ _ b = None /\ g_norm _ _ _ _ _ s = Some n) -> n_res _ _ _ _ n = None ->
        run = (s, d, Raise TypeError))).
Proof.
  intros L B P O tr M mo gp sc b s d RG run. unfold run, gsf_normalize, frame. rewrite RG. unfold gsf_compute, self_if_nonable. split; [|intros G N; split].
  - intros -> ->. reflexivity.
  - intros -> ->. rewrite N. destruct (b_gsf _ _ _ _ _ b); [reflexivity|]. destruct (g_in _ _ _ _ _ s); [reflexivity|]. destruct G; congruence.
  - intros n HN HR. rewrite N. assert (E : match b_norm _ _ _ _ _ b with Some a => Some a | None => g_norm _ _ _ _ _ s end = Some n) by (destruct HN as [->|[-> ->]]; reflexivity). rewrite E. unfold norm_res. rewrite HR.
    destruct (b_gsf _ _ _ _ _ b); [reflexivity|]. destruct (g_in _ _ _ _ _ s); [reflexivity|]. destruct G; congruence.
Qed.
Print Assumptions gsf_normalize_refuses.

(* ------------------------------------------------------------------ rhosigchi.cpp 191-279 *)
(* Whatever the data: the iteration never divides by zero; it fails only by reading or writing
   outside of an array. *)
Definition only_index {A} (r : result A) : Prop := forall e, r = Raise e -> e = IndexError.
Lemma oi_ok {A} (x : A) : only_index (Ok x).
Proof. intros e H. discriminate. Qed.
Lemma oi_bind {A B} (r : result A) (k : A -> result B) : only_index r -> (forall x, r = Ok x -> only_index (k x)) -> only_index (do x <- r ;; k x).
Proof. intros H K e. destruct r as [x|e']; cbn; [apply (K x eq_refl)|]. intros E. injection E as <-. now apply H. Qed.
Lemma oi_at {A} w (l : list A) i : only_index (at_ w l i).
Proof. intros e. unfold at_. destruct (_ <? 0)%Z; [now intros [= <-]|]. destruct (nth_error _ _); [discriminate|now intros [= <-]]. Qed.
Lemma oi_at2 {A} w (m : list (list A)) i j : only_index (at2 w m i j).
Proof. apply oi_bind; [apply oi_at|]. intros. apply oi_at. Qed.
Lemma oi_set {A} w (l : list A) i x : only_index (set_ w l i x).
Proof. intros e. unfold set_. destruct (_ || _); [now intros [= <-]|discriminate]. Qed.
Lemma oi_div a b : b <> 0 -> only_index (sdiv a b).
Proof. intros H. unfold sdiv. destruct (qeqb b 0) eqn:E; [|apply oi_ok]. exfalso. apply H. now destruct (qeqb_spec b 0). Qed.
Lemma oi_loop {S} (body : S -> Z -> result S) l : (forall s i, only_index (body s i)) -> forall s, only_index (loop body s l).
Proof. intros H. induction l as [|i l IH]; intros s; cbn; [apply oi_ok|]. apply oi_bind; [apply H|]. intros. apply IH. Qed.
Lemma pos_ne x : 0 < x -> x <> 0.
Proof. intros H E. subst x. now apply Qclt_not_eq in H. Qed.
Lemma ne_mul x y : x <> 0 -> y <> 0 -> x * y <> 0.
Proof. intros H K E. apply Qcmult_integral in E. tauto. Qed.
Ltac oi := repeat first [apply oi_ok | apply oi_at | apply oi_at2 | apply oi_set | (match goal with |- only_index (rbind _ _) => apply oi_bind; [|intros ? _] end) | (match goal with |- only_index (loop _ _ _) => apply oi_loop; intros end) ].
Lemma oi_row_sums w F sF L rho sig ix : only_index (row_sums w F sF L rho sig ix).
Proof.
  unfold row_sums. oi.
  - destruct s as [[f1 f2] f3]. unfold sums_body. oi. destruct (qltb 0 _) eqn:E; [|oi]. apply qltb_lt, pos_ne in E. oi; apply oi_div; [assumption|now apply ne_mul].
  - destruct x0 as [[f1 f2] f3]. destruct (qltb 0 f1) eqn:E; [|oi]. apply qltb_lt, pos_ne in E. oi; apply oi_div; repeat apply ne_mul; assumption.
Qed.
Lemma oi_nd_table w F sF L rho sig : only_index (nd_table w F sF L rho sig).
Proof.
  unfold nd_table. oi. unfold nd_row. apply oi_bind; [apply oi_row_sums|]. intros [[f1 f2] f3] _. oi. unfold nd_body. oi. destruct (qltb 0 _) eqn:E; [|oi]. apply qltb_lt, pos_ne in E.
  assert (f1 <> 0) by (intros ->; apply E; ring). assert (x1 <> 0) by (intros ->; apply E; ring). oi; apply oi_div; repeat apply ne_mul; assumption.
Qed.
Lemma oi_new_value v old up down : v <> 0 -> only_index (new_value v old up down).
Proof.
  intros V. unfold new_value. destruct (qltb 0 down) eqn:E; [|oi]. apply qltb_lt, pos_ne in E. oi; try (apply oi_div; assumption). destruct (qltb _ _); [oi|]. destruct (qltb _ _); oi.
Qed.
Lemma var_ne it : var it <> 0.
Proof. unfold var. destruct (it <=? 5)%nat, (it <=? 12)%nat, (it <=? 21)%nat, (it <=? 30)%nat; discriminate. Qed.
Lemma oi_step w F sF L v rho sig rho0 sig0 : v <> 0 -> only_index (step w F sF L v rho sig rho0 sig0).
Proof.
  intros V. unfold step. apply oi_bind; [apply oi_nd_table|]. intros nd _. oi.
  - unfold sig_entry, sig_body. oi. now apply oi_new_value. - unfold rho_entry, rho_body. oi. now apply oi_new_value.
Qed.
Theorem iterate_only_index_errors : forall wrap FgN sFgN L rows e,
  iterate wrap FgN sFgN L rows = Raise e -> e = IndexError.
Proof.
  intros w F sF L rows. change (only_index (iterate w F sF L rows)). unfold iterate. destruct rows as [|[rho sig] rest]; [oi|]. generalize 1%nat. revert rho sig.
  induction rest as [|[r0 s0] rest IH]; intros rho sig it; cbn [iterate_from]; [oi|]. apply oi_bind; [apply oi_step, var_ne|]. intros [r s] _. apply oi_bind; [apply IH|]. intros. oi.
Qed.
Print Assumptions iterate_only_index_errors.

(* ------------------------------------------------------------------ examples *)
(* a zero uncertainty and a zero spectrum divide by nothing *)
Example iterate_zero_ex : exists out,
  iterate true [[1; 0]; [0; 0]] [[0; 0]; [0; 1]] (mkLim 0 2 0 [1; 2]%Z 0) [([1; 1], [1; 1]); ([0; 0], [0; 0])] = Ok out.
Proof. eexists. vm_compute. reflexivity. Qed.
Example iterate_index_ex : iterate false [[1]] [[1]] (mkLim 0 2 0 [1; 2]%Z 0) [([1; 1], [1; 1]); ([0; 0], [0; 0])] = Raise IndexError.
Proof. vm_compute. reflexivity. Qed.
Example gsf_refuses_ex :
  gsf_normalize unit unit unit unit (fun v _ _ => v) unit (fun _ => tt) (fun _ => Ok tt) (fun v _ _ _ => Ok (v, 1))
    (mkGA unit unit unit unit unit (Some (mkVec [1] [1] None true)) (Some (nld_new unit unit unit unit None None None true None tt)) None None None None)
    (gsf_new unit unit unit unit unit None None None None None None true (Some tt)) (fun _ => Absent)
  = (gsf_new unit unit unit unit unit None None None None None None true (Some tt), fun _ => Absent, Raise TypeError).
Proof. reflexivity. Qed.
