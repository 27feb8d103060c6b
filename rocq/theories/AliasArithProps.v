(* C14, with memory: arithmetic leaves its operands, and everything else, as they were.  The
   result is a new object. *)
From Verif Require Import PyBase Axis MatrixModel MatrixSpec MatrixRunModel VectorModel FillModel ArithModel ArithSpec ArithProofs ArithProps
  AliasModel AliasSpec AliasProofs AliasStep AliasRun AliasProps.
Local Open Scope nat_scope.

(* the right operand as it is seen: a number, or what the variable shows *)
Definition vec_operand (s : heap) (y : operand nat) (r : operand vector) : Prop :=
  match y, r with
  | OpNum q, OpNum q' => q = q'
  | OpObj j, OpObj w => shows s j = Some (ShVec w)
  | _, _ => False
  end.
Definition mat_operand (s : heap) (y : operand nat) (r : operand matrix) : Prop :=
  match y, r with
  | OpNum q, OpNum q' => q = q'
  | OpObj j, OpObj w => shows s j = Some (ShMat w) /\ consistent w
  | _, _ => False
  end.
(* what was there still shows the same *)
Definition undisturbed (s s' : heap) : Prop := forall j, j < length (objs s) -> shows s' j = shows s j.
(* s' has one variable more than s, showing x; none of its arrays is an array of another
   variable, nor are two of its attributes the same array *)
Definition one_more (s s' : heap) (x : shown) : Prop :=
  length (objs s') = S (length (objs s)) /\ shows s' (length (objs s)) = Some x /\
  NoDup (var_cells s' (length (objs s))) /\ forall k, k < length (objs s) -> ~ share_cell s' k (length (objs s)).

Lemma all_some_iff {A} (l : list (option A)) m : all_some l = Some m <-> l = map Some m.
Proof.
  revert m. induction l as [|[x|] l IH]; intros m; cbn [all_some].
  - split; [intros H; injection H as <-; reflexivity|]. destruct m; [reflexivity|discriminate].
  - destruct (all_some l) as [t|] eqn:E.
    + split; [intros H; injection H as <-; cbn; f_equal; now apply IH|]. destruct m as [|y m]; [discriminate|]. cbn. intros H. injection H as -> H. apply IH in H. congruence.
    + split; [discriminate|]. destruct m as [|y m]; [discriminate|]. cbn. intros H. injection H as -> H. apply IH in H. discriminate.
  - split; [discriminate|]. destruct m; discriminate.
Qed.
Lemma all_some_none {A} (l : list (option A)) : all_some l = None -> In None l.
Proof.
  induction l as [|[x|] l IH]; cbn [all_some]; [discriminate| |now left]. destruct (all_some l); [discriminate|]. intros _. right. auto.
Qed.
Lemma mapi_replace (vals l : list Qc) : length vals = length l -> mapi (fun k _ => vget vals k) l = vals.
Proof.
  intros L. apply (nth_ext _ _ 0%Qc 0%Qc); [rewrite mapi_length; congruence|]. intros n H. rewrite mapi_length in H. rewrite (nth_mapi _ _ _ _ 0%Qc) by exact H. reflexivity.
Qed.

Section Props.
Variable expf : Qc -> Qc.
Variable sqrtf : Qc -> Qc.
Variable gauss : nat -> nat -> Qc.
Variable argsort : list Qc -> list nat.
Local Notation step := (step expf sqrtf gauss argsort).

Theorem vector_arithmetic_is_pure : forall s o i y v r s' out, valid s -> shows s i = Some (ShVec v) -> vec_operand s y r ->
  step s (Arith o i y) = (s', out) ->
  undisturbed s s' /\
  match v_arith o v r with
  | Raise e => out = Raise e /\ s' = s
  | Ok x =>
      (exists vals, xv_values x = map Some vals /\ out = Ok tt /\ one_more s s' (ShVec (mkV vals (v_E v) (v_std v) (v_units v)))) \/
      (In None (xv_values x) /\ out = Raise ZeroDivErr /\ s' = s)
  end.
Proof.
  intros s o i y v r s' out V SI SY E. split; [intros j L; eapply creating_statement_changes_nothing; eauto; reflexivity|].
  assert (IND : length (objs s') = S (length (objs s)) -> NoDup (var_cells s' (length (objs s))) /\ forall k, k < length (objs s) -> ~ share_cell s' k (length (objs s))).
  { intros L. eapply created_objects_are_independent; eauto; [reflexivity..|lia]. }
  cbn [AliasModel.step] in E. unfold arith, find_obj in E. unfold shows in SI. destruct (nth_error (objs s) i) as [ob|] eqn:N; [|discriminate SI]. cbn in SI.
  destruct ob as [a|a|v'|m]; cbn [show] in SI; try discriminate SI. injection SI as SI.
  assert (RHS : match y with
                 | OpNum q => Ok (OpNum q)
                 | OpObj j => do w <- find_obj s j ;;
                              match w with HVec w => Ok (OpObj (look_vec (mem s) w)) | _ => Ok OpOther end
                 | OpOther => Ok OpOther
                 end = Ok r).
  { destruct y as [q|j|], r as [q'|w|]; cbn in SY; try contradiction; [now subst|]. unfold find_obj. unfold shows in SY.
    destruct (nth_error (objs s) j) as [ob|]; [|discriminate SY]. cbn in SY. destruct ob; cbn [show] in SY; try discriminate SY. injection SY as <-. reflexivity. }
  unfold find_obj in RHS. rewrite RHS in E. cbn [rbind] in E. rewrite SI in E. destruct (v_arith o v r) as [x|e] eqn:AR; [|injection E as <- <-; now split].
  assert (LX : length (xv_values x) = length (v_values v)).
  { destruct r as [q|w|]; [..|discriminate AR].
    - destruct (vector_arith_scalar o v q) as (x' & A & _ & _ & _ & L & _). congruence.
    - destruct (vector_arith_elementwise o v w) as [P Q]. destruct (v_equal_binning_iff v w) as [[G _]|[G _]]; [|rewrite (Q G) in AR; discriminate AR].
      destruct (P G) as (x' & A & _ & _ & _ & L & _). congruence. }
  destruct (all_some (xv_values x)) as [vals|] eqn:AS; [|right; split; [now apply all_some_none|injection E as <- <-; now split]].
  left. apply all_some_iff in AS. exists vals. split; [exact AS|].
  destruct (deep_vec (mem s) v') as [h1 w] eqn:DV. destruct (do_vec h1 w _) as [h2 w'] eqn:D. injection E as <- <-. split; [reflexivity|].
  cbn [objs] in *. assert (L : length (objs s ++ [HVec w']) = S (length (objs s))) by (rewrite app_length; cbn; lia).
  split; [exact L|]. split; [|apply IND; exact L]. rewrite shows_app. cbn [show]. do 2 f_equal.
  apply new_vec_spec in DV as (G & FR & LV). apply do_vec_spec in D as (_ & _ & C).
  2:{ unfold vgood. cbn [ve_values ve_std ve_E]. split; [destruct (in_place_op o); intros b; discriminate|]. split; [intros b; discriminate|left; intros b; discriminate]. }
  destruct C as [C _]; [eapply fresh_fit; exact FR|apply FR|intros c []|].
  rewrite C. rewrite LV, <- SI.
  2-4: intros c0 Hc; apply (valid_fit _ _ _ V N); cbn [cells]; unfold vcells; rewrite !in_app_iff; auto.
  unfold vafter. cbn [ve_values ve_E ve_std ve_units after1 v_values v_E v_std v_units].
  rewrite after1o_keep. fold (look_vec (mem s) v'). rewrite SI in *. f_equal; try (rewrite <- SI; reflexivity).
  assert (LL : length vals = length (v_values v)) by (rewrite AS, map_length in LX; exact LX).
  destruct (in_place_op o); cbn [after1]; [|reflexivity]. rewrite <- SI in LL. apply mapi_replace. exact LL.
Qed.

Theorem matrix_arithmetic_is_pure : forall s o i y m r s' out, valid s -> shows s i = Some (ShMat m) -> consistent m -> mat_operand s y r ->
  step s (Arith o i y) = (s', out) ->
  undisturbed s s' /\
  match m_arith o m r with
  | Raise e => out = Raise e /\ s' = s
  | Ok x =>
      (exists vals, x_values x = map (map Some) vals /\ out = Ok tt /\
         one_more s s' (ShMat (mkM (mkArr (a_nc (values m)) vals) (Eg m) (Ex m) (std m) (state m)))) \/
      ((exists row, In row (x_values x) /\ In None row) /\ out = Raise ZeroDivErr /\ s' = s)
  end.
Proof.
  intros s o i y m r s' out V SI CM SY E. split; [intros j L; eapply creating_statement_changes_nothing; eauto; reflexivity|].
  assert (IND : length (objs s') = S (length (objs s)) -> NoDup (var_cells s' (length (objs s))) /\ forall k, k < length (objs s) -> ~ share_cell s' k (length (objs s))).
  { intros L. eapply created_objects_are_independent; eauto; [reflexivity..|lia]. }
  cbn [AliasModel.step] in E. unfold arith, find_obj in E. unfold shows in SI. destruct (nth_error (objs s) i) as [ob|] eqn:N; [|discriminate SI]. cbn in SI.
  destruct ob as [a|a|v'|m']; cbn [show] in SI; try discriminate SI. injection SI as SI.
  assert (RHS : match y with
                 | OpNum q => Ok (OpNum q)
                 | OpObj j => do w <- find_obj s j ;;
                              match w with HMat w => Ok (OpObj (look_mat (mem s) w)) | _ => Ok OpOther end
                 | OpOther => Ok OpOther
                 end = Ok r /\ match r with OpObj w => consistent w | _ => True end).
  { destruct y as [q|j|], r as [q'|w|]; cbn in SY; try contradiction; [now subst|]. destruct SY as [SY CW]. split; [|exact CW]. unfold find_obj. unfold shows in SY.
    destruct (nth_error (objs s) j) as [ob|]; [|discriminate SY]. cbn in SY. destruct ob; cbn [show] in SY; try discriminate SY. injection SY as <-. reflexivity. }
  destruct RHS as [RHS CW]. unfold find_obj in RHS. rewrite RHS in E. cbn [rbind] in E. rewrite SI in E.
  destruct (m_arith o m r) as [x|e] eqn:AR; [|injection E as <- <-; now split].
  assert (LX : length (x_values x) = length (Ex m) /\ forall i, i < length (Ex m) -> length (nth i (x_values x) []) = length (Eg m)).
  { destruct r as [q|w|]; [..|discriminate AR].
    - destruct (matrix_arith_scalar o m q CM) as (x' & A & _ & _ & _ & _ & L & F). replace x with x' by congruence. split; [exact L|]. intros k Hk. apply F. exact Hk.
    - destruct (matrix_arith_elementwise o m w CM CW) as [P Q]. destruct (m_equal_binning_iff m w) as [[G _]|[G _]]; [|rewrite (Q G) in AR; discriminate AR].
      destruct (P G) as (x' & A & _ & _ & _ & _ & L & F). replace x with x' by congruence. split; [exact L|]. intros k Hk. apply F. exact Hk. }
  destruct (all_some (map (fun r => all_some r) (x_values x))) as [vals|] eqn:AS.
  2:{ right. apply all_some_none, in_map_iff in AS as (row & NR & IR). split; [exists row; split; [exact IR|now apply all_some_none]|]. injection E as <- <-; now split. }
  left. apply all_some_iff in AS.
  assert (XV : x_values x = map (map Some) vals).
  { clear - AS. revert AS. generalize (x_values x). intros l. revert vals. induction l as [|a l IH]; intros [|v vals] H; try discriminate H; [reflexivity|].
    cbn in H. injection H as H1 H2. apply all_some_iff in H1. cbn. f_equal; auto. }
  exists vals. split; [exact XV|].
  destruct (deep_mat (mem s) m') as [h1 w] eqn:DV. destruct (do_mat h1 w _) as [h2 w'] eqn:D. injection E as <- <-. split; [reflexivity|].
  cbn [objs] in *. assert (L : length (objs s ++ [HMat w']) = S (length (objs s))) by (rewrite app_length; cbn; lia).
  split; [exact L|]. split; [|apply IND; exact L]. rewrite shows_app. cbn [show]. do 2 f_equal.
  apply deep_mat_spec in DV as (G & FR & LV). apply do_mat_spec in D as (_ & _ & C).
  2:{ left. split; intros b; discriminate. }
  destruct C as [C _]; [eapply fresh_fit; exact FR|apply FR|intros c []|].
  rewrite C, LV, SI by (exact (valid_fit _ _ _ V N)).
  unfold mafter. cbn [me_values me_Ex me_Eg me_state after1].
  assert (ST : hm_state m' = state m) by (rewrite <- SI; reflexivity). rewrite ST. f_equal.
  assert (NC : h_nc (hm_values m') = a_nc (values m)) by (rewrite <- SI; reflexivity). rewrite NC.
  destruct LX as [L1 L2]. rewrite XV, map_length in L1.
  assert (L3 : forall k, k < length (Ex m) -> length (nth k vals []) = length (Eg m)).
  { intros k Hk. rewrite <- (L2 k Hk), XV. change (@nil (option Qc)) with (map (@Some Qc) []). rewrite map_nth, map_length. reflexivity. }
  destruct CM as [(CN & CR & CC) _]. destruct (in_place_op o); cbn [after2]; [|reflexivity]. f_equal.
  apply (nth_ext _ _ [] []); [rewrite mapi_length; congruence|]. intros k Hk. rewrite mapi_length in Hk. rewrite (nth_mapi _ _ _ _ []) by exact Hk.
  unfold mget. apply (mapi_replace (nth k vals [])). rewrite L3 by congruence. symmetry. apply CC. now apply nth_In.
Qed.

Theorem matrix_product_is_pure : forall s i j m w s' out, valid s -> shows s i = Some (ShMat m) -> shows s j = Some (ShMat w) ->
  step s (MatMul i j) = (s', out) ->
  undisturbed s s' /\
  match m_matmul m w with
  | Raise e => out = Raise e /\ s' = s
  | Ok x => out = Ok tt /\ one_more s s' (ShMat (mkM (values x) (Eg m) (Ex m) (std m) (state m)))
  end.
Proof.
  intros s i j m w s' out V SI SJ E. split; [intros k L; eapply creating_statement_changes_nothing; eauto; reflexivity|].
  assert (IND : length (objs s') = S (length (objs s)) -> NoDup (var_cells s' (length (objs s))) /\ forall k, k < length (objs s) -> ~ share_cell s' k (length (objs s))).
  { intros L. eapply created_objects_are_independent; eauto; [reflexivity..|lia]. }
  cbn [AliasModel.step] in E. unfold matmul, find_obj in E. unfold shows in SI, SJ.
  destruct (nth_error (objs s) i) as [ob|] eqn:N; [|discriminate SI]. destruct (nth_error (objs s) j) as [oj|] eqn:NJ; [|discriminate SJ]. cbn in SI, SJ.
  destruct ob as [a|a|v'|m']; cbn [show] in SI; try discriminate SI. injection SI as SI.
  destruct oj as [a|a|v'|w']; cbn [show] in SJ; try discriminate SJ. injection SJ as SJ. rewrite SI, SJ in E.
  destruct (m_matmul m w) as [p|e]; [|injection E as <- <-; now split].
  destruct (deep_mat (mem s) m') as [h1 r] eqn:DV. destruct (do_mat h1 r _) as [h2 r'] eqn:D. injection E as <- <-. split; [reflexivity|].
  cbn [objs] in *. assert (L : length (objs s ++ [HMat r']) = S (length (objs s))) by (rewrite app_length; cbn; lia).
  split; [exact L|]. split; [|apply IND; exact L]. rewrite shows_app. cbn [show]. do 2 f_equal.
  apply deep_mat_spec in DV as (G & FR & LV). apply do_mat_spec in D as (_ & _ & C); [|left; split; intros b; discriminate].
  destruct C as [C _]; [eapply fresh_fit; exact FR|apply FR|intros c []|].
  rewrite C, LV, SI by (exact (valid_fit _ _ _ V N)). unfold mafter. cbn [me_values me_Ex me_Eg me_state after1 after2].
  assert (ST : hm_state m' = state m) by (rewrite <- SI; reflexivity). now rewrite ST.
Qed.
End Props.
Print Assumptions vector_arithmetic_is_pure.
Print Assumptions matrix_arithmetic_is_pure.
Print Assumptions matrix_product_is_pure.
(* a vector subtracted from itself, and multiplied by a number *)
Definition arith_prog : list op :=
  [VecNew (Some (STemp (ql [1; 2]%Z))) (STemp (ql [10; 20]%Z)) (Some (STemp (ql [1; 1]%Z))) KeV; Arith OSub 0 (OpObj 0); Arith OMul 0 (OpNum (qz 3))].
Example arithmetic_ex : forall e q g a, let s := AliasModel.run e q g a start arith_prog in
  length (objs s) = 3 /\ shows s 0 = Some (ShVec (mkV (ql [1; 2]%Z) (ql [10; 20]%Z) (Some (ql [1; 1]%Z)) KeV)) /\
  shows s 1 = Some (ShVec (mkV (ql [0; 0]%Z) (ql [10; 20]%Z) (Some (ql [1; 1]%Z)) KeV)) /\
  shows s 2 = Some (ShVec (mkV (ql [3; 6]%Z) (ql [10; 20]%Z) (Some (ql [1; 1]%Z)) KeV)).
Proof. intros. split; [reflexivity|]. repeat split; reflexivity. Qed.
Example matrix_arithmetic_ex : forall e q g a, let s := AliasModel.run e q g a start
    [MatNew (STemp2 (mkArr 2 [ql [1; 2]%Z; ql [3; 4]%Z])) (Some (STemp (ql [10; 20]%Z))) (Some (STemp (ql [10; 20]%Z))) None SNone; Arith OAdd 0 (OpObj 0); MatMul 0 0] in
  length (objs s) = 3 /\
  shows s 0 = Some (ShMat (mkM (mkArr 2 [ql [1; 2]%Z; ql [3; 4]%Z]) (ql [10; 20]%Z) (ql [10; 20]%Z) None None)) /\
  shows s 1 = Some (ShMat (mkM (mkArr 2 [ql [2; 4]%Z; ql [6; 8]%Z]) (ql [10; 20]%Z) (ql [10; 20]%Z) None None)) /\
  shows s 2 = Some (ShMat (mkM (mkArr 2 [ql [7; 10]%Z; ql [15; 22]%Z]) (ql [10; 20]%Z) (ql [10; 20]%Z) None None)).
Proof. intros. split; [reflexivity|]. repeat split; reflexivity. Qed.
