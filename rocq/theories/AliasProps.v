(* C74: objects that were not operated on keep their arrays.

   The full statement is false for the code: some statements make two variables (or two
   attributes) share one array.  Proved here: it holds for all programs without those
   statements (`..._partial`), it holds for single statements whenever nothing is shared,
   copies are always independent, and every sharing statement has a counterexample
   (`..._refuted`). *)
From Verif Require Import PyBase Axis MatrixModel MatrixRunModel VectorModel FillModel ArithModel AliasModel AliasSpec AliasProofs AliasStep AliasRun.
Local Open Scope nat_scope.

Section Props.
(* exp, sqrt, the gaussian smoothing of fill_negative and np.argsort are arbitrary *)
Variable expf : Qc -> Qc.
Variable sqrtf : Qc -> Qc.
Variable gauss : nat -> nat -> Qc.
Variable argsort : list Qc -> list nat.
Local Notation step := (step expf sqrtf gauss argsort).
Local Notation run := (run expf sqrtf gauss argsort).
Definition no_sharing (p : list op) : Prop := forallb (fun o => negb (shares o)) p = true.
(* the two variables have an array (element) in common *)
Definition share_cell (s : heap) (i j : nat) : Prop := exists c, In c (var_cells s i) /\ In c (var_cells s j).

(* Any statement, in any state: a variable that is not the target and has no array in common
   with the target keeps all it shows. *)
Theorem statement_changes_target_only s o s' r j :
  valid s -> step s o = (s', r) -> j < length (objs s) -> operates_on o <> Some j ->
  (forall i, operates_on o = Some i -> ~ share_cell s i j) -> shows s' j = shows s j.
Proof.
  intros V E L T D. eapply step_show_any; eauto. intros c H1 H2. unfold target_cells in H2. destruct (operates_on o) as [i|]; [|exact H2].
  apply (D i eq_refl). exists c. auto.
Qed.
(* Statements that only create objects (copies, constructors, arithmetic, inplace=False) never
   change an existing variable, shared or not. *)
Theorem creating_statement_changes_nothing s o s' r j :
  valid s -> operates_on o = None -> step s o = (s', r) -> j < length (objs s) -> shows s' j = shows s j.
Proof. intros V T E L. eapply statement_changes_target_only; eauto; rewrite T; discriminate. Qed.
(* All reachable states are valid. *)
Theorem reachable_valid p : valid (run start p).
Proof. apply run_valid. apply start_separate. Qed.
(* What a non-sharing statement creates has no array in common with any older variable and
   none between its own attributes, in any state. *)
Theorem created_objects_are_independent s o s' r j :
  valid s -> shares o = false -> operates_on o = None -> step s o = (s', r) -> length (objs s) <= j < length (objs s') ->
  NoDup (var_cells s' j) /\ forall k, k < length (objs s) -> ~ share_cell s' k j.
Proof.
  intros V SH T E L. assert (B : forall k, k < length (objs s) -> nth_error (objs s') k = nth_error (objs s) k).
  { intros k Hk. destruct (nth_error (objs s) k) as [x|] eqn:X; [|apply nth_error_None in X; lia]. eapply step_binding; eauto. rewrite T. discriminate. }
  destruct (step_kind expf sqrtf gauss argsort _ _ _ _ V E) as [->|[(_ & G & os & EO & _ & FR)|(i & T' & _)]]; [lia| |congruence].
  rewrite SH in FR. destruct (FR eq_refl) as [NF IF].
  assert (S1 : forall o c, In o os -> In c (cells o) -> length (mem s) <= c).
  { intros x c Hx Hc. apply (IF c). unfold ocells_of. apply in_concat. exists (cells x). split; [now apply in_map|exact Hc]. }
  destruct (nth_error (objs s') j) as [x|] eqn:X; [|apply nth_error_None in X; lia].
  pose proof X as X'. rewrite EO, nth_error_app2 in X' by lia. pose proof (nth_error_In _ _ X') as Hx. split.
  - unfold var_cells. rewrite X. unfold ocells_of in NF. clear -NF Hx. induction os as [|y os IH]; [easy|]. cbn in NF. apply nodup_app in NF as (N1 & N2 & _).
    destruct Hx as [->|Hx]; auto.
  - intros k Hk (c & H1 & H2). unfold var_cells in *. rewrite X in H2. rewrite B in H1 by exact Hk. specialize (S1 x c Hx H2).
    destruct (nth_error (objs s) k) as [y|] eqn:Y; [|exact H1]. specialize (V y c (nth_error_In _ _ Y) H1). lia.
Qed.
Theorem programs_keep_objects_apart_partial p : no_sharing p -> separate (run start p).
Proof. intros H. apply run_separate; [apply start_separate|exact H]. Qed.
(* The claim, for all programs without the sharing statements: whatever else the program q does
   after p, a variable on which no statement of q operates shows the same as before. *)
Theorem untouched_objects_keep_arrays_partial p q j :
  no_sharing p -> no_sharing q -> j < length (objs (run start p)) -> (forall o, In o q -> operates_on o <> Some j) ->
  shows (run (run start p) q) j = shows (run start p) j.
Proof. intros Hp Hq L T. apply run_show; auto. apply programs_keep_objects_apart_partial; exact Hp. Qed.

(* An in-place method leaves the target as described by the model of the method, whatever
   else exists: vectors... *)
Theorem vector_method_in_place s i c v xs :
  valid s -> nth_error (objs s) i = Some (HVec v) -> NoDup (var_cells s i) -> argument s (varg c) = Some xs ->
  forall v0, shows s i = Some (ShVec v0) ->
  shows (fst (step s (VecIn i c))) i = Some (ShVec (fst (vec_method expf sqrtf c xs v0))) /\
  snd (step s (VecIn i c)) = snd (vec_method expf sqrtf c xs v0).
Proof.
  intros V N ND AR v0 S0. unfold shows in S0. rewrite N in S0. cbn in S0. assert (E : v0 = look_vec (mem s) v) by congruence. subst v0.
  eapply vec_in_method; eauto. unfold var_cells in ND. rewrite N in ND. exact ND.
Qed.
(* ... and matrices (numpy arrays are rectangular) *)
Theorem matrix_method_in_place s i c m xs :
  valid s -> nth_error (objs s) i = Some (HMat m) -> NoDup (var_cells s i) -> argument s (marg c) = Some xs ->
  forall m0, shows s i = Some (ShMat m0) -> rectangular (values m0) ->
  shows (fst (step s (MatIn i c))) i = Some (ShMat (fst (mat_method gauss argsort c xs m0))) /\
  snd (step s (MatIn i c)) = snd (mat_method gauss argsort c xs m0).
Proof.
  intros V N ND AR m0 S0 R. unfold shows in S0. rewrite N in S0. cbn in S0. assert (E : m0 = look_mat (mem s) m) by congruence. subst m0.
  eapply mat_in_method; eauto. unfold var_cells in ND. rewrite N in ND. exact ND.
Qed.
(* inplace=False creates exactly one object, described by the model of the method, or raises
   and leaves the state as it was *)
Theorem vector_method_copy s i c v xs v0 :
  valid s -> nth_error (objs s) i = Some (HVec v) -> NoDup (var_cells s i) -> vec_has_inplace c = true -> argument s (varg c) = Some xs ->
  shows s i = Some (ShVec v0) ->
  match vec_copy_method expf sqrtf c xs v0 with
  | Ok w => snd (step s (VecOut i c)) = Ok tt /\ length (objs (fst (step s (VecOut i c)))) = S (length (objs s)) /\
            shows (fst (step s (VecOut i c))) (length (objs s)) = Some (ShVec w)
  | Raise e => step s (VecOut i c) = (s, Raise e)
  end.
Proof.
  intros V N ND IP AR S0. unfold shows in S0. rewrite N in S0. cbn in S0. assert (E : v0 = look_vec (mem s) v) by congruence. subst v0.
  unfold var_cells in ND. rewrite N in ND. pose proof (vec_out_method expf sqrtf gauss argsort s i c v xs V N ND IP AR) as H. unfold creates in H.
  destruct (vec_copy_method _ _ _ _ _); exact H.
Qed.
Theorem matrix_method_copy s i c m xs m0 :
  valid s -> nth_error (objs s) i = Some (HMat m) -> NoDup (var_cells s i) -> mat_has_inplace c = true -> argument s (marg c) = Some xs ->
  shows s i = Some (ShMat m0) -> rectangular (values m0) ->
  match mat_copy_method c xs m0 with
  | Ok w => snd (step s (MatOut i c)) = Ok tt /\ length (objs (fst (step s (MatOut i c)))) = S (length (objs s)) /\
            shows (fst (step s (MatOut i c))) (length (objs s)) = Some (ShMat w)
  | Raise e => step s (MatOut i c) = (s, Raise e)
  end.
Proof.
  intros V N ND IP AR S0 R. unfold shows in S0. rewrite N in S0. cbn in S0. assert (E : m0 = look_mat (mem s) m) by congruence. subst m0.
  unfold var_cells in ND. rewrite N in ND. pose proof (mat_out_method expf sqrtf gauss argsort s i c m xs V N ND R IP AR) as H. unfold creates in H.
  destruct (mat_copy_method _ _ _); exact H.
Qed.
(* x.copy() shows the same as x, also when x shares arrays *)
Theorem copy_shows_the_same s i : valid s -> i < length (objs s) ->
  snd (step s (Deepcopy i)) = Ok tt /\ shows (fst (step s (Deepcopy i))) (length (objs s)) = shows s i.
Proof.
  intros V L. destruct (nth_error (objs s) i) as [o|] eqn:N; [|apply nth_error_None in N; lia].
  destruct (deepcopy_shows expf sqrtf gauss argsort s i o V N) as (H1 & _ & H2). split; [exact H1|]. unfold shows at 2. rewrite N. exact H2.
Qed.

(* --- a program without sharing statements -------------------------------------------------- *)
(* two vectors and a matrix; the second vector is cut, converted and rebinned, the first is
   copied and the copy changed, the matrix is cut in place *)
Definition vals4 := ql [1; 2; 3; 4]%Z.
Definition E4 := ql [100; 200; 300; 400]%Z.
Definition arr22 := mkArr 2 [ql [1; 2]%Z; ql [3; 4]%Z].
Definition example_program : list op :=
  [ VecNew (Some (STemp vals4)) (STemp E4) (Some (STemp vals4)) KeV;
    VecNew (Some (SAttr 0 AValues)) (SAttr 0 AE) None KeV;
    MatNew (STemp2 arr22) (Some (STemp (ql [100; 200]%Z))) (Some (STemp (ql [100; 200]%Z))) None SNone ].
Definition example_changes : list op :=
  [ VecIn 1 (CCut (Some (qz 200)) None);
    VecIn 1 CToMeV;
    Deepcopy 0;
    SetItem 3 0 (qz 77);
    VecOut 0 (CRebin None (Some (qz 2)));
    Arith OAdd 0 (OpObj 3);
    MatIn 2 CToLower;
    MatOut 2 (CMCut (AInt 1) (Some (qz 100)) (Some (qz 100)) true true) ].
Example example_runs :
  no_sharing example_program /\ no_sharing example_changes /\
  length (objs (run start example_program)) = 3 /\
  (forall o, In o example_changes -> operates_on o <> Some 0) /\
  match shows (run (run start example_program) example_changes) 1, shows (run (run start example_program) example_changes) 0 with
  | Some (ShVec w), Some (ShVec v) => leqb (v_E w) [qn 2 10; qn 3 10; qn 4 10] && leqb (v_values v) vals4 && leqb (v_E v) E4
  | _, _ => false
  end = true /\
  length (objs (run (run start example_program) example_changes)) = 7.
Proof.
  split; [reflexivity|]. split; [reflexivity|]. split; [vm_compute; reflexivity|]. split.
  - intros o H. repeat (destruct H as [<-|H]; [discriminate|]). destruct H.
  - split; vm_compute; reflexivity.
Qed.
Example example_untouched : shows (run (run start example_program) example_changes) 0 = shows (run start example_program) 0.
Proof. destruct example_runs as (A & B & C & D & _). apply untouched_objects_keep_arrays_partial; auto. rewrite C. lia. Qed.

(* --- the statements that share ------------------------------------------------------------- *)
Definition energies_of (x : option shown) : list Qc :=
  match x with Some (ShVec v) => v_E v | Some (ShMat m) => Eg m ++ Ex m | Some (ShArr l) => l | Some (ShArr2 a) => concat (a_rows a) | _ => [] end.
Lemma shown_differs a b : leqb (energies_of a) (energies_of b) = false -> a <> b.
Proof. intros H E. subst. assert (leqb (energies_of b) (energies_of b) = true) by (apply leqb_eq; reflexivity). congruence. Qed.
(* vector.py:405-425: v1.rebin(mids=v0.E) stores v0's own array; v1.to_MeV() then divides the
   energies of v0, which still says keV *)
Definition rebin_program : list op :=
  [ VecNew (Some (STemp vals4)) (STemp E4) None KeV;
    VecNew (Some (STemp vals4)) (STemp E4) None KeV;
    VecIn 1 (CRebin (Some (SAttr 0 AE)) None) ].
Theorem rebin_in_place_shares_refuted :
  exists p o j, j < length (objs (run start p)) /\ operates_on o <> Some j /\
    shows (fst (step (run start p) o)) j <> shows (run start p) j.
Proof.
  exists rebin_program, (VecIn 1 CToMeV), 0. split; [vm_compute; lia|]. split; [discriminate|]. apply shown_differs. vm_compute. reflexivity.
Qed.
(* vector.py:474-495 closest(E_new, inplace=True) stores the argument itself *)
Theorem closest_in_place_shares_refuted :
  exists p o j, j < length (objs (run start p)) /\ operates_on o <> Some j /\
    shows (fst (step (run start p) o)) j <> shows (run start p) j.
Proof.
  exists [ NewArr (ql [150; 350]%Z); VecNew (Some (STemp vals4)) (STemp E4) None KeV; VecIn 1 (CClosest (SAttr 0 AWhole) SideLeft) ], (VecIn 1 CToMeV), 0.
  split; [vm_compute; lia|]. split; [discriminate|]. apply shown_differs. vm_compute. reflexivity.
Qed.
(* matrix.py:744-747: m.rebin('Ex', mids=v.E) stores the array of v; m.to_lower_bin() (which
   Matrix.plot calls) moves the energies of v *)
Theorem matrix_rebin_in_place_shares_refuted :
  exists p o j, j < length (objs (run start p)) /\ operates_on o <> Some j /\
    shows (fst (step (run start p) o)) j <> shows (run start p) j.
Proof.
  exists [ NewArr (ql [100; 200]%Z);
           MatNew (STemp2 arr22) (Some (STemp (ql [100; 200]%Z))) (Some (STemp (ql [100; 200]%Z))) None SNone;
           MatIn 1 (CMRebin true (Some (SAttr 0 AWhole)) None) ], (MatIn 1 CToLower), 0.
  split; [vm_compute; lia|]. split; [discriminate|]. apply shown_differs. vm_compute. reflexivity.
Qed.
(* matrix.py:132: std is stored without a copy: writing to the caller's array changes the matrix *)
Definition std_of (x : option shown) : list Qc := match x with Some (ShMat m) => match std m with Some a => concat (a_rows a) | None => [] end | _ => [] end.
Theorem matrix_std_shares_refuted :
  exists p o j, j < length (objs (run start p)) /\ operates_on o <> Some j /\
    shows (fst (step (run start p) o)) j <> shows (run start p) j.
Proof.
  exists [ NewArr2 arr22; MatNew (STemp2 arr22) None None (Some (SAttr2 0 AWhole)) SNone ], (SetItem2 0 0 0 (qz 9)), 1.
  split; [vm_compute; lia|]. split; [discriminate|]. intros E.
  assert (H : leqb (std_of (shows (fst (step (run start [ NewArr2 arr22; MatNew (STemp2 arr22) None None (Some (SAttr2 0 AWhole)) SNone ]) (SetItem2 0 0 0 (qz 9)))) 1))
                   (std_of (shows (run start [ NewArr2 arr22; MatNew (STemp2 arr22) None None (Some (SAttr2 0 AWhole)) SNone ]) 1)) = false) by (vm_compute; reflexivity).
  rewrite E in H. assert (K : forall l, leqb l l = true) by (intros l; apply leqb_eq; reflexivity). rewrite K in H. discriminate.
Qed.
(* matrix.py:447-453: the energies returned by projection are the axis of the matrix *)
Theorem projection_axis_shares_refuted :
  exists p o j, j < length (objs (run start p)) /\ operates_on o <> Some j /\
    shows (fst (step (run start p) o)) j <> shows (run start p) j.
Proof.
  exists [ MatNew (STemp2 arr22) (Some (STemp (ql [100; 200]%Z))) (Some (STemp (ql [100; 200]%Z))) None SNone;
           Project 0 (AInt 0) None None false ], (SetItem 2 0 (qz 5)), 0.
  split; [vm_compute; lia|]. split; [discriminate|]. apply shown_differs. vm_compute. reflexivity.
Qed.
(* matrix.py:717-721: rebin('both', mids) stores one array as Ex and as Eg, so that
   to_lower_bin moves both axes by a whole bin instead of half a bin *)
Definition both_program : list op :=
  [ MatNew (STemp2 arr22) (Some (STemp (ql [100; 200]%Z))) (Some (STemp (ql [100; 200]%Z))) None SNone;
    NewArr (ql [100; 200]%Z);
    MatIn 0 (CMRebin false (Some (SAttr 1 AWhole)) None);
    MatIn 0 (CMRebin true (Some (SAttr 1 AWhole)) None) ].
Theorem both_axes_share_refuted :
  exists p i m0 m1, shows (run start p) i = Some (ShMat m0) /\
    shows (fst (step (run start p) (MatIn i CToLower))) i = Some (ShMat m1) /\
    Ok m1 <> to_lower_bin m0 /\ hd 0%Qc (Ex m0) = qz 100 /\ hd 0%Qc (Ex m1) = qz 0.
Proof.
  exists both_program, 0.
  assert (H : match shows (run start both_program) 0, shows (fst (step (run start both_program) (MatIn 0 CToLower))) 0 with
              | Some (ShMat m0), Some (ShMat m1) => qeqb (hd 0%Qc (Ex m0)) (qz 100) && qeqb (hd 0%Qc (Ex m1)) (qz 0) &&
                  match to_lower_bin m0 with Ok w => qeqb (hd 0%Qc (Ex w)) (qz 50) | _ => false end
              | _, _ => false end = true) by (vm_compute; reflexivity).
  destruct (shows (run start both_program) 0) as [[l|a|v|m0]|]; try discriminate H.
  destruct (shows (fst (step (run start both_program) (MatIn 0 CToLower))) 0) as [[l|a|v|m1]|]; try discriminate H.
  exists m0, m1. split; [reflexivity|]. split; [reflexivity|]. apply andb_prop in H as [H H3]. apply andb_prop in H as [H1 H2].
  apply qeqb_eq in H1, H2. split; [|auto]. intros E. rewrite <- E in H3. apply qeqb_eq in H3. rewrite H2 in H3. discriminate H3.
Qed.
(* matrix.py:722-726: rebin('both', mids, inplace=False) makes a copy for the first axis and
   then rebins that copy in place: its Ex is the caller's array *)
Theorem both_axes_copy_shares_refuted :
  exists p o j, j < length (objs (run start p)) /\ operates_on o <> Some j /\
    shows (fst (step (run start p) o)) j <> shows (run start p) j.
Proof.
  exists [ MatNew (STemp2 arr22) (Some (STemp (ql [100; 200]%Z))) (Some (STemp (ql [100; 200]%Z))) None SNone;
           NewArr (ql [100; 200]%Z);
           MatOut 0 (CMRebin false (Some (SAttr 1 AWhole)) None);
           MatIn 2 (CMRebin true (Some (SAttr 1 AWhole)) None) ], (MatIn 2 CToLower), 1.
  split; [vm_compute; lia|]. split; [discriminate|]. apply shown_differs. vm_compute. reflexivity.
Qed.
(* abstractarray.py:135: m[r] is a view of the values *)
Definition values_of (x : option shown) : list Qc := match x with Some (ShMat m) => concat (a_rows (values m)) | _ => [] end.
Theorem row_shares_refuted :
  exists p o j, j < length (objs (run start p)) /\ operates_on o <> Some j /\
    shows (fst (step (run start p) o)) j <> shows (run start p) j.
Proof.
  exists [ MatNew (STemp2 arr22) None None None SNone; Row 0 1 ], (SetItem 1 0 (qz 9)), 0.
  split; [vm_compute; lia|]. split; [discriminate|]. intros E.
  assert (H : leqb (values_of (shows (fst (step (run start [ MatNew (STemp2 arr22) None None None SNone; Row 0 1 ]) (SetItem 1 0 (qz 9)))) 0))
                   (values_of (shows (run start [ MatNew (STemp2 arr22) None None None SNone; Row 0 1 ]) 0)) = false) by (vm_compute; reflexivity).
  rewrite E in H. assert (K : forall l, leqb l l = true) by (intros l; apply leqb_eq; reflexivity). rewrite K in H. discriminate.
Qed.
End Props.
Print Assumptions statement_changes_target_only.
Print Assumptions creating_statement_changes_nothing.
Print Assumptions reachable_valid.
Print Assumptions created_objects_are_independent.
Print Assumptions programs_keep_objects_apart_partial.
Print Assumptions untouched_objects_keep_arrays_partial.
Print Assumptions vector_method_in_place.
Print Assumptions matrix_method_in_place.
Print Assumptions vector_method_copy.
Print Assumptions matrix_method_copy.
Print Assumptions copy_shows_the_same.
Print Assumptions rebin_in_place_shares_refuted.
Print Assumptions closest_in_place_shares_refuted.
Print Assumptions matrix_rebin_in_place_shares_refuted.
Print Assumptions matrix_std_shares_refuted.
Print Assumptions projection_axis_shares_refuted.
Print Assumptions both_axes_share_refuted.
Print Assumptions both_axes_copy_shares_refuted.
Print Assumptions row_shares_refuted.
