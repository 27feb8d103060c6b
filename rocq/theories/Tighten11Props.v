(* Assignments to single elements and further refusals, found by mutation testing. *)
From Coq Require Import Lia String.
From Verif Require Import PyBase Axis MatrixModel VectorModel AliasModel AliasSpec AliasProofs.
From Verif Require EnsRebinModel ExtractorModel FileModel.
Import ListNotations.
Local Open Scope list_scope.
Local Open Scope nat_scope.
Local Notation length := List.length (only parsing).

(* ------------------------------------------------------------------ v[k] = x, m[r, c] = x *)
Lemma mapi_upd (x : Qc) l : forall n k, mapi_from n (fun p y => if Nat.eqb p (n + k) then x else y) l = upd l k x.
Proof.
  induction l as [|y l IH]; intros n k; [now destruct k|]. cbn [mapi_from]. destruct k as [|k].
  - rewrite Nat.add_0_r, Nat.eqb_refl. cbn [upd]. f_equal. clear IH. assert (H : forall m, n < m -> mapi_from m (fun p z => if Nat.eqb p n then x else z) l = l).
    { induction l as [|z l IH]; intros m M; [reflexivity|]. cbn [mapi_from]. replace (Nat.eqb m n) with false by (symmetry; apply Nat.eqb_neq; lia). f_equal. apply IH. lia. }
    apply H. lia.
  - replace (Nat.eqb n (n + S k)) with false by (symmetry; apply Nat.eqb_neq; lia). cbn [upd]. f_equal. rewrite <- (IH (S n) k).
    replace (S n + k) with (n + S k) by lia. reflexivity.
Qed.
Lemma mapi_ext {A B} (f g : nat -> A -> B) l : forall n, (forall p y, n <= p < n + length l -> f p y = g p y) -> mapi_from n f l = mapi_from n g l.
Proof.
  induction l as [|y l IH]; intros n H; [reflexivity|]. cbn [mapi_from]. f_equal; [apply H; cbn; lia|]. apply IH. intros p z P. apply H. cbn [length]. lia.
Qed.
Lemma mapi_id (l : list Qc) : forall n, mapi_from n (fun _ y => y) l = l.
Proof. induction l as [|y l IH]; intros n; [reflexivity|]. cbn [mapi_from]. now rewrite IH. Qed.
Lemma mapi_upd_rows (x : Qc) c rows : forall n r, mapi_from n (fun p row => mapi (fun q y => if (Nat.eqb p (n + r) && Nat.eqb q c)%bool then x else y) row) rows =
  upd rows r (upd (nth r rows []) c x).
Proof.
  induction rows as [|row rows IH]; intros n r; [now destruct r|]. cbn [mapi_from]. destruct r as [|r].
  - rewrite Nat.add_0_r, Nat.eqb_refl. cbn [upd nth andb]. f_equal; [apply (mapi_upd x row 0 c)|]. clear IH.
    assert (H : forall m, n < m -> mapi_from m (fun p row => mapi (fun q y => if (Nat.eqb p n && Nat.eqb q c)%bool then x else y) row) rows = rows).
    { induction rows as [|z l IH]; intros m M; [reflexivity|]. cbn [mapi_from]. replace (Nat.eqb m n) with false by (symmetry; apply Nat.eqb_neq; lia). cbn [andb]. f_equal; [apply mapi_id|]. apply IH. lia. }
    apply H. lia.
  - replace (Nat.eqb n (n + S r)) with false by (symmetry; apply Nat.eqb_neq; lia). cbn [upd nth andb]. f_equal; [apply mapi_id|]. rewrite <- (IH (S n) r).
    replace (S n + r) with (n + S r) by lia. reflexivity.
Qed.

Section Assign.
Variable expf : Qc -> Qc.
Variable sqrtf : Qc -> Qc.
Variable gauss : nat -> nat -> Qc.
Variable argsort : list Qc -> list nat.
Local Notation step := (step expf sqrtf gauss argsort).

(* v[k] = x changes the value number k of the vector and nothing else of it; beyond the end it is
   refused and nothing changes. *)
Theorem vector_item_assignment s i k x v v0 :
  valid s -> nth_error (objs s) i = Some (HVec v) -> NoDup (var_cells s i) -> shows s i = Some (ShVec v0) ->
  (k < length (v_values v0) -> snd (step s (SetItem i k x)) = Ok tt /\
     shows (fst (step s (SetItem i k x))) i = Some (ShVec (mkV (upd (v_values v0) k x) (v_E v0) (v_std v0) (v_units v0)))) /\
  (length (v_values v0) <= k -> step s (SetItem i k x) = (s, Raise IndexError)).
Proof.
  intros V N ND S0. unfold shows in S0. rewrite N in S0. cbn in S0. assert (E : v0 = look_vec (mem s) v) by congruence. subst v0.
  cbn [look_vec v_values v_E v_std v_units]. unfold get at 1 5. rewrite map_length. cbn [AliasModel.step]. unfold find_obj. rewrite N. split; intros K.
  - replace (k <? length (hv_values v)) with true by (symmetry; now apply Nat.ltb_lt). cbn [fst snd]. split; [reflexivity|].
    unfold shows. cbn [with_mem objs mem]. rewrite N. cbn [option_map show]. do 2 f_equal. unfold look_vec.
    unfold var_cells in ND. rewrite N in ND. cbn [cells] in ND. unfold vcells in ND. apply nodup_app in ND as (ND1 & _ & D).
    assert (F : fit (mem s) (vcells v)) by (intros c C; apply (V (HVec v)); [now apply nth_error_In in N|exact C]).
    assert (F1 : fit (mem s) (hv_values v)) by (intros c C; apply F; unfold vcells; rewrite !in_app_iff; auto).
    destruct (write_spec (mem s) (hv_values v) (fun n y => if Nat.eqb n k then x else y)) as (_ & G & W). rewrite W by assumption.
    f_equal.
    + apply (mapi_upd x _ 0 k).
    + apply (grows_get (hv_values v)); [exact G|intros c C; apply F; unfold vcells; rewrite !in_app_iff; auto|]. intros c C1 C2. apply (D c C2). rewrite in_app_iff. auto.
    + destruct (hv_std v) as [sd|] eqn:SD; [|reflexivity]. cbn [option_map]. f_equal.
      apply (grows_get (hv_values v)); [exact G|intros c C; apply F; unfold vcells; rewrite !in_app_iff, SD; auto|]. intros c C1 C2. apply (D c C2). rewrite in_app_iff. auto.
  - replace (k <? length (hv_values v)) with false by (symmetry; now apply Nat.ltb_ge). reflexivity.
Qed.
(* m[r, c] = x changes the entry (r, c) of the matrix and nothing else of it *)
Theorem matrix_item_assignment s i r c x m m0 :
  valid s -> nth_error (objs s) i = Some (HMat m) -> NoDup (var_cells s i) -> shows s i = Some (ShMat m0) ->
  (r < length (a_rows (values m0)) -> c < a_nc (values m0) -> snd (step s (SetItem2 i r c x)) = Ok tt /\
     shows (fst (step s (SetItem2 i r c x))) i = Some (ShMat (mkM
       (mkArr (a_nc (values m0)) (upd (a_rows (values m0)) r (upd (nth r (a_rows (values m0)) []) c x))) (Eg m0) (Ex m0) (std m0) (state m0)))) /\
  (length (a_rows (values m0)) <= r \/ a_nc (values m0) <= c -> step s (SetItem2 i r c x) = (s, Raise IndexError)).
Proof.
  intros V N ND S0. unfold shows in S0. rewrite N in S0. cbn in S0. assert (E : m0 = look_mat (mem s) m) by congruence. subst m0.
  cbn [look_mat values Eg Ex std state get2 a_rows a_nc]. rewrite map_length. cbn [AliasModel.step]. unfold find_obj. rewrite N. split.
  - intros R C. replace (r <? length (h_rows (hm_values m))) with true by (symmetry; now apply Nat.ltb_lt).
    replace (c <? h_nc (hm_values m)) with true by (symmetry; now apply Nat.ltb_lt). cbn [andb fst snd]. split; [reflexivity|].
    unfold shows. cbn [with_mem objs mem]. rewrite N. cbn [option_map show]. do 2 f_equal. unfold look_mat.
    unfold var_cells in ND. rewrite N in ND. cbn [cells] in ND. unfold mcells in ND. apply nodup_app in ND as (ND1 & _ & D).
    assert (F : fit (mem s) (mcells m)) by (intros k K; apply (V (HMat m)); [now apply nth_error_In in N|exact K]).
    assert (F1 : fit (mem s) (concat (h_rows (hm_values m)))) by (intros k K; apply F; unfold mcells, cells2; rewrite !in_app_iff; auto).
    destruct (write_rows_spec (h_rows (hm_values m)) 0 (mem s) (fun p q y => if (Nat.eqb p r && Nat.eqb q c)%bool then x else y)) as (_ & G & W).
    assert (G1 : forall a, (forall k, In k a -> In k (hm_Ex m ++ hm_Eg m ++ ocells2 (hm_std m))) -> get (write_rows 0 (mem s) (h_rows (hm_values m)) (fun p q y => if (Nat.eqb p r && Nat.eqb q c)%bool then x else y)) a = get (mem s) a).
    { intros a A. apply (grows_get (concat (h_rows (hm_values m)))); [exact G|intros k K; apply F; unfold mcells; rewrite in_app_iff; right; now apply A|].
      intros k K1 K2. apply (D k K2). now apply A. }
    f_equal.
    + unfold get2. f_equal. rewrite W by assumption. apply (mapi_upd_rows x c (map (get (mem s)) (h_rows (hm_values m))) 0 r).
    + apply G1. intros k K. rewrite !in_app_iff. auto.
    + apply G1. intros k K. rewrite !in_app_iff. auto.
    + destruct (hm_std m) as [sd|] eqn:SD; [|reflexivity]. cbn [option_map]. f_equal. unfold get2. f_equal. apply map_ext_in. intros a A.
      apply G1. intros k K. rewrite !in_app_iff. right. right. cbn [ocells2]. unfold cells2. apply in_concat. eauto.
  - intros H. replace ((r <? length (h_rows (hm_values m))) && (c <? h_nc (hm_values m)))%bool with false; [reflexivity|].
    symmetry. apply andb_false_iff. destruct H as [H|H]; [left|right]; now apply Nat.ltb_ge.
Qed.
End Assign.
Print Assumptions vector_item_assignment.
Print Assumptions matrix_item_assignment.
(* a vector and a matrix of which one element is assigned *)
Example item_assignment_case : let s := mkHeap (ql [1; 2; 3; 10; 20; 30]%Z) [HVec (mkHV [0; 1; 2] [3; 4; 5] None KeV)] in
  valid s /\ NoDup (var_cells s 0) /\
  leqb (mem (fst (AliasModel.step (fun x => x) (fun x => x) (fun _ _ => 0%Qc) (fun l => seq 0 (length l)) s (SetItem 0 1 (qz 7))))) (ql [1; 7; 3; 10; 20; 30]%Z) = true.
Proof.
  split; [|split; [|reflexivity]].
  - intros o c [<-|[]] C. cbn in C. cbn. intuition lia.
  - cbn. repeat (constructor; [cbn; intuition lia|]). constructor.
Qed.
Example matrix_assignment_case : let s := mkHeap (ql [1; 2; 3; 4; 10; 20; 1; 2]%Z) [HMat (mkHM (mkH2 2 [[0; 1]; [2; 3]]) [4; 5] [6; 7] None None)] in
  valid s /\ NoDup (var_cells s 0) /\
  leqb (mem (fst (AliasModel.step (fun x => x) (fun x => x) (fun _ _ => 0%Qc) (fun l => seq 0 (length l)) s (SetItem2 0 1 0 (qz 7))))) (ql [1; 2; 7; 4; 10; 20; 1; 2]%Z) = true.
Proof.
  split; [|split; [|reflexivity]].
  - intros o c [<-|[]] C. cbn in C. cbn. intuition lia.
  - cbn. repeat (constructor; [cbn; intuition lia|]). constructor.
Qed.

(* ------------------------------------------------------------------ ensemble.py:389-399 *)
(* A member whose shape does not fit the new axes is refused. *)
Theorem rebin_shape_refused : forall ex eg out v w, EnsRebinModel.rebin_values ex eg out v = Ok w -> shape w <> (length out, length out) ->
  EnsRebinModel.rebin_member ex eg out v = Raise ValueError.
Proof.
  intros ex eg out v w H N. unfold EnsRebinModel.rebin_member. rewrite H. cbn [rbind]. destruct (pair_eqb (shape w) (length out, length out)) eqn:E; [|reflexivity].
  exfalso. apply N. unfold pair_eqb in E. cbn [fst snd] in E. apply andb_true_iff in E as [A B]. apply Nat.eqb_eq in A, B. destruct (shape w). cbn in A, B. congruence.
Qed.
Print Assumptions rebin_shape_refused.
Example rebin_shape_refused_case :
  EnsRebinModel.rebin_member (ql [1; 2]%Z) (ql [1; 2]%Z) (ql [1; 2]%Z) (mkArr 3 [ql [1; 2; 3]%Z; ql [4; 5; 6]%Z]) = Raise ValueError.
Proof. reflexivity. Qed.

(* ------------------------------------------------------------------ extractor.py:431-540 *)
(* No start values are made for a matrix with another number of columns than gamma-ray energies. *)
Theorem guess_shape_refused : forall bsfg E_nld m method, E_nld <> [] -> Ex m <> [] -> a_nc (values m) <> length (Eg m) ->
  (method = None \/ method = Some "BSFG-like"%string \/ method = Some "CT-like"%string \/ method = Some "parabola"%string) ->
  ExtractorModel.guess bsfg E_nld m method = Raise AssertionError.
Proof.
  intros bsfg E_nld m method NE NX C M. unfold ExtractorModel.guess. unfold py_index. cbn [Z.ltb Z.compare].
  replace (Z.of_nat (length E_nld) + -1)%Z with (Z.of_nat (length E_nld - 1)) by (destruct E_nld; [congruence|cbn [length]; lia]).
  assert (LE : (0 < length E_nld)%nat) by (destruct E_nld; [congruence|cbn; lia]).
  destruct (Z.leb_spec 0 (Z.of_nat (length E_nld - 1))); [|lia]. destruct (Z.ltb_spec (Z.of_nat (length E_nld - 1)) (Z.of_nat (length E_nld))); [|lia]. cbn [andb].
  rewrite Nat2Z.id, (nth_error_nth' _ 0%Qc) by lia. cbn [rbind]. set (E := if qltb _ _ then _ else _). clearbody E.
  assert (P : exists T0 e, projection m (AStr "Eg") None None false = Ok (T0, e) /\ length T0 <> length (Eg m)).
  { unfold projection. change (to_plot_axis _) with (Ok AxEg). cbn [rbind]. unfold proj_bounds. destruct (Ex m) as [|x0 xs]; [congruence|]. cbn [rbind]. cbn [a_nc slice_rows].
    eexists _, _. split; [reflexivity|]. now rewrite tab_length. }
  destruct P as (T0 & e & P & L). rewrite P. apply Nat.eqb_neq in L.
  destruct M as [-> | [-> | [-> | ->]]]; cbn [rbind]; try change (String.eqb _ _) with true; try change (String.eqb _ _) with false; cbn iota; cbn [rbind]; now rewrite L.
Qed.
Print Assumptions guess_shape_refused.
Example guess_shape_refused_case :
  ExtractorModel.guess (fun E => E) (ql [1; 2]%Z) (mkM (mkArr 3 [ql [1; 2; 3]%Z]) (ql [10; 20]%Z) (ql [5]%Z) None None) None = Raise AssertionError.
Proof. reflexivity. Qed.

(* ------------------------------------------------------------------ vector.py:222-245 *)
(* A tar archive with another number of arrays than two or three cannot be read as a vector. *)
Theorem vector_tar_refused : forall cwd d p ft ops l, FileModel.filetype p ft = FileModel.TTar -> FileModel.load_tar cwd d p = (ops, Ok l) ->
  length l <> 2 -> length l <> 3 -> FileModel.read_vector cwd d p ft = (ops, Raise ValueError).
Proof.
  intros cwd d p ft ops l T L N2 N3. unfold FileModel.read_vector. rewrite T, L.
  destruct l as [|[a|a] l]; [reflexivity| |reflexivity]. destruct l as [|[b|b] l]; [reflexivity| |reflexivity]. destruct l as [|[c|c] l]; [exfalso; now apply N2| |reflexivity].
  destruct l; [exfalso; now apply N3|reflexivity].
Qed.
Print Assumptions vector_tar_refused.
(* an archive with a single array *)
Example vector_tar_refused_case : let d := fun q => if FileModel.peqb q (FileModel.pth "/w/v.tar") then Some (FileModel.FTar [(FileModel.pth "v0.npy", FileModel.N1 (ql [1; 2]%Z))]) else None in
  snd (FileModel.read_vector (FileModel.pth "/w") d (FileModel.pth "/w/v.tar") None) = Raise ValueError /\
  exists ops l, FileModel.load_tar (FileModel.pth "/w") d (FileModel.pth "/w/v.tar") = (ops, Ok l) /\ length l = 1.
Proof. split; [vm_compute; reflexivity|]. eexists _, _. split; [vm_compute; reflexivity|reflexivity]. Qed.
