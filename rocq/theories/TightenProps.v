(* Further statements about functions that other theorems use only in part: comparisons of
   states, transform of a vector, broadcasting in comparisons, degrees of
   freedom and start values of rhosigchi, errors when loading, default parameters. *)
From Verif Require Import Num PyBase Axis MatrixModel MatrixSpec VectorModel ArithModel ArithProofs VectorOpsProofs FileModel UnfoldModel
  FirstGenModel ParModel RhosigchiModel RhosigchiSpec RhosigchiProofs RhosigchiProps.
From Coq Require Import List String Qcanon Lia.
Import ListNotations.
Local Notation length := List.length (only parsing).
Local Open Scope Qc_scope.

(* ---------------------------------------------------------------- states *)
(* `==` and `!=` contradict each other exactly for ints of the same value (both False) and
   for other enums of the same value (both True) *)
Theorem state_eq_ne : forall s o, state_eq s o = state_ne s o <->
  o = PInt (mstate_value s) \/ o = PEnum (mstate_value s).
Proof.
  intros s o. destruct o as [t|n|v|]; cbn [state_eq state_ne].
  - split; [destruct (Z.eqb _ _); discriminate|]. intros [H|H]; discriminate.
  - destruct (Z.eqb_spec (mstate_value s) n) as [->|N]; cbn [negb]; split; try discriminate; try tauto.
    intros [H|H]; congruence.
  - destruct (Z.eqb_spec (mstate_value s) v) as [->|N]; cbn [negb]; split; try discriminate; try tauto.
    intros [H|H]; congruence.
  - split; [discriminate|]. intros [H|H]; discriminate.
Qed.
Print Assumptions state_eq_ne.
(* an object that is no number is always unequal, whatever its value *)
Theorem state_ne_others : forall s o, (forall t, o <> PState t) -> (forall n, o <> PInt n) -> state_ne s o = true.
Proof. intros s [t|n|v|] A B; [now destruct (A t)|now destruct (B n)|reflexivity|reflexivity]. Qed.
Print Assumptions state_ne_others.
Example state_ne_ex : state_eq RAW (PInt (mstate_value RAW)) = false /\ state_ne RAW (PInt (mstate_value RAW)) = false /\
  state_eq RAW (PEnum (mstate_value RAW)) = true /\ state_ne RAW (PEnum (mstate_value RAW)) = true.
Proof. repeat split; cbn [state_eq state_ne]; rewrite ?Z.eqb_refl; reflexivity. Qed.

(* ---------------------------------------------------------------- transform *)
(* every value is multiplied by const exp(alpha E), and so is its uncertainty where the value
   is not zero *)
Theorem vector_transform_entries : forall expf v c a k, (k < length (v_values v))%nat -> length (v_E v) = length (v_values v) ->
  let w := v_transform expf v c a in
  let f := c * expf (a * vget (v_E v) k) in
  v_E w = v_E v /\ v_units w = v_units v /\ vget (v_values w) k = f * vget (v_values v) k /\
  match v_std v with
  | None => v_std w = None
  | Some s => exists s', v_std w = Some s' /\
      (length s = length (v_values v) -> vget (v_values v) k <> 0 -> vget s' k = f * vget s k)
  end.
Proof.
  intros expf v c a k K LE w f. split; [reflexivity|]. split; [reflexivity|].
  assert (G : vget (map2 (fun x e => c * x * expf (a * e)) (v_values v) (v_E v)) k = f * vget (v_values v) k).
  { unfold vget. rewrite (map2_nth _ _ _ k 0 0 0) by lia. unfold f, vget. ring. }
  split; [exact G|]. unfold w, v_transform. cbn [v_std]. destruct (v_std v) as [s|]; [|reflexivity].
  cbn [option_map]. eexists. split; [reflexivity|]. intros LS NZ.
  assert (L1 : length (map2 (fun x e => c * x * expf (a * e)) (v_values v) (v_E v)) = length (v_values v)).
  { unfold map2. rewrite map_length, combine_length, LE. apply Nat.min_id. }
  assert (L2 : length (map2 Qcdiv s (v_values v)) = length (v_values v)).
  { unfold map2. rewrite map_length, combine_length, LS. apply Nat.min_id. }
  unfold vget at 1. rewrite (map2_nth _ _ _ k 0 0 0) by lia. rewrite (map2_nth _ _ _ k 0 0 0) by lia.
  fold (vget (map2 (fun x e => c * x * expf (a * e)) (v_values v) (v_E v)) k). rewrite G.
  fold (vget s k). fold (vget (v_values v) k). field. exact NZ.
Qed.
Print Assumptions vector_transform_entries.

(* ---------------------------------------------------------------- broadcasting *)
(* np.allclose of two axes: defined for equal lengths or if one has a single bin, and true
   if all pairs after repeating the single bin are close *)
Definition stretched (l : list Qc) (n k : nat) : Qc := if (length l =? 1)%nat then vget l 0 else vget l k.
Theorem axes_allclose : forall l m,
  let n := if (length l =? 1)%nat then length m else length l in
  if ((length l =? length m) || (length l =? 1) || (length m =? 1))%nat%bool
  then exists b, bcast_allclose l m = Ok b /\
       (b = true <-> forall k, (k < n)%nat -> isclose (stretched l n k) (stretched m n k) = true)
  else bcast_allclose l m = Raise ValueError.
Proof.
  intros l m n. unfold bcast_allclose. destruct (Nat.eqb_spec (length l) (length m)) as [E|N]; cbn [orb].
  - exists (allclose l m). split; [reflexivity|]. unfold n. clear n. unfold stretched.
    assert (A : allclose l m = true <-> forall k, (k < length l)%nat -> isclose (vget l k) (vget m k) = true).
    { clear - E. revert m E. induction l as [|x l IH]; intros [|y m] E; try discriminate; cbn [allclose].
      - split; [intros _ k K; inversion K|reflexivity].
      - rewrite Bool.andb_true_iff, IH by (now injection E). split.
        + intros [H1 H2] [|k] K; [exact H1|]. apply H2. cbn [List.length] in K. lia.
        + intros H. split; [apply (H 0%nat); cbn [List.length]; lia|]. intros k K. apply (H (S k)). cbn [List.length]. lia. }
    rewrite A. rewrite <- E. destruct (Nat.eqb_spec (length l) 1) as [E1|N1]; [|reflexivity].
    rewrite E1. split; intros H k K; replace k with 0%nat in * by lia; apply (H 0%nat); lia.
  - destruct l as [|x [|x' l]].
    + destruct m as [|y [|y' m]]; [now destruct N| |reflexivity].
      cbn [List.length Nat.eqb orb]. exists true. split; [reflexivity|]. split; [intros _ k K; cbn in K; lia|reflexivity].
    + cbn [List.length Nat.eqb orb]. exists (forallb (fun y => isclose x y) m). split; [reflexivity|].
      rewrite forallb_forall. unfold n, stretched. cbn [List.length Nat.eqb]. split.
      * intros H k K. destruct (Nat.eqb_spec (length m) 1) as [E1|_]; [cbn in N; lia|]. apply H. apply nth_In. exact K.
      * intros H y I. destruct (In_nth m y 0 I) as (k & K & <-). specialize (H k K).
        destruct (Nat.eqb_spec (length m) 1) as [E1|_]; [cbn in N; lia|]. exact H.
    + destruct m as [|y [|y' m]]; [reflexivity| |reflexivity].
      cbn [List.length Nat.eqb orb]. exists (forallb (fun x => isclose x y) (x :: x' :: l)). split; [reflexivity|].
      rewrite forallb_forall. unfold n, stretched. cbn [List.length Nat.eqb]. split.
      * intros H k K. apply H. apply nth_In. exact K.
      * intros H z I. destruct (In_nth (x :: x' :: l) z 0 I) as (k & K & <-). exact (H k K).
Qed.
Print Assumptions axes_allclose.
(* a matrix without uncertainties compared with an equal one that has some: an error unless
   there is at most one entry; the other way round always an error *)
Theorem matrix_eq_missing_std : forall m w s, m_eq (mkM (values m) (Eg m) (Ex m) None (state m)) (mkM (values w) (Eg w) (Ex w) None (state w)) = Ok true ->
  std m = None -> std w = Some s ->
  m_eq m w = (if (a_nr s * a_nc s <=? 1)%nat then Ok false else Raise ValueError) /\ m_eq w m <> Ok true.
Proof.
  intros m w s. unfold m_eq. cbn [values Eg Ex std state std_test2 rbind].
  destruct (np_allclose2 (values m) (values w)) as [[]|]; cbn [rbind]; try discriminate;
  destruct (bcast_allclose (Eg m) (Eg w)) as [[]|]; cbn [rbind]; try discriminate;
  destruct (bcast_allclose (Ex m) (Ex w)) as [[]|]; cbn [rbind]; try discriminate.
  intros _ -> ->. cbn [std_test2 rbind py_all truth_bool]. split.
  - destruct (_ <=? 1)%nat; reflexivity.
  - destruct (np_allclose2 (values w) (values m)); cbn [rbind]; [|discriminate].
    destruct (bcast_allclose (Eg w) (Eg m)); cbn [rbind]; [|discriminate].
    destruct (bcast_allclose (Ex w) (Ex m)); cbn [rbind]; discriminate.
Qed.
Print Assumptions matrix_eq_missing_std.
Definition tp_m : matrix := mkM (mkArr 2 [[1; qz 2]]) [1; qz 2] [1] None None.
Example tp_missing : m_eq tp_m (mkM (mkArr 2 [[1; qz 2]]) [1; qz 2] [1] (Some (mkArr 2 [[1; 1]])) None) = Raise ValueError.
Proof. vm_compute. reflexivity. Qed.

(* ---------------------------------------------------------------- rhosigchi *)
(* the degrees of freedom: the number of entries that are fitted less the number of
   parameters, where each array counts one parameter more than it has bins in the limits *)
Definition fitted_cells (L : limits) : list (Z * Z) :=
  flat_map (fun ix => map (pair ix) (zrange (igmin L) (gmax L ix))) (zrange (jmin L) (jmax L)).
Lemma zrange_len : forall a b, (a <= b)%Z -> Z.of_nat (length (zrange a b)) = (b - a)%Z.
Proof. intros a b H. unfold zrange. rewrite map_length, seq_length. lia. Qed.
Theorem degrees_count : forall L, (forall ix, (jmin L <= ix < jmax L)%Z -> (igmin L <= gmax L ix)%Z) ->
  degrees L = (Z.of_nat (length (fitted_cells L)) - ((jmax L - jmin L + 1) + (maxig L - igmin L + 1)))%Z.
Proof.
  intros L H. unfold degrees, fitted_cells. f_equal.
  assert (T : forall l acc, (forall ix, In ix l -> (igmin L <= gmax L ix)%Z) ->
    fold_left (fun acc ix => (acc + (nth (Z.to_nat ix) (igmax L) 0 - igmin L))%Z) l acc =
    (acc + Z.of_nat (length (flat_map (fun ix => map (pair ix) (zrange (igmin L) (gmax L ix))) l)))%Z).
  { induction l as [|ix l IH]; intros acc Hl; cbn [fold_left flat_map List.length]; [lia|].
    rewrite IH by (intros; apply Hl; now right). rewrite app_length, map_length.
    rewrite Nat2Z.inj_add, zrange_len by (apply Hl; now left). unfold gmax. lia. }
  rewrite T; [lia|]. intros ix I. apply in_zrange in I. now apply H.
Qed.
Print Assumptions degrees_count.
Example degrees_ex : degrees (mkLim 1 4 1 [0; 2; 3; 4]%Z 0) = (6 - (4 + 4))%Z.
Proof. reflexivity. Qed.

(* iterate_python refuses start values of the wrong length, and runs on those that
   pyrhosigchi gives it *)
Theorem iterate_python_sizes : forall FgN sFgN rho sig L nit,
  (Z.of_nat (length rho) = Z.max 0 (jmax L - igmin L + iu0 L) /\ Z.of_nat (length sig) = Z.max 0 (Z.max (maxig L) (jmax L + iu0 L)) ->
   (0 < nit)%nat -> fits L rho sig FgN sFgN ->
   exists out, iterate_python FgN sFgN rho sig L nit = Ok out /\ length out = nit) /\
  (~ (Z.of_nat (length rho) = Z.max 0 (jmax L - igmin L + iu0 L) /\ Z.of_nat (length sig) = Z.max 0 (Z.max (maxig L) (jmax L + iu0 L))) ->
   iterate_python FgN sFgN rho sig L nit = Raise ValueError).
Proof.
  intros FgN sFgN rho sig L nit. unfold iterate_python, size_use. split.
  - intros [A B] N F.
    replace (Z.to_nat (jmax L - igmin L + iu0 L)) with (length rho) by lia.
    replace (Z.to_nat (Z.max (maxig L) (jmax L + iu0 L))) with (length sig) by lia.
    rewrite !Nat.eqb_refl. cbn [andb negb].
    destruct (iterate_safe true FgN sFgN L rho sig (Nat.pred nit) F) as (out & E).
    exists out. split; [exact E|].
    assert (T : forall row n it r s o, iterate_from true FgN sFgN L it r s (repeat row n) = Ok o -> length o = S n).
    { clear. intros [r0 s0]. induction n as [|n IH]; intros it r s o; cbn [repeat iterate_from].
      - intros E. injection E as <-. reflexivity.
      - match goal with |- (do _ <- ?a ;; _) = _ -> _ => destruct a as [rs|] end; cbn [rbind]; [|discriminate].
        destruct (iterate_from true FgN sFgN L (S it) (fst rs) (snd rs) (repeat (r0, s0) n)) as [o'|] eqn:E1;
          cbn [rbind]; [|discriminate].
        intros E. injection E as <-. cbn [List.length]. now rewrite (IH _ _ _ _ E1). }
    cbn [iterate] in E. rewrite (T _ _ _ _ _ _ E). lia.
  - intros N. destruct (Nat.eqb_spec (length rho) (Z.to_nat (jmax L - igmin L + iu0 L))) as [E1|];
      destruct (Nat.eqb_spec (length sig) (Z.to_nat (Z.max (maxig L) (jmax L + iu0 L)))) as [E2|]; cbn [andb negb]; try reflexivity.
    destruct N. lia.
Qed.
Print Assumptions iterate_python_sizes.

(* ---------------------------------------------------------------- errors *)
(* a file that cannot be read leaves the object as it was, and the error says whether the
   file is missing or has another format *)
Theorem load_matrix_refused : forall cwd d m p ft ops m' e, read_matrix cwd d p ft = (ops, Raise e) ->
  load_matrix cwd d m p ft = (ops, (m, Raise e)) /\ (load_matrix cwd d m p ft = (ops, (m', Raise e)) -> m' = m).
Proof.
  intros cwd d m p ft ops m' e E. unfold load_matrix. rewrite E. split; [reflexivity|]. intros H. congruence.
Qed.
Print Assumptions load_matrix_refused.
Theorem load_vector_refused : forall cwd d v p ft ops e, read_vector cwd d p ft = (ops, Raise e) ->
  load_vector cwd d v p ft = (ops, (v, Raise e)).
Proof. intros cwd d v p ft ops e E. unfold load_vector. now rewrite E. Qed.
Print Assumptions load_vector_refused.
Definition format_of (f : file) : ftype :=
  match f with FTorn | FOther _ => TUnknown | FNpy _ => TNumpy | FTxt _ => TTxt | FMama1 _ _ | FMama2 _ _ _ => TMama | FCsv _ _ _ => TCsv | FTar _ => TTar end.
Theorem load_wrong_format : forall cwd d m p ft, filetype p ft = TNumpy \/ filetype p ft = TTxt \/ filetype p ft = TMama ->
  (d (abs cwd p) = None -> load_matrix cwd d m p ft = ([], (m, Raise OSErr))) /\
  (forall f, d (abs cwd p) = Some f -> format_of f <> filetype p ft -> load_matrix cwd d m p ft = ([], (m, Raise ValueError))).
Proof.
  intros cwd d m p ft F. unfold load_matrix, read_matrix, np_load, loadtxt, mama_read. split.
  - intros E. destruct F as [F|[F|F]]; rewrite F, E; reflexivity.
  - intros f E N. destruct F as [F|[F|F]]; rewrite F in *; rewrite E; destruct f; cbn [format_of] in N; try congruence; reflexivity.
Qed.
Print Assumptions load_wrong_format.
(* unfolding needs two gamma-ray bins for its score; the first-generation method needs a bin *)
Theorem fluctuations_defined : forall filter1d eg a,
  if (2 <=? length eg)%nat then exists f, fluctuations filter1d eg a = Ok f /\ length f = a_nr a
  else fluctuations filter1d eg a = Raise IndexError.
Proof.
  intros filter1d eg a. unfold fluctuations. destruct eg as [|x [|y eg]]; [reflexivity|reflexivity|].
  eexists. split; [reflexivity|]. apply map_length.
Qed.
Print Assumptions fluctuations_defined.
Theorem firstgen_empty : forall n k H W N m vc s, fg_step k H W N m vc = Ok s -> (a_nr (values m) = 0 \/ a_nc (values m) = 0)%nat ->
  fg_loop (S n) k H W N m vc = Raise ValueError.
Proof.
  intros n k H W N m vc [H' W'] E Z. cbn [fg_loop]. rewrite E. cbn [rbind].
  destruct Z as [-> | ->]; cbn [Nat.eqb orb]; [reflexivity|]. now rewrite Bool.orb_true_r.
Qed.
Print Assumptions firstgen_empty.
(* the hypothesis can be met: a matrix with columns and no rows *)
Definition tp_empty : matrix := mkM (mkArr 2 []) [1; qz 2] [] None None.
Example firstgen_empty_ex : exists s, fg_step 0 [] [] [] tp_empty None = Ok s.
Proof. vm_compute. eexists. reflexivity. Qed.

(* ---------------------------------------------------------------- default parameters *)
Local Open Scope string_scope.
Theorem normalization_defaults : forall nm, exists o, construct NP [("name", PStr nm)] = Ok o /\
  getattr o "name" = Ok (PStr nm) /\ getattr o "Emin" = Ok (PNum 0) /\ getattr o "steps" = Ok (PNum (qz 101)) /\
  (forall k, In k ["Z"; "D0"; "Gg"; "Sn"; "Jtarget"; "spincutModel"; "spincutPars"; "A"] -> getattr o k = Ok PNone) /\
  getattr o "Emax" = Raise TypeError.
Proof.
  intros nm. eexists. split; [reflexivity|]. repeat split.
  intros k [<-|[<-|[<-|[<-|[<-|[<-|[<-|[<-|[]]]]]]]]]; reflexivity.
Qed.
Print Assumptions normalization_defaults.
Theorem extrapolation_defaults : forall c nm, exists o, construct (EXT c) [("name", PStr nm)] = Ok o /\
  getattr o "name" = Ok (PStr nm) /\ getattr o "scale" = Ok (PNum 1) /\ getattr o "shift" = Ok (PNum (qz 25)) /\
  getattr o "shift_after" = Ok (PNum (qz 25)) /\ getattr o "steps" = Ok (PNum (qz 1001)) /\
  getattr o "method" = Ok (PStr "fit") /\ getattr o "Emin" = Ok PNone /\ getattr o "Emax" = Ok PNone /\
  getattr o "Efit" = Ok (PList [PNone; PNone]).
Proof. intros c nm. eexists. split; [reflexivity|]. repeat split. Qed.
Print Assumptions extrapolation_defaults.
