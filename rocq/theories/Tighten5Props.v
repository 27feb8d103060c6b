(* The measure of fluctuations used by the unfolding, the start of the first-generation method,
   and further exceptions. *)
From Coq Require Import List ZArith QArith Qcanon Lia Bool String.
From Verif Require Import Num PyBase Axis MatrixModel MatrixSpec MatrixOpsProofs RebinModel VectorModel ArithModel ArithProofs VectorOpsProofs.
From Verif Require UnfoldModel FirstGenModel FirstGenProofs SmoothModel RscSetupModel SpinSumModel ParModel.
Import ListNotations.
Local Notation length := List.length (only parsing).
Local Open Scope Qc_scope.

(* ---------------------------------------------------------------- fluctuations *)
(* relative difference of counts and smoothed counts, zero where the smoothed counts are *)
Definition rel_diff (s c : Qc) : Qc := if qeqb s 0 then 0 else qabs ((s - c) / s).
Lemma qabs_nonneg x : 0 <= qabs x.
Proof. destruct (qabs_spec x) as [[A B]|[A B]]; rewrite B; qlra. Qed.
Lemma qabs_zero x : qabs x = 0 <-> x = 0.
Proof. destruct (qabs_spec x) as [[A B]|[A B]]; rewrite B; split; intros; qlra. Qed.
Lemma rel_diff_nonneg s c : 0 <= rel_diff s c.
Proof. unfold rel_diff. destruct (qeqb s 0); [qlra|apply qabs_nonneg]. Qed.
Lemma rel_diff_zero s c : rel_diff s c = 0 <-> s = 0 \/ s = c.
Proof.
  unfold rel_diff. destruct (qeqb_spec s 0) as [Z|Z]; [tauto|]. rewrite qabs_zero. split.
  - intros H. right. assert (s - c = 0) by (replace (s - c) with ((s - c) / s * s) by (field; exact Z); rewrite H; ring). qlra.
  - intros [H|H]; [contradiction|]. subst c. field. exact Z.
Qed.
Lemma sumn_nonneg_zero n f : (forall i, (i < n)%nat -> 0 <= f i) -> (sumn n f = 0 <-> forall i, (i < n)%nat -> f i = 0).
Proof.
  intros H. split.
  - intros Z i Hi. apply Qcle_antisym; [|now apply H]. rewrite <- Z. replace (f i) with (sumn n (fun j => if Nat.eqb j i then f j else 0)).
    2:{ rewrite (sumn_single n _ i Hi); [now rewrite Nat.eqb_refl|]. intros j _ C. destruct (Nat.eqb_spec j i); [contradiction|reflexivity]. }
    apply sumn_le. intros j Hj. destruct (Nat.eqb_spec j i); [qlra|now apply H].
  - intros Z. apply sumn_0. exact Z.
Qed.
Section Fluct.
Variable filter1d : Qc -> list Qc -> list Qc.
Hypothesis filter_length : forall w l, length (filter1d w l) = length l.
Lemma fluct_row_sum a1 row : UnfoldModel.fluct_row filter1d a1 row = sumn (length row) (fun i => rel_diff (vget (filter1d (qz 50 / a1) row) i) (vget row i)).
Proof.
  unfold UnfoldModel.fluct_row. rewrite qsum_nth, map_length, map2_length by apply filter_length. rewrite filter_length. apply sumn_ext. intros i Hi. unfold vget.
  rewrite (map_nth_in _ _ _ 0) by (rewrite map2_length by apply filter_length; rewrite filter_length; exact Hi).
  rewrite (map2_nth _ _ _ i 0 0 0) by (rewrite ?filter_length; lia). unfold rel_diff, div0.
  destruct (qeqb (nth i (filter1d (qz 50 / a1) row) 0) 0); [reflexivity|reflexivity].
Qed.
End Fluct.
(* The fluctuations of a row: the sum of the relative differences from the row smoothed with
   sigma = 50 keV (50/bin width bins).  They are not negative, zero exactly for a row that
   smoothing does not change where the smoothed row is not zero, and they do not depend on the
   scale of the row if smoothing is linear. *)
Theorem fluctuations_meaning : forall filter1d, (forall w l, length (filter1d w l) = length l) ->
  forall e0 e1 eg a, exists f, UnfoldModel.fluctuations filter1d (e0 :: e1 :: eg) a = Ok f /\ length f = a_nr a /\
  forall i, (i < a_nr a)%nat ->
    let c := nth i (a_rows a) [] in let s := filter1d (qz 50 / (e1 - e0)) c in
    nth i f 0 = sumn (length c) (fun j => rel_diff (vget s j) (vget c j)) /\
    0 <= nth i f 0 /\
    (nth i f 0 = 0 <-> forall j, (j < length c)%nat -> vget s j = 0 \/ vget s j = vget c j) /\
    forall k, k <> 0 -> filter1d (qz 50 / (e1 - e0)) (map (fun x => k * x) c) = map (fun x => k * x) s ->
      UnfoldModel.fluct_row filter1d (e1 - e0) (map (fun x => k * x) c) = nth i f 0.
Proof.
  intros filter1d FL e0 e1 eg a. eexists. split; [reflexivity|]. split; [apply map_length|]. intros i Hi c s.
  assert (E : nth i (map (UnfoldModel.fluct_row filter1d (e1 - e0)) (a_rows a)) 0 = sumn (length c) (fun j => rel_diff (vget s j) (vget c j))).
  { rewrite (map_nth_in _ _ _ []) by exact Hi. apply fluct_row_sum. exact FL. }
  rewrite E. split; [reflexivity|]. split; [apply sumn_nonneg; intros; apply rel_diff_nonneg|]. split.
  - rewrite sumn_nonneg_zero by (intros; apply rel_diff_nonneg). split; intros H j Hj; specialize (H j Hj); now apply rel_diff_zero.
  - intros k HK HF. rewrite (fluct_row_sum filter1d FL), HF, map_length. apply sumn_ext. intros j Hj. unfold vget.
    rewrite (map_nth_in _ _ _ 0) by (unfold s; rewrite FL; exact Hj). rewrite (map_nth_in _ _ _ 0) by exact Hj.
    set (x := nth j s 0). set (y := nth j c 0). unfold rel_diff. destruct (qeqb_spec x 0) as [Z|Z].
    + rewrite Z. replace (k * 0) with 0 by ring. reflexivity.
    + destruct (qeqb_spec (k * x) 0) as [Z2|Z2]; [apply Qcmult_integral in Z2; tauto|]. f_equal. field. split; assumption.
Qed.
Print Assumptions fluctuations_meaning.
Example fluctuations_example : UnfoldModel.fluctuations (fun _ l => map (fun _ => qz 2) l) [0; qz 10] (mkArr 3 [[qz 1; qz 2; qz 5]]) = Ok [qz 2].
Proof. cbn. do 2 f_equal. apply Qc_is_canon. reflexivity. Qed.

(* ---------------------------------------------------------------- the first guess *)
(* The first-generation method starts from rows that are constant up to and including the last
   bin with counts, and sum to one; a row without counts starts as zero. *)
Theorem firstgen_start : forall a i, (forall r, In r (a_rows a) -> length r = a_nc a) -> (i < a_nr a)%nat ->
  let row := nth i (a_rows a) [] in let H := nth i (FirstGenModel.row_normalized a) [] in
  length H = a_nc a /\
  (forall l, last_nonzero row l ->
     (forall k, (k < a_nc a)%nat -> vget H k = if (k <=? l)%nat then 1 / qnat (S l) else 0) /\ qsum H = 1) /\
  ((forall k, vget row k = 0) -> forall k, vget H k = 0).
Proof.
  intros a i SQ Hi row H. assert (LR : length row = a_nc a) by (apply SQ; apply nth_In; exact Hi).
  assert (EH : H = FirstGenProofs.norm_row (a_nc a) row) by (apply FirstGenProofs.row_normalized_row; exact Hi).
  assert (LH : length H = a_nc a) by (rewrite EH, FirstGenProofs.norm_row_length; exact LR). split; [exact LH|]. split.
  - intros l LN. assert (LL : (l < a_nc a)%nat) by (rewrite <- LR; apply LN).
    assert (F : first_nonzero 0 (rev row) = Some (length row - S l)%nat).
    { apply first_nonzero_rev. split; [|lia]. now replace (length row - S (length row - S l))%nat with l by lia. }
    assert (G : forall k, (k < a_nc a)%nat -> vget H k = if (k <=? l)%nat then 1 / qnat (S l) else 0).
    { intros k Hk. rewrite EH. unfold FirstGenProofs.norm_row. rewrite F. unfold FirstGenModel.set_prefix. rewrite map_length.
      unfold vget at 1. rewrite nth_tab by lia. replace (a_nc a - (length row - S l))%nat with (S l) by lia.
      replace (Nat.max 1 (S l)) with (S l) by lia. destruct (Nat.leb_spec k l), (Nat.ltb_spec k (S l)); try lia; [reflexivity|].
      unfold vget. rewrite (map_nth_in _ _ _ 0) by lia. reflexivity. }
    split; [exact G|]. rewrite qsum_nth, LH. rewrite (sumn_ext _ _ (fun k => if (k <=? l)%nat then 1 / qnat (S l) else 0)) by exact G.
    assert (P : forall n, (S l <= n)%nat -> sumn n (fun k => if (k <=? l)%nat then 1 / qnat (S l) else 0) = qnat (S l) * (1 / qnat (S l))).
    { intros n Hn. generalize (1 / qnat (S l)) as c. intros c. induction Hn as [|n Hn IH].
      - rewrite (sumn_ext _ _ (fun _ => c)); [|intros k Hk; destruct (Nat.leb_spec k l); [reflexivity|lia]].
        generalize (S l) as m. induction m as [|m IH]; [rewrite qnat_0; cbn [sumn]; ring|].
        cbn [sumn]. rewrite IH, qnat_S. ring.
      - cbn [sumn]. rewrite IH. destruct (Nat.leb_spec n l); [lia|]. ring. }
    rewrite P by lia. field. intros C. pose proof (qnat_pos (S l) ltac:(lia)). rewrite C in *. qlra.
  - intros Z k. rewrite EH. unfold FirstGenProofs.norm_row.
    destruct (first_nonzero 0 (rev row)) as [j|] eqn:F.
    + apply first_nonzero_rev in F. destruct F as [(L1 & L2 & _) _]. rewrite Z in L2. contradiction.
    + unfold vget. destruct (Nat.ltb_spec k (length row)).
      * now rewrite (map_nth_in _ _ _ 0) by assumption.
      * apply nth_overflow. rewrite map_length. lia.
Qed.
Print Assumptions firstgen_start.

Example firstgen_start_example : FirstGenModel.row_normalized (mkArr 4 [[qz 3; 0; qz 5; 0]; [0; 0; 0; 0]]) = [[qn 1 3; qn 1 3; qn 1 3; 0]; [0; 0; 0; 0]].
Proof. vm_compute. repeat f_equal; apply Qc_is_canon; reflexivity. Qed.

(* ---------------------------------------------------------------- exceptions *)
(* constructing a vector: ValueError exactly for values or uncertainties of another length than
   the energies *)
Theorem vector_lengths : forall values E s u,
  match mk_vector (Some values) E s u with
  | Ok v => length values = length E /\ (forall d, s = Some d -> length d = length values) /\ v_values v = values /\ v_E v = E /\ v_std v = s
  | Raise e => e = ValueError /\ (length values <> length E \/ exists d, s = Some d /\ length d <> length values)
  end.
Proof.
  intros values E s u. unfold mk_vector. cbn. unfold v_verify. cbn.
  destruct (Nat.eqb_spec (length E) (length values)) as [L|L]; cbn [negb rbind].
  - destruct s as [d|]; [|cbn; repeat split; try congruence].
    destruct (Nat.eqb_spec (length d) (length values)) as [L2|L2]; cbn; [repeat split; try congruence|].
    split; [reflexivity|]. right. exists d. split; [reflexivity|exact L2].
  - split; [reflexivity|]. left. congruence.
Qed.
Print Assumptions vector_lengths.
(* smoothing: ValueError for arrays of different lengths, IndexError for fewer than two bins *)
Theorem smoothing_refused : forall gaussian arr E fw t,
  ((length arr <> length E \/ length arr <> length fw) -> SmoothModel.gauss_smoothing gaussian arr E fw t = Raise ValueError) /\
  (length arr = length E -> length arr = length fw -> (length E < 2)%nat -> SmoothModel.gauss_smoothing gaussian arr E fw t = Raise IndexError).
Proof.
  intros gaussian arr E fw t. unfold SmoothModel.gauss_smoothing. split.
  - destruct (Nat.eqb_spec (length arr) (length E)); [|reflexivity]. destruct (Nat.eqb_spec (length arr) (length fw)); [tauto|reflexivity].
  - intros -> H2 H3. rewrite Nat.eqb_refl, H2, Nat.eqb_refl. destruct E as [|x [|y E]]; [reflexivity|reflexivity|cbn in H3; lia].
Qed.
Print Assumptions smoothing_refused.
(* the comparison of energies in the cached spin sum: equal after broadcasting *)
Theorem energies_compared : forall a b,
  SpinSumModel.np_all_eq a b = true <->
  match a, b with
  | SpinSumModel.Scal x, SpinSumModel.Scal y => x = y
  | SpinSumModel.Scal x, SpinSumModel.Arr l | SpinSumModel.Arr l, SpinSumModel.Scal x => forall y, In y l -> y = x
  | SpinSumModel.Arr l, SpinSumModel.Arr m =>
      l = m \/ (length l <> length m /\ exists x, (l = [x] /\ forall y, In y m -> y = x) \/ (m = [x] /\ forall y, In y l -> y = x))
  end.
Proof.
  assert (FA : forall x l, forallb (qeqb x) l = true <-> forall y, In y l -> y = x).
  { intros x l. rewrite forallb_forall. split; intros H y Hy; specialize (H y Hy); [apply qeqb_eq in H; now symmetry|subst; now apply qeqb_eq]. }
  intros [x|l] [y|m]; cbn; try apply FA; [apply qeqb_eq|].
  destruct (Nat.eqb_spec (length l) (length m)) as [L|L].
  - rewrite leqb_eq. split; [tauto|]. intros [H|[H _]]; [exact H|contradiction].
  - split.
    + intros H. right. split; [exact L|]. destruct l as [|a [|b l]].
      * destruct m as [|c [|d m]]; try discriminate. exists c. right. split; [reflexivity|]. intros z [].
      * exists a. left. split; [reflexivity|]. now apply FA.
      * destruct m as [|c [|d m]]; try discriminate. exists c. right. split; [reflexivity|]. now apply FA.
    + intros [->|[_ (z & [[-> H]|[-> H]])]]; [contradiction|now apply FA|].
      apply FA in H. destruct l as [|a [|b l]]; [reflexivity|cbn in L; lia|exact H].
Qed.
Print Assumptions energies_compared.
(* an unknown keyword raises TypeError; known ones are stored *)
Theorem construct_keywords : forall c args,
  match ParModel.construct c args with
  | Ok o => forall k v, In (k, v) args -> In k (map fst (ParModel.c_fields c))
  | Raise e => e = TypeError /\ exists k v, In (k, v) args /\ ~ In k (map fst (ParModel.c_fields c))
  end.
Proof.
  intros c args. unfold ParModel.construct.
  assert (ME : forall k l, ParModel.mem k l = true <-> In k l).
  { intros k l. unfold ParModel.mem. rewrite existsb_exists. split.
    - intros (x & I & E). apply String.eqb_eq in E. now subst.
    - intros I. exists k. split; [exact I|]. apply String.eqb_refl. }
  destruct (forallb _ args) eqn:F.
  - rewrite forallb_forall in F. intros k v I. apply ME. exact (F (k, v) I).
  - split; [reflexivity|]. assert (X : exists kv, In kv args /\ ParModel.mem (fst kv) (map fst (ParModel.c_fields c)) = false).
    { clear -F. induction args as [|kv args IH]; [discriminate|]. cbn in F. destruct (ParModel.mem (fst kv) _) eqn:E; [|exists kv; split; [now left|exact E]].
      destruct (IH F) as (kv' & I & E'). exists kv'. split; [now right|exact E']. }
    destruct X as ([k v] & I & E). exists k, v. split; [exact I|]. intros C. apply ME in C. cbn in E. congruence.
Qed.
Print Assumptions construct_keywords.
(* the default of Emax is the first entry of Sn; what cannot be indexed with 0 raises as in
   Python: KeyError for a dictionary without that key, IndexError for an empty sequence,
   TypeError otherwise *)
Theorem Emax_default : exists get, ParModel.np_get "Emax" = Some get /\ forall d, ParModel.fld d "_Emax" = ParModel.PNone ->
  match ParModel.fld d "Sn" with
  | ParModel.PList (x :: _) | ParModel.PTup (x :: _) => get d = Ok x
  | ParModel.PList [] | ParModel.PTup [] => get d = Raise IndexError
  | ParModel.PDict _ => get d = Raise KeyError
  | ParModel.PNone | ParModel.PNum _ => get d = Raise TypeError
  | _ => True
  end.
Proof.
  eexists. split; [reflexivity|]. intros d N. cbn beta. rewrite N. destruct (ParModel.fld d "Sn") as [ | | |l|l| | | ]; try exact I; try reflexivity; destruct l; reflexivity.
Qed.
Print Assumptions Emax_default.
