(* More statements about functions that other theorems use only in part: calibration
   coefficients, units and formats of files, growth of the resolution, missing samples,
   results that cannot be saved, shapes that can be compared. *)
From Coq Require Import List String Ascii ZArith QArith Qcanon Lia Bool.
From Verif Require Import Num PyBase MatrixModel ArithModel VectorModel ExtractorModel ExtractorSpec.
From Verif Require Num RhosigchiModel UnfoldModel RscSetupModel EnsNormModel SampTransModel FileModel FileProofs ResultsProps NormStateModel MatrixRunModel.
Import ListNotations.
Local Notation length := List.length (only parsing).
Local Open Scope Qc_scope.

(* ---------------------------------------------------------------- calibration *)
(* the calibration of an equidistant matrix is its first energies and its bin widths, with the
   excitation energy first; an axis of fewer than two bins has none *)
Theorem calibration_values : forall m,
  (forall x0 dx nx g0 dg ng, Ex m = arith x0 dx nx -> Eg m = arith g0 dg ng -> (2 <= nx)%nat -> (2 <= ng)%nat -> calibration m = Ok (x0, dx, g0, dg)) /\
  ((length (Ex m) < 2 \/ length (Eg m) < 2)%nat -> calibration m = Raise IndexError).
Proof.
  intros m. split.
  - intros x0 dx nx g0 dg ng EX EG N1 N2. unfold calibration. rewrite EX, EG.
    destruct nx as [|[|nx]]; [lia|lia|]. destruct ng as [|[|ng]]; [lia|lia|]. unfold arith, tab. cbn [seq map].
    change (qnat 0) with 0. change (qnat 1) with 1. f_equal. f_equal; [f_equal; [f_equal|]|]; ring.
  - unfold calibration. intros [H|H]; destruct (Ex m) as [|? [|? ?]]; try reflexivity; cbn in H; try lia; destruct (Eg m) as [|? [|? ?]]; try reflexivity; cbn in H; lia.
Qed.
Print Assumptions calibration_values.
Example calibration_ex : calibration (mkM (mkArr 2 []) [qz 7; qz 9] [qz 3; qz 8; qz 13] None None) = Ok (qz 3, qz 8 - qz 3, qz 7, qz 9 - qz 7).
Proof. reflexivity. Qed.

(* ---------------------------------------------------------------- a run of operations *)
(* a sequence of operations stops at the first one that raises, with its exception *)
Theorem run_stops : forall gauss argsort os m m1 o m2 e rest, MatrixRunModel.mruns gauss argsort m os = Ok m1 ->
  MatrixRunModel.mrun gauss argsort m1 o = (m2, Raise e) -> MatrixRunModel.mruns gauss argsort m (os ++ o :: rest) = Raise e.
Proof.
  intros gauss argsort os. induction os as [|o' os IH]; intros m m1 o m2 e rest; cbn [app MatrixRunModel.mruns].
  - intros [= <-] ->. reflexivity.
  - destruct (MatrixRunModel.mrun gauss argsort m o') as [m' [u|x]]; [|discriminate]. apply IH.
Qed.
Print Assumptions run_stops.

(* ---------------------------------------------------------------- files *)
(* a vector is not saved in units that are not known, whatever the format; nothing is written *)
Theorem save_vector_units : forall cwd r1 r2 v p ft, FileModel.save_vector cwd r1 r2 v p ft FileModel.UOther = ([], Raise NotImplementedErr).
Proof. reflexivity. Qed.
Print Assumptions save_vector_units.
(* a numpy file is refused if it is missing or holds something else *)
Theorem load_numpy_refused : forall cwd d p ft, FileModel.filetype p ft = FileModel.TNumpy ->
  (d (FileModel.abs cwd p) = None -> FileModel.read_vector cwd d p ft = ([], Raise OSErr)) /\
  (forall f, d (FileModel.abs cwd p) = Some f -> (forall x, f <> FileModel.FNpy x) -> FileModel.read_vector cwd d p ft = ([], Raise ValueError)).
Proof.
  intros cwd d p ft T. unfold FileModel.read_vector. rewrite T. unfold FileModel.np_load. split.
  - intros ->. reflexivity.
  - intros f -> N. destruct f; try reflexivity. exfalso. now eapply N.
Qed.
Print Assumptions load_numpy_refused.

(* a text file that is missing or holds something else *)
Theorem load_text_refused : forall cwd d p ft, FileModel.filetype p ft = FileModel.TTxt ->
  (d (FileModel.abs cwd p) = None -> FileModel.read_vector cwd d p ft = ([], Raise OSErr) /\ FileModel.read_matrix cwd d p ft = ([], Raise OSErr)) /\
  (forall f, d (FileModel.abs cwd p) = Some f -> (forall x, f <> FileModel.FTxt x) ->
     FileModel.read_vector cwd d p ft = ([], Raise ValueError) /\ FileModel.read_matrix cwd d p ft = ([], Raise ValueError)).
Proof.
  intros cwd d p ft T. unfold FileModel.read_vector, FileModel.read_matrix. rewrite T. unfold FileModel.loadtxt. split.
  - intros ->. now split.
  - intros f -> N. destruct f; try (now split). exfalso. now eapply N.
Qed.
Print Assumptions load_text_refused.
(* The members of a tar file have names of their own: other programs can unpack it. *)
Lemma lstrip_app a b c : ~ In "/"%char b -> ~ In "/"%char c -> b <> [] -> c <> [] -> FileModel.lstrip (a ++ b) = FileModel.lstrip (a ++ c) -> b = c.
Proof.
  intros B C NB NC. induction a as [|x a IH].
  - assert (K : forall l, ~ In "/"%char l -> FileModel.lstrip l = l).
    { intros [|x l] N; [reflexivity|]. cbn. destruct (ascii_dec x "/"%char) as [-> | X]; [exfalso; apply N; now left|].
      destruct x as [[] [] [] [] [] [] [] []]; try reflexivity; now contradiction X. }
    cbn [app]. now rewrite (K b B), (K c C).
  - destruct (ascii_dec x "/"%char) as [-> | X]; [exact IH|]. intros H.
    assert (K : forall l, FileModel.lstrip (x :: l) = x :: l).
    { intros l. cbn. destruct x as [[] [] [] [] [] [] [] []]; try reflexivity; now contradiction X. }
    cbn [app] in H. rewrite !K in H. injection H as H. now apply app_inv_head in H.
Qed.
Theorem tar_names_distinct : forall p objs, NoDup (map fst (FileModel.tar_content p 0 objs)).
Proof.
  intros p objs. assert (N : forall i, ~ In "/"%char (FileModel.str_nat i ++ FileModel.pth ".npy")).
  { intros i I. apply in_app_or in I as [I|I]; [exact (proj1 (ResultsProps.str_nat_plain i) I)|]. cbn in I. repeat destruct I as [I|I]; try discriminate I; exact I. }
  assert (NE : forall i, FileModel.str_nat i ++ FileModel.pth ".npy" <> []) by (intros i E; apply app_eq_nil in E; destruct E as [_ E]; discriminate E).
  assert (H : forall l k, (forall q, In q (map fst (FileModel.tar_content p k l)) -> exists i, (k <= i)%nat /\ q = FileModel.lstrip (FileModel.tmp_path p i)) /\ NoDup (map fst (FileModel.tar_content p k l))).
  { induction l as [|x l IH]; intros k; [split; [intros q []|constructor]|]. cbn [FileModel.tar_content map fst]. destruct (IH (S k)) as [I1 I2]. split.
    - intros q [<-|I]; [exists k; split; [lia|reflexivity]|]. destruct (I1 q I) as (i & L & E). exists i. split; [lia|exact E].
    - constructor; [|exact I2]. intros I. destruct (I1 _ I) as (i & L & E). unfold FileModel.tmp_path in E.
      apply lstrip_app in E; [|apply N|apply N|apply NE|apply NE]. apply app_inv_tail in E. apply FileProofs.str_nat_inj in E. lia. }
  apply H.
Qed.
Print Assumptions tar_names_distinct.

(* ---------------------------------------------------------------- resolution *)
(* the width of the response grows with the gamma energy: the diagonal is extended further at
   higher energies *)
Theorem resolution_grows : forall sqrtq, (forall x y, 0 <= x -> x < y -> sqrtq x < sqrtq y) -> forall e e', 0 <= e -> e < e' ->
  fwhm_Eg sqrtq e < fwhm_Eg sqrtq e'.
Proof.
  intros sqrtq M e e' P L. unfold fwhm_Eg. apply M.
  - assert (0 <= e * e) by now apply Qcmult_nonneg. assert (0 <= qn 50824 100000 * e) by (apply Qcmult_nonneg; [discriminate|exact P]).
    assert (0 <= qn 962481 10000000000 * (e * e)) by (apply Qcmult_nonneg; [discriminate|assumption]). assert (0 < qn 732087 10000) by reflexivity. qlra.
  - assert (A : 0 <= qn 962481 10000000000 * (e' * e' - e * e)).
    { apply Qcmult_nonneg; [discriminate|]. replace (e' * e' - e * e) with ((e' - e) * (e' + e)) by ring. apply Qcmult_nonneg; qlra. }
    replace (qn 962481 10000000000 * (e' * e' - e * e)) with (qn 962481 10000000000 * (e' * e') - qn 962481 10000000000 * (e * e)) in A by ring.
    assert (B : qn 50824 100000 * e < qn 50824 100000 * e').
    { assert (C : 0 < e' - e) by qlra. rewrite (Qcmult_comm _ e), (Qcmult_comm _ e'). apply Qcmult_lt_compat_r; [reflexivity|exact L]. }
    qlra.
Qed.
Print Assumptions resolution_grows.

(* ---------------------------------------------------------------- samples *)
(* Samples that lack the scale or the slope of the curve to be transformed raise KeyError. *)
Theorem samples_missing : forall (num vec : Type) (tr : num -> num -> vec -> vec) shuffle N_max (d : SampTransModel.samples_t num) nld gsf, d <> [] ->
  (nld <> SampTransModel.ANone /\ (~ In "A"%string (map fst d) \/ ~ In "alpha"%string (map fst d)) \/
   nld = SampTransModel.ANone /\ gsf <> SampTransModel.ANone /\ (~ In "B"%string (map fst d) \/ ~ In "alpha"%string (map fst d))) ->
  SampTransModel.tranform_nld_gsf tr shuffle N_max d nld gsf = Raise KeyError.
Proof.
  intros num vec tr shuffle N_max d nld gsf D H.
  assert (G : forall k, ~ In k (map fst d) -> SampTransModel.dict_get d k = Raise KeyError).
  { clear. intros k. induction d as [|[k' v] d IH]; intros N; [reflexivity|]. cbn. destruct (String.eqb_spec k' k) as [-> | _]; [exfalso; apply N; now left|]. apply IH. intros I. apply N. now right. }
  assert (K : forall k, (exists l, SampTransModel.dict_get d k = Ok l) \/ SampTransModel.dict_get d k = Raise KeyError).
  { clear. intros k. induction d as [|[k' v] d IH]; [now right|]. cbn. destruct (String.eqb k' k); [left; eauto|exact IH]. }
  assert (M : exists n, SampTransModel.n_multinest d = Ok n) by (destruct d as [|[? ?] ?]; [contradiction|cbn; eauto]).
  destruct M as [n M]. unfold SampTransModel.tranform_nld_gsf. rewrite M. cbn [rbind].
  destruct H as [[N H]|(-> & N & H)].
  - destruct nld; [contradiction| |]; (destruct H as [H|H]; [rewrite (G _ H); reflexivity|]; destruct (K "A"%string) as [[lk E]|E]; rewrite E; cbn [rbind]; [rewrite (G _ H); reflexivity|reflexivity]).
  - cbn [rbind]. destruct gsf; [contradiction| |]; (destruct H as [H|H]; [rewrite (G _ H); reflexivity|]; destruct (K "B"%string) as [[lk E]|E]; rewrite E; cbn [rbind]; [rewrite (G _ H); reflexivity|reflexivity]).
Qed.
Print Assumptions samples_missing.
Example samples_missing_ex : SampTransModel.tranform_nld_gsf (fun (a b v : nat) => v) (fun n => seq 0 n) 5 [("A"%string, [1; 2]%nat); ("B"%string, [1; 2]%nat)] (SampTransModel.AVec 3%nat) SampTransModel.ANone = Raise KeyError.
Proof. apply samples_missing; [discriminate|]. left. split; [discriminate|]. right. cbn. intros [H|[H|[]]]; discriminate H. Qed.

(* ---------------------------------------------------------------- saving *)
(* Without a path to save to, the result is computed and kept, nothing is written and TypeError
   is raised. *)
Theorem results_kept_without_path : forall S regenerate saving path compute (s s' : S) d, regenerate s = true -> compute s = (s', Ok tt) ->
  saving s' = true -> path s' = None -> NormStateModel.frame regenerate saving path compute s d = (s', d, Raise TypeError).
Proof. intros S regenerate saving path compute s s' d R C V P. unfold NormStateModel.frame. rewrite R, C, V, P. reflexivity. Qed.
Print Assumptions results_kept_without_path.
Example kept_ex : NormStateModel.frame (fun _ => true) (fun _ => true) (fun _ => None) (fun s => (S s, Ok tt)) 4%nat (fun _ => NormStateModel.Absent) = (5%nat, fun _ => NormStateModel.Absent, Raise TypeError).
Proof. apply results_kept_without_path; reflexivity. Qed.

(* ---------------------------------------------------------------- comparison *)
(* two extents fit if they are equal or one of them is 1 *)
Definition extents_fit (n m : nat) : Prop := n = m \/ n = 1%nat \/ m = 1%nat.
(* Two matrices are compared only if both extents fit; otherwise ValueError *)
Theorem allclose_shapes : forall a b,
  (extents_fit (a_nr a) (a_nr b) /\ extents_fit (a_nc a) (a_nc b) -> exists c, np_allclose2 a b = Ok c) /\
  (~ (extents_fit (a_nr a) (a_nr b) /\ extents_fit (a_nc a) (a_nc b)) -> np_allclose2 a b = Raise ValueError).
Proof.
  intros a b. assert (D : forall n m, dim_bcast n m = true <-> extents_fit n m).
  { intros n m. unfold dim_bcast, extents_fit. rewrite !orb_true_iff, !Nat.eqb_eq. tauto. }
  unfold np_allclose2. destruct (dim_bcast (a_nr a) (a_nr b) && dim_bcast (a_nc a) (a_nc b)) eqn:E.
  - apply andb_true_iff in E as [E1 E2]. apply D in E1, E2. split; [eauto|]. intros N. exfalso. now apply N.
  - split; [|reflexivity]. intros [F1 F2]. apply D in F1, F2. rewrite F1, F2 in E. discriminate.
Qed.
Print Assumptions allclose_shapes.
Example allclose_shapes_ex : np_allclose2 (mkArr 2 [[1; 1]; [1; 1]]) (mkArr 2 []) = Raise ValueError /\ np_allclose2 (mkArr 2 [[1; 1]; [1; 1]]) (mkArr 1 [[1]]) = Ok true.
Proof. split; vm_compute; reflexivity. Qed.

(* ---------------------------------------------------------------- ensembles *)
(* The exception of the level density normalisation of the first member is the one the user
   sees, also if a pool was tried first. *)
Theorem ensemble_first_raises : forall L B P O pars_set fit transform gfit draws z pool s p m ms s1 e,
  NormStateModel.nld_compute L B P O pars_set fit transform
    (NormStateModel.mkA L B P None None (Some (EnsNormModel.vec_of (EnsNormModel.cut_nan (fst m)))) None None None) (fst s) = (s1, Raise e) ->
  snd (EnsNormModel.normalize _ _ (EnsNormModel.stage_norm L B P O pars_set fit transform gfit) draws z pool s p (m :: ms)) = Raise e.
Proof.
  intros L B P O pars_set fit transform gfit draws z pool s p m ms s1 e H.
  assert (T : forall p, EnsNormModel.step _ _ (EnsNormModel.stage_norm L B P O pars_set fit transform gfit) draws z s p m =
     ((s1, snd s), (EnsNormModel.cut_nan (fst m), EnsNormModel.cut_nan (snd m)), p, Raise e)).
  { intros q. unfold EnsNormModel.step. cbn [fst snd]. unfold EnsNormModel.stage_norm at 1. rewrite H. reflexivity. }
  unfold EnsNormModel.normalize.
  assert (PR : forall sched, exists x, EnsNormModel.pool_run _ _ (EnsNormModel.stage_norm L B P O pars_set fit transform gfit) draws z s (fun _ => p) sched (m :: ms) = Raise x).
  { intros [|w sched]; [eexists; reflexivity|]. cbn [EnsNormModel.pool_run]. rewrite T. eexists. reflexivity. }
  assert (SR : snd (EnsNormModel.seq_run _ _ (EnsNormModel.stage_norm L B P O pars_set fit transform gfit) draws z s p (m :: ms)) = Raise e).
  { cbn [EnsNormModel.seq_run]. rewrite T. reflexivity. }
  destruct pool as [sched|]; [destruct (PR sched) as [x ->]|]; exact SR.
Qed.
Print Assumptions ensemble_first_raises.

(* ---------------------------------------------------------------- chi square of rhosigchi *)
(* number of the entries that do not count in the first rows *)
Definition missing_upto (k : nat) (rows : list (list (option Qc))) : Z :=
  Z.of_nat (length (filter (fun e => match e with None => true | _ => false end) (concat (firstn k rows)))).
Definition row_sum (row : list (option Qc)) : Qc := qsum (map (fun e => match e with Some x => x | None => 0 end) row).
(* what the sum is divided by after row k: the degrees of freedom left, if any *)
Definition divisor (deg : Z) (rows : list (list (option Qc))) (k : nat) : Qc :=
  let D := (deg - missing_upto (S k) rows)%Z in if (0 <? D)%Z then qz D else 1.
Definition divisors (deg : Z) (rows : list (list (option Qc))) (k : nat) : Qc :=
  fold_right Qcmult 1 (map (divisor deg rows) (seq k (length rows - k))).
(* The chi square that is reported: the sum of every row, divided once for each row from it to
   the last one. *)
Lemma fold_row row : forall c, fold_left (fun c e => match e with Some x => c + x | None => c end) row c = c + row_sum row.
Proof.
  unfold row_sum. induction row as [|[x|] row IH]; intros c; cbn [fold_left map]; [change (qsum []) with 0; ring| |]; rewrite IH; match goal with |- context [qsum (?a :: ?l)] => change (qsum (a :: l)) with (a + qsum l) end; ring.
Qed.
Lemma missing_snoc rows r k : (k <= length rows)%nat -> missing_upto k (rows ++ [r]) = missing_upto k rows.
Proof. intros H. unfold missing_upto. rewrite firstn_app. replace (k - length rows)%nat with 0%nat by lia. cbn [firstn]. now rewrite app_nil_r. Qed.
Lemma missing_all rows r : missing_upto (S (length rows)) (rows ++ [r]) =
  (missing_upto (length rows) rows + Z.of_nat (length (filter (fun e => match e with None => true | _ => false end) r)))%Z.
Proof.
  unfold missing_upto. rewrite !firstn_all2 by (rewrite ?app_length; cbn [length]; lia). rewrite concat_app. cbn [concat]. rewrite app_nil_r, filter_app, app_length. lia.
Qed.
Theorem chisquare_formula : forall deg rows, RhosigchiModel.chi_of_rows deg rows =
  sumn (length rows) (fun k => row_sum (nth k rows []) / divisors deg rows k).
Proof.
  intros deg rows. unfold RhosigchiModel.chi_of_rows.
  assert (H : fold_left (fun '(chi, deg) row =>
         let chi := fold_left (fun c e => match e with Some x => c + x | None => c end) row chi in
         let deg := (deg - Z.of_nat (length (filter (fun e => match e with None => true | _ => false end) row)))%Z in
         (if (0 <? deg)%Z then chi / qz deg else chi, deg)) rows (0, deg)
    = (sumn (length rows) (fun k => row_sum (nth k rows []) / divisors deg rows k), (deg - missing_upto (length rows) rows)%Z)); [|exact (f_equal fst H)].
  induction rows as [|r rows IH] using rev_ind.
  - cbn. f_equal. unfold missing_upto. cbn. lia.
  - rewrite fold_left_app, IH. cbn [fold_left]. cbv zeta. rewrite app_length. cbn [length]. rewrite Nat.add_1_r.
    rewrite missing_all. set (d := (deg - missing_upto (length rows) rows - Z.of_nat (length (filter (fun e => match e with None => true | _ => false end) r)))%Z).
    replace (deg - (missing_upto (length rows) rows + Z.of_nat (length (filter (fun e => match e with None => true | _ => false end) r))))%Z with d by (unfold d; lia).
    f_equal. rewrite fold_row. cbn [sumn]. rewrite app_nth2 by lia. rewrite Nat.sub_diag. cbn [nth].
    assert (DV : divisor deg (rows ++ [r]) (length rows) = if (0 <? d)%Z then qz d else 1).
    { unfold divisor. rewrite missing_all. cbv zeta. replace (deg - (missing_upto (length rows) rows + Z.of_nat (length (filter (fun e => match e with None => true | _ => false end) r))))%Z with d by (unfold d; lia). reflexivity. }
    assert (DL : divisors deg (rows ++ [r]) (length rows) = if (0 <? d)%Z then qz d else 1).
    { unfold divisors. rewrite app_length. cbn [length]. replace (length rows + 1 - length rows)%nat with 1%nat by lia. cbn [seq map fold_right]. rewrite DV. ring. }
    assert (DN : (if (0 <? d)%Z then qz d else 1) <> 0).
    { destruct (Z.ltb_spec 0 d) as [P|_]; [|discriminate]. intros Z. apply (proj1 (qz_lt 0 d)) in P. rewrite Z in P. change (qz 0) with 0 in P. qlra. }
    assert (DK : forall k, (k < length rows)%nat -> divisors deg (rows ++ [r]) k = divisors deg rows k * (if (0 <? d)%Z then qz d else 1)).
    { intros k Hk. unfold divisors. rewrite app_length. cbn [length]. replace (length rows + 1 - k)%nat with (S (length rows - k)) by lia. rewrite seq_S, map_app. cbn [map].
      replace (k + (length rows - k))%nat with (length rows) by lia. rewrite DV. rewrite fold_right_app. cbn [fold_right]. rewrite Qcmult_1_r.
      assert (E : map (divisor deg (rows ++ [r])) (seq k (length rows - k)) = map (divisor deg rows) (seq k (length rows - k))).
      { apply map_ext_in. intros l Hl. apply in_seq in Hl. unfold divisor. rewrite missing_snoc by lia. reflexivity. }
      rewrite E. generalize (map (divisor deg rows) (seq k (length rows - k))) as L. intros L. induction L as [|y L IHL]; cbn [fold_right]; [ring|]. rewrite IHL. ring. }
    assert (NZ : forall k, (k < length rows)%nat -> divisors deg rows k <> 0).
    { intros k _. unfold divisors. induction (seq k (length rows - k)) as [|y L IHL]; cbn [map fold_right]; [discriminate|]. intros Z. apply Qcmult_integral in Z. destruct Z as [Z|Z]; [|contradiction].
      unfold divisor in Z. cbv zeta in Z. destruct (Z.ltb_spec 0 (deg - missing_upto (S y) rows)) as [P|_]; [|discriminate]. apply (proj1 (qz_lt _ _)) in P. rewrite Z in P. change (qz 0) with 0 in P. qlra. }
    rewrite (sumn_ext (length rows) (fun k => row_sum (nth k (rows ++ [r]) []) / divisors deg (rows ++ [r]) k)
      (fun k => / (if (0 <? d)%Z then qz d else 1) * (row_sum (nth k rows []) / divisors deg rows k))).
    2:{ intros k Hk. rewrite app_nth1, DK by lia. field. split; [now apply NZ|exact DN]. }
    rewrite sumn_scal, DL. destruct (0 <? d)%Z; [field; exact DN|]. set (t := sumn _ _). change (/ (1 : Qc)) with (1 : Qc). unfold Qcdiv. change (/ (1 : Qc)) with (1 : Qc). ring.
Qed.
Print Assumptions chisquare_formula.
Example chisquare_formula_ex : qeqb (RhosigchiModel.chi_of_rows 5 [[Some (qz 4); None]; [Some (qz 4)]]) (qz 4 / qz 16 + qz 4 / qz 4) = true.
Proof. vm_compute. reflexivity. Qed.

(* ---------------------------------------------------------------- unusable input *)
(* a Compton subtraction with one of the four tweaks left out is refused *)
Theorem tweaks_complete : forall ga un R r u t tw, UnfoldModel.u_tab un = Some t -> UnfoldModel.t_E t = Eg R -> UnfoldModel.u_tweak un = Some tw ->
  UnfoldModel.tw_fe tw = None \/ UnfoldModel.tw_se tw = None \/ UnfoldModel.tw_de tw = None \/ UnfoldModel.tw_511 tw = None ->
  UnfoldModel.compton_subtraction ga un R r u = Raise ValueError.
Proof.
  intros ga un R r u t tw T E W H. unfold UnfoldModel.compton_subtraction. rewrite T, E, Nat.eqb_refl. cbn [negb].
  replace (leqb (Eg R) (Eg R)) with true.
  2:{ symmetry. now apply Num.leqb_eq. }
  cbn [negb]. rewrite W. unfold UnfoldModel.tweak_vals.
  destruct (UnfoldModel.tw_fe tw), (UnfoldModel.tw_se tw), (UnfoldModel.tw_de tw), (UnfoldModel.tw_511 tw); try reflexivity. destruct H as [H|[H|[H|H]]]; discriminate H.
Qed.
Print Assumptions tweaks_complete.
(* an axis with fewer than two bins has no limits, and samples without parameters have no number *)
Theorem limits_need_two_bins : forall m a b c, (length (Ex m) < 2)%nat -> RscSetupModel.find_limits m a b c = Raise IndexError.
Proof. intros m a b c H. unfold RscSetupModel.find_limits. destruct (Ex m) as [|? [|? ?]]; try reflexivity. cbn in H. lia. Qed.
Print Assumptions limits_need_two_bins.
Theorem samples_empty : forall (num vec : Type) (tr : num -> num -> vec -> vec) shuffle N_max nld gsf,
  SampTransModel.tranform_nld_gsf tr shuffle N_max [] nld gsf = Raise NameError.
Proof. reflexivity. Qed.
Print Assumptions samples_empty.
