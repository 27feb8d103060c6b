(* More statements about functions that other theorems use only in part: which bins enter
   chi square, the energy shift of the spin cut-off models, the width of the smoothing kernel,
   white space of MaMa headers, read-only parameters, vectors without values. *)
From Coq Require Import List String Ascii ZArith QArith Qcanon Reals Lia Bool.
From Verif Require Import Num PyBase ArithModel VectorModel DecompModel ExtractorModel SpinModel.
From Verif Require LevelsModel MamaTextModel ParModel SpinSumModel FileModel NormStateModel TightenProps.
From Coq Require Import Lra.
Import ListNotations.
Local Notation length := List.length (only parsing).
Local Open Scope Qc_scope.

(* ---------------------------------------------------------------- chi square of a trial *)
(* a bin that is not finite spoils chi square exactly if it is on or below the extended
   diagonal and has an uncertainty; the values elsewhere do not matter *)
Theorem errfun_nan : forall v std Exa Ega res E_nld x fit, (forall y, In y x -> 0 <= y) ->
  nld_T_product (mkPin (skipn (length Ega) x) (firstn (length Ega) x) res E_nld Ega Exa) = Some fit ->
  let bad i j := (i < length Exa)%nat /\ (j < length Ega)%nat /\ vget Ega j <= vget Exa i + vget res i /\ mget std i j <> 0 /\
                 (forall q, nth j (nth i fit []) NaN <> Fin q) in
  ((exists i j, bad i j) -> errfun v std Exa Ega res E_nld x = None) /\
  (~ (exists i j, bad i j) -> errfun v std Exa Ega res E_nld x = chisquare_diagonal v (map (map fin_or0) fit) std res Ega Exa).
Proof.
  intros v std Exa Ega res E_nld x fit P E bad. unfold errfun.
  replace (existsb (fun y => qltb y 0) x) with false.
  2:{ symmetry. apply not_true_iff_false. intros H. apply existsb_exists in H. destruct H as (y & I & H).
      apply qltb_lt in H. exact (Qclt_not_le _ _ H (P y I)). }
  rewrite E.
  assert (B : existsb (fun i => existsb (fun j => compared std Exa Ega res i j && negb (finite (nth j (nth i fit []) NaN)))
     (seq 0 (length Ega))) (seq 0 (length Exa)) = true <-> exists i j, bad i j).
  { rewrite existsb_exists. split.
    - intros (i & I & H). apply existsb_exists in H. destruct H as (j & J & H). apply andb_true_iff in H. destruct H as [H1 H2].
      apply andb_true_iff in H1. destruct H1 as [H1 H3]. exists i, j. apply in_seq in I, J. split; [lia|]. split; [lia|].
      split; [now apply qleb_le|]. split; [intros C; apply qeqb_eq in C; rewrite C in H3; discriminate|].
      intros q C. rewrite C in H2. discriminate.
    - intros (i & j & I & J & H1 & H2 & H3). exists i. split; [apply in_seq; lia|]. apply existsb_exists. exists j. split; [apply in_seq; lia|].
      unfold compared. rewrite (proj2 (qleb_le _ _) H1). cbn [andb]. destruct (qeqb_spec (mget std i j) 0) as [C|_]; [contradiction|].
      cbn [negb andb]. destruct (nth j (nth i fit []) NaN) as [q| | |] eqn:F; try reflexivity. now destruct (H3 q). }
  destruct (existsb _ (seq 0 (length Exa))) eqn:X.
  - split; [reflexivity|]. intros N. destruct N. now apply B.
  - split; [|reflexivity]. intros H. apply B in H. discriminate.
Qed.
Print Assumptions errfun_nan.

(* ---------------------------------------------------------------- spin cut-off *)
(* a shift of the energies by Eshift is a shift of the origin; below it the value is constant *)
Theorem EB05_shift : forall core mass a shift e,
  gEB05 core mass a shift (e + shift) = gEB05 core mass a 0 e /\ (e <= shift -> gEB05 core mass a shift e = core mass a 0) /\
  (shift <= e -> gEB05 core mass a shift e = core mass a (e - shift)).
Proof.
  intros core mass a shift e. unfold gEB05, SpinModel.clip. split; [|split].
  - do 2 f_equal. replace (e + shift - shift) with (e - 0) by ring. reflexivity.
  - intros H. destruct (qltb_spec (e - shift) 0) as [_|H']; [reflexivity|]. f_equal. apply Qcle_antisym; qlra.
  - intros H. destruct (qltb_spec (e - shift) 0) as [H'|_]; [|reflexivity]. exfalso. apply (Qclt_not_le _ _ H'). qlra.
Qed.
Print Assumptions EB05_shift.

(* ---------------------------------------------------------------- smoothing of levels *)
(* the kernel reaches to the nearest whole number of bins to four standard deviations *)
Theorem radius_nearest : forall s : R, (0 <= s)%R ->
  (INR (LevelsModel.radius s) <= 4 * s + / 2 < INR (LevelsModel.radius s) + 1)%R /\ (Rabs (INR (LevelsModel.radius s) - 4 * s) <= / 2)%R.
Proof.
  intros s H. unfold LevelsModel.radius. destruct (base_Int_part (4 * s + / 2)) as [A B].
  assert (P : (0 <= Int_part (4 * s + / 2))%Z). { apply Z.lt_succ_r. apply lt_IZR. rewrite succ_IZR. lra. }
  rewrite INR_IZR_INZ, Z2Nat.id by exact P. split; [lra|]. apply Rabs_le. lra.
Qed.
Print Assumptions radius_nearest.

(* ---------------------------------------------------------------- white space *)
Theorem is_space_codes : forall c, MamaTextModel.is_space c = true <-> In (nat_of_ascii c) [9; 10; 11; 12; 13; 28; 29; 30; 31; 32; 133; 160]%nat.
Proof.
  intros c. unfold MamaTextModel.is_space. generalize (nat_of_ascii c) as n. intros n.
  rewrite !orb_true_iff, !andb_true_iff, !Nat.leb_le, !Nat.eqb_eq. cbn [In]. lia.
Qed.
Print Assumptions is_space_codes.

(* ---------------------------------------------------------------- parameters *)
Theorem spinMass_read_only : forall args o v, ParModel.construct ParModel.NP args = Ok o ->
  ParModel.setattr o "spinMass" v = Raise AttributeError.
Proof.
  intros args o v H. unfold ParModel.construct in H. destruct (forallb _ args); [|discriminate]. injection H as <-. reflexivity.
Qed.
Print Assumptions spinMass_read_only.
Example spinMass_case : exists o, ParModel.construct ParModel.NP [("name", ParModel.PStr "x")]%string = Ok o.
Proof. eexists. reflexivity. Qed.

(* ---------------------------------------------------------------- changes in place *)
(* a change of one dictionary or array in place leaves the other ones as they are *)
Theorem in_place_changes_one : forall pars eqb dist s d p a v k,
  (let s' := fst (SpinSumModel.step pars eqb dist s (SpinSumModel.MutPars pars d p)) in
   SpinSumModel.h_pars pars (SpinSumModel.st_heap pars s') k = (if Nat.eq_dec k d then p else SpinSumModel.h_pars pars (SpinSumModel.st_heap pars s) k) /\
   SpinSumModel.h_arr pars (SpinSumModel.st_heap pars s') k = SpinSumModel.h_arr pars (SpinSumModel.st_heap pars s) k) /\
  (let s' := fst (SpinSumModel.step pars eqb dist s (SpinSumModel.MutArr pars a v)) in
   SpinSumModel.h_arr pars (SpinSumModel.st_heap pars s') k = (if Nat.eq_dec k a then v else SpinSumModel.h_arr pars (SpinSumModel.st_heap pars s) k) /\
   SpinSumModel.h_pars pars (SpinSumModel.st_heap pars s') k = SpinSumModel.h_pars pars (SpinSumModel.st_heap pars s) k).
Proof.
  intros pars eqb dist s d p a v k. cbn. unfold SpinSumModel.upd_fn.
  split; (split; [|reflexivity]).
  - destruct (Nat.eqb_spec k d), (Nat.eq_dec k d); congruence.
  - destruct (Nat.eqb_spec k a), (Nat.eq_dec k a); congruence.
Qed.
Print Assumptions in_place_changes_one.

(* ---------------------------------------------------------------- new vectors *)
(* without values a new vector is zero everywhere *)
Theorem vector_without_values : forall E u, exists v, mk_vector None E None u = Ok v /\ v_E v = E /\ v_units v = u /\ v_std v = None /\
  length (v_values v) = length E /\ (forall x, In x (v_values v) -> x = 0).
Proof.
  intros E u. unfold mk_vector, v_verify. cbn [v_E v_values v_std]. rewrite map_length, Nat.eqb_refl. cbn [negb rbind].
  eexists. split; [reflexivity|]. cbn [v_E v_values v_std v_units]. rewrite map_length. repeat split.
  intros x I. apply in_map_iff in I. destruct I as (? & <- & _). reflexivity.
Qed.
Print Assumptions vector_without_values.

(* ---------------------------------------------------------------- missing parameters *)
(* a spin cut-off model of two points without one of its points raises TypeError *)
Theorem spin_pairs_needed : forall core ct emp pars Ex,
  (forall a b, lookup pars "sigma2_disc" <> Some (VPair a b)) \/
    ((exists a b, lookup pars "sigma2_disc" = Some (VPair a b)) /\ forall a b, lookup pars "sigma2_Sn" <> Some (VPair a b)) ->
  get_sigma2 core ct emp "Disc_and_sigmaSn" pars Ex = Raise TypeError.
Proof.
  intros core ct emp pars Ex H. unfold get_sigma2. cbn [String.eqb Ascii.eqb Bool.eqb]. unfold pair_of.
  destruct H as [H|[(a & b & E) H]].
  - destruct (lookup pars "sigma2_disc") as [[x|a b]|]; try reflexivity. now destruct (H a b).
  - rewrite E. cbn [rbind]. destruct (lookup pars "sigma2_Sn") as [[x|a' b']|]; try reflexivity. now destruct (H a' b').
Qed.
Print Assumptions spin_pairs_needed.

(* ---------------------------------------------------------------- csv files *)
Theorem load_csv_refused : forall cwd d v p ft, FileModel.filetype p ft = FileModel.TCsv ->
  (d (FileModel.abs cwd p) = None -> FileModel.load_vector cwd d v p ft = ([], (v, Raise OSErr))) /\
  (forall f, d (FileModel.abs cwd p) = Some f -> TightenProps.format_of f <> FileModel.TCsv ->
     FileModel.load_vector cwd d v p ft = ([], (v, Raise ValueError))).
Proof.
  intros cwd d v p ft F. unfold FileModel.load_vector, FileModel.read_vector. rewrite F. split.
  - intros ->. reflexivity.
  - intros f -> N. destruct f; try reflexivity. now destruct N.
Qed.
Print Assumptions load_csv_refused.

(* ---------------------------------------------------------------- saving *)
(* a new normaliser of the strength function with a path writes its state after a successful
   normalisation: a later normaliser of the same path without regenerate finds it *)
Theorem gsf_new_saves : forall L B P O tr M mo ps sc b gsf nld norm model alpha p pars d s' d',
  NormStateModel.gsf_normalize L B P O tr M mo ps sc b (NormStateModel.gsf_new L B P O M gsf nld norm model alpha (Some p) true pars) d = (s', d', Ok tt) ->
  d' p = NormStateModel.Whole s' /\ (forall q, q <> p -> d' q = d q) /\ NormStateModel.g_regen _ _ _ _ _ s' = true /\
  forall gsf2 nld2 norm2 model2 alpha2 pars2 b2,
    NormStateModel.gsf_normalize L B P O tr M mo ps sc b2 (NormStateModel.gsf_new L B P O M gsf2 nld2 norm2 model2 alpha2 (Some p) false pars2) d'
    = (s', d', Ok tt).
Proof.
  intros L B P O tr M mo ps sc b gsf nld norm model alpha p pars d s' d' H. unfold NormStateModel.gsf_normalize, NormStateModel.frame in *.
  cbn [NormStateModel.gsf_new NormStateModel.g_regen] in H.
  destruct (NormStateModel.gsf_compute _ _ _ _ _ _ _ _ _ _ _) as [s r] eqn:C. destruct r as [u|e]; [|discriminate].
  assert (K : NormStateModel.g_save _ _ _ _ _ s = true /\ NormStateModel.g_path _ _ _ _ _ s = Some p /\ NormStateModel.g_regen _ _ _ _ _ s = true).
  { unfold NormStateModel.gsf_compute in C. repeat (match type of C with context [rbind ?x _] => destruct x; cbn [rbind] in C; [|discriminate] end).
    injection C as <- _. repeat split. }
  destruct K as (K1 & K2 & K3). rewrite K1, K2 in H. cbn [NormStateModel.save] in H. injection H as <- <-.
  unfold NormStateModel.put. rewrite Nat.eqb_refl. split; [reflexivity|]. split.
  { intros q N. now apply Nat.eqb_neq in N as ->. }
  split; [assumption|]. intros. cbn [NormStateModel.gsf_new NormStateModel.g_regen NormStateModel.g_path NormStateModel.load].
  now rewrite Nat.eqb_refl.
Qed.
Print Assumptions gsf_new_saves.

(* ---------------------------------------------------------------- cases *)
(* zero values make an empty row, whose normalised product is nan: with uncertainties chi
   square is lost, with none in that row it is not *)
Definition t2_E : list Qc := [qz 1; qz 2].
Example errfun_nan_case :
  let res := [0; 0] in let En := [0; 1] in
  let v := [[1; 0]; [1; 1]] in let x := [0; 1; 1; 1] in
  (match nld_T_product (mkPin (skipn 2 x) (firstn 2 x) res En t2_E t2_E) with Some _ => true | None => false end) = true /\
  errfun v [[1; 1]; [1; 1]] t2_E t2_E res En x = None /\
  (match errfun v [[0; 1]; [1; 1]] t2_E t2_E res En x with Some _ => true | None => false end) = true.
Proof. vm_compute. repeat split. Qed.
Example spin_pairs_case : get_sigma2 (fun _ _ _ => 1) (fun _ => 1) (fun _ _ => 1) "Disc_and_sigmaSn"
  [("sigma2_disc", VPair 1 1); ("sigma2_Sn", VNum 1)]%string (mkEx false [1]) = Raise TypeError.
Proof. reflexivity. Qed.
Example radius_case : LevelsModel.radius (3 / 2) = 6%nat.
Proof.
  destruct (radius_nearest (3 / 2)) as [[A B] _]; [lra|].
  assert (C : (5 < LevelsModel.radius (3 / 2) < 7)%nat).
  { split; apply INR_lt; cbn [INR]; lra. }
  lia.
Qed.
Example gsf_new_saves_case : exists s' d',
  NormStateModel.gsf_normalize Qc Qc Qc Qc (fun v _ _ => v) Qc (fun o => o) (fun _ => Ok tt) (fun g n m p => Ok (g, qsum (NormStateModel.v_val n)))
    (NormStateModel.mkGA _ _ _ _ _ None None None (Some (NormStateModel.mkVec [1] [1] None true)) (Some 1) None)
    (NormStateModel.gsf_new Qc Qc Qc Qc Qc (Some (NormStateModel.mkVec [1] [1] None true)) None None None (Some 1) (Some 3%nat) true (Some 1))
    (fun _ => NormStateModel.Absent) = (s', d', Ok tt).
Proof. do 2 eexists. reflexivity. Qed.
