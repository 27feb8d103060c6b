(* Further statements that pin down what the models do: starting values, defaults, column
   widths, weights and exceptions. *)
From Coq Require Import String Ascii.
From Verif Require Import PyBase Axis MatrixModel MatrixSpec VectorModel MatrixOpsProofs RebinModel ArithModel ArithProofs VectorOpsProofs.
From Verif Require RhosigchiModel RhosigchiProofs RhosigchiFix RscErrProps AliasModel AliasProps MamaTextModel MamaTextProps FileModel FirstGenModel RespLoadModel.
Local Open Scope Qc_scope.
Local Open Scope list_scope.
Local Notation length := List.length (only parsing).

(* ------------------------------------------------ pyrhosigchi: the first transmission coefficients *)
(* are the sums of the columns of the normalised matrix within the fitted region, 0 elsewhere *)
Lemma addto_loop (row : list Qc) l acc out :
  (forall i, In i l -> (0 <= i)%Z) -> NoDup l ->
  RhosigchiModel.loop (fun acc ig => do F <- RhosigchiModel.at_ true row ig ;; do old <- RhosigchiModel.at_ true acc ig ;; RhosigchiModel.set_ true acc ig (old + F)) acc l = Ok out ->
  length out = length acc /\ forall j, (j < length acc)%nat -> vget out j = vget acc j + (if existsb (Z.eqb (Z.of_nat j)) l then vget row j else 0).
Proof.
  revert acc. induction l as [|i l IH]; intros acc P N; cbn [RhosigchiModel.loop existsb].
  - intros E. injection E as <-. split; [reflexivity|]. intros. ring.
  - destruct (RhosigchiModel.at_ true row i) as [F|] eqn:EF; cbn [rbind]; [|discriminate].
    destruct (RhosigchiModel.at_ true acc i) as [old|] eqn:EO; cbn [rbind]; [|discriminate].
    destruct (RhosigchiModel.set_ true acc i (old + F)) as [acc'|] eqn:ES; cbn [rbind]; [|discriminate].
    assert (I0 := P i (or_introl eq_refl)). apply RhosigchiProofs.set_inv in ES as [B ->]; [|exact I0].
    apply RhosigchiProofs.at_zget in EF; [|exact I0]. apply RhosigchiProofs.at_zget in EO; [|exact I0].
    assert (G : forall l (x : Qc), RhosigchiProofs.zget l i = Some x -> vget l (Z.to_nat i) = x).
    { intros l0 x. unfold RhosigchiProofs.zget. destruct (Z.ltb_spec i 0); [lia|]. intros HH. unfold vget. now apply nth_error_nth. }
    apply G in EF. apply G in EO. inversion N as [|? ? N1 N2]; subst.
    intros H. apply IH in H as [HL HV]; [|intros; apply P; now right|assumption]. rewrite upd_length in *. split; [exact HL|].
    intros j Hj. rewrite HV by exact Hj. unfold vget in *. rewrite nth_upd by lia.
    destruct (Nat.eqb_spec j (Z.to_nat i)) as [E|E].
    + subst j. assert (ZT : (Z.of_nat (Z.to_nat i) =? i)%Z = true) by (apply Z.eqb_eq; lia). rewrite ZT. cbn [orb].
      replace (existsb (Z.eqb (Z.of_nat (Z.to_nat i))) l) with false; [ring|]. symmetry. apply not_true_is_false. intros X. apply existsb_exists in X as (k & K1 & K2). apply N1. replace i with k by lia. exact K1.
    + assert (ZF : (Z.of_nat j =? i)%Z = false) by (apply Z.eqb_neq; lia). rewrite ZF. reflexivity.
Qed.
Theorem gsf_start_meaning : forall L F n g, (0 <= RhosigchiModel.jmin L)%Z -> (0 <= RhosigchiModel.igmin L)%Z ->
  RhosigchiModel.gsf_start L F n = Ok g ->
  length g = n /\ forall ig, (ig < n)%nat ->
    vget g ig = qsum (map (fun ix => if ((RhosigchiModel.igmin L <=? Z.of_nat ig) && (Z.of_nat ig <? nth (Z.to_nat ix) (RhosigchiModel.igmax L) 0))%Z%bool
                                     then mget F (Z.to_nat ix) ig else 0) (zrange (RhosigchiModel.jmin L) (RhosigchiModel.jmax L))).
Proof.
  intros L F n g J0 G0. unfold RhosigchiModel.gsf_start.
  assert (P : forall l acc, (forall ix, In ix l -> (0 <= ix)%Z) ->
    RhosigchiModel.loop (fun acc ix => do gm <- RhosigchiModel.at_ true (RhosigchiModel.igmax L) ix ;;
      RhosigchiModel.loop (fun acc ig => do F0 <- RhosigchiModel.at2 true F ix ig ;; do old <- RhosigchiModel.at_ true acc ig ;; RhosigchiModel.set_ true acc ig (old + F0)) acc (zrange (RhosigchiModel.igmin L) gm)) acc l = Ok g ->
    length g = length acc /\ forall ig, (ig < length acc)%nat -> vget g ig = vget acc ig +
      qsum (map (fun ix => if ((RhosigchiModel.igmin L <=? Z.of_nat ig) && (Z.of_nat ig <? nth (Z.to_nat ix) (RhosigchiModel.igmax L) 0))%Z%bool then mget F (Z.to_nat ix) ig else 0) l)).
  { induction l as [|ix l IH]; intros acc HP; cbn [RhosigchiModel.loop map].
    - intros E. injection E as <-. split; [reflexivity|]. intros. cbn. ring.
    - destruct (RhosigchiModel.at_ true (RhosigchiModel.igmax L) ix) as [gm|] eqn:EG; cbn [rbind]; [|discriminate].
      match goal with |- context [RhosigchiModel.loop ?b acc ?z] => destruct (RhosigchiModel.loop b acc z) as [acc'|] eqn:EL end; cbn [rbind]; [|discriminate].
      intros H. assert (I0 := HP ix (or_introl eq_refl)).
      apply RhosigchiProofs.at_zget in EG; [|exact I0]. assert (GM : nth (Z.to_nat ix) (RhosigchiModel.igmax L) 0%Z = gm).
      { unfold RhosigchiProofs.zget in EG. destruct (Z.ltb_spec ix 0); [lia|]. now apply nth_error_nth. }
      rewrite GM.
      assert (Q : length acc' = length acc /\ forall ig, (ig < length acc)%nat -> vget acc' ig = vget acc ig + (if ((RhosigchiModel.igmin L <=? Z.of_nat ig) && (Z.of_nat ig <? gm))%Z%bool then mget F (Z.to_nat ix) ig else 0)).
      { destruct (zrange (RhosigchiModel.igmin L) gm) as [|z zs] eqn:EZ.
        - cbn in EL. injection EL as <-. split; [reflexivity|]. intros ig Hg.
          destruct ((RhosigchiModel.igmin L <=? Z.of_nat ig) && (Z.of_nat ig <? gm))%Z%bool eqn:EB; [|ring]. exfalso.
          assert (In (Z.of_nat ig) (zrange (RhosigchiModel.igmin L) gm)) as X by (apply RhosigchiProofs.in_zrange; apply andb_true_iff in EB as [E1 E2]; lia). rewrite EZ in X. exact X.
        - destruct (RhosigchiModel.at_ true F ix) as [row|] eqn:ER.
          2:{ exfalso. cbn [RhosigchiModel.loop] in EL. unfold RhosigchiModel.at2 at 1 in EL. rewrite ER in EL. cbn in EL. discriminate. }
          rewrite <- EZ in EL. assert (EL' : RhosigchiModel.loop (fun acc ig => do F0 <- RhosigchiModel.at_ true row ig ;; do old <- RhosigchiModel.at_ true acc ig ;; RhosigchiModel.set_ true acc ig (old + F0)) acc (zrange (RhosigchiModel.igmin L) gm) = Ok acc').
          { rewrite <- EL. apply RhosigchiFix.loop_ext. intros i s. intros. unfold RhosigchiModel.at2. rewrite ER. reflexivity. }
          apply addto_loop in EL' as [HL HV]; [|intros i I; apply RhosigchiProofs.in_zrange in I; lia|apply RhosigchiProofs.NoDup_zrange]. split; [exact HL|]. intros ig Hg. rewrite HV by exact Hg. f_equal.
          apply RhosigchiProofs.at_zget in ER; [|exact I0]. assert (RW : nth (Z.to_nat ix) F [] = row).
          { unfold RhosigchiProofs.zget in ER. destruct (Z.ltb_spec ix 0); [lia|]. now apply nth_error_nth. }
          unfold mget. rewrite RW. replace (existsb (Z.eqb (Z.of_nat ig)) (zrange (RhosigchiModel.igmin L) gm)) with ((RhosigchiModel.igmin L <=? Z.of_nat ig) && (Z.of_nat ig <? gm))%Z%bool; [reflexivity|].
          apply eq_true_iff_eq. rewrite existsb_exists, andb_true_iff. split.
          + intros [E1 E2]. exists (Z.of_nat ig). split; [apply RhosigchiProofs.in_zrange; lia|apply Z.eqb_refl].
          + intros (k & K1 & K2). apply RhosigchiProofs.in_zrange in K1. lia. }
      destruct Q as [QL QV]. apply IH in H as [HL HV]; [|intros; apply HP; now right]. rewrite QL in *. split; [exact HL|]. intros ig Hg. rewrite HV, QV by exact Hg. cbn [qsum fold_right]. unfold qsum. cbn [fold_right]. ring. }
  intros H. apply P in H as [HL HV]; [|intros ix I; apply RhosigchiProofs.in_zrange in I; lia]. rewrite repeat_length in *. split; [exact HL|].
  intros ig Hg. rewrite HV by exact Hg. unfold vget at 1. rewrite nth_repeat. ring.
Qed.
Print Assumptions gsf_start_meaning.

(* ------------------------------------------------ MaMa files: columns of equal width *)
Section Columns.
Import MamaTextModel MamaTextProps.
Lemma render_length n d : (n <= 8)%nat -> (length (render n d) <= n + 8)%nat.
Proof.
  intros Hn. destruct d as [m e]. unfold render.
  assert (D : forall k z, length (digs k z) = k) by (induction k as [|k IH]; intros z; cbn [digs]; [reflexivity|]; rewrite app_length, IH; cbn; lia).
  rewrite !app_length, firstn_length, skipn_length, !map_length, D. unfold exp_digs.
  assert (X : (length (if (Z.abs (e + Z.of_nat n) <? 100)%Z then digs 2 (Z.abs (e + Z.of_nat n)) else digs 3 (Z.abs (e + Z.of_nat n))) <= 3)%nat) by (destruct (_ <? _)%Z; rewrite D; lia).
  assert (Y : (length (if (m <? 0)%Z then t "-" else []) <= 1)%nat) by (destruct (m <? 0)%Z; cbn; lia).
  assert (SG : (length (if (e + Z.of_nat n <? 0)%Z then t "-" else t "+") = 1)%nat) by (destruct (e + Z.of_nat n <? 0)%Z; reflexivity).
  rewrite SG. change (length (t ".")) with 1%nat. change (length (t "E")) with 1%nat. lia.
Qed.
(* number k of a line starts in column 18 k, and a line of n numbers has 18 n - 1 characters *)
Theorem mama_columns : forall r, r <> [] -> length (row_text r) = (18 * length r - 1)%nat /\
  forall k d, nth_error r k = Some d -> firstn (length (render 8 d)) (skipn (18 * k) (row_text r)) = render 8 d.
Proof.
  assert (P : forall d, length (pad_right 17 (render 8 d)) = 17%nat).
  { intros d. unfold pad_right, spaces. rewrite app_length, repeat_length. pose proof (render_length 8 d (le_n 8)). lia. }
  assert (H0 : forall d rest, firstn (length (render 8 d)) (pad_right 17 (render 8 d) ++ rest) = render 8 d).
  { intros d rest. unfold pad_right. rewrite <- app_assoc, firstn_app, Nat.sub_diag, firstn_all, firstn_O, app_nil_r. reflexivity. }
  unfold row_text. induction r as [|x r IH]; intros N; [contradiction|]. destruct r as [|y r].
  - cbn [map join]. split; [rewrite P; reflexivity|]. intros [|k] d E; cbn in E; [|destruct k; discriminate]. injection E as ->. cbn [skipn Nat.mul]. rewrite <- (app_nil_r (pad_right _ _)). apply H0.
  - destruct (IH ltac:(discriminate)) as [L C]. set (rest := join (t " ") (map (fun x0 => pad_right 17 (render 8 x0)) (y :: r))) in *.
    change (join (t " ") (map (fun x0 => pad_right 17 (render 8 x0)) (x :: y :: r))) with (pad_right 17 (render 8 x) ++ t " " ++ rest). split.
    + rewrite !app_length, P, L. change (length (t " ")) with 1%nat. cbn [length]. lia.
    + intros [|k] d E; cbn [nth_error] in E; [injection E as ->; apply H0|].
      rewrite app_assoc, skipn_app. assert (LL : length (pad_right 17 (render 8 x) ++ t " ") = 18%nat) by (rewrite app_length, P; reflexivity).
      rewrite LL. rewrite skipn_all2 by lia. replace (18 * S k - 18)%nat with (18 * k)%nat by lia. cbn [app]. now apply C.
Qed.
(* a calibration line with a field that is no number raises ValueError *)
Theorem floats_result : forall l, match floats l with
  | Ok v => Forall2 (fun x d => parse_number x = Some d) l v
  | Raise e => e = ValueError /\ exists x, In x l /\ parse_number x = None
  end.
Proof.
  induction l as [|x l IH]; cbn [floats]; [constructor|]. destruct (parse_number x) as [d|] eqn:E.
  - destruct (floats l) as [v|e]; cbn [rbind]; [now constructor|]. destruct IH as (-> & y & Y1 & Y2). split; [reflexivity|]. exists y. split; [now right|exact Y2].
  - split; [reflexivity|]. exists x. split; [now left|exact E].
Qed.
Theorem mama_read_refuses : forall f rows line, genfromtxt 10 1 (lines f) = Ok rows -> nth_error (lines f) 6 = Some line ->
  (exists x, In x (skipn 1 (split (is_char ",") line)) /\ parse_number x = None) -> mama_read_text f = Raise ValueError.
Proof.
  intros f rows line G L (x & I & N). unfold mama_read_text. rewrite G. cbn [rbind]. rewrite L. cbv zeta. destruct (_ || _); [|reflexivity].
  pose proof (floats_result (skipn 1 (split (is_char ",") line))) as F. destruct (floats _) as [v|e]; [|destruct F as [-> _]; reflexivity].
  exfalso. clear -F I N. induction F as [|a d l v H F IH]; [exact I|]. destruct I as [->|I]; [congruence|auto].
Qed.
End Columns.
Print Assumptions mama_columns.
Print Assumptions floats_result.
Print Assumptions mama_read_refuses.

(* ------------------------------------------------ exceptions *)
(* a vector with fewer than two energies has no calibration: saving it as MaMa raises IndexError
   and touches no file *)
Theorem mama_short_vector : forall cwd rd6 rd8 p v ft u w, FileModel.filetype p ft = FileModel.TMama -> FileModel.convert u v = Ok w ->
  (exists x, to_keV w = Ok x) -> (length (v_E v) < 2)%nat -> (length (v_values v) = length (v_E v)) ->
  FileModel.save_vector cwd rd6 rd8 v p ft u = ([], Raise IndexError).
Proof.
  intros * T C (x & K) L LV. unfold FileModel.save_vector. rewrite C, T, K. unfold FileModel.mama_write1D.
  destruct (8192 <? Z.of_nat (length (v_values v)))%Z eqn:B; [lia|]. unfold v_calibration. destruct (v_E v) as [|a [|b l]]; [reflexivity|reflexivity|cbn in L; lia].
Qed.
Print Assumptions mama_short_vector.
(* what `m @ w` refuses, it refuses with ValueError *)
Theorem matmul_refuses : forall m w e, m_matmul m w = Raise e -> e = ValueError.
Proof.
  intros m w e. unfold m_matmul. destruct (negb _); [congruence|]. unfold bcast_allclose.
  assert (K : forall c : bool, (if negb c then Raise ValueError else if negb (Nat.eqb (a_nc (values m)) (a_nr (values w))) then Raise ValueError else Ok (with_values m (matprod (values m) (values w)))) = Raise e -> e = ValueError).
  { intros c. destruct (negb c); [congruence|]. destruct (negb _); [congruence|discriminate]. }
  destruct (Nat.eqb (length (Eg m)) (length (Eg w))); cbn [rbind]; [apply K|]. destruct (Eg m) as [|a [|b l]], (Eg w) as [|c [|d k]]; cbn [rbind]; try apply K; congruence.
Qed.
Print Assumptions matmul_refuses.
(* an action that raises: the first-generation method raises the same and keeps its state *)
Theorem firstgen_action_raises : forall act g u e, act u = Raise e -> FirstGenModel.fg_apply act g u = (g, Raise e).
Proof. intros * E. unfold FirstGenModel.fg_apply. now rewrite E. Qed.
Print Assumptions firstgen_action_raises.
(* an archive without response functions *)
Theorem zip_without_rows : forall files, RespLoadModel.load_zip (Some []) files = Raise ValueError.
Proof. intros. reflexivity. Qed.
Print Assumptions zip_without_rows.
(* a tar file that is missing or is no tar file, for vectors and matrices *)
Theorem load_tar_refused : forall cwd d p ft, FileModel.filetype p ft = FileModel.TTar ->
  (d (FileModel.abs cwd (FileModel.tar_path p)) = None ->
     FileModel.read_matrix cwd d p ft = ([], Raise OSErr) /\ FileModel.read_vector cwd d p ft = ([], Raise OSErr)) /\
  (forall f, d (FileModel.abs cwd (FileModel.tar_path p)) = Some f -> (forall x, f <> FileModel.FTar x) ->
     FileModel.read_matrix cwd d p ft = ([], Raise ValueError) /\ FileModel.read_vector cwd d p ft = ([], Raise ValueError)).
Proof.
  intros cwd d p ft T. unfold FileModel.read_matrix, FileModel.read_vector. rewrite T. unfold FileModel.load_tar. split.
  - intros ->. now split.
  - intros f -> N. destruct f; try (now split). exfalso. now eapply N.
Qed.
Print Assumptions load_tar_refused.
