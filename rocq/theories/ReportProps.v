(* C118: what the sampler reports. *)
From Coq Require Import Reals List String Ascii Arith.
From Flocq Require Import Core.Raux Core.Generic_fmt.
From Verif Require Import PyBase ReportModel.
From Coq Require Import Lra Lia.
Import ListNotations.
Local Open Scope R_scope.
Local Notation length := List.length (only parsing).

(* ------------------------------------------------------------------ specification *)
Definition half_width (m : marginal) : R := (mg_hi m - mg_lo m) / 2.
(* the number read from a list of digits *)
Definition value (l : list nat) : nat := fold_left (fun a d => 10 * a + d)%nat l 0%nat.
(* the line for the parameter with this name: median and half the 1 sigma interval; what is
   printed differs by at most a twentieth of the uncertainty *)
Definition reports (n : string) (m : marginal) (e : entry) : Prop :=
  en_name e = n /\ en_median e = mg_median m /\ en_sigma e = half_width m /\
  Rabs (fst (en_shown e) - mg_median m) <= half_width m / 20 /\
  Rabs (snd (en_shown e) - half_width m) <= half_width m / 20.

(* ------------------------------------------------------------------ digits *)
Lemma digits_fuel : forall f g n, (n < f)%nat -> (n < g)%nat -> digits f n = digits g n.
Proof.
  induction f as [|f IH]; intros [|g] n F G; try lia. cbn [digits]. destruct (n <? 10)%nat eqn:E; [reflexivity|]. apply Nat.ltb_ge in E. f_equal.
  assert (n / 10 < n)%nat by (apply Nat.div_lt; lia). apply IH; lia.
Qed.
Lemma digits_step n : (10 <= n)%nat -> digits (S n) n = digits (S (n / 10)) (n / 10) ++ [(n mod 10)%nat].
Proof.
  intros H. cbn [digits]. destruct (n <? 10)%nat eqn:E; [apply Nat.ltb_lt in E; lia|]. f_equal. assert (n / 10 < n)%nat by (apply Nat.div_lt; lia). apply (digits_fuel n (S (n / 10))); lia.
Qed.
Lemma digits_small n : (n < 10)%nat -> digits (S n) n = [n].
Proof. intros H. cbn [digits]. now rewrite (proj2 (Nat.ltb_lt _ _) H). Qed.
Lemma digits_value n : value (digits (S n) n) = n.
Proof.
  induction n as [n IH] using (well_founded_induction lt_wf). destruct (Nat.lt_ge_cases n 10) as [H|H]; [rewrite digits_small by exact H; unfold value; cbn; lia|].
  rewrite digits_step by exact H. unfold value in *. rewrite fold_left_app. cbn [fold_left]. rewrite IH by (apply Nat.div_lt; lia). symmetry. apply Nat.div_mod. lia.
Qed.
Lemma digits_lt n : Forall (fun d => d < 10)%nat (digits (S n) n).
Proof.
  induction n as [n IH] using (well_founded_induction lt_wf). destruct (Nat.lt_ge_cases n 10) as [H|H]; [rewrite digits_small by exact H; constructor; [exact H|constructor]|].
  rewrite digits_step by exact H. apply Forall_app. split; [apply IH, Nat.div_lt; lia|]. constructor; [apply Nat.mod_upper_bound; lia|constructor].
Qed.
Lemma digits_length_mono : forall m n, (n <= m)%nat -> (length (digits (S n) n) <= length (digits (S m) m))%nat.
Proof.
  induction m as [m IH] using (well_founded_induction lt_wf). intros n L. destruct (Nat.lt_ge_cases m 10) as [H|H].
  - rewrite (digits_small m), (digits_small n) by lia. cbn. lia.
  - rewrite (digits_step m H), app_length. cbn [List.length]. destruct (Nat.lt_ge_cases n 10) as [K|K]; [rewrite digits_small by exact K; cbn; lia|].
    rewrite digits_step, app_length by exact K. cbn [List.length]. assert (length (digits (S (n / 10)) (n / 10)) <= length (digits (S (m / 10)) (m / 10)))%nat; [|lia].
    apply IH; [apply Nat.div_lt; lia|]. apply Nat.div_le_mono; lia.
Qed.
Definition dchar (d : nat) : ascii := ascii_of_nat (48 + d).
Lemma dchar_nat d : (d < 10)%nat -> nat_of_ascii (dchar d) = (48 + d)%nat.
Proof. intros H. unfold dchar. apply nat_ascii_embedding. lia. Qed.
Lemma dchar_inj d e : (d < 10)%nat -> (e < 10)%nat -> dchar d = dchar e -> d = e.
Proof. intros D E H. apply (f_equal nat_of_ascii) in H. rewrite !dchar_nat in H by assumption. lia. Qed.
Lemma dchar_not_ d : (d < 10)%nat -> dchar d <> "_"%char.
Proof. intros D H. apply (f_equal nat_of_ascii) in H. rewrite dchar_nat in H by assumption. cbn in H. lia. Qed.
Lemma cons_inj {A} (x y : A) a b : x :: a = y :: b -> x = y /\ a = b.
Proof. intros H. injection H as -> ->. now split. Qed.
Lemma prefix_free a b s t : Forall (fun d => d < 10)%nat a -> Forall (fun d => d < 10)%nat b ->
  map dchar a ++ "_"%char :: s = map dchar b ++ "_"%char :: t -> a = b /\ s = t.
Proof.
  intros FA. revert b. induction FA as [|x a X FA IH]; intros b FB H; destruct FB as [|y b Y FB]; cbn [map app] in H; apply cons_inj in H; destruct H as [E H].
  - now split. - symmetry in E. now apply dchar_not_ in E. - now apply dchar_not_ in E.
  - apply dchar_inj in E; try assumption. destruct (IH b FB H) as [-> ->]. subst. now split.
Qed.

(* ------------------------------------------------------------------ files *)
(* No file of one member is a file of another, nor of the other normaliser. *)
Theorem member_files_distinct : forall dir stage stage' n m s t,
  (stage = nld_stage \/ stage = sim_stage) -> (stage' = nld_stage \/ stage' = sim_stage) ->
  base_path dir stage n ++ s = base_path dir stage' m ++ t -> stage = stage' /\ n = m /\ s = t.
Proof.
  intros dir stage stage' n m s t HS HS' H. unfold base_path in H. rewrite <- !app_assoc in H. apply app_inv_head in H. apply app_inv_head in H.
  assert (ST : stage = stage' /\ decimal n ++ chars "_" ++ s = decimal m ++ chars "_" ++ t).
  { destruct HS as [->| ->], HS' as [->| ->].
    - split; [reflexivity|]. now apply app_inv_head in H.
    - exfalso. unfold nld_stage, sim_stage in H. cbn [chars list_ascii_of_string app] in H. apply cons_inj in H. destruct H as [H _]. discriminate H.
    - exfalso. unfold nld_stage, sim_stage in H. cbn [chars list_ascii_of_string app] in H. apply cons_inj in H. destruct H as [H _]. discriminate H.
    - split; [reflexivity|]. now apply app_inv_head in H. }
  destruct ST as [-> ST]. split; [reflexivity|]. destruct (prefix_free (digits (S n) n) (digits (S m) m) s t (digits_lt n) (digits_lt m) ST) as [E ->]. split; [|reflexivity].
  apply (f_equal value) in E. now rewrite !digits_value in E.
Qed.
Print Assumptions member_files_distinct.

(* Full statement: whether the normalisation can be run does not depend on the number of the
   member.  False; shown: it can for all smaller numbers. *)
Theorem smaller_numbers_run_partial : forall stage names dir n m alpha T run, (n <= m)%nat ->
  optimize stage names dir n alpha T run = Fails (Py AssertionError) -> optimize stage names dir m alpha T run = Fails (Py AssertionError).
Proof.
  intros stage names dir n m alpha T run L. unfold optimize. destruct (Rlt_dec alpha 0); [discriminate|]. destruct (Rlt_dec T 0); [discriminate|].
  assert (LP : (length (base_path dir stage n) <= length (base_path dir stage m))%nat).
  { unfold base_path, decimal. rewrite !app_length, !map_length. pose proof (digits_length_mono m n L). lia. }
  destruct (length (base_path dir stage n) <? 60)%nat eqn:E.
  - intros H. exfalso. clear - H. generalize dependent (run (base_path dir stage n)). clear. induction names as [|k names IH]; intros [|x ms]; cbn; try discriminate. destruct (decimals _) as [i|e] eqn:ED.
    + destruct (report names ms) as [t|e] eqn:ER; [discriminate|]. intros [= ->]. now apply (IH ms).
    + intros [= ->]. unfold decimals in ED. destruct (Rlt_dec _ 0); [discriminate|]. destruct (Req_EM_T _ 0); discriminate.
  - intros _. apply Nat.ltb_ge in E. now rewrite (proj2 (Nat.ltb_ge _ _)) by lia.
Qed.
Print Assumptions smaller_numbers_run_partial.
Definition long_dir : list ascii := repeat "m"%char 47.
Definition good_run (_ : list ascii) : list marginal := repeat (mkMg 1 3 2) 5.

(* ------------------------------------------------------------------ the numbers *)
Lemma ln10 : 0 < ln 10.
Proof. rewrite <- ln_1. apply ln_increasing; lra. Qed.
Lemma decade s : 0 < s -> powerRZ 10 (Zfloor (ln s / ln 10)) <= s < powerRZ 10 (Zfloor (ln s / ln 10) + 1).
Proof.
  intros S. pose proof ln10 as L. rewrite !powerRZ_Rpower by lra. assert (E : Rpower 10 (ln s / ln 10) = s) by (unfold Rpower; replace (ln s / ln 10 * ln 10) with (ln s) by (field; lra); now apply exp_ln).
  split.
  - rewrite <- E at 2. apply Rle_Rpower; [lra|]. apply Zfloor_lb.
  - rewrite <- E at 1. apply Rpower_lt; [lra|]. rewrite plus_IZR. apply Zfloor_ub.
Qed.
Lemma decimals_pos s : 0 < s -> exists i, decimals s = Done i /\ / 10 ^ i <= s / 10 /\ (i = 0%nat \/ s / 100 < / 10 ^ i).
Proof.
  intros S. unfold decimals. destruct (Rlt_dec s 0); [lra|]. destruct (Req_EM_T s 0); [lra|]. eexists. split; [reflexivity|].
  destruct (decade s S) as [D1 D2]. set (f := Zfloor (ln s / ln 10)) in *. clearbody f. assert (P10 : 10 <> 0) by lra.
  destruct (Z.le_gt_cases f 1) as [H|H].
  - rewrite Z.max_r by lia. set (i := Z.to_nat (- f + 1)). assert (EI : Z.of_nat i = (- f + 1)%Z) by (unfold i; lia).
    assert (EP : / 10 ^ i = powerRZ 10 f / 10). { rewrite pow_powerRZ, EI. rewrite <- powerRZ_neg' by exact P10. replace (- (- f + 1))%Z with (f + -1)%Z by lia. rewrite powerRZ_add by exact P10. assert (M1 : powerRZ 10 (-1) = / 10) by (unfold powerRZ; now rewrite Pos2Nat.inj_1, pow_1). rewrite M1. unfold Rdiv. reflexivity. }
    rewrite EP. split; [lra|right]. rewrite powerRZ_add, powerRZ_1 in D2 by exact P10. lra.
  - rewrite Z.max_l by lia. cbn [Z.to_nat]. rewrite pow_O. split; [|now left]. assert (powerRZ 10 2 <= powerRZ 10 f) by (rewrite !powerRZ_Rpower by lra; apply Rle_Rpower; [lra|]; apply IZR_le; lia). assert (M2 : powerRZ 10 2 = 100) by (unfold powerRZ; change (Pos.to_nat 2) with 2%nat; cbn; ring). rewrite M2 in H0. lra.
Qed.
Lemma printed_close i x : Rabs (printed i x - x) <= / 10 ^ i / 2.
Proof.
  unfold printed. assert (P : 0 < 10 ^ i) by (apply pow_lt; lra). set (n := IZR _). assert (H : Rabs (x * 10 ^ i - n) <= / 2) by apply Znearest_half.
  replace (n / 10 ^ i - x) with ((n - x * 10 ^ i) * / 10 ^ i) by (field; lra). rewrite Rabs_mult, (Rabs_pos_eq (/ 10 ^ i)) by (apply Rlt_le, Rinv_0_lt_compat, P).
  rewrite Rabs_minus_sym in H. assert (0 < / 10 ^ i) by now apply Rinv_0_lt_compat. nra.
Qed.
(* With intervals of positive width: every parameter is reported under its name. *)
Theorem sampler_report : forall names ms, Forall (fun m => mg_lo m < mg_hi m) ms -> length names = length ms ->
  exists es, report names ms = Done es /\ length es = length names /\
  (forall k, (k < length names)%nat -> reports (nth k names EmptyString) (nth k ms (mkMg 0 0 0)) (nth k es (mkEn EmptyString 0 0 (0, 0)))).
Proof.
  intros names ms F. revert names. induction F as [|m ms M F IH]; intros [|n names] L; try discriminate; [exists []; cbn; repeat split; intros; lia|].
  cbn [report]. destruct (decimals_pos ((mg_hi m - mg_lo m) / 2) ltac:(lra)) as (i & -> & I & _). destruct (IH names ltac:(now injection L)) as (es & -> & LE & H).
  eexists. split; [reflexivity|]. split; [cbn; now rewrite LE|]. intros [|k] K; cbn in K; cbn [nth]; [|apply H; lia].
  unfold reports, half_width. cbn [en_name en_median en_sigma en_shown fst snd]. repeat split; (eapply Rle_trans; [apply printed_close|lra]).
Qed.
Print Assumptions sampler_report.
(* as optimize returns it, with the positions of the likelihood *)
Theorem optimize_report : forall dir num alpha T run, 0 <= alpha -> 0 <= T ->
  (forall p, Forall (fun m => mg_lo m < mg_hi m) (run p)) ->
  ((length (base_path dir nld_stage num) < 60)%nat -> (forall p, length (run p) = 4%nat) -> exists a b c d, optimize_nld dir num alpha T run = Done [a; b; c; d] /\
     (let m k := nth k (run (base_path dir nld_stage num)) (mkMg 0 0 0) in
      reports "A" (m 0%nat) a /\ reports "alpha" (m 1%nat) b /\ reports "T" (m 2%nat) c /\ reports "Eshift" (m 3%nat) d)) /\
  ((length (base_path dir sim_stage num) < 60)%nat -> (forall p, length (run p) = 5%nat) -> exists a b c d e, optimize_sim dir num alpha T run = Done [a; b; c; d; e] /\
     (let m k := nth k (run (base_path dir sim_stage num)) (mkMg 0 0 0) in
      reports "A" (m 0%nat) a /\ reports "alpha" (m 1%nat) b /\ reports "T" (m 2%nat) c /\ reports "Eshift" (m 3%nat) d /\ reports "B" (m 4%nat) e)).
Proof.
  intros dir num alpha T run HA HT HR. split; intros LP L4; unfold optimize_nld, optimize_sim, optimize; (destruct (Rlt_dec alpha 0); [lra|]); (destruct (Rlt_dec T 0); [lra|]);
    rewrite (proj2 (Nat.ltb_lt _ _) LP).
  - destruct (sampler_report nld_names _ (HR (base_path dir nld_stage num))) as (es & E & LE & H); [now rewrite L4|]. rewrite E. destruct es as [|a [|b [|c [|d [|]]]]]; try discriminate. exists a, b, c, d. split; [reflexivity|].
    repeat split; try (apply (H 0%nat); cbn; lia); try (apply (H 1%nat); cbn; lia); try (apply (H 2%nat); cbn; lia); apply (H 3%nat); cbn; lia.
  - destruct (sampler_report sim_names _ (HR (base_path dir sim_stage num))) as (es & E & LE & H); [now rewrite L4|]. rewrite E. destruct es as [|a [|b [|c [|d [|e [|]]]]]]; try discriminate. exists a, b, c, d, e. split; [reflexivity|].
    repeat split; try (apply (H 0%nat); cbn; lia); try (apply (H 1%nat); cbn; lia); try (apply (H 2%nat); cbn; lia); try (apply (H 3%nat); cbn; lia); apply (H 4%nat); cbn; lia.
Qed.
Print Assumptions optimize_report.
(* not more decimals than needed, and the uncertainty is never shown as zero *)
Theorem shown_uncertainty : forall s i, 0 < s -> decimals s = Done i ->
  0 < printed i s /\ (i = 0%nat \/ s / 100 < / 10 ^ i).
Proof.
  intros s i S D. destruct (decimals_pos s S) as (j & E & J & K). rewrite D in E. injection E as ->. split; [|exact K].
  pose proof (printed_close j s) as C. apply Rabs_le_inv in C. lra.
Qed.
Print Assumptions shown_uncertainty.

(* Full statement: a finished run is reported.  False when the samples of one parameter agree:
   the number of decimals cannot be found and the run is lost. *)
Theorem zero_width_refuted : forall names ms k, length names = length ms -> (k < length ms)%nat ->
  (forall j, (j < k)%nat -> mg_lo (nth j ms (mkMg 0 0 0)) < mg_hi (nth j ms (mkMg 0 0 0))) ->
  mg_lo (nth k ms (mkMg 0 0 0)) = mg_hi (nth k ms (mkMg 0 0 0)) -> report names ms = Fails OverflowErr.
Proof.
  induction names as [|n names IH]; intros [|m ms] k L K HJ HK; cbn in *; try lia. destruct k as [|k].
  - unfold decimals. destruct (Rlt_dec _ 0); [lra|]. destruct (Req_EM_T _ 0); [reflexivity|lra].
  - destruct (decimals_pos ((mg_hi m - mg_lo m) / 2)) as (i & -> & _); [specialize (HJ 0%nat ltac:(lia)); cbn in HJ; lra|]. rewrite (IH ms k); [reflexivity|lia|lia| |exact HK].
    intros j J. apply (HJ (S j)). lia.
Qed.
Print Assumptions zero_width_refuted.

(* what is refused before the run *)
Theorem optimize_refuses : forall stage names dir num alpha T run,
  (alpha < 0 -> optimize stage names dir num alpha T run = Fails (Py NotImplementedErr)) /\
  (0 <= alpha -> T < 0 -> optimize stage names dir num alpha T run = Fails (Py ValueError)) /\
  (0 <= alpha -> 0 <= T -> (60 <= length (base_path dir stage num))%nat -> optimize stage names dir num alpha T run = Fails (Py AssertionError)).
Proof.
  intros stage names dir num alpha T run. unfold optimize. split; [|split].
  - intros H. now destruct (Rlt_dec alpha 0). - intros H K. destruct (Rlt_dec alpha 0); [lra|]. now destruct (Rlt_dec T 0).
  - intros H K L. destruct (Rlt_dec alpha 0); [lra|]. destruct (Rlt_dec T 0); [lra|]. now rewrite (proj2 (Nat.ltb_ge _ _) L).
Qed.
Print Assumptions optimize_refuses.
Theorem member_number_refuted : ~ (forall dir n m alpha T run, 0 <= alpha -> 0 <= T ->
  (exists es, optimize_nld dir n alpha T run = Done es) -> exists es, optimize_nld dir m alpha T run = Done es).
Proof.
  intros H. specialize (H long_dir 9%nat 10%nat 1 1 good_run ltac:(lra) ltac:(lra)). assert (E : exists es, optimize_nld long_dir 9 1 1 good_run = Done es).
  { assert (G : forall p, Forall (fun m => mg_lo m < mg_hi m) (firstn 4 (good_run p))) by (intros p; cbn; repeat constructor; cbn; lra).
    destruct (sampler_report nld_names (repeat (mkMg 1 3 2) 4)) as (es & E & _); [exact (G [])|reflexivity|]. unfold optimize_nld, optimize. destruct (Rlt_dec 1 0); [lra|]. 
    change (length (base_path long_dir nld_stage 9) <? 60)%nat with true. cbn [good_run]. exists es. rewrite <- E. cbn [repeat nld_names report]. reflexivity. }
  destruct (H E) as [es E']. assert (L10 : (60 <= length (base_path long_dir nld_stage 10))%nat) by (vm_compute; lia).
  unfold optimize_nld in E'. rewrite (proj2 (proj2 (optimize_refuses nld_stage nld_names long_dir 10 1 1 good_run))) in E'; [discriminate|lra|lra|exact L10].
Qed.
Print Assumptions member_number_refuted.

(* ------------------------------------------------------------------ examples *)
Example path_ex : base_path (chars "multinest") nld_stage 120 = chars "multinest/nld_norm_120_".
Proof. reflexivity. Qed.
Example report_ex : exists es, optimize_nld (chars "multinest") 3 1 1 (fun _ => repeat (mkMg 1 3 2) 4) = Done es /\ length es = 4%nat.
Proof.
  destruct (optimize_report (chars "multinest") 3 1 1 (fun _ => repeat (mkMg 1 3 2) 4) ltac:(lra) ltac:(lra) ltac:(intros; repeat constructor; cbn; lra)) as [H _].
  destruct (H ltac:(vm_compute; lia) ltac:(reflexivity)) as (a & b & c & d & E & _). eexists. split; [exact E|reflexivity].
Qed.
Example zero_width_ex : report ["A"; "T"]%string [mkMg 1 3 2; mkMg 1 1 1] = Fails OverflowErr.
Proof. apply (zero_width_refuted _ _ 1%nat); [reflexivity|cbn; lia| |reflexivity]. intros j J. assert (j = 0)%nat by lia. subst. cbn. lra. Qed.
