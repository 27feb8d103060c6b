From Coq Require Import String.
From Verif Require Import PyBase Axis MatrixModel VectorOpsProofs ArithModel Conc ConcProofs EnsembleModel EnsembleSpec EnsembleProofs.
Local Open Scope list_scope.
Local Open Scope nat_scope.

(* pointwise equal directories *)
Lemma run_ext {A} (p : fprog A) : forall d d', (forall k, d k = d' k) -> snd (run p d) = snd (run p d') /\ forall k, fst (run p d) k = fst (run p d') k.
Proof.
  induction p as [r|k c IH|k g c IH]; intros d d' E; cbn [Conc.run].
  - now split.
  - rewrite E. now apply IH.
  - apply IH. intros q. unfold Conc.dset. destruct (key_eqb q k); [reflexivity|apply E].
Qed.

Section Gen.
Variable rng : Type.
Variable rng_of : Z -> nat -> rng.
Variable normal : rng -> arr2 -> (nat -> nat -> Qc) * rng.
Variable poisson : rng -> arr2 -> (nat -> nat -> nat) * rng.
Variable sqrtq : Qc -> Qc.
Variable raw0 : matrix.
Variable bg0 : option matrix.
Variable bg_ratio : Qc.
Variables act_prompt act_bg act_raw act_unf act_fg : matrix -> result matrix.
Variables unfolder fg_method : matrix -> result matrix.
Variables (seed : Z) (meth : method).

Local Notation ens_step := (ens_step rng rng_of normal poisson raw0 bg0 bg_ratio act_prompt act_bg act_raw act_unf act_fg unfolder fg_method).
Local Notation tasks := (tasks rng rng_of normal poisson raw0 bg0 bg_ratio act_prompt act_bg act_raw act_unf act_fg unfolder fg_method).
Local Notation pool := (pool rng rng_of normal poisson raw0 bg0 bg_ratio act_prompt act_bg act_raw act_unf act_fg unfolder fg_method).
Local Notation generates := (generates rng rng_of normal poisson sqrtq raw0 bg0 bg_ratio act_prompt act_bg act_raw act_unf act_fg unfolder fg_method).
Local Notation finish := (finish sqrtq raw0).
Local Notation fg_member := (fg_member rng rng_of normal poisson raw0 bg0 bg_ratio act_prompt act_bg act_raw act_unf unfolder fg_method seed meth).
Local Notation member_file := (member_file rng rng_of normal poisson raw0 bg0 bg_ratio act_prompt act_bg act_raw act_unf unfolder fg_method seed meth).
Local Notation member := (member rng rng_of normal poisson raw0 bg0 bg_ratio act_prompt act_bg act_raw act_unf act_fg unfolder fg_method seed meth).
Local Notation requested := (requested rng rng_of normal poisson sqrtq raw0 bg0 bg_ratio act_prompt act_bg act_raw act_unf act_fg unfolder fg_method seed meth).
Local Notation history := (history rng rng_of normal poisson raw0 bg0 bg_ratio act_prompt act_bg act_raw act_unf act_fg unfolder fg_method seed meth).
Local Notation holds_members := (holds_members rng rng_of normal poisson raw0 bg0 bg_ratio act_prompt act_bg act_raw act_unf unfolder fg_method seed meth).
Local Notation good := (good rng rng_of normal poisson raw0 bg0 bg_ratio act_prompt act_bg act_raw act_unf unfolder fg_method seed meth).

Lemma collect_nth {A} (rs : list (result A)) ts : collect rs = Ok ts -> forall i r, nth_error rs i = Some r -> exists t, r = Ok t.
Proof.
  revert ts. induction rs as [|r t IH]; intros ts H [|i] x; cbn [collect nth_error] in *; try discriminate.
  - intros X; injection X as ->. destruct x as [a|]; [now exists a|discriminate].
  - destruct r as [a|]; [|discriminate]. cbn [rbind] in H. destruct (collect t) as [l|] eqn:C; [|discriminate]. now apply (IH l eq_refl).
Qed.
Lemma task_nth b n i : i < n -> nth_error (tasks seed meth b n) i = Some (ens_step seed meth b i).
Proof.
  intros H. unfold EnsembleModel.tasks. rewrite nth_error_map. rewrite (nth_error_nth' (seq 0 n) 0) by (now rewrite seq_length). cbn. rewrite seq_nth by exact H. reflexivity.
Qed.
Lemma fits_checked m : fits m = true -> checked m = Ok m.
Proof. unfold checked. intros ->. reflexivity. Qed.

(* the main process, given right results and firstgen.npy *)
Lemma finish_run n d : (forall f f0 t, n <> 0 -> member 0 = Ok t -> fg_member 0 = Ok f -> act_fg f = Ok f0 -> d (Top TFirstgen) = Some (FMat (strip f0)) /\ fits f0 = true) ->
  exists d', run (finish (map member (seq 0 n))) d = (d', requested n) /\ forall k i, d' (Member k i) = d (Member k i).
Proof.
  intros H. unfold EnsembleModel.finish, EnsembleSpec.requested. rewrite run_pbind. cbn [pret Conc.run].
  destruct (collect (map member (seq 0 n))) as [ts|e] eqn:C; [|exists d; split; reflexivity]. cbn [rbind].
  rewrite run_pbind. cbn [pret Conc.run]. destruct (stack ts) as [[[rws us] fs]|e] eqn:ST; [|exists d; split; reflexivity]. cbn [rbind].
  assert (N0 : n <> 0). { intros ->. cbn in C. injection C as <-. discriminate. }
  destruct (collect_nth _ _ C 0 (member 0)) as [t M0].
  { destruct n; [contradiction|reflexivity]. }
  rewrite run_pbind, run_save. destruct (checked raw0) as [x|e] eqn:CR; [|exists d; split; reflexivity]. cbn [rbind].
  destruct (fg_member 0) as [f|e] eqn:FM.
  2:{ exfalso. unfold EnsembleSpec.member in M0. rewrite FM in M0.
      destruct (EnsembleSpec.raw_member _ _ _ _ _ _ _ _ _ _ _ _) as [a|]; [|discriminate]. cbn [rbind] in M0. destruct (act_raw a); [|discriminate]. cbn [rbind] in M0.
      destruct (EnsembleSpec.unf_member _ _ _ _ _ _ _ _ _ _ _ _ _ _) as [u|]; [|discriminate]. cbn [rbind] in M0. destruct (act_unf u); discriminate. }
  cbn [rbind]. destruct (act_fg f) as [f0|e] eqn:AF.
  2:{ exfalso. unfold EnsembleSpec.member in M0. rewrite FM in M0.
      destruct (EnsembleSpec.raw_member _ _ _ _ _ _ _ _ _ _ _ _) as [a|]; [|discriminate]. cbn [rbind] in M0. destruct (act_raw a); [|discriminate]. cbn [rbind] in M0.
      destruct (EnsembleSpec.unf_member _ _ _ _ _ _ _ _ _ _ _ _ _ _) as [u|]; [|discriminate]. cbn [rbind] in M0. destruct (act_unf u); [|discriminate]. cbn [rbind] in M0. rewrite AF in M0. discriminate. }
  destruct (H f f0 t N0 M0 eq_refl AF) as [TF FT]. cbn [rbind].
  rewrite run_pbind. unfold load_file. cbn [Conc.run pret]. rewrite saved_ne, TF by discriminate. rewrite read_saved by exact FT.
  rewrite run_pbind. cbn [pret Conc.run].
  destruct (mk_matrix (ens_std sqrtq rws) (Some (Eg raw0)) (Some (Ex raw0)) None (SStr "std")) as [sr|e] eqn:MR; cbn [rbind].
  2:{ eexists; split; [reflexivity|]. intros k i. apply saved_ne. discriminate. }
  rewrite run_pbind, run_save, (fits_checked sr) by (now apply mk_matrix_fits in MR). rewrite run_pbind. cbn [pret Conc.run].
  destruct (mk_matrix (ens_std sqrtq us) (Some (Eg raw0)) (Some (Ex raw0)) None (SStr "std")) as [su|e] eqn:MU; cbn [rbind].
  2:{ eexists; split; [reflexivity|]. intros k i. rewrite !saved_ne by discriminate. reflexivity. }
  rewrite run_pbind, run_save, (fits_checked su) by (now apply mk_matrix_fits in MU). rewrite run_pbind. cbn [pret Conc.run].
  cbn [strip Eg Ex].
  destruct (mk_matrix (ens_std sqrtq fs) (Some (Eg f0)) (Some (Ex f0)) None (SStr "std")) as [sf|e] eqn:MF; cbn [rbind].
  2:{ eexists; split; [reflexivity|]. intros k i. rewrite !saved_ne by discriminate. reflexivity. }
  rewrite run_pbind, run_save, (fits_checked sf) by (now apply mk_matrix_fits in MF). cbn [pret Conc.run].
  eexists; split; [reflexivity|]. intros k i. rewrite !saved_ne by discriminate. reflexivity.
Qed.

Lemma relevant_spec k : (has_bg bg0 = false -> k <> KPrompt /\ k <> KBg) -> relevant bg0 k.
Proof. unfold relevant. destruct (has_bg bg0); intros H; destruct k; try reflexivity; try exact I; destruct (H eq_refl); contradiction. Qed.

(* generation, given that every step alone does the right thing *)
Lemma generate_lemma b n sched d out :
  (forall i, i < n -> snd (run (ens_step seed meth b i) d) = member i /\
     (forall t, member i = Ok t -> (forall k m, relevant bg0 k -> member_file k i = Ok m -> fst (run (ens_step seed meth b i) d) (Member k i) = Some (FMat (strip m))) /\
     (i = 0 -> forall f f0, fg_member 0 = Ok f -> act_fg f = Ok f0 -> fst (run (ens_step seed meth b i) d) (Top TFirstgen) = Some (FMat (strip f0)) /\ fits f0 = true))) ->
  generates seed meth b n sched d out -> snd out = requested n /\ (forall e, requested n = Ok e -> holds_members (fst out) n) /\
  (forall k i, n <= i -> fst out (Member k i) = d (Member k i)).
Proof.
  intros H (rs & FN & ->). unfold EnsembleModel.pool in *.
  destruct (interleaving_solo key file _ key_eqb key_eqb_spec own _ d sched rs (owned_tasks rng rng_of normal poisson raw0 bg0 bg_ratio act_prompt act_bg act_raw act_unf act_fg unfolder fg_method seed meth b n) FN) as (E & FI & FU).
  assert (ER : rs = map member (seq 0 n)).
  { rewrite E. unfold EnsembleModel.tasks. rewrite map_map. apply map_ext_in. intros i Hi. apply in_seq in Hi. now apply H. }
  rewrite ER. set (d1 := fst (srun key_eqb sched (d, tasks seed meth b n))) in *.
  destruct (finish_run n d1) as (d2 & R & F2).
  { intros f f0 t N0 M0 F0 AF. destruct (H 0) as [_ H0]; [lia|]. destruct (H0 t M0) as [_ H1].
    rewrite (FI 0 _ (task_nth b n 0 ltac:(lia)) (Top TFirstgen) eq_refl). now apply (H1 eq_refl f). }
  rewrite R. cbn [fst snd]. split; [reflexivity|]. split.
  - intros e RQ i k m Hi Hk Hm. rewrite F2. rewrite (FI i _ (task_nth b n i Hi) (Member k i) eq_refl).
    destruct (H i Hi) as [_ Hi']. destruct (collect (map member (seq 0 n))) as [ts|] eqn:C; [|unfold EnsembleSpec.requested in RQ; rewrite C in RQ; discriminate].
    destruct (collect_nth _ _ C i (member i)) as [t M].
    { rewrite nth_error_map, (nth_error_nth' (seq 0 n) 0), seq_nth by (rewrite ?seq_length; exact Hi). reflexivity. }
    destruct (Hi' t M) as [Hf _]. apply Hf; [now apply relevant_spec|exact Hm].
  - intros k i Hi. rewrite F2. apply FU. intros j Hj. injection Hj as <-. unfold EnsembleModel.tasks. now rewrite map_length, seq_length.
Qed.

(* histories keep every member file torn or right *)
Section Resume.
Hypothesis I_prompt : ignores_state act_prompt.
Hypothesis I_bg : ignores_state act_bg.
Hypothesis I_raw : ignores_state act_raw.
Hypothesis I_unf : ignores_state act_unf.
Hypothesis I_fg : ignores_state act_fg.
Hypothesis I_unfolder : ignores_state unfolder.
Hypothesis I_fgm : ignores_state fg_method.
Lemma history_good d : history d -> forall i, good i d.
Proof.
  induction 1 as [d E|d b n sched HD IH P|d d' HD IH E]; intros i.
  - intros k. rewrite E. exact I.
  - unfold EnsembleModel.pool.
    destruct (stopped_interleaving key file _ key_eqb key_eqb_spec own (tasks seed meth b n) d sched (owned_tasks rng rng_of normal poisson raw0 bg0 bg_ratio act_prompt act_bg act_raw act_unf act_fg unfolder fg_method seed meth b n)) as (L & M & U).
    destruct (Nat.lt_ge_cases i n) as [Hi|Hi].
    + destruct (M i _ (task_nth b n i Hi)) as (m & _ & Q).
      assert (GM : good i (fst (moves key file _ key_eqb m (ens_step seed meth b i) d))).
      { apply (always_moves key file (result (arr2 * arr2 * arr2)) key_eqb (good i)). apply resume_step; auto. intros HB. now apply P. }
      intros k. rewrite (Q (Member k i) eq_refl). apply GM.
    + intros k. rewrite U; [apply IH|]. intros j Hj. injection Hj as <-. unfold EnsembleModel.tasks. now rewrite map_length, seq_length.
  - intros k. rewrite E. apply IH.
Qed.
End Resume.

(* ---- non-negativity and axes, for any files found ---- *)
Definition file_ok (KA : Prop) (k : key) (f : file) : Prop :=
  match k, f with
  | Member KRaw _, FMat m | Member KPrompt _, FMat m => nonneg (values m) /\ (KA -> like m raw0)
  | Member KBg _, FMat m => nonneg (values m) /\ (KA -> forall b, bg0 = Some b -> like m b)
  | _, _ => True
  end.
Section Safe.
Variables (KA KN : Prop).
Hypothesis keeps : KA -> keeps_axes act_prompt.
Hypothesis keepn : KN -> keeps_nonneg act_raw.
Notation safe := (safe key file _ (file_ok KA)).
Lemma safe_pbind {A B} (P : result A -> Prop) (Q : result B -> Prop) (p : fprog A) (f : A -> fprog B) :
  safe P p -> (forall a, P (Ok a) -> safe Q (f a)) -> (forall e, Q (Raise e)) -> safe Q (pbind p f).
Proof.
  intros S HF HE. induction S as [[a|e] H|k c H IH|k g c H1 H2 IH]; cbn [pbind].
  - now apply HF.
  - constructor. apply HE.
  - constructor. exact IH.
  - constructor; [exact H1|exact IH].
Qed.
Definition okp {A} (P : A -> Prop) (r : result A) : Prop := match r with Ok a => P a | Raise _ => True end.
Lemma safe_ret {A} (P : A -> Prop) r : okp P r -> safe (okp P) (pret r).
Proof. now constructor. Qed.
Lemma safe_save k m : file_ok KA k FTorn -> file_ok KA k (FMat (strip m)) -> safe (okp (fun _ => True)) (save k m).
Proof. intros H1 H2. unfold save. destruct (fits m); [|now constructor]. constructor; [exact H1|]. constructor; [exact H2|]. now constructor. Qed.
Lemma file_ok_torn k : file_ok KA k FTorn.
Proof. destruct k as [[] i|t]; exact I. Qed.
(* what is known of a matrix kept under key k *)
Lemma file_ok_read k f m : file_ok KA k f -> read_file f = Ok m -> file_ok KA k (FMat (strip m)).
Proof.
  destruct f as [|x]; [discriminate|]. cbn [read_file]. intros H R. apply mk_matrix_fits in R as (FT & V & G & X).
  destruct k as [[] i|t]; cbn [file_ok strip values] in *; try exact I; (split; [rewrite V; apply H|]).
  - intros K. destruct H as [_ H]. specialize (H K). unfold like in *. cbn [strip values Eg Ex]. now rewrite V, G, X.
  - intros K. destruct H as [_ H]. specialize (H K). unfold like in *. cbn [strip values Eg Ex]. now rewrite V, G, X.
  - intros K b B. destruct H as [_ H]. specialize (H K b B). unfold like in *. cbn [strip values Eg Ex]. now rewrite V, G, X.
Qed.
Lemma tab_nonneg nr nc (f : nat -> nat -> Qc) : (forall i j, (0 <= f i j)%Qc) -> nonneg (mkArr nc (tab nr (fun i => tab nc (fun j => f i j)))).
Proof. intros H r Hr x Hx. cbn [a_rows] in Hr. apply in_tab in Hr as (i & _ & ->). apply in_tab in Hx as (j & _ & ->). apply H. Qed.
Lemma draw_ok k g m g' : (k = KBg -> has_bg bg0 = true) -> (k = KRaw \/ k = KPrompt \/ k = KBg) ->
  draw rng normal poisson raw0 bg0 meth k g = Ok (m, g') -> forall i, file_ok KA (Member k i) (FMat (strip m)).
Proof.
  intros HB HK D i.
  assert (E : nonneg (values m) /\ like m (matrix_of raw0 bg0 k)).
  { unfold draw in D. destruct meth; [| |discriminate].
    - unfold gaussian in D. destruct (normal g _) as [dr h]. cbn [rbind] in D. destruct (mk_matrix _ _ _ _ _) as [x|] eqn:MK; [|discriminate].
      cbn [rbind] in D. injection D as <- <-. apply mk_matrix_fits in MK as (FT & V & GG & XX). split.
      + rewrite V. apply (tab_nonneg _ _ (fun i j => if qltb (dr i j) 0 then 0%Qc else dr i j)). intros a b. destruct (qltb_spec (dr a b) 0); qlra.
      + unfold like. rewrite V, GG, XX. unfold shape, a_nr. cbn [a_rows a_nc]. rewrite tab_length. auto.
    - unfold poissonian in D. destruct (poisson g _) as [dr h]. cbn [rbind] in D. destruct (mk_matrix _ _ _ _ _) as [x|] eqn:MK; [|discriminate].
      cbn [rbind] in D. injection D as <- <-. apply mk_matrix_fits in MK as (FT & V & GG & XX). split.
      + rewrite V. apply (tab_nonneg _ _ (fun i j => qnat (dr i j))). intros a b. apply qnat_nonneg.
      + unfold like. rewrite V, GG, XX. unfold shape, a_nr. cbn [a_rows a_nc]. rewrite tab_length. auto. }
  destruct E as [E1 E2]. destruct HK as [->|[->| ->]]; cbn [file_ok strip values matrix_of] in *.
  - split; [exact E1|]. intros _. exact E2.
  - split; [exact E1|]. intros _. exact E2.
  - split; [exact E1|]. intros _ b B. rewrite B in E2. exact E2.
Qed.
Lemma safe_perturbed b i k g : (k = KBg -> has_bg bg0 = true) -> (k = KRaw \/ k = KPrompt \/ k = KBg) ->
  safe (okp (fun mg : matrix * rng => exists m, file_ok KA (Member k i) (FMat (strip m)) /\ action_of act_prompt act_bg act_raw k m = Ok (fst mg)))
    (perturbed rng normal poisson raw0 bg0 act_prompt act_bg act_raw meth b i k g).
Proof.
  intros HB HK. unfold perturbed.
  apply (safe_pbind (okp (fun mg : matrix * rng => file_ok KA (Member k i) (FMat (strip (fst mg)))))); [| |easy].
  - assert (S0 : safe (okp (fun mg : matrix * rng => file_ok KA (Member k i) (FMat (strip (fst mg)))))
       (pbind (pret (draw rng normal poisson raw0 bg0 meth k g)) (fun mg => pbind (save (Member k i) (fst mg)) (fun _ => pret (Ok mg))))).
    { apply (safe_pbind (okp (fun mg : matrix * rng => file_ok KA (Member k i) (FMat (strip (fst mg)))))); [| |easy].
      - apply safe_ret. destruct (draw rng normal poisson raw0 bg0 meth k g) as [[m g']|] eqn:D; [|exact I]. change (file_ok KA (Member k i) (FMat (strip m))). now apply (draw_ok k g m g').
      - intros mg H. apply (safe_pbind (okp (fun _ : unit => True))); [apply safe_save; [apply file_ok_torn|exact H]| |easy]. intros _ _. now apply safe_ret. }
    destruct b; [exact S0|]. constructor. intros [f|] Hf; [|exact S0]. apply safe_ret.
    destruct (read_file f) as [m|] eqn:R; [|exact I]. change (file_ok KA (Member k i) (FMat (strip m))). apply (file_ok_read _ f m); [now apply Hf|exact R].
  - intros [m g'] H. apply safe_ret. cbn [fst snd] in *. destruct (action_of _ _ _ k m) as [x|] eqn:AC; [|exact I]. cbn. exists m. now split.
Qed.
Lemma subtracted_ok p b r i : (KA -> like p raw0) -> subtracted bg_ratio p b = Ok r -> file_ok KA (Member KRaw i) (FMat (strip r)).
Proof.
  intros HP. unfold subtracted. destruct (m_equal_binning p b) as [u|] eqn:EB; [|discriminate]. cbn [rbind]. intros H; injection H as <-.
  cbn [file_ok strip values remove_negative with_values]. split.
  - intros rw Hr x Hx. cbn [a_rows amap] in Hr. apply in_map_iff in Hr as (y & <- & _). apply in_map_iff in Hx as (z & <- & _). unfold clip. destruct (qltb_spec 0 z); qlra.
  - intros K. specialize (HP K). unfold like in *. cbn [strip values Eg Ex remove_negative with_values]. destruct HP as (H1 & H2 & H3). split; [exact H1|]. split; [exact H2|]. rewrite <- H3.
    unfold m_equal_binning in EB. unfold shape, a_nr in *. cbn [amap a_rows a_nc]. f_equal. rewrite map_length. unfold zip2.
    unfold pair_eqb, shape, a_nr in EB. cbn [fst snd] in EB. destruct (Nat.eqb_spec (length (a_rows (values p))) (length (a_rows (values b)))) as [E|]; [|discriminate].
    rewrite map2_length by exact E. reflexivity.
Qed.
Lemma safe_step b i : safe (okp (fun t => KN -> nonneg (fst (fst t)))) (ens_step seed meth b i).
Proof.
  unfold EnsembleModel.ens_step.
  apply (safe_pbind (okp (fun r => exists m, file_ok KA (Member KRaw i) (FMat (strip m)) /\ act_raw m = Ok r))); [| |easy].
  - unfold raw_step. destruct (has_bg bg0) eqn:HB.
    + eapply safe_pbind; [apply safe_perturbed; [discriminate|auto]| |easy]. intros pg (m & H1 & H2).
      eapply safe_pbind; [apply safe_perturbed; [reflexivity || auto|auto]| |easy]. intros bg _.
      unfold subtract_bg. apply (safe_pbind (okp (fun r => file_ok KA (Member KRaw i) (FMat (strip r))))); [| |easy].
      * assert (PK : KA -> like (fst pg) raw0).
        { intros K. cbn [file_ok] in H1. destruct H1 as [_ H1]. specialize (H1 K). specialize (keeps K m (fst pg) H2). unfold like in *. cbn [strip values Eg Ex] in H1.
          destruct H1 as (A & B & C), keeps as (A' & B' & C'). repeat split; congruence. }
        assert (S0 : safe (okp (fun r => file_ok KA (Member KRaw i) (FMat (strip r)))) (made (Member KRaw i) (subtracted bg_ratio (fst pg) (fst bg)))).
        { unfold made. apply (safe_pbind (okp (fun r => file_ok KA (Member KRaw i) (FMat (strip r))))); [| |easy].
          - apply safe_ret. destruct (subtracted _ _ _) as [r|] eqn:SB; [|exact I]. cbn [okp]. now apply (subtracted_ok (fst pg) (fst bg)).
          - intros r Hr. eapply safe_pbind; [apply safe_save; [apply file_ok_torn|exact Hr]| |easy]. intros _ _. now apply safe_ret. }
        unfold cached. destruct b; [exact S0|]. constructor. intros [f|] Hf; [|exact S0]. apply safe_ret.
        destruct (read_file f) as [r|] eqn:R; [|exact I]. cbn [okp]. apply (file_ok_read _ f r); [now apply Hf|exact R].
      * intros r Hr. apply safe_ret. destruct (act_raw r) as [r'|] eqn:AR; [|exact I]. cbn. exists r. now split.
    + eapply safe_pbind; [apply safe_perturbed; [discriminate|auto]| |easy]. intros rg H. apply safe_ret. exact H.
  - intros r (m & H1 & H2).
    assert (NR : KN -> nonneg (values r)). { intros K. apply (keepn K m r); [exact (proj1 H1)|exact H2]. }
    assert (ST : forall k x, k <> KRaw -> k <> KPrompt -> k <> KBg -> safe (okp (fun _ : matrix => True)) (cached b (Member k i) (made (Member k i) x))).
    { intros k x K1 K2 K3. assert (S0 : safe (okp (fun _ : matrix => True)) (made (Member k i) x)).
      { unfold made. apply (safe_pbind (okp (fun _ => True))); [now apply safe_ret; destruct x| |easy].
        intros y _. eapply safe_pbind; [apply safe_save; [apply file_ok_torn|]| |easy]; [destruct k; try contradiction; exact I|]. intros _ _. now apply safe_ret. }
      unfold cached. destruct b; [exact S0|]. constructor. intros [f|] Hf; [|exact S0]. apply safe_ret. now destruct (read_file f). }
    apply (safe_pbind (okp (fun _ : matrix => True))); [| |easy].
    { unfold EnsembleModel.unfold. eapply safe_pbind; [apply ST; discriminate| |easy]. intros u _. apply safe_ret. now destruct (act_unf u). }
    intros u _. apply (safe_pbind (okp (fun _ : matrix => True))); [| |easy].
    { unfold first_generation. eapply safe_pbind; [apply ST; discriminate| |easy]. intros f _. apply safe_ret. now destruct (act_fg f). }
    intros f _. apply (safe_pbind (okp (fun _ : unit => True))); [| |easy].
    { destruct (Nat.eqb i 0); [apply safe_save; exact I|now apply safe_ret]. }
    intros _ _. apply safe_ret. destruct (shapes_agree r u f); [|exact I]. cbn. exact NR.
Qed.
End Safe.
End Gen.

(* the std matrices *)
Lemma qsum_sqdev (l : list Qc) m :
  (qsum (map (fun x => (x - m) * (x - m)) l) =
   qsum (map (fun x => x * x) l) - qz 2 * m * qsum l + qnat (length l) * (m * m))%Qc.
Proof.
  induction l as [|x l IH]; cbn [map qsum fold_right length].
  - change (qnat 0) with 0%Qc. ring.
  - unfold qsum in *. cbn [fold_right]. rewrite IH. rewrite qnat_S, qz_2. ring.
Qed.
Lemma variance_spec (l : list Qc) : l <> [] ->
  (qnat (length l) * qnat (length l) * variance l = qnat (length l) * qsum (map (fun x => x * x) l) - qsum l * qsum l)%Qc.
Proof.
  intros H. unfold variance, mean. rewrite qsum_sqdev, map_length, qz_2.
  assert (N : qnat (length l) <> 0%Qc). { destruct l; [contradiction|]. intros E. pose proof (qnat_pos (length (q :: l)) ltac:(cbn; lia)) as P. rewrite E in P. now apply Qclt_not_eq in P. }
  field. exact N.
Qed.
Lemma ens_std_spread sqrtq l : is_spread sqrtq l (ens_std sqrtq l).
Proof.
  destruct l as [|a t]. { split; [intros ? []|]. intros i j Hi. cbn in Hi. lia. }
  split.
  - intros b [<-|[]]. unfold shape, a_nr. cbn [ens_std a_rows a_nc]. now rewrite tab_length.
  - intros i j Hi Hj. cbn zeta. exists (variance (map (fun x => aget x i j) (a :: t))). split.
    + unfold a_nr in Hi. cbn [ens_std a_rows a_nc] in Hi, Hj. rewrite tab_length in Hi. unfold aget at 1, mget. cbn [ens_std a_rows].
      rewrite nth_tab by exact Hi. unfold vget. rewrite nth_tab by exact Hj. reflexivity.
    + rewrite <- (map_length (fun x => aget x i j) (a :: t)) at 1 2 3. apply variance_spec. discriminate.
Qed.
Lemma mk_matrix_values v g x s st m : mk_matrix v g x s st = Ok m -> values m = v.
Proof.
  unfold mk_matrix. destruct (verify_integrity _); [|discriminate]. cbn [rbind]. destruct (set_state st); [|discriminate]. cbn [rbind].
  intros E. injection E as <-. reflexivity.
Qed.
Lemma collect_len {A} (rs : list (result A)) l : collect rs = Ok l -> length l = length rs.
Proof.
  revert l; induction rs as [|r rs IH]; intros l H; cbn in H; [injection H as <-; reflexivity|].
  destruct r; [|discriminate]. cbn [rbind] in H. destruct (collect rs); [|discriminate]. cbn [rbind] in H. injection H as <-. cbn. f_equal. now apply IH.
Qed.
Lemma finish_spread sqrtq raw0 rs d e n : length rs = n -> snd (Conc.run key_eqb (EnsembleModel.finish sqrtq raw0 rs) d) = Ok e ->
  length (e_raws e) = n /\ is_spread sqrtq (e_raws e) (values (e_std_raw e)) /\ is_spread sqrtq (e_unfs e) (values (e_std_unf e)) /\ is_spread sqrtq (e_fgs e) (values (e_std_fg e)).
Proof.
  intros L. unfold EnsembleModel.finish. rewrite run_pbind. cbn [pret Conc.run].
  destruct (collect rs) as [ts|] eqn:C; [|discriminate]. rewrite run_pbind. cbn [pret Conc.run].
  destruct (stack ts) as [[[rws us] fs]|] eqn:ST; [|discriminate].
  rewrite run_pbind. destruct (Conc.run key_eqb (save (Top TRaw) raw0) d) as [d1 [?|]]; [|discriminate].
  rewrite run_pbind. destruct (Conc.run key_eqb (load_file (Top TFirstgen)) d1) as [d2 [fg|]]; [|discriminate].
  rewrite run_pbind. cbn [pret Conc.run].
  destruct (mk_matrix (ens_std sqrtq rws) _ _ _ _) as [sr|] eqn:MR; [|discriminate].
  rewrite run_pbind. destruct (Conc.run key_eqb (save (Top TStdRaw) sr) d2) as [d3 [?|]]; [|discriminate].
  rewrite run_pbind. cbn [pret Conc.run].
  destruct (mk_matrix (ens_std sqrtq us) _ _ _ _) as [su|] eqn:MU; [|discriminate].
  rewrite run_pbind. destruct (Conc.run key_eqb (save (Top TStdUnf) su) d3) as [d4 [?|]]; [|discriminate].
  rewrite run_pbind. cbn [pret Conc.run].
  destruct (mk_matrix (ens_std sqrtq fs) _ _ _ _) as [sf|] eqn:MF; [|discriminate].
  rewrite run_pbind. destruct (Conc.run key_eqb (save (Top TStdFg) sf) d4) as [d5 [?|]]; [|discriminate].
  cbn [pret Conc.run snd]. intros E. injection E as <-. cbn [e_raws e_unfs e_fgs e_std_raw e_std_unf e_std_fg].
  apply mk_matrix_values in MR, MU, MF. rewrite MR, MU, MF.
  split; [|split; [apply ens_std_spread|split; apply ens_std_spread]].
  destruct ts as [|[[r1 u1] f1] ts]; [discriminate|]. unfold stack in ST. destruct (forallb _ _); [|discriminate]. injection ST as E1 _ _. rewrite <- E1.
  cbn [map length]. rewrite map_length, <- L. change (length ((r1, u1, f1) :: ts) = length rs). now apply collect_len.
Qed.
