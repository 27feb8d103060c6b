(* Properties C50-C54 (and C75): ensemble generation with worker processes, cached files,
   interruptions, and loading. *)
From Coq Require Import String Permutation.
From Verif Require Import PyBase Axis MatrixModel ArithModel Conc ConcProofs EnsembleModel EnsembleSpec EnsembleProofs EnsembleGenProofs.
Local Open Scope list_scope.
Local Open Scope nat_scope.

Section Gen.
Variable rng : Type.
Variable rng_of : Z -> nat -> rng.
Variable normal : rng -> arr2 -> (nat -> nat -> Qc) * rng.
Variable poisson : rng -> arr2 -> (nat -> nat -> nat) * rng.
Variable sqrtq : Qc -> Qc.
Variable raw0 : matrix.
Variable bg0 : option matrix.
Variable bg_ratio : Qc.
Variables act_prompt act_bg act_raw act_unf act_fg : matrix -> result matrix.
Variables unfolder fg_method : matrix -> result matrix.
Local Notation pool := (pool rng rng_of normal poisson raw0 bg0 bg_ratio act_prompt act_bg act_raw act_unf act_fg unfolder fg_method).
Local Notation generates := (generates rng rng_of normal poisson sqrtq raw0 bg0 bg_ratio act_prompt act_bg act_raw act_unf act_fg unfolder fg_method).
Local Notation requested := (requested rng rng_of normal poisson sqrtq raw0 bg0 bg_ratio act_prompt act_bg act_raw act_unf act_fg unfolder fg_method).
Local Notation history := (history rng rng_of normal poisson raw0 bg0 bg_ratio act_prompt act_bg act_raw act_unf act_fg unfolder fg_method).
Local Notation holds_members := (holds_members rng rng_of normal poisson raw0 bg0 bg_ratio act_prompt act_bg act_raw act_unf unfolder fg_method).
Local Notation member_file := (member_file rng rng_of normal poisson raw0 bg0 bg_ratio act_prompt act_bg act_raw act_unf unfolder fg_method).
Local Notation tasks := (tasks rng rng_of normal poisson raw0 bg0 bg_ratio act_prompt act_bg act_raw act_unf act_fg unfolder fg_method).

(* C50: whatever the schedule of the worker processes, the outcome and every file are the
   same; and every partial run can be completed. *)
Theorem generate_schedule_independent : forall seed meth regen number d s1 s2 o1 o2,
  generates seed meth regen number s1 d o1 -> generates seed meth regen number s2 d o2 ->
  snd o1 = snd o2 /\ forall k, fst o1 k = fst o2 k.
Proof.
  intros seed meth b n d s1 s2 o1 o2 (r1 & F1 & ->) (r2 & F2 & ->). unfold EnsembleModel.pool in *.
  pose proof (owned_tasks rng rng_of normal poisson raw0 bg0 bg_ratio act_prompt act_bg act_raw act_unf act_fg unfolder fg_method seed meth b n) as O.
  destruct (interleaving_sequential key file _ key_eqb key_eqb_spec own _ d s1 r1 O F1) as [E1 D1].
  destruct (interleaving_sequential key file _ key_eqb key_eqb_spec own _ d s2 r2 O F2) as [E2 D2].
  subst r1 r2. apply run_ext. intros k. rewrite D1, D2. reflexivity.
Qed.
Theorem generate_completes : forall seed meth regen number d s1,
  exists s2 out, generates seed meth regen number (s1 ++ s2) d out.
Proof.
  intros seed meth b n d s1. destruct (can_finish key file _ key_eqb (pool seed meth b n s1 d)) as (s2 & rs & F).
  exists s2. eexists. exists rs. split; [|reflexivity]. unfold EnsembleModel.pool, srun in *. rewrite fold_left_app. exact F.
Qed.

(* The three std matrices of a generated ensemble are the spreads of its members, whatever
   was in the directory before. *)
Theorem generated_std_is_spread : forall seed meth regen number sched d out e,
  generates seed meth regen number sched d out -> snd out = Ok e ->
  length (e_raws e) = number /\ is_spread sqrtq (e_raws e) (values (e_std_raw e)) /\ is_spread sqrtq (e_unfs e) (values (e_std_unf e)) /\ is_spread sqrtq (e_fgs e) (values (e_std_fg e)).
Proof.
  intros seed meth b n sched d out e (rs & FN & ->) H. cbn [snd] in H.
  assert (LR : length rs = n).
  { unfold EnsembleModel.pool in FN.
    destruct (interleaving_solo key file _ key_eqb key_eqb_spec own _ d sched rs (owned_tasks rng rng_of normal poisson raw0 bg0 bg_ratio act_prompt act_bg act_raw act_unf act_fg unfolder fg_method seed meth b n) FN) as (E & _).
    rewrite E. unfold EnsembleModel.tasks. rewrite !map_length, seq_length. reflexivity. }
  exact (finish_spread sqrtq raw0 rs _ e n LR H).
Qed.
(* C52: with regenerate, or when no member files are there, the result is the ensemble
   asked for, and the directory holds its members. *)
Theorem regenerated_is_requested : forall seed meth number sched d out,
  generates seed meth true number sched d out ->
  snd out = requested seed meth number /\ (forall e, requested seed meth number = Ok e -> holds_members seed meth (fst out) number).
Proof.
  intros seed meth n sched d out G. apply generate_lemma in G; [split; apply G|]. intros i _. apply fresh_step. intros k. now left.
Qed.
Theorem generated_in_empty_is_requested : forall seed meth regen number sched d out,
  (forall k i, d (Member k i) = None) -> generates seed meth regen number sched d out ->
  snd out = requested seed meth number /\ (forall e, requested seed meth number = Ok e -> holds_members seed meth (fst out) number).
Proof.
  intros seed meth b n sched d out E G. apply generate_lemma in G; [split; apply G|]. intros i _. apply fresh_step. intros k. right. apply E.
Qed.

(* C51: a run in a directory left by any number of (interrupted or finished) runs with the
   same parameters gives the requested ensemble, provided that no truncated file was left
   and that, with a background, no run starts with prompt+bg stored but bg missing. *)
Theorem resumed_is_requested_partial :
  ignores_state act_prompt -> ignores_state act_bg -> ignores_state act_raw -> ignores_state act_unf ->
  ignores_state act_fg -> ignores_state unfolder -> ignores_state fg_method ->
  forall seed meth regen number sched d out,
  history seed meth d -> torn_free d -> (has_bg bg0 = true -> paired d) ->
  generates seed meth regen number sched d out ->
  snd out = requested seed meth number /\ (forall e, requested seed meth number = Ok e -> holds_members seed meth (fst out) number).
Proof.
  intros H1 H2 H3 H4 H5 H6 H7 seed meth b n sched d out HD NT P G.
  apply generate_lemma in G; [split; apply G|]. intros i _.
  apply resume_step; auto.
  - now apply (history_good _ _ _ _ _ _ _ _ _ _ _ _ _ _ _ _ H1 H2 H3 H4 H5 H6 H7).
  - intros HB. now apply P.
  - intros [k Hk]. now apply (NT k i).
Qed.
(* so that an interrupted and resumed run agrees with an uninterrupted one *)
Theorem interrupted_run_resumes_partial :
  ignores_state act_raw -> ignores_state act_unf -> ignores_state act_fg -> ignores_state unfolder -> ignores_state fg_method ->
  bg0 = None -> forall seed meth number d0 s_crash s_resume s_fresh out_r out_f,
  (forall k i, d0 (Member k i) = None) ->
  let d := fst (pool seed meth false number s_crash d0) in torn_free d ->
  generates seed meth false number s_resume d out_r -> generates seed meth false number s_fresh d0 out_f ->
  snd out_r = snd out_f.
Proof.
  intros H3 H4 H5 H6 H7 BG seed meth n d0 sc sr sf o_r o_f E d NT GR GF.
  destruct (generated_in_empty_is_requested seed meth false n sf d0 o_f E GF) as [-> _].
  apply generate_lemma in GR; [apply GR|]. intros i _.
  assert (HB : has_bg bg0 = false) by (rewrite BG; reflexivity).
  destruct (Nat.lt_ge_cases i n) as [Hi|Hi].
  all: pose proof (owned_tasks rng rng_of normal poisson raw0 bg0 bg_ratio act_prompt act_bg act_raw act_unf act_fg unfolder fg_method seed meth false n) as O.
  (* prompt+bg and bg are never used: replace their actions by the identity *)
  all: assert (SAME : forall b j, ens_step rng rng_of normal poisson raw0 bg0 bg_ratio act_prompt act_bg act_raw act_unf act_fg unfolder fg_method seed meth b j
       = ens_step rng rng_of normal poisson raw0 bg0 bg_ratio Ok Ok act_raw act_unf act_fg unfolder fg_method seed meth b j)
       by (intros; unfold ens_step, raw_step; rewrite HB; reflexivity).
  all: assert (TS : tasks seed meth false n = EnsembleModel.tasks rng rng_of normal poisson raw0 bg0 bg_ratio Ok Ok act_raw act_unf act_fg unfolder fg_method seed meth false n)
       by (unfold EnsembleModel.tasks; apply map_ext; intros; apply SAME).
  all: assert (HI : EnsembleSpec.history rng rng_of normal poisson raw0 bg0 bg_ratio Ok Ok act_raw act_unf act_fg unfolder fg_method seed meth d)
       by (unfold d, EnsembleModel.pool; rewrite TS; apply H_run; [now apply H_empty|rewrite HB; discriminate]).
  all: assert (ID : ignores_state Ok) by (intros m; reflexivity).
  all: rewrite SAME.
  all: pose proof (history_good rng rng_of normal poisson raw0 bg0 bg_ratio Ok Ok act_raw act_unf act_fg unfolder fg_method seed meth ID ID H3 H4 H5 H6 H7 d HI i) as GD.
  all: destruct (resume_step rng rng_of normal poisson raw0 bg0 bg_ratio Ok Ok act_raw act_unf act_fg unfolder fg_method seed meth false ID ID H3 H4 H5 H6 H7 i d GD) as [_ R];
       [intros X; congruence|]; assert (NTI : ~ torn_at i d) by (intros [k Hk]; now apply (NT k i)); specialize (R NTI).
  all: assert (RM : forall j, EnsembleSpec.raw_member rng rng_of normal poisson raw0 bg0 bg_ratio Ok Ok seed meth j = EnsembleSpec.raw_member rng rng_of normal poisson raw0 bg0 bg_ratio act_prompt act_bg seed meth j)
       by (intros; unfold EnsembleSpec.raw_member; rewrite HB; reflexivity).
  all: assert (UM : forall j, EnsembleSpec.unf_member rng rng_of normal poisson raw0 bg0 bg_ratio Ok Ok act_raw unfolder seed meth j = EnsembleSpec.unf_member rng rng_of normal poisson raw0 bg0 bg_ratio act_prompt act_bg act_raw unfolder seed meth j)
       by (intros; unfold EnsembleSpec.unf_member; rewrite RM; reflexivity).
  all: assert (FM : forall j, EnsembleSpec.fg_member rng rng_of normal poisson raw0 bg0 bg_ratio Ok Ok act_raw act_unf unfolder fg_method seed meth j = EnsembleSpec.fg_member rng rng_of normal poisson raw0 bg0 bg_ratio act_prompt act_bg act_raw act_unf unfolder fg_method seed meth j)
       by (intros; unfold EnsembleSpec.fg_member; rewrite UM; reflexivity).
  all: assert (MM : forall j, EnsembleSpec.member rng rng_of normal poisson raw0 bg0 bg_ratio Ok Ok act_raw act_unf act_fg unfolder fg_method seed meth j = EnsembleSpec.member rng rng_of normal poisson raw0 bg0 bg_ratio act_prompt act_bg act_raw act_unf act_fg unfolder fg_method seed meth j)
       by (intros; unfold EnsembleSpec.member; rewrite RM, UM, FM; reflexivity).
  all: rewrite MM, FM in R; destruct R as [R1 R2]; split; [exact R1|]; intros t Ht; destruct (R2 t Ht) as [R3 R4]; split; [|exact R4];
       intros k m Hk Hm; apply R3; [exact Hk|];
       destruct k; cbn [EnsembleSpec.member_file] in *; rewrite ?RM, ?UM, ?FM; try exact Hm; cbn [relevant] in Hk; congruence.
Qed.

(* C54: every raw, prompt+bg and bg file is non-negative after any operation of any run, and
   carries the axes of the original matrix; so are the raw members returned. *)
Theorem members_nonnegative : forall seed meth regen number sched d,
  (keeps_axes act_prompt) ->
  let good d := forall i m,
     (d (Member KRaw i) = Some (FMat m) -> nonneg (values m) /\ like m raw0) /\
     (d (Member KPrompt i) = Some (FMat m) -> nonneg (values m) /\ like m raw0) /\
     (d (Member KBg i) = Some (FMat m) -> nonneg (values m) /\ forall b, bg0 = Some b -> like m b) in
  good d -> good (fst (pool seed meth regen number sched d)).
Proof.
  intros seed meth b n sched d KA good G0.
  assert (GD : gdir key file (file_ok raw0 bg0 True) d).
  { intros [[] i|t] [|m] E; try exact I; cbn [file_ok].
    - destruct (G0 i m) as (A & _ & _). destruct (A E) as [A1 A2]. split; auto.
    - destruct (G0 i m) as (_ & A & _). destruct (A E) as [A1 A2]. split; auto.
    - destruct (G0 i m) as (_ & _ & A). destruct (A E) as [A1 A2]. split; auto. }
  destruct (srun_safe key file _ key_eqb key_eqb_spec (file_ok raw0 bg0 True) (okp (fun _ => True)) sched (d, tasks seed meth b n) GD) as [R _].
  { cbn [snd]. unfold EnsembleModel.tasks. apply Forall_forall. intros p Hp. apply in_map_iff in Hp as (i & <- & _).
    pose proof (safe_step rng rng_of normal poisson raw0 bg0 bg_ratio act_prompt act_bg act_raw act_unf act_fg unfolder fg_method seed meth True False (fun _ => KA) (fun X => match X with end) b i) as S.
    clear - S. induction S as [r H|k c H IH|k f c H1 H2 IH]; constructor; auto. destruct r; exact I. }
  intros i m. split; [|split]; intros E; apply R in E; cbn [file_ok] in E; destruct E as [E1 E2]; auto.
Qed.
(* the same without any assumption on the actions, for the non-negativity alone *)
Theorem member_files_nonnegative : forall seed meth regen number sched d,
  let good d := forall k i m, (k = KRaw \/ k = KPrompt \/ k = KBg) -> d (Member k i) = Some (FMat m) -> nonneg (values m) in
  good d -> good (fst (pool seed meth regen number sched d)).
Proof.
  intros seed meth b n sched d good G0.
  assert (GD : gdir key file (file_ok raw0 bg0 False) d).
  { intros [[] i|t] [|m] E; try exact I; cbn [file_ok]; (split; [|contradiction]).
    - apply (G0 KRaw i m); auto.
    - apply (G0 KPrompt i m); auto.
    - apply (G0 KBg i m); auto. }
  destruct (srun_safe key file _ key_eqb key_eqb_spec (file_ok raw0 bg0 False) (okp (fun _ => True)) sched (d, tasks seed meth b n) GD) as [R _].
  { cbn [snd]. unfold EnsembleModel.tasks. apply Forall_forall. intros p Hp. apply in_map_iff in Hp as (i & <- & _).
    pose proof (safe_step rng rng_of normal poisson raw0 bg0 bg_ratio act_prompt act_bg act_raw act_unf act_fg unfolder fg_method seed meth False False (fun X => match X with end) (fun X => match X with end) b i) as S.
    clear - S. induction S as [r H|k c H IH|k f c H1 H2 IH]; constructor; auto. destruct r; exact I. }
  intros k i m [->|[->| ->]] E; apply R in E; exact (proj1 E).
Qed.
Theorem returned_raws_nonnegative : keeps_nonneg act_raw -> forall seed meth regen number sched d out e,
  (forall i m k, (k = KRaw \/ k = KPrompt \/ k = KBg) -> d (Member k i) = Some (FMat m) -> nonneg (values m)) ->
  generates seed meth regen number sched d out -> snd out = Ok e ->
  List.length (e_raws e) = number /\ Forall nonneg (e_raws e).
Proof.
  intros KN seed meth b n sched d out e G0 (rs & FN & ->) RE. unfold EnsembleModel.pool in *.
  assert (GD : gdir key file (file_ok raw0 bg0 False) d).
  { intros [[] i|t] [|m] E; try exact I; cbn [file_ok]; (split; [|contradiction]).
    - apply (G0 i m KRaw); auto.
    - apply (G0 i m KPrompt); auto.
    - apply (G0 i m KBg); auto. }
  destruct (interleaving_solo key file _ key_eqb key_eqb_spec own _ d sched rs (owned_tasks rng rng_of normal poisson raw0 bg0 bg_ratio act_prompt act_bg act_raw act_unf act_fg unfolder fg_method seed meth b n) FN) as (E & _ & _).
  assert (RS : Forall (okp (fun t => nonneg (fst (fst t)))) rs).
  { clear RE. rewrite E. apply Forall_forall. intros r Hr. apply in_map_iff in Hr as (p & <- & Hp). unfold EnsembleModel.tasks in Hp. apply in_map_iff in Hp as (i & <- & _).
    pose proof (safe_step rng rng_of normal poisson raw0 bg0 bg_ratio act_prompt act_bg act_raw act_unf act_fg unfolder fg_method seed meth False True (fun X => match X with end) (fun _ => KN) b i) as S.
    destruct (run_safe key file _ key_eqb key_eqb_spec _ _ _ S d GD) as [_ P]. revert P; generalize (snd (run (ens_step rng rng_of normal poisson raw0 bg0 bg_ratio act_prompt act_bg act_raw act_unf act_fg unfolder fg_method seed meth b i) d)); intros [t|ex] P; [now apply P|exact I]. }
  assert (LR : List.length rs = n) by (rewrite E, map_length; unfold EnsembleModel.tasks; now rewrite map_length, seq_length).
  clear FN E. unfold finish in RE. rewrite run_pbind in RE. cbn [pret Conc.run] in RE.
  destruct (collect rs) as [ts|] eqn:C; [|discriminate]. rewrite run_pbind in RE. cbn [pret Conc.run] in RE.
  assert (TS : List.length ts = List.length rs /\ Forall (fun t => nonneg (fst (fst t))) ts).
  { clear - RS C. revert ts C. induction RS as [|r rs Hr HR IH]; intros ts C; cbn [collect] in C; [injection C as <-; now split|].
    destruct r as [t|]; [|discriminate]. cbn [rbind] in C. destruct (collect rs) as [l|]; [|discriminate]. cbn [rbind] in C. injection C as <-.
    destruct (IH l eq_refl) as [L F]. split; [cbn; lia|]. constructor; assumption. }
  destruct (stack ts) as [[[rws us] fs]|] eqn:ST; [|discriminate].
  assert (RW : rws = map (fun t => fst (fst t)) ts).
  { unfold stack in ST. destruct ts as [|[[a0 b0] c0] tl]; [discriminate|]. destruct (forallb _ _); [|discriminate]. now injection ST as <- _ _. }
  assert (ER : e_raws e = rws).
  { repeat (rewrite run_pbind in RE; match type of RE with context [let (_, _) := ?x in _] => destruct x as [? [?|?]]; [|discriminate] | context [match ?x with (_, _) => _ end] => destruct x as [? [?|?]]; [|discriminate] end).
    cbn in RE. injection RE as <-. reflexivity. }
  rewrite ER, RW, map_length. destruct TS as [TL TF]. split; [lia|]. clear - TF. induction TF; constructor; auto.
Qed.
End Gen.
Print Assumptions generate_schedule_independent.
Print Assumptions generate_completes.
Print Assumptions regenerated_is_requested.
Print Assumptions generated_std_is_spread.
Print Assumptions generated_in_empty_is_requested.
Print Assumptions resumed_is_requested_partial.
Print Assumptions interrupted_run_resumes_partial.
Print Assumptions members_nonnegative.
Print Assumptions member_files_nonnegative.
Print Assumptions returned_raws_nonnegative.

(* C53: loading.  raws, unfs, fgs are the orders in which the directory lists the files. *)
Lemma load_members_run sh k l d : exists r, run (load_members sh k l) d = (d, r) /\
  forall out, r = Ok out -> List.length out = List.length l /\
    forall j i, nth_error l j = Some i -> exists m, d (Member k i) = Some (FMat m) /\ nth_error out j = Some (values m).
Proof.
  induction l as [|i t (r & R & IH)]; cbn [load_members].
  - exists (Ok []). split; [reflexivity|]. intros out H; injection H as <-. split; [reflexivity|]. intros [|j] i; discriminate.
  - rewrite run_pbind. unfold load_file. cbn [Conc.run pret].
    destruct (d (Member k i)) as [f|] eqn:D; [|exists (Raise OSErr); split; [reflexivity|discriminate]].
    destruct (read_file f) as [m|e] eqn:RF; [|exists (Raise e); split; [reflexivity|discriminate]].
    rewrite run_pbind. cbn [Conc.run pret]. destruct (pair_eqb (shape (values m)) sh); [|exists (Raise ValueError); split; [reflexivity|discriminate]].
    rewrite run_pbind, R. destruct r as [out|e]; [|exists (Raise e); split; [reflexivity|discriminate]]. cbn [Conc.run].
    exists (Ok (values m :: out)). split; [reflexivity|]. intros o H; injection H as <-. destruct (IH out eq_refl) as [L H].
    split; [cbn; lia|]. intros [|j] i'; cbn [nth_error]; [|apply H]. intros X; injection X as <-.
    destruct f as [|x]; [discriminate|]. exists x. split; [exact D|]. cbn [read_file] in RF. apply mk_matrix_fits in RF as (_ & V & _). now rewrite V.
Qed.
(* what is loaded, for all listings *)
Theorem load_reads_listed_files : forall d raws unfs fgs d' L,
  run (ens_load raws unfs fgs) d = (d', Ok L) ->
  d' = d /\ l_size L = List.length raws /\
  (forall k l out, (k, l, out) = (KRaw, raws, l_raws L) \/ (k, l, out) = (KUnf, unfs, l_unfs L) \/ (k, l, out) = (KFg, fgs, l_fgs L) ->
     List.length out = l_size L /\
     forall j i, nth_error l j = Some i -> exists m, d (Member k i) = Some (FMat m) /\ nth_error out j = Some (values m)).
Proof.
  intros d raws unfs fgs d' L H. unfold ens_load in H.
  rewrite run_pbind in H. unfold load_file in H at 1. cbn [Conc.run pret] in H.
  destruct (match d (Top TRaw) with Some f => read_file f | None => Raise OSErr end) as [rw|]; [|discriminate].
  rewrite run_pbind in H. unfold load_file in H at 1. cbn [Conc.run pret] in H.
  destruct (match d (Top TFirstgen) with Some f => read_file f | None => Raise OSErr end) as [fg|]; [|discriminate].
  rewrite run_pbind in H. cbn [Conc.run pret] in H.
  destruct (Nat.eqb (List.length raws) (List.length unfs) && Nat.eqb (List.length unfs) (List.length fgs)) eqn:LE; [|discriminate].
  apply andb_true_iff in LE as [LE1 LE2]. apply Nat.eqb_eq in LE1, LE2.
  rewrite run_pbind in H. cbn [Conc.run pret] in H. destruct (Nat.ltb 0 (List.length raws)); [|discriminate].
  rewrite run_pbind in H. destruct (load_members_run (shape (values rw)) KRaw raws d) as (r1 & R1 & P1). rewrite R1 in H. destruct r1 as [o1|]; [|discriminate].
  rewrite run_pbind in H. destruct (load_members_run (shape (values rw)) KUnf unfs d) as (r2 & R2 & P2). rewrite R2 in H. destruct r2 as [o2|]; [|discriminate].
  rewrite run_pbind in H. destruct (load_members_run (shape (values rw)) KFg fgs d) as (r3 & R3 & P3). rewrite R3 in H. destruct r3 as [o3|]; [|discriminate].
  rewrite run_pbind in H. unfold load_file in H at 1. cbn [Conc.run pret] in H.
  destruct (match d (Top TStdRaw) with Some f => read_file f | None => Raise OSErr end) as [sr|]; [|discriminate].
  rewrite run_pbind in H. unfold load_file in H at 1. cbn [Conc.run pret] in H.
  destruct (match d (Top TStdUnf) with Some f => read_file f | None => Raise OSErr end) as [su|]; [|discriminate].
  rewrite run_pbind in H. unfold load_file in H at 1. cbn [Conc.run pret] in H.
  destruct (match d (Top TStdFg) with Some f => read_file f | None => Raise OSErr end) as [sf|]; [|discriminate].
  cbn [Conc.run pret] in H. injection H as <- <-. cbn [l_size l_raws l_unfs l_fgs].
  split; [reflexivity|]. split; [reflexivity|].
  destruct (P1 o1 eq_refl) as [L1 Q1], (P2 o2 eq_refl) as [L2 Q2], (P3 o3 eq_refl) as [L3 Q3].
  intros k l out [E|[E|E]]; injection E as -> -> ->; (split; [congruence|assumption]).
Qed.
Print Assumptions load_reads_listed_files.
(* if the three kinds of files are listed in the same order and the directory contains the
   members of one ensemble of size n and no others, the loaded members correspond *)
Theorem loaded_members_correspond_partial : forall rng rng_of normal poisson raw0 bg0 bg_ratio act_prompt act_bg act_raw act_unf unfolder fg_method seed meth d d' L n l,
  holds_members rng rng_of normal poisson raw0 bg0 bg_ratio act_prompt act_bg act_raw act_unf unfolder fg_method seed meth d n ->
  Permutation l (seq 0 n) -> run (ens_load l l l) d = (d', Ok L) ->
  l_size L = n /\ forall j i, nth_error l j = Some i -> (i < n)%nat /\
    forall r u f, raw_member rng rng_of normal poisson raw0 bg0 bg_ratio act_prompt act_bg seed meth i = Ok r ->
      unf_member rng rng_of normal poisson raw0 bg0 bg_ratio act_prompt act_bg act_raw unfolder seed meth i = Ok u ->
      fg_member rng rng_of normal poisson raw0 bg0 bg_ratio act_prompt act_bg act_raw act_unf unfolder fg_method seed meth i = Ok f ->
      nth_error (l_raws L) j = Some (values r) /\ nth_error (l_unfs L) j = Some (values u) /\ nth_error (l_fgs L) j = Some (values f).
Proof.
  intros rng rng_of normal poisson raw0 bg0 bg_ratio act_prompt act_bg act_raw act_unf unfolder fg_method seed meth d d' L n l HM PM R.
  destruct (load_reads_listed_files d l l l d' L R) as (-> & SZ & P). split; [rewrite SZ, (Permutation_length PM); apply seq_length|].
  intros j i Hj. assert (Hi : (i < n)%nat). { apply nth_error_In in Hj. apply (Permutation_in _ PM) in Hj. apply in_seq in Hj. lia. }
  split; [exact Hi|]. intros r u f Hr Hu Hf.
  destruct (P KRaw l (l_raws L) (or_introl eq_refl)) as [_ P1]. destruct (P1 j i Hj) as (m1 & D1 & N1).
  destruct (P KUnf l (l_unfs L) (or_intror (or_introl eq_refl))) as [_ P2]. destruct (P2 j i Hj) as (m2 & D2 & N2).
  destruct (P KFg l (l_fgs L) (or_intror (or_intror eq_refl))) as [_ P3]. destruct (P3 j i Hj) as (m3 & D3 & N3).
  rewrite (HM i KRaw r Hi ltac:(split; discriminate) Hr) in D1. injection D1 as <-.
  rewrite (HM i KUnf u Hi ltac:(split; discriminate) Hu) in D2. injection D2 as <-.
  rewrite (HM i KFg f Hi ltac:(split; discriminate) Hf) in D3. injection D3 as <-. auto.
Qed.
Print Assumptions loaded_members_correspond_partial.

(* C75: with actions that do nothing, a directory listing in numerical order loads the
   ensemble that was generated *)
Theorem loaded_is_generated_partial : forall rng rng_of normal poisson sqrtq raw0 bg0 bg_ratio act_prompt act_bg unfolder fg_method seed meth d d' L n e,
  requested rng rng_of normal poisson sqrtq raw0 bg0 bg_ratio act_prompt act_bg Ok Ok Ok unfolder fg_method seed meth n = Ok e ->
  holds_members rng rng_of normal poisson raw0 bg0 bg_ratio act_prompt act_bg Ok Ok unfolder fg_method seed meth d n ->
  run (ens_load (seq 0 n) (seq 0 n) (seq 0 n)) d = (d', Ok L) ->
  l_size L = n /\ l_raws L = e_raws e /\ l_unfs L = e_unfs e /\ l_fgs L = e_fgs e.
Proof.
  intros rng rng_of normal poisson sqrtq raw0 bg0 bg_ratio act_prompt act_bg unfolder fg_method seed meth d d' L n e RQ HM R.
  destruct (loaded_members_correspond_partial rng rng_of normal poisson raw0 bg0 bg_ratio act_prompt act_bg Ok Ok unfolder fg_method seed meth d d' L n (seq 0 n) HM (Permutation_refl _) R) as [SZ P].
  split; [exact SZ|].
  destruct (load_reads_listed_files d _ _ _ d' L R) as (_ & _ & LEN).
  destruct (LEN KRaw _ _ (or_introl eq_refl)) as [L1 _]. destruct (LEN KUnf _ _ (or_intror (or_introl eq_refl))) as [L2 _]. destruct (LEN KFg _ _ (or_intror (or_intror eq_refl))) as [L3 _].
  unfold requested in RQ. destruct (collect _) as [ts|] eqn:C; [|discriminate]. cbn [rbind] in RQ.
  destruct (stack ts) as [[[rws us] fs]|] eqn:ST; [|discriminate]. cbn [rbind] in RQ.
  repeat match type of RQ with rbind ?x _ = _ => destruct x; [cbn [rbind] in RQ|discriminate] end. injection RQ as <-. cbn [e_raws e_unfs e_fgs].
  assert (CT : List.length ts = n /\ forall i, i < n -> nth_error ts i = match member rng rng_of normal poisson raw0 bg0 bg_ratio act_prompt act_bg Ok Ok Ok unfolder fg_method seed meth i with Ok t => Some t | Raise _ => None end).
  { clear - C. assert (GEN : forall a, collect (map (member rng rng_of normal poisson raw0 bg0 bg_ratio act_prompt act_bg Ok Ok Ok unfolder fg_method seed meth) (seq a n)) = Ok ts ->
      List.length ts = n /\ forall i, i < n -> nth_error ts i = match member rng rng_of normal poisson raw0 bg0 bg_ratio act_prompt act_bg Ok Ok Ok unfolder fg_method seed meth (a + i) with Ok t => Some t | Raise _ => None end).
    { clear C. revert ts. induction n as [|n IH]; intros ts a C; cbn [seq map collect] in C.
      - injection C as <-. split; [reflexivity|lia].
      - destruct (member _ _ _ _ _ _ _ _ _ _ _ _ _ _ _ _ a) as [t|] eqn:M; [|discriminate]. cbn [rbind] in C. destruct (collect _) as [l|] eqn:CL; [|discriminate]. cbn [rbind] in C. injection C as <-.
        destruct (IH l (S a) CL) as [LL H]. split; [cbn; lia|]. intros [|i] Hi; cbn [nth_error]; [rewrite Nat.add_0_r, M; reflexivity|]. rewrite H by lia. now replace (S a + i) with (a + S i) by lia. }
    exact (GEN 0 C). }
  destruct CT as [LT CT].
  assert (MS : rws = map (fun t => fst (fst t)) ts /\ us = map (fun t => snd (fst t)) ts /\ fs = map snd ts).
  { unfold stack in ST. destruct ts as [|[[? ?] ?] tl]; [discriminate|]. destruct (forallb _ _); [|discriminate]. now injection ST as <- <- <-. }
  destruct MS as (-> & -> & ->).
  assert (PT : forall i, i < n -> exists r u f, nth_error ts i = Some (r, u, f) /\ nth_error (l_raws L) i = Some r /\ nth_error (l_unfs L) i = Some u /\ nth_error (l_fgs L) i = Some f).
  { intros i Hi. assert (NS : nth_error (seq 0 n) i = Some i) by (rewrite (nth_error_nth' _ 0), seq_nth by (rewrite ?seq_length; exact Hi); reflexivity).
    destruct (P i i NS) as [_ PI]. specialize (CT i Hi). destruct (nth_error ts i) as [t|] eqn:NT; [|apply nth_error_None in NT; lia].
    unfold member in CT. destruct (raw_member _ _ _ _ _ _ _ _ _ _ _ i) as [r|]; [|discriminate]. cbn [rbind] in CT.
    destruct (unf_member _ _ _ _ _ _ _ _ _ _ _ _ _ i) as [u|]; [|discriminate]. cbn [rbind] in CT.
    destruct (fg_member _ _ _ _ _ _ _ _ _ _ _ _ _ _ _ i) as [f|]; [|discriminate]. cbn [rbind] in CT.
    destruct (if Nat.eqb i 0 then checked f else Ok f); [|discriminate]. cbn [rbind] in CT. destruct (_ && _); [|discriminate]. injection CT as ->.
    exists (values r), (values u), (values f). split; [reflexivity|]. now apply PI. }
  repeat split; apply nth_error_ext; intros i; rewrite nth_error_map; (destruct (Nat.lt_ge_cases i n) as [Hi|Hi];
    [destruct (PT i Hi) as (r & u & f & E0 & E1 & E2 & E3); rewrite E0, ?E1, ?E2, ?E3; reflexivity|
     assert (N0 : nth_error ts i = None) by (apply nth_error_None; lia); rewrite N0; apply nth_error_None; lia]).
Qed.
Print Assumptions loaded_is_generated_partial.

(* ---- concrete cases ---- *)
(* a generator that draws 10 - g everywhere and then becomes g + 1; task i starts with
   seed + 2 i *)
Definition x_of (s : Z) (i : nat) : nat := Z.to_nat s + 2 * i.
Definition x_normal (g : nat) (a : arr2) : (nat -> nat -> Qc) * nat := (fun _ _ => (qz 10 - qnat g)%Qc, S g).
Definition x_poisson (g : nat) (a : arr2) : (nat -> nat -> nat) * nat := (fun _ _ => 20 - g, S g).
Definition x_raw : matrix := mkM (mkArr 1 [[qz 5]]) [qz 1] [qz 1] None (Some RAW).
Definition x_bg : matrix := mkM (mkArr 1 [[qz 3]]) [qz 1] [qz 1] None (Some BACKGROUND).
Definition x_id (m : matrix) : result matrix := Ok m.
Definition x_twice (m : matrix) : result matrix := Ok (with_values m (amap (fun x => qz 2 * x)%Qc (values m))).
Definition x_empty : fdir := fun _ => None.
Definition x_pool bg act := pool nat x_of x_normal x_poisson x_raw bg (qz 1) x_id x_id act x_id x_id x_id x_id.
Definition x_gen bg act := generates nat x_of x_normal x_poisson (fun x => x) x_raw bg (qz 1) x_id x_id act x_id x_id x_id x_id.
Definition x_req bg act := requested nat x_of x_normal x_poisson (fun x => x) x_raw bg (qz 1) x_id x_id act x_id x_id x_id x_id.
(* tasks one after the other, each with plenty of turns *)
Definition x_seq (n : nat) : list nat := flat_map (fun i => repeat i 30) (seq 0 n).
Definition x_results (s : sys key file (result (arr2 * arr2 * arr2))) : list (result (arr2 * arr2 * arr2)) :=
  flat_map (fun p => match p with PRet r => [r] | _ => [] end) (snd s).
Definition x_out bg act seed meth regen n d : fdir * result ensemble :=
  run (finish (fun x => x) x_raw (x_results (x_pool bg act seed meth regen n (x_seq n) d))) (fst (x_pool bg act seed meth regen n (x_seq n) d)).
Definition vals (l : list arr2) : list (list (list Qc)) := map a_rows l.
Definition same3 (a b : list (list (list Qc))) : bool :=
  Nat.eqb (List.length a) (List.length b) && forallb (fun p => lleqb (fst p) (snd p)) (combine a b).
Definition raws_are (r : result ensemble) (l : list (list (list Qc))) : bool :=
  match r with Ok e => same3 (vals (e_raws e)) l | Raise _ => false end.
Definition one (z : Z) : list (list Qc) := [[qz z]].
Definition is_value_error {A} (r : result A) : bool := match r with Raise ValueError => true | _ => false end.
Definition x_raw_of (r : result ensemble) (l : list Z) : bool := raws_are r (map one l).

Lemma x_gen_out bg act seed meth regen n d :
  finished (x_pool bg act seed meth regen n (x_seq n) d) (x_results (x_pool bg act seed meth regen n (x_seq n) d)) ->
  x_gen bg act seed meth regen n (x_seq n) d (x_out bg act seed meth regen n d).
Proof. intros F. exists (x_results (x_pool bg act seed meth regen n (x_seq n) d)). split; [exact F|reflexivity]. Qed.

(* C50, C52: three members, no background; the ensemble asked for *)
Example x_three_members :
  x_gen None x_id 1 MGaussian false 3 (x_seq 3) x_empty (x_out None x_id 1 MGaussian false 3 x_empty) /\
  x_raw_of (snd (x_out None x_id 1 MGaussian false 3 x_empty)) [9; 7; 5]%Z = true /\
  x_raw_of (x_req None x_id 1 MGaussian 3) [9; 7; 5]%Z = true.
Proof. split; [apply x_gen_out; vm_compute; reflexivity|]. split; vm_compute; reflexivity. Qed.
(* an interleaving of two tasks that ends with the same results as the sequential one *)
Example x_interleaved :
  exists rs, finished (x_pool (Some x_bg) x_id 1 MGaussian false 2 (flat_map (fun _ => [1; 0]) (seq 0 30)) x_empty) rs /\
    rs = x_results (x_pool (Some x_bg) x_id 1 MGaussian false 2 (x_seq 2) x_empty) /\ List.length rs = 2.
Proof. exists (x_results (x_pool (Some x_bg) x_id 1 MGaussian false 2 (x_seq 2) x_empty)). split; [vm_compute; reflexivity|]. split; vm_compute; reflexivity. Qed.
(* C51 without background: task 0 stopped after having stored raw_0.npy *)
Example x_resumed :
  let d := fst (x_pool None x_id 1 MGaussian false 2 [0; 0; 0; 1] x_empty) in
  x_gen None x_id 1 MGaussian false 2 (x_seq 2) d (x_out None x_id 1 MGaussian false 2 d) /\
  x_raw_of (snd (x_out None x_id 1 MGaussian false 2 d)) [9; 7]%Z = true /\
  (match d (Member KRaw 0) with Some (FMat _) => true | _ => false end) = true /\ d (Member KRaw 1) = None.
Proof. split; [apply x_gen_out; vm_compute; reflexivity|]. repeat split; vm_compute; reflexivity. Qed.
Example x_id_ignores : ignores_state x_id /\ ignores_state x_twice.
Proof. split; intros m; reflexivity. Qed.

(* C51 refuted: stopped while writing raw_0.npy, the resumed run raises *)
Theorem resume_truncated_refuted : exists d,
  d = fst (x_pool None x_id 1 MGaussian false 1 [0; 0] x_empty) /\
  x_gen None x_id 1 MGaussian false 1 (x_seq 1) d (x_out None x_id 1 MGaussian false 1 d) /\
  is_value_error (snd (x_out None x_id 1 MGaussian false 1 d)) = true /\
  x_raw_of (snd (x_out None x_id 1 MGaussian false 1 x_empty)) [9]%Z = true.
Proof.
  eexists. split; [reflexivity|]. split; [apply x_gen_out; vm_compute; reflexivity|]. split; vm_compute; reflexivity.
Qed.
Print Assumptions resume_truncated_refuted.
(* C51 refuted: stopped between storing prompt+bg and bg, the resumed run draws the
   background with the generator that should have drawn prompt+bg *)
Theorem resume_background_refuted : exists d,
  d = fst (x_pool (Some x_bg) x_id 1 MGaussian false 1 [0; 0; 0] x_empty) /\ torn_free d /\
  x_gen (Some x_bg) x_id 1 MGaussian false 1 (x_seq 1) d (x_out (Some x_bg) x_id 1 MGaussian false 1 d) /\
  x_raw_of (snd (x_out (Some x_bg) x_id 1 MGaussian false 1 d)) [0]%Z = true /\
  x_raw_of (snd (x_out (Some x_bg) x_id 1 MGaussian false 1 x_empty)) [1]%Z = true.
Proof.
  eexists. split; [reflexivity|]. split.
  { intros k [|i]; destruct k; vm_compute; discriminate. }
  split; [apply x_gen_out; vm_compute; reflexivity|]. split; vm_compute; reflexivity.
Qed.
Print Assumptions resume_background_refuted.
(* C52 refuted: after a run with another method or another seed, generate(regenerate=False)
   returns the old ensemble *)
Theorem cached_parameters_refuted :
  let d := fst (x_out None x_id 1 MGaussian false 2 x_empty) in
  x_raw_of (snd (x_out None x_id 1 MPoisson false 2 d)) [9; 7]%Z = true /\
  x_raw_of (x_req None x_id 1 MPoisson 2) [19; 17]%Z = true /\
  x_raw_of (snd (x_out None x_id 4 MGaussian false 2 d)) [9; 7]%Z = true /\
  x_raw_of (x_req None x_id 4 MGaussian 2) [6; 4]%Z = true /\
  x_gen None x_id 1 MPoisson false 2 (x_seq 2) d (x_out None x_id 1 MPoisson false 2 d) /\
  x_gen None x_id 4 MGaussian false 2 (x_seq 2) d (x_out None x_id 4 MGaussian false 2 d).
Proof.
  cbv zeta. repeat match goal with |- _ /\ _ => split end; try (apply x_gen_out); vm_compute; reflexivity.
Qed.
Print Assumptions cached_parameters_refuted.

Definition x_loaded (r : fdir * result loaded) (raws unfs : list Z) : bool :=
  match snd r with
  | Ok L => same3 (vals (l_raws L)) (map one raws) && same3 (vals (l_unfs L)) (map one unfs) && Nat.eqb (l_size L) (List.length raws)
  | Raise _ => false
  end.
(* C53 refuted: the unfolder is the identity, yet with directory listings in different
   order member 0 of raw and unfolded differ *)
Theorem load_pairing_refuted :
  let d := fst (x_out None x_id 1 MGaussian false 2 x_empty) in
  x_loaded (run (ens_load [0; 1] [1; 0] [0; 1]) d) [9; 7]%Z [7; 9]%Z = true /\
  x_loaded (run (ens_load [1; 0] [1; 0] [1; 0]) d) [7; 9]%Z [7; 9]%Z = true.
Proof. split; vm_compute; reflexivity. Qed.
Print Assumptions load_pairing_refuted.
(* C53 refuted: members left over from an earlier, larger ensemble are loaded too *)
Theorem load_leftovers_refuted :
  let d1 := fst (x_out None x_id 1 MGaussian false 2 x_empty) in
  let d2 := fst (x_out None x_id 4 MGaussian true 1 d1) in
  x_raw_of (snd (x_out None x_id 4 MGaussian true 1 d1)) [6]%Z = true /\
  x_loaded (run (ens_load [0; 1] [0; 1] [0; 1]) d2) [6; 7]%Z [6; 7]%Z = true.
Proof. split; vm_compute; reflexivity. Qed.
Print Assumptions load_leftovers_refuted.
(* C75 refuted: the member files are written before the action, so that a loaded ensemble
   is not the one that was generated *)
Theorem load_misses_actions_refuted :
  let d := fst (x_out None x_twice 1 MGaussian false 2 x_empty) in
  x_raw_of (snd (x_out None x_twice 1 MGaussian false 2 x_empty)) [18; 14]%Z = true /\
  x_loaded (run (ens_load [0; 1] [0; 1] [0; 1]) d) [9; 7]%Z [18; 14]%Z = true.
Proof. split; vm_compute; reflexivity. Qed.
Print Assumptions load_misses_actions_refuted.
(* C54: with a background larger than the prompt the difference is cut at zero *)
Example x_negative_cut :
  x_raw_of (snd (x_out (Some x_bg) x_id 1 MGaussian true 1 x_empty)) [1]%Z = true /\
  x_raw_of (snd (x_out None x_id 12 MGaussian true 1 x_empty)) [0]%Z = true /\ keeps_axes x_id /\ keeps_nonneg x_id.
Proof.
  split; [vm_compute; reflexivity|]. split; [vm_compute; reflexivity|]. split.
  - intros m m' H; injection H as <-. now repeat split.
  - intros m m' H E; injection E as <-. exact H.
Qed.
