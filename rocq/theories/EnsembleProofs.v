From Coq Require Import String.
From Verif Require Import PyBase Axis MatrixModel ArithModel Conc ConcProofs EnsembleModel EnsembleSpec.
Local Open Scope list_scope.
Local Open Scope nat_scope.

Lemma key_eqb_spec a b : BoolSpec (a = b) (a <> b) (key_eqb a b).
Proof.
  destruct a as [k i|t], b as [l j|u]; cbn [key_eqb]; try (constructor; congruence).
  - destruct (Nat.eqb_spec i j) as [->|NE]; [|rewrite andb_false_r; constructor; congruence].
    destruct k, l; cbn; constructor; congruence.
  - destruct t, u; cbn; constructor; congruence.
Qed.
Definition own (k : key) : option nat :=
  match k with Member _ i => Some i | Top TFirstgen => Some 0 | Top _ => None end.
Notation run := (run key_eqb).
Notation dset := (dset key_eqb).
Notation owned := (owned key file _ own).

Lemma run_pbind {A B} (p : fprog A) (f : A -> fprog B) : forall d,
  run (pbind p f) d = match run p d with (d1, Ok a) => run (f a) d1 | (d1, Raise e) => (d1, Raise e) end.
Proof.
  induction p as [[a|e]|k c IH|k g c IH]; intros d; cbn [pbind Conc.run]; try reflexivity.
  - apply IH.
  - apply IH.
Qed.
Lemma owned_pbind {A B} i (p : fprog A) (f : A -> fprog B) : owned i p -> (forall a, owned i (f a)) -> owned i (pbind p f).
Proof.
  intros O1 O2. induction O1 as [[a|e]|k c H1 H2 IH|k g c H1 H2 IH]; cbn [pbind].
  - apply O2.
  - constructor.
  - constructor; assumption.
  - constructor; assumption.
Qed.
Lemma owned_save i k m : own k = Some i -> owned i (save k m).
Proof. intros H. unfold save. destruct (fits m); repeat constructor; assumption. Qed.

Lemma strip_strip m : strip (strip m) = strip m. Proof. reflexivity. Qed.
Lemma fits_verify m : fits m = true -> verify_integrity (strip m) = Ok tt.
Proof.
  unfold fits, pair_eqb, shape. cbn [fst snd]. intros H. apply andb_true_iff in H as [H1 H2].
  unfold verify_integrity, strip. cbn [values Eg Ex std]. rewrite H1, H2. reflexivity.
Qed.
Lemma fits_strip m : fits (strip m) = fits m. Proof. reflexivity. Qed.
Lemma read_saved m : fits m = true -> read_file (FMat (strip m)) = Ok (strip m).
Proof.
  intros H. cbn [read_file]. unfold mk_matrix, strip. cbn [values Eg Ex].
  pose proof (fits_verify m H) as V. unfold strip in V. rewrite V. reflexivity.
Qed.
Lemma mk_matrix_fits v eg ex s st m : mk_matrix v eg ex s st = Ok m -> fits m = true /\ values m = v /\
  Eg m = match eg with Some e => e | None => default_axis (a_nc v) end /\ Ex m = match ex with Some e => e | None => default_axis (a_nr v) end.
Proof.
  unfold mk_matrix. intros H. destruct (verify_integrity _) as [u|] eqn:V; [|discriminate]. cbn [rbind] in H.
  destruct (set_state st) as [t|]; [|discriminate]. cbn [rbind] in H. injection H as <-.
  unfold verify_integrity in V. cbn [values Eg Ex std] in *. unfold fits, pair_eqb, shape. cbn [values Ex Eg fst snd].
  destruct (Nat.eqb_spec (a_nr v) (length match ex with Some e => e | None => default_axis (a_nr v) end)); [|discriminate].
  destruct (Nat.eqb_spec (a_nc v) (length match eg with Some e => e | None => default_axis (a_nc v) end)); [|discriminate].
  repeat split; reflexivity.
Qed.

Section Ensemble.
Variable rng : Type.
Variable rng_of : Z -> nat -> rng.
Variable normal : rng -> arr2 -> (nat -> nat -> Qc) * rng.
Variable poisson : rng -> arr2 -> (nat -> nat -> nat) * rng.
Variable sqrtq : Qc -> Qc.
Variable raw0 : matrix.
Variable bg0 : option matrix.
Variable bg_ratio : Qc.
Variables act_prompt act_bg act_raw act_unf act_fg : matrix -> result matrix.
Variables unfolder fg_method : matrix -> result matrix.

Local Notation draw := (draw rng normal poisson raw0 bg0).
Local Notation perturbed := (perturbed rng normal poisson raw0 bg0 act_prompt act_bg act_raw).
Local Notation subtract_bg := (subtract_bg bg_ratio act_raw).
Local Notation unfold_step := (EnsembleModel.unfold act_unf unfolder).
Local Notation first_generation := (first_generation act_fg fg_method).
Local Notation raw_step := (raw_step rng rng_of normal poisson raw0 bg0 bg_ratio act_prompt act_bg act_raw).
Local Notation ens_step := (ens_step rng rng_of normal poisson raw0 bg0 bg_ratio act_prompt act_bg act_raw act_unf act_fg unfolder fg_method).
Local Notation tasks := (tasks rng rng_of normal poisson raw0 bg0 bg_ratio act_prompt act_bg act_raw act_unf act_fg unfolder fg_method).
Local Notation action_of := (action_of act_prompt act_bg act_raw).

Lemma owned_made i k r : own k = Some i -> owned i (made k r).
Proof.
  intros H. unfold made. apply owned_pbind; [constructor|]. intros m. apply owned_pbind; [now apply owned_save|]. intros _. constructor.
Qed.
Lemma owned_cached i k b p : own k = Some i -> owned i p -> owned i (cached b k p).
Proof. intros H1 H2. unfold cached. destruct b; [assumption|]. constructor; [assumption|]. intros [f|]; [constructor|assumption]. Qed.
Lemma owned_perturbed meth b i k g : owned i (perturbed meth b i k g).
Proof.
  unfold EnsembleModel.perturbed. apply owned_pbind; [|intros; constructor].
  assert (O : owned i (pbind (pret (draw meth k g)) (fun mg => pbind (save (Member k i) (fst mg)) (fun _ => pret (Ok mg))))).
  { apply owned_pbind; [constructor|]. intros mg. apply owned_pbind; [now apply owned_save|]. intros; constructor. }
  destruct b; [exact O|]. constructor; [reflexivity|]. intros [f|]; [constructor|exact O].
Qed.
Lemma owned_step seed meth b i : owned i (ens_step seed meth b i).
Proof.
  unfold EnsembleModel.ens_step. apply owned_pbind.
  - unfold EnsembleModel.raw_step. destruct (has_bg bg0).
    + apply owned_pbind; [apply owned_perturbed|]. intros pg. apply owned_pbind; [apply owned_perturbed|]. intros bg.
      apply owned_pbind; [|intros; constructor]. apply owned_cached; [reflexivity|]. now apply owned_made.
    + apply owned_pbind; [apply owned_perturbed|]. intros; constructor.
  - intros r. apply owned_pbind.
    + apply owned_pbind; [|intros; constructor]. apply owned_cached; [reflexivity|]. now apply owned_made.
    + intros u. apply owned_pbind.
      * apply owned_pbind; [|intros; constructor]. apply owned_cached; [reflexivity|]. now apply owned_made.
      * intros f. apply owned_pbind; [|intros; constructor]. destruct (Nat.eqb_spec i 0) as [->|]; [now apply owned_save|constructor].
Qed.
Lemma owned_tasks seed meth b n : forall i p, nth_error (tasks seed meth b n) i = Some p -> owned i p.
Proof.
  intros i p H. unfold EnsembleModel.tasks in H. rewrite nth_error_map in H. destruct (nth_error (seq 0 n) i) as [j|] eqn:E; [|discriminate].
  cbn in H. injection H as <-. pose proof (nth_error_nth _ _ 0 E) as E'.
  assert (i < n) by (apply nth_error_Some in E || (assert (nth_error (seq 0 n) i <> None) as E2 by congruence; apply nth_error_Some in E2; now rewrite seq_length in E2)).
  rewrite seq_nth in E' by assumption. cbn in E'. subst j. apply owned_step.
Qed.

(* ---- a step whose files are missing or to be regenerated ---- *)
Section Fresh.
Variables (seed : Z) (meth : method) (regen : bool).
Local Notation prompt_member := (prompt_member rng rng_of normal poisson raw0 bg0 seed meth).
Local Notation bg_member := (bg_member rng rng_of normal poisson raw0 bg0 act_prompt seed meth).
Local Notation raw_member := (raw_member rng rng_of normal poisson raw0 bg0 bg_ratio act_prompt act_bg seed meth).
Local Notation unf_member := (unf_member rng rng_of normal poisson raw0 bg0 bg_ratio act_prompt act_bg act_raw unfolder seed meth).
Local Notation fg_member := (fg_member rng rng_of normal poisson raw0 bg0 bg_ratio act_prompt act_bg act_raw act_unf unfolder fg_method seed meth).
Local Notation member_file := (member_file rng rng_of normal poisson raw0 bg0 bg_ratio act_prompt act_bg act_raw act_unf unfolder fg_method seed meth).
Local Notation member := (member rng rng_of normal poisson raw0 bg0 bg_ratio act_prompt act_bg act_raw act_unf act_fg unfolder fg_method seed meth).
Local Notation requested := (requested rng rng_of normal poisson sqrtq raw0 bg0 bg_ratio act_prompt act_bg act_raw act_unf act_fg unfolder fg_method seed meth).

Lemma draw_fits k g m g' : draw meth k g = Ok (m, g') -> fits m = true.
Proof.
  unfold EnsembleModel.draw. destruct meth; [destruct (gaussian _ _ _ _) as [v h]|destruct (poissonian _ _ _ _) as [v h]|discriminate].
  all: cbn [rbind]; destruct (mk_matrix _ _ _ _ _) as [m'|] eqn:MK; [|discriminate]; cbn [rbind]; intros H; injection H as <- <-; now apply mk_matrix_fits in MK.
Qed.
Lemma member_file_fits k i m : member_file k i = Ok m -> fits m = true.
Proof.
  assert (CK : forall (r : result matrix) m, (do x <- r ;; checked x) = Ok m -> fits m = true).
  { intros r m0. destruct r as [x|]; [|discriminate]. cbn [rbind]. unfold checked. destruct (fits x) eqn:FX; [|discriminate]. intros H; injection H as <-. exact FX. }
  destruct k; cbn [EnsembleSpec.member_file].
  - unfold EnsembleSpec.raw_member. destruct (has_bg bg0).
    + intros H. destruct (prompt_member i) as [[p g]|]; [|discriminate]. cbn [rbind fst snd] in H.
      destruct (act_prompt p) as [p'|]; [|discriminate]. cbn [rbind] in H. destruct (draw meth KBg g) as [[b g']|] eqn:D; [|discriminate].
      cbn [rbind fst] in H. destruct (act_bg b) as [b'|]; [|discriminate]. cbn [rbind] in H. now apply CK in H.
    + destruct (draw _ _ _) as [[x g]|] eqn:D; [|discriminate]. cbn [rmap rbind fst]. intros H; injection H as <-. now apply draw_fits in D.
  - destruct (prompt_member i) as [[x g]|] eqn:D; [|discriminate]. intros H; injection H as <-. now apply draw_fits in D.
  - destruct (bg_member i) as [[x g]|] eqn:D; [|discriminate]. intros H; injection H as <-. unfold EnsembleSpec.bg_member in D.
    destruct (prompt_member i) as [[p h]|]; [|discriminate]. cbn [rbind fst snd] in D. destruct (act_prompt p); [|discriminate]. cbn [rbind] in D. now apply draw_fits in D.
  - unfold EnsembleSpec.unf_member. intros H. destruct (raw_member i) as [r|]; [|discriminate]. cbn [rbind] in H. destruct (act_raw r); [|discriminate]. cbn [rbind] in H. now apply CK in H.
  - unfold EnsembleSpec.fg_member. intros H. destruct (unf_member i) as [r|]; [|discriminate]. cbn [rbind] in H. destruct (act_unf r); [|discriminate]. cbn [rbind] in H. now apply CK in H.
Qed.

Lemma dset_twice (d : fdir) k f g q : dset (dset d k f) k g q = dset d k g q.
Proof. unfold Conc.dset. destruct (key_eqb q k); reflexivity. Qed.
Lemma dset_eq (d : fdir) k f : dset d k f k = Some f.
Proof. apply dset_same. apply key_eqb_spec. Qed.
Lemma dset_ne (d : fdir) k f q : q <> k -> dset d k f q = d q.
Proof. apply dset_other. apply key_eqb_spec. Qed.

Definition saved (d : fdir) (k : key) (m : matrix) : fdir := dset (dset d k FTorn) k (FMat (strip m)).
Lemma run_save k m d : run (save k m) d = match checked m with Ok _ => (saved d k m, Ok tt) | Raise e => (d, Raise e) end.
Proof. unfold save, checked. destruct (fits m); reflexivity. Qed.
Lemma run_made k r d : run (made k r) d = match (do m <- r ;; checked m) with Ok m => (saved d k m, Ok m) | Raise e => (d, Raise e) end.
Proof.
  unfold made. rewrite run_pbind. cbn [pret Conc.run]. destruct r as [m|e]; [|reflexivity].
  rewrite run_pbind, run_save. cbn [rbind]. unfold checked. destruct (fits m); reflexivity.
Qed.
Definition absent (d : fdir) (k : key) : Prop := regen = true \/ d k = None.
Lemma run_cached_absent k p d : absent d k -> run (cached regen k p) d = run p d.
Proof. unfold cached. intros [->| H]; [reflexivity|]. destruct regen; [reflexivity|]. cbn [Conc.run]. now rewrite H. Qed.
Lemma saved_eq d k m : saved d k m k = Some (FMat (strip m)).
Proof. unfold saved. apply dset_eq. Qed.
Lemma saved_ne d k m q : q <> k -> saved d k m q = d q.
Proof. intros H. unfold saved. rewrite dset_twice. now apply dset_ne. Qed.
Lemma absent_frame (d d' : fdir) q : d' q = d q -> absent d q -> absent d' q.
Proof. intros E [R|N]; [now left|right; congruence]. Qed.

(* a fresh cached stage followed by the action *)
Lemma fresh_stage k r (act : matrix -> result matrix) d : absent d k ->
  exists d', run (pbind (cached regen k (made k r)) (fun m => pret (act m))) d = (d', do m <- (do m <- r ;; checked m) ;; act m) /\
    (forall q, q <> k -> d' q = d q) /\ (forall m, (do m <- r ;; checked m) = Ok m -> d' k = Some (FMat (strip m))).
Proof.
  intros A. rewrite run_pbind, run_cached_absent, run_made by exact A. destruct (do m <- r ;; checked m) as [m|e].
  - exists (saved d k m). split; [reflexivity|]. split; [intros q Hq; now apply saved_ne|]. intros m' H; injection H as <-. apply saved_eq.
  - exists d. split; [reflexivity|]. split; [reflexivity|discriminate].
Qed.
Lemma fresh_perturbed i k g d : absent d (Member k i) ->
  exists d', run (perturbed meth regen i k g) d = (d', do mg <- draw meth k g ;; rmap (fun m => (m, snd mg)) (action_of k (fst mg))) /\
    (forall q, q <> Member k i -> d' q = d q) /\ (forall mg, draw meth k g = Ok mg -> d' (Member k i) = Some (FMat (strip (fst mg)))).
Proof.
  intros A. unfold EnsembleModel.perturbed.
  assert (E : run (if regen then pbind (pret (draw meth k g)) (fun mg => pbind (save (Member k i) (fst mg)) (fun _ => pret (Ok mg)))
     else PRead (Member k i) (fun o => match o with Some f => pret (rmap (fun m => (m, g)) (read_file f))
            | None => pbind (pret (draw meth k g)) (fun mg => pbind (save (Member k i) (fst mg)) (fun _ => pret (Ok mg))) end)) d
     = run (pbind (pret (draw meth k g)) (fun mg => pbind (save (Member k i) (fst mg)) (fun _ => pret (Ok mg)))) d).
  { destruct A as [->|A]; [reflexivity|]. destruct regen; [reflexivity|]. cbn [Conc.run]. now rewrite A. }
  rewrite run_pbind, E, run_pbind. cbn [pret Conc.run]. destruct (draw meth k g) as [[m g']|e] eqn:D.
  - rewrite run_pbind, run_save. cbn [fst]. unfold checked. rewrite (draw_fits k g m g' D). cbn [Conc.run pret rbind fst snd].
    exists (saved d (Member k i) m). split; [reflexivity|]. split; [intros q Hq; now apply saved_ne|]. intros mg H; injection H as <-. apply saved_eq.
  - exists d. split; [reflexivity|]. split; [reflexivity|discriminate].
Qed.
Lemma bind_assoc {A B C} (r : result A) (f : A -> result B) (g : B -> result C) :
  (do y <- (do x <- r ;; f x) ;; g y) = (do x <- r ;; do y <- f x ;; g y).
Proof. destruct r; reflexivity. Qed.

Lemma fresh_raw i d : (forall k, absent d (Member k i)) ->
  exists d', run (raw_step seed meth regen i) d = (d', do r <- raw_member i ;; act_raw r) /\
    (forall q, q <> Member KRaw i -> q <> Member KPrompt i -> q <> Member KBg i -> d' q = d q) /\
    (forall m, raw_member i = Ok m -> d' (Member KRaw i) = Some (FMat (strip m))) /\
    (has_bg bg0 = true -> forall m, raw_member i = Ok m -> (forall p, member_file KPrompt i = Ok p -> d' (Member KPrompt i) = Some (FMat (strip p))) /\
       (forall p, member_file KBg i = Ok p -> d' (Member KBg i) = Some (FMat (strip p)))).
Proof.
  intros A. unfold EnsembleModel.raw_step, EnsembleSpec.raw_member. cbn [EnsembleSpec.member_file]. unfold EnsembleSpec.bg_member, EnsembleSpec.prompt_member.
  destruct (has_bg bg0).
  - destruct (fresh_perturbed i KPrompt (rng_of seed i) d (A KPrompt)) as (d1 & R1 & F1 & W1).
    rewrite run_pbind, R1. destruct (draw meth KPrompt (rng_of seed i)) as [[p g1]|e].
    2:{ exists d1. cbn [rbind]. repeat split; try discriminate. intros q _ Hq _. now apply F1. }
    cbn [rbind fst snd EnsembleModel.action_of]. specialize (W1 _ eq_refl). cbn [fst] in W1.
    destruct (act_prompt p) as [p'|e]; cbn [rmap rbind].
    2:{ exists d1. repeat split; try discriminate. intros q _ Hq _. now apply F1. }
    cbn [fst snd].
    destruct (fresh_perturbed i KBg g1 d1) as (d2 & R2 & F2 & W2).
    { apply (absent_frame d); [apply F1; discriminate|apply A]. }
    rewrite run_pbind, R2. destruct (draw meth KBg g1) as [[b g2]|e].
    2:{ exists d2. cbn [rbind]. repeat split; try discriminate. intros q _ Hq Hq2. rewrite F2, F1; auto. }
    cbn [rbind fst snd EnsembleModel.action_of]. specialize (W2 _ eq_refl). cbn [fst] in W2.
    destruct (act_bg b) as [b'|e]; cbn [rmap rbind].
    2:{ exists d2. repeat split; try discriminate. intros q _ Hq Hq2. rewrite F2, F1; auto. }
    cbn [fst snd].
    destruct (fresh_stage (Member KRaw i) (subtracted bg_ratio p' b') act_raw d2) as (d3 & R3 & F3 & W3).
    { apply (absent_frame d); [rewrite F2, F1 by discriminate; reflexivity|apply A]. }
    unfold EnsembleModel.subtract_bg. rewrite R3. exists d3. split; [reflexivity|].
    split; [intros q H1 H2 H3; rewrite F3, F2, F1; auto|]. split; [exact W3|].
    intros _ m _. split; intros x; cbn [rmap rbind fst]; intros H; injection H as <-.
    + rewrite F3, F2 by discriminate. exact W1.
    + rewrite F3 by discriminate. exact W2.
  - destruct (fresh_perturbed i KRaw (rng_of seed i) d (A KRaw)) as (d1 & R1 & F1 & W1).
    rewrite run_pbind, R1. destruct (draw meth KRaw (rng_of seed i)) as [[p g1]|e]; cbn [rbind rmap fst snd EnsembleModel.action_of].
    + exists d1. split; [destruct (act_raw p); reflexivity|]. split; [intros q Hq _ _; now apply F1|]. split; [|discriminate].
      intros m H; injection H as <-. now apply (W1 _ eq_refl).
    + exists d1. split; [reflexivity|]. split; [intros q Hq _ _; now apply F1|]. split; discriminate.
Qed.

Definition relevant (k : kind) : Prop := match k with KPrompt | KBg => has_bg bg0 = true | _ => True end.
Lemma fresh_step i d : (forall k, absent d (Member k i)) ->
  snd (run (ens_step seed meth regen i) d) = member i /\
  (forall t, member i = Ok t -> (forall k m, relevant k -> member_file k i = Ok m -> fst (run (ens_step seed meth regen i) d) (Member k i) = Some (FMat (strip m))) /\
     (i = 0 -> forall f f0, fg_member 0 = Ok f -> act_fg f = Ok f0 -> fst (run (ens_step seed meth regen i) d) (Top TFirstgen) = Some (FMat (strip f0)) /\ fits f0 = true)).
Proof.
  intros A. unfold EnsembleModel.ens_step, EnsembleSpec.member. destruct (fresh_raw i d A) as (d1 & R1 & F1 & W1 & WB).
  rewrite run_pbind, R1. destruct (raw_member i) as [r|e] eqn:ER; [|cbn [rbind]; split; [reflexivity|discriminate]].
  cbn [rbind]. destruct (act_raw r) as [r'|e] eqn:AR; [|cbn [rbind]; split; [reflexivity|discriminate]]. cbn [rbind].
  assert (EU : unf_member i = do u <- unfolder r' ;; checked u) by (unfold EnsembleSpec.unf_member; rewrite ER; cbn [rbind]; rewrite AR; reflexivity).
  destruct (fresh_stage (Member KUnf i) (unfolder r') act_unf d1) as (d2 & R2 & F2 & W2).
  { apply (absent_frame d); [apply F1; discriminate|apply A]. }
  unfold EnsembleModel.unfold. rewrite run_pbind, R2. rewrite <- EU in *.
  destruct (unf_member i) as [u|e] eqn:EU'; [|cbn [rbind]; split; [reflexivity|discriminate]]. cbn [rbind].
  destruct (act_unf u) as [u'|e] eqn:AU; [|cbn [rbind]; split; [reflexivity|discriminate]]. cbn [rbind].
  assert (EF : fg_member i = do f <- fg_method u' ;; checked f) by (unfold EnsembleSpec.fg_member; rewrite EU'; cbn [rbind]; rewrite AU; reflexivity).
  destruct (fresh_stage (Member KFg i) (fg_method u') act_fg d2) as (d3 & R3 & F3 & W3).
  { apply (absent_frame d); [rewrite F2, F1 by discriminate; reflexivity|apply A]. }
  unfold EnsembleModel.first_generation. rewrite run_pbind, R3. rewrite <- EF in *.
  destruct (fg_member i) as [f|e] eqn:EF'; [|cbn [rbind]; split; [reflexivity|discriminate]]. cbn [rbind].
  destruct (act_fg f) as [f'|e] eqn:AF; [|cbn [rbind]; split; [reflexivity|discriminate]]. cbn [rbind].
  unfold shapes_agree.
  assert (FILES : forall k m, relevant k -> member_file k i = Ok m -> d3 (Member k i) = Some (FMat (strip m))).
  { intros k m Hk Hm. destruct k.
    - cbn [EnsembleSpec.member_file] in Hm. rewrite F3, F2 by discriminate. apply W1. congruence.
    - rewrite F3, F2 by discriminate. now apply (WB Hk r eq_refl).
    - rewrite F3, F2 by discriminate. now apply (WB Hk r eq_refl).
    - cbn [EnsembleSpec.member_file] in Hm. rewrite F3 by discriminate. apply W2. congruence.
    - cbn [EnsembleSpec.member_file] in Hm. apply W3. congruence. }
  rewrite run_pbind. destruct (Nat.eqb_spec i 0) as [E0|N0].
  - rewrite run_save. unfold checked. destruct (fits f') eqn:FT; [|cbn [rbind]; split; [reflexivity|discriminate]]. cbn [rbind pret Conc.run fst snd].
    split; [reflexivity|]. intros t _. split.
    + intros k m Hk Hm. rewrite saved_ne by discriminate. now apply FILES.
    + intros _ f1 f2 H1 H2. rewrite <- E0, EF' in H1. injection H1 as <-. rewrite AF in H2. injection H2 as <-. split; [apply saved_eq|exact FT].
  - cbn [rbind pret Conc.run fst snd]. split; [reflexivity|]. intros t _. split; [exact FILES|]. intros E0; contradiction.
Qed.

(* ---- a step that finds some of its own files ---- *)
Notation always := (always key file _ key_eqb).
Lemma always_run I {A} (p : fprog A) : forall d, always I p d -> I (fst (run p d)).
Proof.
  induction p as [r|k c IH|k g c IH]; intros d H; inversion H; subst; cbn [Conc.run]; auto.
Qed.
Lemma always_pbind I {A B} (p : fprog A) (f : A -> fprog B) : forall d, always I p d ->
  (forall d' a, run p d = (d', Ok a) -> always I (f a) d') -> always I (pbind p f) d.
Proof.
  induction p as [[a|e]|k c IH|k g c IH]; intros d H HF; inversion H; subst; cbn [pbind].
  - now apply HF.
  - now constructor.
  - constructor; [assumption|]. apply IH; [assumption|exact HF].
  - constructor; [assumption|]. apply IH; [assumption|exact HF].
Qed.
Lemma always_pret (I : fdir -> Prop) {A} (r : result A) d : I d -> always I (pret r) d.
Proof. now constructor. Qed.

Definition goodfile (i : nat) (k : kind) (o : option file) : Prop :=
  match o with Some (FMat m) => exists w, member_file k i = Ok w /\ m = strip w | _ => True end.
Definition good (i : nat) (d : fdir) : Prop := forall k, goodfile i k (d (Member k i)).
Lemma good_torn i k d : good i d -> good i (dset d (Member k i) FTorn).
Proof.
  intros G l. destruct (key_eqb_spec (Member l i) (Member k i)) as [E|N].
  - injection E as ->. rewrite dset_eq. exact I.
  - rewrite dset_ne by exact N. apply G.
Qed.
Lemma good_put i k d w : good i d -> member_file k i = Ok w -> good i (dset d (Member k i) (FMat (strip w))).
Proof.
  intros G W l. destruct (key_eqb_spec (Member l i) (Member k i)) as [E|N].
  - injection E as ->. rewrite dset_eq. now exists w.
  - rewrite dset_ne by exact N. apply G.
Qed.
Lemma good_top i t d f : good i d -> good i (dset d (Top t) f).
Proof. intros G l. rewrite dset_ne by discriminate. apply G. Qed.

Definition sim (a b : result matrix) : Prop := rmap strip a = rmap strip b.
Lemma sim_bind (f : matrix -> result matrix) a b : ignores_state f -> sim a b -> sim (do x <- a ;; f x) (do x <- b ;; f x).
Proof.
  unfold sim. intros HF. destruct a as [x|e], b as [y|e']; cbn [rmap rbind]; intros H; try discriminate; [|congruence].
  injection H as H1 H2 H3. rewrite (HF x), (HF y). unfold strip. rewrite H1, H2, H3. reflexivity.
Qed.
Lemma checked_ignores : ignores_state checked.
Proof. intros m. unfold checked. rewrite fits_strip. destruct (fits m); reflexivity. Qed.
Lemma sim_ok a w : sim a (Ok w) -> exists m, a = Ok m /\ strip m = strip w.
Proof. unfold sim. destruct a as [m|]; cbn; [|discriminate]. intros H. exists m. split; [reflexivity|congruence]. Qed.
Lemma sim_raise a e : sim a (Raise e) -> a = Raise e.
Proof. unfold sim. destruct a as [m|]; cbn; congruence. Qed.
Lemma sim_refl a : sim a a. Proof. reflexivity. Qed.

(* outcome of a stage: as wanted, or an exception because a torn file was found *)
Definition outcome (torn : Prop) (res want : result matrix) : Prop :=
  sim res want \/ (torn /\ exists e, res = Raise e).
Lemma resume_cached i k r d : good i d -> sim (do m <- r ;; checked m) (member_file k i) ->
  let p := cached regen (Member k i) (made (Member k i) r) in
  always (good i) p d /\ exists d' res, run p d = (d', res) /\ (forall q, q <> Member k i -> d' q = d q) /\
    (d' (Member k i) = Some FTorn -> d (Member k i) = Some FTorn) /\
    outcome (d (Member k i) = Some FTorn) res (member_file k i) /\
    (forall a w, res = Ok a -> member_file k i = Ok w -> d' (Member k i) = Some (FMat (strip w))).
Proof.
  intros G S p.
  assert (M : always (good i) (made (Member k i) r) d /\ exists d' res, run (made (Member k i) r) d = (d', res) /\ (forall q, q <> Member k i -> d' q = d q) /\
    (d' (Member k i) = Some FTorn -> d (Member k i) = Some FTorn) /\ sim res (member_file k i) /\
    (forall a w, res = Ok a -> member_file k i = Ok w -> d' (Member k i) = Some (FMat (strip w)))).
  { split.
    - unfold made. apply always_pbind; [now constructor|]. intros d' a. cbn [pret Conc.run]. intros H; injection H as <- ->.
      apply always_pbind; [|intros d' u H; apply always_pret].
      + cbn [rbind] in S. unfold save, checked in *. destruct (fits a); [|now apply always_pret].
        destruct (member_file k i) as [w|e] eqn:W; [|discriminate]. injection S as H1 H2 H3.
        assert (E : strip a = strip w) by (unfold strip; congruence).
        constructor; [exact G|]. constructor; [now apply good_torn|]. constructor. rewrite E. apply good_put; [now apply good_torn|exact W].
      + cbn [rbind] in S. rewrite run_save in H. unfold checked in *. destruct (fits a) eqn:FA; [|discriminate]. injection H as <- <-. unfold saved.
        destruct (member_file k i) as [w|e] eqn:W; [|discriminate]. injection S as H1 H2 H3.
        assert (E : strip a = strip w) by (unfold strip; congruence). rewrite E. apply good_put; [now apply good_torn|exact W].
    - rewrite run_made. destruct (do m <- r ;; checked m) as [m|e] eqn:R0.
      + exists (saved d (Member k i) m), (Ok m). split; [reflexivity|]. split; [intros q Hq; now apply saved_ne|]. split; [rewrite saved_eq; discriminate|].
        split; [exact S|]. intros a w H W. rewrite saved_eq. injection H as <-. unfold sim in S. rewrite W in S. cbn in S. congruence.
      + exists d, (Raise e). split; [reflexivity|]. split; [reflexivity|]. split; [auto|]. split; [exact S|discriminate]. }
  destruct M as [M1 (d1 & res & M2 & M3 & M4 & M5 & M6)]. unfold p, cached. destruct regen.
  - split; [exact M1|]. exists d1, res. repeat split; auto. now left.
  - destruct (d (Member k i)) as [f|] eqn:DK.
    + split; [constructor; [exact G|rewrite DK; now apply always_pret]|]. exists d, (read_file f). cbn [Conc.run]. rewrite DK.
      split; [reflexivity|]. split; [reflexivity|]. split; [auto|]. pose proof (G k) as GK. rewrite DK in GK.
      destruct f as [|m]; [split; [right; split; [reflexivity|now exists ValueError]|discriminate]|].
      destruct GK as (w & W & ->). rewrite read_saved by (now apply (member_file_fits k i)). split.
      * left. rewrite W. reflexivity.
      * intros a w' _ W'. congruence.
    + split; [constructor; [exact G|now rewrite DK]|]. exists d1, res. cbn [Conc.run]. rewrite DK. split; [exact M2|]. split; [exact M3|]. split; [auto|]. split; [now left|exact M6].
Qed.
Lemma resume_stage i k r (act : matrix -> result matrix) d : ignores_state act -> good i d -> sim (do m <- r ;; checked m) (member_file k i) ->
  let p := pbind (cached regen (Member k i) (made (Member k i) r)) (fun m => pret (act m)) in
  always (good i) p d /\ exists d' res, run p d = (d', res) /\ (forall q, q <> Member k i -> d' q = d q) /\
    (d' (Member k i) = Some FTorn -> d (Member k i) = Some FTorn) /\
    outcome (d (Member k i) = Some FTorn) res (do m <- member_file k i ;; act m) /\
    (forall a w, res = Ok a -> member_file k i = Ok w -> d' (Member k i) = Some (FMat (strip w))).
Proof.
  intros HA G S p. destruct (resume_cached i k r d G S) as [AW (d' & res & R & F & T & O & W)]. unfold p. split.
  - apply always_pbind; [exact AW|]. intros d2 a Ha. apply always_pret. apply always_run in AW. rewrite Ha in AW. exact AW.
  - exists d', (do m <- res ;; act m). rewrite run_pbind, R. split; [destruct res; reflexivity|]. split; [exact F|]. split; [exact T|]. split.
    + destruct O as [O|[O1 (e & ->)]]; [left; now apply sim_bind|right; split; [exact O1|now exists e]].
    + intros a w H Hw. destruct res as [b|]; [|discriminate]. now apply (W b w).
Qed.

Definition torn_at (i : nat) (d : fdir) : Prop := exists k, d (Member k i) = Some FTorn.
Lemma always_good_end {A} i (p : fprog A) d d' r : always (good i) p d -> run p d = (d', r) -> good i d'.
Proof. intros H R. apply always_run in H. now rewrite R in H. Qed.
(* the two drawn matrices of a step with background, or the one without *)
Lemma always_perturbed_absent i k g d : good i d -> absent d (Member k i) ->
  (forall mg, draw meth k g = Ok mg -> member_file k i = Ok (fst mg)) ->
  always (good i) (perturbed meth regen i k g) d.
Proof.
  intros G A W. unfold EnsembleModel.perturbed. apply always_pbind.
  - assert (B : always (good i) (pbind (pret (draw meth k g)) (fun mg => pbind (save (Member k i) (fst mg)) (fun _ => pret (Ok mg)))) d).
    { apply always_pbind; [now apply always_pret|]. intros d' mg. cbn [pret Conc.run]. intros H; injection H as <- H.
      specialize (W mg H). destruct mg as [m g']. cbn [fst] in *. apply always_pbind.
      - unfold save. rewrite (draw_fits k g m g' H). constructor; [exact G|]. constructor; [now apply good_torn|]. constructor. apply good_put; [now apply good_torn|exact W].
      - intros d2 u H2. apply always_pret. rewrite run_save in H2. unfold checked in H2. rewrite (draw_fits k g m g' H) in H2. injection H2 as <- <-. unfold saved. apply good_put; [now apply good_torn|exact W]. }
    destruct A as [->|A]; [exact B|]. destruct regen; [exact B|]. constructor; [exact G|]. rewrite A. exact B.
  - intros d' mg H. apply always_pret.
    assert (R2 : d' = d \/ exists m, member_file k i = Ok m /\ d' = saved d (Member k i) m).
    { assert (E : run (pbind (pret (draw meth k g)) (fun mg => pbind (save (Member k i) (fst mg)) (fun _ => pret (Ok mg)))) d = (d', Ok mg)).
      { destruct A as [->|A]; [exact H|]. destruct regen; [exact H|]. cbn [Conc.run] in H. rewrite A in H. exact H. }
      rewrite run_pbind in E. cbn [pret Conc.run] in E. destruct (draw meth k g) as [[m g']|e] eqn:D; [|discriminate].
      rewrite run_pbind, run_save in E. cbn [fst] in E. unfold checked in E. rewrite (draw_fits k g m g' D) in E. injection E as <- <-. right. exists m. split; [now apply (W (m, g'))|reflexivity]. }
    destruct R2 as [->|(m & M & ->)]; [exact G|]. unfold saved. apply good_put; [now apply good_torn|exact M].
Qed.
Lemma resume_perturbed_absent i k g d : good i d -> absent d (Member k i) ->
  (forall mg, draw meth k g = Ok mg -> member_file k i = Ok (fst mg)) ->
  always (good i) (perturbed meth regen i k g) d /\
  exists d', run (perturbed meth regen i k g) d = (d', do mg <- draw meth k g ;; rmap (fun m => (m, snd mg)) (action_of k (fst mg))) /\
    (forall q, q <> Member k i -> d' q = d q) /\ good i d' /\ (torn_at i d' -> torn_at i d) /\
    (forall mg, draw meth k g = Ok mg -> d' (Member k i) = Some (FMat (strip (fst mg)))).
Proof.
  intros G A W. pose proof (always_perturbed_absent i k g d G A W) as AW. split; [exact AW|].
  destruct (fresh_perturbed i k g d A) as (d' & R & F & W1). exists d'. split; [exact R|]. split; [exact F|]. split; [exact (always_good_end i _ d d' _ AW R)|].
  split; [|exact W1].
  intros [l Hl]. destruct (key_eqb_spec (Member l i) (Member k i)) as [E|N]; [|exists l; rewrite <- F; assumption].
  injection E as ->. destruct (draw meth k g) as [mg|e] eqn:D; [rewrite (W1 mg eq_refl) in Hl; discriminate|].
  exists k. rewrite <- Hl. f_equal.
  assert (E : run (perturbed meth regen i k g) d = (d, Raise e)).
  { unfold EnsembleModel.perturbed. rewrite run_pbind. destruct A as [->|A].
    - rewrite run_pbind. cbn [pret Conc.run]. rewrite D. reflexivity.
    - destruct regen; [rewrite run_pbind; cbn [pret Conc.run]; rewrite D; reflexivity|]. cbn [Conc.run]. rewrite A, run_pbind. cbn [pret Conc.run]. rewrite D. reflexivity. }
  rewrite R in E. injection E as ->. reflexivity.
Qed.
Lemma resume_perturbed_present i k g d f : good i d -> regen = false -> d (Member k i) = Some f ->
  always (good i) (perturbed meth regen i k g) d /\
  exists res, run (perturbed meth regen i k g) d = (d, res) /\
   ((d (Member k i) = Some FTorn /\ res = Raise ValueError) \/
    exists w, member_file k i = Ok w /\ d (Member k i) = Some (FMat (strip w)) /\ res = rmap (fun m => (m, g)) (action_of k (strip w))).
Proof.
  intros G -> D. unfold EnsembleModel.perturbed. split.
  - apply always_pbind.
    + constructor; [exact G|]. rewrite D. now apply always_pret.
    + intros d' a H. cbn [Conc.run] in H. rewrite D in H. cbn [pret Conc.run] in H. injection H as <- _. now apply always_pret.
  - rewrite run_pbind. cbn [Conc.run]. rewrite D. cbn [pret Conc.run]. pose proof (G k) as GK. rewrite D in GK. destruct f as [|m].
    + exists (Raise ValueError). split; [reflexivity|]. left. now split.
    + destruct GK as (w & W & ->). rewrite read_saved by (now apply (member_file_fits k i)). cbn [rmap rbind fst snd Conc.run].
      eexists. split; [reflexivity|]. right. exists w. auto.
Qed.

Lemma subtracted_sim p p' b b' : strip p = strip p' -> strip b = strip b' -> sim (subtracted bg_ratio p b) (subtracted bg_ratio p' b').
Proof.
  unfold strip. intros H1 H2. injection H1 as V1 G1 X1. injection H2 as V2 G2 X2. unfold sim, subtracted, m_equal_binning.
  rewrite V1, V2, G1, G2, X1, X2. destruct (negb _); [reflexivity|]. destruct (_ && _); [|reflexivity].
  cbn [rbind rmap]. unfold strip, remove_negative, with_values. cbn [values Eg Ex]. congruence.
Qed.

Hypothesis I_prompt : ignores_state act_prompt.
Hypothesis I_bg : ignores_state act_bg.
Hypothesis I_raw : ignores_state act_raw.
Hypothesis I_unf : ignores_state act_unf.
Hypothesis I_fg : ignores_state act_fg.
Hypothesis I_unfolder : ignores_state unfolder.
Hypothesis I_fgm : ignores_state fg_method.

Definition paired_at (i : nat) (d : fdir) : Prop := has_bg bg0 = true -> (d (Member KPrompt i) = None <-> d (Member KBg i) = None).

Lemma resume_raw i d : good i d -> paired_at i d ->
  always (good i) (raw_step seed meth regen i) d /\
  exists d' res, run (raw_step seed meth regen i) d = (d', res) /\
    (forall q, q <> Member KRaw i -> q <> Member KPrompt i -> q <> Member KBg i -> d' q = d q) /\
    (torn_at i d' -> torn_at i d) /\
    outcome (torn_at i d) res (do r <- raw_member i ;; act_raw r) /\
    (forall a w, res = Ok a -> raw_member i = Ok w -> d' (Member KRaw i) = Some (FMat (strip w))) /\
    (has_bg bg0 = true -> forall a, res = Ok a -> d' (Member KPrompt i) <> None /\ d' (Member KBg i) <> None).
Proof.
  intros G P. unfold EnsembleModel.raw_step. unfold paired_at in P.
  destruct (has_bg bg0) eqn:HB.
  - specialize (P eq_refl).
    assert (RW : raw_member i = (do pg <- prompt_member i ;; do p <- act_prompt (fst pg) ;; do bg <- draw meth KBg (snd pg) ;; do b <- act_bg (fst bg) ;; do r <- subtracted bg_ratio p b ;; checked r))
      by (unfold EnsembleSpec.raw_member; rewrite HB; reflexivity).
    assert (BW : bg_member i = (do pg <- prompt_member i ;; do _ <- act_prompt (fst pg) ;; draw meth KBg (snd pg))) by reflexivity.
    (* the last part, common to all cases *)
    assert (LAST : forall p b d2, good i d2 -> sim (do r <- subtracted bg_ratio p b ;; checked r) (raw_member i) ->
      (forall q, q <> Member KRaw i -> q <> Member KPrompt i -> q <> Member KBg i -> d2 q = d q) ->
      (d2 (Member KRaw i) = d (Member KRaw i)) -> (torn_at i d2 -> torn_at i d) -> (d2 (Member KPrompt i) <> None /\ d2 (Member KBg i) <> None) ->
      always (good i) (subtract_bg regen i p b) d2 /\
      exists d' res, run (subtract_bg regen i p b) d2 = (d', res) /\
        (forall q, q <> Member KRaw i -> q <> Member KPrompt i -> q <> Member KBg i -> d' q = d q) /\
        (torn_at i d' -> torn_at i d) /\ outcome (torn_at i d) res (do r <- raw_member i ;; act_raw r) /\
        (forall a w, res = Ok a -> raw_member i = Ok w -> d' (Member KRaw i) = Some (FMat (strip w))) /\
        (true = true -> forall a, res = Ok a -> d' (Member KPrompt i) <> None /\ d' (Member KBg i) <> None)).
    { intros p b d2 G2 S2 F2 E2 T2 NN. destruct (resume_stage i KRaw (subtracted bg_ratio p b) act_raw d2 I_raw G2 S2) as [AW (d3 & res & R3 & F3 & T3 & O3 & W3)].
      split; [exact AW|]. exists d3, res. split; [exact R3|]. split; [intros q H1 H2 H3; rewrite F3 by exact H1; now apply F2|]. split; [|split].
      - intros [k Hk]. destruct (key_eqb_spec (Member k i) (Member KRaw i)) as [E|N].
        + injection E as ->. exists KRaw. rewrite <- E2. now apply T3.
        + apply T2. exists k. rewrite <- F3; assumption.
      - destruct O3 as [O3|[O3 O3']]; [now left|right]. split; [|exact O3']. exists KRaw. now rewrite <- E2.
      - split; [exact W3|]. intros _ a _. rewrite !F3 by discriminate. exact NN. }
    assert (CS : (absent d (Member KPrompt i) /\ absent d (Member KBg i)) \/ (regen = false /\ exists fp fb, d (Member KPrompt i) = Some fp /\ d (Member KBg i) = Some fb)).
    { unfold absent. destruct regen; [left; split; now left|]. destruct (d (Member KPrompt i)) as [fp|] eqn:DP.
      - destruct (d (Member KBg i)) as [fb|]; [right; split; [reflexivity|now exists fp, fb]|]. destruct P as [_ P]. specialize (P eq_refl). discriminate.
      - left. split; [now right|]. right. now apply P. }
    destruct CS as [[A1 A2]|(RG & fp & fb & DP & DB)].
    + (* both are drawn *)
      destruct (resume_perturbed_absent i KPrompt (rng_of seed i) d G A1) as [AW1 (d1 & R1 & F1 & G1 & T1 & W1)].
      { intros mg H. cbn [EnsembleSpec.member_file]. unfold EnsembleSpec.prompt_member. rewrite H. reflexivity. }
      unfold EnsembleSpec.prompt_member in *. rewrite run_pbind.
      assert (AL : forall f : matrix * rng -> fprog matrix, (forall d' a, run (perturbed meth regen i KPrompt (rng_of seed i)) d = (d', Ok a) -> always (good i) (f a) d') -> always (good i) (pbind (perturbed meth regen i KPrompt (rng_of seed i)) f) d)
        by (intros f; apply always_pbind; exact AW1).
      rewrite R1 in *. destruct (draw meth KPrompt (rng_of seed i)) as [[p g1]|e] eqn:D.
      2:{ cbn [rbind]. split; [apply AL; discriminate|]. exists d1, (Raise e). split; [reflexivity|]. split; [intros q _ Hq _; now apply F1|]. split; [exact T1|]. split; [|split; discriminate]. left. rewrite RW. reflexivity. }
      cbn [rbind fst snd EnsembleModel.action_of] in *. destruct (act_prompt p) as [p2|e] eqn:AP; cbn [rmap rbind] in *.
      2:{ split; [apply AL; discriminate|]. exists d1, (Raise e). split; [reflexivity|]. split; [intros q _ Hq _; now apply F1|]. split; [exact T1|]. split; [|split; discriminate]. left. rewrite RW. reflexivity. }
      cbn [fst snd].
      destruct (resume_perturbed_absent i KBg g1 d1 G1) as [AW2 (d2 & R2 & F2 & G2 & T2 & W2)].
      { apply (absent_frame d); [apply F1; discriminate|exact A2]. }
      { intros mg H. cbn [EnsembleSpec.member_file]. rewrite BW, H. reflexivity. }
      rewrite run_pbind.
      assert (AL2 : forall f : matrix * rng -> fprog matrix, (forall d' a, run (perturbed meth regen i KBg g1) d1 = (d', Ok a) -> always (good i) (f a) d') -> always (good i) (pbind (perturbed meth regen i KBg g1) f) d1)
        by (intros f; apply always_pbind; exact AW2).
      rewrite R2 in *. destruct (draw meth KBg g1) as [[b g2]|e] eqn:D2.
      2:{ cbn [rbind]. split; [apply AL; intros d' a H; injection H as <- <-; cbn [fst snd]; apply AL2; discriminate|]. exists d2, (Raise e). split; [reflexivity|]. split; [intros q H1 H2 H3; rewrite F2, F1; auto|]. split; [auto|]. split; [|split; discriminate]. left. rewrite RW. reflexivity. }
      cbn [rbind fst snd EnsembleModel.action_of] in *. destruct (act_bg b) as [b2|e] eqn:AB; cbn [rmap rbind] in *.
      2:{ split; [apply AL; intros d' a H; injection H as <- <-; cbn [fst snd]; apply AL2; discriminate|]. exists d2, (Raise e). split; [reflexivity|]. split; [intros q H1 H2 H3; rewrite F2, F1; auto|]. split; [auto|]. split; [|split; discriminate]. left. rewrite RW. reflexivity. }
      cbn [fst snd].
      destruct (LAST p2 b2 d2 G2) as [L1 L2].
      { rewrite RW. reflexivity. }
      { intros q H1 H2 H3. rewrite F2, F1; auto. }
      { rewrite F2, F1 by discriminate. reflexivity. }
      { auto. }
      { rewrite (W2 _ eq_refl), F2, (W1 _ eq_refl) by discriminate. split; discriminate. }
      split; [|exact L2]. apply AL; intros d' a H; injection H as <- <-; cbn [fst snd]. apply AL2. intros d' a H; injection H as <- <-. exact L1.
    + (* both are read *)
      destruct (resume_perturbed_present i KPrompt (rng_of seed i) d fp G RG DP) as [AW1 (r1 & R1 & C1)].
      assert (AL : forall f : matrix * rng -> fprog matrix, (forall d' a, run (perturbed meth regen i KPrompt (rng_of seed i)) d = (d', Ok a) -> always (good i) (f a) d') -> always (good i) (pbind (perturbed meth regen i KPrompt (rng_of seed i)) f) d)
        by (intros f; apply always_pbind; exact AW1).
      rewrite run_pbind. rewrite R1 in *. destruct C1 as [[TP ->]|(w & W & FW & ->)].
      { split; [apply AL; discriminate|]. exists d, (Raise ValueError). split; [reflexivity|]. split; [reflexivity|]. split; [auto|]. split; [|split; discriminate]. right. split; [now exists KPrompt|now exists ValueError]. }
      cbn [EnsembleSpec.member_file EnsembleModel.action_of] in *. destruct (prompt_member i) as [[p g1]|e] eqn:PM; [|discriminate]. cbn in W. injection W as ->.
      pose proof (I_prompt w) as IP. cbn [rbind fst snd] in RW, BW.
      destruct (act_prompt (strip w)) as [p2|e] eqn:AP; cbn [rmap rbind] in *.
      2:{ split; [apply AL; discriminate|]. exists d, (Raise e). split; [reflexivity|]. split; [reflexivity|]. split; [auto|]. split; [|split; discriminate]. left. rewrite RW.
          destruct (act_prompt w) as [x|e'] eqn:AW; [discriminate|]. injection IP as ->. reflexivity. }
      destruct (act_prompt w) as [p3|e'] eqn:AW'; [|discriminate]. injection IP as IP1 IP2 IP3. assert (SP : strip p2 = strip p3) by (unfold strip; congruence).
      cbn [fst snd rbind] in *.
      destruct (resume_perturbed_present i KBg (rng_of seed i) d fb G RG DB) as [AW2 (r2 & R2 & C2)].
      assert (AL2 : forall f : matrix * rng -> fprog matrix, (forall d' a, run (perturbed meth regen i KBg (rng_of seed i)) d = (d', Ok a) -> always (good i) (f a) d') -> always (good i) (pbind (perturbed meth regen i KBg (rng_of seed i)) f) d)
        by (intros f; apply always_pbind; exact AW2).
      rewrite run_pbind. rewrite R2 in *. destruct C2 as [[TB ->]|(wb & WB & FWB & ->)].
      { split; [apply AL; intros d' a H; injection H as <- <-; cbn [fst snd]; apply AL2; discriminate|]. exists d, (Raise ValueError). split; [reflexivity|]. split; [reflexivity|]. split; [auto|]. split; [|split; discriminate]. right. split; [now exists KBg|now exists ValueError]. }
      cbn [EnsembleSpec.member_file EnsembleModel.action_of] in *. rewrite BW in WB.
      destruct (draw meth KBg g1) as [[b g2]|e]; [|discriminate]. cbn in WB. injection WB as ->. cbn [rbind fst] in RW.
      pose proof (I_bg wb) as IB.
      destruct (act_bg (strip wb)) as [b2|e] eqn:AB; cbn [rmap rbind] in *.
      2:{ split; [apply AL; intros d' a H; injection H as <- <-; cbn [fst snd]; apply AL2; discriminate|]. exists d, (Raise e). split; [reflexivity|]. split; [reflexivity|]. split; [auto|]. split; [|split; discriminate]. left. rewrite RW.
          destruct (act_bg wb) as [x|e'] eqn:AW; [discriminate|]. injection IB as ->. reflexivity. }
      destruct (act_bg wb) as [b3|e'] eqn:AB'; [|discriminate]. injection IB as IB1 IB2 IB3. assert (SB : strip b2 = strip b3) by (unfold strip; congruence).
      cbn [fst snd rbind] in *.
      destruct (LAST p2 b2 d G) as [L1 L2].
      { rewrite RW. apply (sim_bind checked); [apply checked_ignores|]. now apply subtracted_sim. }
      { reflexivity. }
      { reflexivity. }
      { auto. }
      { rewrite DP, DB. split; discriminate. }
      split; [|exact L2]. apply AL; intros d' a H; injection H as <- <-; cbn [fst snd]. apply AL2. intros d' a H; injection H as <- <-. exact L1.
  - clear P. assert (RW : raw_member i = rmap fst (draw meth KRaw (rng_of seed i))) by (unfold EnsembleSpec.raw_member; rewrite HB; reflexivity).
    assert (CS : absent d (Member KRaw i) \/ (regen = false /\ exists f, d (Member KRaw i) = Some f)).
    { unfold absent. destruct regen; [left; now left|]. destruct (d (Member KRaw i)) as [f|]; [right; split; [reflexivity|now exists f]|left; now right]. }
    destruct CS as [A1|(RG & f & DR)].
    + destruct (resume_perturbed_absent i KRaw (rng_of seed i) d G A1) as [AW1 (d1 & R1 & F1 & G1 & T1 & W1)].
      { intros mg H. cbn [EnsembleSpec.member_file]. rewrite RW, H. reflexivity. }
      split; [apply always_pbind; [exact AW1|]; intros d' a H; apply always_pret; exact (always_good_end i _ d d' _ AW1 H)|].
      rewrite run_pbind, R1. rewrite RW in *. destruct (draw meth KRaw (rng_of seed i)) as [[p g1]|e]; cbn [rbind rmap fst snd EnsembleModel.action_of] in *.
      * exists d1, (act_raw p). split; [destruct (act_raw p); reflexivity|]. split; [intros q Hq _ _; now apply F1|]. split; [exact T1|]. split; [left; reflexivity|].
        split; [|discriminate]. intros a w _ H. injection H as <-. exact (W1 _ eq_refl).
      * exists d1, (Raise e). split; [reflexivity|]. split; [intros q Hq _ _; now apply F1|]. split; [exact T1|]. split; [left; reflexivity|split; discriminate].
    + destruct (resume_perturbed_present i KRaw (rng_of seed i) d f G RG DR) as [AW1 (r1 & R1 & C1)].
      split; [apply always_pbind; [exact AW1|]; intros d' a H; apply always_pret; exact (always_good_end i _ d d' _ AW1 H)|].
      rewrite run_pbind, R1. destruct C1 as [[TP ->]|(w & W & FW & ->)].
      * exists d, (Raise ValueError). split; [reflexivity|]. split; [reflexivity|]. split; [auto|]. split; [|split; discriminate]. right. split; [now exists KRaw|now exists ValueError].
      * cbn [EnsembleSpec.member_file EnsembleModel.action_of] in *. exists d, (act_raw (strip w)). split; [destruct (act_raw (strip w)); reflexivity|]. split; [reflexivity|]. split; [auto|]. split.
        -- left. rewrite W. cbn [rbind]. unfold sim. symmetry. apply I_raw.
        -- split; [|discriminate]. intros a w' _ H. rewrite W in H. injection H as <-. exact FW.
Qed.

Lemma resume_step i d : good i d -> paired_at i d ->
  always (good i) (ens_step seed meth regen i) d /\
  (~ torn_at i d -> snd (run (ens_step seed meth regen i) d) = member i /\
  (forall t, member i = Ok t -> (forall k m, relevant k -> member_file k i = Ok m -> fst (run (ens_step seed meth regen i) d) (Member k i) = Some (FMat (strip m))) /\
     (i = 0 -> forall f f0, fg_member 0 = Ok f -> act_fg f = Ok f0 -> fst (run (ens_step seed meth regen i) d) (Top TFirstgen) = Some (FMat (strip f0)) /\ fits f0 = true))).
Proof.
  intros G P. unfold EnsembleModel.ens_step, EnsembleSpec.member.
  destruct (resume_raw i d G P) as [AW1 (d1 & res1 & R1 & F1 & T1 & O1 & W1 & N1)].
  pose proof (always_good_end i _ d d1 _ AW1 R1) as G1.
  assert (AL1 : forall f : matrix -> fprog (arr2 * arr2 * arr2), (forall a, res1 = Ok a -> always (good i) (f a) d1) -> always (good i) (pbind (raw_step seed meth regen i) f) d).
  { intros f H. apply always_pbind; [exact AW1|]. intros d' a Ha. rewrite R1 in Ha. injection Ha as <- Ha. now apply H. }
  rewrite run_pbind, R1. destruct res1 as [r|e].
  2:{ split; [apply AL1; discriminate|]. intros NT. cbn [snd]. destruct O1 as [O1|[T _]]; [|contradiction].
      symmetry in O1. apply sim_raise in O1. destruct (raw_member i) as [x|e']; cbn [rbind] in *; [rewrite O1; cbn [rbind]|injection O1 as ->]; (split; [reflexivity|discriminate]). }
  destruct O1 as [O1|[_ (e & X)]]; [|discriminate].
  symmetry in O1. apply sim_ok in O1 as (r' & ER & SR). destruct (raw_member i) as [rm|] eqn:RM; [|discriminate]. cbn [rbind] in ER.
  specialize (W1 r rm eq_refl eq_refl). cbn [rbind]. rewrite ER. cbn [rbind].
  (* unfold *)
  assert (EU : unf_member i = do u <- unfolder r' ;; checked u) by (unfold EnsembleSpec.unf_member; rewrite RM; cbn [rbind]; rewrite ER; reflexivity).
  assert (SU : sim (do m <- unfolder r ;; checked m) (member_file KUnf i)).
  { cbn [EnsembleSpec.member_file]. rewrite EU. apply sim_bind; [apply checked_ignores|]. unfold sim. rewrite (I_unfolder r), (I_unfolder r'), SR. reflexivity. }
  destruct (resume_stage i KUnf (unfolder r) act_unf d1 I_unf G1 SU) as [AW2 (d2 & res2 & R2 & F2 & T2 & O2 & W2)].
  pose proof (always_good_end i _ d1 d2 _ AW2 R2) as G2. fold (unfold_step regen i r) in AW2, R2.
  assert (AL2 : forall f : matrix -> fprog (arr2 * arr2 * arr2), (forall a, res2 = Ok a -> always (good i) (f a) d2) -> always (good i) (pbind (unfold_step regen i r) f) d1).
  { intros f H. apply always_pbind; [exact AW2|]. intros d' a Ha. rewrite R2 in Ha. injection Ha as <- Ha. now apply H. }
  assert (TT2 : torn_at i d2 -> torn_at i d).
  { intros [k Hk]. apply T1. destruct (key_eqb_spec (Member k i) (Member KUnf i)) as [E|N]; [injection E as ->; exists KUnf; now apply T2|exists k; now rewrite <- F2]. }
  rewrite run_pbind, R2. cbn [EnsembleSpec.member_file] in O2, W2. destruct res2 as [u|e].
  2:{ split; [apply AL1; intros a Ha; injection Ha as <-; apply AL2; discriminate|]. intros NT. cbn [snd]. destruct O2 as [O2|[T _]]; [|exfalso; apply NT, T1; now exists KUnf].
      symmetry in O2. apply sim_raise in O2. destruct (unf_member i) as [x|e']; cbn [rbind] in *; [rewrite O2; cbn [rbind]|injection O2 as ->]; (split; [reflexivity|discriminate]). }
  destruct O2 as [O2|[_ (e & X)]]; [|discriminate].
  symmetry in O2. apply sim_ok in O2 as (u' & EU' & SU'). destruct (unf_member i) as [um|] eqn:UM; [|discriminate]. cbn [rbind] in EU'.
  specialize (W2 u um eq_refl eq_refl). cbn [rbind]. rewrite EU'. cbn [rbind].
  (* first generation *)
  assert (EF : fg_member i = do u <- fg_method u' ;; checked u) by (unfold EnsembleSpec.fg_member; rewrite UM; cbn [rbind]; rewrite EU'; reflexivity).
  assert (SF : sim (do m <- fg_method u ;; checked m) (member_file KFg i)).
  { cbn [EnsembleSpec.member_file]. rewrite EF. apply sim_bind; [apply checked_ignores|]. unfold sim. rewrite (I_fgm u), (I_fgm u'), SU'. reflexivity. }
  destruct (resume_stage i KFg (fg_method u) act_fg d2 I_fg G2 SF) as [AW3 (d3 & res3 & R3 & F3 & T3 & O3 & W3)].
  pose proof (always_good_end i _ d2 d3 _ AW3 R3) as G3. fold (first_generation regen i u) in AW3, R3.
  assert (AL3 : forall f : matrix -> fprog (arr2 * arr2 * arr2), (forall a, res3 = Ok a -> always (good i) (f a) d3) -> always (good i) (pbind (first_generation regen i u) f) d2).
  { intros f H. apply always_pbind; [exact AW3|]. intros d' a Ha. rewrite R3 in Ha. injection Ha as <- Ha. now apply H. }
  assert (TT3 : torn_at i d3 -> torn_at i d).
  { intros [k Hk]. apply TT2. destruct (key_eqb_spec (Member k i) (Member KFg i)) as [E|N]; [injection E as ->; exists KFg; now apply T3|exists k; now rewrite <- F3]. }
  rewrite run_pbind, R3. cbn [EnsembleSpec.member_file] in O3, W3. destruct res3 as [f|e].
  2:{ split; [apply AL1; intros a Ha; injection Ha as <-; apply AL2; intros a Ha; injection Ha as <-; apply AL3; discriminate|]. intros NT. cbn [snd]. destruct O3 as [O3|[T _]]; [|exfalso; apply NT, TT2; now exists KFg].
      symmetry in O3. apply sim_raise in O3. destruct (fg_member i) as [x|e']; cbn [rbind] in *; [rewrite O3; cbn [rbind]|injection O3 as ->]; (split; [reflexivity|discriminate]). }
  destruct O3 as [O3|[_ (e & X)]]; [|discriminate].
  symmetry in O3. apply sim_ok in O3 as (f' & EF' & SF'). destruct (fg_member i) as [fm|] eqn:FM; [|discriminate]. cbn [rbind] in EF'.
  specialize (W3 f fm eq_refl eq_refl). cbn [rbind]. rewrite EF'. cbn [rbind].
  unfold strip in SR, SU', SF'. injection SR as SR _ _. injection SU' as SU' _ _. injection SF' as SF1 SF2 SF3.
  assert (FE : fits f = fits f') by (unfold fits; rewrite SF1, SF2, SF3; reflexivity).
  assert (FILES : ~ torn_at i d -> forall k m, relevant k -> member_file k i = Ok m -> d3 (Member k i) = Some (FMat (strip m))).
  { intros NT k m Hk Hm. assert (NN : d3 (Member k i) <> None).
    { destruct k.
      - rewrite F3, F2, W1 by discriminate. discriminate.
      - rewrite F3, F2 by discriminate. now apply (N1 Hk r eq_refl).
      - rewrite F3, F2 by discriminate. now apply (N1 Hk r eq_refl).
      - rewrite F3, W2 by discriminate. discriminate.
      - rewrite W3. discriminate. }
    pose proof (G3 k) as GK. destruct (d3 (Member k i)) as [[|x]|] eqn:DX; [|cbn in GK|contradiction].
    - exfalso. apply NT, TT3. now exists k.
    - destruct GK as (w & W & ->). congruence. }
  unfold shapes_agree. rewrite SR, SU', SF1.
  assert (G4 : good i (dset (dset d3 (Top TFirstgen) FTorn) (Top TFirstgen) (FMat (strip f)))) by (now apply good_top, good_top).
  split.
  - apply AL1; intros a Ha; injection Ha as <-. apply AL2; intros a Ha; injection Ha as <-. apply AL3; intros a Ha; injection Ha as <-.
    apply always_pbind.
    + destruct (Nat.eqb i 0); [|now apply always_pret]. unfold save. destruct (fits f); [|now apply always_pret].
      constructor; [exact G3|]. constructor; [now apply good_top|]. now constructor.
    + intros d' a Ha. apply always_pret. destruct (Nat.eqb i 0).
      * rewrite run_save in Ha. unfold checked in Ha. destruct (fits f); [|discriminate]. injection Ha as <- _. exact G4.
      * cbn [pret Conc.run] in Ha. injection Ha as <- _. exact G3.
  - intros NT. specialize (FILES NT). rewrite run_pbind. destruct (Nat.eqb_spec i 0) as [E0|N0].
    + rewrite run_save. unfold checked. rewrite FE. destruct (fits f') eqn:FT; [|cbn [rbind]; split; [reflexivity|discriminate]]. cbn [rbind pret Conc.run fst snd].
      split; [reflexivity|]. intros t _. split.
      * intros k m Hk Hm. rewrite saved_ne by discriminate. now apply FILES.
      * intros _ f1 f2 H1 H2. rewrite <- E0, FM in H1. injection H1 as <-. rewrite EF' in H2. injection H2 as <-. split; [|exact FT].
        rewrite saved_eq. unfold strip. congruence.
    + cbn [rbind pret Conc.run fst snd]. split; [reflexivity|]. intros t _. split; [exact FILES|]. intros E0; contradiction.
Qed.
End Fresh.
End Ensemble.
