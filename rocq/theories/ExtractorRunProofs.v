From Verif Require Import PyBase Axis MatrixModel ArithModel Conc ConcProofs ExtractorModel ExtractorSpec.

Lemma ekey_eqb_spec a b : BoolSpec (a = b) (a <> b) (ekey_eqb a b).
Proof.
  destruct a as [i|i], b as [j|j]; cbn [ekey_eqb]; try (constructor; congruence);
    destruct (Nat.eqb_spec i j) as [->|NE]; constructor; congruence.
Qed.
Local Notation edir := (dir ekey efile).
Local Notation run := (run ekey_eqb).
Local Notation dset := (dset ekey_eqb).
Lemma edset_eq (d : edir) k f : dset d k f k = Some f.
Proof. unfold Conc.dset. destruct (ekey_eqb_spec k k); congruence. Qed.
Lemma edset_ne (d : edir) k f q : q <> k -> dset d k f q = d q.
Proof. intros N. unfold Conc.dset. destruct (ekey_eqb_spec q k); congruence. Qed.

Section Runs.
Variable sqrtq : Qc -> Qc.
Variable twopi : Qc.
Variable bsfg : list Qc -> list Qc.
Variable rng : Type.
Variable seeded : Z -> rng.
Variable uniform : rng -> list Qc -> list Qc -> list Qc * rng.
Variable minimize : (list Qc -> option Qc) -> list Qc -> list Qc.
Variables (randomize extend : bool).
Variable resolution_Ex : Qc.
Variable self_x0 : x0_arg.
Variable fg : nat -> matrix.
Variable std_fg : matrix.
Variable trap : option Qc -> matrix -> result matrix.
Local Notation extract := (extract sqrtq twopi bsfg rng uniform minimize randomize extend resolution_Ex self_x0 fg std_fg trap).
Local Notation extract_members := (extract_members sqrtq twopi bsfg rng uniform minimize randomize extend resolution_Ex self_x0 fg std_fg trap).
Local Notation standard := (standard sqrtq twopi bsfg rng seeded uniform minimize randomize extend resolution_Ex self_x0 fg std_fg trap).
Local Notation fresh := (fresh sqrtq twopi bsfg rng uniform minimize randomize extend resolution_Ex self_x0 fg std_fg trap).
Local Notation runs := (runs sqrtq twopi bsfg rng seeded uniform minimize randomize extend resolution_Ex self_x0 fg std_fg trap).

Definition put (d : edir) (i : nat) (p : evec * evec) : edir :=
  dset (dset (dset (dset d (KNld i) ETorn) (KNld i) (EVec (fst p))) (KGsf i) ETorn) (KGsf i) (EVec (snd p)).
Lemma put_nld d i p : put d i p (KNld i) = Some (EVec (fst p)).
Proof. unfold put. rewrite !edset_ne by congruence. apply edset_eq. Qed.
Lemma put_gsf d i p : put d i p (KGsf i) = Some (EVec (snd p)).
Proof. unfold put. apply edset_eq. Qed.
Lemma put_other d i p k : k <> KNld i -> k <> KGsf i -> put d i p k = d k.
Proof. intros A B. unfold put. now rewrite !edset_ne. Qed.

(* one member that has to be computed *)
Lemma run_compute regen i t st acc d : regen = true \/ d (KNld i) = None \/ d (KGsf i) = None ->
  run (extract_members regen (i :: t) st acc) d =
  match extract i st with
  | (st', Raise e) => (d, (snd st', Raise e))
  | (st', Ok p) => run (extract_members regen t st' (acc ++ [p])) (put d i p)
  end.
Proof.
  intros H. cbn [ExtractorModel.extract_members Conc.run].
  assert (C : forall (q : prog ekey efile (option Qc * result (list (evec * evec)))), 
    q = match extract i st with (st', Raise e) => PRet (snd st', Raise e)
        | (st', Ok (vn, vg)) => save_vec (KNld i) vn (save_vec (KGsf i) vg (extract_members regen t st' (acc ++ [(vn, vg)]))) end ->
    run q d = match extract i st with (st', Raise e) => (d, (snd st', Raise e)) | (st', Ok p) => run (extract_members regen t st' (acc ++ [p])) (put d i p) end).
  { intros q ->. destruct (extract i st) as [st' [[vn vg]|e]]; reflexivity. }
  destruct (d (KNld i)) as [fa|] eqn:EA; [|now apply C]. cbn [Conc.run].
  destruct (d (KGsf i)) as [fb|] eqn:EB; [|now apply C].
  destruct regen; [now apply C|]. destruct H as [H|[H|H]]; discriminate.
Qed.
Lemma run_loaded i t st acc d vn vg : d (KNld i) = Some (EVec vn) -> d (KGsf i) = Some (EVec vg) ->
  run (extract_members false (i :: t) st acc) d = run (extract_members false t st (acc ++ [(vn, vg)])) d.
Proof. intros A B. cbn [ExtractorModel.extract_members Conc.run]. rewrite A. cbn [Conc.run]. now rewrite B. Qed.

(* all members computed *)
Lemma run_fresh regen members : forall st acc d, NoDup members ->
  regen = true \/ (forall i, In i members -> d (KNld i) = None \/ d (KGsf i) = None) ->
  exists d' c', run (extract_members regen members st acc) d = (d', (c', do l <- fresh members st ;; Ok (acc ++ l))) /\
  (forall k, (forall i, In i members -> k <> KNld i /\ k <> KGsf i) -> d' k = d k) /\
  (forall l, fresh members st = Ok l -> length l = length members /\
     forall n i p, nth_error members n = Some i -> nth_error l n = Some p -> d' (KNld i) = Some (EVec (fst p)) /\ d' (KGsf i) = Some (EVec (snd p))).
Proof.
  induction members as [|i t IH]; intros st acc d ND H.
  - cbn. exists d, (snd st). rewrite app_nil_r. split; [reflexivity|]. split; [reflexivity|]. intros l X. injection X as <-. split; [reflexivity|]. intros [|n] i p A B; discriminate.
  - rewrite run_compute by (destruct H as [H|H]; [now left|right; apply H; now left]).
    cbn [ExtractorSpec.fresh]. destruct (extract i st) as [st' [p|e]] eqn:E.
    + inversion ND as [|? ? NI ND']; subst. destruct (IH st' (acc ++ [p]) (put d i p) ND') as (d' & c' & R & F & G).
      { destruct H as [H|H]; [now left|]. right. intros j Hj. assert (j <> i) by congruence. rewrite !put_other by congruence. apply H. now right. }
      exists d', c'. rewrite R. split; [|split].
      * destruct (fresh t st') as [l|e]; cbn [rbind]; [|reflexivity]. now rewrite <- app_assoc.
      * intros k Hk. rewrite F by (intros j Hj; apply Hk; now right). apply put_other; apply Hk; now left.
      * intros l X. destruct (fresh t st') as [l'|e] eqn:EF; cbn [rbind] in X; [|discriminate]. injection X as <-. destruct (G l' eq_refl) as [G1 G2].
        split; [cbn; congruence|]. intros [|n] j q A B; cbn in A, B; [|now apply (G2 n)]. injection A as <-. injection B as <-.
        rewrite !F by (intros j Hj; split; congruence). now rewrite put_nld, put_gsf.
    + exists d, (snd st'). split; [reflexivity|]. split; [reflexivity|]. intros l X. discriminate.
Qed.
(* all members loaded *)
Lemma run_cached members : forall st acc d l, length l = length members ->
  (forall n i p, nth_error members n = Some i -> nth_error l n = Some p -> d (KNld i) = Some (EVec (fst p)) /\ d (KGsf i) = Some (EVec (snd p))) ->
  run (extract_members false members st acc) d = (d, (snd st, Ok (acc ++ l))).
Proof.
  induction members as [|i t IH]; intros st acc d [|[vn vg] l] L H; try discriminate.
  - cbn. now rewrite app_nil_r.
  - destruct (H 0%nat i (vn, vg) eq_refl eq_refl) as [A B]. rewrite (run_loaded _ _ _ _ _ vn vg A B).
    rewrite (IH st _ d l); [now rewrite <- app_assoc|now injection L|]. intros n. apply (H (S n)).
Qed.

(* without random start values and with a trapezoid that ignores the curried limit *)
Section Plain.
Hypothesis plain_start : randomize = false.
Hypothesis plain_trap : forall c m, trap c m = trap None m.
Lemma start_plain g g' E m x0 : start_values bsfg rng uniform randomize self_x0 g E m x0 =
  rmap (fun p => (fst p, g)) (start_values bsfg rng uniform randomize self_x0 g' E m x0).
Proof.
  unfold start_values. rewrite plain_start. match goal with |- context [rbind ?r _] => destruct r as [x|] end; cbn [rbind]; [|reflexivity].
  destruct (negb _); reflexivity.
Qed.
Lemma decompose_plain g g' m s x0 :
  snd (decompose sqrtq twopi bsfg rng uniform minimize randomize extend resolution_Ex self_x0 g m s x0) =
  rmap (fun p => (fst p, g)) (snd (decompose sqrtq twopi bsfg rng uniform minimize randomize extend resolution_Ex self_x0 g' m s x0)).
Proof.
  unfold decompose. destruct (existsb _ _); [reflexivity|]. destruct s as [s|]; [|reflexivity]. destruct (existsb _ _); [reflexivity|].
  destruct (negb _); [reflexivity|]. destruct (norm_rows _ _ _) as [[v sv]|]; [|reflexivity]. cbn [snd]. unfold fit_normalized.
  destruct (nld_grid _ _) as [E|]; [|reflexivity]. cbn [rbind]. destruct (the_resolution _ _ _ _ _) as [res|]; [|reflexivity]. cbn [rbind].
  rewrite (start_plain g g'). destruct (start_values _ _ _ _ _ g' _ _ _) as [[x g1]|]; [|reflexivity]. cbn [rmap rbind fst].
  destruct (constraining_counts _ _ _ _) as [a b]. destruct (mask_nan _ b); [|reflexivity]. cbn [rbind]. destruct (mask_nan _ a); [|reflexivity]. cbn [rbind].
  destruct (mk_evec _ E); [|reflexivity]. cbn [rbind]. destruct (mk_evec _ _); reflexivity.
Qed.
Lemma extract_plain i st st' : snd (extract i st) = snd (extract i st').
Proof.
  destruct st as [g c], st' as [g' c']. unfold ExtractorModel.extract. rewrite (plain_trap c), (plain_trap c').
  destruct (trap None (fg i)) as [m|]; [|reflexivity].
  assert (forall c1 c2, snd (match trap c1 std_fg with
          | Raise e => ((g, c1), Raise e)
          | Ok s => match snd (decompose sqrtq twopi bsfg rng uniform minimize randomize extend resolution_Ex self_x0 g m (Some (values s)) XNone) with
              | Raise e => ((g, c1), Raise e) | Ok (vn, vg, g') => ((g', c1), Ok (vn, vg)) end end) =
        snd (match trap c2 std_fg with
          | Raise e => ((g', c2), Raise e)
          | Ok s => match snd (decompose sqrtq twopi bsfg rng uniform minimize randomize extend resolution_Ex self_x0 g' m (Some (values s)) XNone) with
              | Raise e => ((g', c2), Raise e) | Ok (vn, vg, g') => ((g', c2), Ok (vn, vg)) end end)) as X.
  { intros c1 c2. rewrite (plain_trap c1), (plain_trap c2). destruct (trap None std_fg) as [s|]; [|reflexivity].
    rewrite (decompose_plain g g'). destruct (snd (decompose sqrtq twopi bsfg rng uniform minimize randomize extend resolution_Ex self_x0 g' m (Some (values s)) XNone)) as [[[vn vg] g1]|]; reflexivity. }
  destruct (Nat.eqb i 0); [|apply X]. destruct (py_index (Eg m) (-1)); cbn [rmap]; [|reflexivity]. apply X.
Qed.
Variable st0 : rng * option Qc.
Definition mem (i : nat) : result (evec * evec) := snd (extract i st0).
Lemma fresh_plain members st : fresh members st = fresh members st0.
Proof.
  revert st. assert (forall st st', fresh members st = fresh members st') as X; [|intros; apply X].
  induction members as [|i t IH]; intros st st'; [reflexivity|]. cbn [ExtractorSpec.fresh]. pose proof (extract_plain i st st') as E.
  destruct (extract i st) as [a [p|e]], (extract i st') as [b [q|f]]; cbn [snd] in E; try discriminate; injection E as <-; [|reflexivity].
  now rewrite (IH a b).
Qed.
(* every complete file holds the member's result *)
Definition good (d : edir) : Prop := forall i,
  (forall v, d (KNld i) = Some (EVec v) -> exists p, mem i = Ok p /\ v = fst p) /\
  (forall v, d (KGsf i) = Some (EVec v) -> exists p, mem i = Ok p /\ v = snd p).
Lemma good_torn d k : good d -> good (dset d k ETorn).
Proof.
  intros G i. destruct (G i) as [A B]. split; intros v; unfold Conc.dset; match goal with |- context [ekey_eqb ?q k] => destruct (ekey_eqb_spec q k) end; auto; discriminate.
Qed.
Lemma good_nld d i p : good d -> mem i = Ok p -> good (dset d (KNld i) (EVec (fst p))).
Proof.
  intros G M j. destruct (G j) as [A B]. split; intros v; unfold Conc.dset; match goal with |- context [ekey_eqb ?q (KNld i)] => destruct (ekey_eqb_spec q (KNld i)) as [E|E] end; auto; [|discriminate].
  injection E as ->. intros X. injection X as <-. eauto.
Qed.
Lemma good_gsf d i p : good d -> mem i = Ok p -> good (dset d (KGsf i) (EVec (snd p))).
Proof.
  intros G M j. destruct (G j) as [A B]. split; intros v; unfold Conc.dset; match goal with |- context [ekey_eqb ?q (KGsf i)] => destruct (ekey_eqb_spec q (KGsf i)) as [E|E] end; auto; [discriminate|].
  injection E as ->. intros X. injection X as <-. eauto.
Qed.
Local Notation always := (always ekey efile (option Qc * result (list (evec * evec))) ekey_eqb).
Lemma always_members regen members : forall st acc d, good d -> always good (extract_members regen members st acc) d.
Proof.
  induction members as [|i t IH]; intros st acc d G; [now constructor|]. cbn [ExtractorModel.extract_members].
  assert (C : always good (match extract i st with (st', Raise e) => PRet (snd st', Raise e)
        | (st', Ok (vn, vg)) => save_vec (KNld i) vn (save_vec (KGsf i) vg (extract_members regen t st' (acc ++ [(vn, vg)]))) end) d).
  { pose proof (extract_plain i st st0) as X. fold (mem i) in X. destruct (extract i st) as [st' [[vn vg]|e]]; cbn [snd] in X; [|now constructor].
    symmetry in X. unfold save_vec. pose proof (good_torn d (KNld i) G) as G1. pose proof (good_nld _ i _ G1 X) as G2.
    pose proof (good_torn _ (KGsf i) G2) as G3. pose proof (good_gsf _ i _ G3 X) as G4. cbn [fst snd] in *.
    constructor; [exact G|]. constructor; [exact G1|]. constructor; [exact G2|]. constructor; [exact G3|]. apply IH. exact G4. }
  constructor; [exact G|]. destruct (d (KNld i)) as [fa|]; [|exact C]. constructor; [exact G|]. destruct (d (KGsf i)) as [fb|]; [|exact C].
  destruct regen; [exact C|]. destruct (read_vec fa); [|now constructor]. destruct (read_vec fb); [|now constructor]. now apply IH.
Qed.
Lemma runs_good seed c d : runs seed c d -> good d.
Proof.
  induction 1 as [d E|d regen size n _ IH]; [intros i; rewrite !E; split; discriminate|].
  apply (always_moves ekey efile _ ekey_eqb good). now apply always_members.
Qed.
Lemma resume_members members : forall st acc d, NoDup members -> good d -> readable d ->
  snd (snd (run (extract_members false members st acc) d)) = do l <- fresh members st0 ;; Ok (acc ++ l).
Proof.
  induction members as [|i t IH]; intros st acc d ND G R; [cbn; now rewrite app_nil_r|]. inversion ND as [|? ? NI ND']; subst.
  pose proof (extract_plain i st st0) as X. cbn [ExtractorSpec.fresh].
  assert (C : d (KNld i) = None \/ d (KGsf i) = None -> snd (snd (run (extract_members false (i :: t) st acc) d)) = do l <- (match extract i st0 with
              | (_, Raise e) => Raise e
              | (st', Ok p) => do l <- fresh t st' ;; Ok (p :: l) end) ;; Ok (acc ++ l)).
  { intros N. rewrite run_compute by now right. destruct (extract i st) as [st' [p|e]], (extract i st0) as [st1 [q|f]] eqn:E0; cbn [snd] in X; try discriminate;
      injection X as <-; [|reflexivity].
    assert (M : mem i = Ok p) by (unfold mem; now rewrite E0).
    rewrite IH; [|assumption|unfold put; auto using good_torn, good_nld, good_gsf|].
    - rewrite (fresh_plain t st1). destruct (fresh t st0); cbn [rbind]; [|reflexivity]. now rewrite <- app_assoc.
    - intros j f h. destruct (Nat.eq_dec j i) as [->|NJ].
      + rewrite put_nld, put_gsf. intros A B. injection A as <-. injection B as <-. split; discriminate.
      + rewrite !put_other by congruence. apply R. }
  destruct (d (KNld i)) as [fa|] eqn:EA; [|apply C; now left]. destruct (d (KGsf i)) as [fb|] eqn:EB; [|apply C; now right].
  clear C. destruct (R i fa fb EA EB) as [TA TB]. destruct fa as [|va]; [congruence|]. destruct fb as [|vb]; [congruence|].
  rewrite (run_loaded _ _ _ _ _ va vb EA EB). rewrite IH by assumption.
  destruct (proj1 (G i) va EA) as (p & M & ->). destruct (proj2 (G i) vb EB) as (p' & M' & ->). rewrite M in M'. injection M' as <-.
  unfold mem in M. destruct (extract i st0) as [st1 q] eqn:E0. cbn [snd] in M. subst q. rewrite (fresh_plain t st1).
  destruct (fresh t st0); cbn [rbind]; [|reflexivity]. rewrite <- app_assoc. now destruct p.
Qed.
End Plain.
End Runs.
