(* C68: normalising an ensemble: every member as if alone, whatever the processes. *)
From Verif Require Import PyBase NormStateModel EnsNormModel.

(* ------------------------------------------------ specification *)

(* A vector with its NaN bins removed *)
Definition without_nan (v : evec) : vec :=
  mkVec (map fst (filter (fun p => match snd p with Some _ => true | None => false end)
                         (combine (e_E v) (e_val v))))
        (somes (e_val v))
        (option_map (fun s => map fst (filter (fun p => match snd p with Some _ => true | None => false end)
                                              (combine s (e_val v)))) (e_std v))
        (e_MeV v).

Section Generic.
  Variables S D : Type.
  Variable norm : S -> vec -> vec -> S * result D.
  Variable draws : D -> option (Qc * Qc * nat).
  Variable z : nat -> Qc.
  Notation normalize := (normalize S D norm draws z).
  Notation pool_run := (pool_run S D norm draws z).
  Notation seq_run := (seq_run S D norm draws z).

  (* Member m normalised alone, by normalisers in state s *)
  Definition alone (s : S) (m : evec * evec) : result D :=
    snd (norm s (without_nan (fst m)) (without_nan (snd m))).

  Lemma drop_nan_filter A (vals : list (option Qc)) (l : list A) :
    drop_nan vals l =
    map fst (filter (fun p => match snd p with Some _ => true | None => false end) (combine l vals)).
  Proof.
    revert l. induction vals as [|[x|] vals IH]; intros [|a l]; simpl; try reflexivity.
    - now rewrite IH.
    - apply IH.
  Qed.
  Lemma somes_drop_nan vals : somes (drop_nan vals vals) = somes vals.
  Proof. induction vals as [|[x|] vals IH]; simpl; congruence. Qed.
  Lemma vec_of_cut v : vec_of (cut_nan v) = without_nan v.
  Proof.
    unfold vec_of, cut_nan, without_nan. simpl. rewrite somes_drop_nan, drop_nan_filter.
    destruct (e_std v); simpl; [rewrite drop_nan_filter|]; reflexivity.
  Qed.

  Lemma step_alone s p m :
    match alone s m with
    | Ok d => exists s', step S D norm draws z s p m
                 = (s', (cut_nan (fst m), cut_nan (snd m)), snd (sample D draws z p d),
                    Ok (fst (sample D draws z p d)))
              /\ s' = fst (norm s (without_nan (fst m)) (without_nan (snd m)))
    | Raise e => exists s', step S D norm draws z s p m
                 = (s', (cut_nan (fst m), cut_nan (snd m)), p, Raise e)
    end.
  Proof.
    unfold alone, step. simpl. rewrite !vec_of_cut.
    destruct (norm s (without_nan (fst m)) (without_nan (snd m))) as [s' [d|e]]; simpl.
    - destruct (sample D draws z p d) as [r p']. simpl. exists s'. split; reflexivity.
    - exists s'. reflexivity.
  Qed.
  Lemma sample_det p d : m_det (fst (sample D draws z p d)) = d.
  Proof. unfold sample. destruct (draws d) as [[[b u] n]|]; reflexivity. Qed.

  Lemma pool_members : forall ms s pos sched ds,
    length sched = length ms -> map (alone s) ms = map Ok ds ->
    exists xs, pool_run s pos sched ms = Ok xs /\ map m_det xs = ds.
  Proof.
    induction ms as [|m ms IH]; intros s pos [|w sched] ds LS A; simpl in *; try discriminate LS.
    - destruct ds; [|discriminate A]. exists []. now split.
    - destruct ds as [|d ds]; [discriminate A|]. simpl in A. injection A as A0 A1.
      pose proof (step_alone s (pos w) m) as ST. rewrite A0 in ST. destruct ST as (s' & ST & _).
      rewrite ST. simpl. injection LS as LS.
      destruct (IH s (fun v => if Nat.eqb v w then snd (sample D draws z (pos w) d) else pos v)
                  sched ds LS A1) as (xs & RX & DX).
      exists (fst (sample D draws z (pos w) d) :: xs). rewrite RX. split; [reflexivity|].
      simpl. now rewrite sample_det, DX.
  Qed.

  (* With a working pool every member gets the result it gets alone (levels, strength
     function, parameters), for every number of processes and every distribution of
     the members over them, and the extractor's vectors stay as they are. *)
  Theorem ensemble_pool : forall sched s p ms ds,
    length sched = length ms -> map (alone s) ms = map Ok ds ->
    exists xs, normalize (Some sched) s p ms = (s, ms, xs, Ok tt) /\ map m_det xs = ds.
  Proof.
    intros sched s p ms ds LS A. destruct (pool_members ms s (fun _ => p) sched ds LS A) as (xs & E & DX).
    exists xs. unfold EnsNormModel.normalize. rewrite E. now split.
  Qed.

  (* Without random samples (simultaneous normalisation) the results do not depend on
     the processes at all. *)
  Theorem ensemble_pool_simultan : forall sched1 sched2 s p ms ds,
    (forall d, draws d = None) -> length sched1 = length ms -> length sched2 = length ms ->
    map (alone s) ms = map Ok ds ->
    normalize (Some sched1) s p ms = normalize (Some sched2) s p ms.
  Proof.
    intros sched1 sched2 s p ms ds ND L1 L2 A.
    destruct (ensemble_pool sched1 s p ms ds L1 A) as (x1 & E1 & D1).
    destruct (ensemble_pool sched2 s p ms ds L2 A) as (x2 & E2 & D2).
    rewrite E1, E2.
    assert (NB : forall ms pos sched xs, pool_run s pos sched ms = Ok xs ->
                   xs = map (fun d => mkMR d None) (map m_det xs)).
    { clear -ND. induction ms as [|m ms IH]; intros pos [|w sched] xs; simpl; try discriminate.
      - intros Q. injection Q as <-. reflexivity.
      - intros Q. injection Q as <-. reflexivity.
      - pose proof (step_alone s (pos w) m) as ST. destruct (alone s m) as [d|e].
        + destruct ST as (s' & ST & _). rewrite ST. simpl.
          match goal with |- context [pool_run s ?q sched ms] =>
            destruct (pool_run s q sched ms) as [ys|] eqn:EP end; simpl; [|intros Q; discriminate Q].
          intros Q. injection Q as <-. simpl. rewrite sample_det, <- (IH _ _ _ EP).
          f_equal. unfold sample. rewrite ND. reflexivity.
        + destruct ST as (s' & ST). rewrite ST. simpl. intros Q. discriminate Q. }
    unfold EnsNormModel.normalize in E1, E2.
    destruct (pool_run s (fun _ => p) sched1 ms) as [y1|] eqn:P1.
    2: { pose proof (pool_members ms s (fun _ => p) sched1 ds L1 A) as (q & Q & _). congruence. }
    destruct (pool_run s (fun _ => p) sched2 ms) as [y2|] eqn:P2.
    2: { pose proof (pool_members ms s (fun _ => p) sched2 ds L2 A) as (q & Q & _). congruence. }
    injection E1 as <-. injection E2 as <-.
    rewrite (NB _ _ _ _ P1), (NB _ _ _ _ P2), D1, D2. reflexivity.
  Qed.

  (* A member that cannot be normalised makes the whole call raise its exception;
     earlier results are in self.res, nothing is reported as normalised. *)
  Theorem ensemble_member_raises : forall pool s p ms ms1 m ms2 e,
    ms = (ms1 ++ m :: ms2)%list ->
    (forall s', snd (norm s' (without_nan (fst m)) (without_nan (snd m))) = Raise e) ->
    exists e', snd (normalize pool s p ms) = Raise e'.
  Proof.
    intros pool s p ms ms1 m ms2 e -> H.
    assert (SQ : forall s p, exists e', snd (seq_run s p (ms1 ++ m :: ms2)%list) = Raise e').
    { clear s p. induction ms1 as [|m1 ms1 IH]; intros s p; simpl.
      - pose proof (step_alone s p m) as ST. unfold alone in ST. rewrite H in ST.
        destruct ST as (s' & ST). rewrite ST. simpl. eauto.
      - destruct (step S D norm draws z s p m1) as [[[s' m'] p'] [x|e1]] eqn:ES; [|simpl; eauto].
        destruct (IH s' p') as (e' & Q).
        destruct (seq_run s' p' (ms1 ++ m :: ms2)%list) as [[[s2 v2] xs] r]. simpl in *. eauto. }
    unfold EnsNormModel.normalize. destruct pool as [sched|]; [|apply SQ].
    assert (PR : forall pos sched, exists e', pool_run s pos sched (ms1 ++ m :: ms2)%list = Raise e').
    { clear p sched SQ. induction ms1 as [|m1 ms1 IH]; intros pos [|w sched]; simpl; eauto.
      - pose proof (step_alone s (pos w) m) as ST. unfold alone in ST. rewrite H in ST.
        destruct ST as (s' & ST). rewrite ST. simpl. eauto.
      - destruct (step S D norm draws z s (pos w) m1) as [[[s' m'] p'] [x|e1]]; simpl; [|eauto].
        edestruct IH as (e' & Q). rewrite Q. simpl. eauto. }
    destruct (PR (fun _ => p) sched) as (e' & Q). rewrite Q. apply SQ.
  Qed.

  (* One after the other: if the result of a member does not depend on which of the
     states reached the normalisers are in, every member gets the result it gets
     alone. *)
  Theorem ensemble_sequential_partial : forall (I : S -> Prop) s p ms ds,
    I s ->
    (forall s' m, In m ms -> I s' ->
       I (fst (norm s' (without_nan (fst m)) (without_nan (snd m)))) /\ alone s' m = alone s m) ->
    map (alone s) ms = map Ok ds ->
    exists s' xs, normalize None s p ms
                  = (s', map (fun m => (cut_nan (fst m), cut_nan (snd m))) ms, xs, Ok tt) /\
                  map m_det xs = ds.
  Proof.
    intros I s p ms ds I0 H A. unfold EnsNormModel.normalize.
    assert (G : forall s' p', I s' ->
      exists s2 xs, seq_run s' p' ms
        = (s2, map (fun m => (cut_nan (fst m), cut_nan (snd m))) ms, xs, Ok tt) /\ map m_det xs = ds).
    { clear I0 p. revert ds A. induction ms as [|m ms IH]; intros ds A s' p' I'; simpl in *.
      - destruct ds; [|discriminate A]. exists s', []. now split.
      - destruct ds as [|d ds]; [discriminate A|]. simpl in A. injection A as A0 A1.
        destruct (H s' m (or_introl eq_refl) I') as [J AL].
        pose proof (step_alone s' p' m) as ST. rewrite AL, A0 in ST. destruct ST as (s2 & ST & ->).
        rewrite ST.
        destruct (IH (fun t n K => H t n (or_intror K)) ds A1 _ (snd (sample D draws z p' d)) J)
          as (s3 & xs & E & DX).
        rewrite E. eexists. eexists. split; [reflexivity|]. simpl. now rewrite sample_det, DX. }
    apply G. exact I0.
  Qed.

  (* The samples of B of a member are B + u·z(k) with consecutive deviates of its
     process. *)
  Theorem sample_values : forall p d b u n k,
    draws d = Some (b, u, n) -> (k < n)%nat ->
    exists l, m_B (fst (sample D draws z p d)) = Some l /\ length l = n /\
              nth k l 0 = b + u * z (p + k)%nat.
  Proof.
    intros p d b u n k E K. unfold sample. rewrite E. simpl. eexists. split; [reflexivity|].
    rewrite map_length, seq_length. split; [reflexivity|].
    rewrite (nth_indep _ 0 (b + u * z (p + 0)%nat)) by (rewrite map_length, seq_length; exact K).
    rewrite (map_nth (fun k => b + u * z (p + k)%nat) (seq 0 n) 0%nat k), seq_nth by exact K.
    reflexivity.
  Qed.
End Generic.
Print Assumptions ensemble_pool.
Print Assumptions ensemble_pool_simultan.
Print Assumptions ensemble_member_raises.
Print Assumptions ensemble_sequential_partial.
Print Assumptions sample_values.

(* ------------------------------------------------ the stagewise normalisers *)
Section Stagewise.
  Variables L B P O : Type.
  Variable pars_set : P -> result unit.
  Variable fit : vec -> vec -> L -> L -> B -> P -> result (Qc * Qc * O).
  Variable transform : vec -> Qc -> Qc -> vec.
  Variable gfit : vec -> Qc -> nres O -> result Qc.
  Notation norm := (stage_norm L B P O pars_set fit transform gfit).
  Notation nst := (nst L B P O).
  Hypothesis transform_E : forall v A al, v_E (transform v A al) = v_E v.

  (* Members are alike: all with or all without standard deviation of the level
     density, and strength functions starting at the same energy *)
  Definition alike (fake : bool) (e0 : Qc) (m : evec * evec) : Prop :=
    match e_std (fst m) with None => true | Some _ => false end = fake /\
    exists rest, v_E (to_MeV (without_nan (snd m))) = e0 :: rest.

  (* States that behave like the start *)
  Definition like (s0 : nst) (fake : bool) (e0 : Qc) (s : nst * option Qc) : Prop :=
    n_low L B P O (fst s) = n_low L B P O s0 /\ n_high L B P O (fst s) = n_high L B P O s0 /\
    n_bounds L B P O (fst s) = n_bounds L B P O s0 /\ n_pars L B P O (fst s) = n_pars L B P O s0 /\
    option_map to_MeV (n_disc L B P O (fst s)) = option_map to_MeV (n_disc L B P O s0) /\
    (n_fake L B P O (fst s) = None \/ n_fake L B P O (fst s) = Some fake) /\
    (snd s = None \/ snd s = Some e0).

  Lemma to_MeV_twice v : to_MeV (to_MeV v) = to_MeV v.
  Proof. unfold to_MeV at 1. unfold to_MeV. destruct (v_MeV v) eqn:Q; simpl; now rewrite ?Q. Qed.

  Lemma like_step s0 fake e0 s m :
    like s0 fake e0 (s0, None) -> like s0 fake e0 s -> alike fake e0 m ->
    snd (norm s (without_nan (fst m)) (without_nan (snd m))) =
    snd (norm (s0, None) (without_nan (fst m)) (without_nan (snd m))) /\
    like s0 fake e0 (fst (norm s (without_nan (fst m)) (without_nan (snd m)))).
  Proof.
    intros (_ & _ & _ & _ & _ & LF0 & _) LK (AF & rest & AE).
    pose proof LK as (LL & LH & LB & LP & LD & LF & LR). simpl in LF0.
    unfold stage_norm, nld_compute.
    cbn [a_low a_high a_nld a_disc a_bounds a_pars fst snd].
    rewrite LL, LH, LB, LP.
    assert (ST : v_std (to_MeV (without_nan (fst m))) = None <-> fake = true).
    { unfold to_MeV, without_nan. simpl. rewrite <- AF.
      destruct (e_MeV (fst m)), (e_std (fst m)); simpl; split; congruence. }
    set (nv := without_nan (fst m)) in *. set (gv := without_nan (snd m)) in *.
    assert (FK : forall f, f = None \/ f = Some fake ->
      (match f with Some b => b | None => false end
       || match v_std (to_MeV nv) with None => true | Some _ => false end) = fake).
    { intros f [-> | ->]; destruct (v_std (to_MeV nv)) eqn:Q, fake; simpl; try reflexivity;
        exfalso; destruct ST as [F1 F2]; try (specialize (F1 eq_refl); discriminate F1);
        specialize (F2 eq_refl); discriminate F2. }
    assert (DD : match n_disc L B P O (fst s) with Some v => Some (to_MeV v) | None => None end
               = match n_disc L B P O s0 with Some v => Some (to_MeV v) | None => None end).
    { exact LD. }
    destruct (n_low L B P O s0) as [low|] eqn:EL; cbn [self_if_none].
    2: { split; [reflexivity|exact LK]. }
    destruct (n_high L B P O s0) as [high|] eqn:EH; cbn [self_if_none].
    2: { simpl. split; [reflexivity|]. unfold like. simpl. rewrite EL, EH. repeat split; tauto. }
    destruct (n_disc L B P O (fst s)) as [dv|] eqn:ED; destruct (n_disc L B P O s0) as [dv0|] eqn:ED0;
      try discriminate LD; cbn [self_if_none option_map] in *.
    2: { simpl. split; [reflexivity|]. unfold like. simpl. rewrite EL, EH, ED0. repeat split; tauto. }
    injection DD as DD. rewrite DD.
    destruct (n_pars L B P O s0) as [pars|] eqn:EP; cbn [self_if_none].
    2: { simpl. split; [reflexivity|]. unfold like. simpl.
         rewrite EL, EH, ED0, EP. simpl. rewrite to_MeV_twice. repeat split; tauto. }
    destruct (pars_set pars) as [[]|e5].
    2: { simpl. split; [reflexivity|]. unfold like. simpl.
         rewrite EL, EH, ED0, EP. simpl. rewrite to_MeV_twice. repeat split; tauto. }
    rewrite (FK _ LF), (FK _ LF0).
    set (n2 := if fake then fake_std (to_MeV nv) else to_MeV nv).
    destruct (fit n2 (to_MeV dv0) low high (n_bounds L B P O s0) pars) as [[[A al] o]|e6].
    2: { simpl. split; [reflexivity|]. unfold like. simpl.
         rewrite EL, EH, ED0, EP. simpl. rewrite to_MeV_twice. repeat split; tauto. }
    cbn [n_res]. cbv zeta. cbn [r_alpha].
    assert (GE : v_E (transform (to_MeV gv) 1 al) = e0 :: rest) by (rewrite transform_E; exact AE).
    rewrite GE.
    assert (RG : match snd s with Some x => Ok x | None => Ok e0 end = Ok e0).
    { destruct LR as [-> | ->]; reflexivity. }
    rewrite RG. cbn [fst snd]. split; [reflexivity|].
    unfold like. simpl. rewrite EL, EH, EP, ED0. simpl. rewrite to_MeV_twice. repeat split; tauto.
  Qed.

  (* If the pool cannot be used, alike members still get the results they get alone
     with fresh normalisers. *)
  Theorem ensemble_sequential_alike_partial : forall draws z s0 fake e0 p ms ds,
    n_fake L B P O s0 = None ->
    (forall m, In m ms -> alike fake e0 m) ->
    map (alone _ _ norm (s0, None)) ms = map Ok ds ->
    exists s' xs, EnsNormModel.normalize _ _ norm draws z None (s0, None) p ms
                  = (s', map (fun m => (cut_nan (fst m), cut_nan (snd m))) ms, xs, Ok tt) /\
                  map m_det xs = ds.
  Proof.
    intros draws z s0 fake e0 p ms ds NF AL A.
    assert (L0 : like s0 fake e0 (s0, None)).
    { unfold like. simpl. rewrite NF. repeat split; tauto. }
    apply ensemble_sequential_partial with (I := like s0 fake e0); [exact L0| |exact A].
    intros s' m M LK. destruct (like_step s0 fake e0 s' m L0 LK (AL m M)) as [Q1 Q2].
    split; [exact Q2|]. unfold alone. exact Q1.
  Qed.
End Stagewise.
Print Assumptions ensemble_sequential_alike_partial.

(* ------------------------------------------------ concrete ensembles *)

Module ToyEns.
  Definition fit (n d : vec) (low high b p : Qc) : result (Qc * Qc * Qc) :=
    Ok (qsum (v_val n), 1, match v_std n with Some (x :: _) => x | _ => 0 end).
  Definition transform (v : vec) (A al : Qc) : vec :=
    mkVec (v_E v) (map (fun x => x * A) (v_val v)) (v_std v) (v_MeV v).
  (* B from the values of gsf, the start of the extrapolation and nld *)
  Definition gfit (g : vec) (x : Qc) (r : nres Qc) : result Qc :=
    Ok (qsum (v_val g) * r_A Qc r + x).
  Definition norm := stage_norm Qc Qc Qc Qc (fun _ => Ok tt) fit transform gfit.
  Definition s0 : nst Qc Qc Qc Qc :=
    mkN Qc Qc Qc Qc true false None None (Some (mkVec (ql [0;1]%Z) (ql [1;1]%Z) None true))
        (Some 1) (Some 1) 1 (Some 1) None None.
  Definition draws (d : nres Qc * Qc) := Some (snd d, 1, 2%nat).
  Definition z (k : nat) : Qc := qnat k.
  Definition ev (l : list (option Z)) : evec :=
    mkEV (tab (length l) qnat) (map (option_map qz) l) None true.
  (* two members; the strength function of the first has a NaN in its first bin *)
  Definition m0 : evec * evec := (ev [Some 1; Some 2; None], ev [None; Some 1; Some 1])%Z.
  Definition m1 : evec * evec := (ev [Some 3; Some 4; Some 5], ev [Some 2; Some 1; Some 1])%Z.
  Definition normalize pool := EnsNormModel.normalize _ _ norm draws z pool (s0, None) 0.
  Definition Bs (x : (nst Qc Qc Qc Qc * option Qc) * list (evec * evec)
                     * list (mres (nres Qc * Qc)) * result unit) : list (Qc * option (list Qc)) :=
    map (fun m => (snd (m_det m), m_B m)) (snd (fst x)).
  Definition qeq_opt (a b : option (list Qc)) : bool :=
    match a, b with Some x, Some y => leqb x y | None, None => true | _, _ => false end.
End ToyEns.

(* Non-vacuity: the toy ensemble is normalised by the pool, each member as alone *)
Example toy_pool :
  exists ds, map (alone _ _ ToyEns.norm (ToyEns.s0, None)) [ToyEns.m0; ToyEns.m1] = map Ok ds /\
    forall w, exists xs,
      ToyEns.normalize (Some [0; w]%nat) [ToyEns.m0; ToyEns.m1]
      = ((ToyEns.s0, None), [ToyEns.m0; ToyEns.m1], xs, Ok tt) /\ map m_det xs = ds.
Proof.
  eexists [_; _]. split; [reflexivity|]. intros w.
  apply ensemble_pool; reflexivity.
Qed.

(* The random samples of B of a member depend on the number of processes ... *)
Theorem samples_depend_on_processes_refuted :
  exists i, nth i (ToyEns.Bs (ToyEns.normalize (Some [0; 0]%nat) [ToyEns.m1; ToyEns.m1])) (0, None) <>
            nth i (ToyEns.Bs (ToyEns.normalize (Some [0; 1]%nat) [ToyEns.m1; ToyEns.m1])) (0, None).
Proof.
  exists 1%nat. intros Q.
  apply (f_equal (fun p => match snd p with Some (x :: _) => qeqb x (qz 48) | _ => true end)) in Q.
  vm_compute in Q. discriminate Q.
Qed.
Print Assumptions samples_depend_on_processes_refuted.

(* ... and members handled by different processes use the same random deviates: the
   forked processes start with the same generator. *)
Theorem samples_shared_refuted :
  exists l1 l2, ToyEns.Bs (ToyEns.normalize (Some [0; 1]%nat) [ToyEns.m1; ToyEns.m1]) =
    [l1; l2] /\ ToyEns.qeq_opt (snd l1) (snd l2) = true /\
    ToyEns.qeq_opt (snd l1) None = false.
Proof. eexists. eexists. split; [reflexivity|]. split; vm_compute; reflexivity. Qed.
Print Assumptions samples_shared_refuted.

(* Without the pool, the range of the extrapolation found for the first member is
   kept for the second: its result is not the one it gets alone. *)
Theorem sequential_carry_over_refuted :
  exists ds xs s' ms',
    map (alone _ _ ToyEns.norm (ToyEns.s0, None)) [ToyEns.m0; ToyEns.m1] = map Ok ds /\
    ToyEns.normalize None [ToyEns.m0; ToyEns.m1] = (s', ms', xs, Ok tt) /\
    map m_det xs <> ds.
Proof.
  eexists [_; _]. eexists. eexists. eexists. split; [reflexivity|]. split; [reflexivity|].
  intros Q.
  apply (f_equal (fun l => match l with [_; d] => qeqb (snd d) (qz 48) | _ => true end)) in Q.
  vm_compute in Q. discriminate Q.
Qed.
Print Assumptions sequential_carry_over_refuted.

(* Without the pool, the extractor's vectors lose their NaN bins. *)
Theorem sequential_changes_extractor_refuted :
  exists s' ms' xs, ToyEns.normalize None [ToyEns.m0; ToyEns.m1] = (s', ms', xs, Ok tt) /\
    map (fun m => length (e_E (snd m))) [ToyEns.m0; ToyEns.m1] = [3; 3]%nat /\
    map (fun m => length (e_E (snd m))) ms' = [2; 3]%nat.
Proof. eexists. eexists. eexists. split; [reflexivity|]. split; reflexivity. Qed.
Print Assumptions sequential_changes_extractor_refuted.
