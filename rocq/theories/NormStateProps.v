(* C66: saving and loading normalisers, and which arguments of normalize take
   effect. *)
From Verif Require Import PyBase NormStateModel.

Section Props.
  Variables L B P O M : Type.
  Variable pars_set gpars_set : P -> result unit.
  Variable fit : vec -> vec -> L -> L -> B -> P -> result (Qc * Qc * O).
  Variable transform : vec -> Qc -> Qc -> vec.
  Variable model_of : O -> M.
  Variable scale : vec -> vec -> M -> P -> result (vec * Qc).

  Notation nst := (nst L B P O).
  Notation nargs := (nargs L B P).
  Notation normalize := (nld_normalize L B P O pars_set fit transform).
  Notation gnormalize := (gsf_normalize L B P O transform M model_of gpars_set scale).
  Notation gst := (gst L B P O M).
  Notation gargs := (gargs L B P O M).
  Notation regen := (n_regen L B P O).
  Notation saving := (n_save L B P O).
  Notation path := (n_path L B P O).
  Notation res := (n_res L B P O).

  (* ------------------------------------------------ specification *)

  (* The value of a parameter: the argument if given, else the attribute *)
  Definition effective {A} (arg own : option A) (v : A) : Prop :=
    arg = Some v \/ arg = None /\ own = Some v.

  (* The vector handed to the fit: in MeV, and with 30 % of the values as standard
     deviation if it has none *)
  Definition fit_vector (nld : vec) : vec :=
    let m := to_MeV nld in
    match v_std m with None => fake_std m | Some _ => m end.

  (* ------------------------------------------------ saving and loading *)

  Lemma nld_compute_keeps a s s' r :
    nld_compute L B P O pars_set fit transform a s = (s', r) ->
    regen s' = regen s /\ saving s' = saving s /\ path s' = path s.
  Proof.
    unfold nld_compute.
    repeat match goal with
           | |- match ?x with _ => _ end = _ -> _ => destruct x
           | |- (let '(_, _) := ?x in _) = _ -> _ => destruct x
           end; intros E; injection E as <- <-; simpl; repeat split.
  Qed.

  (* A computed result is saved, exactly as it is in memory; the files of other
     paths are not touched. *)
  Theorem nld_result_saved : forall a s d s' d' p,
    normalize a s d = (s', d', Ok tt) -> saving s = true -> path s = Some p ->
    regen s = true \/ d p = Absent ->
    d' p = Whole s' /\ res s' <> None /\ forall q, q <> p -> d' q = d q.
  Proof.
    intros a s d s' d' p E SV PA C. unfold nld_normalize, frame in E.
    assert (W : (match nld_compute L B P O pars_set fit transform a s with
                 | (s'0, Ok _) => let '(d'0, r) := save (saving s'0) (path s'0) s'0 d in (s'0, d'0, r)
                 | (s'0, Raise e) => (s'0, d, Raise e)
                 end) = (s', d', Ok tt)).
    { destruct (regen s); [exact E|]. destruct C as [C|C]; [discriminate C|].
      unfold load in E. rewrite PA, C in E. exact E. }
    clear E. destruct (nld_compute L B P O pars_set fit transform a s) as [s1 r1] eqn:EC.
    destruct (nld_compute_keeps _ _ _ _ EC) as (K1 & K2 & K3).
    destruct r1 as [[]|e]; [|discriminate W].
    rewrite K2, K3, SV, PA in W. simpl in W. injection W as <- <-.
    split; [unfold put; now rewrite Nat.eqb_refl|]. split.
    - revert EC. unfold nld_compute.
      repeat match goal with
             | |- match ?x with _ => _ end = _ -> _ => destruct x
             end; intros E; try discriminate E; injection E as <-; simpl; discriminate.
    - intros q N. unfold put. destruct (Nat.eqb q p) eqn:Q; [|reflexivity].
      apply Nat.eqb_eq in Q. contradiction.
  Qed.

  (* Loading: with regenerate=False and a stored file, normalize returns the stored
     state whatever it is called with, and changes no file. *)
  Theorem nld_loads_stored : forall a s d p stored,
    regen s = false -> path s = Some p -> d p = Whole stored ->
    normalize a s d = (stored, d, Ok tt).
  Proof.
    intros a s d p st R PA F. unfold nld_normalize, frame. rewrite R.
    unfold load. rewrite PA, F. reflexivity.
  Qed.

  (* Round trip through the disk: a later instance at the same path has all results
     of the first one. *)
  Theorem nld_save_load : forall a s d s' d' p b t,
    normalize a s d = (s', d', Ok tt) -> saving s = true -> path s = Some p ->
    regen s = true \/ d p = Absent ->
    regen t = false -> path t = Some p ->
    normalize b t d' = (s', d', Ok tt).
  Proof.
    intros a s d s' d' p b t E SV PA C RT PT.
    destruct (nld_result_saved a s d s' d' p E SV PA C) as (F & _ & _).
    now apply nld_loads_stored with (p := p).
  Qed.

  (* The same for the normaliser of the strength function *)
  Theorem gsf_save_load : forall a s d s' d' p b t,
    gnormalize a s d = (s', d', Ok tt) ->
    g_save L B P O M s = true -> g_path L B P O M s = Some p ->
    g_regen L B P O M s = true \/ d p = Absent ->
    g_regen L B P O M t = false -> g_path L B P O M t = Some p ->
    d' p = Whole s' /\ gnormalize b t d' = (s', d', Ok tt).
  Proof.
    intros a s d s' d' p b t E SV PA C RT PT. unfold gsf_normalize, frame in E.
    assert (W : (match gsf_compute L B P O transform M model_of gpars_set scale a s with
                 | (s'0, Ok _) => let '(d'0, r) := save (g_save L B P O M s'0)
                                     (g_path L B P O M s'0) s'0 d in (s'0, d'0, r)
                 | (s'0, Raise e) => (s'0, d, Raise e)
                 end) = (s', d', Ok tt)).
    { destruct (g_regen L B P O M s); [exact E|]. destruct C as [C|C]; [discriminate C|].
      unfold load in E. rewrite PA, C in E. exact E. }
    clear E. unfold gsf_compute in W.
    match type of W with context [match ?x with Ok s' => (s', Ok tt) | Raise e => (s, Raise e) end] =>
      destruct x as [s1|e] eqn:EX end; [|discriminate W].
    assert (K : g_save L B P O M s1 = true /\ g_path L B P O M s1 = Some p).
    { revert EX. unfold rbind.
      repeat match goal with
             | |- match ?x with _ => _ end = _ -> _ => destruct x
             end; intros E; try discriminate E; injection E as <-; simpl; split; assumption. }
    destruct K as [K1 K2]. rewrite K1, K2 in W. simpl in W. injection W as <- <-.
    assert (F : put d p (Whole s1) p = Whole s1) by (unfold put; now rewrite Nat.eqb_refl).
    split; [exact F|].
    unfold gsf_normalize, frame. rewrite RT. unfold load. rewrite PT, F. reflexivity.
  Qed.

  (* A process killed while saving: with regenerate=False the normaliser does not
     use the damaged file and raises; with regenerate=True the file is replaced. *)
  Theorem nld_torn_file : forall a s d p,
    path s = Some p -> d p = Torn -> regen s = false ->
    normalize a s d = (s, d, Raise RuntimeError).
  Proof.
    intros a s d p PA F R. unfold nld_normalize, frame, load. rewrite R, PA, F. reflexivity.
  Qed.
  Theorem nld_torn_file_repaired : forall a s d s' d' p,
    path s = Some p -> regen s = true -> saving s = true ->
    normalize a s (killed_in_save saving path s d) = (s', d', Ok tt) ->
    d' p = Whole s'.
  Proof.
    intros a s d s' d' p PA R SV E.
    destruct (nld_result_saved a s _ s' d' p E SV PA (or_introl R)) as (F & _). exact F.
  Qed.

  (* ------------------------------------------------ arguments take effect *)

  (* When the result is computed and no earlier call has switched on the artificial
     standard deviation, limits, level density, bounds and parameters are the
     arguments (or the attributes where no argument is given), and the discrete
     levels are those of the attribute. *)
  Theorem nld_arguments_partial : forall a s d s' d' low high nld disc pars,
    normalize a s d = (s', d', Ok tt) -> regen s = true ->
    n_fake L B P O s <> Some true ->
    effective (a_low L B P a) (n_low L B P O s) low ->
    effective (a_high L B P a) (n_high L B P O s) high ->
    effective (a_nld L B P a) (n_nld L B P O s) nld ->
    a_disc L B P a = None -> n_disc L B P O s = Some disc ->
    effective (a_pars L B P a) (n_pars L B P O s) pars ->
    let bounds := match a_bounds L B P a with Some b => b | None => n_bounds L B P O s end in
    exists A alpha o r,
      fit (fit_vector nld) (to_MeV disc) low high bounds pars = Ok (A, alpha, o) /\
      res s' = Some r /\ r_A O r = A /\ r_alpha O r = alpha /\ r_other O r = o /\
      r_nld O r = (match v_std nld with
                   | None => drop_std (transform (fit_vector nld) A alpha)
                   | Some _ => transform (fit_vector nld) A alpha
                   end) /\
      n_low L B P O s' = Some low /\ n_high L B P O s' = Some high /\
      n_pars L B P O s' = Some pars /\ n_bounds L B P O s' = bounds.
  Proof.
    intros a s d s' d' low high nld disc pars E R NF EL EH EN AD ND EP bounds.
    unfold nld_normalize, frame in E. rewrite R in E.
    destruct (nld_compute L B P O pars_set fit transform a s) as [s1 r1] eqn:EC.
    assert (S1 : s' = s1 /\ r1 = Ok tt).
    { destruct r1 as [[]|e]; [|injection E; intros; discriminate].
      destruct (save (saving s1) (path s1) s1 d) as [d1 r]. injection E. intros. subst. now split. }
    destruct S1 as [-> ->]. clear E. revert EC. unfold nld_compute.
    assert (SL : self_if_none (a_low L B P a) (n_low L B P O s) = Ok low).
    { unfold self_if_none. destruct EL as [->|[-> ->]]; reflexivity. }
    assert (SH : self_if_none (a_high L B P a) (n_high L B P O s) = Ok high).
    { unfold self_if_none. destruct EH as [->|[-> ->]]; reflexivity. }
    assert (SN : self_if_none (a_nld L B P a) (n_nld L B P O s) = Ok nld).
    { unfold self_if_none. destruct EN as [->|[-> ->]]; reflexivity. }
    assert (SP : self_if_none (a_pars L B P a) (n_pars L B P O s) = Ok pars).
    { unfold self_if_none. destruct EP as [->|[-> ->]]; reflexivity. }
    rewrite SL, SH, SN, SP, AD, ND. cbn [self_if_none].
    assert (ST : v_std (to_MeV nld) = v_std nld).
    { unfold to_MeV. destruct (v_MeV nld); reflexivity. }
    assert (FV : (if match n_fake L B P O s with Some b => b | None => false end
                     || match v_std (to_MeV nld) with None => true | Some _ => false end
                  then fake_std (to_MeV nld) else to_MeV nld) = fit_vector nld).
    { unfold fit_vector. rewrite ST.
      destruct (n_fake L B P O s) as [[|]|]; try congruence; simpl; destruct (v_std nld); reflexivity. }
    rewrite FV. fold bounds.
    destruct (pars_set pars) as [[]|e]; [|intros Q; discriminate Q].
    destruct (fit (fit_vector nld) (to_MeV disc) low high bounds pars) as [[[A alpha] o]|e] eqn:EF;
      [|intros Q; discriminate Q].
    intros Q. injection Q as <-. exists A, alpha, o. eexists. split; [reflexivity|].
    split; [reflexivity|]. simpl. repeat split.
    rewrite ST. destruct (n_fake L B P O s) as [[|]|]; try congruence; simpl;
      destruct (v_std nld); reflexivity.
  Qed.

  (* What the normaliser does not change: flags, path and the given level density
     (a copy is converted; nld is an immutable value of the model). A second call
     with the same arguments on the resulting state gives the same result, provided
     the standard deviation is given. *)
  Theorem nld_repeat : forall a s d s1 d1 s2 d2 nld,
    regen s = true -> a_nld L B P a = Some nld -> v_std nld <> None ->
    n_fake L B P O s <> Some true -> a_disc L B P a = None ->
    normalize a s d = (s1, d1, Ok tt) -> normalize a s1 d1 = (s2, d2, Ok tt) ->
    res s2 = res s1.
  Proof.
    intros a s d s1 d1 s2 d2 nld R AN SN NF AD E1 E2.
    assert (X : exists low high disc pars,
      effective (a_low L B P a) (n_low L B P O s) low /\
      effective (a_high L B P a) (n_high L B P O s) high /\
      n_disc L B P O s = Some disc /\ n_disc L B P O s1 = Some (to_MeV disc) /\
      effective (a_pars L B P a) (n_pars L B P O s) pars /\
      n_fake L B P O s1 = Some false /\ regen s1 = true).
    { unfold nld_normalize, frame in E1. rewrite R in E1.
      destruct (nld_compute L B P O pars_set fit transform a s) as [t r] eqn:EC.
      assert (S1 : s1 = t /\ r = Ok tt).
      { destruct r as [[]|e]; [|injection E1; intros; discriminate].
        destruct (save (saving t) (path t) t d) as [dd r]. injection E1. intros. subst. now split. }
      destruct S1 as [-> ->]. clear E1 E2. revert EC. unfold nld_compute. rewrite AN, AD.
      assert (ST : v_std (to_MeV nld) = v_std nld).
      { unfold to_MeV. destruct (v_MeV nld); reflexivity. }
      destruct (self_if_none (a_low L B P a) (n_low L B P O s)) as [low|] eqn:EL; [|intros Q; discriminate Q].
      destruct (self_if_none (a_high L B P a) (n_high L B P O s)) as [high|] eqn:EH; [|intros Q; discriminate Q].
      destruct (n_disc L B P O s) as [disc|] eqn:ED; [|intros Q; discriminate Q].
      cbn [self_if_none].
      destruct (self_if_none (a_pars L B P a) (n_pars L B P O s)) as [pars|] eqn:EP; [|intros Q; discriminate Q].
      destruct (pars_set pars) as [[]|]; [|intros Q; discriminate Q].
      rewrite ST. destruct (v_std nld) as [sd|] eqn:ESD; [|congruence].
      match goal with |- context [fit ?x ?y ?z ?u ?v ?w] => destruct (fit x y z u v w) as [[[A al] o]|] end;
        [|intros Q; discriminate Q].
      intros Q. injection Q as <-. exists low, high, disc, pars. simpl.
      assert (EFF : forall T (x y : option T) z, self_if_none x y = Ok z -> effective x y z).
      { intros T x y z. unfold self_if_none, effective. destruct x; [intros Q; injection Q as <-; now left|].
        destruct y; [intros Q; injection Q as <-; now right|intros Q; discriminate Q]. }
      repeat split; auto.
      destruct (n_fake L B P O s) as [[|]|]; congruence || reflexivity. }
    destruct X as (low & high & disc & pars & EL & EH & ED & ED1 & EP & F1 & R1).
    assert (EN : effective (a_nld L B P a) (n_nld L B P O s) nld) by (left; exact AN).
    destruct (nld_arguments_partial a s d s1 d1 low high nld disc pars E1 R NF EL EH EN AD ED EP)
      as (A & al & o & r & FT & RS & RA & RAL & RO & RN & L1 & H1 & P1 & B1).
    assert (EN1 : effective (a_nld L B P a) (n_nld L B P O s1) nld) by (left; exact AN).
    assert (EL1 : effective (a_low L B P a) (n_low L B P O s1) low).
    { destruct EL as [EL|[EL _]]; [now left|right; now split]. }
    assert (EH1 : effective (a_high L B P a) (n_high L B P O s1) high).
    { destruct EH as [EH|[EH _]]; [now left|right; now split]. }
    assert (EP1 : effective (a_pars L B P a) (n_pars L B P O s1) pars).
    { destruct EP as [EP|[EP _]]; [now left|right; now split]. }
    assert (NF1 : n_fake L B P O s1 <> Some true) by (rewrite F1; discriminate).
    destruct (nld_arguments_partial a s1 d1 s2 d2 low high nld (to_MeV disc) pars E2 R1 NF1 EL1 EH1
                EN1 AD ED1 EP1)
      as (A2 & al2 & o2 & r2 & FT2 & RS2 & RA2 & RAL2 & RO2 & RN2 & _).
    assert (MM : to_MeV (to_MeV disc) = to_MeV disc).
    { unfold to_MeV at 1. unfold to_MeV. destruct (v_MeV disc) eqn:Q; simpl; now rewrite ?Q. }
    rewrite MM in FT2.
    assert (BB : match a_bounds L B P a with Some b => b | None => n_bounds L B P O s1 end
                 = match a_bounds L B P a with Some b => b | None => n_bounds L B P O s end).
    { destruct (a_bounds L B P a); [reflexivity|exact B1]. }
    rewrite BB, FT in FT2. injection FT2. intros -> -> ->.
    rewrite RS, RS2. f_equal. destruct r, r2. simpl in *. subst. reflexivity.
  Qed.

  (* ---------- strength function: arguments take effect (levels from the
     normaliser of the level density or from the arguments) *)
  Theorem gsf_arguments_partial : forall a s d s' d' gsf nld alpha model pars,
    gnormalize a s d = (s', d', Ok tt) -> g_regen L B P O M s = true ->
    effective (b_gsf L B P O M a) (g_in L B P O M s) gsf ->
    (b_nld L B P O M a = Some nld \/
     b_nld L B P O M a = None /\
     exists n r, effective (b_norm L B P O M a) (g_norm L B P O M s) n /\ n_res L B P O n = Some r /\
                 nld = r_nld O r) ->
    (effective (b_alpha L B P O M a) (g_alpha L B P O M s) alpha \/
     b_alpha L B P O M a = None /\ g_alpha L B P O M s = None /\
     exists n r, effective (b_norm L B P O M a) (g_norm L B P O M s) n /\ n_res L B P O n = Some r /\
                 alpha = r_alpha O r) ->
    (b_model L B P O M a = Some model \/
     b_model L B P O M a = None /\
     exists n r, effective (b_norm L B P O M a) (g_norm L B P O M s) n /\ n_res L B P O n = Some r /\
                 model = model_of (r_other O r)) ->
    effective (b_pars L B P O M a) (g_pars L B P O M s) pars ->
    exists g b r,
      scale (transform (to_MeV gsf) 1 alpha) nld model pars = Ok (g, b) /\
      g_res L B P O M s' = Some r /\ gr_gsf O r = g /\ gr_B O r = b.
  Proof.
    intros a s d s' d' gsf nld alpha model pars E R EG EN EA EM EP.
    unfold gsf_normalize, frame in E. rewrite R in E. unfold gsf_compute in E.
    match type of E with context [match ?x with Ok s' => (s', Ok tt) | Raise e => (s, Raise e) end] =>
      destruct x as [s1|e] eqn:EX end; [|discriminate E].
    assert (S1 : s' = s1).
    { destruct (save (g_save L B P O M s1) (g_path L B P O M s1) s1 d) as [d1 r].
      injection E. intros. now subst. }
    subst s1. clear E. revert EX.
    assert (QN : forall T (x y : option T) z, effective x y z -> self_if_nonable x y = Some z).
    { intros T x y z [->|[-> ->]]; reflexivity. }
    rewrite (QN _ _ _ _ EG). cbn [rbind].
    assert (Q1 : match b_nld L B P O M a with
                 | Some v => Ok v
                 | None => rmap (r_nld O) (norm_res L B P O (self_if_nonable (b_norm L B P O M a) (g_norm L B P O M s)))
                 end = Ok nld).
    { destruct EN as [->|(-> & n & r & N1 & N2 & ->)]; [reflexivity|].
      rewrite (QN _ _ _ _ N1). unfold norm_res. rewrite N2. reflexivity. }
    rewrite Q1. cbn [rbind].
    assert (Q2 : match self_if_nonable (b_alpha L B P O M a) (g_alpha L B P O M s) with
                 | Some x => Ok x
                 | None => rmap (r_alpha O) (norm_res L B P O (self_if_nonable (b_norm L B P O M a) (g_norm L B P O M s)))
                 end = Ok alpha).
    { destruct EA as [EA|(-> & -> & n & r & N1 & N2 & ->)]; [now rewrite (QN _ _ _ _ EA)|].
      simpl. rewrite (QN _ _ _ _ N1). unfold norm_res. rewrite N2. reflexivity. }
    rewrite Q2. cbn [rbind].
    assert (Q3 : match b_model L B P O M a with
                 | Some m => Ok m
                 | None => rmap (fun r => model_of (r_other O r)) (norm_res L B P O (self_if_nonable (b_norm L B P O M a) (g_norm L B P O M s)))
                 end = Ok model).
    { destruct EM as [->|(-> & n & r & N1 & N2 & ->)]; [reflexivity|].
      rewrite (QN _ _ _ _ N1). unfold norm_res. rewrite N2. reflexivity. }
    rewrite Q3. cbn [rbind].
    assert (Q4 : self_if_none (b_pars L B P O M a) (g_pars L B P O M s) = Ok pars).
    { unfold self_if_none. destruct EP as [->|[-> ->]]; reflexivity. }
    rewrite Q4. cbn [rbind].
    destruct (gpars_set pars) as [[]|]; [|intros Q; discriminate Q]. cbn [rbind].
    destruct (scale (transform (to_MeV gsf) 1 alpha) nld model pars) as [[g b]|]; [|intros Q; discriminate Q].
    cbn [rbind]. intros Q. injection Q as <-. exists g, b. eexists. repeat split.
  Qed.
End Props.
Print Assumptions nld_result_saved.
Print Assumptions nld_loads_stored.
Print Assumptions nld_save_load.
Print Assumptions gsf_save_load.
Print Assumptions nld_torn_file.
Print Assumptions nld_torn_file_repaired.
Print Assumptions nld_arguments_partial.
Print Assumptions nld_repeat.
Print Assumptions gsf_arguments_partial.

(* ---------------------------------------------------------- a concrete instance *)

(* A fit that returns the sum of the values, the weight of the first bin, and the
   first value of the discrete levels; limits and bounds are numbers. *)
Module Toy.
  Definition fit (n d : vec) (low high : Qc) (b p : Qc) : result (Qc * Qc * Qc) :=
    Ok (qsum (v_val n) * low * b,
        match v_std n with Some (x :: _) => x | _ => 0 end,
        match v_val d with x :: _ => x | [] => 0 end).
  Definition transform (v : vec) (A al : Qc) : vec :=
    mkVec (v_E v) (map (fun x => x * A) (v_val v)) (v_std v) (v_MeV v).
  Definition pars_set (p : Qc) : result unit := if qeqb p 0 then Raise ValueError else Ok tt.
  Definition nst := nst Qc Qc Qc Qc.
  Definition normalize := nld_normalize Qc Qc Qc Qc pars_set fit transform.
  Definition args := mkA Qc Qc Qc.
  Definition v (l : list Z) (s : option (list Z)) : vec :=
    mkVec (ql [0; 1; 2]%Z) (ql l) (option_map ql s) true.
  Definition fresh (regen : bool) : nst :=
    nld_new Qc Qc Qc Qc (Some (v [1;2;3]%Z (Some [1;1;1]%Z))) (Some (v [4;5;6]%Z None)) (Some 0%nat)
            regen (Some 1) 1.
  Definition empty : disk nst := fun _ => Absent.
  Definition lims := args (Some (qz 2)) (Some (qz 3)) None None None None.
End Toy.

(* Non-vacuity: a run, its file, and a later instance *)
Example toy_run :
  exists s d, Toy.normalize Toy.lims (Toy.fresh false) Toy.empty = (s, d, Ok tt) /\
    option_map (r_A Qc) (n_res _ _ _ _ s) = Some (qz 12) /\ d 0%nat = Whole s /\
    Toy.normalize (no_args Qc Qc Qc) (Toy.fresh false) d = (s, d, Ok tt).
Proof.
  destruct (Toy.normalize Toy.lims (Toy.fresh false) Toy.empty) as [[s d] r] eqn:E.
  assert (R : r = Ok tt).
  { change r with (snd (s, d, r)). rewrite <- E. vm_compute. reflexivity. }
  subst r. exists s, d. split; [reflexivity|].
  assert (A : option_map (r_A Qc) (n_res _ _ _ _ s) = Some (qz 12)).
  { change s with (fst (fst (s, d, @Ok unit tt))). rewrite <- E.
    assert (C : match option_map (r_A Qc) (n_res _ _ _ _
                  (fst (fst (Toy.normalize Toy.lims (Toy.fresh false) Toy.empty)))) with
                | Some x => qeqb x (qz 12) | None => false end = true) by (vm_compute; reflexivity).
    destruct (option_map _ _); [|discriminate C]. apply qeqb_eq in C. now subst. }
  split; [exact A|].
  destruct (nld_result_saved Qc Qc Qc Qc Toy.pars_set Toy.fit Toy.transform Toy.lims (Toy.fresh false)
              Toy.empty s d 0%nat E eq_refl eq_refl (or_intror eq_refl)) as (F & _).
  split; [exact F|]. exact (nld_loads_stored Qc Qc Qc Qc Toy.pars_set Toy.fit Toy.transform (no_args Qc Qc Qc)
           (Toy.fresh false) d 0%nat s eq_refl eq_refl F).
Qed.

(* ---------------------------------------------------------- refutations *)

Definition res_of (x : Toy.nst * disk Toy.nst * result unit) : option (Qc * Qc * Qc) :=
  match x with
  | (s, _, Ok _) => option_map (fun r => (r_A Qc r, r_alpha Qc r, r_other Qc r)) (n_res _ _ _ _ s)
  | _ => None
  end.

(* The argument `discrete` of normalize has no effect on the result, although the
   result depends on the discrete levels. *)
Theorem discrete_argument_refuted :
  (exists d1 d2, d1 <> d2 /\
    res_of (Toy.normalize (Toy.args (Some 1) (Some 1) None (Some d1) None None) (Toy.fresh true) Toy.empty) =
    res_of (Toy.normalize (Toy.args (Some 1) (Some 1) None (Some d2) None None) (Toy.fresh true) Toy.empty)) /\
  (exists s1 s2,
    set_discrete Qc Qc Qc Qc (Toy.fresh true) (Some (Toy.v [7;7;7]%Z None)) = Ok s1 /\
    set_discrete Qc Qc Qc Qc (Toy.fresh true) (Some (Toy.v [8;8;8]%Z None)) = Ok s2 /\
    res_of (Toy.normalize (Toy.args (Some 1) (Some 1) None None None None) s1 Toy.empty) <>
    res_of (Toy.normalize (Toy.args (Some 1) (Some 1) None None None None) s2 Toy.empty)).
Proof.
  split.
  - exists (Toy.v [7;7;7]%Z None), (Toy.v [8;8;8]%Z None). split.
    + intros Q. apply (f_equal (fun v => leqb (v_val v) (ql [7;7;7]%Z))) in Q.
      vm_compute in Q. discriminate Q.
    + vm_compute. reflexivity.
  - eexists. eexists. split; [vm_compute; reflexivity|]. split; [vm_compute; reflexivity|].
    intros Q.
    apply (f_equal (fun o => match o with Some (_, _, x) => qeqb x (qz 7) | None => true end)) in Q.
    vm_compute in Q. discriminate Q.
Qed.
Print Assumptions discrete_argument_refuted.

(* A level density without standard deviation makes every later call ignore the
   standard deviations it is given. *)
Theorem fake_std_sticky_refuted :
  exists a b s1 d1,
    Toy.normalize a (Toy.fresh true) Toy.empty = (s1, d1, Ok tt) /\
    n_regen _ _ _ _ s1 = true /\
    (exists sd, option_map v_std (a_nld _ _ _ b) = Some (Some sd)) /\
    res_of (Toy.normalize b s1 d1) <> res_of (Toy.normalize b (Toy.fresh true) Toy.empty).
Proof.
  exists (Toy.args (Some 1) (Some 1) (Some (Toy.v [1;2;3]%Z None)) None None None),
         (Toy.args (Some 1) (Some 1) (Some (Toy.v [1;2;3]%Z (Some [5;5;5]%Z))) None None None).
  eexists. eexists. split; [reflexivity|]. split; [reflexivity|].
  split; [eexists; reflexivity|]. intros Q.
  apply (f_equal (fun o => match o with Some (_, x, _) => qeqb x (qz 5) | None => true end)) in Q.
  vm_compute in Q. discriminate Q.
Qed.
Print Assumptions fake_std_sticky_refuted.

(* Loading overwrites `regenerate`: a normaliser set to use stored results computes
   anew on its second call if the stored one had been made with regenerate=True. *)
Theorem load_sets_regenerate_refuted :
  exists a b s d s2,
    Toy.normalize a (Toy.fresh true) Toy.empty = (s, d, Ok tt) /\
    n_regen _ _ _ _ (Toy.fresh false) = false /\
    Toy.normalize b (Toy.fresh false) d = (s2, d, Ok tt) /\ n_regen _ _ _ _ s2 = true /\
    res_of (Toy.normalize b s2 d) <> res_of (s2, d, Ok tt).
Proof.
  exists Toy.lims, (Toy.args None None (Some (Toy.v [9;9;9]%Z None)) None None None).
  eexists. eexists. eexists. split; [reflexivity|]. split; [reflexivity|]. split; [reflexivity|].
  split; [reflexivity|]. intros Q.
  apply (f_equal (fun o => match o with Some (x, _, _) => qeqb x (qz 54) | None => false end)) in Q.
  vm_compute in Q. discriminate Q.
Qed.
Print Assumptions load_sets_regenerate_refuted.

(* All normalisers of one class at one path share one file: an instance for another
   level density silently gets the stored result of the first. *)
Theorem shared_file_refuted :
  exists s d, Toy.normalize Toy.lims (Toy.fresh false) Toy.empty = (s, d, Ok tt) /\
    let other := nld_new Qc Qc Qc Qc (Some (Toy.v [7;8;9]%Z None)) (Some (Toy.v [4;5;6]%Z None))
                         (Some 0%nat) false (Some 1) 1 in
    res_of (Toy.normalize Toy.lims other d) = res_of (s, d, Ok tt) /\
    res_of (Toy.normalize Toy.lims other Toy.empty) <> res_of (s, d, Ok tt).
Proof.
  eexists. eexists. split; [reflexivity|]. split; [reflexivity|]. intros Q.
  apply (f_equal (fun o => match o with Some (x, _, _) => qeqb x (qz 48) | None => false end)) in Q.
  vm_compute in Q. discriminate Q.
Qed.
Print Assumptions shared_file_refuted.

(* path=None is offered by the constructor, but normalize then always raises: either
   when trying to load or, after the whole computation, when saving. *)
Theorem path_none_raises : forall L B P O ps ft tr a s d,
  n_path L B P O s = None -> n_save L B P O s = true ->
  snd (nld_normalize L B P O ps ft tr a s d) <> Ok tt.
Proof.
  intros L B P O ps ft tr a s d PN SV. unfold nld_normalize, frame.
  destruct (n_regen L B P O s).
  - destruct (nld_compute L B P O ps ft tr a s) as [s1 r1] eqn:EC.
    destruct (nld_compute_keeps L B P O ps ft tr a s s1 r1 EC) as (_ & K2 & K3).
    destruct r1; [|intros Q; discriminate Q]. rewrite K2, K3, SV, PN. intros Q; discriminate Q.
  - unfold load. rewrite PN. intros Q; discriminate Q.
Qed.
Print Assumptions path_none_raises.

(* Setting discrete to None leaves the old levels. *)
Theorem clear_discrete_refuted :
  exists s, set_discrete Qc Qc Qc Qc (Toy.fresh true) None = Ok s /\ n_disc _ _ _ _ s <> None.
Proof. eexists. split; [reflexivity|]. discriminate. Qed.
Print Assumptions clear_discrete_refuted.

(* The level density given to the constructor of NormalizerGSF is never used. *)
Definition toy_gsf := gsf_normalize Qc Qc Qc Qc Toy.transform Qc (fun o => o) Toy.pars_set
                        (fun g n m p => Ok (g, qsum (v_val n))).
Theorem gsf_constructor_nld_refuted :
  exists g n, toy_gsf (g_no_args Qc Qc Qc Qc Qc)
      (gsf_new Qc Qc Qc Qc Qc (Some g) (Some n) None (Some 1) (Some 1) (Some 0%nat) true (Some 1))
      (fun _ => Absent)
    = ((gsf_new Qc Qc Qc Qc Qc (Some g) (Some n) None (Some 1) (Some 1) (Some 0%nat) true (Some 1)),
       (fun _ => Absent), Raise AttributeError).
Proof. exists (Toy.v [1;2;3]%Z None), (Toy.v [1;2;3]%Z None). reflexivity. Qed.
Print Assumptions gsf_constructor_nld_refuted.

(* The strength function given to normalize is converted to MeV in place. *)
Theorem gsf_argument_mutated_refuted :
  exists g b, b_gsf Qc Qc Qc Qc Qc b = Some g /\ caller_gsf Qc Qc Qc Qc Qc b <> Some g.
Proof.
  exists (mkVec (ql [0; 100]%Z) (ql [1; 2]%Z) None false).
  eexists (mkGA Qc Qc Qc Qc Qc (Some _) None None None None None). split; [reflexivity|].
  intros Q. apply (f_equal (fun o => match o with Some v => v_MeV v | None => false end)) in Q.
  discriminate Q.
Qed.
Print Assumptions gsf_argument_mutated_refuted.
