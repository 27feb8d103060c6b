(* Missing inputs of the normaliser of the level density, an empty strength function in an
   ensemble and text files with one row or column (C66, C68, C107). *)
From Coq Require Import Lia String Ascii.
From Verif Require Import PyBase Axis MatrixModel VectorModel FileModel.
From Verif Require NormStateModel EnsNormModel.
Import ListNotations.
Local Open Scope list_scope.
Local Open Scope Qc_scope.
Local Notation length := List.length (only parsing).

(* ------------------------------------------------------------------ filehandling.py:282-285, 335-344 *)
(* np.loadtxt of a table with one row or one column is one-dimensional: its entries in order. *)
Definition rectangular (a : arr2) : Prop := Forall (fun r => length r = a_nc a) (a_rows a).
Definition entries (a : arr2) : list Qc := concat (a_rows a).
Theorem loadtxt_flat : forall cwd d p a, d (abs cwd p) = Some (FTxt a) -> rectangular a -> (1 <= a_nr a)%nat ->
  (a_nr a = 1 \/ a_nc a = 1)%nat -> loadtxt cwd d p = Ok (N1 (entries a)).
Proof.
  intros cwd d p [nc rows] H W NE F. unfold loadtxt. rewrite H. f_equal. unfold squeeze, entries, a_nr, rectangular in *. cbn [a_rows a_nc] in *.
  destruct rows as [|r [|r' t]]; cbn [List.length] in *; [lia|cbn; now rewrite app_nil_r|].
  assert (nc = 1%nat) as -> by lia. rewrite Nat.eqb_refl. f_equal. unfold col. revert W. generalize (r :: r' :: t). clear.
  induction l as [|x l IH]; intros W; [reflexivity|]. inversion_clear W as [|? ? L1 W']. destruct x as [|q [|]]; cbn in L1; try discriminate. cbn. f_equal. now apply IH.
Qed.
Print Assumptions loadtxt_flat.
(* Neither Matrix nor Vector can be loaded from such a file; both stay as they were. *)
Theorem flat_text_refused : forall cwd d m v p a, d (abs cwd p) = Some (FTxt a) -> rectangular a -> (1 <= a_nr a)%nat ->
  (a_nr a = 1 \/ a_nc a = 1)%nat ->
  load_matrix cwd d m p (Some (pth "txt"%string)) = ([], (m, Raise IndexError)) /\
  load_vector cwd d v p (Some (pth "txt"%string)) = ([], (v, Raise IndexError)).
Proof.
  intros cwd d m v p a H W NE F. unfold load_matrix, load_vector, read_matrix, read_vector. cbn -[loadtxt].
  rewrite (loadtxt_flat _ _ _ _ H W NE F). split; reflexivity.
Qed.
Print Assumptions flat_text_refused.
Example one_column : exists d, d (abs (pth "/home"%string) (pth "levels.txt"%string)) = Some (FTxt (mkArr 1 [[1]; [qz 2]; [qz 3]])) /\
  loadtxt (pth "/home"%string) d (pth "levels.txt"%string) = Ok (N1 [1; qz 2; qz 3]).
Proof. exists (exec1 (fun _ => None) (Put (pth "/home/levels.txt"%string) (FTxt (mkArr 1 [[1]; [qz 2]; [qz 3]])))). split; reflexivity. Qed.

(* ------------------------------------------------------------------ normalizer_nld.py 178-200 *)
Import NormStateModel.
Section NLD.
  Variables L B P O : Type.
  Variable pars_set : P -> result unit.
  Variable fit : vec -> vec -> L -> L -> B -> P -> result (Qc * Qc * O).
  Variable transform : vec -> Qc -> Qc -> vec.
  Definition given {A} (arg own : option A) : Prop := arg <> None \/ own <> None.
  Definition missing {A} (arg own : option A) : Prop := arg = None /\ own = None.
  Lemma given_ok {A} (arg own : option A) : given arg own -> exists x, self_if_none arg own = Ok x.
  Proof. unfold given, self_if_none. destruct arg; [eauto|]. destruct own; [eauto|]. intros []; congruence. Qed.
  Lemma missing_err {A} (arg own : option A) : missing arg own -> self_if_none arg own = Raise ValueError.
  Proof. now intros [-> ->]. Qed.
  (* If anything needed is given neither as argument nor earlier, normalize raises ValueError;
     results and files are kept. *)
  Theorem nld_missing_input : forall a (s : nst L B P O) d, n_regen _ _ _ _ s = true ->
    (missing (a_low _ _ _ a) (n_low _ _ _ _ s) \/ missing (a_high _ _ _ a) (n_high _ _ _ _ s) \/
     missing (a_disc _ _ _ a) (n_disc _ _ _ _ s) \/ missing (a_nld _ _ _ a) (n_nld _ _ _ _ s) \/
     missing (a_pars _ _ _ a) (n_pars _ _ _ _ s)) ->
    exists s', nld_normalize L B P O pars_set fit transform a s d = (s', d, Raise ValueError) /\
      n_res _ _ _ _ s' = n_res _ _ _ _ s /\ n_nld _ _ _ _ s' = n_nld _ _ _ _ s /\ n_fake _ _ _ _ s' = n_fake _ _ _ _ s.
  Proof.
    intros a s d RG H. unfold nld_normalize, frame. rewrite RG. unfold nld_compute.
    assert (D : forall (A : Type) (arg own : option A), self_if_none arg own = Raise ValueError \/ exists x, self_if_none arg own = Ok x /\ ~ missing arg own).
    { intros A [x|] [y|]; cbn; unfold missing; [right; exists x|right; exists x|right; exists y|now left]; split; (reflexivity || intros [? ?]; discriminate). }
    destruct (D _ (a_low _ _ _ a) (n_low _ _ _ _ s)) as [->|(low & -> & N1)]; [eexists; repeat split|].
    destruct (D _ (a_high _ _ _ a) (n_high _ _ _ _ s)) as [->|(high & -> & N2)]; [eexists; repeat split|].
    destruct (D _ (a_disc _ _ _ a) (n_disc _ _ _ _ s)) as [->|(disc & -> & N3)]; [eexists; repeat split|].
    destruct (D _ (a_nld _ _ _ a) (n_nld _ _ _ _ s)) as [->|(nld & -> & N4)]; [eexists; repeat split|].
    destruct (D _ (a_pars _ _ _ a) (n_pars _ _ _ _ s)) as [->|(pars & -> & N5)]; [eexists; repeat split|]. tauto.
  Qed.
  (* A discrete level density given as argument only: refused with AttributeError, the
     attribute is what the fit reads. *)
  Theorem nld_discrete_argument : forall a (s : nst L B P O) d, n_regen _ _ _ _ s = true ->
    given (a_low _ _ _ a) (n_low _ _ _ _ s) -> given (a_high _ _ _ a) (n_high _ _ _ _ s) ->
    a_disc _ _ _ a <> None -> n_disc _ _ _ _ s = None -> given (a_nld _ _ _ a) (n_nld _ _ _ _ s) ->
    (exists p, self_if_none (a_pars _ _ _ a) (n_pars _ _ _ _ s) = Ok p /\ pars_set p = Ok tt) ->
    exists s', nld_normalize L B P O pars_set fit transform a s d = (s', d, Raise AttributeError).
  Proof.
    intros a s d RG G1 G2 G3 G3' G4 (p & G5 & G6). unfold nld_normalize, frame. rewrite RG. unfold nld_compute.
    destruct (given_ok _ _ G1) as [low ->]. destruct (given_ok _ _ G2) as [high ->].
    destruct (given_ok _ _ (or_introl G3 : given (a_disc _ _ _ a) (n_disc _ _ _ _ s))) as [disc ->]. destruct (given_ok _ _ G4) as [nld ->].
    rewrite G5, G6. rewrite G3'. destruct (a_disc _ _ _ a); [|congruence]. eexists. reflexivity.
  Qed.
  (* ------------------------------------------------------------------ ensembleNormalizer.py 186-204, models.py 300-305 *)
  (* A member whose strength function has no bin left after the removal of NaN: IndexError
     with fresh normalisers. *)
  Variable gfit : vec -> Qc -> nres O -> result Qc.
  Theorem stagewise_empty_gsf : forall s nld gsf s1 r, (forall v A al, v_E (transform v A al) = v_E v) -> v_E gsf = [] ->
    nld_compute L B P O pars_set fit transform (mkA L B P None None (Some nld) None None None) s = (s1, Ok tt) -> n_res _ _ _ _ s1 = Some r ->
    EnsNormModel.stage_norm L B P O pars_set fit transform gfit (s, None) nld gsf = ((s1, None), Raise IndexError).
  Proof.
    intros s nld gsf s1 r TE GE NC NR. unfold EnsNormModel.stage_norm. cbn [fst snd]. rewrite NC, NR. rewrite TE.
    assert (v_E (to_MeV gsf) = []) as -> by (unfold to_MeV; destruct (v_MeV gsf); cbn; now rewrite GE). reflexivity.
  Qed.
End NLD.
Print Assumptions nld_missing_input.
Print Assumptions nld_discrete_argument.
Print Assumptions stagewise_empty_gsf.

(* Limits missing; and an ensemble member without strength function. *)
Definition toy_fit (n d : vec) (low high b p : Qc) : result (Qc * Qc * Qc) := Ok (1, 1, 0).
Definition toy_tr (v : vec) (A al : Qc) : vec := v.
Example missing_limits : let v := mkVec [1] [1] None true in
  let s := nld_new Qc Qc Qc Qc (Some v) (Some v) (Some 0%nat) true (Some 0) 0 in
  snd (nld_normalize Qc Qc Qc Qc (fun _ => Ok tt) toy_fit toy_tr (no_args Qc Qc Qc) s (fun _ => Absent)) = Raise ValueError.
Proof. reflexivity. Qed.
Example empty_member : let v := mkVec [1] [1] None true in
  let s := mkN Qc Qc Qc Qc true true (Some 0%nat) (Some v) (Some v) (Some 0) (Some 1) 0 (Some 0) None None in
  snd (EnsNormModel.stage_norm Qc Qc Qc Qc (fun _ => Ok tt) toy_fit toy_tr (fun _ _ _ => Ok 1) (s, None) v (mkVec [] [] None false)) = Raise IndexError.
Proof. reflexivity. Qed.
