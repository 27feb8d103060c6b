(* Further refusals and units, found by mutation testing. *)
From Coq Require Import Lia.
From Verif Require Import PyBase Axis MatrixModel VectorModel UnfoldModel CheckModel RespLoadModel.
From Verif Require NormStateModel.
Import ListNotations.
Local Open Scope list_scope.
Local Open Scope Qc_scope.

(* ------------------------------------------------------------------ matrix.py:140-177 *)
(* Whatever verify_integrity finds wrong, it raises ValueError. *)
Theorem verify_integrity_refusal : forall m c e, verify_integrity_eq m c = Raise e -> e = ValueError.
Proof.
  assert (V : forall l e, verify_equidistant l = Raise e -> e = ValueError).
  { intros l e. unfold verify_equidistant. cbv zeta. repeat match goal with |- context [if ?b then _ else _] => destruct b end; congruence. }
  intros m c e. unfold verify_integrity_eq. destruct (negb _); [congruence|]. destruct (negb _); [congruence|].
  assert (T : forall r : result unit, (forall x, r = Raise x -> x = ValueError) -> (do _ <- r;; match std m with Some s => if pair_eqb (shape (values m)) (shape s) then Ok tt else Raise ValueError | None => Ok tt end) = Raise e -> e = ValueError).
  { intros r R. destruct r as [u|x]; cbn [rbind]; [|intros Q; injection Q as <-; now apply R]. destruct (std m) as [s|]; [destruct (pair_eqb _ _)|]; congruence. }
  apply T. intros x. destruct c; [|discriminate]. destruct (verify_equidistant (Ex m)) as [u|y] eqn:Y; cbn [rbind]; [apply V|]. intros Q. injection Q as <-. now apply (V (Ex m)).
Qed.
Print Assumptions verify_integrity_refusal.
Example verify_refusal_cases :
  verify_integrity_eq (mkM (mkArr 2 [ql [1; 2]%Z]) (ql [1; 2]%Z) (ql [1; 2]%Z) None None) false = Raise ValueError /\
  verify_integrity_eq (mkM (mkArr 2 [ql [1; 2]%Z]) (ql [1; 2; 3]%Z) (ql [1]%Z) None None) false = Raise ValueError /\
  verify_integrity_eq (mkM (mkArr 2 [ql [1; 2]%Z]) (ql [1; 2]%Z) (ql [1]%Z) (Some (mkArr 1 [ql [1]%Z])) None) false = Raise ValueError /\
  verify_integrity_eq (mkM (mkArr 3 [ql [1; 2; 3]%Z]) (ql [1; 2; 4]%Z) (ql [1]%Z) None None) true = Raise ValueError.
Proof. repeat split; vm_compute; reflexivity. Qed.

(* ------------------------------------------------------------------ unfolder.py:278-290 *)
(* Folding needs a response, and one that fits. *)
Theorem fold_refused : forall un m,
  (u_R un = None -> fold un m = Raise AssertionError) /\
  (forall R, u_R un = Some R -> a_nc (values m) <> a_nr (values R) -> fold un m = Raise ValueError).
Proof.
  intros un m. unfold fold. split; [intros ->; reflexivity|]. intros R -> N. apply Nat.eqb_neq in N. now rewrite N.
Qed.
Print Assumptions fold_refused.

(* ------------------------------------------------------------------ response.py:176-207 *)
(* resp.dat without the announcing line raises Exception; with something else than a number of
   lines behind it ValueError. *)
Theorem table_refused : forall l,
  (~ In DMarker l -> read_table l = Raise RuntimeError) /\
  (forall a d r, ~ In DMarker a -> l = a ++ DMarker :: d :: r -> (forall n, d <> DCount n) -> read_table l = Raise ValueError) /\
  (forall a, ~ In DMarker a -> l = a ++ [DMarker] -> read_table l = Raise ValueError).
Proof.
  assert (A : forall a r, ~ In DMarker a -> after_marker (a ++ DMarker :: r) = Some r).
  { induction a as [|d a IH]; intros r N; [reflexivity|]. cbn [app after_marker]. destruct d; try (apply IH; intros I; apply N; now right). exfalso. apply N. now left. }
  intros l. split; [|split].
  - intros N. unfold read_table. assert (E : after_marker l = None); [|now rewrite E]. induction l as [|d l IH]; [reflexivity|]. cbn [after_marker]. destruct d; try (apply IH; intros I; apply N; now right). exfalso. apply N. now left.
  - intros a d r N -> D. unfold read_table. rewrite A by exact N. destruct d as [|n|x|]; try reflexivity. now destruct (D n).
  - intros a N ->. unfold read_table. now rewrite A.
Qed.
Print Assumptions table_refused.
Example table_refused_case : read_table [DText; DMarker; DRow (ql [1; 2]%Z); DText] = Raise ValueError /\ read_table [DText; DCount 3] = Raise RuntimeError.
Proof. split; reflexivity. Qed.

(* ------------------------------------------------------------------ normalizer_nld.py:178-230 *)
(* The normaliser works in MeV: the level density it keeps has the values of the one given and
   the same energies in MeV, and so have the discrete levels it holds. *)
Definition in_MeV (v w : NormStateModel.vec) : Prop :=
  NormStateModel.v_MeV w = true /\ NormStateModel.v_val w = NormStateModel.v_val v /\
  length (NormStateModel.v_E w) = length (NormStateModel.v_E v) /\
  forall i, nth i (NormStateModel.v_E w) 0 * (if NormStateModel.v_MeV v then 1 else qz 1000) = nth i (NormStateModel.v_E v) 0.
Lemma to_MeV_in v : in_MeV v (NormStateModel.to_MeV v).
Proof.
  unfold in_MeV, NormStateModel.to_MeV. destruct (NormStateModel.v_MeV v) eqn:E; cbn.
  - repeat split; try assumption. intros i. ring.
  - repeat split; [apply map_length|]. intros i. destruct (Nat.lt_ge_cases i (length (NormStateModel.v_E v))) as [L|L].
    + rewrite (nth_indep _ 0 (0 / qz 1000)) by (now rewrite map_length). rewrite (map_nth (fun e => e / qz 1000)). field. discriminate.
    + rewrite !nth_overflow by (rewrite ?map_length; exact L). ring.
Qed.
Theorem normalised_in_MeV : forall L B P O pars_set fit transform a s s',
  NormStateModel.nld_compute L B P O pars_set fit transform a s = (s', Ok tt) ->
  exists v w, (NormStateModel.a_nld L B P a = Some v \/ NormStateModel.a_nld L B P a = None /\ NormStateModel.n_nld L B P O s = Some v) /\
    NormStateModel.n_nld L B P O s' = Some w /\ in_MeV v w /\
    (NormStateModel.a_disc L B P a = None -> exists d e, NormStateModel.n_disc L B P O s = Some d /\ NormStateModel.n_disc L B P O s' = Some e /\ in_MeV d e).
Proof.
  intros L B P O pars_set fit transform a s s'. unfold NormStateModel.nld_compute.
  destruct (NormStateModel.self_if_none _ _) as [low|]; [|discriminate]. destruct (NormStateModel.self_if_none _ _) as [high|]; [|discriminate].
  destruct (NormStateModel.self_if_none _ (NormStateModel.n_disc _ _ _ _ _)) as [dd|]; [|discriminate].
  destruct (NormStateModel.self_if_none _ (NormStateModel.n_nld _ _ _ _ _)) as [nld0|] eqn:NL; [|discriminate].
  destruct (NormStateModel.self_if_none (NormStateModel.a_pars _ _ _ _) _) as [pars|]; [|discriminate]. destruct (pars_set pars); [|discriminate].
  set (disc := match NormStateModel.a_disc L B P a with Some _ => _ | None => _ end).
  assert (SRC : NormStateModel.a_nld L B P a = Some nld0 \/ NormStateModel.a_nld L B P a = None /\ NormStateModel.n_nld L B P O s = Some nld0).
  { unfold NormStateModel.self_if_none in NL. destruct (NormStateModel.a_nld L B P a) as [x|]; [left; congruence|]. destruct (NormStateModel.n_nld L B P O s) as [x|]; [right; split; [reflexivity|congruence]|discriminate]. }
  assert (DI : NormStateModel.a_disc L B P a = None -> forall d, disc = Some d -> exists d0, NormStateModel.n_disc L B P O s = Some d0 /\ in_MeV d0 d).
  { intros N d. unfold disc. rewrite N. destruct (NormStateModel.n_disc L B P O s) as [d0|]; [|discriminate]. intros Q. injection Q as <-. exists d0. split; [reflexivity|apply to_MeV_in]. }
  clearbody disc. destruct disc as [d|]; [|discriminate].
  match goal with |- context [if ?b then NormStateModel.fake_std _ else _] => destruct b end;
  (destruct (fit _ _ _ _ _ _) as [[[A al] o]|]; [|discriminate]); intros Q; injection Q as <-; cbn [NormStateModel.n_nld NormStateModel.n_disc];
  (eexists _, _; split; [exact SRC|split; [reflexivity|split]]).
  - apply (to_MeV_in nld0).
  - intros N. destruct (DI N d eq_refl) as (d0 & D1 & D2). eauto.
  - apply (to_MeV_in nld0).
  - intros N. destruct (DI N d eq_refl) as (d0 & D1 & D2). eauto.
Qed.
Print Assumptions normalised_in_MeV.
(* 2000 keV are 2 MeV *)
Example in_MeV_case : in_MeV (NormStateModel.mkVec (ql [1000; 2000]%Z) (ql [5; 6]%Z) None false) (NormStateModel.mkVec (ql [1; 2]%Z) (ql [5; 6]%Z) None true) /\
  ~ in_MeV (NormStateModel.mkVec (ql [1000; 2000]%Z) (ql [5; 6]%Z) None false) (NormStateModel.mkVec (ql [1000; 2000]%Z) (ql [5; 6]%Z) None true).
Proof.
  split.
  - repeat split. intros [|[|i]]; cbn; [apply Qc_is_canon; reflexivity..|]. destruct i; ring.
  - intros (_ & _ & _ & H). specialize (H 0%nat). cbn in H. discriminate H.
Qed.
