(* C67: parameter classes: unknown attributes, check of defaults, save and load. *)
From Verif Require Import PyBase ParModel.
Local Open Scope string_scope.
Local Notation length := List.length (only parsing).

(* ---------------------------------------------------------- specification *)

(* Names a class declares: its fields, its methods and its properties *)
Definition declared (c : cls) (n : string) : Prop :=
  In n (map fst (c_fields c)) \/ In n (c_attrs c) \/ c_get c n <> None \/ c_set c n <> None.

(* An object made by the constructor and then assigned to any number of times *)
Definition made (c : cls) (o : obj) : Prop :=
  exists args o0 h, construct c args = Ok o0 /\ o = history o0 h.

(* A value that counts as set: not None, not an empty list, no None in a list *)
Definition is_set (v : pyv) : Prop :=
  v <> PNone /\ forall l, v = PList l -> l <> [] /\ ~ In PNone l.

(* The frozen classes *)
Definition frozen_class (c : cls) : Prop := c = NP \/ c = RES.

(* ---------------------------------------------------------- lemmas *)

Lemma mem_In k l : mem k l = true <-> In k l.
Proof.
  unfold mem. rewrite existsb_exists. split.
  - intros [x [I E]]. apply String.eqb_eq in E. subst. exact I.
  - intros I. exists k. split; [exact I|apply String.eqb_refl].
Qed.

Lemma dget_dset_same d k v : dget (dset d k v) k = Some v.
Proof.
  induction d as [|[k' v'] d IH]; simpl.
  - now rewrite String.eqb_refl.
  - destruct (k =? k') eqn:E; simpl.
    + now rewrite String.eqb_refl.
    + now rewrite E.
Qed.
Lemma dget_dset_other d k v n : n <> k -> dget (dset d k v) n = dget d n.
Proof.
  intros N. induction d as [|[k' v'] d IH]; simpl.
  - destruct (n =? k) eqn:E; [apply String.eqb_eq in E; congruence|reflexivity].
  - destruct (k =? k') eqn:E; simpl.
    + apply String.eqb_eq in E. subst k'.
      destruct (n =? k) eqn:E2; [apply String.eqb_eq in E2; congruence|reflexivity].
    + now rewrite IH.
Qed.
Lemma dset_keys d k v n :
  In n (map fst (dset d k v)) <-> In n (map fst d) \/ n = k.
Proof.
  induction d as [|[k' v'] d IH]; simpl.
  - intuition.
  - destruct (k =? k') eqn:E; simpl.
    + apply String.eqb_eq in E. subst. intuition.
    + rewrite IH. intuition.
Qed.
Lemma dget_In d k : In k (map fst d) <-> exists v, dget d k = Some v.
Proof.
  induction d as [|[k' v'] d IH]; simpl.
  - split; [tauto|intros [v E]; discriminate].
  - destruct (k =? k') eqn:E.
    + apply String.eqb_eq in E. subst. split; eauto.
    + apply String.eqb_neq in E. rewrite <- IH. split; [intros [Q|Q]; [congruence|exact Q]|tauto].
Qed.

(* What the two frozen classes have in common *)
Record wf (c : cls) : Prop := mkWf {
  wf_freeze : c_freeze c = true;
  wf_plain : forall k, In k (map fst (c_fields c) ++ c_attrs c) ->
             c_get c k = None /\ c_set c k = None;
  wf_set : forall n f d v k w, c_set c n = Some f -> f d v = Ok (k, w) ->
           In k (map fst (c_fields c)) }.

Lemma wf_frozen c : frozen_class c -> wf c.
Proof.
  intros [E|E]; subst c; constructor; try reflexivity.
  - intros k I. simpl in I.
    repeat (destruct I as [I|I]; [subst k; split; reflexivity|]). destruct I.
  - intros n f d v k w. simpl. unfold np_set.
    destruct (n =? "spincutPars"); [|destruct (n =? "A"); [|destruct (n =? "Emax"); [|discriminate]]];
      intros Q; injection Q as <-.
    + destruct v; intros Q; try discriminate Q; injection Q as <- <-; simpl; tauto.
    + intros Q; injection Q as <- <-; simpl; tauto.
    + destruct v; try (intros Q; discriminate Q).
      destruct (fld d "Emin"); try (intros Q; discriminate Q).
      destruct (qltb q0 q); intros Q; [injection Q as <- <-; simpl; tauto|discriminate Q].
  - intros k I. split; reflexivity.
  - intros n f d v k w Q. discriminate Q.
Qed.

(* Invariant of objects *)
Definition inv (c : cls) (o : obj) : Prop :=
  o_cls o = c /\ o_frozen o = true /\
  (forall k, In k (map fst (c_fields c)) -> In k (map fst (o_dict o))) /\
  (forall k, In k (map fst (o_dict o)) -> In k (map fst (c_fields c) ++ c_attrs c)).

Lemma construct_inv c args o : wf c -> construct c args = Ok o -> inv c o.
Proof.
  intros W. unfold construct. destruct (forallb _ args); [|intros Q; discriminate Q].
  rewrite (wf_freeze c W). intros Q. injection Q as <-. unfold inv. simpl.
  rewrite map_map. simpl. split; [reflexivity|]. split; [reflexivity|].
  split; [auto|]. intros k I. apply in_or_app. left. exact I.
Qed.

Lemma raw_setattr_inv c o n v o' :
  wf c -> inv c o -> In n (map fst (c_fields c) ++ c_attrs c) \/ c_get c n <> None ->
  raw_setattr o n v = Ok o' -> inv c o'.
Proof.
  intros W (C & F & K1 & K2) D. unfold raw_setattr. rewrite C.
  destruct (c_set c n) as [f|] eqn:ES.
  - destruct (f (o_dict o) v) as [[k w]|e] eqn:EF; simpl; [|intros Q; discriminate Q].
    intros Q. injection Q as <-. pose proof (wf_set c W n f _ _ _ _ ES EF) as I.
    unfold inv; simpl. split; [reflexivity|]. split; [exact F|]. split.
    + intros k' I'. apply dset_keys. left. now apply K1.
    + intros k' I'. apply dset_keys in I'. destruct I' as [I'|I']; [now apply K2|].
      subst. apply in_or_app. now left.
  - destruct (c_get c n) eqn:EG; [intros Q; discriminate Q|].
    intros Q. injection Q as <-. unfold inv; simpl. split; [reflexivity|]. split; [exact F|]. split.
    + intros k' I'. apply dset_keys. left. now apply K1.
    + intros k' I'. apply dset_keys in I'. destruct I' as [I'|I']; [now apply K2|].
      subst. destruct D as [D|D]; [exact D|congruence].
Qed.

Lemma getattr_known c o n v :
  inv c o -> getattr o n = Ok v ->
  In n (map fst (c_fields c) ++ c_attrs c) \/ c_get c n <> None.
Proof.
  intros (C & F & K1 & K2). unfold getattr. rewrite C.
  destruct (c_get c n) eqn:EG; [intros _; right; discriminate|].
  destruct (dget (o_dict o) n) eqn:ED.
  - intros _. left. apply K2. apply dget_In. eauto.
  - destruct (mem n (c_attrs c)) eqn:EM; [|intros Q; discriminate Q].
    intros _. left. apply in_or_app. right. now apply mem_In.
Qed.

Lemma setattr_inv c o n v o' : wf c -> inv c o -> setattr o n v = Ok o' -> inv c o'.
Proof.
  intros W I. pose proof I as (C & F & _). unfold setattr. rewrite F. unfold hasattr.
  destruct (getattr o n) as [w|e] eqn:EG.
  - simpl. intros E. eapply raw_setattr_inv; eauto. eapply getattr_known; eauto.
  - destruct e; intros Q; discriminate Q.
Qed.

Lemma history_inv c h : forall o, wf c -> inv c o -> inv c (history o h).
Proof.
  induction h as [|[n v] h IH]; intros o W I; [exact I|].
  apply IH; [exact W|]. unfold assign; simpl.
  destruct (setattr o n v) eqn:E; [eapply setattr_inv; eauto|exact I].
Qed.
Lemma made_inv c o : wf c -> made c o -> inv c o.
Proof.
  intros W (args & o0 & h & E & ->). apply history_inv; [exact W|].
  now apply construct_inv with args.
Qed.

(* ---------------------------------------------------------- theorems *)

(* NormalizationParameters and ResultsNormalized refuse unknown attributes, whatever
   has been assigned before. *)
Theorem unknown_attribute_raises : forall c o n v,
  frozen_class c -> made c o -> ~ declared c n -> setattr o n v = Raise AttributeError.
Proof.
  intros c o n v FC M ND. pose proof (wf_frozen c FC) as W.
  pose proof (made_inv c o W M) as (C & F & K1 & K2).
  unfold setattr, hasattr, getattr. rewrite F, C.
  destruct (c_get c n) eqn:EG.
  { exfalso. apply ND. right. right. left. congruence. }
  destruct (dget (o_dict o) n) eqn:ED.
  { exfalso. apply ND. assert (I : In n (map fst (o_dict o))) by (apply dget_In; eauto).
    apply K2 in I. apply in_app_or in I. destruct I; [now left|right; now left]. }
  destruct (mem n (c_attrs c)) eqn:EM; [|reflexivity].
  exfalso. apply ND. right. left. now apply mem_In.
Qed.
Print Assumptions unknown_attribute_raises.

(* An assignment to a field that is not a property takes effect and changes nothing
   else. *)
Theorem field_assignment : forall c o n v,
  frozen_class c -> made c o -> In n (map fst (c_fields c)) ->
  exists o', setattr o n v = Ok o' /\ getattr o' n = Ok v /\
    forall k, k <> n -> dget (o_dict o') k = dget (o_dict o) k.
Proof.
  intros c o n v FC M I. pose proof (wf_frozen c FC) as W.
  pose proof (made_inv c o W M) as (C & F & K1 & K2).
  destruct (wf_plain c W n) as [PG PS]; [apply in_or_app; now left|].
  pose proof (proj1 (dget_In _ _) (K1 n I)) as [w E].
  unfold setattr, hasattr, getattr, raw_setattr. rewrite F, C, PG, E, PS. simpl.
  eexists. split; [reflexivity|]. simpl. rewrite PG, dget_dset_same. split; [reflexivity|].
  intros k N. now apply dget_dset_other.
Qed.
Print Assumptions field_assignment.

(* is_changed accepts exactly the objects in which every parameter that is checked
   is set. *)
Lemma check_key_ok o k :
  check_key o k = Ok tt <-> exists v, getattr o (strip_ k) = Ok v /\ is_set v.
Proof.
  unfold check_key. destruct (getattr o (strip_ k)) as [v|e] eqn:E; simpl.
  2: { split; [intros Q; discriminate Q|intros [v [Q _]]; discriminate Q]. }
  split.
  - intros Q. exists v. split; [reflexivity|]. split.
    + intros ->. discriminate Q.
    + intros l ->. destruct l as [|x l]; [discriminate Q|].
      split; [discriminate|]. destruct (existsb is_none (x :: l)) eqn:EX; [discriminate Q|].
      intros I. assert (T : existsb is_none (x :: l) = true).
      { apply existsb_exists. exists PNone. split; [exact I|reflexivity]. }
      rewrite T in EX. discriminate EX.
  - intros [v' [Q [N L]]]. injection Q as <-. destruct v; try reflexivity.
    + congruence.
    + destruct (L l eq_refl) as [NE NI]. destruct l as [|x l]; [congruence|].
      destruct (existsb is_none (x :: l)) eqn:EX; [|reflexivity].
      apply existsb_exists in EX. destruct EX as [y [I Y]]. destruct y; try discriminate Y.
      contradiction.
Qed.
Lemma check_keys_ok o ks :
  check_keys o ks = Ok tt <-> forall k, In k ks -> check_key o k = Ok tt.
Proof.
  induction ks as [|k ks IH]; simpl.
  - split; [tauto|reflexivity].
  - destruct (check_key o k) as [[]|e] eqn:E; simpl.
    + rewrite IH. split; [intros H k' [<-|I]; auto|auto].
    + split; [intros Q; discriminate Q|intros H; specialize (H k (or_introl eq_refl)); congruence].
Qed.

Theorem is_changed_iff : forall o exclude,
  is_changed o [] exclude = Ok tt <->
  (forall k, In k (get_parameters o) -> ~ In k exclude ->
     exists v, getattr o (strip_ k) = Ok v /\ is_set v).
Proof.
  intros o ex. unfold is_changed. rewrite check_keys_ok. split.
  - intros H k I N. apply check_key_ok. apply H. apply filter_In. split; [exact I|].
    destruct (mem k ex) eqn:E; [|reflexivity]. apply mem_In in E. contradiction.
  - intros H k I. apply filter_In in I. destruct I as [I E]. apply check_key_ok. apply H; [exact I|].
    intros M. apply mem_In in M. rewrite M in E. discriminate E.
Qed.
Print Assumptions is_changed_iff.

(* The check of a list of names given by the caller (as normalizer_nld.py 189) *)
Theorem is_changed_include : forall o include,
  include <> [] ->
  (is_changed o include [] = Ok tt <->
   forall k, In k include -> exists v, getattr o (strip_ k) = Ok v /\ is_set v).
Proof.
  intros o inc NE. unfold is_changed. destruct inc as [|k0 inc]; [congruence|].
  rewrite check_keys_ok. split.
  - intros H k I. apply check_key_ok. apply H. apply filter_In. split; [exact I|reflexivity].
  - intros H k I. apply filter_In in I. apply check_key_ok. apply H. tauto.
Qed.
Print Assumptions is_changed_include.

(* A parameter whose value is None is reported as ValueError if everything before it
   is set. *)
Theorem is_changed_none : forall o ks k ks',
  (forall j, In j ks -> exists v, getattr o (strip_ j) = Ok v /\ is_set v) ->
  getattr o (strip_ k) = Ok PNone ->
  is_changed o (ks ++ k :: ks')%list [] = Raise ValueError.
Proof.
  intros o ks k ks' H E. unfold is_changed.
  assert (G : check_keys o (ks ++ k :: ks')%list = Raise ValueError).
  { induction ks as [|j ks IH]; simpl.
    - unfold check_key at 1. rewrite E. reflexivity.
    - rewrite (proj2 (check_key_ok o j)); [|apply H; now left]. simpl. apply IH.
      intros j' I. apply H. now right. }
  assert (FI : filter (fun k0 => negb (mem k0 [])) (ks ++ k :: ks')%list = (ks ++ k :: ks')%list).
  { clear. induction (ks ++ k :: ks')%list as [|x l IH]; [reflexivity|simpl filter; f_equal; exact IH]. }
  destruct (ks ++ k :: ks')%list eqn:D; [destruct ks; discriminate D|].
  rewrite FI. exact G.
Qed.
Print Assumptions is_changed_none.

(* Saving one object and loading it into another restores every parameter. *)
Lemma load_keys_spec c : wf c -> forall ks b src,
  inv c b -> inv c src -> (forall k, In k ks -> In k (map fst (o_dict src))) ->
  exists b', load_keys b src ks = Ok b' /\ inv c b' /\
    (forall k, In k ks -> dget (o_dict b') k = dget (o_dict src) k) /\
    (forall k, ~ In k ks -> dget (o_dict b') k = dget (o_dict b) k).
Proof.
  intros W. induction ks as [|k ks IH]; intros b src IB IS KS.
  - exists b. simpl. repeat split; auto; try apply IB. intros k [].
  - simpl. pose proof IS as (C & F & K1 & K2). pose proof IB as (CB & FB & K1B & K2B).
    assert (I : In k (map fst (o_dict src))) by (apply KS; now left).
    pose proof (K2 k I) as I2. destruct (wf_plain c W k I2) as [PG PS].
    destruct (proj1 (dget_In _ _) I) as [v E].
    assert (G : getattr src k = Ok v) by (unfold getattr; rewrite C, PG, E; reflexivity).
    rewrite G. simpl.
    assert (ST : setattr b k v = Ok (mkObj c (dset (o_dict b) k v) true)).
    { unfold setattr, hasattr, getattr, raw_setattr. rewrite FB, CB, PG, PS.
      destruct (dget (o_dict b) k) eqn:EB; [reflexivity|].
      apply in_app_or in I2. destruct I2 as [I2|I2].
      - apply K1B in I2. apply dget_In in I2. destruct I2 as [w I2]. congruence.
      - rewrite (proj2 (mem_In k (c_attrs c)) I2). reflexivity. }
    rewrite ST. simpl.
    destruct (IH (mkObj c (dset (o_dict b) k v) true) src) as (b' & L & IB' & S1 & S2).
    + exact (setattr_inv c b k v _ W IB ST).
    + exact IS.
    + intros j J. apply KS. now right.
    + exists b'. split; [exact L|]. split; [exact IB'|]. split.
      * intros j [<-|J]; [|now apply S1].
        destruct (in_dec String.string_dec k ks) as [J|J]; [now apply S1|].
        rewrite S2 by exact J. simpl. rewrite dget_dset_same. congruence.
      * intros j J. rewrite S2 by (intros J2; apply J; now right). simpl.
        apply dget_dset_other. intros ->. apply J. now left.
Qed.

Theorem save_load_restores : forall c a b,
  frozen_class c -> made c a -> made c b ->
  existsb (fun kv => unpicklable (snd kv)) (o_dict a) = false ->
  exists b', load b (Some a) = Ok b' /\
    forall k, In k (get_parameters a) -> dget (o_dict b') k = dget (o_dict a) k.
Proof.
  intros c a b FC MA MB U. pose proof (wf_frozen c FC) as W.
  pose proof (made_inv c a W MA) as IA. pose proof (made_inv c b W MB) as IB.
  unfold load. rewrite U.
  destruct (load_keys_spec c W (get_parameters a) b a IB IA) as (b' & L & _ & S1 & _).
  { intros k I. unfold get_parameters in I. apply filter_In in I. tauto. }
  exists b'. split; [exact L|exact S1].
Qed.
Print Assumptions save_load_restores.

(* In particular every declared parameter and every property of
   NormalizationParameters reads the same after loading. *)
Theorem save_load_NP : forall a b n,
  made NP a -> made NP b ->
  existsb (fun kv => unpicklable (snd kv)) (o_dict a) = false ->
  In n (map fst np_fields) \/ c_get NP n <> None ->
  exists b', load b (Some a) = Ok b' /\ getattr b' n = getattr a n.
Proof.
  intros a b n MA MB U D. assert (FC : frozen_class NP) by now left.
  pose proof (wf_frozen NP FC) as W.
  pose proof (made_inv NP a W MA) as IA. pose proof (made_inv NP b W MB) as IB.
  unfold load. rewrite U.
  destruct (load_keys_spec NP W (get_parameters a) b a IB IA) as (b' & L & IB' & S1 & _).
  { intros k I. unfold get_parameters in I. apply filter_In in I. tauto. }
  exists b'. split; [exact L|].
  assert (FLD : forall k, In k (map fst np_fields) -> dget (o_dict b') k = dget (o_dict a) k).
  { intros k I. apply S1. unfold get_parameters. apply filter_In. split; [now apply IA|].
    simpl in I. repeat (destruct I as [I|I]; [subst k; reflexivity|]). destruct I. }
  destruct IA as (CA & _). destruct IB' as (CB & _).
  unfold getattr. rewrite CA, CB. destruct D as [D|D].
  - assert (N : c_get NP n = None).
    { destruct (wf_plain NP W n) as [Q _]; [apply in_or_app; now left|exact Q]. }
    rewrite N, (FLD n D). reflexivity.
  - revert D. simpl. unfold np_get, spinMass, fld.
    assert (F1 : dget (o_dict b') "_spincutPars" = dget (o_dict a) "_spincutPars")
      by (apply FLD; simpl; tauto).
    assert (F2 : dget (o_dict b') "_A" = dget (o_dict a) "_A") by (apply FLD; simpl; tauto).
    assert (F3 : dget (o_dict b') "_Emax" = dget (o_dict a) "_Emax") by (apply FLD; simpl; tauto).
    assert (F4 : dget (o_dict b') "Sn" = dget (o_dict a) "Sn") by (apply FLD; simpl; tauto).
    destruct (n =? "spinMass"); [rewrite F1; reflexivity|].
    destruct (n =? "spincutPars"); [rewrite F1; reflexivity|].
    destruct (n =? "A"); [rewrite F1, F2; reflexivity|].
    destruct (n =? "Emax"); [rewrite F3, F4; reflexivity|]. congruence.
Qed.
Print Assumptions save_load_NP.

(* Loading a file that does not exist raises; nothing is assigned. *)
Theorem load_missing : forall o, load o None = Raise OSErr.
Proof. reflexivity. Qed.

(* ---------------------------------------------------------- examples *)

(* The parameters of the 164Dy example *)
Definition dy_args : dict :=
  [("name", PStr "164Dy"); ("D0", PList [PNum (Q2Qc (68 # 10)); PNum (Q2Qc (6 # 10))]);
   ("Gg", PList [num 113; num 13]); ("Sn", PList [PNum (Q2Qc (7658 # 1000)); PNum (Q2Qc (1 # 1000))]);
   ("Jtarget", PNum (Q2Qc (5 # 2))); ("spincutModel", PStr "EB05")].
Definition dy (mass : bool) : obj :=
  match construct NP dy_args with
  | Ok o => history o [("spincutPars",
                        PDict ((if mass then [("mass", num 164)] else []) ++
                               [("NLDa", num 18); ("Eshift", num 0)]))]
  | Raise _ => mkObj NP [] true
  end.

Lemma dy_made m : made NP (dy m).
Proof.
  unfold made, dy. exists dy_args. destruct (construct NP dy_args) eqn:E.
  - exists a. eexists. split; reflexivity.
  - exfalso. apply (f_equal (fun r => match r with Ok _ => true | Raise _ => false end)) in E.
    vm_compute in E. discriminate E.
Qed.

(* All checked parameters are set: accepted, and a typing error is refused *)
Example dy_accepted : np_is_changed (dy true) [] None = Ok tt.
Proof. vm_compute. reflexivity. Qed.
Example dy_typo : setattr (dy true) "Gq" (num 1) = Raise AttributeError.
Proof.
  apply (unknown_attribute_raises NP); [now left|apply dy_made|].
  intros [D|[D|[D|D]]].
  - simpl in D. repeat (destruct D as [D|D]; [discriminate D|]). destruct D.
  - simpl in D. repeat (destruct D as [D|D]; [discriminate D|]). destruct D.
  - apply D. reflexivity.
  - apply D. reflexivity.
Qed.
Example dy_without_Gg :
  rmap (fun o => np_is_changed o [] None) (setattr (dy true) "Gg" PNone) = Ok (Raise ValueError).
Proof. vm_compute. reflexivity. Qed.
Example dy_loaded :
  match construct NP [] with
  | Ok b => rmap (fun b' => getattr b' "Emax") (load b (Some (dy true)))
  | Raise e => Raise e
  end = Ok (getattr (dy true) "Emax").
Proof. vm_compute. reflexivity. Qed.

(* ---------------------------------------------------------- refutations *)

(* "setting an unknown attribute raises" is false for the extrapolation models:
   their __post_init__ replaces the freezing one. *)
Theorem extrapolation_unknown_refuted :
  exists o o', construct (EXT "ExtrapolationModelLow") [] = Ok o /\
    ~ declared (EXT "ExtrapolationModelLow") "Efits" /\
    setattr o "Efits" (PList [num 1; num 2]) = Ok o' /\
    getattr o' "Efit" = Ok (PList [PNone; PNone]).
Proof.
  eexists. eexists. split; [reflexivity|]. split.
  - intros [D|[D|[D|D]]].
    + simpl in D. repeat (destruct D as [D|D]; [discriminate D|]). destruct D.
    + simpl in D. repeat (destruct D as [D|D]; [discriminate D|]). destruct D.
    + apply D. reflexivity.
    + apply D. reflexivity.
  - split; reflexivity.
Qed.
Print Assumptions extrapolation_unknown_refuted.

(* Saving and loading an extrapolation model fails: its default model is a private
   bound method, which pickle cannot restore. *)
Theorem extrapolation_save_load_refuted :
  exists o, construct (EXT "ExtrapolationModelHigh") [] = Ok o /\
    load o (Some o) = Raise AttributeError.
Proof. eexists. split; [reflexivity|]. vm_compute. reflexivity. Qed.
Print Assumptions extrapolation_save_load_refuted.

(* A known parameter cannot be assigned as long as Sn is not set: hasattr evaluates
   the property. *)
Theorem set_Emax_refuted :
  exists o, construct NP [("name", PStr "x")] = Ok o /\ declared NP "Emax" /\
    setattr o "Emax" (num 5) = Raise TypeError.
Proof.
  eexists. split; [reflexivity|]. split; [right; right; left; discriminate|].
  vm_compute. reflexivity.
Qed.
Print Assumptions set_Emax_refuted.

(* The exclusion of A does not work: parameters for a spin-cut model without mass
   are refused although every parameter that is not excluded is set. *)
Theorem exclude_A_refuted :
  exists o, made NP o /\
    getattr o "exclude_check_change" =
      Ok (PList [PStr "A"; PStr "Z"; PStr "exclude_check_change"]) /\
    (forall k, In k ["name"; "D0"; "Gg"; "Sn"; "Jtarget"; "Emin"; "Emax"; "steps"; "spincutModel";
                     "spincutPars"] ->
       exists v, getattr o k = Ok v /\ is_set v) /\
    np_is_changed o [] None = Raise ValueError.
Proof.
  exists (dy false). split; [apply dy_made|]. split; [vm_compute; reflexivity|]. split.
  - intros k I.
    assert (S1 : strip_ k = k).
    { simpl in I. repeat (destruct I as [I|I]; [subst k; reflexivity|]). destruct I. }
    rewrite <- S1. apply check_key_ok.
    simpl in I. repeat (destruct I as [I|I]; [subst k; vm_compute; reflexivity|]). destruct I.
  - vm_compute. reflexivity.
Qed.
Print Assumptions exclude_A_refuted.

(* Parameters with a default other than None are not checked. *)
Theorem default_not_reported_refuted :
  exists o, made NP o /\ getattr o "steps" = Ok (num 101) /\
    dget np_fields "steps" = Some (num 101) /\ np_is_changed o [] None = Ok tt.
Proof.
  exists (dy true). split; [apply dy_made|]. repeat split; vm_compute; reflexivity.
Qed.
Print Assumptions default_not_reported_refuted.

(* An unset list is reported by the wrong exception. *)
Theorem default_list_refuted :
  exists o, construct RES [("name", PStr "res")] = Ok o /\ is_changed o [] [] = Raise NameError.
Proof. eexists. split; [reflexivity|]. vm_compute. reflexivity. Qed.
Print Assumptions default_list_refuted.
