(* C60: the spin sum of the average total radiative width, and its saved result. *)
From Coq Require Import String Permutation.
From Verif Require Import PyBase RebinModel Rebin2DProofs FirstGenProofs ResponseModel SpinSumModel SpinSumSpec SpinSumProofs.
Local Notation length := List.length (only parsing).

(* For target spin j/2 and orbital momentum l, the sum runs over every resonance spin r/2
   that the target, the neutron and l couple to, once each, and for each of them over every
   final spin f/2 that a dipole transition reaches (the triangle rule excludes 0 -> 0).  Rs
   and Fs are any lists of these spins without repetition. *)
Theorem spin_sum_selection (pars : Type) (dist : string -> pars -> Qc -> result (Qc -> Qc))
    model p e g j l (Rs : list nat) (Fs : nat -> list nat) :
  dist model p e = Ok g ->
  NoDup Rs -> (forall r, In r Rs <-> reachable j l r) ->
  (forall r, In r Rs -> NoDup (Fs r) /\ forall f, In f (Fs r) <-> dipole r f) ->
  direct pars dist model p (Scal e) (half j) (qnat l) =
  Ok (Scal (qsum (map (fun r => qsum (map (fun f => g (half f)) (Fs r))) Rs))).
Proof.
  intros D N I HF. unfold direct. replace (qleb 0 (half j)) with true.
  2:{ symmetry. destruct (qleb_spec 0 (half j)) as [|H]; [reflexivity|]. exfalso. apply (Qclt_not_le _ _ H). rewrite half_hz, <- hz_0. apply (proj2 (hz_le _ _)). lia. }
  replace (qleb 0 (qnat l)) with true.
  2:{ symmetry. destruct (qleb_spec 0 (qnat l)) as [|H]; [reflexivity|]. exfalso. apply (Qclt_not_le _ _ H). rewrite qnat_hz, <- hz_0. apply (proj2 (hz_le _ _)). lia. }
  cbn [andb]. rewrite D. cbn [rbind]. do 2 f_equal. now apply spin_sum_lemma.
Qed.
Print Assumptions spin_sum_selection.

(* An array of energies gives the array of the sums for its elements, or an exception if one
   of the elements gives one. *)
Theorem spin_sum_array (pars : Type) (dist : string -> pars -> Qc -> result (Qc -> Qc)) model p es J L vs :
  direct pars dist model p (Arr es) J L = Ok vs ->
  exists rs, vs = Arr rs /\ length rs = length es /\
    forall i, (i < length es)%nat -> direct pars dist model p (Scal (nth i es 0)) J L = Ok (Scal (nth i rs 0)).
Proof.
  unfold direct. destruct (qleb 0 J && qleb 0 L); [|discriminate].
  destruct (rmapm _ es) as [rs|] eqn:E; [|discriminate]. cbn [rbind]. intros [= <-]. exists rs. split; [reflexivity|].
  split; [exact (rmapm_length _ _ _ E)|]. intros i Hi. pose proof (rmapm_nth _ _ _ 0 0 _ E Hi) as Q. cbv beta in Q.
  destruct (dist model p (nth i es 0)) as [v|]; [|discriminate Q]. cbn [rbind] in *. assert (Q' := f_equal (fun r => match r with Ok x => Ok (Scal x) | Raise x => Raise x end) Q). exact Q'.
Qed.
Print Assumptions spin_sum_array.

(* For s-wave resonances (the default l = 0) and target spin of at least 3/2 the sum is the
   well-known expression with the multiplicities 1, 2, 2, 1. *)
Definition swave_finals (r : nat) : list nat := match r with O => [2] | 1 => [1; 3] | S (S k) => [k; k + 2; k + 4] end%nat.
Lemma swave_finals_ok r : NoDup (swave_finals r) /\ forall f, In f (swave_finals r) <-> dipole r f.
Proof.
  split.
  - destruct r as [|[|k]]; cbn; repeat constructor; cbn; lia.
  - intros f. unfold dipole, triangle. split.
    + destruct r as [|[|k]]; cbn [swave_finals In]; intros H.
      * destruct H as [<-|[]]. repeat split; lia.
      * destruct H as [<-|[<-|[]]]; repeat split; lia.
      * destruct H as [<-|[<-|[<-|[]]]]; repeat split; try lia; apply Nat.even_spec; [exists (k + 2)%nat|exists (k + 3)%nat|exists (k + 4)%nat]; lia.
    + intros (A & B & C & D). apply Nat.even_spec in D. destruct D as [d D]. destruct r as [|[|k]]; cbn [swave_finals In].
      * left. lia.
      * assert (f = 1 \/ f = 3)%nat by lia. intuition.
      * assert (f = k \/ f = k + 2 \/ f = k + 4)%nat by lia. intuition.
Qed.
Theorem spin_sum_swave (pars : Type) (dist : string -> pars -> Qc -> result (Qc -> Qc)) model p e g j :
  dist model p e = Ok g -> (3 <= j)%nat ->
  direct pars dist model p (Scal e) (half j) (qnat 0) =
  Ok (Scal (g (half (j - 3)) + qz 2 * g (half (j - 1)) + qz 2 * g (half (j + 1)) + g (half (j + 3)))).
Proof.
  intros D Hj. rewrite (spin_sum_selection _ _ _ _ _ g j 0 [j - 1; j + 1]%nat swave_finals D).
  - do 2 f_equal. destruct j as [|[|[|k]]]; try lia.
    replace (S (S (S k)) - 1)%nat with (S (S k)) by lia. replace (S (S (S k)) + 1)%nat with (S (S (S (S k)))) by lia.
    replace (S (S (S k)) - 3)%nat with k by lia. replace (S (S (S k)) + 3)%nat with (k + 6)%nat by lia. cbn [map qsum fold_right swave_finals].
    replace (k + 2)%nat with (S (S k)) by lia. replace (k + 4)%nat with (S (S (S (S k)))) by lia.
    replace (S (S k) + 2)%nat with (S (S (S (S k)))) by lia. replace (S (S k) + 4)%nat with (k + 6)%nat by lia. unfold qsum; cbn. rewrite qz_2. ring.
  - constructor; [cbn; lia|]. constructor; [cbn; tauto|constructor].
  - intros r. cbn [In]. unfold reachable, triangle. split.
    + intros [<-|[<-|[]]]; [exists (j - 1)%nat|exists (j + 1)%nat]; repeat split; try lia; apply Nat.even_spec;
        [exists j|exists (j - 1)%nat|exists (j + 1)%nat|exists (j + 1)%nat]; lia.
    + intros (s & (A1 & A2 & A3 & A4) & (B1 & B2 & B3 & B4)). apply Nat.even_spec in A4. destruct A4 as [a A4]. lia.
  - intros r _. apply swave_finals_ok.
Qed.
Print Assumptions spin_sum_swave.

(* target spin 0: resonance 1/2, finals 1/2 and 3/2; target spin 1/2: resonances 0 and 1, finals
   1 from 0 and 0, 1, 2 from 1 *)
Example spin_sum_J0 : leqb (summed_spins (half 0) (qnat 0)) (map half [1; 3]%nat) = true. Proof. vm_compute. reflexivity. Qed.
Example spin_sum_J12 : leqb (summed_spins (half 1) (qnat 0)) (map half [2; 0; 2; 4]%nat) = true. Proof. vm_compute. reflexivity. Qed.
Example spin_sum_J32 : leqb (summed_spins (half 3) (qnat 0)) (map half [0; 2; 4; 2; 4; 6]%nat) = true. Proof. vm_compute. reflexivity. Qed.
(* p-wave resonances on target spin 0: 1/2 and 3/2 *)
Example spin_sum_J0_p : leqb (summed_spins (half 0) (qnat 1)) (map half [1; 3; 1; 3; 5]%nat) = true. Proof. vm_compute. reflexivity. Qed.
Example spin_sum_p_reachable : forall r, In r [1; 3]%nat <-> reachable 0 1 r.
Proof.
  intros r. cbn [In]. unfold reachable, triangle. split.
  - intros [<-|[<-|[]]]; exists 1%nat; cbn; repeat split; lia.
  - intros (s & (A1 & A2 & A3 & A4) & (B1 & B2 & B3 & B4)). assert (s = 1)%nat by lia. subst s. apply Nat.even_spec in B4. destruct B4 as [b B4]. lia.
Qed.

(* --- the saved result --- *)
Section Saved.
Context {pars : Type}.
Variable pars_eqb : pars -> pars -> bool.
Variable dist : string -> pars -> Qc -> result (Qc -> Qc).

(* the operations that do not change a dictionary or an array in place *)
Definition no_mutation (o : op pars) : Prop := match o with MutPars _ _ _ | MutArr _ _ _ => False | _ => True end.
(* the arrays of energies passed in a history *)
Fixpoint args (ops : list (op pars)) : list nat :=
  match ops with [] => [] | Sum _ Ex _ _ :: t => Ex :: args t | _ :: t => args t end.
Definition same_shape (a b : nparr) : Prop :=
  match a, b with Scal _, Scal _ => True | Arr l, Arr m => length l = length m | _, _ => False end.

Lemma np_all_eq_same a b : same_shape a b -> np_all_eq a b = true -> a = b.
Proof.
  destruct a as [x|l], b as [y|m]; cbn; intros H E; try contradiction.
  - now apply qeqb_eq in E as ->.
  - rewrite H, Nat.eqb_refl in E. now apply leqb_eq in E as ->.
Qed.
Lemma direct_ext model p q Ex J L : (forall e, dist model p e = dist model q e) -> direct pars dist model p Ex J L = direct pars dist model q Ex J L.
Proof.
  intros H. unfold direct. destruct (qleb 0 J && qleb 0 L); [|reflexivity]. destruct Ex as [e|l]; [now rewrite H|].
  f_equal. induction l as [|x l IH]; [reflexivity|]. cbn. rewrite H. destruct (dist model q x); [|reflexivity]. cbn. rewrite IH. reflexivity.
Qed.
Definition saved_inv (U : list nat) (s : state pars) : Prop :=
  forall sv, st_saved _ s = Some sv -> In (sv_Ex sv) U /\
    direct pars dist (sv_model sv) (h_pars _ (st_heap _ s) (sv_pars sv)) (h_arr _ (st_heap _ s) (sv_Ex sv)) (sv_J sv) (sv_L sv) = Ok (sv_sum sv).
Lemma reload_ok U s Ex J L v :
  (forall p q m e, pars_eqb p q = true -> dist m p e = dist m q e) ->
  (forall a b, In a U -> In b U -> same_shape (h_arr _ (st_heap _ s) a) (h_arr _ (st_heap _ s) b)) ->
  saved_inv U s -> In Ex U -> reload pars pars_eqb s Ex J L = Some v ->
  direct pars dist (st_model _ s) (h_pars _ (st_heap _ s) (st_pars _ s)) (h_arr _ (st_heap _ s) Ex) J L = Ok v.
Proof.
  intros PE SH SI HU. unfold reload. destruct (st_saved _ s) as [sv|] eqn:E; [|discriminate].
  match goal with |- context [if ?c then _ else _] => destruct c eqn:C end; [|discriminate]. intros H.
  rewrite !andb_true_iff in C. destruct C as ((((C1 & C2) & C3) & C4) & C5).
  apply String.eqb_eq in C1. apply qeqb_eq in C4. apply qeqb_eq in C5.
  destruct (SI _ E) as [IU D]. apply np_all_eq_same in C3; [|now apply SH]. rewrite <- C1, <- C3, <- C4, <- C5.
  rewrite <- (direct_ext _ _ _ _ _ _ (fun e => PE _ _ _ e C2)). rewrite D. congruence.
Qed.
Lemma history_lemma U ops : forall s s',
  (forall p q m e, pars_eqb p q = true -> dist m p e = dist m q e) ->
  Forall no_mutation ops -> (forall a, In a (args ops) -> In a U) ->
  (forall a b, In a U -> In b U -> same_shape (h_arr _ (st_heap _ s) a) (h_arr _ (st_heap _ s) b)) ->
  saved_inv U s -> st_heap _ s' = st_heap _ s -> st_model _ s' = st_model _ s -> st_pars _ s' = st_pars _ s ->
  snd (history pars pars_eqb dist s ops) = history_direct pars pars_eqb dist s' ops.
Proof.
  induction ops as [|o ops IH]; intros s s' PE NM AU SH SI EH EM EP; [reflexivity|].
  inversion NM as [|? ? N1 N2]; subst. cbn [history history_direct].
  destruct o as [Ex J L|m|d|d p|a v]; cbn [step step_direct]; try contradiction.
  - rewrite EH, EM, EP. unfold SpinSum.
    assert (HU : In Ex U) by (apply AU; cbn; auto). assert (AU' : forall a, In a (args ops) -> In a U) by (intros a Ha; apply AU; cbn; auto).
    destruct (reload pars pars_eqb s Ex J L) as [v|] eqn:R.
    + rewrite (reload_ok U s Ex J L v PE SH SI HU R).
      specialize (IH s s' PE N2 AU' SH SI EH EM EP). destruct (history pars pars_eqb dist s ops) as [s2 rs]. cbn [snd] in *. now rewrite IH.
    + destruct (direct pars dist _ _ _ J L) as [v|x] eqn:D.
      * set (s1 := mkState _ _ _ _ (Some _)).
        assert (SI1 : saved_inv U s1) by (intros sv [= <-]; cbn; split; assumption).
        specialize (IH s1 s' PE N2 AU' SH SI1 EH EM EP). destruct (history pars pars_eqb dist s1 ops) as [s2 rs]. cbn [snd] in *. now rewrite IH.
      * specialize (IH s s' PE N2 AU' SH SI EH EM EP). destruct (history pars pars_eqb dist s ops) as [s2 rs]. cbn [snd] in *. now rewrite IH.
  - specialize (IH (mkState _ (st_heap _ s) m (st_pars _ s) (st_saved _ s)) (mkState _ (st_heap _ s') m (st_pars _ s') (st_saved _ s')) PE N2 AU SH SI EH eq_refl EP).
    destruct (history pars pars_eqb dist _ ops) as [s2 rs]. exact IH.
  - specialize (IH (mkState _ (st_heap _ s) (st_model _ s) d (st_saved _ s)) (mkState _ (st_heap _ s') (st_model _ s') d (st_saved _ s')) PE N2 AU SH SI EH EM eq_refl).
    destruct (history pars pars_eqb dist _ ops) as [s2 rs]. exact IH.
Qed.
End Saved.

(* Whatever calls are made, and however the model name and the parameter dictionary are
   reassigned between them, the results are those of an object that saves nothing, provided
   that equal dictionaries mean the same distribution, that no dictionary or array is
   changed in place and that all energy arrays have the same shape.  Both provisos are
   needed (the refutations below). *)
Theorem spin_sum_cached_partial (pars : Type) (pars_eqb : pars -> pars -> bool) dist h m d ops :
  (forall p q mo e, pars_eqb p q = true -> dist mo p e = dist mo q e) ->
  Forall no_mutation ops ->
  (forall a b, In a (args ops) -> In b (args ops) -> same_shape (h_arr _ h a) (h_arr _ h b)) ->
  snd (history pars pars_eqb dist (mkState _ h m d None) ops) = history_direct pars pars_eqb dist (mkState _ h m d None) ops.
Proof.
  intros PE NM SH. apply (history_lemma pars_eqb dist (args ops)); auto. intros sv E. discriminate E.
Qed.
Print Assumptions spin_sum_cached_partial.

(* a distribution that depends on the parameters and the spin, for the examples *)
Definition dist_x (m : string) (p : Qc) (e : Qc) : result (Qc -> Qc) :=
  if String.eqb m "bad" then Raise NotImplementedErr else Ok (fun J => p * J + e).
Definition heap_x : heap Qc :=
  mkHeap _ (fun k => if (k =? 0)%nat then 1 else qz 2) (fun k => match k with O => Arr (ql [1; 2]%Z) | 1%nat => Arr (ql [1; 2]%Z) | 2%nat => Arr (ql [1; 3]%Z) | 3%nat => Scal 1 | _ => Arr (ql [1; 1]%Z) end).
Definition st_x := mkState Qc heap_x "EB05" 0%nat None.
Definition res_eqb (a b : result nparr) : bool :=
  match a, b with Ok (Scal x), Ok (Scal y) => qeqb x y | Ok (Arr l), Ok (Arr m) => leqb l m
  | Raise NotImplementedErr, Raise NotImplementedErr => true | _, _ => false end.
Fixpoint lres_eqb (a b : list (result nparr)) : bool :=
  match a, b with [], [] => true | x :: a, y :: b => res_eqb x y && lres_eqb a b | _, _ => false end.
Definition ops_x := [Sum Qc 0%nat (qn 1 2) 0; Sum Qc 1%nat (qn 1 2) 0; SetPars _ 1%nat; Sum _ 1%nat (qn 1 2) 0; Sum _ 2%nat (qn 1 2) 0; SetModel _ "bad"; Sum _ 2%nat (qn 1 2) 0; SetModel _ "EB05"; Sum _ 2%nat (qn 1 2) 0].
Example spin_sum_cached_x :
  Forall no_mutation ops_x /\ (forall a b, In a (args ops_x) -> In b (args ops_x) -> same_shape (h_arr _ heap_x a) (h_arr _ heap_x b)) /\
  lres_eqb (snd (history Qc qeqb dist_x st_x ops_x))
    [Ok (Arr (ql [8; 12]%Z)); Ok (Arr (ql [8; 12]%Z)); Ok (Arr (ql [12; 16]%Z)); Ok (Arr (ql [12; 20]%Z)); Raise NotImplementedErr; Ok (Arr (ql [12; 20]%Z))] = true.
Proof.
  split; [repeat constructor|]. split; [|vm_compute; reflexivity].
  intros a b Ha Hb. cbn in Ha, Hb. repeat destruct Ha as [<-|Ha]; repeat destruct Hb as [<-|Hb]; try contradiction; reflexivity.
Qed.

(* The dictionary of parameters is saved by reference (normalizer_gsf.py:402): after it is
   changed in place, the comparison is of the dictionary with itself and the old sum is
   returned. *)
Theorem spin_sum_dictionary_refuted : exists ops, Forall (fun o => match o with MutArr _ _ _ => False | _ => True end) ops /\
  (forall a b, In a (args ops) -> In b (args ops) -> same_shape (h_arr _ heap_x a) (h_arr _ heap_x b)) /\
  snd (history Qc qeqb dist_x st_x ops) <> history_direct Qc qeqb dist_x st_x ops.
Proof.
  exists [Sum Qc 0%nat (qn 1 2) 0; MutPars _ 0%nat (qz 5); Sum Qc 0%nat (qn 1 2) 0]. split; [repeat constructor|]. split.
  - intros a b Ha Hb. cbn in Ha, Hb. repeat destruct Ha as [<-|Ha]; repeat destruct Hb as [<-|Hb]; try contradiction; reflexivity.
  - intros E. apply (f_equal (fun l => lres_eqb l (history_direct Qc qeqb dist_x st_x [Sum Qc 0%nat (qn 1 2) 0; MutPars _ 0%nat (qz 5); Sum Qc 0%nat (qn 1 2) 0]))) in E. vm_compute in E. discriminate E.
Qed.
Print Assumptions spin_sum_dictionary_refuted.
(* The same holds for the array of energies. *)
Theorem spin_sum_array_mutation_refuted : exists ops, Forall (fun o => match o with MutPars _ _ _ => False | MutArr _ _ v => same_shape v (h_arr _ heap_x 0%nat) | _ => True end) ops /\
  (forall a b, In a (args ops) -> In b (args ops) -> same_shape (h_arr _ heap_x a) (h_arr _ heap_x b)) /\
  snd (history Qc qeqb dist_x st_x ops) <> history_direct Qc qeqb dist_x st_x ops.
Proof.
  exists [Sum Qc 0%nat (qn 1 2) 0; MutArr _ 0%nat (Arr (ql [7; 8]%Z)); Sum Qc 0%nat (qn 1 2) 0]. split; [repeat constructor|]. split.
  - intros a b Ha Hb. cbn in Ha, Hb. repeat destruct Ha as [<-|Ha]; repeat destruct Hb as [<-|Hb]; try contradiction; reflexivity.
  - intros E. apply (f_equal (fun l => lres_eqb l (history_direct Qc qeqb dist_x st_x [Sum Qc 0%nat (qn 1 2) 0; MutArr _ 0%nat (Arr (ql [7; 8]%Z)); Sum Qc 0%nat (qn 1 2) 0]))) in E. vm_compute in E. discriminate E.
Qed.
Print Assumptions spin_sum_array_mutation_refuted.
(* np.all(saved == new) broadcasts: after a number, an array of the same number gives a number. *)
Theorem spin_sum_shape_refuted : exists ops, Forall no_mutation ops /\
  snd (history Qc qeqb dist_x st_x ops) <> history_direct Qc qeqb dist_x st_x ops.
Proof.
  exists [Sum Qc 3%nat (qn 1 2) 0; Sum Qc 4%nat (qn 1 2) 0]. split; [repeat constructor|].
  intros E. apply (f_equal (fun l => lres_eqb l (history_direct Qc qeqb dist_x st_x [Sum Qc 3%nat (qn 1 2) 0; Sum Qc 4%nat (qn 1 2) 0]))) in E. vm_compute in E. discriminate E.
Qed.
Print Assumptions spin_sum_shape_refuted.
