(* C93. The two extraction algorithms: arguments, limits, uncertainties, units, nan. *)
From Coq Require Import String.
From Verif Require Import PyBase MatrixModel VectorModel VectorOpsProofs ArithModel ArithProofs ActionModel EnsembleModel ResponseFanProofs Rebin2DProofs RscDriverModel.
Local Open Scope list_scope.
Local Notation length := List.length (only parsing).

(* ------------------------------------------------------------------ entry *)
(* an argument, or the attribute if the argument is left out *)
Definition or_else {A} (a b : option A) : option A := match a with Some _ => a | None => b end.

Section Entry.
Variables Ens Act : Type.
Implicit Types (s : settings Ens Act) (e : option Ens) (t : option Act).

(* extract_from with the standard algorithm runs with the given or else the stored ensemble
   and action, stores them, and raises ValueError exactly if one of them is missing. *)
Theorem standard_arguments s e t r :
  match or_else e (x_ens s), or_else t (x_trap s) with
  | Some e', Some t' => extract_from s e t r "standard" =
      (mkSet (Some e') (Some t') (x_regen s), Ok (RunStandard e' t' (match r with Some b => b | None => x_regen s end)))
  | _, _ => snd (extract_from s e t r "standard") = Raise ValueError
  end.
Proof.
  destruct s as [se st sr], e as [e|], t as [t|], se as [se|], st as [st|], r as [[]|], sr; reflexivity.
Qed.

(* With rhosigchi this holds only if the ensemble is passed as an argument. *)
Theorem rhosigchi_arguments s e t r :
  match e, or_else t (x_trap s) with
  | Some e', Some t' => extract_from s e t r "rhosigchi" =
      (mkSet (Some e') (Some t') (x_regen s), Ok (RunRsc e' t' (match r with Some b => b | None => x_regen s end)))
  | None, Some _ => snd (extract_from s e t r "rhosigchi") = Raise (match x_ens s with Some _ => AttributeError | None => ValueError end)
  | _, None => snd (extract_from s e t r "rhosigchi") = Raise ValueError
  end.
Proof.
  destruct s as [se st sr], e as [e|], t as [t|], se as [se|], st as [st|], r as [[]|], sr; reflexivity.
Qed.
(* Any other name of an algorithm: nothing is run and nothing is raised. *)
Theorem unknown_algorithm s e t r a : a <> "standard"%string -> a <> "rhosigchi"%string ->
  or_else e (x_ens s) <> None -> or_else t (x_trap s) <> None -> snd (extract_from s e t r a) = Ok NoRun.
Proof.
  intros H1 H2. unfold extract_from. apply String.eqb_neq in H1, H2. rewrite H1, H2.
  destruct s as [se st sr], e as [e|], t as [t|], se as [se|], st as [st|], r as [[]|], sr; cbn; congruence.
Qed.
End Entry.
Print Assumptions standard_arguments.
Print Assumptions rhosigchi_arguments.
Print Assumptions unknown_algorithm.
(* the ensemble is stored: standard runs, rhosigchi does not *)
Theorem algorithms_same_arguments_refuted : exists s : settings nat nat,
  snd (extract_from s None None None "standard") = Ok (RunStandard 1%nat 2%nat false) /\
  snd (extract_from s None None None "rhosigchi") = Raise AttributeError.
Proof. exists (mkSet (Some 1%nat) (Some 2%nat) false). split; reflexivity. Qed.
Print Assumptions algorithms_same_arguments_refuted.
Example unknown_algorithm_ex : snd (extract_from (mkSet (Some 1%nat) (Some 2%nat) false) None None None "Standard") = Ok NoRun.
Proof. reflexivity. Qed.

(* ------------------------------------------------------------------ limits *)
(* the value of a keyword of a call *)
Definition has_kw {A} (c : call A) (k : string) (v : A) : Prop :=
  exists l r, c_kw c = l ++ (k, v) :: r /\ forall w, ~ In (k, w) l.
Definition is_trapezoid {A} (c : call A) : Prop := c_name c = "trapezoid"%string.
Definition has_limits {A} (c : call A) (l : A * A * A) : Prop :=
  has_kw c "Ex_min" (fst (fst l)) /\ has_kw c "Ex_max" (snd (fst l)) /\ has_kw c "Eg_min" (snd l).

Lemma kw_get_spec {A} (c : call A) k v : kw_get (c_kw c) k = Ok v <-> has_kw c k v.
Proof.
  unfold kw_get, has_kw. induction (c_kw c) as [|[k' v'] d IH]; cbn [find fst].
  - split; [discriminate|]. intros ([|? ?] & r & H & _); discriminate.
  - destruct (String.eqb_spec k' k) as [->|N].
    + cbn [snd]. split.
      * intros H. injection H as ->. exists [], d. split; [reflexivity|]. intros w [].
      * intros (l & r & H & NI). destruct l as [|[k2 v2] l]; cbn [app] in H; injection H as Q; [now subst|].
        exfalso. subst. apply (NI v2). now left.
    + rewrite IH. split.
      * intros (l & r & H & NI). exists ((k', v') :: l), r. split; [cbn; congruence|]. intros w [Q|Q]; [injection Q as Q _; congruence|now apply (NI w)].
      * intros (l & r & H & NI). destruct l as [|[k2 v2] l]; cbn [app] in H; injection H as Q1 Q2; [congruence|].
        exists l, r. split; [assumption|]. intros w Hw. apply (NI w). now right.
Qed.
Lemma kw_get_err {A} (d : kwargs A) k : (exists v, kw_get d k = Ok v) \/ kw_get d k = Raise KeyError.
Proof. unfold kw_get. destruct (find _ d); eauto. Qed.
Lemma has_limits_dec {A} (c : call A) :
  (exists l, has_limits c l /\ (do x1 <- kw_get (c_kw c) "Ex_min" ;; do x2 <- kw_get (c_kw c) "Ex_max" ;; do g <- kw_get (c_kw c) "Eg_min" ;; Ok (Some (x1, x2, g))) = Ok (Some l)) \/
  ((forall l, ~ has_limits c l) /\ (do x1 <- kw_get (c_kw c) "Ex_min" ;; do x2 <- kw_get (c_kw c) "Ex_max" ;; do g <- kw_get (c_kw c) "Eg_min" ;; Ok (Some (x1, x2, g))) = Raise KeyError).
Proof.
  assert (N : forall k, kw_get (c_kw c) k = Raise KeyError -> forall v, ~ has_kw c k v) by (intros k H v Q; apply kw_get_spec in Q; congruence).
  destruct (kw_get_err (c_kw c) "Ex_min") as [(a & HA)|HA]; rewrite HA; cbn [rbind]; [|right; split; [intros l (Q & _); exact (N _ HA _ Q)|reflexivity]].
  destruct (kw_get_err (c_kw c) "Ex_max") as [(b & HB)|HB]; rewrite HB; cbn [rbind]; [|right; split; [intros l (_ & Q & _); exact (N _ HB _ Q)|reflexivity]].
  destruct (kw_get_err (c_kw c) "Eg_min") as [(d & HD)|HD]; rewrite HD; cbn [rbind]; [|right; split; [intros l (_ & _ & Q); exact (N _ HD _ Q)|reflexivity]].
  left. exists (a, b, d). split; [|reflexivity]. repeat split; now apply kw_get_spec.
Qed.
Lemma limits_raise {A} (calls : list (call A)) x : fold_left (limits_step A) calls (Raise x) = Raise x.
Proof. induction calls as [|c l IH]; [reflexivity|exact IH]. Qed.
Lemma limits_lemma {A} (calls : list (call A)) : forall a,
  (forall c, In c calls -> is_trapezoid c -> exists l, has_limits c l) ->
  ((forall c, In c calls -> ~ is_trapezoid c) /\ fold_left (limits_step A) calls (Ok a) = Ok a) \/
  (exists l1 c l2 x, calls = l1 ++ c :: l2 /\ is_trapezoid c /\ has_limits c x /\ (forall d, In d l2 -> ~ is_trapezoid d) /\
     fold_left (limits_step A) calls (Ok a) = Ok (Some x)).
Proof.
  induction calls as [|c l IH]; intros a H; [left; split; [intros c []|reflexivity]|].
  cbn [fold_left]. unfold limits_step at 2 4. cbn [rbind].
  destruct (String.eqb_spec (c_name c) "trapezoid") as [T|T].
  - destruct (has_limits_dec c) as [(x & HX & E)|(NX & _)]; [|exfalso; destruct (H c (or_introl eq_refl) T) as (x & Q); exact (NX x Q)].
    rewrite E. destruct (IH (Some x)) as [(N & F)|(l1 & c2 & l2 & y & -> & B & D & F & G)]; [intros d Hd; apply H; now right| |].
    + right. exists [], c, l, x. split; [reflexivity|]. split; [exact T|]. split; [exact HX|]. split; [exact N|exact F].
    + right. exists (c :: l1), c2, l2, y. split; [reflexivity|]. split; [exact B|]. split; [exact D|]. split; [exact F|exact G].
  - destruct (IH a) as [(N & F)|(l1 & c2 & l2 & y & -> & B & D & F & G)]; [intros d Hd; apply H; now right| |].
    + left. split; [|exact F]. intros d [<-|Hd]; [exact T|now apply N].
    + right. exists (c :: l1), c2, l2, y. split; [reflexivity|]. split; [exact B|]. split; [exact D|]. split; [exact F|exact G].
Qed.

(* rhosigchi takes its limits from the last trapezoid cut of the action, whatever the other
   recorded calls are, if all trapezoid cuts give the three limits as keywords. *)
Theorem limits_of_last_trapezoid {A} (l1 l2 : list (call A)) c x :
  is_trapezoid c -> has_limits c x -> (forall d, In d l2 -> ~ is_trapezoid d) ->
  (forall d, In d l1 -> is_trapezoid d -> exists y, has_limits d y) ->
  rsc_limits (l1 ++ c :: l2) = Ok (Some x).
Proof.
  intros T HX N2 H1. unfold rsc_limits. rewrite fold_left_app.
  destruct (limits_lemma l1 None H1) as [(_ & F)|(q1 & q2 & q3 & q4 & _ & _ & _ & _ & F)]; rewrite F; cbn [fold_left];
  unfold limits_step at 2; cbn [rbind]; (destruct (String.eqb_spec (c_name c) "trapezoid") as [_|Q]; [|contradiction]);
  destruct HX as (A1 & A2 & A3); apply kw_get_spec in A1, A2, A3; rewrite A1, A2, A3; cbn [rbind];
  (destruct (limits_lemma l2 (Some (fst (fst x), snd (fst x), snd x))) as [(_ & G)|(a & b & d & y & -> & B & _)];
   [intros d Hd Q; exfalso; exact (N2 d Hd Q)|rewrite G; now destruct x as [[? ?] ?]|exfalso; apply (N2 b); [apply in_or_app; right; now left|exact B]]).
Qed.
Print Assumptions limits_of_last_trapezoid.
(* Without a trapezoid cut there are no limits; a trapezoid cut with a limit that is not given
   by keyword raises KeyError. *)
Theorem limits_missing {A} (calls : list (call A)) :
  ((forall c, In c calls -> ~ is_trapezoid c) -> rsc_limits calls = Ok None) /\
  ((exists c, In c calls /\ is_trapezoid c /\ forall x, ~ has_limits c x) -> rsc_limits calls = Raise KeyError).
Proof.
  split.
  - intros N. destruct (limits_lemma calls None) as [(_ & F)|(a & b & d & y & -> & B & _)]; [intros c Hc Q; exfalso; exact (N c Hc Q)|exact F|].
    exfalso. apply (N b); [apply in_or_app; right; now left|exact B].
  - intros (c & Hc & T & NX). unfold rsc_limits. generalize (@None (A * A * A)). induction calls as [|d l IH]; [contradiction|]. intros a. cbn [fold_left]. unfold limits_step at 2. cbn [rbind].
    destruct (String.eqb_spec (c_name d) "trapezoid") as [Q|Q].
    + destruct (has_limits_dec d) as [(x & HX & E)|(_ & E)]; rewrite E; [|apply limits_raise].
      destruct Hc as [<-|Hc]; [exfalso; exact (NX x HX)|]. now apply IH.
    + destruct Hc as [<-|Hc]; [contradiction|]. now apply IH.
Qed.
Print Assumptions limits_missing.
Definition trap_kw (a b c : Qc) : call Qc := mkCall "trapezoid" [] [("Ex_min", a); ("Ex_max", b); ("Eg_min", c)]%string.
Definition trap_pos (a b c : Qc) : call Qc := mkCall "trapezoid" [a; b; c] [].
Example limits_ex : rsc_limits [mkCall "cut" [] []; trap_kw (qz 4) (qz 8) (qz 1); mkCall "fill_negative" [] []] = Ok (Some (qz 4, qz 8, qz 1)) /\
  rsc_limits [trap_pos (qz 4) (qz 8) (qz 1)] = Raise KeyError /\ rsc_limits [mkCall "cut" [qz 1] []] = Ok None.
Proof. repeat split. Qed.

(* ------------------------------------------------------------------ uncertainties *)
(* rhosigchi is given the mean of the members as their standard deviation: members that do
   not differ at all get an uncertainty of 100 %. *)
Theorem rsc_uncertainty_refuted : exists nr nc members, members <> [] /\ (forall m, In m members -> rect m nr nc) /\
  exists i j, (i < nr)%nat /\ (j < nc)%nat /\
    mget (ens_variance nr nc members) i j = 0 /\ mget (rsc_std nr nc members) i j = qz 25.
Proof.
  exists 1%nat, 1%nat, [[[qz 25]]; [[qz 25]]]. split; [discriminate|]. split.
  - intros m [<-|[<-|[]]]; (split; [reflexivity|]); intros r [<-|[]]; reflexivity.
  - exists 0%nat, 0%nat. split; [lia|]. split; [lia|]. split; apply qeqb_eq; vm_compute; reflexivity.
Qed.
Print Assumptions rsc_uncertainty_refuted.
(* Every member counts: times their number it is the sum over the members. *)
Theorem rsc_uncertainty_is_mean nr nc members i j : members <> [] -> (i < nr)%nat -> (j < nc)%nat ->
  mget (rsc_std nr nc members) i j * qnat (length members) = qsum (map (fun m => mget m i j) members).
Proof.
  intros N I J. unfold rsc_std. rewrite mget_mtab by assumption. unfold mean. rewrite map_length.
  assert (P : qnat (length members) <> 0). { destruct members as [|m l]; [contradiction|]. intros Q. pose proof (qnat_pos (length (m :: l)) ltac:(cbn; lia)) as R. rewrite Q in R. discriminate R. }
  field. exact P.
Qed.
Print Assumptions rsc_uncertainty_is_mean.
Example rsc_uncertainty_ex : qeqb (mget (rsc_std 1 1 [[[qz 2]]; [[qz 7]]; [[qz 6]]]) 0 0) (qz 5) = true.
Proof. vm_compute. reflexivity. Qed.

(* ------------------------------------------------------------------ results *)
(* nan exactly where the value is zero, for the value and its std *)
Theorem rsc_nan values std k : length std = length values -> (k < length values)%nat ->
  let (v, s) := rsc_nld values std in
  (length v = length values /\ length s = length values) /\
  (vget values k = 0 -> nth k v (Fin 0) = NaN /\ nth k s (Fin 0) = NaN) /\
  (vget values k <> 0 -> nth k v NaN = Fin (vget values k) /\ nth k s NaN = Fin (vget std k)).
Proof.
  intros L K. unfold rsc_nld, zero_to_nan. rewrite map_length. rewrite map2_length by congruence. split; [split; reflexivity|].
  unfold vget. split; intros H.
  - rewrite (map_nth_in _ values k 0 (Fin 0)) by exact K. rewrite (map2_nth _ _ _ k 0 0 (Fin 0)) by (try exact K; congruence). rewrite H. split; reflexivity.
  - rewrite (map_nth_in _ values k 0 NaN) by exact K. rewrite (map2_nth _ _ _ k 0 0 NaN) by (try exact K; congruence). destruct (qeqb_spec (nth k values 0) 0); [contradiction|]. split; reflexivity.
Qed.
Print Assumptions rsc_nan.
Example rsc_nan_ex : rsc_nld [0; qz 2] [qz 1; qz 3] = ([NaN; Fin (qz 2)], [NaN; Fin (qz 3)]).
Proof. reflexivity. Qed.

(* The strength function of rhosigchi is in MeV^-3, that of standard in keV^-3: for the same
   transmission coefficient the results differ by 10^9. *)
Theorem rsc_units twopi values std E k : twopi <> 0 -> length std = length values -> length E = length values ->
  (k < length values)%nat -> vget values k <> 0 -> vget E k <> 0 ->
  exists x, standard_gsf twopi (Fin (vget values k)) (vget E k) = Fin x /\
    nth k (fst (rsc_gsf twopi values std E)) NaN = Fin (qz 1000000000 * x).
Proof.
  intros P LS LE K V EK. unfold standard_gsf, xdiv.
  assert (D : twopi * (vget E k * vget E k * vget E k) <> 0). { intros Q. apply Qcmult_integral in Q. destruct Q as [Q|Q]; [contradiction|]. apply Qcmult_integral in Q. destruct Q as [Q|Q]; [|contradiction]. apply Qcmult_integral in Q. destruct Q; contradiction. }
  destruct (qeqb_spec (twopi * (vget E k * vget E k * vget E k)) 0) as [|_]; [contradiction|]. eexists. split; [reflexivity|].
  unfold rsc_gsf, zero_to_nan. cbn [fst]. rewrite (map2_nth _ _ _ k NaN 0 NaN) by (rewrite ?map_length; lia).
  rewrite (map_nth_in _ values k 0 NaN) by exact K. fold (vget values k). fold (vget E k). destruct (qeqb_spec (vget values k) 0) as [|_]; [contradiction|].
  assert (Z : qz 1000 <> 0) by (apply qeqb_neq; reflexivity).
  assert (F : rsc_factor twopi (vget E k) * qz 1000000000 = twopi * (vget E k * vget E k * vget E k)).
  { unfold rsc_factor. replace (qz 1000000000) with (qz 1000 * qz 1000 * qz 1000) by (apply Qc_is_canon; reflexivity). field. exact Z. }
  cbn [xdiv]. destruct (qeqb_spec (rsc_factor twopi (vget E k)) 0) as [Q|Q]; [exfalso; apply D; rewrite <- F, Q; ring|].
  f_equal. rewrite <- F. field. split; [apply qeqb_neq; reflexivity|exact Q].
Qed.
Print Assumptions rsc_units.
Theorem algorithms_same_units_refuted : exists twopi t e, 0 < twopi /\ 0 < t /\ 0 < e /\
  nth 0 (fst (rsc_gsf twopi [t] [0] [e])) NaN <> standard_gsf twopi (Fin t) e.
Proof. exists (qz 6), 1, (qz 2000). do 3 (split; [reflexivity|]). vm_compute. intros H. injection H. discriminate. Qed.
Print Assumptions algorithms_same_units_refuted.
Example rsc_units_ex : match rsc_gsf (qz 6) [qz 12] [qz 24] [qz 1000] with ([Fin a], [Fin b]) => qeqb a (qz 2) && qeqb b (qz 4) = true | _ => False end.
Proof. vm_compute. reflexivity. Qed.

(* The division leaves the relative uncertainty as it is. *)
Theorem rsc_relative_std twopi values std E k : twopi <> 0 -> length std = length values -> length E = length values ->
  (k < length values)%nat -> vget values k <> 0 -> vget E k <> 0 ->
  exists x s, nth k (fst (rsc_gsf twopi values std E)) NaN = Fin x /\ nth k (snd (rsc_gsf twopi values std E)) NaN = Fin s /\
    x <> 0 /\ s / x = vget std k / vget values k.
Proof.
  intros P LS LE K V EK.
  assert (D : rsc_factor twopi (vget E k) <> 0).
  { unfold rsc_factor. assert (Z : vget E k / qz 1000 <> 0). { intros Q. apply EK. replace (vget E k) with (vget E k / qz 1000 * qz 1000) by (field; apply qeqb_neq; reflexivity). rewrite Q. ring. }
    intros Q. apply Qcmult_integral in Q. destruct Q as [Q|Q]; [contradiction|]. apply Qcmult_integral in Q. destruct Q as [Q|Q]; [|contradiction]. apply Qcmult_integral in Q. destruct Q; contradiction. }
  exists (vget values k / rsc_factor twopi (vget E k)), (vget std k / rsc_factor twopi (vget E k)).
  unfold rsc_gsf, zero_to_nan. cbn [fst snd]. split; [|split; [|split]].
  - rewrite (map2_nth _ _ _ k NaN 0 NaN) by (rewrite ?map_length; lia). rewrite (map_nth_in _ values k 0 NaN) by exact K. fold (vget values k). fold (vget E k).
    destruct (qeqb_spec (vget values k) 0) as [|_]; [contradiction|]. unfold xdiv. destruct (qeqb_spec (rsc_factor twopi (vget E k)) 0) as [|_]; [contradiction|reflexivity].
  - rewrite (map2_nth _ _ _ k NaN 0 NaN) by (rewrite ?map2_length by congruence; lia). rewrite (map2_nth _ values std k 0 0 NaN) by (try exact K; congruence). fold (vget values k). fold (vget std k). fold (vget E k).
    destruct (qeqb_spec (vget values k) 0) as [|_]; [contradiction|]. unfold xdiv. destruct (qeqb_spec (rsc_factor twopi (vget E k)) 0) as [|_]; [contradiction|reflexivity].
  - intros Q. apply V. replace (vget values k) with (vget values k / rsc_factor twopi (vget E k) * rsc_factor twopi (vget E k)) by (field; exact D). rewrite Q. ring.
  - field. split; assumption.
Qed.
Print Assumptions rsc_relative_std.

(* A bin of positive energy with a non-negative transmission coefficient gives a non-negative
   strength or nan; every zero makes the results count as unconstrained. *)
Theorem rsc_strength_sign twopi values std E k : 0 < twopi -> length std = length values -> length E = length values ->
  (k < length values)%nat -> 0 <= vget values k -> 0 < vget E k ->
  match nth k (fst (rsc_gsf twopi values std E)) PInf with Fin x => 0 < x | NaN => vget values k = 0 | _ => False end.
Proof.
  intros P LS LE K V EK. unfold rsc_gsf, zero_to_nan. cbn [fst]. rewrite (map2_nth _ _ _ k NaN 0 PInf) by (rewrite ?map_length; lia).
  rewrite (map_nth_in _ values k 0 NaN) by exact K. fold (vget values k). fold (vget E k).
  destruct (qeqb_spec (vget values k) 0) as [Q|Q]; [exact Q|]. cbn [xdiv].
  assert (F : 0 < rsc_factor twopi (vget E k)). { unfold rsc_factor. assert (0 < vget E k / qz 1000) by (apply Qcdiv_pos; [exact EK|reflexivity]). repeat (assumption || apply Qcmult_pos). }
  destruct (qeqb_spec (rsc_factor twopi (vget E k)) 0) as [Z|_]; [rewrite Z in F; discriminate|]. apply Qcdiv_pos; [|exact F]. apply Qcle_lt_or_eq in V. destruct V as [V|V]; [exact V|congruence].
Qed.
Print Assumptions rsc_strength_sign.
Theorem rsc_unconstrained values std :
  unconstrained [fst (rsc_nld values std)] = true <-> In 0 values.
Proof.
  unfold unconstrained. cbn [existsb]. rewrite orb_false_r, existsb_exists. unfold rsc_nld, zero_to_nan. cbn [fst]. split.
  - intros (x & Hx & N). apply in_map_iff in Hx. destruct Hx as (y & <- & Hy). destruct (qeqb_spec y 0) as [->|]; [exact Hy|discriminate].
  - intros H. exists NaN. split; [|reflexivity]. apply in_map_iff. exists 0. split; [reflexivity|exact H].
Qed.
Print Assumptions rsc_unconstrained.
