(* The error analysis of pyrhosigchi (C91). *)
From Coq Require Import Permutation.
From Verif Require Import PyBase VectorModel VectorOpsProofs ArithProofs RhosigchiModel RhosigchiSpec RhosigchiProofs
  RhosigchiProps RscErrModel.
Local Open Scope Qc_scope.

(* ------------------------------------------------ buffers *)
Lemma loop_inv {S} (P : S -> Prop) body l (s s' : S) :
  P s -> (forall i a b, In i l -> P a -> body a i = Ok b -> P b) -> loop body s l = Ok s' -> P s'.
Proof.
  revert s. induction l as [|i l IH]; intros s P0 H; cbn [loop].
  - intros E. now injection E as <-.
  - destruct (body s i) as [b|] eqn:B; cbn [rbind]; [|discriminate].
    apply IH; [exact (H i s b (or_introl eq_refl) P0 B)|]. intros j x y J. apply H. now right.
Qed.
Lemma set_length {A} w (l l' : list A) i x : set_ w l i x = Ok l' -> length l' = length l.
Proof.
  unfold set_. cbv zeta. destruct (_ || _); [discriminate|]. intros E. injection E as <-. apply upd_length.
Qed.
Lemma set_false {A} (l l' : list A) i x : set_ false l i x = Ok l' ->
  (0 <= i < Z.of_nat (length l))%Z /\ l' = upd l (Z.to_nat i) x.
Proof.
  unfold set_. cbn [andb]. destruct ((i <? 0)%Z || (Z.of_nat (length l) <=? i)%Z) eqn:E; [discriminate|].
  apply orb_false_elim in E as [E1 E2]. intros H. injection H as <-. split; [lia|reflexivity].
Qed.
Lemma zget_ext {A} (l m : list A) : length l = length m -> (forall i, zget l i = zget m i) -> l = m.
Proof.
  intros _. revert m. induction l as [|x l IH]; intros [|y m] H.
  - reflexivity.
  - specialize (H 0%Z). discriminate H.
  - specialize (H 0%Z). discriminate H.
  - pose proof (H 0%Z) as H0. injection H0 as ->. f_equal. apply IH. intros i.
    destruct (Z.ltb_spec i 0) as [C|C]; [unfold zget; now replace (i <? 0)%Z with true by lia|].
    specialize (H (i + 1)%Z). unfold zget in H |- *. replace (i + 1 <? 0)%Z with false in H by lia.
    replace (i <? 0)%Z with false by lia. replace (Z.to_nat (i + 1)) with (S (Z.to_nat i)) in H by lia. exact H.
Qed.
(* what is written does not depend on the old entries, nor does the failure *)
Lemma loop_set_congr {A} (e : Z -> result A) l a b :
  length a = length b -> (forall i, ~ In i l -> zget a i = zget b i) ->
  loop (fun acc i => do x <- e i ;; set_ false acc i x) a l =
  loop (fun acc i => do x <- e i ;; set_ false acc i x) b l.
Proof.
  revert a b. induction l as [|i l IH]; intros a b LE AG; cbn [loop].
  - f_equal. apply zget_ext; [exact LE|]. intros i. apply AG. intros [].
  - destruct (e i) as [x|]; cbn [rbind]; [|reflexivity].
    destruct (set_ false a i x) as [a'|] eqn:SA.
    + apply set_false in SA as (R & ->). rewrite (set_ok false b) by (rewrite <- LE; exact R). cbn [rbind].
      apply IH; [now rewrite !upd_length|]. intros j J.
      rewrite !zget_upd by (rewrite <- ?LE; exact R). destruct (Z.eqb_spec i j); [reflexivity|].
      apply AG. intros [->|K]; contradiction.
    + unfold set_ in *. cbn [andb] in *. rewrite LE in SA.
      destruct (_ || _); [injection SA as ->; reflexivity|discriminate].
Qed.
Lemma loop_set_out {A} (e : Z -> result A) l a out :
  loop (fun acc i => do x <- e i ;; set_ false acc i x) a l = Ok out ->
  length out = length a /\ forall i, ~ In i l -> zget out i = zget a i.
Proof.
  revert a. induction l as [|i l IH]; intros a; cbn [loop].
  - intros E. injection E as <-. now split.
  - destruct (e i) as [x|]; cbn [rbind]; [|discriminate].
    destruct (set_ false a i x) as [a'|] eqn:SA; [|discriminate]. cbn [rbind].
    apply set_false in SA as (R & ->). intros E. destruct (IH _ E) as (L & H).
    rewrite upd_length in L. split; [exact L|]. intros j J.
    rewrite H by (intros K; apply J; now right). rewrite zget_upd by exact R.
    destruct (Z.eqb_spec i j) as [->|]; [|reflexivity]. exfalso. apply J. now left.
Qed.

Section Buffers.
Variables FgN sFgN : list (list Qc).
Variable L : limits.
Variable ns : nat.
Definition nr := Z.to_nat (jmax L - igmin L + iu0 L).
(* a row that may be written again *)
Definition reusable (b : list Qc * list Qc) : Prop :=
  length (fst b) = nr /\ length (snd b) = ns /\
  forall i, ~ (igmin L <= i < maxig L)%Z -> zget (snd b) i = zget (repeat 0 ns) i.
Lemma reusable_zero : reusable (repeat 0 nr, repeat 0 ns).
Proof. repeat split; apply repeat_length. Qed.

Lemma zget_out {A} (l : list A) i : ~ (0 <= i < Z.of_nat (length l))%Z -> zget l i = None.
Proof.
  intros H. unfold zget. destruct (Z.ltb_spec i 0); [reflexivity|]. apply nth_error_None. lia.
Qed.
Lemma step_reuse v rho sig b : reusable b ->
  step false FgN sFgN L v rho sig (fst b) (snd b) =
  step false FgN sFgN L v rho sig (repeat 0 nr) (repeat 0 ns).
Proof.
  intros (R1 & R2 & R3). unfold step. destruct (nd_table _ _ _ _ _ _) as [nd|]; cbn [rbind]; [|reflexivity].
  rewrite (loop_set_congr _ _ (snd b) (repeat 0 ns)).
  2: now rewrite repeat_length.
  2: { intros i I. apply R3. intros K. apply I. now apply in_zrange. }
  destruct (loop _ (repeat 0 ns) _) as [s'|]; cbn [rbind]; [|reflexivity].
  rewrite (loop_set_congr _ _ (fst b) (repeat 0 nr)).
  - reflexivity.
  - now rewrite repeat_length.
  - intros i I. rewrite !zget_out; [reflexivity| |]; intros K; apply I, in_zrange;
      rewrite ?R1, ?repeat_length in K; unfold nr in K; lia.
Qed.
Lemma step_out v rho sig b rs : reusable b ->
  step false FgN sFgN L v rho sig (fst b) (snd b) = Ok rs -> reusable rs.
Proof.
  intros (R1 & R2 & R3). unfold step. destruct (nd_table _ _ _ _ _ _) as [nd|]; cbn [rbind]; [|discriminate].
  destruct (loop _ (snd b) _) as [s'|] eqn:S1; cbn [rbind]; [|discriminate].
  destruct (loop _ (fst b) _) as [r'|] eqn:S2; cbn [rbind]; [|discriminate].
  intros E. injection E as <-. apply loop_set_out in S1 as (L1 & O1). apply loop_set_out in S2 as (L2 & _).
  unfold reusable. cbn [fst snd]. split; [congruence|]. split; [congruence|].
  intros i I. rewrite O1; [now apply R3|]. intros K. apply in_zrange in K. contradiction.
Qed.
Lemma iterate_from_reuse rest : Forall reusable rest -> forall it rho sig,
  iterate_from false FgN sFgN L it rho sig rest =
  iterate_from false FgN sFgN L it rho sig (repeat (repeat 0 nr, repeat 0 ns) (length rest)).
Proof.
  induction rest as [|b rest IH]; intros F it rho sig; [reflexivity|].
  inversion F as [|? ? F1 F2]; subst. cbn [length repeat iterate_from].
  destruct b as [b1 b2].
  pose proof (step_reuse (var it) rho sig (b1, b2) F1) as SR. cbn [fst snd] in SR. rewrite SR. clear SR.
  destruct (step _ _ _ _ _ _ _ _ _) as [rs|]; cbn [rbind]; [|reflexivity]. now rewrite (IH F2).
Qed.
Lemma iterate_from_out rest : Forall reusable rest -> forall it rho sig out,
  iterate_from false FgN sFgN L it rho sig rest = Ok out ->
  exists tl, out = (rho, sig) :: tl /\ length tl = length rest /\ Forall reusable tl.
Proof.
  induction rest as [|b rest IH]; intros F it rho sig out; cbn [iterate_from].
  - intros E. injection E as <-. exists []. repeat split. constructor.
  - inversion F as [|? ? F1 F2]; subst. destruct b as [b1 b2].
    destruct (step _ _ _ _ _ _ _ _ _) as [rs|] eqn:ST; cbn [rbind]; [|discriminate].
    apply (step_out _ _ _ (b1, b2)) in ST; [|exact F1].
    destruct (iterate_from _ _ _ _ _ _ _ _) as [o|] eqn:IF; cbn [rbind]; [|discriminate].
    intros E. injection E as <-. destruct (IH F2 _ _ _ _ IF) as (tl & -> & LT & FT).
    exists ((fst rs, snd rs) :: tl). split; [reflexivity|]. split; [cbn; congruence|].
    constructor; [|exact FT]. destruct rs; exact ST.
Qed.
End Buffers.

Lemma gsf_start_length L F n g : gsf_start L F n = Ok g -> length g = n.
Proof.
  unfold gsf_start. intros E. eapply (loop_inv (fun l => length l = n)) in E; [exact E|apply repeat_length|].
  cbv beta. intros ix a b _ LA. destruct (at_ true (igmax L) ix) as [gm|]; cbn [rbind]; [|discriminate].
  intros H. eapply (loop_inv (fun l => length l = n)) in H; [exact H|exact LA|]. cbv beta.
  intros ig c d _ LC. destruct (at2 true F ix ig); cbn [rbind]; [|discriminate].
  destruct (at_ true c ig); cbn [rbind]; [|discriminate]. intros K. apply set_length in K. congruence.
Qed.

(* ------------------------------------------------ specification *)

(* the two results of the perturbed matrix alone, calculated with new arrays *)
Definition alone (fg std : list (list Qc)) (L : limits) (ns nit : nat) (z : list (list Qc))
    (r : list Qc * list Qc) : Prop :=
  exists F g0 b, normalize_array (perturb fg std z) L = Ok (Some F) /\ gsf_start L F ns = Ok g0 /\
    iterate false F std L (empty_rows (nr L) ns nit (repeat 1 (nr L)) g0) = Ok b /\ r = last b ([], []).
Definition mean_square (l : list Qc) (x0 : Qc) : Qc :=
  qsum (map (fun x => (x - x0) * (x - x0)) l) / qnat (length l).

Section Sums.
Variable fg std : list (list Qc).
Variable L : limits.
Variable nom : list Qc * list Qc.
Variable ns nit : nat.
Hypothesis LN1 : length (fst nom) = nr L.
Hypothesis LN2 : length (snd nom) = ns.

Definition buffers (b : rows) : Prop :=
  exists g rest, b = (repeat 1 (nr L), g) :: rest /\ length rest = Nat.pred nit /\ Forall (reusable L ns) rest.

Lemma last_reusable r0 g0 tl : length r0 = nr L -> length g0 = ns -> Forall (reusable L ns) tl ->
  length (fst (last ((r0, g0) :: tl) ([], []))) = nr L /\ length (snd (last ((r0, g0) :: tl) ([], []))) = ns.
Proof.
  intros A B F. destruct (exists_last (l := (r0, g0) :: tl) ltac:(discriminate)) as (l' & x & E).
  rewrite E, last_last. assert (I : In x ((r0, g0) :: tl)) by (rewrite E; apply in_or_app; right; now left).
  destruct I as [<-|I]; [now split|]. rewrite Forall_forall in F. destruct (F x I) as (H1 & H2 & _). now split.
Qed.
Lemma draw_alone b z o : buffers b -> draw fg std std L ns b z = Ok (Some o) ->
  buffers o /\ alone fg std L ns nit z (last o ([], [])) /\
  length (fst (last o ([], []))) = nr L /\ length (snd (last o ([], []))) = ns.
Proof.
  intros (g & rest & -> & LR & FR). unfold draw.
  destruct (normalize_array (perturb fg std z) L) as [[F|]|] eqn:NA; cbn [rbind]; try discriminate.
  destruct (gsf_start L F ns) as [g0|] eqn:GS; cbn [rbind]; [|discriminate].
  unfold iterate. destruct (iterate_from _ _ _ _ _ _ _ rest) as [out|] eqn:IT; cbn [rmap]; [|discriminate].
  intros E. injection E as <-. pose proof IT as IT'.
  rewrite (iterate_from_reuse F std L ns rest FR) in IT'.
  apply (iterate_from_out F std L ns rest FR) in IT as (tl & -> & LT & FT).
  pose proof (gsf_start_length _ _ _ _ GS) as LG.
  split; [exists g0, tl; repeat split; [congruence|exact FT]|]. split.
  - exists F, g0, ((repeat 1 (nr L), g0) :: tl). split; [exact NA|]. split; [exact GS|]. split; [|reflexivity].
    unfold empty_rows, iterate. rewrite <- LR. exact IT'.
  - apply last_reusable; [apply repeat_length|exact LG|exact FT].
Qed.

Lemma add_square_nth n acc v m i : length acc = n -> length v = n -> length m = n -> (i < n)%nat ->
  nth i (add_square acc v m) 0 = nth i acc 0 + (nth i v 0 - nth i m 0) * (nth i v 0 - nth i m 0).
Proof.
  intros A B C I. unfold add_square.
  assert (M : length (map2 (fun a b => (a - b) * (a - b)) v m) = n) by (rewrite map2_length; congruence).
  rewrite (map2_nth Qcplus _ _ _ 0 0) by congruence.
  rewrite (map2_nth (fun a b => (a - b) * (a - b)) _ _ _ 0 0) by congruence. reflexivity.
Qed.
Lemma add_square_length n acc v m : length acc = n -> length v = n -> length m = n ->
  length (add_square acc v m) = n.
Proof.
  intros A B C. unfold add_square.
  assert (M : length (map2 (fun a b => (a - b) * (a - b)) v m) = n) by (rewrite map2_length; congruence).
  rewrite map2_length; congruence.
Qed.

Lemma draws_sum zs : forall b acc out, buffers b -> length (fst acc) = nr L -> length (snd acc) = ns ->
  draws fg std std L nom ns b acc zs = Ok (Some out) ->
  exists rs, Forall2 (alone fg std L ns nit) zs rs /\ length (fst out) = nr L /\ length (snd out) = ns /\
    (forall i, (i < nr L)%nat -> nth i (fst out) 0 = nth i (fst acc) 0 +
       qsum (map (fun r => (nth i (fst r) 0 - nth i (fst nom) 0) * (nth i (fst r) 0 - nth i (fst nom) 0)) rs)) /\
    (forall i, (i < ns)%nat -> nth i (snd out) 0 = nth i (snd acc) 0 +
       qsum (map (fun r => (nth i (snd r) 0 - nth i (snd nom) 0) * (nth i (snd r) 0 - nth i (snd nom) 0)) rs)).
Proof.
  induction zs as [|z zs IH]; intros b acc out B A1 A2; cbn [draws].
  - intros E. injection E as <-. exists []. split; [constructor|]. split; [exact A1|]. split; [exact A2|].
    split; intros i I; cbn; ring.
  - destruct (draw fg std std L ns b z) as [[o|]|] eqn:D; cbn [rbind]; try discriminate.
    destruct (draw_alone _ _ _ B D) as (BO & AL & L1 & L2). set (v := last o ([], [])) in *.
    intros E. apply IH in E; [|exact BO|now apply add_square_length|now apply add_square_length].
    destruct E as (rs & F & O1 & O2 & S1 & S2). exists (v :: rs).
    split; [now constructor|]. split; [exact O1|]. split; [exact O2|].
    split; intros i I; cbn [map qsum].
    + rewrite S1 by exact I. cbn [fst]. rewrite (add_square_nth (nr L)) by assumption. ring.
    + rewrite S2 by exact I. cbn [snd]. rewrite (add_square_nth ns) by assumption. ring.
Qed.
End Sums.

Lemma Forall2_len {A B} (R : A -> B -> Prop) l m : Forall2 R l m -> length l = length m.
Proof. induction 1; cbn; congruence. Qed.
Lemma run_last fg std imin imax lo u0 nit res :
  run fg std imin imax lo u0 nit = Ok (Some res) ->
  let L := mkLim imin imax lo (find_igmax fg imin imax lo) u0 in
  length (fst (last res ([], []))) = nr L /\ length (snd (last res ([], []))) = Z.to_nat (imax + u0).
Proof.
  unfold run. cbv zeta. set (L := mkLim imin imax lo (find_igmax fg imin imax lo) u0).
  destruct (normalize fg std L) as [[[F|] s]|]; cbn [rbind fst snd]; try discriminate.
  set (ns := Z.to_nat (imax + u0)). destruct (gsf_start L F ns) as [g0|] eqn:GS; cbn [rbind]; [|discriminate].
  unfold iterate. change (Z.to_nat (imax - lo + u0)) with (nr L).
  destruct (iterate_from _ _ _ _ _ _ _ _) as [o|] eqn:IT; cbn [rmap]; [|discriminate].
  intros E. injection E as <-.
  assert (FZ : Forall (reusable L ns) (repeat (repeat 0 (nr L), repeat 0 ns) (Nat.pred nit))).
  { apply Forall_forall. intros x I. apply repeat_spec in I. subst x. apply reusable_zero. }
  apply (iterate_from_out F s L ns _ FZ) in IT as (tl & -> & _ & FT).
  apply last_reusable; [apply repeat_length|exact (gsf_start_length _ _ _ _ GS)|exact FT].
Qed.

(* The errors are the root mean square deviations, over the draws, between the results of
   the perturbed matrices and those of the given one. Each draw counts as if it was
   calculated on its own, although all draws share one array. *)
Theorem errors_are_rms fg std imin imax lo u0 nit zs e1 e2 :
  errors fg std imin imax lo u0 nit zs = Ok (Some (e1, e2)) ->
  let L := mkLim imin imax lo (find_igmax fg imin imax lo) u0 in
  let ns := Z.to_nat (imax + u0) in
  exists res rs, run fg std imin imax lo u0 nit = Ok (Some res) /\
    Forall2 (alone fg std L ns nit) zs rs /\ zs <> [] /\
    let nom := last res ([], []) in
    length e1 = length (fst nom) /\ length e2 = length (snd nom) /\
    (forall i, (i < length e1)%nat -> nth i e1 0 = mean_square (map (fun r => nth i (fst r) 0) rs) (nth i (fst nom) 0)) /\
    (forall i, (i < length e2)%nat -> nth i e2 0 = mean_square (map (fun r => nth i (snd r) 0) rs) (nth i (snd nom) 0)).
Proof.
  unfold errors. cbv zeta. set (L := mkLim imin imax lo (find_igmax fg imin imax lo) u0).
  set (ns := Z.to_nat (imax + u0)). change (Z.to_nat (imax - lo + u0)) with (nr L).
  destruct (run fg std imin imax lo u0 nit) as [[res|]|] eqn:RN; cbn [rbind]; try discriminate.
  destruct (run_last _ _ _ _ _ _ _ _ RN) as (N1 & N2). fold L in N1, N2. fold ns in N2.
  destruct (draws _ _ _ _ _ _ _ _ _) as [[[a b]|]|] eqn:DR; cbn [rbind]; try discriminate.
  destruct (Nat.eqb_spec (length zs) 0) as [Z0|Z0]; [discriminate|]. intros E. injection E as <- <-.
  apply (draws_sum fg std L (last res ([], [])) ns nit N1 N2) in DR.
  2: { exists (repeat 0 ns), (repeat (repeat 0 (nr L), repeat 0 ns) (Nat.pred nit)).
       split; [reflexivity|]. split; [apply repeat_length|].
       apply Forall_forall. intros x I. apply repeat_spec in I. subst x. apply reusable_zero. }
  2, 3: apply repeat_length.
  destruct DR as (rs & F & O1 & O2 & S1 & S2). cbn [fst snd] in *.
  exists res, rs. split; [reflexivity|]. split; [exact F|]. split; [intros ->; now apply Z0|].
  rewrite !map_length. pose proof (Forall2_len _ _ _ F) as LF. rewrite O1, O2.
  split; [congruence|]. split; [congruence|].
  assert (D : forall (l : list Qc) i c, (i < length l)%nat -> nth i (map (fun x => x / c) l) 0 = nth i l 0 / c).
  { intros l i c I. rewrite (nth_indep _ 0 (0 / c)) by now rewrite map_length. apply (map_nth (fun x => x / c)). }
  split; intros i I.
  - rewrite D by congruence. rewrite S1 by exact I. rewrite nth_repeat. unfold mean_square.
    rewrite map_map, map_length, LF. f_equal. ring.
  - rewrite D by congruence. rewrite S2 by exact I. rewrite nth_repeat. unfold mean_square.
    rewrite map_map, map_length, LF. f_equal. ring.
Qed.
Print Assumptions errors_are_rms.

Lemma alone_det fg std L ns nit z r r' : alone fg std L ns nit z r -> alone fg std L ns nit z r' -> r = r'.
Proof.
  intros (F & g & b & A1 & A2 & A3 & ->) (F' & g' & b' & B1 & B2 & B3 & ->).
  assert (F = F') by congruence. subst F'. assert (g = g') by congruence. subst g'. congruence.
Qed.
Lemma alone_perm fg std L ns nit zs zs' rs : Permutation zs zs' -> Forall2 (alone fg std L ns nit) zs rs ->
  exists rs', Forall2 (alone fg std L ns nit) zs' rs' /\ Permutation rs rs'.
Proof.
  intros P F. destruct (Permutation_Forall2 P F) as (rs' & P' & F'). now exists rs'.
Qed.
Lemma alone_list_det fg std L ns nit zs rs : Forall2 (alone fg std L ns nit) zs rs ->
  forall rs', Forall2 (alone fg std L ns nit) zs rs' -> rs = rs'.
Proof.
  induction 1 as [|z r zs rs A F IH]; intros rs' H; inversion H; subst; [reflexivity|].
  f_equal; [eapply alone_det; eassumption|now apply IH].
Qed.
Lemma mean_square_perm l l' x : Permutation l l' -> mean_square l x = mean_square l' x.
Proof.
  intros P. unfold mean_square. rewrite (Permutation_length P). f_equal. apply qsum_perm, Permutation_map, P.
Qed.

(* The errors do not depend on the order of the draws. *)
Theorem errors_order fg std imin imax lo u0 nit zs zs' e1 e2 e1' e2' :
  Permutation zs zs' ->
  errors fg std imin imax lo u0 nit zs = Ok (Some (e1, e2)) ->
  errors fg std imin imax lo u0 nit zs' = Ok (Some (e1', e2')) -> e1 = e1' /\ e2 = e2'.
Proof.
  intros P A B. apply errors_are_rms in A, B. cbv zeta in A, B.
  destruct A as (res & rs & R & F & _ & LA1 & LA2 & S1 & S2).
  destruct B as (res' & rs' & R' & F' & _ & LB1 & LB2 & S1' & S2').
  assert (res = res') by congruence. subst res'.
  destruct (alone_perm _ _ _ _ _ _ _ _ P F) as (rs2 & F2 & P2).
  rewrite (alone_list_det _ _ _ _ _ _ _ F2 _ F') in P2.
  split; (apply (nth_ext _ _ 0 0); [congruence|]); intros i I.
  - rewrite (S1 i I), (S1' i) by congruence. apply mean_square_perm, Permutation_map, P2.
  - rewrite (S2 i I), (S2' i) by congruence. apply mean_square_perm, Permutation_map, P2.
Qed.
Print Assumptions errors_order.

Lemma mean_square_nonneg l x : 0 <= mean_square l x.
Proof.
  unfold mean_square. apply Qcdiv_nonneg; [|apply qnat_nonneg]. apply qsum_nonneg. intros y I.
  apply in_map_iff in I as (a & <- & _). generalize (a - x). intros d. qnra.
Qed.
Theorem errors_nonneg fg std imin imax lo u0 nit zs e1 e2 :
  errors fg std imin imax lo u0 nit zs = Ok (Some (e1, e2)) -> nonneg e1 /\ nonneg e2.
Proof.
  intros A. apply errors_are_rms in A. cbv zeta in A.
  destruct A as (res & rs & R & F & _ & LA1 & LA2 & S1 & S2).
  split; intros x I; apply (In_nth _ _ 0) in I as (i & I & <-); [rewrite (S1 i I)|rewrite (S2 i I)];
    apply mean_square_nonneg.
Qed.
Print Assumptions errors_nonneg.

(* Without uncertainties and without negative counts all errors are zero. *)
Definition all_zero (m : list (list Qc)) : Prop := forall r, In r m -> forall x, In x r -> x = 0.
Definition same_shape (m m' : list (list Qc)) : Prop := map (@length Qc) m = map (@length Qc) m'.
(* The matrix of one draw: counts plus uncertainty times random number, or 0 if that is
   negative. *)
Theorem perturbed_counts : forall fg std zs, same_shape std fg -> same_shape zs fg -> same_shape (perturb fg std zs) fg /\
  forall i j, (i < length fg)%nat -> (j < length (nth i fg []))%nat ->
    let x := nth j (nth i fg []) 0 + nth j (nth i zs []) 0 * nth j (nth i std []) 0 in
    let y := nth j (nth i (perturb fg std zs) []) 0 in
    0 <= y /\ (0 <= x -> y = x) /\ (x <= 0 -> y = 0).
Proof.
  assert (ROW : forall f s z, length s = length f -> length z = length f -> length (perturb_row f s z) = length f /\
    forall j, (j < length f)%nat -> let x := nth j f 0 + nth j z 0 * nth j s 0 in let y := nth j (perturb_row f s z) 0 in
      0 <= y /\ (0 <= x -> y = x) /\ (x <= 0 -> y = 0)).
  { intros f s z A B. assert (M : length (map2 Qcmult z s) = length f) by (rewrite map2_length; congruence). unfold perturb_row.
    split; [rewrite map2_length; congruence|]. intros j J. cbv zeta.
    rewrite (map2_nth _ _ _ _ 0 0) by congruence. rewrite (map2_nth Qcmult _ _ _ 0 0) by congruence.
    destruct (qltb_spec (nth j f 0 + nth j z 0 * nth j s 0) 0) as [N|N]; split; try split; intros; qlra. }
  induction fg as [|f fg IH]; intros [|s std] [|z zs] A B; try discriminate; [split; [reflexivity|]; intros i j I; cbn in I; lia|].
  injection A as A1 A2. injection B as B1 B2. destruct (IH std zs A2 B2) as [SH V]. destruct (ROW f s z A1 B1) as [SR VR].
  change (perturb (f :: fg) (s :: std) (z :: zs)) with (perturb_row f s z :: perturb fg std zs). split.
  - unfold same_shape in *. cbn [map]. now rewrite SR, SH.
  - intros [|i] j I J; cbn [nth length] in *; [now apply VR|]. apply V; [lia|exact J].
Qed.
Print Assumptions perturbed_counts.
Example perturbed_ex : perturb [[1; 1]] [[1; 1]] [[- qz 3; qz 2]] = [[0; qz 3]].
Proof. reflexivity. Qed.
Lemma perturb_row_zero f s z : length s = length f -> length z = length f -> nonneg f -> (forall x, In x s -> x = 0) ->
  perturb_row f s z = f.
Proof.
  intros A B N Z0. unfold perturb_row.
  assert (M : length (map2 Qcmult z s) = length f) by (rewrite map2_length; congruence).
  apply (nth_ext _ _ 0 0).
  - rewrite map2_length; congruence.
  - intros i I. rewrite map2_length in I by congruence.
    rewrite (map2_nth _ _ _ _ 0 0) by congruence.
    rewrite (map2_nth Qcmult _ _ _ 0 0) by congruence.
    rewrite (Z0 (nth i s 0)) by (apply nth_In; congruence).
    replace (nth i f 0 + nth i z 0 * 0) with (nth i f 0) by ring.
    assert (0 <= nth i f 0) by (now apply N, nth_In).
    destruct (qltb_spec (nth i f 0) 0); [qlra|reflexivity].
Qed.
Lemma perturb_zero fg : forall std zs, same_shape std fg -> same_shape zs fg -> nonneg (concat fg) -> all_zero std ->
  perturb fg std zs = fg.
Proof.
  induction fg as [|f fg IH]; intros [|s std] [|z zs] A B N Z0; try discriminate; [reflexivity|].
  injection A as A1 A2. injection B as B1 B2. unfold perturb, map2. cbn [combine map fst snd]. f_equal.
  - apply perturb_row_zero; auto.
    + intros x I. apply N. cbn. apply in_or_app. now left.
    + apply Z0. now left.
  - apply IH; auto.
    + intros x I. apply N. cbn. apply in_or_app. now right.
    + intros r I. apply Z0. now right.
Qed.
Theorem errors_zero fg std imin imax lo u0 nit zs e1 e2 :
  nonneg (concat fg) -> all_zero std -> same_shape std fg -> (forall z, In z zs -> same_shape z fg) ->
  errors fg std imin imax lo u0 nit zs = Ok (Some (e1, e2)) ->
  (forall x, In x e1 -> x = 0) /\ (forall x, In x e2 -> x = 0).
Proof.
  intros N Z0 SS SZ A. apply errors_are_rms in A. cbv zeta in A.
  set (L := mkLim imin imax lo (find_igmax fg imin imax lo) u0) in *. set (ns := Z.to_nat (imax + u0)) in *.
  destruct A as (res & rs & R & F & NZ & LA1 & LA2 & S1 & S2).
  assert (AL : forall r, In r rs -> r = last res ([], [])).
  { assert (NOM : alone fg std L ns nit (hd [] zs) (last res ([], []))).
    { destruct zs as [|z zs]; [contradiction|]. cbn [hd]. unfold alone.
      rewrite (perturb_zero fg std z SS (SZ z (or_introl eq_refl)) N Z0).
      unfold run in R. cbv zeta in R. fold L in R. unfold normalize in R. unfold normalize_array.
      destruct (normalize_rows L 0 fg) as [[FF|]|]; cbn [rbind fst snd] in R; try discriminate.
      fold ns in R. destruct (gsf_start L FF ns) as [g0|] eqn:GS; cbn [rbind] in R; [|discriminate].
      destruct (iterate _ _ _ _ _) as [o|] eqn:IT; cbn [rmap] in R; [|discriminate]. injection R as <-.
      exists FF, g0, o. split; [reflexivity|]. split; [exact GS|]. split; [exact IT|reflexivity]. }
    assert (SAME : forall z r, In z zs -> alone fg std L ns nit z r -> r = last res ([], [])).
    { intros z r I A. eapply alone_det; [exact A|]. unfold alone in *.
      destruct zs as [|z0 zs]; [contradiction|]. cbn [hd] in NOM.
      rewrite (perturb_zero fg std z0 SS (SZ z0 (or_introl eq_refl)) N Z0) in NOM.
      now rewrite (perturb_zero fg std z SS (SZ z I) N Z0). }
    clear - F SAME. induction F as [|z r zs rs A F IH]; [intros r []|].
    intros r' [<-|I]; [apply (SAME z); [now left|exact A]|]. apply IH; [|exact I].
    intros z' r'' I'. apply SAME. now right. }
  assert (MS : forall (g : list Qc * list Qc -> Qc), mean_square (map g rs) (g (last res ([], []))) = 0).
  { intros g. unfold mean_square. rewrite map_map.
    replace (qsum (map (fun x => (g x - g (last res ([], []))) * (g x - g (last res ([], [])))) rs)) with 0; [unfold Qcdiv; ring|].
    clear - AL. induction rs as [|r rs IH]; [reflexivity|]. cbn [map qsum].
    rewrite <- IH by (intros x I; apply AL; now right). rewrite (AL r (or_introl eq_refl)). ring. }
  split; intros x I; apply (In_nth _ _ 0) in I as (i & I & <-).
  - rewrite (S1 i I). apply (MS (fun r => nth i (fst r) 0)).
  - rewrite (S2 i I). apply (MS (fun r => nth i (snd r) 0)).
Qed.
Print Assumptions errors_zero.

(* ------------------------------------------------ cases *)
Definition z_ex : list (list Qc) := [ql [0;0;0]; ql [1;-1;2]; ql [0;1;0]]%Z.
Example errors_ex : match errors fg_ex std_ex 1 3 0 0 2 [z_ex; z_ex] with
  | Ok (Some (e1, e2)) => Nat.eqb (length e1) 3 && Nat.eqb (length e2) 3 &&
      (qltb 0 (nth 0 e1 0) || qltb 0 (nth 0 e2 0)) | _ => false end = true.
Proof. vm_compute. reflexivity. Qed.
(* all errors zero without uncertainties *)
Definition no_std : list (list Qc) := [ql [0;0;0]; ql [0;0;0]; ql [0;0;0]]%Z.
Example errors_zero_ex : match errors fg_ex no_std 1 3 0 0 2 [z_ex] with
  | Ok (Some (e1, e2)) => forallb (qeqb 0) e1 && forallb (qeqb 0) e2 | _ => false end = true.
Proof. vm_compute. reflexivity. Qed.

(* One draw that empties a row makes all errors nan, although the result itself is fine:
   here a fluctuation of three uncertainties downwards. *)
Theorem errors_nan_refuted : exists fg std zs res, nonneg (concat fg) /\
  (forall z r x, In z zs -> In r z -> In x r -> - qz 3 <= x /\ x <= qz 3) /\
  run fg std 1 3 0 0 2 = Ok (Some res) /\ errors fg std 1 3 0 0 2 zs = Ok None.
Proof.
  exists fg_ex, std_ex, [[ql [0;0;0]; ql [-3;-1;0]; ql [0;1;0]]%Z].
  destruct (run fg_ex std_ex 1 3 0 0 2) as [[res|]|] eqn:R; try (vm_compute in R; discriminate R).
  exists res. split; [|split; [|split; [reflexivity|vm_compute; reflexivity]]].
  - intros x I. simpl in I. repeat (destruct I as [<-|I]; [apply qleb_le; reflexivity|]). destruct I.
  - intros z r x [<-|[]] I J.
    assert (T : forallb (forallb (fun x => qleb (- qz 3) x && qleb x (qz 3)))
                  [ql [0;0;0]; ql [-3;-1;0]; ql [0;1;0]]%Z = true) by (vm_compute; reflexivity).
    rewrite forallb_forall in T. specialize (T r I). rewrite forallb_forall in T. specialize (T x J).
    apply andb_prop in T as [T1 T2]. split; now apply qleb_le.
Qed.
Print Assumptions errors_nan_refuted.
