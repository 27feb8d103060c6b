(* C104: what the members of an ensemble are on average. *)
From Coq Require Import String.
From Verif Require Import PyBase Axis VectorModel MatrixModel MatrixSpec ArithModel VectorOpsProofs ArithProofs EnsembleModel EnsembleSpec EnsembleProofs FillProofs.
Local Notation length := List.length (only parsing).
Local Open Scope list_scope.

(* the average of f over a finite distribution of seeds: pairs of a weight and a seed *)
Definition mean (ws : list (Qc * Z)) (f : Z -> Qc) : Qc := qsum (map (fun x => fst x * f (snd x)) ws).
Definition distribution (ws : list (Qc * Z)) : Prop := (forall x, In x ws -> 0 <= fst x) /\ mean ws (fun _ => 1) = 1.
(* the entry of a member that could be made *)
Definition entry (r : result matrix) (i j : nat) : Qc := match r with Ok m => aget (values m) i j | Raise _ => 0 end.
(* the matrix has values for its axes *)
Definition filled (m : matrix) : Prop := shaped (values m) (length (Ex m)) (length (Eg m)).
Definition no_action (m : matrix) : result matrix := Ok m.

Lemma mean_ext ws f g : (forall x, In x ws -> f (snd x) = g (snd x)) -> mean ws f = mean ws g.
Proof. intros H. unfold mean. f_equal. apply map_ext_in. intros x Hx. now rewrite (H x Hx). Qed.
Lemma mean_add ws f g : mean ws (fun s => f s + g s) = mean ws f + mean ws g.
Proof. unfold mean. induction ws as [|x ws IH]; cbn [map qsum]; [ring|]. rewrite IH. ring. Qed.
Lemma mean_lin ws c f g : mean ws (fun s => f s - c * g s) = mean ws f - c * mean ws g.
Proof. unfold mean. induction ws as [|x ws IH]; cbn [map qsum]; [ring|]. rewrite IH. ring. Qed.
Lemma mean_le ws f g : (forall x, In x ws -> 0 <= fst x) -> (forall x, In x ws -> f (snd x) <= g (snd x)) -> mean ws f <= mean ws g.
Proof.
  unfold mean. induction ws as [|x ws IH]; intros W H; cbn [map qsum]; [qlra|].
  assert (A : fst x * f (snd x) <= fst x * g (snd x)).
  { assert (0 <= fst x) by (apply W; now left). assert (f (snd x) <= g (snd x)) by (apply H; now left). qnra. }
  assert (B := IH (fun y Hy => W y (or_intror Hy)) (fun y Hy => H y (or_intror Hy))). qlra.
Qed.
Lemma mean_lt ws f g : (forall x, In x ws -> 0 <= fst x) -> (forall x, In x ws -> f (snd x) <= g (snd x)) ->
  (exists x, In x ws /\ 0 < fst x /\ f (snd x) < g (snd x)) -> mean ws f < mean ws g.
Proof.
  unfold mean. induction ws as [|x ws IH]; intros W H (y & Hy & P & L); [destruct Hy|]. cbn [map qsum].
  assert (A : fst x * f (snd x) <= fst x * g (snd x)).
  { assert (0 <= fst x) by (apply W; now left). assert (f (snd x) <= g (snd x)) by (apply H; now left). qnra. }
  assert (B : mean ws f <= mean ws g) by (apply mean_le; [intros z Hz; apply W; now right|intros z Hz; apply H; now right]).
  unfold mean in B. destruct Hy as [-> | Hy].
  - assert (fst y * f (snd y) < fst y * g (snd y)) by qnra. qlra.
  - assert (C := IH (fun y Hy => W y (or_intror Hy)) (fun y Hy => H y (or_intror Hy)) (ex_intro _ y (conj Hy (conj P L)))). qlra.
Qed.
Lemma aget_tab nr nc (f : nat -> nat -> Qc) i j : (i < nr)%nat -> (j < nc)%nat -> aget (mkArr nc (tab nr (fun i => tab nc (fun j => f i j)))) i j = f i j.
Proof.
  intros Hi Hj. unfold aget, mget, vget. cbn [a_rows]. rewrite (nth_tab nr _ [] i Hi). now rewrite nth_tab.
Qed.

Section Mean.
Variable rng : Type.
Variable rng_of : Z -> nat -> rng.
Variable normal : rng -> arr2 -> (nat -> nat -> Qc) * rng.
Variable poisson : rng -> arr2 -> (nat -> nat -> nat) * rng.
Variable raw0 : matrix.
Variable bg0 : option matrix.
Variable bg_ratio : Qc.
Variable ws : list (Qc * Z).
Hypothesis D : distribution ws.
Local Notation draw := (draw rng normal poisson raw0 bg0).
Local Notation prompt s meth n := (draw meth KPrompt (rng_of s n)).
Local Notation raw_member := (raw_member rng rng_of normal poisson raw0 bg0 bg_ratio no_action no_action).

(* on average numpy draws the rates, and the locations, it is given *)
Definition poisson_unbiased (gen : Z -> rng) (lam : arr2) : Prop :=
  forall i j, (i < a_nr lam)%nat -> (j < a_nc lam)%nat -> mean ws (fun s => qnat (fst (poisson (gen s) lam) i j)) = aget lam i j.
Definition normal_unbiased (gen : Z -> rng) (loc : arr2) : Prop :=
  forall i j, (i < a_nr loc)%nat -> (j < a_nc loc)%nat -> mean ws (fun s => fst (normal (gen s) loc) i j) = aget loc i j.

Lemma verify_filled v m st t : filled m -> shaped v (length (Ex m)) (length (Eg m)) -> set_state st = Ok t ->
  mk_matrix v (Some (Eg m)) (Some (Ex m)) None st = Ok (mkM v (Eg m) (Ex m) None t).
Proof.
  intros _ (H1 & H2 & _) HS. unfold mk_matrix, verify_integrity, a_nr. cbn [values Ex Eg std]. rewrite H1, H2, !Nat.eqb_refl. cbn [negb rbind]. now rewrite HS.
Qed.
Lemma shaped_tab nr nc (f : nat -> nat -> Qc) : shaped (mkArr nc (tab nr (fun i => tab nc (fun j => f i j)))) nr nc.
Proof. unfold shaped. cbn [a_rows a_nc]. rewrite tab_length. split; [reflexivity|]. split; [reflexivity|]. intros r Hr. apply in_tab in Hr as (i & _ & ->). apply tab_length. Qed.

Local Notation base k := (matrix_of raw0 bg0 k).
(* the rates given to the Poisson generator: counts, with negative ones replaced by 0 *)
Definition rates (m : matrix) : arr2 := amap (fun x => if qleb x 0 then 0 else x) (values m).
Lemma rates_eq m : amap (fun x => if qltb 0 x then x else 0) (values m) = rates m.
Proof.
  unfold rates, amap. f_equal. apply map_ext. intros r. apply map_ext. intros x. destruct (qltb_spec 0 x), (qleb_spec x 0); try reflexivity; qlra.
Qed.
Lemma draw_poisson k g : (k = KRaw \/ k = KPrompt \/ k = KBg) -> filled (base k) ->
  exists m, draw MPoisson k g = Ok (m, snd (poisson g (rates (base k)))) /\ Ex m = Ex (base k) /\ Eg m = Eg (base k) /\
  values m = mkArr (length (Eg (base k))) (tab (length (Ex (base k))) (fun i => tab (length (Eg (base k))) (fun j => qnat (fst (poisson g (rates (base k))) i j)))).
Proof.
  intros HK F. pose proof F as (H1 & H2 & _). unfold EnsembleModel.draw, poissonian. rewrite rates_eq. destruct (poisson g (rates (base k))) as [dr g'] eqn:P. cbn [rbind fst snd].
  unfold a_nr. rewrite H1, H2. 
  assert (ST : exists t, set_state (SStr (state_name k)) = Ok t) by (destruct HK as [-> | [-> | ->]]; eexists; vm_compute; reflexivity).
  destruct ST as (t & ST). rewrite (verify_filled _ (base k) _ t F (shaped_tab _ _ _) ST). cbn [rbind].
  eexists. split; [reflexivity|]. cbn [Ex Eg values]. auto.
Qed.
Lemma draw_gaussian k g : (k = KRaw \/ k = KPrompt \/ k = KBg) -> filled (base k) ->
  exists m, draw MGaussian k g = Ok (m, snd (normal g (values (base k)))) /\ Ex m = Ex (base k) /\ Eg m = Eg (base k) /\
  values m = mkArr (length (Eg (base k))) (tab (length (Ex (base k))) (fun i => tab (length (Eg (base k))) (fun j =>
    if qltb (fst (normal g (values (base k))) i j) 0 then 0 else fst (normal g (values (base k))) i j))).
Proof.
  intros HK F. pose proof F as (H1 & H2 & _). unfold EnsembleModel.draw, gaussian. destruct (normal g (values (base k))) as [dr g'] eqn:P. cbn [rbind fst snd].
  unfold a_nr. rewrite H1, H2.
  assert (ST : exists t, set_state (SStr (state_name k)) = Ok t) by (destruct HK as [-> | [-> | ->]]; eexists; vm_compute; reflexivity).
  destruct ST as (t & ST). rewrite (verify_filled _ (base k) _ t F (shaped_tab _ _ _) ST). cbn [rbind].
  eexists. split; [reflexivity|]. cbn [Ex Eg values]. auto.
Qed.
Lemma rates_at m i j : filled m -> (i < length (Ex m))%nat -> (j < length (Eg m))%nat -> aget (rates m) i j = if qleb (aget (values m) i j) 0 then 0 else aget (values m) i j.
Proof. intros F Hi Hj. unfold rates. now rewrite (aget_amap _ _ i j _ _ F Hi Hj). Qed.
Lemma rates_size m : filled m -> a_nr (rates m) = length (Ex m) /\ a_nc (rates m) = length (Eg m).
Proof. intros (H1 & H2 & _). unfold rates, amap, a_nr. cbn [a_rows a_nc]. rewrite map_length. auto. Qed.
End Mean.

Section NoBackground.
Variable rng : Type.
Variable rng_of : Z -> nat -> rng.
Variable normal : rng -> arr2 -> (nat -> nat -> Qc) * rng.
Variable poisson : rng -> arr2 -> (nat -> nat -> nat) * rng.
Variable raw0 : matrix.
Variable bg_ratio : Qc.
Variables act_prompt act_bg : matrix -> result matrix.
Local Notation raw_member := (raw_member rng rng_of normal poisson raw0 None bg_ratio act_prompt act_bg).

(* Poisson members without a background: every member is made, and in every bin their
   average is the number of counts (0 in a bin with negative counts) *)
Theorem poisson_member_mean : forall ws n, distribution ws -> filled raw0 ->
  poisson_unbiased rng poisson ws (fun s => rng_of s n) (rates raw0) ->
  (forall s, exists m, raw_member s MPoisson n = Ok m) /\
  forall i j, (i < length (Ex raw0))%nat -> (j < length (Eg raw0))%nat ->
    mean ws (fun s => entry (raw_member s MPoisson n) i j) =
    (if qleb (aget (values raw0) i j) 0 then 0 else aget (values raw0) i j).
Proof.
  intros ws n D F U.
  assert (R : forall s, exists m, raw_member s MPoisson n = Ok m /\ forall i j, (i < length (Ex raw0))%nat -> (j < length (Eg raw0))%nat ->
    aget (values m) i j = qnat (fst (poisson (rng_of s n) (rates raw0)) i j)).
  { intros s. unfold EnsembleSpec.raw_member. cbn [has_bg].
    destruct (draw_poisson rng normal poisson raw0 None KRaw (rng_of s n) (or_introl eq_refl) F) as (m & E & _ & _ & V).
    rewrite E. cbn [rmap fst]. exists m. split; [reflexivity|]. intros i j Hi Hj. rewrite V. cbn [matrix_of] in *. now rewrite aget_tab. }
  split; [intros s; destruct (R s) as (m & E & _); now exists m|]. intros i j Hi Hj.
  rewrite (mean_ext ws _ (fun s => qnat (fst (poisson (rng_of s n) (rates raw0)) i j))).
  - destruct (rates_size raw0 F) as (S1 & S2). rewrite U by (rewrite ?S1, ?S2; assumption). now apply rates_at.
  - intros x _. destruct (R (snd x)) as (m & E & V). unfold entry. rewrite E. now apply V.
Qed.

(* Gaussian members: on average a bin holds its counts plus what the cut at zero adds, so
   never less than its counts, and more as soon as a draw can be negative *)
Theorem gaussian_member_mean : forall ws n, distribution ws -> filled raw0 ->
  normal_unbiased rng normal ws (fun s => rng_of s n) (values raw0) ->
  (forall s, exists m, raw_member s MGaussian n = Ok m) /\
  forall i j, (i < length (Ex raw0))%nat -> (j < length (Eg raw0))%nat ->
    let drawn s := fst (normal (rng_of s n) (values raw0)) i j in
    let average := mean ws (fun s => entry (raw_member s MGaussian n) i j) in
    aget (values raw0) i j <= average /\
    ((exists x, In x ws /\ 0 < fst x /\ drawn (snd x) < 0) -> aget (values raw0) i j < average) /\
    ((forall x, In x ws -> 0 <= drawn (snd x)) -> average = aget (values raw0) i j).
Proof.
  intros ws n D F U.
  assert (R : forall s, exists m, raw_member s MGaussian n = Ok m /\ forall i j, (i < length (Ex raw0))%nat -> (j < length (Eg raw0))%nat ->
    aget (values m) i j = if qltb (fst (normal (rng_of s n) (values raw0)) i j) 0 then 0 else fst (normal (rng_of s n) (values raw0)) i j).
  { intros s. unfold EnsembleSpec.raw_member. cbn [has_bg].
    destruct (draw_gaussian rng normal poisson raw0 None KRaw (rng_of s n) (or_introl eq_refl) F) as (m & E & _ & _ & V).
    rewrite E. cbn [rmap fst]. exists m. split; [reflexivity|]. intros i j Hi Hj. rewrite V. cbn [matrix_of] in *. now rewrite aget_tab. }
  split; [intros s; destruct (R s) as (m & E & _); now exists m|]. intros i j Hi Hj. cbv zeta.
  assert (M : mean ws (fun s => fst (normal (rng_of s n) (values raw0)) i j) = aget (values raw0) i j).
  { apply U. - destruct F as (_ & -> & _) || (unfold a_nr; destruct F as (_ & F & _); rewrite F). exact Hi. - destruct F as (-> & _). exact Hj. }
  rewrite <- M. set (dr := fun s => fst (normal (rng_of s n) (values raw0)) i j) in *.
  assert (V : forall s, entry (raw_member s MGaussian n) i j = if qltb (dr s) 0 then 0 else dr s).
  { intros s. destruct (R s) as (m & E & V). unfold entry. rewrite E. now apply V. }
  destruct D as (W & _). repeat split.
  - apply mean_le; [exact W|]. intros x _. rewrite V. destruct (qltb_spec (dr (snd x)) 0); qlra.
  - intros (x & Hx & P & L). apply mean_lt; [exact W| |].
    + intros y _. rewrite V. destruct (qltb_spec (dr (snd y)) 0); qlra.
    + exists x. split; [exact Hx|]. split; [exact P|]. rewrite V. unfold dr in *. destruct (qltb_spec (fst (normal (rng_of (snd x) n) (values raw0)) i j) 0); qlra.
  - intros H. apply mean_ext. intros x Hx. rewrite V. specialize (H x Hx). unfold dr in *. destruct (qltb_spec (fst (normal (rng_of (snd x) n) (values raw0)) i j) 0); [exfalso; qlra|reflexivity].
Qed.
End NoBackground.
Print Assumptions poisson_member_mean.
Print Assumptions gaussian_member_mean.

Section Background.
Variable rng : Type.
Variable rng_of : Z -> nat -> rng.
Variable normal : rng -> arr2 -> (nat -> nat -> Qc) * rng.
Variable poisson : rng -> arr2 -> (nat -> nat -> nat) * rng.
Variable raw0 bg : matrix.
Variable bg_ratio : Qc.
Local Notation raw_member := (raw_member rng rng_of normal poisson raw0 (Some bg) bg_ratio no_action no_action).
(* the two generators of member n: the background is drawn after the prompt spectrum *)
Definition gen1 (n : nat) (s : Z) : rng := rng_of s n.
Definition gen2 (n : nat) (s : Z) : rng := snd (poisson (rng_of s n) (rates raw0)).

Lemma zip2_at (f : Qc -> Qc -> Qc) a b nr nc i j : shaped a nr nc -> shaped b nr nc -> (i < nr)%nat -> (j < nc)%nat ->
  mget (zip2 f (a_rows a) (a_rows b)) i j = f (aget a i j) (aget b i j).
Proof.
  intros (_ & L1 & R1) (_ & L2 & R2) Hi Hj. unfold mget, aget, mget, vget, zip2.
  rewrite (map2_nth (map2 f) _ _ i [] [] []) by (try congruence; lia).
  apply (map2_nth f); [rewrite R1, R2 by (apply nth_In; lia); reflexivity|]. rewrite R1 by (apply nth_In; lia). exact Hj.
Qed.

(* the difference of the average prompt spectrum and the scaled average background *)
Definition net (i j : nat) : Qc := aget (rates raw0) i j - bg_ratio * aget (rates bg) i j.
Lemma background_member s n : filled raw0 -> filled bg -> m_equal_binning raw0 bg = Ok tt ->
  exists m, raw_member s MPoisson n = Ok m /\ forall i j, (i < length (Ex raw0))%nat -> (j < length (Eg raw0))%nat ->
    let remnant := qnat (fst (poisson (gen1 n s) (rates raw0)) i j) - bg_ratio * qnat (fst (poisson (gen2 n s) (rates bg)) i j) in
    aget (values m) i j = if qltb remnant 0 then 0 else remnant.
Proof.
  intros F1 F2 EB. unfold EnsembleSpec.raw_member. cbn [has_bg]. unfold prompt_member.
  destruct (draw_poisson rng normal poisson raw0 (Some bg) KPrompt (rng_of s n) (or_intror (or_introl eq_refl)) F1) as (m & E & X & G & V).
  rewrite E. cbn [rbind fst snd no_action]. cbn [matrix_of] in *.
  destruct (draw_poisson rng normal poisson raw0 (Some bg) KBg (gen2 n s) (or_intror (or_intror eq_refl)) F2) as (b & E' & X' & G' & V').
  cbn [matrix_of] in *. unfold gen2 in E' at 1. rewrite E'. cbn [rbind fst snd no_action].
  assert (L : length (Ex bg) = length (Ex raw0) /\ length (Eg bg) = length (Eg raw0)).
  { destruct F1 as (P1 & P2 & _), F2 as (Q1 & Q2 & _). unfold m_equal_binning in EB.
    destruct (pair_eqb (shape (values raw0)) (shape (values bg))) eqn:PE; [|discriminate]. unfold pair_eqb, shape, a_nr in PE. cbn [fst snd] in PE.
    apply andb_true_iff in PE as (A & B). apply Nat.eqb_eq in A, B. split; congruence. }
  destruct L as (LX & LG). rewrite LX, LG in V'.
  assert (S1 : shaped (values m) (length (Ex raw0)) (length (Eg raw0))) by (rewrite V; apply shaped_tab).
  assert (S2 : shaped (values b) (length (Ex raw0)) (length (Eg raw0))) by (rewrite V'; apply shaped_tab).
  assert (EB' : m_equal_binning m b = Ok tt).
  { unfold m_equal_binning in *. rewrite X, G, X', G'. destruct S1 as (P1 & P2 & _), S2 as (Q1 & Q2 & _).
    unfold pair_eqb, shape, a_nr. cbn [fst snd]. rewrite P1, P2, Q1, Q2, !Nat.eqb_refl. cbn [andb negb].
    destruct (negb (pair_eqb (shape (values raw0)) (shape (values bg)))); [discriminate|exact EB]. }
  unfold subtracted. rewrite EB'. cbn [rbind].
  set (df := mkArr (a_nc (values m)) (zip2 (fun x y => x - bg_ratio * y) (a_rows (values m)) (a_rows (values b)))).
  assert (SD : shaped df (length (Ex raw0)) (length (Eg raw0))).
  { destruct S1 as (P1 & P2 & P3), S2 as (Q1 & Q2 & Q3). unfold df, zip2. split; [exact P1|]. cbn [a_rows]. split; [rewrite map2_length; congruence|].
    intros r Hr. apply (In_nth _ _ []) in Hr as (k & Hk & <-). rewrite map2_length in Hk by congruence.
    rewrite (map2_nth _ _ _ k [] [] []) by (try congruence; lia). rewrite map2_length; [apply P3, nth_In, Hk|]. transitivity (length (Eg raw0)); [apply P3, nth_In, Hk|]. symmetry. apply Q3, nth_In. lia. }
  unfold checked, fits. cbn [remove_negative with_values values Ex Eg]. rewrite X, G. 
  assert (SC : shaped (amap clip df) (length (Ex raw0)) (length (Eg raw0))).
  { destruct SD as (P1 & P2 & P3). split; [exact P1|]. cbn [amap a_rows]. split; [now rewrite map_length|]. intros r Hr. apply in_map_iff in Hr as (y & <- & Hy). rewrite map_length. now apply P3. }
  assert (PE : pair_eqb (shape (amap clip df)) (length (Ex raw0), length (Eg raw0)) = true).
  { destruct SC as (P1 & P2 & _). unfold pair_eqb, shape, a_nr. cbn [fst snd]. now rewrite P1, P2, !Nat.eqb_refl. }
  rewrite PE. eexists. split; [reflexivity|]. cbn [remove_negative with_values values]. intros i j Hi Hj. cbv zeta.
  rewrite (aget_amap _ _ i j _ _ SD Hi Hj). unfold df at 1. unfold aget at 1. cbn [a_rows]. rewrite (zip2_at _ _ _ _ _ i j S1 S2 Hi Hj).
  rewrite V, V', !aget_tab by assumption. fold (gen1 n s). unfold gen2. unfold clip.
  set (z := qnat _ - _ * _). destruct (qltb_spec 0 z), (qltb_spec z 0); try reflexivity; qlra.
Qed.

(* with a background: every member is made; on average a bin holds at least the difference of
   the prompt counts and the scaled background counts, and more as soon as the difference of
   the draws can be negative.  Both averages agree when it never is. *)
Theorem background_member_mean_partial : forall ws n, distribution ws -> filled raw0 -> filled bg -> m_equal_binning raw0 bg = Ok tt ->
  poisson_unbiased rng poisson ws (gen1 n) (rates raw0) -> poisson_unbiased rng poisson ws (gen2 n) (rates bg) ->
  (forall s, exists m, raw_member s MPoisson n = Ok m) /\
  forall i j, (i < length (Ex raw0))%nat -> (j < length (Eg raw0))%nat ->
    let remnant s := qnat (fst (poisson (gen1 n s) (rates raw0)) i j) - bg_ratio * qnat (fst (poisson (gen2 n s) (rates bg)) i j) in
    let average := mean ws (fun s => entry (raw_member s MPoisson n) i j) in
    net i j <= average /\
    ((exists x, In x ws /\ 0 < fst x /\ remnant (snd x) < 0) -> net i j < average) /\
    ((forall x, In x ws -> 0 <= remnant (snd x)) -> average = net i j).
Proof.
  intros ws n (W & _) F1 F2 EB U1 U2. pose proof (fun s => background_member s n F1 F2 EB) as R.
  split; [intros s; destruct (R s) as (m & E & _); now exists m|]. intros i j Hi Hj. cbv zeta.
  set (rem := fun s => qnat (fst (poisson (gen1 n s) (rates raw0)) i j) - bg_ratio * qnat (fst (poisson (gen2 n s) (rates bg)) i j)).
  assert (L : length (Ex bg) = length (Ex raw0) /\ length (Eg bg) = length (Eg raw0)).
  { destruct F1 as (P1 & P2 & _), F2 as (Q1 & Q2 & _). unfold m_equal_binning in EB.
    destruct (pair_eqb (shape (values raw0)) (shape (values bg))) eqn:PE; [|discriminate]. unfold pair_eqb, shape, a_nr in PE. cbn [fst snd] in PE.
    apply andb_true_iff in PE as (A & B). apply Nat.eqb_eq in A, B. split; congruence. }
  destruct L as (LX & LG). destruct (rates_size raw0 F1) as (N1 & N2). destruct (rates_size bg F2) as (N3 & N4).
  assert (M : mean ws rem = net i j).
  { unfold rem. rewrite mean_lin. rewrite U1 by (rewrite ?N1, ?N2; assumption). rewrite U2 by (rewrite ?N3, ?N4, ?LX, ?LG; assumption). reflexivity. }
  assert (V : forall s, entry (raw_member s MPoisson n) i j = if qltb (rem s) 0 then 0 else rem s).
  { intros s. destruct (R s) as (m & E & V). unfold entry. rewrite E. now apply V. }
  rewrite <- M. repeat split.
  - apply mean_le; [exact W|]. intros x _. rewrite V. destruct (qltb_spec (rem (snd x)) 0); qlra.
  - intros (x & Hx & P & Lx). apply mean_lt; [exact W| |].
    + intros y _. rewrite V. destruct (qltb_spec (rem (snd y)) 0); qlra.
    + exists x. split; [exact Hx|]. split; [exact P|]. rewrite V. fold (rem (snd x)) in Lx. destruct (qltb_spec (rem (snd x)) 0); qlra.
  - intros H. apply mean_ext. intros x Hx. rewrite V. specialize (H x Hx). fold (rem (snd x)) in H. destruct (qltb_spec (rem (snd x)) 0); [exfalso; qlra|reflexivity].
Qed.
End Background.
Print Assumptions background_member_mean_partial.

(* a generator with two states: 0 or twice the rate, in turn *)
Definition coin_poisson (g : Z) (lam : arr2) : (nat -> nat -> nat) * Z :=
  (fun i j => if Z.eqb g 0 then 0%nat else (2 * Z.to_nat (Qnum (this (aget lam i j))))%nat, (1 - g)%Z).
Definition coin_normal (g : Z) (loc : arr2) : (nat -> nat -> Qc) * Z :=
  (fun i j => if Z.eqb g 0 then aget loc i j - qz 3 else aget loc i j + qz 3, (1 - g)%Z).
Definition coin_of (s : Z) (n : nat) : Z := s.
Definition coin : list (Qc * Z) := [(qn 1 2, 0%Z); (qn 1 2, 1%Z)].
Definition two_bins (a b : Z) : matrix := mkM (mkArr 2 [[qz a; qz b]]) (ql [1; 2]%Z) (ql [5]%Z) None None.
Lemma coin_distribution : distribution coin.
Proof. split; [|apply qeqb_eq; vm_compute; reflexivity]. intros x [<- | [<- | []]]; apply qleb_le; vm_compute; reflexivity. Qed.
Lemma two_bins_filled a b : filled (two_bins a b).
Proof. split; [reflexivity|]. split; [reflexivity|]. intros r [<- | []]. reflexivity. Qed.
Lemma coin_unbiased1 : poisson_unbiased Z coin_poisson coin (fun s => coin_of s 7) (rates (two_bins 2 6)).
Proof. intros i j Hi Hj. cbn in Hi, Hj. destruct i as [|i]; [|lia]. destruct j as [|[|j]]; [| |lia]; apply qeqb_eq; vm_compute; reflexivity. Qed.

(* with a background the average of the members is not the difference of the counts, although
   the draws are right on average and the difference is positive *)
Theorem background_member_mean_refuted : exists rng rng_of normal poisson raw0 bg ratio ws,
  distribution ws /\ filled raw0 /\ filled bg /\ m_equal_binning raw0 bg = Ok tt /\
  poisson_unbiased rng poisson ws (gen1 rng rng_of 7) (rates raw0) /\ poisson_unbiased rng poisson ws (gen2 rng rng_of poisson raw0 7) (rates bg) /\
  0 < net raw0 bg ratio 0 0 /\
  mean ws (fun s => entry (raw_member rng rng_of normal poisson raw0 (Some bg) ratio no_action no_action s MPoisson 7) 0 0) <> net raw0 bg ratio 0 0.
Proof.
  exists Z, coin_of, coin_normal, coin_poisson, (two_bins 2 6), (two_bins 1 3), 1, coin.
  split; [exact coin_distribution|]. split; [apply two_bins_filled|]. split; [apply two_bins_filled|]. split; [vm_compute; reflexivity|].
  split; [exact coin_unbiased1|]. split.
  { intros i j Hi Hj. cbn in Hi, Hj. destruct i as [|i]; [|lia]. destruct j as [|[|j]]; [| |lia]; apply qeqb_eq; vm_compute; reflexivity. }
  split; [apply qltb_lt; vm_compute; reflexivity|]. apply qeqb_neq. vm_compute. reflexivity.
Qed.
Print Assumptions background_member_mean_refuted.

(* Poisson members with 2 and 6 counts: 0 or 4, 0 or 12 *)
Example coin_poisson_mean :
  mean coin (fun s => entry (raw_member Z coin_of coin_normal coin_poisson (two_bins 2 6) None 1 no_action no_action s MPoisson 7) 0 1) = qz 6 /\
  mean coin (fun s => entry (raw_member Z coin_of coin_normal coin_poisson (two_bins 2 6) None 1 no_action no_action s MPoisson 7) 0 0) = qz 2.
Proof.
  destruct (poisson_member_mean Z coin_of coin_normal coin_poisson (two_bins 2 6) 1 no_action no_action coin 7 coin_distribution (two_bins_filled 2 6) coin_unbiased1) as (_ & H).
  split; rewrite H by (cbn; lia); apply qeqb_eq; vm_compute; reflexivity.
Qed.
(* Gaussian members: with 6 counts no draw is negative, with 2 counts -1 is drawn half of the time *)
Example coin_gaussian_mean :
  mean coin (fun s => entry (raw_member Z coin_of coin_normal coin_poisson (two_bins 2 6) None 1 no_action no_action s MGaussian 7) 0 1) = qz 6 /\
  qz 2 < mean coin (fun s => entry (raw_member Z coin_of coin_normal coin_poisson (two_bins 2 6) None 1 no_action no_action s MGaussian 7) 0 0).
Proof.
  destruct (gaussian_member_mean Z coin_of coin_normal coin_poisson (two_bins 2 6) 1 no_action no_action coin 7 coin_distribution (two_bins_filled 2 6)) as (_ & H).
  - intros i j Hi Hj. cbn in Hi, Hj. destruct i as [|i]; [|lia]. destruct j as [|[|j]]; [| |lia]; apply qeqb_eq; vm_compute; reflexivity.
  - split.
    + destruct (H 0%nat 1%nat) as (_ & _ & E); [cbn; lia|cbn; lia|]. rewrite E; [reflexivity|]. intros x [<- | [<- | []]]; apply qleb_le; vm_compute; reflexivity.
    + destruct (H 0%nat 0%nat) as (_ & E & _); [cbn; lia|cbn; lia|]. apply E. exists (qn 1 2, 0%Z). split; [now left|]. split; apply qltb_lt; vm_compute; reflexivity.
Qed.
(* the background subtracted members of the refutation hold at least the difference *)
Example coin_background : net (two_bins 2 6) (two_bins 1 3) 1 0 1 = qz 3 /\
  qz 3 < mean coin (fun s => entry (raw_member Z coin_of coin_normal coin_poisson (two_bins 2 6) (Some (two_bins 1 3)) 1 no_action no_action s MPoisson 7) 0 1).
Proof. split; [apply qeqb_eq; vm_compute; reflexivity|apply qltb_lt; vm_compute; reflexivity]. Qed.
