(* C55, C56, C76, C77: extraction of level density and strength function. *)
From Coq Require Import String.
From Verif Require Import PyBase Axis MatrixModel ArithModel CalibModel DecompModel CutSpec IndexProofs Conc ConcProofs ExtractorModel ExtractorSpec ExtractorProofs ExtractorFitProofs ExtractorRunProofs.
Local Open Scope list_scope.
Local Notation length := List.length (only parsing).

(* ---- C56: one bin of the level density per diagonal ------------------------------ *)
Theorem grid_one_bin_per_diagonal : forall x0 g0 d nr nc, 0 < d -> (2 <= nr)%nat -> (2 <= nc)%nat ->
  exists E, nld_grid (arith x0 d nr) (arith g0 d nc) = Ok E /\ length E = (nr + nc - 1)%nat /\
  (forall i j, (i < nr)%nat -> (j < nc)%nat ->
     nearest E (vget (arith x0 d nr) i - vget (arith g0 d nc) j) (nc - 1 + i - j) /\
     vget E (nc - 1 + i - j) = vget (arith x0 d nr) i - vget (arith g0 d nc) j) /\
  (forall k, (k < length E)%nat -> exists i j, (i < nr)%nat /\ (j < nc)%nat /\ k = (nc - 1 + i - j)%nat).
Proof.
  intros x0 g0 d nr nc D R C. eexists. split; [apply grid_lemma; assumption|]. rewrite arith_length. split; [reflexivity|]. split.
  - intros i j I J. rewrite grid_diagonal by assumption. split; [|reflexivity]. rewrite <- (grid_diagonal x0 g0 d nr nc i j I J).
    apply index_grid; [assumption|lia].
  - intros k K. destruct (Nat.le_gt_cases k (nc - 1)) as [H|H]; [exists 0%nat, (nc - 1 - k)%nat|exists (k - (nc - 1))%nat, 0%nat]; lia.
Qed.
Print Assumptions grid_one_bin_per_diagonal.
Example grid_example : match nld_grid (arith (qz 3) (qz 2) 3) (arith (qz 1) (qz 2) 4) with Ok E => leqb E (ql [-4; -2; 0; 2; 4; 6]%Z) | _ => false end = true.
Proof. vm_compute. reflexivity. Qed.

(* C56: what is reported as unconstrained.  The limit is Eg <= Ex + resolution + halfbin. *)
Theorem unconstrained_bins : forall sqrtq twopi bsfg rng uniform minimize randomize extend resolution_Ex self_x0
    g m s x0 m' vn vg g' a0 b0 d nr nc,
  equal_width m a0 b0 d nr nc ->
  decompose sqrtq twopi bsfg rng uniform minimize randomize extend resolution_Ex self_x0 g m s x0 = (m', Ok (vn, vg, g')) ->
  exists res, the_resolution sqrtq extend resolution_Ex (Ex m) (Eg m) = Ok res /\
  ev_E vn = arith (a0 - (b0 + qnat (nc - 1) * d)) d (nr + nc - 1) /\ length (ev_v vn) = (nr + nc - 1)%nat /\
  ev_E vg = Eg m /\ length (ev_v vg) = nc /\
  (forall k, (k < nr + nc - 1)%nat ->
     (nth_error (ev_v vn) k = Some NaN <->
      forall i j, (i < nr)%nat -> (j < nc)%nat -> inside m res i j ->
        vget (Ex m) i - vget (Eg m) j = vget (ev_E vn) k -> mget (a_rows (values m)) i j = 0)) /\
  (forall j, (j < nc)%nat -> twopi * (vget (Eg m) j * vget (Eg m) j * vget (Eg m) j) <> 0 ->
     (nth_error (ev_v vg) j = Some NaN <->
      forall i, (i < nr)%nat -> inside m res i j -> mget (a_rows (values m)) i j = 0)).
Proof. intros. eapply decompose_lemma; eassumption. Qed.
Print Assumptions unconstrained_bins.

(* ... and when decompose succeeds *)
Theorem decompose_succeeds : forall sqrtq twopi bsfg rng uniform minimize randomize extend resolution_Ex self_x0,
  (forall f x, length (minimize f x) = length x) -> (forall g lo hi, length (fst (uniform g lo hi)) = length lo) ->
  (forall l, length (bsfg l) = length l) ->
  forall g m st x0 a0 b0 d nr nc, equal_width m a0 b0 d nr nc ->
  counts_nonneg (a_rows (values m)) -> counts_nonneg (a_rows st) -> shape (values m) = shape st ->
  (forall i, (i < nr)%nat -> qsum (nth i (a_rows (values m)) []) = 0 -> forall x, In x (nth i (a_rows st) []) -> x = 0) ->
  default_or_sized self_x0 x0 (nr + nc - 1 + nc) ->
  exists m' vn vg g', decompose sqrtq twopi bsfg rng uniform minimize randomize extend resolution_Ex self_x0 g m (Some st) x0 = (m', Ok (vn, vg, g')).
Proof. intros. eapply decompose_succeeds_lemma; eassumption. Qed.
Print Assumptions decompose_succeeds.

Definition id_min : (list Qc -> option Qc) -> list Qc -> list Qc := fun _ x => x.
Definition ones : list Qc -> list Qc := map (fun _ => 1).
Definition nat_uniform (g : nat) (lo hi : list Qc) : list Qc * nat := (map (fun y => y + qnat g) lo, S g).
Local Notation dec := (decompose (fun x => x) 1 ones nat nat_uniform id_min false false 0 XNone).
Definition em : matrix := mkM (mkArr 2 [ql [3; 1]; ql [2; 6]]%Z) (ql [1; 2]%Z) (ql [1; 2]%Z) None None.
Definition es : arr2 := mkArr 2 [ql [1; 1]; ql [1; 1]]%Z.
Example em_width : equal_width em (qz 1) (qz 1) 1 2 2.
Proof.
  repeat split; try lia; try reflexivity; try (apply (proj1 (leqb_eq _ _)); vm_compute; reflexivity).
  intros r [<-|[<-|[]]]; reflexivity.
Qed.
Definition xeq (a b : xnum) : bool := match a, b with Fin x, Fin y => qeqb x y | PInf, PInf | NInf, NInf | NaN, NaN => true | _, _ => false end.
Fixpoint xleq (l m : list xnum) : bool := match l, m with [], [] => true | x :: l', y :: m' => xeq x y && xleq l' m' | _, _ => false end.
(* the bin (Ex=1, Eg=2) lies beyond the limit 1 + 0 + 1/2: the lowest nld bin is nan *)
Example em_decompose : match dec 0%nat em (Some es) XNone with
  | (m', Ok (vn, vg, _)) => xleq (ev_v vn) [NaN; Fin 1; Fin 1] && leqb (ev_E vn) (ql [-1; 0; 1]%Z) && xleq (ev_v vg) [Fin 1; Fin (qn 1 8)]
  | _ => false end = true.
Proof. vm_compute. reflexivity. Qed.

(* C56 refuted: bin widths that pass the check np.isclose(dEx, dEg) but are not equal give
   one grid point more than diagonals, and decompose fails. *)
Definition wm : matrix := mkM (mkArr 2 [ql [3; 1]; ql [2; 6]]%Z) [1; qn 2000001 1000000] (ql [1; 2]%Z) None None.
Theorem grid_mismatch_refuted : exists (m : matrix) (s : arr2),
  Ex m = arith 1 1 2 /\ Eg m = arith 1 (qn 1000001 1000000) 2 /\
  (exists E, nld_grid (Ex m) (Eg m) = Ok E /\ length E = (a_nr (values m) + a_nc (values m))%nat) /\
  snd (dec 0%nat m (Some s) XNone) = Raise IndexError.
Proof.
  exists wm, es. split; [apply (proj1 (leqb_eq _ _)); vm_compute; reflexivity|]. split; [apply (proj1 (leqb_eq _ _)); vm_compute; reflexivity|].
  split; [|vm_compute; reflexivity].
  assert (X : match nld_grid (Ex wm) (Eg wm) with Ok E => Nat.eqb (length E) 4 | _ => false end = true) by (vm_compute; reflexivity).
  destruct (nld_grid (Ex wm) (Eg wm)) as [E|]; [|discriminate]. exists E. split; [reflexivity|]. apply Nat.eqb_eq in X. exact X.
Qed.
Print Assumptions grid_mismatch_refuted.

(* C56 refuted: a level-density bin is reported although chi square compares no matrix bin
   of its diagonal (the limits differ by half a bin). *)
Definition hm : matrix := mkM (mkArr 2 [ql [3; 0]; ql [2; 6]]%Z) [qn 5 4; qn 9 4] (ql [1; 2]%Z) None None.
Theorem constrained_not_compared_refuted : exists m s m' vn vg g' k q,
  dec 0%nat m (Some s) XNone = (m', Ok (vn, vg, g')) /\ nth_error (ev_v vn) k = Some (Fin q) /\
  forall i j, (i < 2)%nat -> (j < 2)%nat -> vget (Ex m) i - vget (Eg m) j = vget (ev_E vn) k ->
    compared (a_rows s) (Ex m) (Eg m) [0; 0] i j = false.
Proof.
  assert (X : match dec 0%nat hm (Some es) XNone with (m', Ok (vn, vg, g')) =>
     (match nth_error (ev_v vn) 1 with Some (Fin q) => true | _ => false end &&
      forallb (fun i => forallb (fun j => negb (qeqb (vget (Ex hm) i - vget (Eg hm) j) (vget (ev_E vn) 1)) || negb (compared (a_rows es) (Ex hm) (Eg hm) [0; 0] i j)) [0; 1]%nat) [0; 1]%nat)%bool
     | _ => false end = true) by (vm_compute; reflexivity).
  destruct (dec 0%nat hm (Some es) XNone) as [m' [[[vn vg] g']|]] eqn:E; [|discriminate]. apply andb_prop in X. destruct X as [X1 X2].
  destruct (nth_error (ev_v vn) 1) as [[q| | |]|] eqn:N; try discriminate X1.
  exists hm, es, m', vn, vg, g', 1%nat, q. split; [exact E|]. split; [exact N|]. intros i j I J EQ. rewrite forallb_forall in X2.
  assert (HI : In i [0; 1]%nat) by (destruct i as [|[|i]]; cbn; auto; lia). assert (HJ : In j [0; 1]%nat) by (destruct j as [|[|j]]; cbn; auto; lia).
  specialize (X2 i HI). rewrite forallb_forall in X2. specialize (X2 j HJ).
  rewrite (proj2 (qeqb_eq _ _) EQ) in X2. cbn [negb orb] in X2. now apply Bool.negb_true_iff.
Qed.
Print Assumptions constrained_not_compared_refuted.

(* ---- C76: rows are normalised to probabilities with propagated errors -------------- *)
Theorem rows_become_probabilities : forall sqrtq v s v' s' nr nc, rect v nr nc -> rect s nr nc -> counts_nonneg v ->
  norm_rows sqrtq v s = Ok (v', s') ->
  rect v' nr nc /\ counts_nonneg v' /\ forall i, (i < nr)%nat ->
    let S := qsum (nth i v []) in
    (S <> 0 -> qsum (nth i v' []) = 1 /\ forall j, (j < nc)%nat -> mget v' i j * S = mget v i j) /\
    (S = 0 -> nth i v' [] = nth i v [] /\ nth i s' [] = nth i s [] /\ forall j, (j < nc)%nat -> mget v i j = 0 /\ mget s i j = 0).
Proof.
  intros sqrtq v s v' s' nr nc R RS P E. destruct (norm_rows_values sqrtq v s v' s' nr nc R (proj1 RS) E) as [R' V].
  split; [exact R'|]. split; [exact (norm_rows_nonneg sqrtq v s v' s' nr nc R (proj1 RS) E P)|]. intros i I S0.
  assert (LV : length (nth i v []) = nc) by (apply R, nth_In; now rewrite (proj1 R)).
  assert (LV' : length (nth i v' []) = nc) by (apply R', nth_In; now rewrite (proj1 R')).
  destruct (norm_rows_lemma sqrtq v s v' s') as (A & B & C); [now rewrite (proj1 R), (proj1 RS)|exact E|].
  destruct (norm_row_lemma _ _ _ _ _ (C i ltac:(rewrite (proj1 R); exact I))) as (D & F & G). fold S0 in F, G. split.
  - intros N. specialize (G N). split.
    + rewrite qsum_nth, LV'. rewrite (sumn_ext _ _ (fun j => vget (nth i v []) j / S0)) by (intros j J; apply G; rewrite LV; exact J).
      rewrite sumn_div, <- LV, <- qsum_nth. fold S0. field. exact N.
    + intros j J. unfold mget. rewrite (proj1 (proj2 G j ltac:(rewrite LV; exact J))). field. exact N.
  - intros Z. destruct (F Z) as (F1 & F2 & F3). split; [exact F1|]. split; [exact F2|]. intros j J. split.
    + unfold S0 in Z. rewrite qsum_nth, LV in Z.
      refine (sumn_nonneg_0 nc _ (fun k K => _) Z j J). exact (mget_nonneg v nr nc i k R P I K).
    + apply (sum_sq_zero _ F3). apply nth_In. rewrite (proj2 RS); [exact J|]. apply nth_In. rewrite (proj1 RS). exact I.
Qed.
Print Assumptions rows_become_probabilities.
(* the propagated variance: x_j/S with S the sum of independent entries *)
Theorem propagated_error : forall sqrtq x s x' s' j, length s = length x -> qsum x <> 0 -> norm_row sqrtq x s = Ok (x', s') -> (j < length x)%nat ->
  let S := qsum x in
  vget s' j = sqrtq (((S - vget x j) * (S - vget x j) * (vget s j * vget s j)
                      + vget x j * vget x j * (qsum (map (fun y => y * y) s) - vget s j * vget s j)) / (S * S * S * S)).
Proof.
  intros sqrtq x s x' s' j L N E J S0. destruct (norm_row_lemma _ _ _ _ _ E) as (_ & _ & G). destruct (G N) as [_ G2].
  rewrite (proj2 (G2 j J)). unfold propagate. fold S0. f_equal. rewrite qsum_tab.
  assert (Q : qsum (map (fun y => y * y) s) = sumn (length x) (fun k => vget s k * vget s k)).
  { rewrite qsum_nth, map_length, L. apply sumn_ext. intros i Hi. unfold vget. rewrite (map_nth_in _ _ _ 0) by (rewrite L; exact Hi). reflexivity. }
  rewrite Q. clear Q. cbv zeta.
  rewrite (sumn_ext _ _ (fun k => (vget x j * vget x j / (S0 * S0 * S0 * S0)) * (vget s k * vget s k)
     + (if Nat.eqb k j then ((S0 - vget x j) * (S0 - vget x j) - vget x j * vget x j) * (vget s j * vget s j) / (S0 * S0 * S0 * S0) else 0))).
  - rewrite sumn_add, sumn_scal.
    match goal with |- context [sumn _ (fun k => if Nat.eqb k j then ?v else 0)] =>
      assert (W : sumn (length x) (fun k => if Nat.eqb k j then v else 0) = v) by
        (rewrite (sumn_single _ _ j) by (assumption || (intros i _ H; destruct (Nat.eqb_spec i j); [contradiction|reflexivity])); now rewrite Nat.eqb_refl);
      rewrite W end.
    field. exact N.
  - intros k Hk. rewrite (Nat.eqb_sym k j). destruct (Nat.eqb_spec j k) as [<-|NE]; field; exact N.
Qed.
Print Assumptions propagated_error.
(* the unit of the counts does not matter *)
Theorem normalisation_scale_free : forall sqrtq x s c, length s = length x -> c <> 0 -> qsum x <> 0 ->
  norm_row sqrtq (map (fun y => c * y) x) (map (fun y => c * y) s) = norm_row sqrtq x s.
Proof.
  intros sqrtq x s c L C N. assert (Q : qsum (map (fun y => c * y) x) = c * qsum x).
  { rewrite (qsum_nth x), <- sumn_scal, qsum_nth, map_length. apply sumn_ext. intros i Hi. unfold vget. now rewrite (map_nth_in _ _ _ 0). }
  unfold norm_row. rewrite Q. destruct (qeqb_spec (c * qsum x) 0) as [Z|Z].
  { exfalso. destruct (Qcmult_integral _ _ Z); contradiction. }
  destruct (qeqb_spec (qsum x) 0) as [Z'|_]; [contradiction|]. f_equal. f_equal.
  - rewrite map_map. apply map_ext. intros y. field. split; assumption.
  - rewrite map_length. apply tab_ext. intros j J. unfold propagate. f_equal. f_equal. rewrite map_length. apply tab_ext. intros k K. cbv zeta.
    unfold vget. rewrite !(map_nth_in _ _ _ 0) by (assumption || now rewrite L). destruct (Nat.eqb j k); field; split; assumption.
Qed.
Print Assumptions normalisation_scale_free.
(* it fails exactly for rows without counts but with a non-zero error *)
Theorem normalisation_fails_iff : forall sqrtq v s, length v = length s ->
  (norm_rows sqrtq v s = Raise ZeroDivErr \/ exists v' s', norm_rows sqrtq v s = Ok (v', s')) /\
  (norm_rows sqrtq v s = Raise ZeroDivErr <-> exists i, (i < length v)%nat /\ qsum (nth i v []) = 0 /\ exists x, In x (nth i s []) /\ x <> 0).
Proof.
  intros sqrtq v s L. destruct (norm_rows sqrtq v s) as [[v' s']|e] eqn:E.
  - split; [right; eauto|]. split; [discriminate|]. intros (i & I & Z & x & X1 & X2). exfalso. apply X2.
    destruct (norm_rows_lemma sqrtq v s v' s' L E) as (_ & _ & C). destruct (norm_row_lemma _ _ _ _ _ (C i I)) as (_ & F & _). destruct (F Z) as (_ & _ & F3).
    exact (sum_sq_zero _ F3 x X1).
  - destruct (norm_rows_raise sqrtq v s e L E) as (-> & W). split; [now left|]. split; [intros _; exact W|reflexivity].
Qed.
Print Assumptions normalisation_fails_iff.
Example norm_example : match norm_rows (fun x => x) [ql [3; 1]; ql [0; 0]]%Z [ql [1; 2]; ql [0; 0]]%Z with
  | Ok (v, s) => lleqb v [[qn 3 4; qn 1 4]; ql [0; 0]%Z] && lleqb s [[qn 37 256; qn 37 256]; ql [0; 0]%Z] | _ => false end = true.
Proof. vm_compute. reflexivity. Qed.
(* C76 refuted: an empty row of one member of an ensemble has, in general, a non-zero
   standard deviation; the extraction then fails. *)
Theorem empty_row_refuted : exists m s, equal_width m (qz 1) (qz 1) 1 2 2 /\ counts_nonneg (a_rows (values m)) /\ counts_nonneg (a_rows s) /\
  shape (values m) = shape s /\ snd (dec 0%nat m (Some s) XNone) = Raise ZeroDivErr.
Proof.
  exists (mkM (mkArr 2 [ql [0; 0]; ql [2; 6]]%Z) (ql [1; 2]%Z) (ql [1; 2]%Z) None None), es. split; [|split; [|split; [|split; [reflexivity|vm_compute; reflexivity]]]].
  - repeat split; try lia; try reflexivity; try (apply (proj1 (leqb_eq _ _)); vm_compute; reflexivity). intros r [<-|[<-|[]]]; reflexivity.
  - apply no_negative_spec. vm_compute. reflexivity.
  - apply no_negative_spec. vm_compute. reflexivity.
Qed.
Print Assumptions empty_row_refuted.

(* ---- C77: arguments of decompose -------------------------------------------------- *)
(* Whatever happens, the caller's axes, std and state stay, and the values are either the
   given ones or their row-normalised form. *)
Theorem decompose_argument_partial : forall sqrtq twopi bsfg rng uniform minimize randomize extend resolution_Ex self_x0 g m s x0,
  let m' := fst (decompose sqrtq twopi bsfg rng uniform minimize randomize extend resolution_Ex self_x0 g m s x0) in
  Ex m' = Ex m /\ Eg m' = Eg m /\ std m' = std m /\ state m' = state m /\
  (values m' = values m \/ exists st v sv, s = Some st /\ norm_rows sqrtq (a_rows (values m)) (a_rows st) = Ok (v, sv) /\ values m' = mkArr (a_nc (values m)) v).
Proof.
  intros. unfold m', decompose. destruct (existsb _ _); [repeat split; now left|]. destruct s as [st|]; [|repeat split; now left].
  destruct (existsb _ _); [repeat split; now left|]. destruct (negb _); [repeat split; now left|].
  destruct (norm_rows _ _ _) as [[v sv]|] eqn:E; repeat split; try (now left). right. exists st, v, sv. now repeat split.
Qed.
Print Assumptions decompose_argument_partial.
Theorem decompose_argument_refuted : exists m s, is_ok (snd (dec 0%nat m (Some s) XNone)) = true /\ fst (dec 0%nat m (Some s) XNone) <> m.
Proof.
  exists em, es. split; [vm_compute; reflexivity|]. intros E. apply (f_equal (fun m => lleqb (a_rows (values m)) (a_rows (values em)))) in E.
  assert (X : lleqb (a_rows (values (fst (dec 0%nat em (Some es) XNone)))) (a_rows (values em)) = false) by (vm_compute; reflexivity).
  rewrite X in E. symmetry in E. assert (Y : lleqb (a_rows (values em)) (a_rows (values em)) = true) by (vm_compute; reflexivity). congruence.
Qed.
Print Assumptions decompose_argument_refuted.
(* without std decompose cannot be used at all *)
Theorem decompose_without_std_refuted : forall sqrtq twopi bsfg rng uniform minimize randomize extend resolution_Ex self_x0 g m x0,
  exists e, snd (decompose sqrtq twopi bsfg rng uniform minimize randomize extend resolution_Ex self_x0 g m None x0) = Raise e.
Proof. intros. unfold decompose. destruct (existsb _ _); cbn; eauto. Qed.
Print Assumptions decompose_without_std_refuted.

(* ---- C55: resuming an extraction --------------------------------------------------- *)
Section C55.
Variable sqrtq : Qc -> Qc.
Variable twopi : Qc.
Variable bsfg : list Qc -> list Qc.
Variable rng : Type.
Variable seeded : Z -> rng.
Variable uniform : rng -> list Qc -> list Qc -> list Qc * rng.
Variable minimize : (list Qc -> option Qc) -> list Qc -> list Qc.
Variables (randomize extend : bool).
Variable resolution_Ex : Qc.
Variable self_x0 : x0_arg.
Variable fg : nat -> matrix.
Variable std_fg : matrix.
Variable trap : option Qc -> matrix -> result matrix.
Local Notation standard := (standard sqrtq twopi bsfg rng seeded uniform minimize randomize extend resolution_Ex self_x0 fg std_fg trap).
Local Notation fresh := (fresh sqrtq twopi bsfg rng uniform minimize randomize extend resolution_Ex self_x0 fg std_fg trap).
Local Notation runs := (runs sqrtq twopi bsfg rng seeded uniform minimize randomize extend resolution_Ex self_x0 fg std_fg trap).

(* with regenerate, or when no member is complete on disk, the results are those of an
   uninterrupted run, whatever else the directory contains, and they are what is saved *)
Theorem extraction_from_scratch : forall seed regen size c d,
  (regen = true \/ forall i, (i < size)%nat -> d (KNld i) = None \/ d (KGsf i) = None) ->
  let out := run ekey_eqb (standard seed regen size c) d in
  snd (snd out) = fresh (seq 0 size) (seeded seed, c) /\
  (forall l i p, fresh (seq 0 size) (seeded seed, c) = Ok l -> nth_error l i = Some p ->
     fst out (KNld i) = Some (EVec (fst p)) /\ fst out (KGsf i) = Some (EVec (snd p))) /\
  (forall i, (size <= i)%nat -> fst out (KNld i) = d (KNld i) /\ fst out (KGsf i) = d (KGsf i)).
Proof.
  intros seed regen size c d H. cbv zeta. unfold ExtractorModel.standard.
  destruct (run_fresh sqrtq twopi bsfg rng uniform minimize randomize extend resolution_Ex self_x0 fg std_fg trap regen (seq 0 size) (seeded seed, c) [] d (seq_NoDup _ _)) as (d' & c' & R & F & G).
  { destruct H as [H|H]; [now left|]. right. intros i Hi. apply in_seq in Hi. apply H. lia. }
  rewrite R. cbn [fst snd app]. split; [now destruct (fresh (seq 0 size) (seeded seed, c))|]. split.
  - intros l i p E N. destruct (G l E) as [L GG]. apply (GG i); [|exact N].
    assert (I : (i < size)%nat) by (rewrite seq_length in L; rewrite <- L; apply nth_error_Some; congruence).
    rewrite (nth_error_nth' _ 0%nat) by (now rewrite seq_length). f_equal. now rewrite seq_nth.
  - intros i I. split; apply F; intros j Hj; apply in_seq in Hj; split; congruence || (intros X; injection X as ->; lia).
Qed.
(* re-running a finished extraction returns its results, for all settings *)
Theorem finished_extraction_reloads : forall seed seed' regen size c c' d l,
  (regen = true \/ forall i, (i < size)%nat -> d (KNld i) = None \/ d (KGsf i) = None) ->
  snd (snd (run ekey_eqb (standard seed regen size c) d)) = Ok l ->
  run ekey_eqb (standard seed' false size c') (fst (run ekey_eqb (standard seed regen size c) d)) =
    (fst (run ekey_eqb (standard seed regen size c) d), (c', Ok l)).
Proof.
  intros seed seed' regen size c c' d l H E.
  unfold ExtractorModel.standard in *.
  destruct (run_fresh sqrtq twopi bsfg rng uniform minimize randomize extend resolution_Ex self_x0 fg std_fg trap regen (seq 0 size) (seeded seed, c) [] d (seq_NoDup _ _)) as (d' & c1 & R & F & G).
  { destruct H as [H|H]; [now left|]. right. intros i Hi. apply in_seq in Hi. apply H. lia. }
  rewrite R in *. cbn [fst snd app] in *. destruct (fresh (seq 0 size) (seeded seed, c)) as [l'|] eqn:EF; [|discriminate]. cbn [rbind] in E. injection E as ->.
  destruct (G l eq_refl) as [L GG]. now rewrite (run_cached _ _ _ _ _ _ _ _ _ _ _ _ _ (seq 0 size) (seeded seed', c') [] d' l L GG).
Qed.
(* Resuming after any number of interruptions: true with fixed initial values and a
   trapezoid cut whose result does not depend on a curried Eg_max, if no file was left
   truncated.  Missing: random initial values (the default), automatic Eg_max, truncated
   files -- see the refutations. *)
Theorem extraction_resumes_partial : forall seed c d size, randomize = false -> (forall c m, trap c m = trap None m) ->
  runs seed c d -> readable d ->
  snd (snd (run ekey_eqb (standard seed false size c) d)) = fresh (seq 0 size) (seeded seed, c).
Proof.
  intros seed c d size PR PT H R. unfold ExtractorModel.standard.
  rewrite (resume_members _ _ _ _ _ _ _ _ _ _ _ _ _ PR PT (seeded seed, c) (seq 0 size) _ [] d (seq_NoDup _ _)).
  - cbn [app]. destruct (fresh (seq 0 size) (seeded seed, c)); reflexivity.
  - now apply (runs_good _ _ _ _ seeded _ _ _ _ _ _ _ _ _ PR PT (seeded seed, c) seed c).
  - exact R.
Qed.
End C55.
Print Assumptions extraction_from_scratch.
Print Assumptions finished_extraction_reloads.
Print Assumptions extraction_resumes_partial.

(* the extractor with a given setting for random initial values and with the trapezoid
   method of the matrix *)
Definition cut (c : option Qc) (m : matrix) : result matrix := trapezoid_inplace m (qz 1) (qz 2) (qz 1) c.
Definition fg1 (i : nat) : matrix := em.
Definition fg2 (i : nat) : matrix :=
  mkM (mkArr 3 match i with O => [ql [3; 1; 1]; ql [2; 6; 4]] | _ => [ql [3; 1; 0]; ql [2; 6; 0]] end%Z) (ql [1; 2; 3]%Z) (ql [1; 2]%Z) None None.
Definition sd2 : matrix := mkM (mkArr 3 [ql [1; 1; 1]; ql [1; 1; 1]]%Z) (ql [1; 2; 3]%Z) (ql [1; 2]%Z) None None.
Local Notation std1 rnd tr := (standard (fun x => x) 1 ones nat Z.to_nat nat_uniform id_min rnd false 0 XNone fg1 (mkM es (Eg em) (Ex em) None None) tr).
Local Notation std2 := (standard (fun x => x) 1 ones nat Z.to_nat nat_uniform id_min false false 0 XNone fg2 sd2 cut).
Definition empty_dir : dir ekey efile := fun _ => None.
Definition keepm (c : option Qc) (m : matrix) : result matrix := Ok m.
Definition second (r : result (list (evec * evec))) : list xnum := match r with Ok [_; (n, _)] => ev_v n | _ => [] end.
Local Notation crash n p := (fst (moves ekey efile _ ekey_eqb n p empty_dir)).
(* the hypotheses of extraction_resumes_partial are met by an interrupted run *)
Example resume_example : let d := crash 7 (std1 false keepm 0%Z false 2%nat None) in
  readable d /\ d (KNld 1) = Some ETorn /\ d (KGsf 1) = None /\
  xleq (second (snd (snd (run ekey_eqb (std1 false keepm 0%Z false 2%nat None) d)))) [NaN; Fin 1; Fin 1] = true.
Proof.
  cbv zeta. split; [|split; [|split]]; try (vm_compute; reflexivity).
  intros [|[|i]] f h A B; vm_compute in A, B; try discriminate. injection A as <-. injection B as <-. split; discriminate.
Qed.
(* C55 refuted, random initial values: the run is stopped after member 0; the resumed run
   draws for member 1 what the uninterrupted run drew for member 0 *)
Theorem resume_random_refuted : exists seed n size,
  let p := std1 true keepm seed false size None in
  readable (crash n p) /\
  second (snd (snd (run ekey_eqb p (crash n p)))) <> second (snd (snd (run ekey_eqb p empty_dir))).
Proof.
  exists 7%Z, 5%nat, 2%nat. cbv zeta. split.
  - intros [|[|i]] f h A B; vm_compute in A, B; try discriminate. injection A as <-. injection B as <-. split; discriminate.
  - intros E. apply (f_equal (fun l => xleq l (second (snd (snd (run ekey_eqb (std1 true keepm 7%Z false 2%nat None) empty_dir)))))) in E.
    match type of E with ?a = ?b => assert (X : a = false) by (vm_compute; reflexivity); assert (Y : b = true) by (vm_compute; reflexivity) end. congruence.
Qed.
Print Assumptions resume_random_refuted.
(* C55 refuted, automatic Eg_max: member 0 fixes the limit of the cut only when it is
   computed; resumed after member 0, member 1 is cut differently from its uncertainties *)
Theorem resume_cut_refuted : exists n l,
  readable (crash n (std2 0%Z false 2%nat None)) /\
  snd (snd (run ekey_eqb (std2 0%Z false 2%nat None) empty_dir)) = Ok l /\
  snd (snd (run ekey_eqb (std2 0%Z false 2%nat None) (crash n (std2 0%Z false 2%nat None)))) = Raise AssertionError.
Proof.
  exists 5%nat. destruct (snd (snd (run ekey_eqb (std2 0%Z false 2%nat None) empty_dir))) as [l|] eqn:E.
  - exists l. split; [|split; [reflexivity|vm_compute; reflexivity]].
    clear E. intros [|[|i]] f h A B; vm_compute in A, B; try discriminate A; try discriminate B. injection A as <-. injection B as <-. split; discriminate.
  - exfalso. assert (X : is_ok (snd (snd (run ekey_eqb (std2 0%Z false 2%nat None) empty_dir))) = true) by (vm_compute; reflexivity). now rewrite E in X.
Qed.
Print Assumptions resume_cut_refuted.
(* C55 refuted, truncated file: stopped while gsf_0.npy is written, the extraction cannot
   be resumed without regenerate *)
Theorem resume_torn_refuted : exists n, snd (snd (run ekey_eqb (std1 false keepm 0%Z false 2%nat None) (crash n (std1 false keepm 0%Z false 2%nat None)))) = Raise ValueError.
Proof. exists 4%nat. vm_compute. reflexivity. Qed.
Print Assumptions resume_torn_refuted.
