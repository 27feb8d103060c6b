(* C115: arrays made without values. *)
From Verif Require Import PyBase Axis RebinModel MatrixModel ZerosModel.
From Coq Require Import Lia.
Local Notation length := List.length (only parsing).

(* ------------------------------------------------------------------ specification *)
(* n rows of k zeros *)
Definition all_zero (n k : nat) (a : arr2) : Prop :=
  a_nc a = k /\ length (a_rows a) = n /\ forall r, In r (a_rows a) -> length r = k /\ forall x, In x r -> x = 0.
(* the given axis, which must have n entries, or the middles of n bins of width one from zero *)
Definition axis_is (n : nat) (given : option (list Qc)) (e : list Qc) : Prop :=
  length e = n /\ match given with Some g => e = g | None => forall i, (i < n)%nat -> vget e i = qnat i + qn 1 2 end.
(* n x k is the shape asked for: given, or that of both axes *)
Definition asked (shp : option (nat * nat)) (ex eg : option (list Qc)) (n k : nat) : Prop :=
  match shp with Some s => s = (n, k) | None => exists x g, ex = Some x /\ eg = Some g /\ length x = n /\ length g = k end.
Definition fits (n : nat) (given : option (list Qc)) : Prop := match given with Some g => length g = n | None => True end.

(* ------------------------------------------------------------------ ZerosMatrix *)
Lemma zeros2_zero n k : all_zero n k (zeros2 (n, k)).
Proof.
  unfold all_zero, zeros2. cbn [a_nc a_rows fst snd]. split; [reflexivity|]. split; [apply repeat_length|]. intros r Hr. apply repeat_spec in Hr. subst r.
  split; [apply repeat_length|]. intros x Hx. now apply repeat_spec in Hx.
Qed.
Lemma all_zero_eq n k a : all_zero n k a -> a = zeros2 (n, k).
Proof.
  destruct a as [c r]. unfold all_zero, zeros2. cbn [a_nc a_rows fst snd]. intros (-> & L & H). f_equal. revert n L. induction r as [|x r IH]; intros [|n] L; try discriminate; [reflexivity|].
  cbn. f_equal. 2: { apply IH; [|now injection L]. intros y Hy. apply H. now right. }
  destruct (H x (or_introl eq_refl)) as [LX HX]. clear - LX HX. revert k LX. induction x as [|y x IH]; intros [|k] LX; try discriminate; [reflexivity|]. cbn. rewrite (HX y) by now left. f_equal. apply IH; [|now injection LX]. intros z Hz. apply HX. now right.
Qed.
Lemma default_axis_is n : axis_is n None (default_axis n).
Proof. unfold axis_is, default_axis. split; [apply tab_length|]. intros i Hi. unfold vget. now rewrite nth_tab. Qed.

Lemma default_axis_eq n e : axis_is n None e -> e = default_axis n.
Proof.
  intros [L H]. apply (nth_ext _ _ 0 0); [now rewrite L, (proj1 (default_axis_is n))|]. intros i Hi. rewrite L in Hi.
  change (vget e i = vget (default_axis n) i). rewrite H by exact Hi. symmetry. now apply (proj2 (default_axis_is n)).
Qed.
Lemma mk_zeros n k ex eg st : fits n ex -> fits k eg ->
  mk_matrix (zeros2 (n, k)) eg ex None st = do t <- set_state st ;; Ok (mkM (zeros2 (n, k)) (match eg with Some g => g | None => default_axis k end) (match ex with Some x => x | None => default_axis n end) None t).
Proof.
  intros FX FG. unfold mk_matrix, verify_integrity. cbn [values Ex Eg std].
  assert (NR : a_nr (zeros2 (n, k)) = n) by (unfold a_nr; apply (proj1 (proj2 (zeros2_zero n k)))). rewrite NR. change (a_nc (zeros2 (n, k))) with k.
  assert (EX : Nat.eqb n (length (match ex with Some x => x | None => default_axis n end)) = true) by (apply Nat.eqb_eq; destruct ex; cbn in *; [now symmetry|symmetry; apply (proj1 (default_axis_is n))]).
  assert (EG : Nat.eqb k (length (match eg with Some x => x | None => default_axis k end)) = true) by (apply Nat.eqb_eq; destruct eg; cbn in *; [now symmetry|symmetry; apply (proj1 (default_axis_is k))]).
  now rewrite EX, EG.
Qed.
Lemma mk_zeros_bad n k ex eg st : ~ (fits n ex /\ fits k eg) -> mk_matrix (zeros2 (n, k)) eg ex None st = Raise ValueError.
Proof.
  intros NF. unfold mk_matrix, verify_integrity. cbn [values Ex Eg std].
  assert (NR : a_nr (zeros2 (n, k)) = n) by (unfold a_nr; apply (proj1 (proj2 (zeros2_zero n k)))). rewrite NR. change (a_nc (zeros2 (n, k))) with k.
  destruct (Nat.eqb n (length (match ex with Some x => x | None => default_axis n end))) eqn:EX; [|reflexivity]. cbn [negb].
  destruct (Nat.eqb k (length (match eg with Some x => x | None => default_axis k end))) eqn:EG; [|reflexivity]. exfalso. apply NF. apply Nat.eqb_eq in EX, EG. destruct ex, eg; cbn in *; auto.
Qed.
(* Without std the result is what was asked for and nothing else is accepted. *)
Theorem zeros_matrix_made_partial : forall shp ex eg st m,
  zeros_matrix shp ex eg false st = Ok m <->
  exists n k, asked shp ex eg n k /\ all_zero n k (values m) /\ axis_is n ex (Ex m) /\ axis_is k eg (Eg m) /\ std m = None /\ set_state st = Ok (state m).
Proof.
  intros shp ex eg st m.
  assert (K : forall n k, (do m' <- mk_matrix (zeros2 (n, k)) eg ex None st ;; Ok m') = Ok m <->
     all_zero n k (values m) /\ axis_is n ex (Ex m) /\ axis_is k eg (Eg m) /\ std m = None /\ set_state st = Ok (state m)).
  { intros n k. assert (D : forall j (o : option (list Qc)), fits j o \/ ~ fits j o) by (intros j [o|]; cbn; [lia|now left]).
    assert (F : forall j o e, axis_is j o e -> fits j o) by (intros j [o|] e [L H]; cbn; [now subst|exact I]).
    destruct (D n ex) as [FX|FX], (D k eg) as [FG|FG].
    2-4: (rewrite mk_zeros_bad by tauto; cbn [rbind]; split; [discriminate|intros (_ & AX & AG & _); exfalso; apply F in AX, AG; tauto]).
    rewrite mk_zeros by assumption. split.
    - destruct (set_state st) as [t|]; [|discriminate]. cbn [rbind]. intros H. injection H as <-. cbn [values Ex Eg std state].
      split; [apply zeros2_zero|]. split; [|split; [|split; reflexivity]].
      + destruct ex; [split; [exact FX|reflexivity]|apply default_axis_is]. + destruct eg; [split; [exact FG|reflexivity]|apply default_axis_is].
    - intros (Z & AX & AG & S & T). rewrite T. cbn [rbind]. f_equal. destruct m as [v g x s t]. cbn [values Ex Eg std state] in *. apply all_zero_eq in Z. subst v s. f_equal.
      + destruct eg; [symmetry; apply AG|symmetry; now apply default_axis_eq]. + destruct ex; [symmetry; apply AX|symmetry; now apply default_axis_eq]. }
  unfold zeros_matrix. destruct shp as [[n k]|]; cbn [rbind].
  - rewrite K. split; [intros H; exists n, k; split; [reflexivity|exact H]|intros (n' & k' & A & H); injection A as <- <-; exact H].
  - destruct ex as [x|], eg as [g|]; cbn [rbind].
    2-4: (split; [discriminate|intros (n & k & (x' & g' & EX & EG & _) & _); discriminate]).
    rewrite K. split; [intros H; exists (length x), (length g); split; [exists x, g; auto|exact H]|]. intros (n & k & (x' & g' & EX & EG & <- & <-) & H). injection EX as <-. injection EG as <-. exact H.
Qed.
Print Assumptions zeros_matrix_made_partial.
(* what is refused, and how *)
Theorem zeros_matrix_refuses : forall shp ex eg st,
  (shp = None -> ex = None \/ eg = None -> zeros_matrix shp ex eg false st = Raise AssertionError) /\
  (forall n k, shp = Some (n, k) -> ~ (fits n ex /\ fits k eg) -> zeros_matrix shp ex eg false st = Raise ValueError) /\
  (forall n k e, asked shp ex eg n k -> fits n ex -> fits k eg -> set_state st = Raise e -> zeros_matrix shp ex eg false st = Raise e).
Proof.
  intros shp ex eg st. split; [|split].
  - intros -> H. unfold zeros_matrix. destruct ex, eg; try reflexivity. destruct H; discriminate.
  - intros n k -> H. unfold zeros_matrix. cbn [rbind]. now rewrite mk_zeros_bad.
  - intros n k e A FX FG H. unfold zeros_matrix. destruct shp as [[n' k']|]; cbn in A.
    + injection A as -> ->. cbn [rbind]. rewrite mk_zeros by assumption. now rewrite H.
    + destruct A as (x & g & -> & -> & <- & <-). cbn [rbind]. rewrite mk_zeros by assumption. now rewrite H.
Qed.
Print Assumptions zeros_matrix_refuses.
(* std=True, documented as "create an array for the std, too", never works *)
Theorem zeros_matrix_std_refuted : forall shp ex eg st,
  (forall m, zeros_matrix shp ex eg true st <> Ok m) /\
  (forall n k, asked shp ex eg n k -> fits n ex -> fits k eg -> zeros_matrix shp ex eg true st = Raise AttributeError).
Proof.
  intros shp ex eg st. split.
  - intros m. unfold zeros_matrix. destruct (match shp with Some s => Ok s | None => match ex, eg with Some x, Some g => Ok (length x, length g) | _, _ => Raise AssertionError end end) as [s|e]; [|discriminate].
    cbn [rbind]. destruct (mk_matrix (zeros2 s) eg ex None SNone); discriminate.
  - intros n k A FX FG. unfold zeros_matrix. destruct shp as [[n' k']|]; cbn in A.
    + injection A as -> ->. cbn [rbind]. now rewrite mk_zeros.
    + destruct A as (x & g & -> & -> & <- & <-). cbn [rbind]. now rewrite mk_zeros.
Qed.
Print Assumptions zeros_matrix_std_refuted.

(* ------------------------------------------------------------------ Matrix without values *)
(* shape, or both axes, instead of values: the same as ZerosMatrix; values given next to a shape
   are dropped *)
Theorem matrix_of_shape : forall v eg ex st n k,
  matrix_init v eg ex None st (Some (n, k)) = rmap Made (zeros_matrix (Some (n, k)) ex eg false st).
Proof.
  intros v eg ex st n k. unfold matrix_init. assert (D : forall j (o : option (list Qc)), fits j o \/ ~ fits j o) by (intros j [o|]; cbn; [lia|now left]).
  unfold zeros_matrix. cbn [rbind]. destruct (D n ex) as [FX|FX], (D k eg) as [FG|FG].
  2-4: now rewrite !mk_zeros_bad by tauto.
  rewrite !mk_zeros by assumption. cbn [set_state rbind rmap values]. rewrite mk_zeros by assumption. destruct (set_state st); reflexivity.
Qed.
Print Assumptions matrix_of_shape.
Theorem matrix_of_axes : forall eg ex st, matrix_init None (Some eg) (Some ex) None st None = rmap Made (zeros_matrix None (Some ex) (Some eg) false st).
Proof.
  intros eg ex st. unfold matrix_init, zeros_matrix. cbn [rbind]. rewrite !mk_zeros by (cbn; reflexivity). cbn [set_state rbind rmap values]. rewrite mk_zeros by reflexivity. destruct (set_state st); reflexivity.
Qed.
Print Assumptions matrix_of_axes.
(* with neither, nothing is checked: any uncertainties and any single axis are accepted *)
Theorem matrix_without_values_refuted : forall eg ex s t, eg = None \/ ex = None ->
  matrix_init None eg ex s SNone None = Ok (Unmade eg ex s None) /\ matrix_init None eg ex s (SState t) None = Ok (Unmade eg ex s (Some t)).
Proof. intros eg ex s t [->| ->]; destruct eg || destruct ex; split; reflexivity. Qed.
Print Assumptions matrix_without_values_refuted.

(* ------------------------------------------------------------------ Vector(E=...) *)
(* energies that are floats: a vector as from explicit zeros, in every later operation *)
Theorem vector_of_float_energies : forall E, n_int E = false -> vec_values None E = vec_values (Some (mkN false (map (fun _ => 0) (n_vals E)))) E.
Proof. intros E H. unfold vec_values. now rewrite H. Qed.
Print Assumptions vector_of_float_energies.
Lemma int_part_int z : int_part (qz z) = qz z.
Proof. unfold int_part. f_equal. unfold qtrunc, qz, Q2Qc. cbn [this]. rewrite Qred_identity by (cbn; apply Z.gcd_1_r). cbn. apply Z.quot_1_r. Qed.
(* energies that are integers: the same numbers as long as only integers occur *)
Theorem vector_of_integer_energies_partial : forall E i z op a a', n_int E = true ->
  n_vals a = n_vals a' -> n_int a = true -> n_int a' = false ->
  n_vals (vec_values None E) = n_vals (vec_values (Some (mkN false (map (fun _ => 0) (n_vals E)))) E) /\
  rmap n_vals (item_set a i (qz z)) = rmap n_vals (item_set a' i (qz z)) /\
  rmap n_vals (inplace op a true (qz z)) = rmap n_vals (inplace op a' true (qz z)).
Proof.
  intros E i z op [b l] [b' l'] HE HV HA HB. cbn in HV, HA, HB. subst l' b b'. split; [reflexivity|]. unfold item_set, inplace. cbn [n_int n_vals andb negb]. rewrite int_part_int.
  split; [|reflexivity]. destruct (i <? length l)%nat; reflexivity.
Qed.
Print Assumptions vector_of_integer_energies_partial.
(* otherwise not: stored numbers lose their fraction, adding a float or dividing is refused *)
Theorem vector_of_integer_energies_refuted : forall E op x, n_int E = true -> n_vals E <> [] ->
  let a := vec_values None E in let f := vec_values (Some (mkN false (map (fun _ => 0) (n_vals E)))) E in
  inplace op a false x = Raise TypeError /\ (exists r, inplace op f false x = Ok r) /\
  inplace_div a x = Raise TypeError /\ (exists r, inplace_div f x = Ok r) /\
  (int_part x <> x -> exists r r', item_set a 0 x = Ok r /\ item_set f 0 x = Ok r' /\ hd 0 (n_vals r) = int_part x /\ hd 0 (n_vals r') = x).
Proof.
  intros [b l] op x HE NE a f. cbn in HE, NE. subst b. unfold a, f, inplace, inplace_div, item_set, vec_values. cbn [n_int n_vals andb negb].
  split; [reflexivity|]. split; [now eexists|]. split; [reflexivity|]. split; [now eexists|]. intros _. destruct l as [|y l]; [contradiction|]. cbn. do 2 eexists. repeat split.
Qed.
Print Assumptions vector_of_integer_energies_refuted.

(* ------------------------------------------------------------------ examples *)
Example zeros_case : let r := zeros_matrix (Some (2%nat, 3%nat)) None (Some [qz 10; qz 20; qz 30]) false (SState RAW) in
  exists m, r = Ok m /\ Ex m = [qn 1 2; qn 3 2] /\ Eg m = [qz 10; qz 20; qz 30] /\ a_rows (values m) = [[0; 0; 0]; [0; 0; 0]] /\ state m = Some RAW.
Proof. cbn. eexists. split; [reflexivity|]. repeat split. Qed.
Example zeros_std_case : zeros_matrix (Some (2%nat, 3%nat)) None None true SNone = Raise AttributeError.
Proof. apply (proj2 (zeros_matrix_std_refuted (Some (2%nat, 3%nat)) None None SNone) 2%nat 3%nat); cbn; auto. Qed.
Example zeros_refuse_case : zeros_matrix None (Some [qz 1]) None false SNone = Raise AssertionError /\ zeros_matrix (Some (2%nat, 3%nat)) (Some [qz 1]) None false SNone = Raise ValueError.
Proof. split; [apply zeros_matrix_refuses; auto|]. apply (proj1 (proj2 (zeros_matrix_refuses (Some (2%nat, 3%nat)) (Some [qz 1]) None SNone)) 2%nat 3%nat); [reflexivity|]. intros [H _]. discriminate H. Qed.
(* values given next to a shape *)
Example shape_drops_case : exists m, matrix_init (Some (mkArr 1 [[qz 7]])) None None None SNone (Some (1%nat, 1%nat)) = Ok (Made m) /\ a_rows (values m) = [[0]].
Proof. cbn. eexists. split; reflexivity. Qed.
(* energies 0, 10, 20 as integers *)
Example integer_energies_case : let a := vec_values None (mkN true [0; qz 10; qz 20]) in
  item_set a 1 (qn 7 4) = Ok (mkN true [0; 1; 0]) /\ inplace Qcplus a false (qn 1 2) = Raise TypeError /\ inplace Qcplus a true (qz 2) = Ok (mkN true [qz 2; qz 2; qz 2]).
Proof. cbn. repeat split; repeat f_equal; apply Qc_is_canon; reflexivity. Qed.
