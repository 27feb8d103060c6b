(* C100: from the doubles in memory to the characters of a MaMa file and back to doubles. *)
From Coq Require Import Reals ZArith String Ascii List Bool Lia Lra.
From Flocq Require Import Core.
From Verif Require Import PyBase MamaTextModel MamaTextProps TextNumModel TextNumProps.
Import ListNotations.
Local Open Scope list_scope.
Local Notation length := List.length (only parsing).

(* ---------------------------------------------------------------- specification *)
(* the number a decimal stands for *)
Definition value (d : dec) : R := (IZR (fst d) * bpow radix10 (snd d))%R.
(* d is what '%.<n>E' shows of x: n+1 digits, of the value x rounded to n+1 digits *)
Definition shows (n : nat) (x : R) (d : dec) : Prop := printable n d /\ value d = fmt_e (Z.of_nat n) x.
(* float() of a field; None is nan *)
Definition as_double (o : option dec) : option R := option_map (fun d => near (value d)) o.
(* a finite double *)
Definition finite_double (x : R) : Prop := double x /\ (Rabs x < bpow radix2 1024)%R.

(* ---------------------------------------------------------------- proofs *)
Import Lra.
Local Open Scope R_scope.
Lemma ten (n : nat) : IZR (10 ^ Z.of_nat n) = bpow radix10 (Z.of_nat n).
Proof. rewrite <- IZR_Zpower by lia. reflexivity. Qed.
Lemma mag_value n d : (10 ^ Z.of_nat n <= Z.abs (fst d) < 10 ^ Z.of_nat (S n))%Z -> mag radix10 (value d) = (Z.of_nat (S n) + snd d)%Z :> Z.
Proof.
  intros (A & B). apply mag_unique. unfold value. rewrite Rabs_mult, <- abs_IZR, (Rabs_pos_eq (bpow _ _)) by apply bpow_ge_0.
  replace (Z.of_nat (S n) + snd d - 1)%Z with (Z.of_nat n + snd d)%Z by lia. rewrite !bpow_plus, <- !ten. split; [apply Rmult_le_compat_r; [apply bpow_ge_0|]; now apply IZR_le|apply Rmult_lt_compat_r; [apply bpow_gt_0|]; now apply IZR_lt].
Qed.
Lemma value_0 d : value d = 0 -> fst d = 0%Z.
Proof. unfold value. intros H. apply Rmult_integral in H. destruct H as [H|H]; [now apply eq_IZR|]. pose proof (bpow_gt_0 radix10 (snd d)). lra. Qed.
(* The characters of a number are determined. *)
Theorem shows_unique n x d1 d2 : shows n x d1 -> shows n x d2 -> d1 = d2.
Proof.
  intros (P1 & V1) (P2 & V2). assert (E : value d1 = value d2) by congruence. clear V1 V2.
  destruct P1 as [(M1 & E1)|(M1 & E1)], P2 as [(M2 & E2)|(M2 & E2)].
  - destruct d1, d2. cbn in *. congruence.
  - assert (Z0 : value d2 = 0) by (rewrite <- E; unfold value; rewrite M1; ring). apply value_0 in Z0. rewrite Z0 in M2. cbn in M2. pose proof (Z.pow_pos_nonneg 10 (Z.of_nat n)). lia.
  - assert (Z0 : value d1 = 0) by (rewrite E; unfold value; rewrite M2; ring). apply value_0 in Z0. rewrite Z0 in M1. cbn in M1. pose proof (Z.pow_pos_nonneg 10 (Z.of_nat n)). lia.
  - pose proof (mag_value n d1 M1) as G1. pose proof (mag_value n d2 M2) as G2. rewrite E, G2 in G1. assert (S : snd d1 = snd d2) by lia. unfold value in E. rewrite S in E. apply Rmult_eq_reg_r in E; [|pose proof (bpow_gt_0 radix10 (snd d2)); lra]. apply eq_IZR in E. destruct d1, d2. cbn in *. congruence.
Qed.
Print Assumptions shows_unique.
Lemma big_10 : bpow radix2 1024 <= bpow radix10 309.
Proof. rewrite <- !IZR_Zpower by lia. apply IZR_le. vm_compute. discriminate. Qed.
Lemma small_10 : bpow radix10 (-324) <= bpow radix2 (-1074).
Proof. replace (-324)%Z with (- (324))%Z by lia. replace (-1074)%Z with (- (1074))%Z by lia. rewrite !bpow_opp. apply Rinv_le; [apply bpow_gt_0|]. rewrite <- !IZR_Zpower by lia. apply IZR_le. vm_compute. discriminate. Qed.
Lemma double_small x : double x -> x <> 0 -> bpow radix2 (-1074) <= Rabs x.
Proof.
  intros D N. destruct (Rle_or_lt (bpow radix2 (-1074)) (Rabs x)) as [H|H]; [exact H|]. exfalso.
  apply FLT_format_generic in D; [|reflexivity]. destruct D as [[m e] F1 F2 F3]. cbn in F2, F3. rewrite F1 in H, N. unfold F2R in H, N. cbn [Fnum Fexp] in H, N. rewrite Rabs_mult, <- abs_IZR, (Rabs_pos_eq (bpow _ _)) in H by apply bpow_ge_0.
  assert (M : (1 <= Z.abs m)%Z) by (destruct (Z.eq_dec m 0) as [->|]; [exfalso; apply N; ring|lia]). apply IZR_le in M. pose proof (bpow_le radix2 (-1074) e F3) as L. pose proof (bpow_gt_0 radix2 e). nra.
Qed.
(* Every finite double is shown by some characters: the texts of the model cover all values. *)
Theorem shows_some n x : (n <= 20)%nat -> finite_double x -> exists d, shows n x d.
Proof.
  intros LN (D & B). destruct (Req_dec x 0) as [->|NZ].
  - exists (0, - Z.of_nat n)%Z. split; [left; split; reflexivity|]. unfold value. cbn [fst snd]. rewrite fmt_0. ring.
  - set (y := fmt_e (Z.of_nat n) x).
    assert (VE : Valid_exp (FLX_exp (Z.of_nat n + 1))) by (apply FLX_exp_valid; unfold Prec_gt_0; lia).
    assert (FY : generic_format radix10 (FLX_exp (Z.of_nat n + 1)) y) by (apply generic_format_round; [exact VE|apply valid_rnd_N]).
    assert (FP : forall e, generic_format radix10 (FLX_exp (Z.of_nat n + 1)) (bpow radix10 e)) by (intros e; apply generic_format_bpow; unfold FLX_exp; lia).
    assert (LO : bpow radix10 (-324) <= Rabs y).
    { apply abs_round_ge_generic; [exact VE|apply valid_rnd_N|apply FP|]. apply Rle_trans with (1 := small_10). now apply double_small. }
    assert (HI : Rabs y <= bpow radix10 309).
    { apply abs_round_le_generic; [exact VE|apply valid_rnd_N|apply FP|]. apply Rle_trans with (2 := big_10). now left. }
    assert (NY : y <> 0). { intros E0. rewrite E0, Rabs_R0 in LO. pose proof (bpow_gt_0 radix10 (-324)). lra. }
    pose proof (mag_ge_bpow radix10 y (-323) LO) as G1. assert (G2 : (mag radix10 y <= 310)%Z) by (apply mag_le_bpow; [exact NY|]; apply Rle_lt_trans with (1 := HI); apply bpow_lt; lia).
    set (ce := cexp radix10 (FLX_exp (Z.of_nat n + 1)) y). set (m := Ztrunc (scaled_mantissa radix10 (FLX_exp (Z.of_nat n + 1)) y)).
    assert (CE : ce = (mag radix10 y - (Z.of_nat n + 1))%Z) by reflexivity.
    assert (FE : y = IZR m * bpow radix10 ce) by (exact FY).
    assert (SM : Rabs (IZR m) = Rabs y * bpow radix10 (- ce)). { rewrite FE at 1. rewrite Rabs_mult, (Rabs_pos_eq (bpow _ _)) by apply bpow_ge_0. rewrite Rmult_assoc, <- bpow_plus. replace (ce + - ce)%Z with 0%Z by lia. cbn [bpow]. ring. }
    destruct (mag radix10 y) as (k & K). cbn in G1, G2, CE. specialize (K NY). destruct K as (K1 & K2).
    exists (m, ce). split; [right|unfold value; cbn [fst snd]; symmetry; exact FE]. cbn [fst snd]. split; [|lia].
    rewrite <- abs_IZR in SM. split; [apply le_IZR|apply lt_IZR]; rewrite ten, SM.
    + replace (bpow radix10 (Z.of_nat n)) with (bpow radix10 (k - 1) * bpow radix10 (- ce)) by (rewrite <- bpow_plus; f_equal; lia). apply Rmult_le_compat_r; [apply bpow_ge_0|exact K1].
    + replace (bpow radix10 (Z.of_nat (S n))) with (bpow radix10 k * bpow radix10 (- ce)) by (rewrite <- bpow_plus; f_equal; lia). apply Rmult_lt_compat_r; [apply bpow_gt_0|exact K2].
Qed.
Print Assumptions shows_some.
Lemma shows_all n l : (n <= 20)%nat -> Forall finite_double l -> exists ds, Forall2 (shows n) l ds.
Proof. intros LN F. induction F as [|x l H F (ds & IH)]; [exists []; constructor|]. destruct (shows_some n x LN H) as (d & S). exists (d :: ds). now constructor. Qed.
Lemma shows_table n (l : list (list R)) : (n <= 20)%nat -> Forall (Forall finite_double) l -> exists ds, Forall2 (Forall2 (shows n)) l ds.
Proof. intros LN F. induction F as [|x l H F (ds & IH)]; [exists []; constructor|]. destruct (shows_all n x LN H) as (d & S). exists (d :: ds). now constructor. Qed.
Lemma shows_printable n l ds : Forall2 (shows n) l ds -> Forall (printable n) ds.
Proof. intros F. induction F as [|x d l ds (P & _) F IH]; constructor; assumption. Qed.
Lemma shows_values n l ds : Forall2 (shows n) l ds -> map (fun d => near (value d)) ds = map (fun x => near (fmt_e (Z.of_nat n) x)) l.
Proof. intros F. induction F as [|x d l ds (_ & V) F IH]; cbn [map]; [reflexivity|]. now rewrite V, IH. Qed.
Lemma f2_length {A B} (P : A -> B -> Prop) l m : Forall2 P l m -> length l = length m.
Proof. intros F. induction F; cbn; congruence. Qed.
(* A matrix of finite doubles: its file exists, and whatever file shows these numbers is read back with
   the coefficients and counts that TextNumModel states. *)
Theorem mama_matrix_doubles comment stamp coef tbl nc : one_line comment -> one_line stamp -> length coef = 6%nat -> Forall finite_double coef -> Forall (Forall finite_double) tbl -> (forall r, In r tbl -> length r = nc) -> (1 <= nc)%nat ->
  (exists cal rows, Forall2 (shows 6) coef cal /\ Forall2 (Forall2 (shows 8)) tbl rows) /\
  forall cal rows, Forall2 (shows 6) coef cal -> Forall2 (Forall2 (shows 8)) tbl rows ->
    exists c r, mama_read_text (mama_text2 comment stamp cal nc rows) = Ok (c, r) /\
      map (fun d => near (value d)) c = map (fun x => near (mama_coefficient x)) coef /\
      map (map as_double) r = map (map Some) (mama_counts tbl).
Proof.
  intros A B C D E F G. split.
  - destruct (shows_all 6 coef ltac:(lia) D) as (cal & H1). destruct (shows_table 8 tbl ltac:(lia) E) as (rows & H2). now exists cal, rows.
  - intros cal rows H1 H2. exists cal, (map (map Some) rows). split; [|split].
    + apply mama_matrix_text; try assumption.
      * rewrite <- (f2_length _ _ _ H1). exact C.
      * exact (shows_printable _ _ _ H1).
      * clear - H2. induction H2 as [|x d l ds H H2 IH]; constructor; [exact (shows_printable _ _ _ H)|exact IH].
      * clear - F H2. induction H2 as [|x d l ds H H2 IH]; intros r []; [subst; rewrite <- (f2_length _ _ _ H); apply F; now left|apply IH; [|assumption]; intros q Q; apply F; now right].
    + exact (shows_values _ _ _ H1).
    + unfold mama_counts. clear - H2. induction H2 as [|x d l ds H H2 IH]; cbn [map]; [reflexivity|]. f_equal; [|exact IH]. rewrite !map_map. unfold as_double. cbn [option_map]. rewrite <- map_map with (g := Some) (f := fun d => near (value d)). rewrite (shows_values _ _ _ H), map_map. reflexivity.
Qed.
Print Assumptions mama_matrix_doubles.
(* The same for a spectrum. *)
Theorem mama_spectrum_doubles comment stamp coef v : one_line comment -> one_line stamp -> length coef = 3%nat -> Forall finite_double coef -> Forall finite_double v ->
  (exists cal counts, Forall2 (shows 6) coef cal /\ Forall2 (shows 8) v counts) /\
  forall cal counts, Forall2 (shows 6) coef cal -> Forall2 (shows 8) v counts ->
    exists c r, mama_read_text (mama_text1 comment stamp cal counts) = Ok (c, r) /\
      map (fun d => near (value d)) c = map (fun x => near (mama_coefficient x)) coef /\
      map (map as_double) r = map (fun x => [Some (near (mama_number x))]) v.
Proof.
  intros A B C D E. split.
  - destruct (shows_all 6 coef ltac:(lia) D) as (cal & H1). destruct (shows_all 8 v ltac:(lia) E) as (rows & H2). now exists cal, rows.
  - intros cal counts H1 H2. exists cal, (map (fun x => [Some x]) counts). split; [|split].
    + apply mama_spectrum_text; try assumption; [rewrite <- (f2_length _ _ _ H1); exact C|exact (shows_printable _ _ _ H1)|exact (shows_printable _ _ _ H2)].
    + exact (shows_values _ _ _ H1).
    + rewrite map_map. cbn [map as_double option_map]. clear - H2. induction H2 as [|x d l ds (_ & V) H2 IH]; cbn [map]; [reflexivity|]. rewrite IH. f_equal. unfold as_double. cbn. now rewrite V.
Qed.
Print Assumptions mama_spectrum_doubles.
(* 12.5 and -3 are finite doubles, shown as 1.25000000E+01 and -3.00000000E+00 *)
Example shows_ex : finite_double (25 / 2) /\ shows 8 (25 / 2) (125000000, -7)%Z /\ render 8 (125000000, -7)%Z = t "1.25000000E+01".
Proof.
  split; [|split; [split|reflexivity]].
  - split; [replace (25 / 2) with (IZR 25 * bpow radix2 (-1)) by (cbn; lra); apply double_dyadic; cbn; lia|]. rewrite Rabs_pos_eq by lra. apply Rlt_le_trans with (bpow radix2 4); [cbn; lra|apply bpow_le; lia].
  - right. cbn. lia.
  - assert (V : value (125000000, -7)%Z = 25 / 2) by (unfold value; cbn; lra). rewrite V. unfold fmt_e. symmetry. apply round_generic; [apply valid_rnd_N|]. rewrite <- V. apply decimal; cbn; lia.
Qed.
