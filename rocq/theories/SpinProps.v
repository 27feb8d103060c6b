(* Properties of the spin-cut models. *)
From Coq Require Import String.
From Verif Require Import PyBase RebinModel Rebin2DProofs FirstGenProofs InterpModel InterpProofs CutSpec SpinModel SpinSpec.
Local Notation length := List.length (only parsing).

Lemma two_point_interp e0 s0 e1 s1 e : e0 < e1 -> interp1d [e0; e1] [s0; s1] (FillBoth s0 s1) e = Ok (two_point e0 s0 e1 s1 e).
Proof.
  intros H. assert (SX : increasing [e0; e1]) by (repeat constructor; assumption).
  assert (T : (2 <= length [e0; e1])%nat) by (cbn; lia).
  unfold two_point. destruct (qleb_spec e e0) as [A|A].
  - destruct (Qc_dec_eq e e0) as [->|N].
    + exact (interp_node [e0; e1] [s0; s1] (FillBoth s0 s1) SX eq_refl T 0 ltac:(cbn; lia)).
    + apply (interp_low [e0; e1] [s0; s1] (FillBoth s0 s1) SX eq_refl T). cbn. destruct (qltb_spec e e0); [assumption|]. exfalso. apply N. qlra.
  - destruct (qleb_spec e1 e) as [B|B].
    + destruct (Qc_dec_eq e e1) as [->|N].
      * exact (interp_node [e0; e1] [s0; s1] (FillBoth s0 s1) SX eq_refl T 1 ltac:(cbn; lia)).
      * apply (interp_high [e0; e1] [s0; s1] (FillBoth s0 s1) SX eq_refl T). cbn. destruct (qltb_spec e1 e); [assumption|]. exfalso. apply N. qlra.
    + rewrite (interp_between [e0; e1] [s0; s1] (FillBoth s0 s1) SX eq_refl T e 0); cbn [vget nth]; [|cbn; lia|unfold vget; cbn; qlra|unfold vget; cbn; qlra].
      f_equal. unfold segment, vget. cbn [nth]. field. intros Z. qlra.
Qed.

(* C62. The two-point model returns, at every energy, the constant-line-constant function. *)
Theorem spin_two_point d s e : fst d < fst s -> gDisc_and_sigmaSn d s e = Ok (two_point (fst d) (snd d) (fst s) (snd s) e).
Proof. intros H. apply two_point_interp. assumption. Qed.
Print Assumptions spin_two_point.
Example spin_two_point_run : gDisc_and_sigmaSn (qz 1, qz 9) (qz 7, qz 25) (qz 4) = Ok (qz 17).
Proof. rewrite spin_two_point by reflexivity. f_equal. apply qeqb_eq. vm_compute. reflexivity. Qed.

(* C62. Facts about that function: it takes its end values at the end points and beyond,
   stays between them and changes at most with the slope of the line (hence is continuous). *)
Theorem spin_two_point_shape e0 s0 e1 s1 : e0 < e1 ->
  (forall e, e <= e0 -> two_point e0 s0 e1 s1 e = s0) /\ (forall e, e1 <= e -> two_point e0 s0 e1 s1 e = s1) /\
  (forall e, qmin s0 s1 <= two_point e0 s0 e1 s1 e /\ two_point e0 s0 e1 s1 e <= qmax s0 s1) /\
  (forall e e', qabs (two_point e0 s0 e1 s1 e - two_point e0 s0 e1 s1 e') <= qabs (s1 - s0) / (e1 - e0) * qabs (e - e')).
Proof.
  intros H.
  (* the function is s0 + w (s1 - s0) with w the clipped relative position *)
  set (w := fun e => if qleb e e0 then 0 else if qleb e1 e then 1 else (e - e0) / (e1 - e0)).
  assert (D : e1 - e0 <> 0) by (intros Z; qlra). assert (P : 0 < e1 - e0) by qlra.
  assert (W : forall e, two_point e0 s0 e1 s1 e = s0 + w e * (s1 - s0)).
  { intros e. unfold two_point, w. destruct (qleb e e0); [ring|]. destruct (qleb e1 e); [ring|]. field. assumption. }
  assert (B : forall e, 0 <= w e /\ w e <= 1).
  { intros e. unfold w. destruct (qleb_spec e e0); [split; discriminate|]. destruct (qleb_spec e1 e); [split; discriminate|].
    split; [apply Qcdiv_nonneg; qlra|apply Qcdiv_le_l; qlra]. }
  assert (L : forall e e', e <= e' -> 0 <= w e' - w e /\ w e' - w e <= (e' - e) / (e1 - e0)).
  { intros e e' LE. unfold w.
    assert (Q : forall x, 0 <= x -> 0 <= x / (e1 - e0)) by (intros; apply Qcdiv_nonneg; qlra).
    destruct (qleb_spec e e0) as [A|A]; destruct (qleb_spec e' e0) as [A'|A']; try (exfalso; qlra).
    - split; [discriminate|]. replace (0 - 0) with 0 by ring. apply Q. qlra.
    - destruct (qleb_spec e1 e') as [C|C].
      + split; [discriminate|]. replace (1 - 0) with 1 by ring. apply Qcdiv_le_r; [assumption|]. qlra.
      + split; [replace ((e' - e0) / (e1 - e0) - 0) with ((e' - e0) / (e1 - e0)) by ring; apply Q; qlra|].
        assert (0 <= (e' - e) / (e1 - e0) - ((e' - e0) / (e1 - e0) - 0)); [|qlra].
        replace ((e' - e) / (e1 - e0) - ((e' - e0) / (e1 - e0) - 0)) with ((e0 - e) / (e1 - e0)) by (field; assumption). apply Q. qlra.
    - destruct (qleb_spec e1 e) as [C|C]; destruct (qleb_spec e1 e') as [C'|C']; try (exfalso; qlra).
      + split; [discriminate|]. replace (1 - 1) with 0 by ring. apply Q. qlra.
      + split.
        * replace (1 - (e - e0) / (e1 - e0)) with ((e1 - e) / (e1 - e0)) by (field; assumption). apply Q. qlra.
        * assert (0 <= (e' - e) / (e1 - e0) - (1 - (e - e0) / (e1 - e0))); [|qlra].
          replace ((e' - e) / (e1 - e0) - (1 - (e - e0) / (e1 - e0))) with ((e' - e1) / (e1 - e0)) by (field; assumption). apply Q. qlra.
      + replace ((e' - e0) / (e1 - e0) - (e - e0) / (e1 - e0)) with ((e' - e) / (e1 - e0)) by (field; assumption).
        split; [apply Q; qlra|apply Qcle_refl]. }
  split; [|split; [|split]].
  - intros e He. unfold two_point. destruct (qleb_spec e e0); [reflexivity|exfalso; qlra].
  - intros e He. unfold two_point. destruct (qleb_spec e e0); [exfalso; qlra|]. destruct (qleb_spec e1 e); [reflexivity|exfalso; qlra].
  - intros e. rewrite W. destruct (B e) as [B0 B1]. unfold qmin, qmax. destruct (qleb_spec s0 s1) as [O|O].
    + assert (0 <= w e * (s1 - s0)) by (apply Qcmult_nonneg; qlra).
      assert (0 <= (1 - w e) * (s1 - s0)) by (apply Qcmult_nonneg; qlra).
      assert (Z : (1 - w e) * (s1 - s0) = s1 - (s0 + w e * (s1 - s0))) by ring. rewrite Z in *. split; qlra.
    + assert (X : 0 <= w e * (s0 - s1)) by (apply Qcmult_nonneg; qlra).
      assert (Y : 0 <= (1 - w e) * (s0 - s1)) by (apply Qcmult_nonneg; qlra).
      assert (Z : (1 - w e) * (s0 - s1) = (s0 + w e * (s1 - s0)) - s1) by ring. rewrite Z in Y.
      assert (Z2 : w e * (s0 - s1) = - (w e * (s1 - s0))) by ring. rewrite Z2 in X. split; qlra.
  - assert (G : forall e e', e <= e' -> qabs (two_point e0 s0 e1 s1 e' - two_point e0 s0 e1 s1 e) <= qabs (s1 - s0) / (e1 - e0) * (e' - e)).
    { intros e e' LE. rewrite !W. destruct (L e e' LE) as [L0 L1].
      replace (s0 + w e' * (s1 - s0) - (s0 + w e * (s1 - s0))) with ((w e' - w e) * (s1 - s0)) by ring.
      assert (M : qabs ((w e' - w e) * (s1 - s0)) = (w e' - w e) * qabs (s1 - s0)).
      { destruct (qabs_spec (s1 - s0)) as [[Z1 ->]|[Z1 ->]].
        - assert (0 <= (w e' - w e) * (s1 - s0)) by (apply Qcmult_nonneg; assumption).
          destruct (qabs_spec ((w e' - w e) * (s1 - s0))) as [[_ ->]|[K ->]]; [reflexivity|exfalso; qlra].
        - assert (X : 0 <= (w e' - w e) * - (s1 - s0)) by (apply Qcmult_nonneg; qlra).
          assert (E : (w e' - w e) * - (s1 - s0) = - ((w e' - w e) * (s1 - s0))) by ring. rewrite E in *.
          destruct (qabs_spec ((w e' - w e) * (s1 - s0))) as [[K ->]|[K ->]]; qlra. }
      rewrite M. assert (X : 0 <= ((e' - e) / (e1 - e0) - (w e' - w e)) * qabs (s1 - s0)) by (apply Qcmult_nonneg; [qlra|destruct (qabs_spec (s1 - s0)) as [[? ->]|[? ->]]; qlra]).
      assert (E : ((e' - e) / (e1 - e0) - (w e' - w e)) * qabs (s1 - s0) = qabs (s1 - s0) / (e1 - e0) * (e' - e) - (w e' - w e) * qabs (s1 - s0)) by (field; assumption).
      rewrite E in X. qlra. }
    assert (SY : forall x, qabs (- x) = qabs x) by (intros x; destruct (qabs_spec x) as [[? ->]|[? ->]]; destruct (qabs_spec (- x)) as [[? ->]|[? ->]]; try ring; apply Qcle_antisym; qlra).
    intros e e'. destruct (Qclt_le_dec e e') as [LT|LE].
    + replace (two_point e0 s0 e1 s1 e - two_point e0 s0 e1 s1 e') with (- (two_point e0 s0 e1 s1 e' - two_point e0 s0 e1 s1 e)) by ring.
      replace (e - e') with (- (e' - e)) by ring. rewrite !SY. destruct (qabs_spec (e' - e)) as [[_ ->]|[K _]]; [apply G; qlra|exfalso; qlra].
    + destruct (qabs_spec (e - e')) as [[_ ->]|[K _]]; [apply G; assumption|exfalso; qlra].
Qed.
Print Assumptions spin_two_point_shape.
Example spin_two_point_shape_run : qz 1 < qz 7 /\ two_point (qz 1) (qz 9) (qz 7) (qz 25) (qz 4) <> qz 9.
Proof. split; [reflexivity|]. apply qeqb_neq. vm_compute. reflexivity. Qed.

(* If the two points are given in the opposite order, interp1d sorts them but not the fill
   values: the function jumps at both ends and is not constant outside with its end value. *)
Theorem spin_two_point_order_refuted : exists d s, fst s < fst d /\ snd s <> snd d /\
  gDisc_and_sigmaSn d s (fst s) = Ok (snd s) /\ gDisc_and_sigmaSn d s (fst d) = Ok (snd d) /\
  (forall e, e < fst s -> gDisc_and_sigmaSn d s e = Ok (snd d)) /\ (forall e, fst d < e -> gDisc_and_sigmaSn d s e = Ok (snd s)).
Proof.
  exists (qz 7, qz 25), (qz 1, qz 9). cbn [fst snd].
  assert (F : forall e, gDisc_and_sigmaSn (qz 7, qz 25) (qz 1, qz 9) e = interp1d [qz 1; qz 7] [qz 9; qz 25] (FillBoth (qz 25) (qz 9)) e) by reflexivity.
  assert (SX : increasing [qz 1; qz 7]) by (repeat constructor). assert (T : (2 <= length [qz 1; qz 7])%nat) by (cbn; lia).
  split; [reflexivity|]. split; [apply qeqb_neq; reflexivity|]. rewrite !F. split; [|split; [|split]].
  - exact (interp_node [qz 1; qz 7] [qz 9; qz 25] _ SX eq_refl T 0 ltac:(cbn; lia)).
  - exact (interp_node [qz 1; qz 7] [qz 9; qz 25] _ SX eq_refl T 1 ltac:(cbn; lia)).
  - intros e He. rewrite F. exact (interp_low [qz 1; qz 7] [qz 9; qz 25] _ SX eq_refl T e He).
  - intros e He. rewrite F. exact (interp_high [qz 1; qz 7] [qz 9; qz 25] _ SX eq_refl T e He).
Qed.
Print Assumptions spin_two_point_order_refuted.

Section P.
Variable eb05_core : Qc -> Qc -> Qc -> Qc.
Variable eb09_ct : Qc -> Qc.
Variable eb09_emp : Qc -> Qc -> Qc.
Local Notation sigma2 := (get_sigma2 eb05_core eb09_ct eb09_emp).
Local Notation EB05 := (gEB05 eb05_core).

(* C62. The combined model: the two-point function ending in the Fermi-gas value at Sn up to
   Sn, and the Fermi-gas value above; the two pieces meet at Sn. *)
Theorem spin_disc_eb05 mass a shift Sn d e : fst d < Sn ->
  gDisc_and_EB05 eb05_core mass a shift Sn d e =
    Ok (if qltb e Sn then two_point (fst d) (snd d) Sn (EB05 mass a shift Sn) e else EB05 mass a shift e) /\
  two_point (fst d) (snd d) Sn (EB05 mass a shift Sn) Sn = EB05 mass a shift Sn.
Proof.
  intros H. unfold gDisc_and_EB05. rewrite two_point_interp by assumption. cbn [rbind]. split; [reflexivity|].
  unfold two_point. destruct (qleb_spec Sn (fst d)); [exfalso; qlra|]. destruct (qleb_spec Sn Sn) as [|N]; [reflexivity|exfalso; qlra].
Qed.

(* C62. Whatever the type of the energy array, the models except the constant one return for
   each entry the value of a function of that entry alone; an unknown model or a missing
   parameter raises TypeError. *)
Theorem spin_elementwise model pars Ex l : sigma2 model pars Ex = Ok (SArr l) -> (model <> "const")%string ->
  length l = length (ex_vals Ex) /\
  forall b, sigma2 model pars (mkEx b (ex_vals Ex)) = Ok (SArr l) /\
  forall i, (i < length l)%nat -> sigma2 model pars (mkEx b [vget (ex_vals Ex) i]) = Ok (SArr [vget l i]).
Proof.
  intros H NC. unfold get_sigma2 in *. destruct (String.eqb_spec model "const"); [contradiction|].
  destruct (String.eqb model "EB05").
  { do 3 (match goal with H : context [num_of ?p ?k] |- _ => destruct (num_of p k); [|discriminate]; cbn [rbind] in H end).
    cbn [ex_vals rbind]. injection H as <-. split; [apply map_length|]. intros b. split; [reflexivity|]. intros i Hi. rewrite map_length in Hi. cbn [map]. do 3 f_equal.
    unfold vget. symmetry. apply (map_nth_in _ _ i 0 0). assumption. }
  destruct (String.eqb model "EB09_CT").
  { destruct (num_of pars "mass"); [|discriminate]. discriminate. }
  destruct (String.eqb model "EB09_emp").
  { do 2 (match goal with H : context [num_of ?p ?k] |- _ => destruct (num_of p k); [|discriminate]; cbn [rbind] in H end).
    cbn [ex_vals rbind]. injection H as <-. split; [apply map_length|]. intros b. split; [reflexivity|]. intros i Hi. rewrite map_length in Hi. cbn [map]. do 3 f_equal.
    unfold vget. symmetry. match goal with |- nth i (map ?f _) 0 = _ => apply (map_nth_in f _ i 0 0) end. assumption. }
  assert (K : forall f, (do l0 <- rmapm f (ex_vals Ex);; Ok (SArr l0)) = Ok (SArr l) ->
    length l = length (ex_vals Ex) /\ forall b : bool, (do l0 <- rmapm f (ex_vals (mkEx b (ex_vals Ex)));; Ok (SArr l0)) = Ok (SArr l) /\
    forall i, (i < length l)%nat -> (do l0 <- rmapm f (ex_vals (mkEx b [vget (ex_vals Ex) i]));; Ok (SArr l0)) = Ok (SArr [vget l i])).
  { intros f Q. destruct (rmapm f (ex_vals Ex)) as [l'|] eqn:R; [|discriminate]. cbn [rbind] in Q. injection Q as <-.
    pose proof (rmapm_length _ _ _ R) as LL. split; [assumption|]. intros b. cbn [ex_vals]. rewrite R. split; [reflexivity|].
    intros i Hi. rewrite LL in Hi. pose proof (rmapm_nth _ _ _ 0 0 i R Hi) as X. cbn [rmapm]. unfold vget. rewrite X. reflexivity. }
  destruct (String.eqb model "Disc_and_EB05").
  { do 4 (match goal with H : context [num_of ?p ?k] |- _ => destruct (num_of p k); [|discriminate]; cbn [rbind] in H end).
    destruct (pair_of pars "sigma2_disc"); [|discriminate]. cbn [rbind] in *. now apply K. }
  destruct (String.eqb model "Disc_and_sigmaSn"); [|discriminate].
  do 2 (match goal with H : context [pair_of ?p ?k] |- _ => destruct (pair_of p k); [|discriminate]; cbn [rbind] in H end).
  cbn [rbind]. now apply K.
Qed.
(* C62. The constant model returns the requested value for arrays of floating-point numbers. *)
Theorem spin_const_partial pars s Ex : lookup pars "sigma" = Some (VNum s) -> ex_int Ex = false ->
  sigma2 "const" pars Ex = Ok (SArr (map (fun _ => s * s) (ex_vals Ex))).
Proof. intros H I. unfold get_sigma2, num_of. cbn. rewrite H. unfold gconst. rewrite I. reflexivity. Qed.
End P.
Print Assumptions spin_disc_eb05.
Print Assumptions spin_elementwise.
Print Assumptions spin_const_partial.
Definition ex_core (m a e : Qc) : Qc := m * (1 + a * e).
Example spin_disc_run : get_sigma2 ex_core (fun m => m) (fun m e => m) "Disc_and_EB05"
   [("mass", VNum (qz 2)); ("NLDa", VNum (qz 1)); ("Eshift", VNum 0); ("Sn", VNum (qz 8)); ("sigma2_disc", VPair (qz 2) (qz 6)); ("unused", VNum 0)]%string
   (mkEx true (ql [1;2;5;8;10]%Z)) = Ok (SArr (ql [6;6;12;18;22]%Z)).
Proof. vm_compute. reflexivity. Qed.
Example spin_missing_run : get_sigma2 ex_core (fun m => m) (fun m e => m) "EB05" [("mass", VNum (qz 2))]%string (mkEx false (ql [1]%Z)) = Raise TypeError /\
  get_sigma2 ex_core (fun m => m) (fun m e => m) "eb05" [("mass", VNum (qz 2))]%string (mkEx false (ql [1]%Z)) = Raise TypeError.
Proof. split; vm_compute; reflexivity. Qed.

(* For an array of integers the constant model truncates the value: sigma = 3/2 becomes
   sigma2 = 2, and a small sigma even 0. *)
Theorem spin_const_type_refuted : exists s l, forall eb05 ct emp,
  get_sigma2 eb05 ct emp "const" [("sigma", VNum s)]%string (mkEx false l) = Ok (SArr [s * s]) /\
  exists x, get_sigma2 eb05 ct emp "const" [("sigma", VNum s)]%string (mkEx true l) = Ok (SArr [x]) /\ x = 0 /\ 0 < s * s.
Proof. exists (qn 1 2), (ql [5]%Z). intros. split; [reflexivity|]. exists (qz 0). split; [reflexivity|]. split; reflexivity. Qed.
Print Assumptions spin_const_type_refuted.
(* The constant-temperature model does not return one value per energy. *)
Theorem spin_shape_refuted : exists l, (1 < length l)%nat /\ forall eb05 ct emp b,
  get_sigma2 eb05 ct emp "EB09_CT" [("mass", VNum (qz 150))]%string (mkEx b l) = Ok (SScalar (ct (qz 150))).
Proof. exists (ql [1;2;3]%Z). split; [cbn; lia|]. reflexivity. Qed.
Print Assumptions spin_shape_refuted.
