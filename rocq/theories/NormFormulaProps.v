(* C58, C59: the closed formulas behind the normalisation: the constant
   temperature level density (normalizer_nld.py 525-529) and the integral for
   the average total radiative width (normalizer_gsf.py 254-347). *)
From Coq Require Import Reals List Lra Lia.
From Coquelicot Require Import Coquelicot.
From Verif Require Import TransformModel NormModel NormSpec NormProofs.
Import ListNotations.
Local Open Scope R_scope.

(* the constant temperature level density is the derivative of the number of
   levels exp((E - Eshift)/T) *)
Theorem const_temperature_derivative T Eshift E : T <> 0 ->
  is_derive (fun x => exp ((x - Eshift) / T)) E (const_temperature T Eshift E).
Proof.
  intros H. unfold const_temperature. auto_derive; [trivial|]. unfold Rminus, Rdiv. ring.
Qed.
Print Assumptions const_temperature_derivative.
(* and the energy shift that makes it reproduce a level density rho at E is
   E - T ln(rho T), for no other shift *)
Theorem const_temperature_shift T Eshift E rho : 0 < T -> 0 < rho ->
  (const_temperature T Eshift E = rho <-> Eshift = E - T * ln (rho * T)).
Proof.
  intros HT HR. unfold const_temperature. split.
  - intros H. assert (X : exp ((E - Eshift) / T) = rho * T) by (rewrite <- H; field; lra).
    rewrite <- X, ln_exp. field. lra.
  - intros ->. replace ((E - (E - T * ln (rho * T))) / T) with (ln (rho * T)) by (field; lra).
    rewrite exp_ln by (now apply Rmult_lt_0_compat). field. lra.
Qed.
Print Assumptions const_temperature_shift.

(* the width, in meV for D0 in eV and energies in MeV: 1000 D0/2 times the
   rectangle sum, over steps points from Emin to Sn (both included), of
   Eg^3 f(Eg) rho(Sn - Eg) g(Sn - Eg) *)
Definition width (D0 Emin Sn : R) (steps : nat) (f rho g : R -> R) : R :=
  let dE := (Sn - Emin) / INR (steps - 1) in
  1000 * (D0 / 2) * dE *
  fold_right Rplus 0 (map (fun k => let Eg := Emin + INR k * dE in Eg ^ 3 * f Eg * rho (Sn - Eg) * g (Sn - Eg)) (seq 0 steps)).

Theorem Gg_value p ss gsf low high nld model f rho : (2 <= np_steps p)%nat ->
  (forall Eg, In Eg (E_grid p) -> fgsf gsf low high Eg = OVal (f Eg)) ->
  (forall Eg, In Eg (E_grid p) -> fnld nld model (np_Sn p - Eg) = OVal (rho (np_Sn p - Eg))) ->
  Gg_standard p ss gsf low high nld model = OVal (width (np_D0 p) (np_Emin p) (np_Sn p) (np_steps p) f rho ss).
Proof.
  intros HS F N. unfold Gg_standard, width. destruct (Nat.leb_spec (np_steps p) 1) as [|_]; [lia|].
  set (dE := (np_Sn p - np_Emin p) / INR (np_steps p - 1)).
  set (term := fun k => let Eg := np_Emin p + INR k * dE in Eg ^ 3 * f Eg * rho (np_Sn p - Eg) * ss (np_Sn p - Eg)).
  assert (X : osum (map (integrand p ss gsf low high nld model) (E_grid p)) = OVal (fold_right Rplus 0 (map term (seq 0 (np_steps p))))).
  { unfold E_grid, rlinspace in *. fold dE in F, N |- *. revert F N. generalize (seq 0 (np_steps p)). intros l F N.
    induction l as [|k l IH]; [reflexivity|]. cbn [map osum fold_right] in *.
    unfold osum in IH. rewrite IH; [|intros; apply F; now right|intros; apply N; now right].
    unfold integrand. rewrite F, N by now left. cbn [omap2]. reflexivity. }
  rewrite X. cbn [omap2]. f_equal. unfold Rdiv. ring.
Qed.
Print Assumptions Gg_value.

(* the hypotheses hold e.g. for flat curves over the whole range *)
Lemma log_interp_one E : 0 <= E <= 10 -> log_interp [0; 10] [Some 1; Some 1] E = OVal 1.
Proof.
  intros H. unfold log_interp. cbn [map combine rln]. destruct (Rlt_dec 0 1) as [_|]; [|lra].
  destruct (Rlt_dec E 0); [lra|]. cbn [map fst last]. destruct (Rlt_dec 10 E); [lra|].
  cbn [seg_find]. unfold seg_value. destruct (Req_EM_T 0 10); [lra|]. f_equal. rewrite ln_1.
  replace ((0 - 0) / (10 - 0) * (E - 0) + 0) with 0 by field. apply exp_0.
Qed.
Example Gg_flat : let c := mkCurve [0; 10] [Some 1; Some 1] in
  Gg_standard (mkPars 4 0 0 2 0 0 None 3) (fun _ => 1) c c c c (fun _ => 1) = OVal 18000.
Proof.
  cbn zeta. assert (G : forall Eg, In Eg (E_grid (mkPars 4 0 0 2 0 0 None 3)) -> 0 <= Eg <= 2).
  { intros Eg I. unfold E_grid in I. cbn [np_Emin np_Sn np_steps] in I. apply in_rlinspace in I; [lra|lia|lra]. }
  rewrite (Gg_value _ _ _ _ _ _ _ (fun _ => 1) (fun _ => 1)).
  - f_equal. unfold width. cbn [np_D0 np_Emin np_Sn np_steps seq map fold_right]. cbn [Nat.sub INR]. field.
  - cbn [np_steps]. lia.
  - intros Eg I. apply G in I. unfold fgsf. cbn [c_E c_v last]. destruct (Rlt_dec Eg 0); [lra|].
    destruct (Rle_dec Eg 10); [|lra]. apply log_interp_one. lra.
  - intros Eg I. apply G in I. unfold fnld. cbn [c_E c_v last np_Sn]. destruct (Rle_dec (2 - Eg) 10); [|lra]. apply log_interp_one. lra.
Qed.
Example ct_example : const_temperature 2 1 (1 + 2 * ln 6) = 3.
Proof. apply const_temperature_shift; [lra|lra|]. replace (3 * 2) with 6 by ring. ring. Qed.
