(* Lemmas on logarithmic interpolation and on the radiative-width integral. *)
From Coq Require Import Reals List Lra Lia.
From Verif Require Import TransformModel NormModel NormSpec.
Import ListNotations.
Local Open Scope R_scope.

Lemma oscale_val c x : oscale c (OVal x) = OVal (c * x). Proof. reflexivity. Qed.
(* the logarithm of a scaled value *)
Definition lshift (d : R) (l : lnum) : lnum := match l with LFin x => LFin (x + d) | o => o end.
Lemma rln_times A a e v : 0 < A -> rln (times A a e v) = lshift (ln A + a * e) (rln v).
Proof.
  intros HA. assert (HP : 0 < A * exp (a * e)) by (apply Rmult_lt_0_compat; [lra|apply exp_pos]).
  destruct v as [y|]; [|reflexivity]. cbn [times option_map rln].
  destruct (Rlt_dec 0 y) as [Hy|Hy].
  - destruct (Rlt_dec 0 (A * exp (a * e) * y)) as [H|H].
    + cbn [lshift]. f_equal. rewrite ln_mult by assumption. rewrite ln_mult by (try apply exp_pos; assumption). rewrite ln_exp. ring.
    + exfalso. apply H. now apply Rmult_lt_0_compat.
  - destruct (Rlt_dec 0 (A * exp (a * e) * y)) as [H|H].
    + exfalso. assert (A * exp (a * e) * y <= 0) by nra. lra.
    + destruct (Req_EM_T y 0) as [->|N].
      * destruct (Req_EM_T (A * exp (a * e) * 0) 0) as [|N]; [reflexivity|]. exfalso. apply N. ring.
      * destruct (Req_EM_T (A * exp (a * e) * y) 0) as [E|]; [|reflexivity]. exfalso. apply Rmult_integral in E. destruct E; lra.
Qed.
Lemma seg_value_times A a x0 y0 x1 y1 z : 0 < A ->
  seg_value x0 (lshift (ln A + a * x0) y0) x1 (lshift (ln A + a * x1) y1) z = oscale (A * exp (a * z)) (seg_value x0 y0 x1 y1 z).
Proof.
  intros HA. unfold seg_value. destruct (Req_EM_T x0 x1) as [|N]; [reflexivity|].
  destruct y0 as [u| |], y1 as [w| |]; cbn [lshift]; try reflexivity.
  - rewrite oscale_val. f_equal.
    replace ((w + (ln A + a * x1) - (u + (ln A + a * x0))) / (x1 - x0) * (z - x0) + (u + (ln A + a * x0)))
      with (ln A + a * z + ((w - u) / (x1 - x0) * (z - x0) + u)) by (field; lra).
    rewrite !exp_plus, exp_ln by assumption. ring.
  - destruct (Rlt_dec x0 z); [|reflexivity]. rewrite oscale_val. f_equal. ring.
Qed.
Definition shift_pts (A a : R) (l : list (R * lnum)) : list (R * lnum) := map (fun q => (fst q, lshift (ln A + a * fst q) (snd q))) l.
Lemma seg_find_times A a z : 0 < A -> forall rest x0 y0,
  seg_find x0 (lshift (ln A + a * x0) y0) (shift_pts A a rest) z = oscale (A * exp (a * z)) (seg_find x0 y0 rest z).
Proof.
  intros HA. induction rest as [|[x1 y1] t IH]; intros x0 y0; [reflexivity|].
  cbn [shift_pts map fst snd]. change (map _ t) with (shift_pts A a t). destruct t as [|q t]; cbn [seg_find shift_pts map].
  - now apply seg_value_times.
  - destruct (Rle_dec z x1); [now apply seg_value_times|]. apply IH.
Qed.
Lemma combine_times A a xs ys : 0 < A -> combine xs (map rln (rmap2 (times A a) xs ys)) = shift_pts A a (combine xs (map rln ys)).
Proof.
  intros HA. revert ys. induction xs as [|x xs IH]; intros [|y ys]; try reflexivity.
  cbn [rmap2 map combine shift_pts fst snd]. rewrite rln_times by assumption. unfold shift_pts in IH. rewrite IH. reflexivity.
Qed.
Lemma shift_pts_fst A a l : map fst (shift_pts A a l) = map fst l.
Proof. unfold shift_pts. rewrite map_map. apply map_ext. reflexivity. Qed.
Lemma log_interp_times A a xs ys z : 0 < A ->
  log_interp xs (rmap2 (times A a) xs ys) z = oscale (A * exp (a * z)) (log_interp xs ys z).
Proof.
  intros HA. unfold log_interp. rewrite combine_times by assumption.
  destruct (combine xs (map rln ys)) as [|[x0 y0] rest]; [reflexivity|].
  cbn [shift_pts map fst snd]. change (map (fun q => (fst q, lshift (ln A + a * fst q) (snd q))) rest) with (shift_pts A a rest).
  rewrite shift_pts_fst. destruct (Rlt_dec z x0); [reflexivity|]. destruct (Rlt_dec _ z); [reflexivity|]. now apply seg_find_times.
Qed.
Lemma fgsf_times A a g l h g' l' h' E : 0 < A -> scaled_curve A a g g' -> scaled_curve A a l l' -> scaled_curve A a h h' ->
  fgsf g' l' h' E = oscale (A * exp (a * E)) (fgsf g l h E).
Proof.
  intros HA [G1 G2] [L1 L2] [H1 H2]. unfold fgsf. rewrite G1, G2, L1, L2, H1, H2.
  destruct (c_E g) as [|e0 t] eqn:EE; [reflexivity|].
  destruct (Rlt_dec E e0); [now apply log_interp_times|]. destruct (Rle_dec E _); [|now apply log_interp_times].
  now apply log_interp_times.
Qed.
Lemma omap2_assoc_l c a b : omap2 Rmult (oscale c a) b = oscale c (omap2 Rmult a b).
Proof. destruct a, b; cbn; try reflexivity. f_equal. ring. Qed.
Lemma oscale_r c x a : omap2 Rmult (OVal x) (oscale c a) = oscale c (omap2 Rmult (OVal x) a).
Proof. destruct a; cbn; try reflexivity. f_equal. ring. Qed.
Lemma osum_scale c l : osum (map (oscale c) l) = oscale c (osum l).
Proof.
  induction l as [|x l IH]; cbn; [f_equal; ring|]. change (fold_right (omap2 Rplus) (OVal 0) (map (oscale c) l)) with (osum (map (oscale c) l)).
  rewrite IH. change (fold_right (omap2 Rplus) (OVal 0) l) with (osum l). destruct x, (osum l); cbn; try reflexivity. f_equal. ring.
Qed.
Lemma integrand_times B p ss g l h g' l' h' nld model E : 0 < B -> scaled_curve B 0 g g' -> scaled_curve B 0 l l' -> scaled_curve B 0 h h' ->
  integrand p ss g' l' h' nld model E = oscale B (integrand p ss g l h nld model E).
Proof.
  intros HB G L H. unfold integrand. rewrite (fgsf_times B 0 g l h g' l' h') by assumption.
  replace (B * exp (0 * E)) with B by (rewrite Rmult_0_l, exp_0; ring). rewrite oscale_r, !omap2_assoc_l. reflexivity.
Qed.
Lemma Gg_times B p ss g l h g' l' h' nld model : 0 < B -> scaled_curve B 0 g g' -> scaled_curve B 0 l l' -> scaled_curve B 0 h h' ->
  Gg_standard p ss g' l' h' nld model = oscale B (Gg_standard p ss g l h nld model).
Proof.
  intros HB G L H. unfold Gg_standard.
  rewrite (map_ext _ (fun E => oscale B (integrand p ss g l h nld model E))) by (intros E; now apply integrand_times).
  rewrite <- (map_map (integrand p ss g l h nld model) (oscale B)). rewrite osum_scale, !omap2_assoc_l. reflexivity.
Qed.

(* the curves of the transformed objects *)
Lemma transform_curve A a v : scaled_curve A a (rv_curve v) (rv_curve (transform A a v)).
Proof.
  split; [reflexivity|]. unfold rv_curve, transform. cbn [rv_values rv_E c_E c_v]. generalize (rv_values v) (rv_E v).
  induction l as [|y l IH]; intros [|e m]; try reflexivity. cbn. f_equal; [|apply IH]. unfold value_bin. f_equal. ring.
Qed.
Lemma model_value_times h sc sh A a E : 0 < A -> model_value h (sc + a) (sh + ln A) E = times A a E (model_value h sc sh E).
Proof.
  intros HA. unfold model_value. assert (X : exp ((sc + a) * E + (sh + ln A)) = A * exp (a * E) * exp (sc * E + sh)).
  { replace ((sc + a) * E + (sh + ln A)) with (ln A + a * E + (sc * E + sh)) by ring. rewrite !exp_plus, exp_ln by assumption. ring. }
  destruct h; [destruct (Req_EM_T E 0); [reflexivity|]|]; cbn; f_equal; rewrite X; try reflexivity. field. assumption.
Qed.
Lemma rmap2_map {A B C} (f : A -> B -> C) (g : A -> B) l : rmap2 f l (map g l) = map (fun x => f x (g x)) l.
Proof. induction l; cbn; congruence. Qed.

(* --- positive curves --- *)
Lemma last_indep {A} (l : list A) d d' : l <> [] -> last l d = last l d'.
Proof. induction l as [|x [|y l] IH]; intros H; [contradiction|reflexivity|]. change (last (y :: l) d = last (y :: l) d'). apply IH. discriminate. Qed.
Lemma seg_find_pos z rest : forall x0 a,
  ascending (x0 :: map fst rest) -> Forall (fun q => exists b, snd q = LFin b) rest -> rest <> [] -> x0 <= z -> z <= last (map fst rest) x0 ->
  exists v, seg_find x0 (LFin a) rest z = OVal v /\ 0 < v.
Proof.
  induction rest as [|[x1 y1] t IH]; intros x0 a ASC FP NE L U; [contradiction|].
  inversion FP as [|? ? [b Hb] FP']; subst. cbn in Hb. subst y1. cbn [map fst ascending] in ASC. destruct ASC as [A1 A2].
  assert (SV : exists v, seg_value x0 (LFin a) x1 (LFin b) z = OVal v /\ 0 < v).
  { unfold seg_value. destruct (Req_EM_T x0 x1); [lra|]. eexists. split; [reflexivity|apply exp_pos]. }
  destruct t as [|q t]; [exact SV|]. change (seg_find x0 (LFin a) ((x1, LFin b) :: q :: t) z) with (if Rle_dec z x1 then seg_value x0 (LFin a) x1 (LFin b) z else seg_find x1 (LFin b) (q :: t) z).
  destruct (Rle_dec z x1) as [|N]; [exact SV|]. apply IH; try assumption; try discriminate; try lra.
  change (z <= last (map fst (q :: t)) x1). rewrite (last_indep _ x1 x0) by discriminate. exact U.
Qed.
Lemma combine_fst {A B} (l : list A) (m : list B) : length m = length l -> map fst (combine l m) = l.
Proof. revert m. induction l as [|x l IH]; intros [|y m] H; try discriminate; [reflexivity|]. cbn. f_equal. apply IH. now injection H. Qed.
Lemma rln_pos y : 0 < y -> exists b, rln (Some y) = LFin b.
Proof. intros H. cbn. destruct (Rlt_dec 0 y); [eauto|contradiction]. Qed.
Lemma log_interp_pos c z e0 e1 t : positive_curve c -> ascending (c_E c) -> c_E c = e0 :: e1 :: t ->
  e0 <= z -> z <= last (c_E c) e0 -> exists v, log_interp (c_E c) (c_v c) z = OVal v /\ 0 < v.
Proof.
  intros [LEN FP] ASC EE L U. unfold log_interp. destruct c as [E vs]. cbn [c_E c_v] in *. subst E.
  destruct vs as [|v0 [|v1 vs]]; try discriminate LEN. inversion FP as [|? ? (y0 & -> & P0) FP1]; subst. 
  destruct (rln_pos _ P0) as [b0 B0]. set (rest := combine (e1 :: t) (map rln (v1 :: vs))).
  assert (CB : combine (e0 :: e1 :: t) (map rln (Some y0 :: v1 :: vs)) = (e0, LFin b0) :: rest) by (rewrite <- B0; reflexivity). rewrite CB. clear CB.
  change (map fst ((e0, LFin b0) :: rest)) with (e0 :: map fst rest).
  assert (MF : map fst rest = e1 :: t) by (apply combine_fst; rewrite map_length; cbn in *; lia).
  rewrite MF. destruct (Rlt_dec z e0); [lra|]. destruct (Rlt_dec _ z) as [X|_]; [exfalso; lra|].
  apply seg_find_pos.
  - rewrite MF. exact ASC.
  - clear -FP1 LEN. assert (LEN' : length (map rln (v1 :: vs)) = length (e1 :: t)) by (rewrite map_length; cbn in *; lia). clear LEN.
    unfold rest. revert LEN' FP1. generalize (v1 :: vs) (e1 :: t). induction l as [|v l IH]; intros [|e m] LN FP; try discriminate; constructor.
    + inversion FP as [|? ? (y & -> & P) _]; subst. destruct (rln_pos _ P) as [b Hb]. exists b. exact Hb.
    + inversion FP; subst. apply IH; [now injection LN|assumption].
  - discriminate.
  - assumption.
  - rewrite MF. exact U.
Qed.
(* the first entry is irrelevant above the second energy *)
Lemma log_interp_tail e0 e1 e2 t v0 v1 v2 vs z : e1 < z -> e0 < e1 ->
  log_interp (e0 :: e1 :: e2 :: t) (v0 :: v1 :: v2 :: vs) z = log_interp (e1 :: e2 :: t) (v1 :: v2 :: vs) z.
Proof.
  intros H H0. unfold log_interp. cbn [map combine fst]. destruct (Rlt_dec z e0); [lra|]. destruct (Rlt_dec z e1); [lra|].
  set (r := (e2, rln v2) :: combine t (map rln vs)).
  change (last (e0 :: e1 :: e2 :: map fst (combine t (map rln vs))) e0) with (last (e2 :: map fst (combine t (map rln vs))) e0).
  change (last (e1 :: e2 :: map fst (combine t (map rln vs))) e1) with (last (e2 :: map fst (combine t (map rln vs))) e1).
  rewrite (last_indep (e2 :: _) e0 e1) by discriminate. destruct (Rlt_dec _ z); [reflexivity|].
  unfold r. cbn [seg_find]. destruct (Rle_dec z e1); [lra|reflexivity].
Qed.
(* an exponential is reproduced exactly between its points *)
Lemma seg_find_exp s h z rest : forall x0, ascending (x0 :: map fst rest) -> Forall (fun q => snd q = LFin (s * fst q + h)) rest -> rest <> [] ->
  seg_find x0 (LFin (s * x0 + h)) rest z = OVal (exp (s * z + h)).
Proof.
  induction rest as [|[x1 y1] t IH]; intros x0 ASC FP NE; [contradiction|].
  inversion FP as [|? ? Hb FP']; subst. cbn in Hb. subst y1. cbn [map fst ascending] in ASC. destruct ASC as [A1 A2].
  assert (SV : seg_value x0 (LFin (s * x0 + h)) x1 (LFin (s * x1 + h)) z = OVal (exp (s * z + h))).
  { unfold seg_value. destruct (Req_EM_T x0 x1); [lra|]. do 2 f_equal. field. lra. }
  destruct t as [|q t]; [exact SV|].
  change (seg_find x0 (LFin (s * x0 + h)) ((x1, LFin (s * x1 + h)) :: q :: t) z) with (if Rle_dec z x1 then seg_value x0 (LFin (s * x0 + h)) x1 (LFin (s * x1 + h)) z else seg_find x1 (LFin (s * x1 + h)) (q :: t) z).
  destruct (Rle_dec z x1); [exact SV|]. apply IH; try assumption. discriminate.
Qed.
Lemma log_interp_exp s h z e0 e1 t : ascending (e0 :: e1 :: t) -> e0 <= z -> z <= last (e1 :: t) e0 ->
  log_interp (e0 :: e1 :: t) (map (fun E => Some (exp (s * E + h))) (e0 :: e1 :: t)) z = OVal (exp (s * z + h)).
Proof.
  intros ASC L U. unfold log_interp. rewrite map_map.
  assert (LX : forall E, rln (Some (exp (s * E + h))) = LFin (s * E + h)).
  { intros E. cbn. destruct (Rlt_dec 0 _) as [|N]; [now rewrite ln_exp|]. exfalso. apply N. apply exp_pos. }
  set (rest := (e1, LFin (s * e1 + h)) :: combine t (map (fun E => rln (Some (exp (s * E + h)))) t)).
  assert (CB : combine (e0 :: e1 :: t) (map (fun E => rln (Some (exp (s * E + h)))) (e0 :: e1 :: t)) = (e0, LFin (s * e0 + h)) :: rest) by (unfold rest; rewrite <- !LX; reflexivity).
  rewrite CB. clear CB. change (map fst ((e0, LFin (s * e0 + h)) :: rest)) with (e0 :: map fst rest).
  assert (MF : map fst rest = e1 :: t). { unfold rest. cbn. f_equal. apply combine_fst. now rewrite map_length. }
  rewrite MF. destruct (Rlt_dec z e0); [lra|]. destruct (Rlt_dec _ z) as [X|_]; [exfalso; cbn [last] in *; lra|].
  apply seg_find_exp; [now rewrite MF| |discriminate].
  unfold rest. constructor; [reflexivity|]. clear. induction t as [|e t IH]; constructor; [|exact IH]. cbn [fst snd].
  cbn. destruct (Rlt_dec 0 _) as [|N]; [now rewrite ln_exp|]. exfalso. apply N. apply exp_pos.
Qed.
(* --- the grid --- *)
Lemma rlinspace_length a b n : length (rlinspace a b n) = n.
Proof. unfold rlinspace. now rewrite map_length, seq_length. Qed.
Lemma in_rlinspace a b n x : (2 <= n)%nat -> a < b -> In x (rlinspace a b n) -> a <= x <= b.
Proof.
  intros Hn Hab H. unfold rlinspace in H. apply in_map_iff in H. destruct H as (k & <- & Hk). apply in_seq in Hk.
  assert (0 < INR (n - 1)) by (apply lt_0_INR; lia). assert (0 <= INR k <= INR (n - 1)) by (split; [apply pos_INR|apply le_INR; lia]).
  assert (INR k * ((b - a) / INR (n - 1)) = (INR k / INR (n - 1)) * (b - a)) as -> by (field; lra).
  assert (0 <= INR k / INR (n - 1) <= 1).
  { split; [apply Rmult_le_pos; [lra|apply Rlt_le, Rinv_0_lt_compat; lra]|]. apply (Rmult_le_reg_r (INR (n - 1))); [assumption|]. unfold Rdiv. rewrite Rmult_assoc, Rinv_l by lra. lra. }
  nra.
Qed.
Lemma last_rlinspace a b n d : (2 <= n)%nat -> last (rlinspace a b n) d = b.
Proof.
  intros Hn. destruct n as [|n]; [lia|]. unfold rlinspace. rewrite seq_S, map_app. cbn [map]. rewrite last_last. replace (0 + n)%nat with n by lia.
  replace (S n - 1)%nat with n by lia. field. apply not_0_INR. lia.
Qed.
Lemma ascending_map_seq (f : nat -> R) n : forall s, (forall k, f k < f (S k)) -> ascending (map f (seq s n)).
Proof. induction n as [|n IH]; intros s H; [exact I|]. cbn [seq map]. destruct n; [exact I|]. cbn [seq map ascending]. split; [apply H|]. exact (IH (S s) H). Qed.
Lemma ascending_rlinspace a b n : (2 <= n)%nat -> a < b -> ascending (rlinspace a b n).
Proof.
  intros Hn Hab. apply ascending_map_seq. intros k. rewrite S_INR. assert (0 < INR (n - 1)) by (apply lt_0_INR; lia).
  assert (0 < (b - a) / INR (n - 1)) by (apply Rdiv_lt_0_compat; lra). lra.
Qed.
Lemma osum_pos l : (forall x, In x l -> exists v, x = OVal v /\ 0 <= v) -> exists s, osum l = OVal s /\ 0 <= s /\ forall v, In (OVal v) l -> v <= s.
Proof.
  induction l as [|x l IH]; intros H; [exists 0; split; [reflexivity|split; [lra|intros v []]]|].
  destruct IH as (s & E & S0 & SB); [intros y Hy; apply H; now right|]. destruct (H x (or_introl eq_refl)) as (v & -> & V).
  exists (v + s). cbn. change (fold_right (omap2 Rplus) (OVal 0) l) with (osum l). rewrite E. split; [reflexivity|]. split; [lra|].
  intros w [W|W]; [injection W as <-; lra|]. specialize (SB w W). lra.
Qed.
