(* The first approximation of erfinv is close to the inverse error function on a grid, and
   two Newton steps then give it to 1.5e-7 (C69). *)
From Coq Require Import Reals Lra Lia Psatz ZArith List.
From Coquelicot Require Import Coquelicot.
From Verif Require Import StatsModel StatsProofs ErfinvProofs ErfSeries ErfGrid.
Local Open Scope R_scope.

(* ------------------------------------------------ two Newton steps *)
Lemma two_steps t r d : 0 <= t -> 0 <= r -> Rabs (r - t) <= d -> 0 <= newton (erf t) r ->
  let e1 := d * d * (t + d) * exp (d * (2 * t + d)) in
  0 <= t - newton (erf t) (newton (erf t) r) <= e1 * e1 * t.
Proof.
  intros T R0 D N0 e1. assert (D0 : 0 <= d) by (eapply Rle_trans; [apply Rabs_pos|exact D]).
  set (r1 := newton (erf t) r) in *.
  assert (B1 : r1 <= t) by (apply erf_le_inv; now apply newton_below).
  assert (E1 : t - r1 <= e1).
  { assert (Q : (r - t) * (r - t) <= d * d). { assert (- d <= r - t <= d) by (now apply Rabs_le_between). nra. } 
    destruct (Rle_lt_dec r t) as [L|L].
    - pose proof (newton_error_below t r ltac:(lra)) as H. fold r1 in H. eapply Rle_trans; [exact H|].
      assert (X : 1 <= exp (d * (2 * t + d))) by (pose proof (exp_ge_1 (d * (2 * t + d))); nra). unfold e1.
      apply Rle_trans with (d * d * (t + d)); [|assert (0 <= d * d * (t + d)) by nra; nra]. apply Rmult_le_compat; nra.
    - pose proof (newton_error_above t r ltac:(lra)) as H. fold r1 in H. eapply Rle_trans; [exact H|]. rewrite Rabs_pos_eq in D by lra.
      assert (X : exp (r * r - t * t) <= exp (d * (2 * t + d))).
      { assert (r * r - t * t <= d * (2 * t + d)) by nra. destruct (Req_dec (r * r - t * t) (d * (2 * t + d))) as [->|N]; [lra|left; apply exp_increasing; lra]. }
      unfold e1. pose proof (exp_pos (r * r - t * t)). apply Rmult_le_compat; [|lra| |exact X]; [|]; nra. }
  assert (R1 : 0 <= r1) by exact N0.
  pose proof (newton_error_below t r1 ltac:(lra)) as H2.
  assert (L2 : erf r1 <= erf t) by (now apply erf_increasing_le).
  assert (U2 : newton (erf t) r1 <= t). { apply erf_le_inv. apply newton_below; [exact R1|]. pose proof (newton_up (erf t) r1 L2). lra. }
  split; [lra|]. eapply Rle_trans; [exact H2|]. apply Rmult_le_compat_r; [exact T|]. apply Rmult_le_compat; lra.
Qed.

(* ------------------------------------------------ 0 <= x <= 0.7 *)
Definition rnl (X : Z) : Z := (let Q := X * X in X * (((-140543331 * Q + 914624893 * 1000000) * Q - 1645349621 * 1000000000000) * Q + 886226899 * 1000000000000000000) * 1000)%Z.
Definition rdl (X : Z) : Z := (let Q := X * X in (((12229801 * Q - 329097515 * 1000000) * Q + 1442710462 * 1000000000000) * Q - 2118377725 * 1000000000000000000) * Q + 1000000000000000000000000000000000)%Z.
Definition rfll (X : Z) : Z := (10000 * rnl X / rdl X)%Z.
Definition check_low (X : Z) : bool :=
  (let L := rfll X - 1 in let H := rfll X + 2 in let N := rfll (X + 10) in
   (0 <? rdl X) && (0 <? rdl (X + 10)) && (0 <? L) &&
   (2 * L * herf true (L * L) 8 0 * 10000000 <=? 10 * X * 17724538 * Sc) &&
   (10 * X * 17724539 * Sc <=? 2 * H * herf false (H * H) 8 0 * 10000000) &&
   (N + 1 <=? L + 160) && (N + 2 <=? rfll X + 160))%Z%bool.
Definition low_points : list Z := map (fun n => (10 * Z.of_nat n)%Z) (seq 1 70).
Lemma low_checked : forallb check_low low_points = true.
Proof. vm_compute. reflexivity. Qed.

Definition AL (w : R) : R := ((dec (-140543331) 1000000000 * w + dec 914624893 1000000000) * w + dec (-1645349621) 1000000000) * w + dec 886226899 1000000000.
Definition BL (w : R) : R := (((dec 12229801 1000000000 * w + dec (-329097515) 1000000000) * w + dec 1442710462 1000000000) * w + dec (-2118377725) 1000000000) * w + 1.
Lemma approx_low_AB x : approx_low x = x * AL (x * x) / BL (x * x).
Proof. reflexivity. Qed.
Lemma BL_pos w : 0 <= w <= 51 / 100 -> 0 < BL w.
Proof.
  intros [W0 W1]. unfold BL, dec.
  assert (P : forall a b, 0 <= a -> 0 <= b -> 0 <= a * b) by (intros; now apply Rmult_le_pos).
  pose proof (P w (51 / 100 - w) W0 ltac:(lra)). nra.
Qed.
Lemma AL_pos w : 0 <= w <= 51 / 100 -> 0 < AL w.
Proof. intros [W0 W1]. unfold AL, dec. nra. Qed.
Lemma AB_increasing v w : 0 <= v <= w -> w <= 51 / 100 -> AL v * BL w <= AL w * BL v.
Proof.
  intros [V0 VW] W1.
  enough (Q : exists q, 0 <= q /\ AL w * BL v - AL v * BL w = (w - v) * q) by (destruct Q as (q & Q0 & Q); nra).
  set (s := v + w). set (p := v * w).
  pose (a0 := dec 886226899 1000000000). pose (a1 := dec (-1645349621) 1000000000). pose (a2 := dec 914624893 1000000000). pose (a3 := dec (-140543331) 1000000000).
  pose (b1 := dec (-2118377725) 1000000000). pose (b2 := dec 1442710462 1000000000). pose (b3 := dec (-329097515) 1000000000). pose (b4 := dec 12229801 1000000000).
  exists ((a1 - a0 * b1) + (a2 - a0 * b2) * s + (a2 * b1 - a1 * b2) * p + (a3 - a0 * b3) * (s * s - p) + (a3 * b1 - a1 * b3) * (p * s) + (a3 * b2 - a2 * b3) * (p * p)
          - a0 * b4 * (s * s * s - 2 * (p * s)) - a1 * b4 * (p * (s * s - p)) - a2 * b4 * (p * p * s) - a3 * b4 * (p * p * p)).
  split; [|unfold AL, BL; fold a0 a1 a2 a3 b1 b2 b3 b4; unfold s, p; ring].
  assert (S0 : 0 <= s <= 102 / 100) by (unfold s; lra). assert (P0 : 0 <= p <= 27 / 100) by (unfold p; nra). 
  assert (PS : 0 <= p * s) by nra. assert (PP : 0 <= p * p) by nra. assert (PPS : p * p * s <= 75 / 1000) by nra. assert (S3 : s * s * s <= 102 / 100 * (s * s)) by nra. assert (S2 : 0 <= s * s <= 102 / 100 * s) by nra.
  assert (SP : 0 <= p * (s * s - p)). { assert (4 * p <= s * s) by (unfold s, p; nra). nra. }
  assert (PPP : 0 <= p * p * p) by nra. assert (PS1 : p * s <= 102 / 100 * p) by nra.
  unfold a0, a1, a2, a3, b1, b2, b3, b4, dec. nra.
Qed.
Lemma approx_low_mono a b : 0 <= a <= b -> b <= 71 / 100 -> b * b <= 51 / 100 -> approx_low a <= approx_low b.
Proof.
  intros [A0 AB] _ B1. rewrite !approx_low_AB.
  assert (WA : 0 <= a * a <= 51 / 100) by nra. assert (WB : 0 <= b * b <= 51 / 100) by nra.
  pose proof (BL_pos _ WA) as PA. pose proof (BL_pos _ WB) as PB. pose proof (AL_pos _ WA) as NA. pose proof (AL_pos _ WB) as NB.
  pose proof (AB_increasing (a * a) (b * b) ltac:(nra) ltac:(lra)) as I.
  apply Rmult_le_reg_r with (BL (a * a) * BL (b * b)); [nra|].
  replace (a * AL (a * a) / BL (a * a) * (BL (a * a) * BL (b * b))) with (a * (AL (a * a) * BL (b * b))) by (field; lra).
  replace (b * AL (b * b) / BL (b * b) * (BL (a * a) * BL (b * b))) with (b * (AL (b * b) * BL (a * a))) by (field; lra).
  assert (0 < AL (a * a) * BL (b * b)) by nra. apply Rmult_le_compat; lra.
Qed.
Lemma approx_low_Z X : (0 < rdl X)%Z -> approx_low (IZR X / 1000) = IZR (rnl X) / IZR (rdl X).
Proof.
  intros D. assert (DP : IZR (rdl X) <> 0) by (apply not_0_IZR; lia). rewrite approx_low_AB. unfold AL, BL, dec.
  unfold rnl, rdl in *. cbv zeta in *. repeat rewrite ?plus_IZR, ?minus_IZR, ?mult_IZR in DP. repeat rewrite ?plus_IZR, ?minus_IZR, ?mult_IZR. set (x := IZR X) in *. field. lra.
Qed.
Lemma floor_bounds n d : (0 < d)%Z -> IZR (10000 * n / d) / 10000 <= IZR n / IZR d <= (IZR (10000 * n / d) + 1) / 10000.
Proof.
  intros D. assert (DP : 0 < IZR d) by (now apply IZR_lt). split.
  - pose proof (div_le (10000 * n) d D) as H. rewrite mult_IZR in H. unfold Rdiv in *. lra.
  - assert (H : (10000 * n <= d * (10000 * n / d + 1))%Z) by (pose proof (Z.mul_succ_div_gt (10000 * n) d D); lia).
    apply IZR_le in H. rewrite !mult_IZR, plus_IZR in H. apply Rmult_le_reg_r with (IZR d); [exact DP|]. unfold Rdiv. rewrite (Rmult_assoc (IZR n)), Rinv_l by lra. lra.
Qed.
Lemma G_enclosed L : (0 < L)%Z -> let r := IZR L / 10000 in 
  IZR (herf false (L * L) 8 0) * r <= IZR Sc * G r <= IZR (herf true (L * L) 8 0) * r.
Proof.
  intros HL r. assert (LP : 0 < IZR L) by (now apply IZR_lt). assert (RP : 0 < r) by (unfold r; lra).
  destruct (erf_nested r 8 RP) as (v & V & E).
  assert (W : r * r = IZR (L * L) / IZR Sc) by (unfold r, Sc; rewrite mult_IZR; field).
  destruct (herf_sound (r * r) (L * L) 8 ltac:(nia) W 0 v V) as (A & B). change (Z.of_nat 0) with 0%Z in A, B.  rewrite E.
  replace (IZR Sc * (r * nest_erf (r * r) 8 0 v)) with (IZR Sc * nest_erf (r * r) 8 0 v * r) by ring. split; apply Rmult_le_compat_r; lra.
Qed.
Lemma erf_ge X H : (0 < H)%Z -> (10 * X * 17724539 * Sc <= 2 * H * herf false (H * H) 8 0 * 10000000)%Z -> (0 <= X)%Z -> IZR X / 1000 <= erf (IZR H / 10000).
Proof.
  intros HP C X0. destruct (G_enclosed H HP) as (A & _). set (r := IZR H / 10000) in *. set (f := herf false (H * H) 8 0) in *.
  apply IZR_le in C. rewrite !mult_IZR in C. rewrite erf_G. pose proof sqrtPI_bounds as [S1 S2]. pose proof sqrtPI_pos as SP. pose proof Sc_pos as SC. assert (XP : 0 <= IZR X) by (now apply IZR_le).
  apply Rmult_le_reg_r with (sqrt PI * IZR Sc); [nra|]. replace (2 / sqrt PI * G r * (sqrt PI * IZR Sc)) with (2 * (IZR Sc * G r)) by (field; lra).
  apply Rle_trans with (2 * (IZR f * r)); [|lra]. assert (Q : IZR H = 10000 * r) by (unfold r; field). rewrite Q in C.
  apply Rle_trans with (IZR X / 1000 * (17724539 / 10000000 * IZR Sc)); [|lra].
  apply Rmult_le_compat_l; [lra|]. apply Rmult_le_compat_r; lra.
Qed.
Lemma erf_le_X X H : (0 < H)%Z -> (2 * H * herf true (H * H) 8 0 * 10000000 <= 10 * X * 17724538 * Sc)%Z -> (0 <= X)%Z -> erf (IZR H / 10000) <= IZR X / 1000.
Proof.
  intros HP C X0. destruct (G_enclosed H HP) as (_ & A). set (r := IZR H / 10000) in *. set (f := herf true (H * H) 8 0) in *.
  apply IZR_le in C. rewrite !mult_IZR in C. rewrite erf_G. pose proof sqrtPI_bounds as [S1 S2]. pose proof sqrtPI_pos as SP. pose proof Sc_pos as SC. assert (XP : 0 <= IZR X) by (now apply IZR_le).
  apply Rmult_le_reg_r with (sqrt PI * IZR Sc); [nra|]. replace (2 / sqrt PI * G r * (sqrt PI * IZR Sc)) with (2 * (IZR Sc * G r)) by (field; lra).
  apply Rle_trans with (2 * (IZR f * r)); [lra|]. assert (Q : IZR H = 10000 * r) by (unfold r; field). rewrite Q in C.
  apply Rle_trans with (IZR X / 1000 * (17724538 / 10000000 * IZR Sc)); [lra|].
  apply Rmult_le_compat_l; [lra|]. apply Rmult_le_compat_r; lra.
Qed.
Lemma low_point X : In X low_points -> check_low X = true.
Proof. intros H. pose proof low_checked as C. rewrite forallb_forall in C. now apply C. Qed.
Lemma low_near t : 0 <= t -> erf t <= 7 / 10 -> t <= 75 / 100 /\ Rabs (approx_low (erf t) - t) <= 16 / 1000.
Proof.
  intros T0 X1. set (x := erf t) in *. assert (X0 : 0 <= x) by (unfold x; rewrite <- erf_0; now apply erf_increasing_le).
  (* the grid interval *)
  set (k := Int_part (100 * x)). destruct (base_Int_part (100 * x)) as [K1 K2]. fold k in K1, K2.
  assert (KB : (0 <= k <= 70)%Z). { split; [apply Z.lt_succ_r; apply lt_IZR; rewrite succ_IZR; lra|apply le_IZR; lra]. }
  destruct (Z.eq_dec k 0) as [KZ|KN].
  - (* below the first grid point *)
    pose proof (low_point 10 ltac:(apply in_map_iff; exists 1%nat; split; [reflexivity|apply in_seq; lia])) as C.
    unfold check_low in C. cbv zeta in C. rewrite !Bool.andb_true_iff in C. destruct C as ((((((D1 & _) & LP) & _) & CH) & _) & _).
    apply Z.ltb_lt in D1, LP. apply Z.leb_le in CH. 
    assert (XB : x <= IZR 10 / 1000) by (rewrite KZ in K2; lra).
    assert (HV : rfll 10 = 88%Z) by (vm_compute; reflexivity). rewrite HV in *.
    pose proof (erf_ge 10 (88 + 2) ltac:(lia) CH ltac:(lia)) as GE. 
    assert (TB : t <= IZR (88 + 2) / 10000) by (apply erf_le_inv; fold x; lra).
    assert (AB : approx_low x <= IZR (rnl 10) / IZR (rdl 10)). { rewrite <- approx_low_Z by exact D1. apply approx_low_mono; lra || nra. }
    pose proof (floor_bounds (rnl 10) (rdl 10) D1) as [_ FB]. fold (rfll 10) in FB. rewrite HV in FB.
    assert (A0 : 0 <= approx_low x) by (apply low_bounds; lra). split; [simpl in TB; lra|]. apply Rabs_le. simpl in TB, FB. lra.
  - set (X := (10 * k)%Z). assert (XI : In X low_points).
    { apply in_map_iff. exists (Z.to_nat k). split; [unfold X; lia|apply in_seq; lia]. }
    pose proof (low_point X XI) as C. unfold check_low in C. cbv zeta in C. rewrite !Bool.andb_true_iff in C. destruct C as ((((((D1 & D2) & LP) & CL) & _) & C1) & C2).
    apply Z.ltb_lt in D1, D2, LP. apply Z.leb_le in CL, C1, C2.
    assert (XR : IZR X = 10 * IZR k) by (unfold X; now rewrite mult_IZR).
    assert (XA : IZR X / 1000 <= x) by lra. assert (XB : x <= IZR (X + 10) / 1000) by (rewrite plus_IZR; lra).
    assert (X5 : IZR (X + 10) / 1000 <= 710 / 1000). { assert (HX : (X + 10 <= 710)%Z) by (unfold X; lia). apply IZR_le in HX. lra. }
    assert (XP : 0 < IZR X). { apply IZR_lt. unfold X. lia. }
    (* t between the brackets *)
    assert (TL : IZR (rfll X - 1) / 10000 <= t). { apply erf_le_inv. fold x. eapply Rle_trans; [apply (erf_le_X X); [exact LP|exact CL|unfold X; lia]|exact XA]. }
    assert (TH : t <= IZR (rfll (X + 10) + 2) / 10000).
    { destruct (Z.eq_dec k 70) as [K140|K140].
      - (* x = 0.7 *)
        assert (x = IZR X / 1000) as EX by (rewrite XR, K140 in *; lra).
        assert (C : check_low X = true) by (now apply low_point). unfold check_low in C. cbv zeta in C. rewrite !Bool.andb_true_iff in C. destruct C as (((_ & CH) & _) & _). apply Z.leb_le in CH.
        pose proof (erf_ge X (rfll X + 2) ltac:(lia) CH ltac:(unfold X; lia)) as GE.
        assert (t <= IZR (rfll X + 2) / 10000) by (apply erf_le_inv; fold x; lra).
        assert (rfll X <= rfll (X + 10))%Z. { unfold X. rewrite K140. vm_compute. discriminate. }
        apply Rle_trans with (IZR (rfll X + 2) / 10000); [assumption|]. assert (HH : IZR (rfll X + 2) <= IZR (rfll (X + 10) + 2)) by (apply IZR_le; lia). lra.
      - assert (C : check_low (X + 10) = true). { apply low_point. apply in_map_iff. exists (Z.to_nat (k + 1)). split; [unfold X; lia|apply in_seq; lia]. }
        unfold check_low in C. cbv zeta in C. rewrite !Bool.andb_true_iff in C. destruct C as ((((((_ & _) & LP5) & _) & CH) & _) & _). apply Z.leb_le in CH. apply Z.ltb_lt in LP5.
        apply erf_le_inv. fold x. eapply Rle_trans; [exact XB|]. apply erf_ge; [lia|exact CH|unfold X; lia]. }
    (* the approximation between its values at the grid points *)
    pose proof (floor_bounds (rnl X) (rdl X) D1) as [FA _]. pose proof (floor_bounds (rnl (X + 10)) (rdl (X + 10)) D2) as [_ FB]. fold (rfll X) in FA. fold (rfll (X + 10)) in FB.
    rewrite <- approx_low_Z in FA by exact D1. rewrite <- approx_low_Z in FB by exact D2.
    assert (RA : approx_low (IZR X / 1000) <= approx_low x) by (apply approx_low_mono; lra || nra).
    assert (RB : approx_low x <= approx_low (IZR (X + 10) / 1000)) by (apply approx_low_mono; lra || nra).
    apply IZR_le in C1, C2. rewrite !plus_IZR in C1, C2. rewrite plus_IZR in TH. rewrite minus_IZR in TL, C1.
    assert (T75 : IZR (rfll (X + 10)) + 2 <= 7500).
    { rewrite <- plus_IZR. apply IZR_le. assert (F : forall X, In X low_points -> (rfll (X + 10) + 2 <= 7500)%Z).
      { assert (FF : forallb (fun X => (rfll (X + 10) + 2 <=? 7500)%Z) low_points = true) by (vm_compute; reflexivity). rewrite forallb_forall in FF. intros Y HY. apply Z.leb_le. now apply FF. }
      now apply F. }
    split; [lra|]. apply Rabs_le. lra.
Qed.

(* ------------------------------------------------ 0.7 < x *)
Definition NH (y : R) : R := ((dec 1641345311 1000000000 * y + dec 3429567803 1000000000) * y + dec (-162490649) 100000000) * y + dec (-1970840454) 1000000000.
Definition DH (y : R) : R := (dec 1637067800 1000000000 * y + dec 3543889200 1000000000) * y + 1.
Definition ry (y : R) : R := NH y / DH y.
Lemma DH_pos y : 0 <= y -> 0 < DH y.
Proof. intros Y. unfold DH, dec. nra. Qed.
Lemma ry_mono a b : 0 <= a <= b -> ry a <= ry b.
Proof.
  intros [A0 AB]. pose proof (DH_pos a A0) as PA. pose proof (DH_pos b ltac:(lra)) as PB. unfold ry.
  apply Rmult_le_reg_r with (DH a * DH b); [nra|].
  replace (NH a / DH a * (DH a * DH b)) with (NH a * DH b) by (field; lra). replace (NH b / DH b * (DH a * DH b)) with (NH b * DH a) by (field; lra).
  enough (Q : exists q, 0 <= q /\ NH b * DH a - NH a * DH b = (b - a) * q) by (destruct Q as (q & Q0 & Q); nra).
  pose (c3 := dec 1641345311 1000000000). pose (c2 := dec 3429567803 1000000000). pose (c1 := dec (-162490649) 100000000). pose (c0 := dec (-1970840454) 1000000000).
  pose (d2 := dec 1637067800 1000000000). pose (d1 := dec 3543889200 1000000000).
  exists (c3 * d2 * (a * b * (a * b)) + c3 * d1 * (a * b * (a + b)) + c3 * (a * a + a * b + b * b) + (c2 * d1 - c1 * d2) * (a * b) + (c2 - c0 * d2) * (a + b) + (c1 - c0 * d1)).
  split; [|unfold NH, DH; fold c0 c1 c2 c3 d1 d2; ring].
  assert (P : 0 <= a * b) by nra. assert (P2 : 0 <= a * b * (a * b)) by nra. assert (P3 : 0 <= a * b * (a + b)) by nra.
  unfold c0, c1, c2, c3, d1, d2, dec. nra.
Qed.
Definition rnh (Y : Z) : Z := (((1641345311 * Y + 3429567803 * 1000) * Y - 1624906490 * 1000000) * Y - 1970840454 * 1000000000)%Z.
Definition rdh (Y : Z) : Z := (((1637067800 * Y + 3543889200 * 1000) * Y + 1000000000 * 1000000) * 1000)%Z.
Definition rflh (Y : Z) : Z := (10000 * rnh Y / rdh Y)%Z.
Lemma ry_Z Y : (0 < Y)%Z -> ry (IZR Y / 1000) = IZR (rnh Y) / IZR (rdh Y) /\ (0 < rdh Y)%Z.
Proof.
  intros P. assert (D : (0 < rdh Y)%Z) by (unfold rdh; nia). split; [|exact D]. assert (DP : IZR (rdh Y) <> 0) by (apply not_0_IZR; lia).
  unfold ry, NH, DH, dec. unfold rnh, rdh in *. repeat rewrite ?plus_IZR, ?minus_IZR, ?mult_IZR in DP. repeat rewrite ?plus_IZR, ?minus_IZR, ?mult_IZR.
  assert (YP : 0 < IZR Y) by (now apply IZR_lt). set (x := IZR Y) in *. field. split; [lra|]. nra.
Qed.
Definition levels (Y : Z) : nat := if (Y <? 1600)%Z then 20 else if (Y <? 1800)%Z then 12 else 8.
Definition slack (Y : Z) : Z := if (Y <=? 2400)%Z then 65 else 50.
Definition check_high (Y : Z) : bool :=
  (let F := rflh Y in let L := F - 4 in let H := F + 5 in let N := rflh (Y + 4) in
   let UL := Y * Y * 100 - L * L in let UH := Y * Y * 100 - H * H in
   (0 <? L) && (0 <? UL) && (0 <? UH) &&
   (17724539 * hexp true UL 14 0 <=? hcf false (L * 10000) (levels Y) 0 * 10000000) &&
   (hcf true (H * 10000) (levels Y) 0 * 10000000 <=? 17724538 * hexp false UH 14 0) &&
   (N + 1 <=? L + slack Y) && (N + 5 <=? F + slack Y) && (N + 5 <=? (if Y <=? 2400 then 20000 else 59000)))%Z%bool.
Definition high_points : list Z := map (fun n => (1376 + 4 * Z.of_nat n)%Z) (seq 0 1189).
Lemma high_checked : forallb check_high high_points = true.
Proof. vm_compute. reflexivity. Qed.
Lemma exp_enclosed U : (0 < U)%Z -> let u := IZR U / IZR Sc in IZR (hexp false U 14 0) <= IZR Sc * exp (- u) <= IZR (hexp true U 14 0).
Proof.
  intros UP u. pose proof Sc_pos as SP. assert (P : 0 < u) by (apply Rdiv_lt_0_compat; [now apply IZR_lt|exact SP]).
  destruct (exp_nested u 14 P) as (v & V & E). rewrite E. exact (hexp_sound u U 14 ltac:(lia) eq_refl 0 v V).
Qed.
(* erfc at L/10^6 against 2 exp(-y^2), y = Y/1000 *)
Lemma erfc_compare Y L n : (0 < L)%Z -> (0 < Y * Y * 100 - L * L)%Z ->
  let r := IZR L / 10000 in let y := IZR Y / 1000 in
  let U := (Y * Y * 100 - L * L)%Z in
  ((17724539 * hexp true U 14 0 <= hcf false (L * 10000) n 0 * 10000000)%Z -> 2 * exp (- (y * y)) <= 1 - erf r) /\
  ((hcf true (L * 10000) n 0 * 10000000 <= 17724538 * hexp false U 14 0)%Z -> 1 - erf r <= 2 * exp (- (y * y))).
Proof.
  intros LP UP r y U. assert (LR : 0 < IZR L) by (now apply IZR_lt). assert (RP : 0 < r) by (unfold r; lra). pose proof Sc_pos as SP.
  destruct (erfc_nested r n RP) as (v & V & E). 
  destruct (hcf_sound r (L * 10000) n ltac:(lia) ltac:(unfold r, Sc; rewrite mult_IZR; field) 0 v V) as ((Q1 & Q2) & _). change (Z.of_nat 0) with 0%Z in Q1, Q2.
  set (q := nest_cf r n 0 v) in *. destruct (exp_enclosed U UP) as (X1 & X2). 
  assert (UE : IZR U / IZR Sc = y * y - r * r). { unfold U, y, r, Sc. rewrite minus_IZR, !mult_IZR. field. }
  rewrite UE in X1, X2. set (e := exp (- (y * y - r * r))) in *.
  assert (EE : 2 * exp (- (y * y)) = 2 / sqrt PI * gauss r * (sqrt PI * e)).
  { unfold e, gauss. pose proof sqrtPI_pos. replace (- (y * y - r * r)) with (- (y * y) + r * r) by ring. rewrite exp_plus. rewrite exp_Ropp. rewrite (exp_Ropp (r * r)). pose proof (exp_pos (r * r)). pose proof (exp_pos (y * y)). field. lra. }
  rewrite E, EE. fold (slope r). pose proof (slope_pos r) as SL. pose proof sqrtPI_bounds as [S1 S2]. assert (EP : 0 < e) by apply exp_pos.
  split; intros C; apply IZR_le in C; rewrite !mult_IZR in C; (apply Rmult_le_compat_l; [lra|]); apply Rmult_le_reg_r with (IZR Sc * 10000000); try lra.
  - apply Rle_trans with (17724539 / 10000000 * e * (IZR Sc * 10000000)); [apply Rmult_le_compat_r; [lra|]; apply Rmult_le_compat_r; lra|]. lra.
  - apply Rle_trans with (17724538 / 10000000 * e * (IZR Sc * 10000000)); [lra|apply Rmult_le_compat_r; [lra|]; apply Rmult_le_compat_r; lra].
Qed.
Lemma high_point Y : In Y high_points -> check_high Y = true.
Proof. intros H. pose proof high_checked as C. rewrite forallb_forall in C. now apply C. Qed.
Lemma high_y_fine x : 7 / 10 < x <= 1 - ulp1 -> 1376 / 1000 <= sqrt (- ln ((1 - x) / 2)) <= 6124 / 1000.
Proof.
  intros X. destruct (high_y x X) as [[Y1 Y2] E]. set (y := sqrt (- ln ((1 - x) / 2))) in *. cbv zeta in *. split.
  - destruct (Rle_lt_dec (1376 / 1000) y) as [L|L]; [exact L|exfalso].
    destruct (exp_enclosed 189337600 ltac:(lia)) as (A & _). replace (IZR 189337600 / IZR Sc) with (1376 / 1000 * (1376 / 1000)) in A by (unfold Sc; field).
    assert (V : (15000000 <= hexp false 189337600 14 0)%Z) by (vm_compute; discriminate). apply IZR_le in V.
    assert (M : exp (- (1376 / 1000 * (1376 / 1000))) < exp (- (y * y))) by (apply exp_increasing; nra). unfold Sc in A. lra.
  - destruct (Rle_lt_dec y (6124 / 1000)) as [L|L]; [exact L|exfalso].
    destruct (exp_enclosed 69444400 ltac:(lia)) as (_ & A). replace (IZR 69444400 / IZR Sc) with (694444 / 1000000) in A by (unfold Sc; field).
    assert (V : (hexp true 69444400 14 0 <= 50000000)%Z) by (vm_compute; discriminate). apply IZR_le in V.
    assert (H : exp (- (694444 / 1000000)) <= / 2) by (unfold Sc in A; lra).
    assert (P : exp (- (694444 / 1000000)) ^ 54 <= / 2 ^ 54). { rewrite <- pow_inv by lra. apply pow_incr. split; [left; apply exp_pos|exact H]. }
    assert (Q : exp (- (694444 / 1000000)) ^ 54 = exp (INR 54 * - (694444 / 1000000))). { clear. generalize 54%nat as m. intros m. induction m as [|n IH]; [simpl; now rewrite Rmult_0_l, exp_0|]. cbn [pow]. rewrite IH, <- exp_plus. f_equal. rewrite S_INR. ring. }
    rewrite Q in P. replace (INR 54) with 54 in P by (simpl; lra).
    assert (M : exp (- (y * y)) < exp (54 * - (694444 / 1000000))) by (apply exp_increasing; nra).
    destruct X as [_ X]. unfold ulp1 in X. change (2 ^ 54) with (2 * 2 ^ 53) in P. rewrite Rinv_mult_distr in P by (try apply pow_nonzero; lra). lra.
Qed.
Lemma exp_le_mono a b : a <= b -> exp a <= exp b.
Proof. intros [L| ->]; [left; now apply exp_increasing|apply Rle_refl]. Qed.
Lemma high_near t : 0 <= t -> 7 / 10 < erf t <= 1 - ulp1 ->
  (t <= 2 /\ Rabs (approx_high (erf t) - t) <= 65 / 10000) \/ (t <= 59 / 10 /\ Rabs (approx_high (erf t) - t) <= 5 / 1000).
Proof.
  intros T0 X. set (x := erf t) in *. destruct (high_y x X) as [_ E]. pose proof (high_y_fine x X) as YB. 
  change (approx_high x) with (ry (sqrt (- ln ((1 - x) / 2)))). set (y := sqrt (- ln ((1 - x) / 2))) in *. cbv zeta in E.
  set (k := Int_part (250 * (y - 1376 / 1000))). destruct (base_Int_part (250 * (y - 1376 / 1000))) as [K1 K2]. fold k in K1, K2.
  assert (KB : (0 <= k <= 1187)%Z). { split; [apply Z.lt_succ_r; apply lt_IZR; rewrite succ_IZR; lra|apply le_IZR; lra]. }
  set (Y := (1376 + 4 * k)%Z).
  assert (C : check_high Y = true). { apply high_point. apply in_map_iff. exists (Z.to_nat k). split; [unfold Y; lia|apply in_seq; lia]. }
  assert (C' : check_high (Y + 4) = true). { apply high_point. apply in_map_iff. exists (Z.to_nat (k + 1)). split; [unfold Y; lia|apply in_seq; lia]. }
  unfold check_high in C, C'. cbv zeta in C, C'. rewrite !Bool.andb_true_iff in C, C'.
  destruct C as (((((((LP & UL) & UH) & CL) & _) & C1) & C2) & C3). destruct C' as (((((((LP' & _) & UH') & _) & CH) & _) & _) & _).
  apply Z.ltb_lt in LP, UL, UH, LP', UH'. apply Z.leb_le in CL, CH, C1, C2, C3.
  assert (YR : IZR Y = 1376 + 4 * IZR k) by (unfold Y; now rewrite plus_IZR, mult_IZR).
  assert (YA : IZR Y / 1000 <= y) by lra. assert (Y2 : y <= IZR (Y + 4) / 1000) by (rewrite plus_IZR; lra).
  assert (YP : (0 < Y)%Z) by (unfold Y; lia). assert (YPR : 0 < IZR Y) by (now apply IZR_lt).
  assert (TL : IZR (rflh Y - 4) / 10000 <= t).
  { apply erf_le_inv. fold x. pose proof (proj1 (erfc_compare Y (rflh Y - 4) (levels Y) LP UL) CL) as H. cbv zeta in H.
    assert (exp (- (y * y)) <= exp (- (IZR Y / 1000 * (IZR Y / 1000)))) by (apply exp_le_mono; nra). lra. }
  assert (TH : t <= IZR (rflh (Y + 4) + 5) / 10000).
  { apply erf_le_inv. fold x. pose proof (proj2 (erfc_compare (Y + 4) (rflh (Y + 4) + 5) (levels (Y + 4)) ltac:(lia) UH') CH) as H. cbv zeta in H.
    assert (exp (- (IZR (Y + 4) / 1000 * (IZR (Y + 4) / 1000))) <= exp (- (y * y))) by (apply exp_le_mono; nra). lra. }
  destruct (ry_Z Y YP) as (RA & DA). destruct (ry_Z (Y + 4) ltac:(lia)) as (RB & DB).
  pose proof (floor_bounds (rnh Y) (rdh Y) DA) as [FA _]. pose proof (floor_bounds (rnh (Y + 4)) (rdh (Y + 4)) DB) as [_ FB]. fold (rflh Y) in FA. fold (rflh (Y + 4)) in FB. rewrite <- RA in FA. rewrite <- RB in FB.
  assert (MA : ry (IZR Y / 1000) <= ry y) by (apply ry_mono; lra). assert (MB : ry y <= ry (IZR (Y + 4) / 1000)) by (apply ry_mono; lra).
  apply IZR_le in C1, C2, C3. rewrite !plus_IZR in C1, C2. rewrite plus_IZR in TH, C3. rewrite minus_IZR in TL, C1. unfold slack in C1, C2.
  destruct (Y <=? 2400)%Z; [left|right]; (split; [lra|apply Rabs_le; lra]).
Qed.

(* ------------------------------------------------ the result *)
Lemma exp_small v : 0 <= v <= 1 / 10 -> exp v <= 1 + 12 / 10 * v.
Proof.
  intros [V0 V1]. pose proof (exp_ge_1 (- v)) as H. rewrite exp_Ropp in H. pose proof (exp_pos v) as P. assert (E : / exp v * exp v = 1) by (field; lra).
  assert (A : (1 - v) * exp v <= 1) by nra. nra.
Qed.
Lemma newton_total t r d T : 0 <= t <= T -> 0 <= r -> 0 <= newton (erf t) r -> Rabs (r - t) <= d -> 0 <= d -> d * (2 * T + d) <= 1 / 10 ->
  (let e := d * d * (T + d) * (1 + 12 / 10 * (d * (2 * T + d))) in e * e * T <= 15 / 100000000) ->
  0 <= t - newton (erf t) (newton (erf t) r) <= 15 / 100000000.
Proof.
  intros [T0 TT] R0 N0 D D0 S1 B. destruct (two_steps t r d T0 R0 D N0) as (A1 & A2). split; [exact A1|]. eapply Rle_trans; [exact A2|]. cbv zeta in B. eapply Rle_trans; [|exact B].
  assert (V : 0 <= d * (2 * t + d) <= d * (2 * T + d)) by nra.
  pose proof (exp_small (d * (2 * t + d)) ltac:(lra)) as X. pose proof (exp_pos (d * (2 * t + d))) as XP.
  assert (E : 0 <= d * d * (t + d) * exp (d * (2 * t + d)) <= d * d * (T + d) * (1 + 12 / 10 * (d * (2 * T + d)))).
  { assert (0 <= d * d * (t + d)) by nra. split; [nra|]. apply Rmult_le_compat; [assumption|lra| |lra]. apply Rmult_le_compat_l; nra. }
  apply Rmult_le_compat; [nra|lra| |exact TT]. apply Rmult_le_compat; lra.
Qed.
Lemma erfinv_accurate_pos t : 0 <= t -> erf t <= 1 - ulp1 -> exists r, erfinv (erf t) = Finite r /\ 0 <= t - r <= 15 / 100000000.
Proof.
  intros T0 B. assert (X0 : 0 <= erf t) by (rewrite <- erf_0; now apply erf_increasing_le). pose proof ulp1_pos as UP.
  destruct (approx_step (erf t) ltac:(lra)) as [A0 N0]. unfold erfinv. destruct (Rle_dec (erf t) (-1)); [lra|]. destruct (Rle_dec 1 (erf t)); [lra|]. destruct (Rlt_dec (erf t) 0); [lra|].
  rewrite (Rabs_pos_eq (erf t) X0), !Rmult_1_r. eexists. split; [reflexivity|]. revert A0 N0. unfold approx. destruct (Rle_dec (erf t) (7 / 10)) as [L|L]; intros A0 N0.
  - destruct (low_near t T0 L) as (T1 & D). apply (newton_total t _ (16 / 1000) (75 / 100)); try lra; assumption.
  - destruct (high_near t T0 ltac:(lra)) as [(T1 & D)|(T1 & D)].
    + apply (newton_total t _ (65 / 10000) 2); try lra; assumption.
    + apply (newton_total t _ (5 / 1000) (59 / 10)); try lra; assumption.
Qed.
