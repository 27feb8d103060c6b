(* C105: the stand-alone cut_diagonal of library.py. *)
From Verif Require Import PyBase MatrixModel MatrixSpec FillProofs.
From Coq Require Import List.
Import ListNotations.

(* i is the first of the bins whose centre is nearest to e *)
Definition first_nearest (l : list Qc) (e : Qc) (i : nat) : Prop :=
  (i < length l)%nat /\
  (forall k, (k < length l)%nat -> qabs (nth i l 0 - e) <= qabs (nth k l 0 - e)) /\
  (forall k, (k < i)%nat -> qabs (nth i l 0 - e) < qabs (nth k l 0 - e)).
(* bin (r, c), row and column, lies above the line through the bins (y1, x1) and (y2, x2), x1 < x2 *)
Definition above (x1 y1 x2 y2 r c : nat) : Prop :=
  ((Z.of_nat y2 - Z.of_nat y1) * (Z.of_nat c - Z.of_nat x1) < (Z.of_nat r - Z.of_nat y1) * (Z.of_nat x2 - Z.of_nat x1))%Z.

Lemma argmin_spec all : forall l pre best ib i, all = pre ++ l -> i = length pre -> (ib < i)%nat -> nth ib all 0 = best ->
  (forall k, (k < i)%nat -> best <= nth k all 0) -> (forall k, (k < ib)%nat -> best < nth k all 0) ->
  let j := argmin_from best ib i l in
  (j < length all)%nat /\ (forall k, (k < length all)%nat -> nth j all 0 <= nth k all 0) /\ (forall k, (k < j)%nat -> nth j all 0 < nth k all 0).
Proof.
  induction l as [|x l IH]; intros pre best ib i E L B N H1 H2; cbn [argmin_from].
  - rewrite app_nil_r in E. subst pre. rewrite <- L. split; [exact B|]. rewrite N. split; assumption.
  - assert (NX : nth i all 0 = x) by (subst; rewrite app_nth2, Nat.sub_diag by lia; reflexivity).
    assert (E' : all = (pre ++ [x]) ++ l) by (rewrite <- app_assoc; exact E).
    assert (L' : S i = length (pre ++ [x])) by (rewrite app_length; cbn; lia).
    destruct (qltb_spec x best) as [Q|Q]; apply (IH (pre ++ [x])); try assumption; try lia.
    + intros k Hk. destruct (Nat.eq_dec k i) as [-> | NE]; [rewrite NX; qlra|]. specialize (H1 k ltac:(lia)). qlra.
    + intros k Hk. specialize (H1 k Hk). qlra.
    + intros k Hk. destruct (Nat.eq_dec k i) as [-> | NE]; [rewrite NX; qlra|]. apply H1. lia.
Qed.
Lemma nth_abs l e k : (k < length l)%nat -> nth k (map (fun x => qabs (x - e)) l) 0 = qabs (nth k l 0 - e).
Proof.
  intros H. rewrite nth_indep with (d' := (fun x => qabs (x - e)) 0) by (now rewrite map_length).
  exact (map_nth (fun x => qabs (x - e)) l 0 k).
Qed.
(* i_from_E finds the nearest bin, the first one of several *)
Theorem i_from_E_nearest : forall l e, (l = [] /\ i_from_E e l = Raise ValueError) \/
  (l <> [] /\ exists i, i_from_E e l = Ok i /\ first_nearest l e i).
Proof.
  intros l e. destruct l as [|x l]; [left; split; reflexivity|right]. split; [discriminate|].
  unfold i_from_E. cbn [map]. eexists. split; [reflexivity|].
  destruct (argmin_spec (map (fun y => qabs (y - e)) (x :: l)) (map (fun y => qabs (y - e)) l) [qabs (x - e)] (qabs (x - e)) 0 1) as (H1 & H2 & H3);
    try reflexivity; try lia.
  { intros k Hk. replace k with 0%nat by lia. cbn. qlra. }
  rewrite map_length in H1, H2. split; [exact H1|]. split.
  - intros k Hk. specialize (H2 k Hk). now rewrite !nth_abs in H2 by assumption.
  - intros k Hk. specialize (H3 k Hk). rewrite !nth_abs in H3 by lia. exact H3.
Qed.
Print Assumptions i_from_E_nearest.
Lemma first_nearest_unique l e i j : first_nearest l e i -> first_nearest l e j -> i = j.
Proof.
  intros (A1 & A2 & A3) (B1 & B2 & B3). destruct (Nat.lt_trichotomy i j) as [H|[H|H]]; [|exact H|].
  - specialize (B3 i H). specialize (A2 j B1). qlra.
  - specialize (A3 j H). specialize (B2 i A1). qlra.
Qed.
Lemma i_from_E_is l e i : first_nearest l e i -> i_from_E e l = Ok i.
Proof.
  intros F. destruct (i_from_E_nearest l e) as [(-> & _)|(_ & j & E & G)]; [destruct F as (F & _); cbn in F; lia|].
  now rewrite (first_nearest_unique l e i j F G).
Qed.

Lemma kept_above x1 y1 x2 y2 r c : (x1 < x2)%nat ->
  (qltb ((qnat y2 - qnat y1) / (qnat x2 - qnat x1) * qnat c + (qnat y1 - (qnat y2 - qnat y1) / (qnat x2 - qnat x1) * qnat x1)) (qnat r) = true <->
   above x1 y1 x2 y2 r c) /\
  (qltb ((qnat y1 - qnat y2) / (qnat x1 - qnat x2) * qnat c + (qnat y2 - (qnat y1 - qnat y2) / (qnat x1 - qnat x2) * qnat x2)) (qnat r) = true <->
   above x1 y1 x2 y2 r c).
Proof.
  intros L. assert (P : 0 < qnat x2 - qnat x1). { assert (qnat x1 < qnat x2) by (unfold qnat; apply (proj1 (qz_lt _ _)); lia). qlra. }
  set (w := qnat x2 - qnat x1) in *. set (s := (qnat y2 - qnat y1) / w).
  assert (S : s * w = qnat y2 - qnat y1). { unfold s. field. intros Z. rewrite Z in P. qlra. }
  assert (S2 : (qnat y1 - qnat y2) / (qnat x1 - qnat x2) = s).
  { unfold s, w. field. split; intros Z; unfold w in P; [assert (Y : qnat x2 - qnat x1 = 0) by exact Z; rewrite Y in P|assert (Y : qnat x2 - qnat x1 = 0) by qlra; rewrite Y in P]; qlra. }
  rewrite S2. 
  assert (AB : above x1 y1 x2 y2 r c <-> (qnat y2 - qnat y1) * (qnat c - qnat x1) < (qnat r - qnat y1) * w).
  { unfold above, w, qnat. rewrite <- !qz_sub, <- !qz_mul. apply qz_lt. }
  assert (EQ : qnat y2 - s * qnat x2 = qnat y1 - s * qnat x1). { assert (Z : s * qnat x2 - s * qnat x1 = s * w) by (unfold w; ring). qlra. }
  rewrite EQ, AB, !qltb_lt. rewrite <- S.
  assert (K : s * qnat c + (qnat y1 - s * qnat x1) < qnat r <-> s * w * (qnat c - qnat x1) < (qnat r - qnat y1) * w).
  { set (u := s * (qnat c - qnat x1)). assert (U1 : s * qnat c + (qnat y1 - s * qnat x1) = u + qnat y1) by (unfold u; ring).
    assert (U2 : s * w * (qnat c - qnat x1) = u * w) by (unfold u; ring). rewrite U1, U2. split; intros H.
    - assert (Z : u < qnat r - qnat y1) by qlra. clear - Z P. qnra.
    - assert (Z : u < qnat r - qnat y1); [|qlra]. clear - H P.
      destruct (Qclt_le_dec u (qnat r - qnat y1)) as [Y|Y]; [exact Y|exfalso]. assert (X : (qnat r - qnat y1) * w <= u * w) by qnra. qlra. }
  split; exact K.
Qed.
Section Cut.
Variables (v : arr2) (Exa Ega : list Qc).
Hypothesis SH : shaped v (length Exa) (length Ega).
Lemma shape_ok : pair_eqb (shape v) (length Exa, length Ega) = true.
Proof. destruct SH as (H1 & H2 & _). unfold pair_eqb, shape, a_nr. cbn [fst snd]. now rewrite H1, H2, !Nat.eqb_refl. Qed.
Lemma shaped_mtab nr nc f : shaped (mkArr nc (mtab nr nc f)) nr nc.
Proof. split; [reflexivity|]. cbn [a_rows]. unfold mtab. split; [apply tab_length|]. intros r Hr. apply in_tab in Hr as (i & _ & ->). apply tab_length. Qed.
Lemma aget_mtab nr nc f r c : (r < nr)%nat -> (c < nc)%nat -> aget (mkArr nc (mtab nr nc f)) r c = f r c.
Proof. intros Hr Hc. unfold aget, mget, vget, mtab. cbn [a_rows]. rewrite nth_tab by exact Hr. now rewrite nth_tab. Qed.
End Cut.

(* counts strictly above the line are kept, all others are removed, in both orders of the points *)
Theorem lib_cut_keeps_above : forall v Exa Ega P1 P2 x1 y1 x2 y2, shaped v (length Exa) (length Ega) ->
  first_nearest Ega (snd P1) x1 -> first_nearest Exa (fst P1) y1 -> first_nearest Ega (snd P2) x2 -> first_nearest Exa (fst P2) y2 ->
  (x1 < x2)%nat ->
  exists w, lib_cut_diagonal v Exa Ega P1 P2 = Ok w /\ lib_cut_diagonal v Exa Ega P2 P1 = Ok w /\ shaped w (length Exa) (length Ega) /\
  forall r c, (r < length Exa)%nat -> (c < length Ega)%nat ->
    (above x1 y1 x2 y2 r c -> aget w r c = aget v r c) /\ (~ above x1 y1 x2 y2 r c -> aget w r c = 0).
Proof.
  intros v Exa Ega P1 P2 x1 y1 x2 y2 SH X1 Y1 X2 Y2 L.
  assert (N : Nat.eqb x1 x2 = false) by (apply Nat.eqb_neq; lia). assert (N' : Nat.eqb x2 x1 = false) by (apply Nat.eqb_neq; lia).
  unfold lib_cut_diagonal. rewrite (i_from_E_is _ _ _ X1), (i_from_E_is _ _ _ Y1), (i_from_E_is _ _ _ X2), (i_from_E_is _ _ _ Y2).
  cbn [rbind]. rewrite N, N', (shape_ok v Exa Ega SH). pose proof SH as (H1 & H2 & _). unfold a_nr. rewrite H1, H2.
  eexists. split; [reflexivity|]. split.
  - do 2 f_equal. unfold mtab, tab. apply map_ext. intros r. apply map_ext. intros c.
    pose proof (kept_above x1 y1 x2 y2 r c L) as (K1 & K2).
    destruct (qltb ((qnat y1 - qnat y2) / _ * _ + _) _) eqn:A, (qltb ((qnat y2 - qnat y1) / _ * _ + _) _) eqn:B; try reflexivity; exfalso.
    + assert (X : true = true) by reflexivity. apply K2 in X. apply K1 in X. discriminate.
    + assert (X : true = true) by reflexivity. apply K1 in X. apply K2 in X. discriminate.
  - split; [apply shaped_mtab|]. intros r c Hr Hc. rewrite aget_mtab by assumption. pose proof (kept_above x1 y1 x2 y2 r c L) as (K1 & _).
    split; intros A; destruct (qltb ((qnat y2 - qnat y1) / _ * _ + _) _); try reflexivity; exfalso.
    + apply K1 in A. discriminate.
    + apply A, K1. reflexivity.
Qed.
Print Assumptions lib_cut_keeps_above.
(* a line through two points of the same gamma-energy bin removes everything *)
Theorem lib_cut_vertical : forall v Exa Ega P1 P2 x y1 y2, shaped v (length Exa) (length Ega) ->
  first_nearest Ega (snd P1) x -> first_nearest Exa (fst P1) y1 -> first_nearest Ega (snd P2) x -> first_nearest Exa (fst P2) y2 ->
  exists w, lib_cut_diagonal v Exa Ega P1 P2 = Ok w /\ shaped w (length Exa) (length Ega) /\
  forall r c, (r < length Exa)%nat -> (c < length Ega)%nat -> aget w r c = 0.
Proof.
  intros v Exa Ega P1 P2 x y1 y2 SH X1 Y1 X2 Y2.
  unfold lib_cut_diagonal. rewrite (i_from_E_is _ _ _ X1), (i_from_E_is _ _ _ Y1), (i_from_E_is _ _ _ X2), (i_from_E_is _ _ _ Y2).
  cbn [rbind]. rewrite Nat.eqb_refl, (shape_ok v Exa Ega SH). pose proof SH as (H1 & H2 & _). unfold a_nr. rewrite H1, H2.
  eexists. split; [reflexivity|]. split; [apply shaped_mtab|]. intros r c Hr Hc. now rewrite aget_mtab.
Qed.
Print Assumptions lib_cut_vertical.
(* empty axes and values that do not fit the axes are refused *)
Theorem lib_cut_rejects : forall v Exa Ega P1 P2, Exa = [] \/ Ega = [] \/ shape v <> (length Exa, length Ega) ->
  lib_cut_diagonal v Exa Ega P1 P2 = Raise ValueError.
Proof.
  intros v Exa Ega P1 P2 H. unfold lib_cut_diagonal.
  destruct (i_from_E_nearest Ega (snd P1)) as [(-> & ->)|(NG & x1 & -> & _)]; [reflexivity|]. cbn [rbind].
  destruct (i_from_E_nearest Exa (fst P1)) as [(-> & ->)|(NX & y1 & -> & _)]; [reflexivity|]. cbn [rbind].
  destruct (i_from_E_nearest Ega (snd P2)) as [(-> & ->)|(_ & x2 & -> & _)]; [reflexivity|]. cbn [rbind].
  destruct (i_from_E_nearest Exa (fst P2)) as [(-> & ->)|(_ & y2 & -> & _)]; [reflexivity|]. cbn [rbind].
  destruct (pair_eqb (shape v) (length Exa, length Ega)) eqn:E; [|reflexivity]. exfalso.
  destruct H as [H|[H|H]]; [contradiction|contradiction|]. apply H. unfold pair_eqb in E. cbn [fst snd] in E.
  apply andb_true_iff in E as (A & B). apply Nat.eqb_eq in A, B. destruct (shape v). cbn in *. congruence.
Qed.
Print Assumptions lib_cut_rejects.

(* a 3 x 3 matrix cut along its diagonal, and with a vertical line *)
Example lc_v : arr2 := mkArr 3 [ql [1; 2; 3]; ql [4; 5; 6]; ql [7; 8; 9]]%Z.
Example lc_E : list Qc := ql [10; 20; 30]%Z.
Example lc_diagonal : lib_cut_diagonal lc_v lc_E lc_E (qz 11, qz 9) (qz 31, qz 29) = Ok (mkArr 3 [ql [0; 0; 0]; ql [4; 0; 0]; ql [7; 8; 0]]%Z) /\
  lib_cut_diagonal lc_v lc_E lc_E (qz 10, qz 11) (qz 30, qz 9) = Ok (mkArr 3 [ql [0; 0; 0]; ql [0; 0; 0]; ql [0; 0; 0]]%Z) /\
  above 0 0 2 2 1 0 /\ ~ above 0 0 2 2 1 1 /\ shaped lc_v (length lc_E) (length lc_E).
Proof.
  split; [vm_compute; reflexivity|]. split; [vm_compute; reflexivity|]. split; [unfold above; lia|]. split; [unfold above; lia|].
  split; [reflexivity|]. split; [reflexivity|]. intros r [<- | [<- | [<- | []]]]; reflexivity.
Qed.
