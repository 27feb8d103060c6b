(* Lemmas on FirstGeneration.allgen_from_primary. *)
From Verif Require Import PyBase Axis MatrixModel MatrixSpec MatrixOpsProofs VectorModel VectorOpsProofs ArithModel ArithProofs FirstGenModel FirstGenSpec FirstGenProofs.

Section Inner.
Variables (i nc : nat) (xi : Qc) (wi xs : list Qc) (ag : list (list Qc)).
Hypothesis LW : length wi = nc.
Hypothesis LA : forall r, In r ag -> length r = nc.
Hypothesis LI : length ag = i.

(* rows below i *)
Lemma inner_low len : forall a rest cur, (a + len <= i)%nat -> (a + len <= nc)%nat -> (a + len <= length xs)%nat -> length cur = nc ->
  exists cur', ag_inner i xi wi xs nc ag (seq a len ++ rest) cur = ag_inner i xi wi xs nc ag rest cur' /\ length cur' = nc /\
  forall p, (p < nc)%nat -> vget cur' p = vget cur p + sumn len (fun k => xi * vget wi (a + k) * div0 (mget ag (a + k) p) (vget xs (a + k))).
Proof.
  induction len as [|len IH]; intros a rest cur H1 H2 H3 LC.
  - exists cur. split; [reflexivity|]. split; [exact LC|]. intros p Hp. cbn [sumn]. ring.
  - cbn [seq app ag_inner].
    destruct (Nat.ltb_spec a (length wi)); [|lia]. destruct (Nat.ltb_spec a (length xs)); [|lia]. cbn [negb].
    destruct (Nat.ltb_spec a i); [|lia]. set (cur1 := map2 _ cur (nth a ag [])).
    assert (LR : length (nth a ag []) = nc) by (apply LA, nth_In; lia).
    assert (L1 : length cur1 = nc) by (unfold cur1; rewrite map2_length; congruence).
    destruct (IH (S a) rest cur1) as (cur' & E & L' & V); try lia. exists cur'. split; [exact E|]. split; [exact L'|].
    intros p Hp. rewrite V by exact Hp. rewrite sumn_S_l. rewrite Nat.add_0_r.
    assert (V1 : vget cur1 p = vget cur p + xi * vget wi a * div0 (mget ag a p) (vget xs a)).
    { unfold cur1, vget at 1. rewrite (map2_nth _ _ _ _ 0 0) by congruence. reflexivity. }
    rewrite V1. rewrite <- Qcplus_assoc. f_equal. f_equal. apply sumn_ext. intros k Hk. now rewrite Nat.add_succ_comm.
Qed.
(* rows above i: no weight *)
Lemma inner_high len : forall a cur, (i < a)%nat -> (a + len <= nc)%nat -> (a + len <= length xs)%nat -> length cur = nc ->
  (forall k, (i < k < nc)%nat -> vget wi k = 0) -> ag_inner i xi wi xs nc ag (seq a len) cur = Ok cur.
Proof.
  induction len as [|len IH]; intros a cur H1 H2 H3 LC Z; [reflexivity|]. cbn [seq ag_inner].
  destruct (Nat.ltb_spec a (length wi)); [|lia]. destruct (Nat.ltb_spec a (length xs)); [|lia]. cbn [negb].
  destruct (Nat.ltb_spec a i); [lia|]. destruct (Nat.eqb_spec a i); [lia|].
  replace (map2 _ cur _) with cur; [apply IH; auto; lia|]. apply list_eq_nth with (d := 0).
  - rewrite map2_length; [reflexivity|]. now rewrite map_length, seq_length.
  - intros p Hp. rewrite (map2_nth _ _ _ _ 0 0) by (try rewrite map_length, seq_length; congruence). rewrite Z by lia. ring.
Qed.
Lemma inner_all n cur : (i < n)%nat -> (n <= nc)%nat -> (n <= length xs)%nat -> length cur = nc -> (forall k, (i < k < nc)%nat -> vget wi k = 0) ->
  exists row, ag_inner i xi wi xs nc ag (seq 0 n) cur = Ok row /\ length row = nc /\
  forall p, (p < nc)%nat -> let s := vget cur p + sumn i (fun k => xi * vget wi k * div0 (mget ag k p) (vget xs k)) in
    vget row p = s + xi * vget wi i * div0 s (vget xs i).
Proof.
  intros H1 H2 H3 LC Z. replace n with (i + (1 + (n - S i)))%nat by lia. rewrite seq_app.
  destruct (inner_low i 0 (seq (0 + i) (1 + (n - S i))) cur) as (c1 & E & L1 & V); try lia. rewrite E. cbn [plus seq ag_inner].
  destruct (Nat.ltb_spec i (length wi)); [|lia]. destruct (Nat.ltb_spec i (length xs)); [|lia]. cbn [negb].
  rewrite Nat.ltb_irrefl, Nat.eqb_refl. set (c2 := map2 _ c1 c1). assert (L2 : length c2 = nc) by (unfold c2; rewrite map2_length; congruence).
  exists c2. split; [apply inner_high; auto; lia|]. split; [exact L2|]. intros p Hp. cbv zeta. unfold c2, vget at 1. rewrite (map2_nth _ _ _ _ 0 0) by congruence.
  change (nth p c1 0) with (vget c1 p). rewrite V by exact Hp. cbn [plus]. reflexivity.
Qed.
End Inner.

Section Outer.
Variables (v : arr2) (xs : list Qc) (n nc : nat).
Hypothesis SV : shaped v n nc.
Hypothesis NN : (n <= nc)%nat.
Hypothesis LX : length xs = n.
Lemma ag_weights_row i : (i < n)%nat -> length (nth i (ag_weights v) []) = nc /\
  (forall k, (k <= i)%nat -> vget (nth i (ag_weights v) []) k = branching v i k) /\
  (forall k, (i < k < nc)%nat -> vget (nth i (ag_weights v) []) k = 0).
Proof.
  intros Hi. destruct SV as (C1 & C2 & C3). unfold ag_weights, normalize_rows, a_nr. rewrite C1, C2, map_map.
  rewrite (map_nth_in _ _ _ (0%nat, [])) by (rewrite combine_length, seq_length; lia).
  rewrite combine_nth by (rewrite seq_length; congruence). rewrite seq_nth by exact Hi. cbn [plus].
  set (w := tab nc _). assert (LW : length w = nc) by apply tab_length.
  assert (VW : forall k, (k < nc)%nat -> vget w k = if (k <=? i)%nat then aget v i (i - k) else 0).
  { intros k Hk. unfold w, vget at 1. rewrite nth_tab by exact Hk. destruct (Nat.leb_spec k i); [|reflexivity].
    unfold aget, mget. f_equal. lia. }
  assert (SW : qsum w = sumn (S i) (fun l => aget v i l)).
  { rewrite qsum_nth, LW. replace nc with (S i + (nc - S i))%nat by lia. rewrite sumn_plus.
    replace (sumn (nc - S i) _) with 0.
    2:{ symmetry. apply sumn_0. intros k Hk. rewrite VW by lia. destruct (Nat.leb_spec (S i + k) i); [lia|reflexivity]. }
    rewrite Qcplus_0_r.
    assert (REV : forall q f, sumn (S q) (fun k => f (q - k)%nat) = sumn (S q) f).
    { clear. induction q as [|q IH]; intros f; [reflexivity|]. rewrite sumn_S_l. cbn [sumn] in IH |- *.
      replace (S q - 0)%nat with (S q) by lia. rewrite <- (IH f). rewrite Qcplus_comm. cbn [sumn]. f_equal. }
    rewrite <- (REV i (fun l => aget v i l)). apply sumn_ext. intros k Hk. rewrite VW by lia. destruct (Nat.leb_spec k i); [reflexivity|lia]. }
  split; [now rewrite map_length|]. split; intros k Hk; unfold vget at 1; rewrite (map_nth_in _ _ _ 0) by lia; rewrite SW; fold (vget w k); rewrite VW by lia.
  - destruct (Nat.leb_spec k i); [reflexivity|lia].
  - destruct (Nat.leb_spec k i); [lia|]. unfold div0. destruct (qeqb _ 0); [reflexivity|]. unfold Qcdiv. ring.
Qed.
(* what one row is, given the rows below *)
Definition ag_row (A : nat -> nat -> Qc) (i p : nat) : Qc :=
  let s := div0 (aget v i p) (sumn nc (aget v i)) * vget xs i + sumn i (fun k => vget xs i * branching v i k * div0 (A k p) (vget xs k)) in
  if Nat.eqb i 0 then s else s + vget xs i * branching v i i * div0 s (vget xs i).
Lemma ag_outer_lemma : forall rows i ag, a_rows v = firstn i (a_rows v) ++ rows -> length (firstn i (a_rows v)) = i -> length ag = i -> (forall r, In r ag -> length r = nc) ->
  (forall r p, (r < i)%nat -> (p < nc)%nat -> mget ag r p = ag_row (mget ag) r p) ->
  exists out, ag_outer n nc (ag_weights v) xs i rows ag = Ok out /\ length out = n /\ (forall r, In r out -> length r = nc) /\
    forall r p, (r < n)%nat -> (p < nc)%nat -> mget out r p = ag_row (mget out) r p.
Proof.
  destruct SV as (C1 & C2 & C3).
  assert (EXT : forall A B r p, (forall k, (k < r)%nat -> A k p = B k p) -> ag_row A r p = ag_row B r p).
  { intros A B r p H. unfold ag_row. cbv zeta.
    replace (sumn r (fun k => vget xs r * branching v r k * div0 (A k p) (vget xs k))) with (sumn r (fun k => vget xs r * branching v r k * div0 (B k p) (vget xs k))); [reflexivity|].
    apply sumn_ext. intros k Hk. now rewrite H. }
  induction rows as [|r rows IH]; intros i ag ER LI LA RA F.
  - exists ag. cbn [ag_outer]. split; [reflexivity|]. rewrite app_nil_r in ER. assert (i = n) by (rewrite <- C2, ER; congruence). rewrite <- H. split; [exact LA|]. split; [exact RA|exact F].
  - cbn [ag_outer]. assert (LL : (i + S (length rows))%nat = n).
    { rewrite <- C2. rewrite ER. rewrite app_length, LI. reflexivity. }
    destruct (Nat.ltb_spec i (length xs)); [|lia]. cbn [negb]. cbv zeta.
    assert (Rr : nth i (a_rows v) [] = r).
    { rewrite ER. rewrite app_nth2 by lia. rewrite LI, Nat.sub_diag. reflexivity. }
    assert (Lr : length r = nc) by (rewrite <- Rr; apply C3, nth_In; lia).
    assert (Sr : qsum r = sumn nc (aget v i)).
    { rewrite qsum_nth, Lr. apply sumn_ext. intros k Hk. unfold aget, mget. now rewrite Rr. }
    set (base := map _ r). assert (LB : length base = nc) by (unfold base; now rewrite map_length).
    assert (VB : forall p, (p < nc)%nat -> vget base p = div0 (aget v i p) (sumn nc (aget v i)) * vget xs i).
    { intros p Hp. unfold base, vget at 1. rewrite (map_nth_in _ _ _ 0) by lia. rewrite Sr. unfold aget, mget, vget. now rewrite Rr. }
    destruct (ag_weights_row i ltac:(lia)) as (W1 & W2 & W3).
    assert (ROW : exists row, (if Nat.eqb i 0 then Ok base else ag_inner i (vget xs i) (nth i (ag_weights v) []) xs nc ag (seq 0 n) base) = Ok row /\
      length row = nc /\ forall p, (p < nc)%nat -> vget row p = ag_row (mget ag) i p).
    { unfold ag_row. cbv zeta. destruct (Nat.eqb_spec i 0) as [I0|I0].
      - exists base. split; [reflexivity|]. split; [exact LB|]. intros p Hp. rewrite VB by exact Hp. rewrite I0. cbn [sumn]. ring.
      - destruct (inner_all i nc (vget xs i) (nth i (ag_weights v) []) xs ag W1 RA LA n base ltac:(lia) NN ltac:(lia) LB W3) as (row & E & L & V).
        exists row. split; [exact E|]. split; [exact L|]. intros p Hp. rewrite V by exact Hp. rewrite VB by exact Hp. rewrite (W2 i) by lia.
        replace (sumn i (fun k => vget xs i * vget (nth i (ag_weights v) []) k * div0 (mget ag k p) (vget xs k)))
          with (sumn i (fun k => vget xs i * branching v i k * div0 (mget ag k p) (vget xs k))); [reflexivity|].
        apply sumn_ext. intros k Hk. now rewrite W2 by lia. }
    destruct ROW as (row & -> & Lrow & Vrow). cbn [rbind].
    assert (OLD : forall k p, (k < i)%nat -> mget (ag ++ [row]) k p = mget ag k p) by (intros; unfold mget; now rewrite app_nth1 by lia).
    apply IH.
    + replace (S i) with (i + 1)%nat by lia. rewrite <- (firstn_skipn i (a_rows v)) at 2. rewrite firstn_app. rewrite LI.
      rewrite firstn_all2 by lia. replace (i + 1 - i)%nat with 1%nat by lia.
      assert (SK : skipn i (a_rows v) = r :: rows). { rewrite ER. rewrite skipn_app. rewrite skipn_all2 by lia. rewrite LI, Nat.sub_diag. reflexivity. }
      rewrite SK. cbn [firstn]. rewrite <- app_assoc. exact ER.
    + rewrite firstn_length. lia.
    + rewrite app_length. cbn. lia.
    + intros q Hq. apply in_app_or in Hq as [Hq|[<-|[]]]; auto.
    + intros q p Hq Hp. destruct (Nat.eq_dec q i) as [->|NE].
      * unfold mget at 1. rewrite app_nth2 by lia. rewrite LA, Nat.sub_diag. cbn [nth]. rewrite Vrow by exact Hp. apply EXT. intros; symmetry; now apply OLD.
      * rewrite OLD by lia. rewrite F by lia. apply EXT. intros; symmetry; apply OLD; lia.
Qed.
End Outer.
Lemma allgen_lemma fg xs : consistent fg -> (length (Ex fg) <= length (Eg fg))%nat -> length (population fg xs) = length (Ex fg) ->
  exists ag, allgen fg xs = Ok ag /\ consistent ag /\ Eg ag = Eg fg /\ Ex ag = Ex fg /\
  forall i p, (i < length (Ex fg))%nat -> (p < length (Eg fg))%nat ->
    aget (values ag) i p = ag_row (values fg) (population fg xs) (length (Eg fg)) (aget (values ag)) i p.
Proof.
  intros [SV SS] NN LX. unfold allgen. cbv zeta. fold (population fg xs). pose proof SV as (C1 & C2 & C3). rewrite C1.
  destruct (ag_outer_lemma (values fg) (population fg xs) (length (Ex fg)) (length (Eg fg)) SV NN LX (a_rows (values fg)) 0 []) as (out & E & L & R & F); try reflexivity.
  - intros r [].
  - lia.
  - rewrite E. cbn [rbind]. eexists. split; [reflexivity|]. cbn [with_values values Ex Eg std]. split; [|auto].
    split; [|exact SS]. cbn. unfold shaped. cbn [a_nc a_rows]. auto.
Qed.
Lemma allgen_rows_lemma fg xs : consistent fg -> (2 <= length (Ex fg))%nat -> (length (Eg fg) < length (Ex fg))%nat -> allgen fg xs = Raise IndexError.
Proof.
  intros [(C1 & C2 & C3) _] N2 LT. unfold allgen. cbv zeta. set (x := match xs with Some _ => _ | None => _ end). set (n := length (Ex fg)) in *.
  assert (LW : forall i, (length (nth i (ag_weights (values fg)) []) <= length (Eg fg))%nat).
  { intros i. destruct (le_lt_dec (length (ag_weights (values fg))) i) as [G|G]; [rewrite nth_overflow by exact G; cbn; lia|].
    unfold ag_weights, normalize_rows in *. rewrite !map_length in G. rewrite map_map. rewrite (map_nth_in _ _ _ (0%nat, [])) by exact G.
    destruct (nth i _ _) as [a b]. rewrite map_length, tab_length. lia. }
  assert (INN : forall i xi wi ag js cur, (length wi <= length (Eg fg))%nat -> In (length (Eg fg)) js -> ag_inner i xi wi x (a_nc (values fg)) ag js cur = Raise IndexError).
  { intros i xi wi ag js. induction js as [|j js IH]; intros cur HL HI; [destruct HI|]. cbn [ag_inner].
    destruct (Nat.ltb_spec j (length wi)); [|reflexivity]. cbn [negb]. destruct (Nat.ltb_spec j (length x)); [|reflexivity]. cbn [negb].
    destruct HI as [->|HI]; [lia|]. cbv zeta. now apply IH. }
  destruct (a_rows (values fg)) as [|r0 [|r1 rs]] eqn:ER; [cbn in C2; lia|cbn in C2; lia|]. cbn [ag_outer].
  destruct (negb (0 <? length x)%nat); [reflexivity|]. cbv zeta. cbn [Nat.eqb rbind]. destruct (negb (1 <? length x)%nat); [reflexivity|].
  rewrite INN; [reflexivity|apply LW|]. apply in_seq. fold n. lia.
Qed.
