(* Whole programs, and the agreement with the models of the single methods. *)
From Verif Require Import PyBase Axis RebinModel MatrixModel MatrixRunModel VectorModel FillModel ArithModel CutProofs MatrixSpec MatrixOpsProofs MatrixRebinProofs MatrixRunProofs AliasModel AliasSpec AliasProofs AliasStep.
Local Open Scope nat_scope.

Section Oracles.
Variable expf : Qc -> Qc.
Variable sqrtf : Qc -> Qc.
Variable gauss : nat -> nat -> Qc.
Variable argsort : list Qc -> list nat.
Local Notation veffect := (veffect expf sqrtf).
Local Notation meffect := (meffect gauss argsort).
Local Notation step := (step expf sqrtf gauss argsort).
Local Notation run := (run expf sqrtf gauss argsort).

Lemma in_upd {A} (l : list A) i x y : In y (upd l i x) -> y = x \/ In y l.
Proof. revert i; induction l as [|a l IH]; intros [|i]; cbn; auto; intros [->|H]; auto. apply IH in H as [->|H]; auto. Qed.
Lemma step_valid s o s' r : valid s -> step s o = (s', r) -> valid s'.
Proof.
  intros V H. destruct (step_kind expf sqrtf gauss argsort _ _ _ _ V H) as [->|[(_ & G & os & E & F & _)|(i & _ & ob & ob' & N & G & E & F & _)]]; [exact V| |].
  - intros x c Hx Hc. rewrite E, in_app_iff in Hx. destruct Hx as [Hx|Hx].
    + specialize (V x c Hx Hc). apply grows_le in G. lia.
    + apply F. unfold ocells_of. apply in_concat. exists (cells x). split; [now apply in_map|exact Hc].
  - intros x c Hx Hc. rewrite E in Hx. apply in_upd in Hx as [->|Hx]; [now apply F|]. specialize (V x c Hx Hc). apply grows_le in G. lia.
Qed.
Definition target_cells (s : heap) (o : op) : list nat :=
  match operates_on o with Some i => var_cells s i | None => [] end.
Lemma step_grows s o s' r : valid s -> step s o = (s', r) -> grows (target_cells s o) (mem s) (mem s').
Proof.
  intros V H. unfold target_cells. destruct (step_kind expf sqrtf gauss argsort _ _ _ _ V H) as [->|[(-> & G & _)|(i & -> & ob & ob' & N & G & _)]]; [apply grows_refl|exact G|].
  unfold var_cells. rewrite N. exact G.
Qed.
Lemma step_binding s o s' r j ob : valid s -> step s o = (s', r) -> operates_on o <> Some j -> nth_error (objs s) j = Some ob -> nth_error (objs s') j = Some ob.
Proof.
  intros V H T N. assert (L : j < length (objs s)) by (apply nth_error_Some; congruence).
  destruct (step_kind expf sqrtf gauss argsort _ _ _ _ V H) as [->|[(_ & _ & os & E & _)|(i & Q & x & x' & _ & _ & E & _)]]; [exact N| |]; rewrite E.
  - now rewrite nth_error_app1.
  - rewrite nth_error_upd. destruct (Nat.eqb_spec j i) as [->|]; [congruence|exact N].
Qed.
Lemma step_bound s o s' r : valid s -> step s o = (s', r) -> length (objs s) <= length (objs s').
Proof.
  intros V H. destruct (step_kind expf sqrtf gauss argsort _ _ _ _ V H) as [->|[(_ & _ & os & E & _)|(i & _ & x & x' & _ & _ & E & _)]]; [lia| |]; rewrite E.
  - rewrite app_length. lia.
  - now rewrite upd_length.
Qed.
Lemma get_o h h' a own : grows own h h' -> fit h (ocells a) -> (forall c, In c (ocells a) -> In c own -> False) -> option_map (get h') a = option_map (get h) a.
Proof. destruct a as [a|]; cbn; [|auto]. intros G F D. f_equal. eapply grows_get; eauto. Qed.
Lemma get_o2 h h' a own : grows own h h' -> fit h (ocells2 a) -> (forall c, In c (ocells2 a) -> In c own -> False) -> option_map (get2 h') a = option_map (get2 h) a.
Proof. destruct a as [a|]; cbn; [|auto]. intros G F D. f_equal. eapply grows_get2; eauto. Qed.
Lemma show_frame own h h' o : grows own h h' -> fit h (cells o) -> (forall c, In c (cells o) -> In c own -> False) -> show h' o = show h o.
Proof.
  intros G F D. destruct o as [a|a|v|m]; cbn [show cells] in *.
  - f_equal. eapply grows_get; eauto.
  - f_equal. eapply grows_get2; eauto.
  - f_equal. unfold look_vec, vcells in *. f_equal; [eapply grows_get|eapply grows_get|eapply get_o]; try exact G;
      (intros c Hc; first [apply F|apply D]; rewrite !in_app_iff; auto).
  - f_equal. unfold look_mat, mcells in *. f_equal; [eapply grows_get2|eapply grows_get|eapply grows_get|eapply get_o2]; try exact G;
      (intros c Hc; first [apply F|apply D]; rewrite !in_app_iff; auto).
Qed.

(* --- separation -------------------------------------------------------------------------- *)
Lemma part_nodup (P : nat -> Prop) a b c b' : NoDup (a ++ b ++ c) -> part P b b' -> (forall x, P x -> ~ In x a /\ ~ In x c) -> NoDup (a ++ b' ++ c).
Proof.
  intros N [Np Ip] D. apply nodup_app in N as (Na & N & D1). apply nodup_app in N as (Nb & Nc & D2).
  assert (K : forall x, In x b' -> (In x a -> False) /\ (In x c -> False)).
  { intros x Hx. apply Ip in Hx as [Hx|Hx]; [split; intros H; [eapply D1; [exact H|]; rewrite in_app_iff; auto|eauto]|]. apply D in Hx. tauto. }
  apply nodup_app. split; [exact Na|]. split.
  - apply nodup_app. split; [auto|]. split; [exact Nc|]. intros x H1 H2. apply K in H1. tauto.
  - intros x H1 H2. rewrite in_app_iff in H2. destruct H2 as [H2|H2]; [apply K in H2; tauto|]. eapply D1; [exact H1|]. rewrite in_app_iff. auto.
Qed.
Lemma upd_app {A} (l1 l2 : list A) x y : upd (l1 ++ x :: l2) (length l1) y = l1 ++ y :: l2.
Proof. induction l1; cbn; congruence. Qed.
Lemma separate_touched s s' i : separate s -> touched true s s' i -> separate s'.
Proof.
  intros [V N] (o & o' & H & G & E & F & P). specialize (P eq_refl). split.
  - intros x c Hx Hc. rewrite E in Hx. apply in_upd in Hx as [->|Hx]; [now apply F|]. specialize (V x c Hx Hc). apply grows_le in G. lia.
  - rewrite E. destruct (nth_error_split _ _ H) as (l1 & l2 & El & <-). rewrite El in *. rewrite upd_app.
    rewrite map_app, concat_app in *. cbn [map concat] in *. eapply part_nodup; [exact N|exact P|]. cbn beta.
    intros x Hx. split; intros I; apply in_concat in I as (ys & Hys & Hx'); apply in_map_iff in Hys as (ob & <- & Hob);
      (assert (x < length (mem s)) by (apply (V ob x); [rewrite El, in_app_iff; cbn; auto|exact Hx'])); lia.
Qed.
Lemma separate_made s s' : separate s -> made true s s' -> separate s'.
Proof.
  intros [V N] (G & os & E & F & FR). specialize (FR eq_refl) as [NF IF]. split.
  - intros x c Hx Hc. rewrite E, in_app_iff in Hx. destruct Hx as [Hx|Hx].
    + specialize (V x c Hx Hc). apply grows_le in G. lia.
    + apply F. unfold ocells_of. apply in_concat. exists (cells x). split; [now apply in_map|exact Hc].
  - rewrite E, map_app, concat_app. apply nodup_app. split; [exact N|]. split; [exact NF|]. intros c H1 H2. apply IF in H2.
    apply in_concat in H1 as (ys & Hys & Hx'). apply in_map_iff in Hys as (ob & <- & Hob). specialize (V ob c Hob Hx'). lia.
Qed.
Lemma step_separate s o s' r : separate s -> shares o = false -> step s o = (s', r) -> separate s'.
Proof.
  intros S H E. destruct (step_kind expf sqrtf gauss argsort _ _ _ _ (proj1 S) E) as [->|[(_ & M)|(i & _ & T)]]; [exact S| |]; rewrite H in *.
  - eapply separate_made; eauto.
  - eapply separate_touched; eauto.
Qed.
Lemma start_separate : separate start.
Proof. split; [intros o c []|constructor]. Qed.
Lemma run_separate p : forall s, separate s -> forallb (fun o => negb (shares o)) p = true -> separate (run s p).
Proof.
  induction p as [|o p IH]; intros s S H; cbn [AliasModel.run]; [exact S|]. cbn [forallb] in H. apply andb_prop in H as [H1 H2]. apply negb_true_iff in H1.
  apply IH; [|exact H2]. destruct (step s o) as [s' r] eqn:E. cbn [fst]. eapply step_separate; eauto.
Qed.
Lemma run_valid p : forall s, valid s -> valid (run s p).
Proof.
  induction p as [|o p IH]; intros s S; cbn [AliasModel.run]; [exact S|]. apply IH. destruct (step s o) as [s' r] eqn:E. cbn [fst]. eapply step_valid; eauto.
Qed.
Lemma disjoint_vars s i j oi oj c : separate s -> nth_error (objs s) i = Some oi -> nth_error (objs s) j = Some oj -> i <> j -> In c (cells oi) -> In c (cells oj) -> False.
Proof.
  intros [_ N] Hi Hj D Ci Cj. revert i j Hi Hj D N. generalize (objs s) as l. induction l as [|x l IH]; intros i j Hi Hj D N; [destruct i; discriminate|].
  cbn [map concat] in N. apply nodup_app in N as (_ & N & K). destruct i, j; cbn in Hi, Hj; [congruence| | |eapply (IH i j); eauto].
  - injection Hi as ->. apply (K c Ci). apply in_concat. exists (cells oj). split; [apply in_map; eapply nth_error_In; eauto|exact Cj].
  - injection Hj as ->. apply (K c Cj). apply in_concat. exists (cells oi). split; [apply in_map; eapply nth_error_In; eauto|exact Ci].
Qed.
Lemma step_show s o s' r j : separate s -> step s o = (s', r) -> operates_on o <> Some j -> j < length (objs s) -> shows s' j = shows s j.
Proof.
  intros S E T L. destruct (nth_error (objs s) j) as [ob|] eqn:N; [|apply nth_error_None in N; lia].
  unfold shows. rewrite N, (step_binding _ _ _ _ _ _ (proj1 S) E T N). cbn [option_map]. f_equal.
  eapply show_frame; [exact (step_grows _ _ _ _ (proj1 S) E)|eapply valid_fit; [exact (proj1 S)|exact N]|].
  intros c Hc Ht. unfold target_cells in Ht. destruct (operates_on o) as [i|]; [|exact Ht]. unfold var_cells in Ht. destruct (nth_error (objs s) i) as [oi|] eqn:Ni; [|exact Ht].
  eapply (disjoint_vars s i j); eauto.
Qed.
Lemma run_show p : forall s j, separate s -> j < length (objs s) -> forallb (fun o => negb (shares o)) p = true ->
  (forall o, In o p -> operates_on o <> Some j) -> shows (run s p) j = shows s j.
Proof.
  induction p as [|o p IH]; intros s j S L H T; cbn [AliasModel.run]; [reflexivity|].
  cbn [forallb] in H. apply andb_prop in H as [H1 H2]. apply negb_true_iff in H1. destruct (step s o) as [s' r] eqn:E. cbn [fst].
  rewrite IH; [| |pose proof (step_bound _ _ _ _ (proj1 S) E); lia|exact H2|intros q Hq; apply T; now right].
  - eapply step_show; eauto. apply T; now left.
  - eapply step_separate; eauto.
Qed.
(* without any assumption on sharing: the cells of an object change only through statements
   whose target owns them at that moment *)
Lemma step_show_any s o s' r j : valid s -> step s o = (s', r) -> operates_on o <> Some j -> j < length (objs s) ->
  (forall c, In c (var_cells s j) -> In c (target_cells s o) -> False) -> shows s' j = shows s j.
Proof.
  intros S E T L D. destruct (nth_error (objs s) j) as [ob|] eqn:N; [|apply nth_error_None in N; lia].
  unfold shows. rewrite N, (step_binding _ _ _ _ _ _ S E T N). cbn [option_map]. f_equal.
  eapply show_frame; [exact (step_grows _ _ _ _ S E)|eapply valid_fit; [exact S|exact N]|].
  intros c Hc Ht. apply (D c); [unfold var_cells; rewrite N; exact Hc|exact Ht].
Qed.

(* --- agreement with the models of the single methods -------------------------------------- *)
Lemma mapi_const {A B} (f : A -> B) l : mapi (fun _ x => f x) l = map f l.
Proof. unfold mapi. generalize 0. induction l as [|x l IH]; intros n; cbn; [reflexivity|f_equal; apply IH]. Qed.
Lemma after1o_fresho h s x : (s = None -> x = None) -> (x = None -> s = None) -> after1o h s (fresho x) = x.
Proof. destruct s, x; cbn; intros H1 H2; try reflexivity. specialize (H2 eq_refl); discriminate. Qed.
Lemma after1o_keep h s : after1o h s Keep1 = s. Proof. destruct s; reflexivity. Qed.

Lemma cum_std v f w : cumulative sqrtf v f = Ok w -> (v_std v = None -> v_std w = None) /\ (v_std w = None -> v_std v = None) /\ v_E w = v_E v /\ v_units w = v_units v.
Proof.
  unfold cumulative. destruct (cum_factor_val v f); [|discriminate]. cbn [rbind]. intros E.
  match type of E with Ok ?x = _ => assert (X : w = x) by congruence end. subst w. cbn. repeat split; destruct (v_std v); cbn; congruence.
Qed.
Lemma closest_std v xs sd vals x : closest_data v xs sd = Ok (vals, x) -> (v_std v = None -> x = None) /\ (x = None -> v_std v = None).
Proof.
  unfold closest_data. destruct (sorted_b _); [|discriminate]. destruct (closest_values (v_E v) (v_values v) xs sd); [|discriminate]. cbn [rbind].
  destruct (v_std v) as [s|].
  - destruct (closest_values (v_E v) s xs sd); [|discriminate]. cbn [rbind]. split; congruence.
  - split; congruence.
Qed.
Lemma veffect_method c h v A xs : get h A = xs ->
  match veffect c v A xs with
  | Ok e => vec_method expf sqrtf c xs v = (vafter h v e, if vchecks c then v_verify (vafter h v e) else Ok tt)
  | Raise x => vec_method expf sqrtf c xs v = (v, Raise x)
  end.
Proof.
  intros G. destruct c as [Emin Emax|mids factor| | |En sd|f|c al| |vals E sd]; cbn [AliasModel.veffect vec_method vrun vchecks].
  - unfold v_cut, v_cut_data. destruct (match Emin with Some e => Ok e | None => _ end) as [lo|]; [|reflexivity]. cbn [rbind].
    destruct (match Emax with Some e => Ok e | None => _ end) as [hi|]; [|reflexivity]. cbn [rbind keep]. unfold vafter. cbn [ve_values ve_E ve_std ve_units after1].
    destruct (v_std v); reflexivity.
  - unfold v_rebin. fold (given mids xs). destruct (v_rebin_data v (given mids xs) factor) as [[out new]|] eqn:R; cbn [rbind]; [|reflexivity].
    assert (N : match mids with Some _ => new = xs | None => True end).
    { destruct mids; [|exact I]. unfold v_rebin_data in R. cbn [given] in R. destruct factor; [discriminate R|]. cbn [rbind] in R.
      destruct (rebin_1D _ _ _); [|discriminate R]. cbn [rbind] in R. congruence. }
    unfold vafter. cbn [ve_values ve_E ve_std ve_units after1]. rewrite after1o_keep. destruct mids; cbn [after1]; [rewrite G, <- N|]; reflexivity.
  - unfold to_MeV. destruct (v_units v) eqn:U; cbn [keep]; [| |reflexivity]; unfold vafter; cbn [ve_values ve_E ve_std ve_units after1]; rewrite after1o_keep; rewrite ?mapi_const; [reflexivity|].
    destruct v; cbn in *; rewrite U; reflexivity.
  - unfold to_keV. destruct (v_units v) eqn:U; cbn [keep]; [| |reflexivity]; unfold vafter; cbn [ve_values ve_E ve_std ve_units after1]; rewrite after1o_keep; rewrite ?mapi_const; [|reflexivity].
    destruct v; cbn in *; rewrite U; reflexivity.
  - unfold closest. destruct (closest_data v xs sd) as [[vals s]|] eqn:C; cbn [rbind keep]; [|reflexivity]. apply closest_std in C as [C1 C2].
    unfold vafter. cbn [ve_values ve_E ve_std ve_units after1]. rewrite after1o_fresho by assumption. rewrite G. reflexivity.
  - destruct (cumulative sqrtf v f) as [w|] eqn:C; cbn [rbind keep]; [|reflexivity]. apply cum_std in C as (C1 & C2 & C3 & C4).
    unfold vafter. cbn [ve_values ve_E ve_std ve_units after1]. rewrite after1o_fresho by assumption. destruct w; cbn in *; congruence.
  - unfold vafter. cbn [ve_values ve_E ve_std ve_units after1]. rewrite after1o_fresho by (cbn; destruct (v_std v); cbn; congruence). reflexivity.
  - unfold vafter. cbn [ve_values ve_E ve_std ve_units after1]. rewrite after1o_fresho by auto. destruct v; reflexivity.
  - unfold vafter. cbn [ve_values ve_E ve_std ve_units after1].
    replace (after1o h (v_std v) (fresho sd)) with (match sd with Some _ => sd | None => v_std v end) by (destruct sd, (v_std v); reflexivity). reflexivity.
Qed.

(* --- matrices ------------------------------------------------------------------------------ *)
Lemma nth_error_mapi {A B} (f : nat -> A -> B) l n : nth_error (mapi f l) n = option_map (f n) (nth_error l n).
Proof.
  unfold mapi. assert (K : forall k l n, nth_error (mapi_from k f l) n = option_map (f (k + n)) (nth_error l n)).
  { clear. intros k l; revert k; induction l as [|x l IH]; intros k [|n]; cbn; try reflexivity; [f_equal; f_equal; lia|]. rewrite IH. now replace (k + S n) with (S k + n) by lia. }
  apply K.
Qed.
Lemma mapi_length {A B} (f : nat -> A -> B) l : length (mapi f l) = length l.
Proof. unfold mapi. generalize 0. induction l; intros n; cbn; auto. Qed.
Lemma nth_mapi {A B} (f : nat -> A -> B) l n d d' : n < length l -> nth n (mapi f l) d = f n (nth n l d').
Proof.
  intros H. pose proof (nth_error_mapi f l n) as E. destruct (nth_error l n) as [x|] eqn:N; [|apply nth_error_None in N; lia]. cbn in E.
  rewrite (nth_error_nth _ _ _ E), (nth_error_nth _ _ _ N). reflexivity.
Qed.
Lemma in_mapi {A B} (f : nat -> A -> B) l y : In y (mapi f l) -> exists n x, In x l /\ y = f n x.
Proof.
  intros H. apply In_nth_error in H as [n H]. rewrite nth_error_mapi in H. destruct (nth_error l n) as [x|] eqn:N; [|discriminate]. cbn in H.
  exists n, x. split; [eapply nth_error_In; eauto|congruence].
Qed.
Lemma upd2_shaped a f nr nc : shaped a nr nc -> shaped (mkArr (a_nc a) (mapi (fun r row => mapi (f r) row) (a_rows a))) nr nc.
Proof.
  intros (S1 & S2 & S3). unfold shaped. cbn. split; [exact S1|]. split; [now rewrite mapi_length|]. intros r Hr. apply in_mapi in Hr as (n & x & Hx & ->). rewrite mapi_length. auto.
Qed.
Lemma upd2_get a f nr nc i j : shaped a nr nc -> i < nr -> j < nc ->
  aget (mkArr (a_nc a) (mapi (fun r row => mapi (f r) row) (a_rows a))) i j = f i j (aget a i j).
Proof.
  intros (S1 & S2 & S3) Hi Hj. unfold aget, mget, vget. cbn [a_rows]. rewrite (nth_mapi _ _ i _ []) by lia.
  rewrite (nth_mapi _ _ j _ 0%Qc); [reflexivity|]. rewrite S3; [exact Hj|]. apply nth_In. lia.
Qed.
Lemma rect_shaped a : rectangular a -> shaped a (a_nr a) (a_nc a).
Proof. intros R. split; [reflexivity|]. split; [reflexivity|exact R]. Qed.
Lemma pair_eqb_true p q : pair_eqb p q = true -> p = q.
Proof. destruct p, q. unfold pair_eqb. cbn. intros H. apply andb_prop in H as [H1 H2]. apply Nat.eqb_eq in H1, H2. congruence. Qed.
Lemma rebin_new m ex xs factor v new : rebin_data m ex (Some xs) factor = Ok (v, new) -> new = xs.
Proof.
  unfold rebin_data. destruct factor; cbn [rbind]; [discriminate|]. destruct (rebin_2D _ _ _ _ _); cbn [rbind]; [|discriminate]. congruence.
Qed.
Lemma meffect_method c h m A xs : rectangular (values m) -> get h A = xs ->
  match meffect c m A xs with
  | Ok e => mat_method gauss argsort c xs m = (mafter h m e, if mchecks c then verify_integrity (mafter h m e) else Ok tt)
  | Raise x => mat_method gauss argsort c xs m = (m, Raise x)
  end.
Proof.
  intros RV G. pose proof (rect_shaped _ RV) as SV. destruct c as [ax Emin Emax imin imax|ex mids factor|a b c d|p q|eg ex c| | | | |st|v eg ex]; cbn [AliasModel.meffect mat_method mrun mchecks].
  - unfold cut_inplace, cut_data. destruct (to_plot_axis ax) as [a|]; [|reflexivity]. cbn [rbind].
    destruct (cut_bounds _ _ _ _ _) as [[lo hi]|]; [|reflexivity]. cbn [rbind]. destruct a; cbn [rbind mkeep]; reflexivity.
  - destruct (rebin_data m ex _ factor) as [[v new]|] eqn:R; cbn [rbind].
    + fold (given mids xs) in R. assert (E : rebin_inplace m (AInt (if ex then 1 else 0)%Z) (given mids xs) factor = rebin_axis m ex (given mids xs) factor).
      { unfold rebin_inplace, to_plot_axis. destruct ex; cbn [Z.eqb Pos.eqb]; destruct mids, factor; cbn [given] in *; try reflexivity; discriminate R. }
      rewrite E. unfold rebin_axis. rewrite R. assert (N : match mids with Some _ => new = xs | None => True end).
      { destruct mids; [|exact I]. cbn [given] in R. eapply rebin_new; eauto. }
      unfold mafter. destruct ex, mids; cbn [me_values me_Ex me_Eg me_state after2 after1]; rewrite ?G, <- ?N; reflexivity.
    + fold (given mids xs) in R. unfold rebin_inplace, to_plot_axis. destruct ex; cbn [Z.eqb Pos.eqb]; destruct mids, factor; cbn [given] in *; unfold rebin_axis; try rewrite R; try reflexivity; unfold rebin_data in R; cbn [rbind] in R; congruence.
  - unfold trapezoid_inplace. destruct (trapezoid_data m a b c d) as [t|]; [|reflexivity]. reflexivity.
  - unfold cut_diagonal. destruct p as [p|]; [|reflexivity]. destruct q as [q|]; [|reflexivity]. destruct (line_mask m p q) as [mask|]; [|reflexivity]. cbn [rbind].
    destruct (pair_eqb _ _) eqn:P; [|reflexivity]. cbn [mkeep]. unfold mafter, with_values. cbn [me_values me_Ex me_Eg me_state after2 after1]. f_equal. f_equal.
    apply (arr_ext _ _ (a_nr (values m)) (a_nc (values m))); [apply MatrixRunProofs.mask_shape; exact SV|now apply upd2_shaped|].
    intros i j Hi Hj. rewrite (upd2_get _ _ _ _ _ _ SV Hi Hj). unfold mask_zero, aget at 1. cbn [a_rows]. now rewrite mtab_get.
  - unfold fill. destruct (_ && _)%bool eqn:P; [|reflexivity]. apply andb_prop in P as [P1 P2]. apply Nat.ltb_lt in P1, P2. cbn [mkeep].
    unfold mafter, with_values. cbn [me_values me_Ex me_Eg me_state after2 after1]. f_equal. f_equal.
    assert (RR : rect (a_rows (values m)) (a_nr (values m)) (a_nc (values m))) by (apply shaped_rect in SV; tauto).
    apply (arr_ext _ _ (a_nr (values m)) (a_nc (values m))); [apply shaped_mk, add_at_rect; exact RR|now apply upd2_shaped|].
    intros i j Hi Hj. rewrite (upd2_get _ _ _ _ _ _ SV Hi Hj). unfold aget at 1. cbn [a_rows]. rewrite (add_at_get _ _ _ _ _ _ _ _ RR) by assumption.
    unfold aget. destruct (_ && _)%bool; ring.
  - reflexivity.
  - reflexivity.
  - unfold to_lower_bin. destruct (Ex m) as [|x0 [|x1 xs']] eqn:X; try reflexivity. destruct (Eg m) as [|g0 [|g1 gs']] eqn:Y; try reflexivity.
    cbn [mkeep]. unfold mafter. cbn [me_values me_Ex me_Eg me_state after2 after1]. rewrite !mapi_const, X, Y. reflexivity.
  - unfold to_mid_bin. destruct (Ex m) as [|x0 [|x1 xs']] eqn:X; try reflexivity. destruct (Eg m) as [|g0 [|g1 gs']] eqn:Y; try reflexivity.
    cbn [mkeep]. unfold mafter. cbn [me_values me_Ex me_Eg me_state after2 after1]. rewrite !mapi_const, X, Y. reflexivity.
  - destruct (set_state st); reflexivity.
  - reflexivity.
Qed.

(* --- the statements ---------------------------------------------------------------------- *)
Lemma argument_eval s a xs : valid s -> argument s a = Some xs -> exists h A, arg_of s a = Ok (h, A) /\ get h A = xs /\ fit h A /\ grows [] (mem s) h.
Proof.
  intros V H. assert (X : exists h A, arg_of s a = Ok (h, A) /\ get h A = xs).
  { destruct a as [[ys|i b]|]; cbn [argument arg_of eval] in *.
    - destruct (alloc (mem s) ys) as [h A] eqn:E. exists h, A. split; [reflexivity|]. apply alloc_spec in E as (_ & E & _). congruence.
    - unfold shows in H. unfold find_obj. destruct (nth_error (objs s) i) as [o|]; [|discriminate H]. cbn [option_map] in H. cbn [rbind].
      destruct o as [x|x|v|m], b; cbn [show shown_attr attr1] in *; try discriminate H; try (eexists _, _; split; [reflexivity|]; cbn in H; congruence).
      cbn in H. destruct (hv_std v) as [d|]; [|discriminate H]. cbn in H. eexists _, _; split; [reflexivity|congruence].
    - exists (mem s), []. split; [reflexivity|]. cbn. congruence. }
  destruct X as (h & A & E & X). exists h, A. destruct (arg_of_spec _ _ _ _ E V) as (G & F & _). auto.
Qed.
Lemma look_vec_grows s h v i : valid s -> nth_error (objs s) i = Some (HVec v) -> grows [] (mem s) h -> look_vec h v = look_vec (mem s) v.
Proof.
  intros V N G. pose proof (show_frame [] _ _ (HVec v) G (valid_fit _ _ _ V N)) as K. cbn [show] in K.
  assert (E : ShVec (look_vec h v) = ShVec (look_vec (mem s) v)) by (apply K; intros c _ []). congruence.
Qed.
Lemma look_mat_grows s h v i : valid s -> nth_error (objs s) i = Some (HMat v) -> grows [] (mem s) h -> look_mat h v = look_mat (mem s) v.
Proof.
  intros V N G. pose proof (show_frame [] _ _ (HMat v) G (valid_fit _ _ _ V N)) as K. cbn [show] in K.
  assert (E : ShMat (look_mat h v) = ShMat (look_mat (mem s) v)) by (apply K; intros c _ []). congruence.
Qed.
Lemma shows_upd h s i o o' : nth_error (objs s) i = Some o -> shows (mkHeap h (upd (objs s) i o')) i = Some (show h o').
Proof.
  intros N. unfold shows. cbn [objs mem]. rewrite nth_error_upd, Nat.eqb_refl. assert (i < length (objs s)) by (apply nth_error_Some; congruence).
  destruct (Nat.ltb_spec i (length (objs s))); [reflexivity|lia].
Qed.
Lemma shows_app h s o : shows (mkHeap h (objs s ++ [o])) (length (objs s)) = Some (show h o).
Proof. unfold shows. cbn [objs mem]. rewrite nth_error_app2, Nat.sub_diag by lia. reflexivity. Qed.
Lemma vec_in_method s i c v xs : valid s -> nth_error (objs s) i = Some (HVec v) -> NoDup (vcells v) -> argument s (varg c) = Some xs ->
  shows (fst (step s (VecIn i c))) i = Some (ShVec (fst (vec_method expf sqrtf c xs (look_vec (mem s) v)))) /\
  snd (step s (VecIn i c)) = snd (vec_method expf sqrtf c xs (look_vec (mem s) v)).
Proof.
  intros V N ND AR. cbn [AliasModel.step]. unfold vec_in, find_obj. rewrite N. destruct (argument_eval _ _ _ V AR) as (h & A & -> & GX & FA & G).
  pose proof (look_vec_grows _ _ _ _ V N G) as LV. rewrite LV, GX.
  pose proof (veffect_method c h (look_vec (mem s) v) A xs GX) as M. destruct (veffect c _ A xs) as [e|] eqn:VE; rewrite M; cbn [fst snd].
  - apply veffect_good in VE as (VG & BD & _). destruct (bound_cases _ _ BD) as [BI _]. destruct (do_vec h v e) as [h' v'] eqn:D.
    apply do_vec_spec in D as (G2 & _ & C); [|exact VG]. destruct C as [C _].
    + intros c0 Hc. apply (fit_grows _ _ _ _ G (valid_fit _ _ _ V N)). exact Hc.
    + exact ND.
    + intros c0 Hc. apply FA, BI, Hc.
    + cbn [rebind fst snd]. rewrite (shows_upd _ _ _ _ _ N). cbn [show]. rewrite C, LV. auto.
  - cbn [fail fst snd]. split; [|reflexivity]. unfold shows. rewrite N. reflexivity.
Qed.
Lemma mat_in_method s i c m xs : valid s -> nth_error (objs s) i = Some (HMat m) -> NoDup (mcells m) -> rectangular (values (look_mat (mem s) m)) -> argument s (marg c) = Some xs ->
  shows (fst (step s (MatIn i c))) i = Some (ShMat (fst (mat_method gauss argsort c xs (look_mat (mem s) m)))) /\
  snd (step s (MatIn i c)) = snd (mat_method gauss argsort c xs (look_mat (mem s) m)).
Proof.
  intros V N ND RV AR. cbn [AliasModel.step]. unfold mat_in, find_obj. rewrite N. destruct (argument_eval _ _ _ V AR) as (h & A & -> & GX & FA & G).
  pose proof (look_mat_grows _ _ _ _ V N G) as LV. rewrite LV, GX.
  pose proof (meffect_method c h (look_mat (mem s) m) A xs RV GX) as M. destruct (meffect c _ A xs) as [e|] eqn:VE; rewrite M; cbn [fst snd].
  - apply meffect_good in VE as (VG & _ & BD & _). destruct (bound_cases _ _ BD) as [BI _]. destruct (do_mat h m e) as [h' v'] eqn:D.
    apply do_mat_spec in D as (G2 & _ & C); [|exact VG]. destruct C as [C _].
    + intros c0 Hc. apply (fit_grows _ _ _ _ G (valid_fit _ _ _ V N)). exact Hc.
    + exact ND.
    + intros c0 Hc. apply FA, BI, Hc.
    + cbn [rebind fst snd]. rewrite (shows_upd _ _ _ _ _ N). cbn [show]. rewrite C, LV. auto.
  - cbn [fail fst snd]. split; [|reflexivity]. unfold shows. rewrite N. reflexivity.
Qed.
(* a statement that creates one object *)
Definition creates (s : heap) (o : op) (x : result shown) : Prop :=
  match x with
  | Ok x => snd (step s o) = Ok tt /\ length (objs (fst (step s o))) = S (length (objs s)) /\ shows (fst (step s o)) (length (objs s)) = Some x
  | Raise e => step s o = (s, Raise e)
  end.
Definition made_std (c : vcall) (w : vector) : option (list Qc) * units_t :=
  match c with CRebin _ _ => (None, KeV) | _ => (v_std w, v_units w) end.
Lemma veffect_copy c h v A xs : vec_has_inplace c = true -> get h A = xs ->
  vec_copy_method expf sqrtf c xs v =
  match veffect c v A xs with
  | Ok e => let w := vafter h v e in mk_vector (Some (v_values w)) (v_E w) (fst (made_std c w)) (snd (made_std c w))
  | Raise x => Raise x
  end.
Proof.
  intros IP G. destruct c as [Emin Emax|mids factor| | |En sd|f|c al| |vals E sd]; try discriminate IP; cbn [AliasModel.veffect vec_copy_method made_std].
  - unfold v_cut_copy, v_cut_data. destruct (match Emin with Some e => Ok e | None => _ end) as [lo|]; [|reflexivity]. cbn [rbind].
    destruct (match Emax with Some e => Ok e | None => _ end) as [hi|]; [|reflexivity]. cbn [rbind]. unfold vafter. cbn [ve_values ve_E ve_std ve_units after1 fst snd v_values v_E v_std v_units].
    destruct (v_std v); reflexivity.
  - unfold v_rebin_copy. fold (given mids xs). destruct (v_rebin_data v (given mids xs) factor) as [[out new]|] eqn:R; cbn [rbind]; [|reflexivity].
    assert (N : match mids with Some _ => new = xs | None => True end).
    { destruct mids; [|exact I]. unfold v_rebin_data in R. cbn [given] in R. destruct factor; [discriminate R|]. cbn [rbind] in R.
      destruct (rebin_1D _ _ _); [|discriminate R]. cbn [rbind] in R. congruence. }
    unfold vafter. cbn [ve_values ve_E ve_std ve_units after1 fst snd v_values v_E v_std v_units]. destruct mids; cbn [after1]; [rewrite G, <- N|]; reflexivity.
  - unfold closest_copy. destruct (closest_data v xs sd) as [[vals s]|] eqn:C; cbn [rbind]; [|reflexivity]. apply closest_std in C as [C1 C2].
    unfold vafter. cbn [ve_values ve_E ve_std ve_units after1 fst snd v_values v_E v_std v_units]. rewrite after1o_fresho by assumption. rewrite G. reflexivity.
  - destruct (cumulative sqrtf v f) as [w|] eqn:C; cbn [rbind]; [|reflexivity]. apply cum_std in C as (C1 & C2 & C3 & C4).
    unfold vafter. cbn [ve_values ve_E ve_std ve_units after1 fst snd v_values v_E v_std v_units]. rewrite after1o_fresho by assumption. rewrite C3, C4. reflexivity.
  - unfold vafter. cbn [ve_values ve_E ve_std ve_units after1 fst snd v_values v_E v_std v_units]. rewrite after1o_fresho by (cbn; destruct (v_std v); cbn; congruence). reflexivity.
  - unfold vafter. cbn [ve_values ve_E ve_std ve_units after1 fst snd v_values v_E v_std v_units]. rewrite after1o_fresho by auto. reflexivity.
Qed.
Lemma vec_out_method s i c v xs : valid s -> nth_error (objs s) i = Some (HVec v) -> NoDup (vcells v) -> vec_has_inplace c = true -> argument s (varg c) = Some xs ->
  creates s (VecOut i c) (rmap ShVec (vec_copy_method expf sqrtf c xs (look_vec (mem s) v))).
Proof.
  intros V N ND IP AR. unfold creates. cbn [AliasModel.step]. rewrite IP. unfold vec_out, find_obj. rewrite N. destruct (argument_eval _ _ _ V AR) as (h & A & -> & GX & FA & G).
  pose proof (look_vec_grows _ _ _ _ V N G) as LV. rewrite LV, GX.
  rewrite (veffect_copy c h (look_vec (mem s) v) A xs IP GX). destruct (veffect c _ A xs) as [e|] eqn:VE; [|reflexivity].
  apply veffect_good in VE as (VG & BD & _). destruct (bound_cases _ _ BD) as [BI _]. destruct (do_vec h v e) as [h1 w] eqn:D.
  apply do_vec_spec in D as (G2 & _ & C); [|exact VG]. destruct C as [C FW].
  + intros c0 Hc. apply (fit_grows _ _ _ _ G (valid_fit _ _ _ V N)). exact Hc.
  + exact ND.
  + intros c0 Hc. apply FA, BI, Hc.
  + rewrite LV in C. cbv zeta. rewrite <- C.
    destruct (match c with CRebin _ _ => _ | _ => (hv_std w, hv_units w) end) as [sd u] eqn:SD.
    assert (SE : made_std c (look_vec h1 w) = (option_map (get h1) sd, u) /\ fit h1 (ocells sd)).
    { assert (F0 : fit h1 (ocells (hv_std w))) by (intros c0 Hc; apply FW; unfold vcells; rewrite !in_app_iff; auto).
      assert (F1 : fit h1 []) by (intros ? []).
      destruct c; injection SD as <- <-; split; auto. }
    destruct SE as [SE FS]. destruct (new_vec h1 (hv_values w) (hv_E w) sd u) as [h2 w'] eqn:NV. apply new_vec_spec in NV as (_ & _ & NV).
    rewrite NV; [|intros c0 Hc; apply FW; unfold vcells; rewrite !in_app_iff; auto..|exact FS].
    rewrite SE. cbn [fst snd]. unfold mk_vector. cbn [look_vec v_values v_E]. destruct (v_verify _); cbn [rbind rmap]; [|reflexivity].
    cbn [bind_new fst snd objs]. split; [reflexivity|]. split; [rewrite app_length; cbn; lia|]. rewrite shows_app. cbn [show]. do 2 f_equal. apply NV; [intros c0 Hc; apply FW; unfold vcells; rewrite !in_app_iff; auto..|exact FS].
Qed.
Lemma deepcopy_shows s i o : valid s -> nth_error (objs s) i = Some o -> creates s (Deepcopy i) (Ok (show (mem s) o)).
Proof.
  intros V N. unfold creates. cbn [AliasModel.step]. unfold find_obj. rewrite N. pose proof (valid_fit _ _ _ V N) as F. destruct o as [a|a|v|m]; cbn [cells] in F.
  - destruct (copy1 (mem s) a) as [h b] eqn:C. apply copy1_spec in C as (_ & C & _). cbn [bind_new fst snd objs]. split; [reflexivity|]. split; [rewrite app_length; cbn; lia|]. rewrite shows_app. cbn [show]. congruence.
  - destruct (copy2 (mem s) a) as [h b] eqn:C. apply copy2_spec in C as (_ & C & _). cbn [bind_new fst snd objs]. split; [reflexivity|]. split; [rewrite app_length; cbn; lia|]. rewrite shows_app. cbn [show]. congruence.
  - destruct (deep_vec (mem s) v) as [h b] eqn:C. apply new_vec_spec in C as (_ & _ & C). cbn [bind_new fst snd objs]. split; [reflexivity|]. split; [rewrite app_length; cbn; lia|]. rewrite shows_app. cbn [show].
    rewrite C; [reflexivity|intros c0 Hc; apply F; unfold vcells; rewrite !in_app_iff; auto..].
  - destruct (deep_mat (mem s) m) as [h b] eqn:C. apply deep_mat_spec in C as (_ & _ & C). cbn [bind_new fst snd objs]. split; [reflexivity|]. split; [rewrite app_length; cbn; lia|]. rewrite shows_app. cbn [show].
    rewrite C; [reflexivity|exact F].
Qed.
Lemma mat_copy_cut c h m A xs : match c with CMCut _ _ _ _ _ | CMRebin _ _ _ => true | _ => false end = true -> rectangular (values m) -> get h A = xs ->
  mat_copy_method c xs m =
  match meffect c m A xs with
  | Ok e => let w := mafter h m e in mk_matrix (values w) (Some (Eg w)) (Some (Ex w)) None SNone
  | Raise x => Raise x
  end.
Proof.
  intros IP RV G. destruct c as [ax Emin Emax imin imax|ex mids factor|a b c d|p q|eg ex c| | | | |st|v eg ex]; try discriminate IP; cbn [AliasModel.meffect mat_copy_method].
  - unfold cut_copy, cut_data. destruct (to_plot_axis ax) as [a|]; [|reflexivity]. cbn [rbind].
    destruct (cut_bounds _ _ _ _ _) as [[lo hi]|]; [|reflexivity]. cbn [rbind]. destruct a; cbn [rbind]; reflexivity.
  - unfold rebin_copy. fold (given mids xs). destruct (rebin_data m ex (given mids xs) factor) as [[v new]|] eqn:R; cbn [rbind]; [|reflexivity].
    assert (N : match mids with Some _ => new = xs | None => True end).
    { destruct mids; [|exact I]. cbn [given] in R. eapply rebin_new; eauto. }
    unfold mafter. destruct ex, mids; cbn [me_values me_Ex me_Eg me_state after2 after1 values Eg Ex]; rewrite ?G, <- ?N; reflexivity.
Qed.
Lemma mat_out_method s i c m xs : valid s -> nth_error (objs s) i = Some (HMat m) -> NoDup (mcells m) -> rectangular (values (look_mat (mem s) m)) -> mat_has_inplace c = true -> argument s (marg c) = Some xs ->
  creates s (MatOut i c) (rmap ShMat (mat_copy_method c xs (look_mat (mem s) m))).
Proof.
  intros V N ND RV IP AR. unfold creates. cbn [AliasModel.step]. rewrite IP. unfold mat_out, find_obj. rewrite N. destruct (argument_eval _ _ _ V AR) as (h & A & -> & GX & FA & G).
  pose proof (look_mat_grows _ _ _ _ V N G) as LV. assert (Fh : fit h (mcells m)) by (intros c0 Hc; apply (fit_grows _ _ _ _ G (valid_fit _ _ _ V N)); exact Hc).
  assert (P1 : match c with CMCut _ _ _ _ _ | CMRebin _ _ _ => true | _ => false end = true -> match rmap ShMat (mat_copy_method c xs (look_mat (mem s) m)) with
    | Ok x => let st := match meffect c (look_mat h m) A (get h A) with
              | Raise e => fail s e
              | Ok eff =>
                  let (h1, w) := do_mat h m eff in
                  let (h2, w') := new_mat h1 (hm_values w) (hm_Eg w) (hm_Ex w) None None in
                  match verify_integrity (look_mat h2 w') with
                  | Ok _ => bind_new h2 s [HMat w']
                  | Raise e => fail s e
                  end
              end in snd st = Ok tt /\ length (objs (fst st)) = S (length (objs s)) /\ shows (fst st) (length (objs s)) = Some x
    | Raise e => match meffect c (look_mat h m) A (get h A) with
              | Raise e => fail s e
              | Ok eff =>
                  let (h1, w) := do_mat h m eff in
                  let (h2, w') := new_mat h1 (hm_values w) (hm_Eg w) (hm_Ex w) None None in
                  match verify_integrity (look_mat h2 w') with
                  | Ok _ => bind_new h2 s [HMat w']
                  | Raise e => fail s e
                  end
              end = (s, Raise e) end).
  { intros K. rewrite LV, GX, (mat_copy_cut c h _ A xs K RV GX). destruct (meffect c _ A xs) as [e|] eqn:ME; [|reflexivity].
    apply meffect_good in ME as (MG & _ & BD & _). destruct (bound_cases _ _ BD) as [BI _]. destruct (do_mat h m e) as [h1 w] eqn:D.
    apply do_mat_spec in D as (_ & _ & C); [|exact MG]. destruct C as [C FW]; [exact Fh|exact ND|intros c0 Hc; apply FA, BI, Hc|].
    rewrite LV in C. cbv zeta. rewrite <- C. destruct (new_mat h1 (hm_values w) (hm_Eg w) (hm_Ex w) None None) as [h2 w'] eqn:NM. apply new_mat_spec in NM as (_ & _ & _ & NM).
    assert (NM' : look_mat h2 w' = mkM (get2 h1 (hm_values w)) (get h1 (hm_Eg w)) (get h1 (hm_Ex w)) None None).
    { apply NM; try (intros c0 Hc; apply FW; unfold mcells; rewrite !in_app_iff; auto; fail). intros ? []. }
    rewrite NM'. unfold mk_matrix. cbn [set_state look_mat values Eg Ex]. destruct (verify_integrity _); cbn [rbind rmap]; [|reflexivity].
    cbn [bind_new fst snd objs]. split; [reflexivity|]. split; [rewrite app_length; cbn; lia|]. rewrite shows_app. cbn [show]. now rewrite NM'. }
  assert (P2 : marg c = None -> forall r, mat_method gauss argsort c xs (look_mat (mem s) m) = mkeep (look_mat (mem s) m) r -> mchecks c = false ->
    match rmap ShMat r with
    | Ok x => let st := (let (h1, w) := deep_mat h m in
              match meffect c (look_mat h1 w) A (get h1 A) with
              | Raise e => fail s e
              | Ok eff => let (h2, w') := do_mat h1 w eff in bind_new h2 s [HMat w']
              end) in snd st = Ok tt /\ length (objs (fst st)) = S (length (objs s)) /\ shows (fst st) (length (objs s)) = Some x
    | Raise e => (let (h1, w) := deep_mat h m in
              match meffect c (look_mat h1 w) A (get h1 A) with
              | Raise e => fail s e
              | Ok eff => let (h2, w') := do_mat h1 w eff in bind_new h2 s [HMat w']
              end) = (s, Raise e) end).
  { intros MA r MM CK. destruct (deep_mat h m) as [h1 w] eqn:DM. pose proof DM as DM'. apply deep_mat_spec in DM as (G1 & FR & L). rewrite (L Fh), LV.
    assert (GX1 : get h1 A = xs) by (rewrite (grows_nil_get _ _ _ G1 FA); exact GX). rewrite GX1.
    pose proof (meffect_method c h1 (look_mat (mem s) m) A xs RV GX1) as M. rewrite CK, MM in M. destruct (meffect c _ A xs) as [e|] eqn:ME.
    - apply meffect_good in ME as (MG & _ & BD & _). destruct (bound_cases _ _ BD) as [BI _]. destruct (do_mat h1 w e) as [h2 w'] eqn:D.
      apply do_mat_spec in D as (_ & _ & C); [|exact MG]. destruct C as [C _]; [eapply fresh_fit; eauto|apply FR|intros c0 Hc; apply (fit_grows _ _ _ _ G1 FA), BI, Hc|].
      rewrite (L Fh), LV in C. destruct r as [x|]; cbn [mkeep] in M; [|congruence]. cbn [rmap bind_new fst snd objs]. split; [reflexivity|]. split; [rewrite app_length; cbn; lia|]. rewrite shows_app. cbn [show]. congruence.
    - destruct r as [x|]; cbn [mkeep] in M; [congruence|]. cbn [rmap]. unfold fail. congruence. }
  destruct c; try discriminate IP; try (exact (P1 eq_refl)); (apply P2; reflexivity).
Qed.
End Oracles.
