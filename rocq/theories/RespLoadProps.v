(* C92: loading a response from a directory or a zip archive. *)
From Coq Require Import Sorted.
From Verif Require Import PyBase Axis RebinModel MatrixModel VectorModel FileModel CalibModel CalibProps SampStatModel SampStatProofs ResponseModel RespLoadModel.
Local Open Scope Qc_scope.

(* ------------------------------------------------------------------ specification *)
(* all counts of the spectrum, then zeros *)
Definition holds_counts (s : spectrum) (row : list Qc) : Prop := exists k, row = sp_counts s ++ repeat 0 k.
(* the energy of channel i by the calibration in the file *)
Definition channel (s : spectrum) (i : nat) : Qc :=
  let '(a0, a1, a2) := sp_cal s in a0 + a1 * qnat i + a2 * (qnat i * qnat i).
(* the columns of the table *)
Definition has_table (r : resp_t) (t : list trow) : Prop :=
  r_Eg r = map t_Eg t /\ r_fwhm r = map t_fwhm t /\ r_eff r = map t_eff t /\ r_FE r = map t_FE t /\
  r_SE r = map t_SE t /\ r_DE r = map t_DE t /\ r_c511 r = map t_c511 t.
(* x: a line of the table; row: the spectrum used for it *)
Definition own_spectrum (files : spectra) (near : Z -> Qc -> Prop) (row : list Qc) (x : trow) : Prop :=
  exists k s, near k (t_Eg x) /\ files k = Some s /\ holds_counts s row.
Definition nearest (k : Z) (e : Qc) : Prop := qabs (qz k - e) <= qn 1 2.
Definition integer_part (k : Z) (e : Qc) : Prop := qz k <= e /\ e < qz (k + 1).

(* ------------------------------------------------------------------ proofs *)
Lemma rmapm_F2 {A B} (f : A -> result B) l : forall ms, rmapm f l = Ok ms <-> Forall2 (fun y x => f x = Ok y) ms l.
Proof.
  induction l as [|x l IH]; intros ms; cbn [rmapm].
  - split; intros H; [injection H as <-; constructor|inversion H; reflexivity].
  - destruct (f x) as [y|e] eqn:E; cbn [rbind].
    + destruct (rmapm f l) as [ys|e] eqn:E2; cbn [rbind].
      * split; intros H.
        -- injection H as <-. constructor; [exact E|]. now apply IH.
        -- inversion H as [|y' ? ys' ? E1 H1]; subst. rewrite E in E1. injection E1 as ->. apply IH in H1. now injection H1 as ->.
      * split; intros H; [discriminate|]. inversion H as [|y' ? ys' ? E1 H1]; subst. apply IH in H1. discriminate.
    + split; intros H; [discriminate|]. inversion H; subst. congruence.
Qed.
Lemma F2_map_r {A B C} (P : A -> C -> Prop) (g : B -> C) l m : Forall2 P l (map g m) <-> Forall2 (fun a b => P a (g b)) l m.
Proof.
  split.
  - revert m. induction l as [|a l IH]; intros [|b m] H; inversion H; subst; constructor; auto.
  - intros H. induction H; cbn; constructor; auto.
Qed.
Lemma F2_imp {A B} (P Q : A -> B -> Prop) l m : (forall a b, In b m -> P a b -> Q a b) -> Forall2 P l m -> Forall2 Q l m.
Proof. intros H F. induction F; constructor; [apply H; [now left|assumption]|]. apply IHF. intros; apply H; [now right|assumption]. Qed.
Lemma fill_row_ok n c row : fill_row n c = Ok row -> (length c <= n)%nat /\ row = c ++ repeat 0 (n - length c) /\ length row = n.
Proof.
  unfold fill_row. destruct (Nat.leb_spec (length c) n); [|discriminate]. intros H0. injection H0 as <-.
  split; [assumption|]. split; [reflexivity|]. rewrite app_length, repeat_length. lia.
Qed.
Lemma has_table_of t rows E : has_table (response_of t rows E) t.
Proof. repeat split. Qed.
Lemma qtrunc_part e : 0 <= e -> integer_part (qtrunc e) e.
Proof. intros H. rewrite qtrunc_nonneg by exact H. destruct (qfloor_spec e) as [A B]. split; [exact A|]. now rewrite qz_add. Qed.

(* what a successful load from a zip archive means, whatever the order of the table *)
Lemma zip_inv t files r : load_zip (Some t) files = Ok r ->
  exists rows top s, r = response_of t rows (r_Ecmp r) /\ qmaximum (map t_Eg t) = Ok top /\ files (qtrunc top) = Some s /\ (0 <= sp_last s + 1)%Z /\
    r_cmp r = rows /\ Forall2 (fun row e => exists u, files (qtrunc e) = Some u /\ holds_counts u row /\ (length (sp_counts u) <> 1)%nat /\
                               length row = Z.to_nat (sp_last s + 1)) rows (isort (map t_Eg t)) /\
    linspace (fst (fst (sp_cal s))) (snd (fst (sp_cal s)) * qz (sp_last s + 1 - 1)) (sp_last s + 1) = Ok (r_Ecmp r).
Proof.
  unfold load_zip. cbv zeta. destruct (forallb _ _) eqn:FA; cbn [negb]; [|discriminate].
  destruct (qmaximum _) as [top|] eqn:EM; [|discriminate]. cbn [rbind]. destruct (files (qtrunc top)) as [s|] eqn:FS; [|discriminate].
  destruct (sp_cal s) as [[a0 a1] a2] eqn:EC. destruct (Z.ltb_spec (sp_last s + 1) 0); [discriminate|].
  destruct (rmapm _ _) as [rows|] eqn:ER; [|discriminate]. cbn [rbind]. destruct (linspace _ _ _) as [E|] eqn:EL; [|discriminate]. cbn [rbind].
  intros HR. injection HR as <-. exists rows, top, s. cbn [r_Ecmp r_cmp response_of fst snd].
  do 5 (split; [first [reflexivity | assumption | lia]|]). split.
  - apply rmapm_F2 in ER. apply F2_map_r in ER. eapply F2_imp; [|exact ER]. cbn beta. intros row e _ H0. unfold zip_row in H0.
    destruct (files (qtrunc e)) as [u|]; [|discriminate]. destruct (Nat.eqb_spec (length (sp_counts u)) 1); [discriminate|].
    apply fill_row_ok in H0 as (L & -> & LR). exists u. split; [reflexivity|]. split; [eexists; reflexivity|]. split; assumption.
  - rewrite EC. cbn [fst snd]. exact EL.
Qed.

(* ------------------------------------------------------------------ directory *)
(* Every line of the table gets its own spectrum, complete, and all spectra have the
   calibration of the energies that are returned. *)
Theorem dir_spectra : forall dat files r, load_dir dat files = Ok r ->
  exists t s, read_table dat = Ok t /\ has_table r t /\ Forall2 (own_spectrum files nearest) (r_cmp r) t /\
    Forall (fun row => length row = length (r_Ecmp r)) (r_cmp r) /\
    (exists x, last (map Some t) None = Some x /\ exists k, nearest k (t_Eg x) /\ files k = Some s) /\
    length (r_Ecmp r) = length (sp_counts s) /\ (2 <= length (r_Ecmp r))%nat /\
    (forall i, (i < length (r_Ecmp r))%nat -> vget (r_Ecmp r) i = channel s i) /\
    Forall (fun x => exists k u, nearest k (t_Eg x) /\ files k = Some u /\ channel u 0 = channel s 0 /\ channel u 1 = channel s 1) t.
Proof.
  intros dat files r H. unfold load_dir in H. destruct (read_table dat) as [t|] eqn:ET; [|discriminate]. cbn [rbind] in H. cbv zeta in H.
  destruct (rev (map _ t)) as [|k names] eqn:EN; [discriminate|]. destruct (read_spectrum (files k)) as [lst|] eqn:EL; [|discriminate]. cbn [rbind] in H.
  destruct (rmapm _ _) as [rows|] eqn:ER; [|discriminate]. cbn [rbind] in H. injection H as <-. cbn [response_of r_cmp r_Ecmp].
  assert (RS : forall k v, read_spectrum (files k) = Ok v -> exists u, files k = Some u /\ v_values v = sp_counts u /\ (2 <= length (sp_counts u))%nat /\
            v_E v = tab (length (sp_counts u)) (channel u)).
  { intros k0 v E. unfold read_spectrum in E. destruct (files k0) as [u|]; [|discriminate]. destruct (Nat.leb_spec (length (sp_counts u)) 1); [discriminate|].
    unfold mk_vector in E. destruct (v_verify _); [|discriminate]. cbn [rbind] in E. injection E as <-. exists u. cbn [v_values v_E].
    repeat split; [lia|]. unfold quadratic, channel. destruct (sp_cal u) as [[a0 a1] a2]. reflexivity. }
  destruct (RS _ _ EL) as (s & FS & VS & LS & ES). exists t, s. split; [reflexivity|]. split; [apply has_table_of|].
  assert (F : Forall2 (fun row x => exists u, files (round_even (t_Eg x)) = Some u /\ holds_counts u row /\ length row = length (sp_counts s) /\
              channel u 0 = channel s 0 /\ channel u 1 = channel s 1) rows t).
  { apply rmapm_F2 in ER. apply F2_map_r in ER. eapply F2_imp; [|exact ER]. cbn beta. intros row x _ H0. unfold v_calibration in H0. rewrite ES in H0.
    destruct (length (sp_counts s)) as [|[|n]] eqn:EQ; [lia|lia|]. rewrite <- EQ in *. 
    assert (HD : exists l, tab (length (sp_counts s)) (channel s) = channel s 0 :: channel s 1 :: l).
    { rewrite EQ. unfold tab. cbn [seq map]. eexists. reflexivity. }
    destruct HD as [l HD]. rewrite HD in H0. cbn [rbind] in H0. unfold dir_row in H0.
    destruct (read_spectrum (files (round_even (t_Eg x)))) as [v|] eqn:EV; [|discriminate]. cbn [rbind] in H0.
    destruct (RS _ _ EV) as (u & FU & VU & LU & EU). unfold v_calibration in H0. rewrite EU in H0.
    assert (HU : exists l, tab (length (sp_counts u)) (channel u) = channel u 0 :: channel u 1 :: l).
    { destruct (length (sp_counts u)) as [|[|m]]; [lia|lia|]. unfold tab. cbn [seq map]. eexists. reflexivity. }
    destruct HU as [l' HU]. rewrite HU in H0. cbn [rbind fst snd] in H0.
    destruct (qeqb (channel u 0) (channel s 0) && qeqb (channel u 1 - channel u 0) (channel s 1 - channel s 0)) eqn:EC; cbn [negb] in H0; [|discriminate].
    apply andb_true_iff in EC as [C1 C2]. apply qeqb_eq in C1, C2. rewrite VU, VS in H0. apply fill_row_ok in H0 as (LE & -> & LR).
    exists u. split; [exact FU|]. split; [eexists; reflexivity|]. split; [exact LR|]. split; [exact C1|]. rewrite C1 in C2.
    replace (channel u 1) with (channel u 1 - channel s 0 + channel s 0) by ring. rewrite C2. ring. }
  assert (LE : length (v_E lst) = length (sp_counts s)) by (rewrite ES; apply tab_length).
  split; [eapply F2_imp; [|exact F]; cbn beta; intros row x _ (u & A & B & _); exists (round_even (t_Eg x)), u; split; [apply round_even_spec|now split]|].
  split; [rewrite LE; clear - F; induction F as [|? ? ? ? (u & _ & _ & L & _)]; constructor; assumption|].
  split.
  { rewrite <- (rev_involutive (map (fun r => round_even (t_Eg r)) t)) in EN. 
    assert (TN : exists x t', t = t' ++ [x]).
    { destruct t as [|y t0] using rev_ind; [discriminate|eauto]. }
    destruct TN as (x & t' & ->). exists x. split; [rewrite map_app; cbn [map]; now rewrite last_last|].
    exists (round_even (t_Eg x)). split; [apply round_even_spec|]. rewrite rev_involutive, map_app, rev_app_distr in EN. cbn in EN. injection EN as -> _. exact FS. }
  split; [exact LE|]. split; [lia|]. split; [intros i Hi; rewrite ES; unfold vget; apply nth_tab; lia|].
  clear - F. induction F as [|row x rows t (u & A & _ & _ & B & C)]; constructor; [|assumption]. exists (round_even (t_Eg x)), u. split; [apply round_even_spec|]. auto.
Qed.
Print Assumptions dir_spectra.

(* ------------------------------------------------------------------ zip archive *)
Definition sorted_table (t : list trow) : Prop := StronglySorted Qcle (map t_Eg t).
Lemma qmaximum_sorted t top : sorted_table t -> qmaximum (map t_Eg t) = Ok top -> exists x, last (map Some t) None = Some x /\ t_Eg x = top.
Proof.
  unfold sorted_table. destruct t as [|x t]; [discriminate|]. cbn [map qmaximum]. intros S H. injection H as <-. inversion S as [|? ? S' F]; subst. clear S.
  revert x S' F. induction t as [|y t IH]; intros x S' F; [exists x; split; reflexivity|].
  cbn [map fold_left]. inversion S' as [|? ? S2 F2]; subst. inversion F as [|? ? XY F3]; subst.
  assert (E : (if qltb (t_Eg x) (t_Eg y) then t_Eg y else t_Eg x) = t_Eg y).
  { destruct (qltb (t_Eg x) (t_Eg y)) eqn:Q; [reflexivity|]. apply Qcle_antisym; [exact XY|].
    destruct (Qclt_le_dec (t_Eg x) (t_Eg y)) as [L|L]; [|exact L]. apply qltb_lt in L. congruence. }
  rewrite E. destruct (IH y S2 F2) as (z & L & Z). exists z. split; [|exact Z]. cbn [map last] in *. exact L.
Qed.
(* If the table is sorted by energy, every line gets its own spectrum, complete.  (The
   property has no such condition.) *)
Theorem zip_spectra_partial : forall t files r, sorted_table t -> (forall x, In x t -> 0 <= t_Eg x) -> load_zip (Some t) files = Ok r ->
  has_table r t /\ Forall2 (own_spectrum files integer_part) (r_cmp r) t /\ Forall (fun row => length row = length (r_Ecmp r)) (r_cmp r).
Proof.
  intros t files r S P H. apply zip_inv in H as (rows & top & s & -> & EM & FS & N & EC & F & EL). cbn [r_Ecmp r_cmp response_of] in *.
  split; [apply has_table_of|]. rewrite (isort_of_sorted _ (map t_Eg t) (Permutation_refl _) S) in F. apply F2_map_r in F. split.
  - eapply F2_imp; [|exact F]. cbn beta. intros row x I (u & A & B & _). exists (qtrunc (t_Eg x)), u. split; [apply qtrunc_part; now apply P|now split].
  - unfold linspace in EL. destruct (Z.ltb_spec (sp_last s + 1) 0); [lia|]. injection EL as <-. rewrite tab_length.
    clear - F. induction F as [|? ? ? ? (u & _ & _ & _ & L)]; constructor; assumption.
Qed.
Print Assumptions zip_spectra_partial.
(* In general the spectra are assigned in the order of the energies, not of the lines. *)
Theorem zip_spectra_in_order_of_energy : forall t files r, (forall x, In x t -> 0 <= t_Eg x) -> load_zip (Some t) files = Ok r ->
  exists es, Permutation (map t_Eg t) es /\ StronglySorted Qcle es /\ r_Eg r = map t_Eg t /\
    Forall2 (fun row e => exists k s, integer_part k e /\ files k = Some s /\ holds_counts s row) (r_cmp r) es.
Proof.
  intros t files r P H. apply zip_inv in H as (rows & top & s & -> & EM & FS & N & EC & F & EL). cbn [r_Ecmp r_cmp r_Eg response_of] in *.
  exists (isort (map t_Eg t)). split; [apply isort_perm|]. split; [apply isort_sorted|]. split; [reflexivity|].
  eapply F2_imp; [|exact F]. cbn beta. intros row e I (u & A & B & _). exists (qtrunc e), u. split; [|now split]. apply qtrunc_part.
  apply Permutation_in with (l' := map t_Eg t) in I; [|symmetry; apply isort_perm]. apply in_map_iff in I as (x & <- & I). now apply P.
Qed.
Print Assumptions zip_spectra_in_order_of_energy.

Lemma qmaximum_spec l top : qmaximum l = Ok top -> In top l /\ forall e, In e l -> e <= top.
Proof.
  destruct l as [|x l]; [discriminate|]. cbn. intros EM. injection EM as <-. revert x. induction l as [|y l IH]; intros x; cbn [fold_left].
  - split; [now left|]. intros e [-> | []]. apply Qcle_refl.
  - assert (X : x <= (if qltb x y then y else x) /\ y <= (if qltb x y then y else x)).
    { destruct (qltb x y) eqn:Q; [apply qltb_lt in Q; split; [now apply Qclt_le_weak|apply Qcle_refl]|]. split; [apply Qcle_refl|].
      destruct (Qclt_le_dec x y) as [L|L]; [|exact L]. apply qltb_lt in L. congruence. }
    destruct (IH (if qltb x y then y else x)) as [A B]. split.
    + destruct A as [A | A]; [|right; right; exact A]. rewrite <- A. destruct (qltb x y); [right; now left|now left].
    + intros e [<- | [<- | I]]; [eapply Qcle_trans; [apply X|]; apply B; now left..|]. apply B. now right.
Qed.
(* The energies come from the spectrum of the highest energy; they stretch the calibration so
   that the constant term is lost at the upper end. *)
Theorem zip_energies : forall t files r top s, load_zip (Some t) files = Ok r ->
  In top (map t_Eg t) -> (forall e, In e (map t_Eg t) -> e <= top) -> files (qtrunc top) = Some s ->
  let a0 := fst (fst (sp_cal s)) in let a1 := snd (fst (sp_cal s)) in
  Z.of_nat (length (r_Ecmp r)) = (sp_last s + 1)%Z /\
  forall i, (i < length (r_Ecmp r))%nat ->
    vget (r_Ecmp r) i = a0 + qnat i * a1 - a0 * (qnat i / qnat (length (r_Ecmp r) - 1)).
Proof.
  intros t files r top s H I M FS. apply zip_inv in H as (rows & top' & s' & -> & EM & FS' & N & EC & F & EL). cbn [r_Ecmp r_cmp r_Eg response_of] in *.
  apply qmaximum_spec in EM as [I' M']. assert (top' = top) by (apply Qcle_antisym; auto). subst top'. rewrite FS in FS'. injection FS' as <-.
  cbv zeta. unfold linspace in EL. destruct (Z.ltb_spec (sp_last s + 1) 0); [lia|]. injection EL as <-. rewrite tab_length.
  split; [rewrite Z2Nat.id; lia|]. intros i Hi. unfold vget. rewrite nth_tab by exact Hi. unfold qnat at 4.
  replace (Z.of_nat (Z.to_nat (sp_last s + 1) - 1)) with (sp_last s + 1 - 1)%Z by lia.
  destruct i as [|i]; [change (qnat 0) with 0; unfold Qcdiv; ring|].
  assert (Z : qz (sp_last s + 1 - 1) <> 0).
  { intros E. assert (E2 : qz (sp_last s + 1 - 1) = qz 0) by exact E. apply qz_inj in E2. lia. }
  field. exact Z.
Qed.
Print Assumptions zip_energies.
(* They are the energies of the channels if the calibration has no constant and no quadratic
   term.  (The property has no such condition.) *)
Theorem zip_energies_partial : forall t files r top s, load_zip (Some t) files = Ok r ->
  In top (map t_Eg t) -> (forall e, In e (map t_Eg t) -> e <= top) -> files (qtrunc top) = Some s ->
  fst (fst (sp_cal s)) = 0 -> snd (sp_cal s) = 0 -> forall i, (i < length (r_Ecmp r))%nat -> vget (r_Ecmp r) i = channel s i.
Proof.
  intros t files r top s H I M FS A0 A2 i Hi. destruct (zip_energies t files r top s H I M FS) as [_ V]. rewrite V by exact Hi.
  unfold channel. destruct (sp_cal s) as [[a0 a1] a2]. cbn [fst snd] in *. subst a0 a2. ring.
Qed.
Print Assumptions zip_energies_partial.

(* ------------------------------------------------------------------ when a load succeeds *)
Theorem zip_loads_iff : forall t files, (exists r, load_zip (Some t) files = Ok r) <->
  t <> [] /\ (forall x, In x t -> exists s, files (qtrunc (t_Eg x)) = Some s) /\
  forall x, In x t -> (forall y, In y t -> t_Eg y <= t_Eg x) -> exists s, files (qtrunc (t_Eg x)) = Some s /\ (-1 <= sp_last s)%Z /\
    forall y u, In y t -> files (qtrunc (t_Eg y)) = Some u -> length (sp_counts u) <> 1%nat /\ (Z.of_nat (length (sp_counts u)) <= sp_last s + 1)%Z.
Proof.
  intros t files. split.
  - intros [r H]. apply zip_inv in H as (rows & top & s & -> & EM & FS & N & EC & F & EL). cbn [r_Ecmp r_cmp r_Eg response_of] in *.
    assert (G : forall x, In x t -> exists u, files (qtrunc (t_Eg x)) = Some u /\ length (sp_counts u) <> 1%nat /\ (Z.of_nat (length (sp_counts u)) <= sp_last s + 1)%Z).
    { intros x I. assert (I2 : In (t_Eg x) (isort (map t_Eg t))) by (eapply Permutation_in; [apply isort_perm|now apply in_map]).
      revert I2. generalize (t_Eg x). clear - F N. intros e I. induction F as [|row e' rows es (u & A & [k ->] & C & L) F IH]; [destruct I|].
      destruct I as [-> | I]; [|now apply IH]. exists u. split; [exact A|]. split; [exact C|]. rewrite app_length in L. lia. }
    split; [intros ->; discriminate|]. split; [intros x I; destruct (G x I) as (u & A & _); eauto|].
    intros x I MX. apply qmaximum_spec in EM as [I' M']. apply in_map_iff in I' as (z & EZ & IZ).
    assert (t_Eg x = top) as -> by (apply Qcle_antisym; [apply M'; now apply in_map|rewrite <- EZ; now apply MX]).
    exists s. split; [exact FS|]. split; [lia|]. intros y u IY FU. destruct (G y IY) as (u' & A & B). rewrite FU in A. now injection A as <-.
  - intros (NE & EX & TOP). unfold load_zip. cbv zeta. replace (forallb _ _) with true.
    2:{ symmetry. apply forallb_forall. intros k I. apply in_map_iff in I as (e & <- & I).
        apply Permutation_in with (l' := map t_Eg t) in I; [|symmetry; apply isort_perm]. apply in_map_iff in I as (x & <- & I). now destruct (EX x I) as [s ->]. }
    cbn [negb]. destruct (qmaximum (map t_Eg t)) as [top|] eqn:EM; [|destruct t; [congruence|discriminate]]. cbn [rbind].
    apply qmaximum_spec in EM as [I' M']. apply in_map_iff in I' as (z & EZ & IZ).
    destruct (TOP z IZ) as (s & FS & N & ALL); [intros y IY; rewrite EZ; apply M'; now apply in_map|]. rewrite <- EZ, FS.
    destruct (sp_cal s) as [[a0 a1] a2]. destruct (Z.ltb_spec (sp_last s + 1) 0); [lia|].
    assert (R : exists rows, rmapm (fun k => zip_row (Z.to_nat (sp_last s + 1)) (files k)) (map qtrunc (isort (map t_Eg t))) = Ok rows).
    { assert (Q : forall e, In e (isort (map t_Eg t)) -> exists row, zip_row (Z.to_nat (sp_last s + 1)) (files (qtrunc e)) = Ok row).
      { intros e I. apply Permutation_in with (l' := map t_Eg t) in I; [|symmetry; apply isort_perm]. apply in_map_iff in I as (x & <- & I).
        destruct (EX x I) as [u FU]. destruct (ALL x u I FU) as [A B]. rewrite FU. unfold zip_row, fill_row. rewrite (proj2 (Nat.eqb_neq _ _) A).
        destruct (Nat.leb_spec (length (sp_counts u)) (Z.to_nat (sp_last s + 1))); [eauto|lia]. }
      revert Q. generalize (isort (map t_Eg t)). clear. induction l as [|e l IH]; intros Q; [exists []; reflexivity|].
      destruct (Q e (or_introl eq_refl)) as [row ER]. destruct IH as [rows ERS]; [intros; apply Q; now right|]. exists (row :: rows). cbn [map rmapm]. now rewrite ER, ERS. }
    destruct R as [rows ->]. cbn [rbind]. unfold linspace. destruct (Z.ltb_spec (sp_last s + 1) 0); [lia|]. cbn [rbind]. eauto.
Qed.
Print Assumptions zip_loads_iff.

(* ------------------------------------------------------------------ both formats *)
(* A table of whole energies in ascending order, spectra with one common calibration E = a1*i
   and lengths up to that of the last one: both formats give the same response. *)
Theorem zip_dir_agree : forall dat t files a1 n, read_table dat = Ok t -> t <> [] -> sorted_table t ->
  (forall x, In x t -> exists k u, t_Eg x = qz k /\ (0 <= k)%Z /\ files k = Some u /\ sp_cal u = (0, a1, 0) /\
     (2 <= length (sp_counts u) <= n)%nat) ->
  (forall x u k, last (map Some t) None = Some x -> t_Eg x = qz k -> files k = Some u -> length (sp_counts u) = n /\ sp_last u = (Z.of_nat n - 1)%Z) ->
  exists r, load_zip (Some t) files = Ok r /\ load_dir dat files = Ok r.
Proof.
  intros dat t files a1 n ET NE ST ALL LAST.
  assert (TN : exists x t', t = t' ++ [x]) by (destruct t as [|y t0] using rev_ind; [congruence|eauto]). destruct TN as (x & t' & TE).
  assert (IX : In x t) by (rewrite TE; apply in_or_app; right; now left).
  assert (LX : last (map Some t) None = Some x) by (rewrite TE, map_app; cbn [map]; now rewrite last_last).
  destruct (ALL x IX) as (kx & s & EX & KX & FX & CX & NX). destruct (LAST x s kx LX EX FX) as [LS SL].
  assert (TR : forall k, (0 <= k)%Z -> qtrunc (qz k) = k).
  { intros k K. rewrite qtrunc_nonneg by (change 0 with (qz 0); apply (proj1 (qz_le _ _)); exact K). apply qfloor_unique; [apply Qcle_refl|]. change 1 with (qz 1). rewrite <- qz_add. apply (proj1 (qz_lt _ _)). lia. }
  assert (RE : forall k, round_even (qz k) = k).
  { intros k. unfold round_even. cbv zeta. assert (FK : qfloor (qz k) = k) by (apply qfloor_unique; [apply Qcle_refl|]; change 1 with (qz 1); rewrite <- qz_add; apply (proj1 (qz_lt _ _)); lia).
    rewrite FK. replace (qz k - qz k) with 0 by ring. reflexivity. }
  set (row k := match files k with Some u => sp_counts u ++ repeat 0 (n - length (sp_counts u)) | None => [] end).
  set (E := tab n (fun i => a1 * qnat i)).
  exists (response_of t (map (fun x => row (qtrunc (t_Eg x))) t) E).
  assert (EM : qmaximum (map t_Eg t) = Ok (t_Eg x)).
  { destruct (qmaximum (map t_Eg t)) as [top|] eqn:Q; [|destruct t; [congruence|discriminate]]. destruct (qmaximum_sorted t top ST Q) as (y & LY & <-).
    rewrite LX in LY. now injection LY as ->. }
  split.
  - unfold load_zip. cbv zeta. rewrite (isort_of_sorted _ (map t_Eg t) (Permutation_refl _) ST). replace (forallb _ _) with true.
    2:{ symmetry. apply forallb_forall. intros k I. apply in_map_iff in I as (e & <- & I). apply in_map_iff in I as (y & <- & I).
        destruct (ALL y I) as (k & u & EY & KY & FY & _). now rewrite EY, TR, FY. }
    cbn [negb]. rewrite EM. cbn [rbind]. rewrite EX, TR, FX, CX by exact KX. rewrite SL.
    destruct (Z.ltb_spec (Z.of_nat n - 1 + 1) 0); [lia|].
    assert (R : rmapm (fun k => zip_row (Z.to_nat (Z.of_nat n - 1 + 1)) (files k)) (map qtrunc (map t_Eg t)) = Ok (map (fun x => row (qtrunc (t_Eg x))) t)).
    { apply rmapm_F2. replace (Z.to_nat (Z.of_nat n - 1 + 1)) with n by lia. revert ALL. clear - TR. intros ALL. induction t as [|y t IH]; cbn [map]; constructor.
      - destruct (ALL y (or_introl eq_refl)) as (k & u & EY & KY & FY & CY & NY). unfold row. rewrite EY, TR, FY by exact KY. unfold zip_row, fill_row.
        destruct (Nat.eqb_spec (length (sp_counts u)) 1); [lia|]. destruct (Nat.leb_spec (length (sp_counts u)) n); [reflexivity|lia].
      - apply IH. intros z I. apply ALL. now right. }
    rewrite R. cbn [rbind]. unfold linspace. destruct (Z.ltb_spec (Z.of_nat n - 1 + 1) 0); [lia|]. cbn [rbind]. f_equal. f_equal. unfold E.
    replace (Z.to_nat (Z.of_nat n - 1 + 1)) with n by lia. apply tab_ext. intros i Hi.
    assert (Z : qz (Z.of_nat n - 1 + 1 - 1) <> 0).
    { intros Q. assert (E2 : qz (Z.of_nat n - 1 + 1 - 1) = qz 0) by exact Q. apply qz_inj in E2. lia. }
    field. exact Z.
  - unfold load_dir. rewrite ET. cbn [rbind]. cbv zeta. 
    assert (RV : exists names, rev (map (fun r => round_even (t_Eg r)) t) = kx :: names).
    { rewrite TE, map_app, rev_app_distr. cbn. rewrite EX, RE. eauto. }
    destruct RV as [names ->].
    assert (RS : forall k u, files k = Some u -> sp_cal u = (0, a1, 0) -> (2 <= length (sp_counts u))%nat ->
       read_spectrum (files k) = Ok (mkV (sp_counts u) (tab (length (sp_counts u)) (fun i => a1 * qnat i)) None KeV)).
    { intros k u F C L. unfold read_spectrum. rewrite F. destruct (Nat.leb_spec (length (sp_counts u)) 1); [lia|]. rewrite C.
      replace (quadratic (0, a1, 0) (length (sp_counts u))) with (tab (length (sp_counts u)) (fun i => a1 * qnat i)).
      - unfold mk_vector, v_verify. cbn [v_E v_values v_std]. rewrite tab_length, Nat.eqb_refl. reflexivity.
      - unfold quadratic. apply tab_ext. intros i _. ring. }
    rewrite (RS kx s FX CX) by lia. cbn [rbind v_values v_E]. rewrite LS.
    assert (CAL : forall m v, (2 <= m)%nat -> v_calibration (mkV v (tab m (fun i => a1 * qnat i)) None KeV) = Ok (a1 * qnat 0, a1 * qnat 1 - a1 * qnat 0)).
    { intros m v L. unfold v_calibration. cbn [v_E]. destruct m as [|[|m]]; [lia|lia|]. unfold tab. cbn [seq map]. reflexivity. }
    rewrite CAL by lia. cbn [rbind].
    assert (R : rmapm (fun k => dir_row n (a1 * qnat 0, a1 * qnat 1 - a1 * qnat 0) (files k)) (map (fun r => round_even (t_Eg r)) t) = Ok (map (fun x => row (qtrunc (t_Eg x))) t)).
    { apply rmapm_F2. revert ALL. clear - TR RE RS CAL. intros ALL. induction t as [|y t IH]; cbn [map]; constructor.
      - destruct (ALL y (or_introl eq_refl)) as (k & u & EY & KY & FY & CY & NY). unfold row. rewrite EY, TR, RE, FY by exact KY. rewrite <- FY. unfold dir_row.
        rewrite (RS k u FY CY) by lia. cbn [rbind]. rewrite CAL by lia. cbn [rbind fst snd]. rewrite !(proj2 (qeqb_eq _ _) eq_refl). cbn [andb negb v_values].
        unfold fill_row. destruct (Nat.leb_spec (length (sp_counts u)) n); [reflexivity|lia].
      - apply IH. intros z I. apply ALL. now right. }
    rewrite R. reflexivity.
Qed.
Print Assumptions zip_dir_agree.

(* A directory is refused if a spectrum is missing, or if its first two energies are others
   than those of the last one. *)
Theorem dir_refuses : forall dat t files x, read_table dat = Ok t -> In x t ->
  (files (round_even (t_Eg x)) = None \/
   (exists y u w, last (map Some t) None = Some y /\ files (round_even (t_Eg y)) = Some w /\ files (round_even (t_Eg x)) = Some u /\
      (channel u 0 <> channel w 0 \/ channel u 1 <> channel w 1)) \/
   (exists y u w, last (map Some t) None = Some y /\ files (round_even (t_Eg y)) = Some w /\ files (round_even (t_Eg x)) = Some u /\
      (length (sp_counts w) < length (sp_counts u))%nat)) ->
  forall r, load_dir dat files <> Ok r.
Proof.
  intros dat t files x ET IX BAD r H. unfold load_dir in H. rewrite ET in H. cbn [rbind] in H. cbv zeta in H.
  assert (TN : exists y t', t = t' ++ [y]) by (destruct t as [|y t0] using rev_ind; [destruct IX|eauto]). destruct TN as (y & t' & TE).
  assert (LY : last (map Some t) None = Some y) by (rewrite TE, map_app; cbn [map]; now rewrite last_last).
  assert (RV : exists names, rev (map (fun r => round_even (t_Eg r)) t) = round_even (t_Eg y) :: names) by (rewrite TE, map_app, rev_app_distr; cbn; eauto).
  destruct RV as [names RV]. rewrite RV in H. clear RV.
  assert (RS : forall k v, read_spectrum (files k) = Ok v -> exists u, files k = Some u /\ v_values v = sp_counts u /\
            exists l, v_E v = channel u 0 :: channel u 1 :: l).
  { intros k0 v E. unfold read_spectrum in E. destruct (files k0) as [u|]; [|discriminate]. destruct (Nat.leb_spec (length (sp_counts u)) 1); [discriminate|].
    unfold mk_vector in E. destruct (v_verify _); [|discriminate]. cbn [rbind] in E. injection E as <-. exists u. cbn [v_values v_E].
    split; [reflexivity|]. split; [reflexivity|]. unfold quadratic, channel. destruct (sp_cal u) as [[a0 a1] a2].
    destruct (length (sp_counts u)) as [|[|m]]; [lia|lia|]. unfold tab. cbn [seq map]. eexists. reflexivity. }
  destruct (read_spectrum (files (round_even (t_Eg y)))) as [lst|] eqn:EL; [|discriminate]. cbn [rbind] in H.
  destruct (RS _ _ EL) as (w & FW & VW & l & EW). unfold v_calibration in H at 1. rewrite EW in H.
  destruct (rmapm _ _) as [rows|] eqn:ER; [|discriminate]. apply rmapm_F2 in ER. apply F2_map_r in ER.
  assert (exists row, (do cal <- Ok (channel w 0, channel w 1 - channel w 0) ;; dir_row (length (v_values lst)) cal (files (round_even (t_Eg x)))) = Ok row) as [row HR].
  { clear - ER IX. induction ER; destruct IX; [subst; eauto|auto]. }
  cbn [rbind] in HR. unfold dir_row in HR. destruct (read_spectrum (files (round_even (t_Eg x)))) as [v|] eqn:EV; [|discriminate]. cbn [rbind] in HR.
  destruct (RS _ _ EV) as (u & FU & VU & l' & EU). unfold v_calibration in HR. rewrite EU in HR. cbn [rbind fst snd] in HR.
  destruct (qeqb (channel u 0) (channel w 0) && qeqb (channel u 1 - channel u 0) (channel w 1 - channel w 0)) eqn:EC; cbn [negb] in HR; [|discriminate].
  apply andb_true_iff in EC as [C1 C2]. apply qeqb_eq in C1, C2. rewrite VU, VW in HR. apply fill_row_ok in HR as (LE & _).
  destruct BAD as [N | [(y' & u' & w' & A & B & C & D) | (y' & u' & w' & A & B & C & D)]]; [congruence| |];
    rewrite LY in A; injection A as <-; rewrite FW in B; injection B as <-; rewrite FU in C; injection C as <-; [|lia].
  destruct D as [D|D]; [contradiction|]. apply D. rewrite C1 in C2.
  replace (channel u 1) with (channel u 1 - channel w 0 + channel w 0) by ring. rewrite C2. ring.
Qed.
Print Assumptions dir_refuses.

(* ------------------------------------------------------------------ what goes wrong *)
Definition trow0 (e : Z) : trow := mkRow (qz e) 1 1 1 0 0 0.
Definition files2 (c1 c2 : Qc * Qc * Qc) : spectra := fun k =>
  if (k =? 1)%Z then Some (mkSp c1 2 [qz 5; 0; 0]) else if (k =? 2)%Z then Some (mkSp c2 2 [0; qz 7; 0]) else None.
Definition cal0 : Qc * Qc * Qc := (0, 1, 0).

(* A table in descending order: the line of 2 keV gets the spectrum of 1 keV. *)
Theorem zip_spectra_refuted : exists t files r, load_zip (Some t) files = Ok r /\ has_table r t /\
  exists x row s other, hd_error t = Some x /\ hd_error (r_cmp r) = Some row /\ files (qtrunc (t_Eg x)) = Some s /\ ~ holds_counts s row /\
    files (qtrunc (t_Eg x) - 1)%Z = Some other /\ sp_counts other = row.
Proof.
  exists [trow0 2; trow0 1], (files2 cal0 cal0). eexists. split; [reflexivity|]. split; [apply has_table_of|].
  eexists (trow0 2), [qz 5; 0; 0], (mkSp cal0 2 [0; qz 7; 0]), (mkSp cal0 2 [qz 5; 0; 0]). do 3 (split; [reflexivity|]). split.
  - intros [k H]. cbn [sp_counts app] in H. injection H as E _. assert (Q : qeqb (qz 5) 0 = true) by (rewrite E; now apply qeqb_eq). vm_compute in Q. discriminate.
  - split; reflexivity.
Qed.
Print Assumptions zip_spectra_refuted.
(* A constant term in the calibration: the last channel is not at its energy, which the
   directory with the same files has right. *)
Theorem zip_energies_refuted : exists t files dat r r' s, load_zip (Some t) files = Ok r /\ load_dir dat files = Ok r' /\ read_table dat = Ok t /\
  files 2%Z = Some s /\ length (r_Ecmp r) = 3%nat /\ vget (r_Ecmp r) 2 <> channel s 2 /\ vget (r_Ecmp r') 2 = channel s 2.
Proof.
  exists [trow0 1; trow0 2], (files2 (1, 1, 0) (1, 1, 0)), [DMarker; DCount 2; DText; DRow [1; 1; 1; 1; 0; 0; 0]; DRow [qz 2; 1; 1; 1; 0; 0; 0]].
  eexists _, _, (mkSp (1, 1, 0) 2 [0; qz 7; 0]). split; [reflexivity|]. split; [reflexivity|]. do 3 (split; [reflexivity|]).
  split.
  - intros H. apply qeqb_eq in H. vm_compute in H. discriminate.
  - apply qeqb_eq. vm_compute. reflexivity.
Qed.
Print Assumptions zip_energies_refuted.
(* Spectra with different calibrations: a directory is refused, the same files in an archive
   are taken as if they had the calibration of the last one. *)
Theorem zip_calibration_refuted : exists t files dat r s, load_zip (Some t) files = Ok r /\ load_dir dat files = Raise NotImplementedErr /\ read_table dat = Ok t /\
  files 1%Z = Some s /\ hd_error (r_cmp r) = Some (sp_counts s) /\ vget (r_Ecmp r) 1 <> channel s 1.
Proof.
  exists [trow0 1; trow0 2], (files2 (0, qz 3, 0) cal0), [DMarker; DCount 2; DText; DRow [1; 1; 1; 1; 0; 0; 0]; DRow [qz 2; 1; 1; 1; 0; 0; 0]].
  eexists _, (mkSp (0, qz 3, 0) 2 [qz 5; 0; 0]). split; [reflexivity|]. split; [reflexivity|]. do 3 (split; [reflexivity|]).
  intros H. apply qeqb_eq in H. vm_compute in H. discriminate.
Qed.
Print Assumptions zip_calibration_refuted.
(* The two formats look for different files if an energy is not whole. *)
Theorem zip_dir_names_refuted : exists t files dat r, load_zip (Some t) files = Ok r /\ load_dir dat files = Raise OSErr /\ read_table dat = Ok t.
Proof.
  exists [mkRow 1 1 1 1 0 0 0; mkRow (qn 14 5) 1 1 1 0 0 0], (files2 cal0 cal0), [DMarker; DCount 2; DText; DRow [1; 1; 1; 1; 0; 0; 0]; DRow [qn 14 5; 1; 1; 1; 0; 0; 0]].
  eexists. split; [reflexivity|]. split; reflexivity.
Qed.
Print Assumptions zip_dir_names_refuted.

(* ------------------------------------------------------------------ examples *)
Definition dat2 : list dline := [DText; DMarker; DCount 2; DText; DRow [1; 1; 1; 1; 0; 0; 0]; DRow [qz 2; 1; 1; 1; 0; 0; 0]; DText].
Example dir_ex : exists r, load_dir dat2 (files2 cal0 cal0) = Ok r /\ length (r_cmp r) = 2%nat /\ r_cmp r <> [].
Proof. eexists. split; [reflexivity|]. split; [reflexivity|discriminate]. Qed.
(* spectra of different lengths *)
Definition files3 : spectra := fun k =>
  if (k =? 1)%Z then Some (mkSp cal0 1 [qz 5; 1]) else if (k =? 2)%Z then Some (mkSp cal0 2 [0; qz 7; 0]) else None.
Example zip_ex : exists r, load_zip (Some [trow0 1; trow0 2]) files3 = Ok r /\ r_cmp r = [[qz 5; 1; 0]; [0; qz 7; 0]].
Proof. eexists. split; reflexivity. Qed.
Example agree_ex : exists r, load_zip (Some [trow0 1; trow0 2]) files3 = Ok r /\ load_dir dat2 files3 = Ok r.
Proof.
  apply (zip_dir_agree dat2 [trow0 1; trow0 2] files3 1 3); [reflexivity|discriminate| | |].
  - unfold sorted_table, trow0. cbn [map t_Eg]. repeat constructor. apply (proj1 (qz_le _ _)). lia.
  - intros x [<- | [<- | []]]; [exists 1%Z|exists 2%Z]; eexists; cbn [trow0 t_Eg]; (split; [reflexivity|]); (split; [lia|]); (split; [reflexivity|]); (split; [reflexivity|]); cbn; lia.
  - intros x u k H E F. cbn in H. injection H as <-. cbn [t_Eg trow0] in E. apply qz_inj in E. subst k. cbn in F. injection F as <-. split; reflexivity.
Qed.
Example zip_loads_ex : exists r, load_zip (Some [trow0 1; trow0 2]) (files2 cal0 cal0) = Ok r.
Proof. eexists. reflexivity. Qed.
(* the first spectrum is longer than the last one: both refuse *)
Example longer_ex : load_zip (Some [trow0 1; trow0 2]) (fun k => if (k =? 1)%Z then files2 cal0 cal0 2%Z else files3 1%Z) = Raise ValueError /\
  load_dir dat2 (fun k => if (k =? 1)%Z then files2 cal0 cal0 2%Z else files3 1%Z) = Raise ValueError.
Proof. split; reflexivity. Qed.
Example dir_refuses_ex : load_dir dat2 (fun k => if (k =? 1)%Z then None else files3 k) = Raise OSErr.
Proof. reflexivity. Qed.
(* a path with neither *)
Example nothing_ex : load_response Nothing = Raise ValueError /\ load_response (AZip None files3) = Raise ValueError.
Proof. split; reflexivity. Qed.

(* The table of resp.dat: the lines after the header that follows the announced number, as many
   as announced, each with its seven numbers in the order Eg, FWHM, Eff_tot, FE, SE, DE, c511. *)
Definition table_line (x : trow) (d : dline) : Prop :=
  d = DRow [t_Eg x; t_fwhm x; t_eff x; t_FE x; t_SE x; t_DE x; t_c511 x].
Lemma after_marker_spec dat rest : after_marker dat = Some rest <-> exists before, dat = before ++ DMarker :: rest /\ ~ In DMarker before.
Proof.
  induction dat as [|d l IH]; cbn [after_marker].
  - split; [discriminate|]. intros ([|? ?] & H & _); discriminate.
  - assert (SK : d <> DMarker -> (after_marker l = Some rest <-> exists before, d :: l = before ++ DMarker :: rest /\ ~ In DMarker before)).
    { intros N. rewrite IH. split.
      - intros (b & -> & NI). exists (d :: b). split; [reflexivity|]. intros [Q|Q]; contradiction.
      - intros ([|d' b] & H & NI); cbn [app] in H; injection H as H1 H2; [contradiction|]. exists b. split; [exact H2|]. intros Q. apply NI. now right. }
    destruct d; [|apply SK; discriminate..]. split.
    + intros H. injection H as ->. exists []. split; [reflexivity|intros []].
    + intros ([|d' b] & H & NI); cbn [app] in H; injection H as H1; [now f_equal|]. exfalso. apply NI. left. now symmetry.
Qed.
Lemma row_of_spec d x : row_of d = Ok x <-> table_line x d.
Proof.
  unfold table_line. split.
  - intros H. destruct d as [| |l|]; try discriminate. do 7 (destruct l as [|? l]; [discriminate|]). destruct l; [|discriminate]. cbn [row_of] in H. injection H as <-. reflexivity.
  - intros ->. cbn [row_of]. now destruct x.
Qed.
Theorem dir_table : forall dat t, read_table dat = Ok t <->
  exists before header lines after, dat = before ++ DMarker :: DCount (Z.of_nat (length lines)) :: header :: lines ++ after /\
    ~ In DMarker before /\ (0 < length lines)%nat /\ Forall2 table_line t lines.
Proof.
  intros dat t. unfold read_table. split.
  - intros H. destruct (after_marker dat) as [rest|] eqn:AM; [|discriminate]. apply after_marker_spec in AM. destruct AM as (b & -> & NI).
    destruct rest as [|[| n | |] [|h rest]]; try discriminate.
    destruct (Z.leb_spec n 0); [discriminate|]. destruct (Nat.ltb_spec (length rest) (Z.to_nat n)) as [|L]; [discriminate|].
    exists b, h, (firstn (Z.to_nat n) rest), (skipn (Z.to_nat n) rest). rewrite firstn_skipn, firstn_length, Nat.min_l by lia. rewrite Z2Nat.id by lia.
    split; [reflexivity|]. split; [exact NI|]. split; [lia|]. apply rmapm_F2 in H. eapply F2_imp; [|exact H]. cbn beta. intros x d _ Q. now apply row_of_spec.
  - intros (b & h & lines & after & -> & NI & P & F). rewrite (proj2 (after_marker_spec _ _)) by (exists b; split; [reflexivity|exact NI]). cbv iota beta.
    destruct (Z.leb_spec (Z.of_nat (length lines)) 0); [lia|]. rewrite Nat2Z.id, app_length. destruct (Nat.ltb_spec (length lines + length after) (length lines)); [lia|].
    rewrite firstn_app, Nat.sub_diag, firstn_all. cbn [firstn]. rewrite app_nil_r. apply rmapm_F2. eapply F2_imp; [|exact F]. cbn beta. intros x d _ Q. now apply row_of_spec.
Qed.
Print Assumptions dir_table.
Example dir_table_ex : read_table [DText; DMarker; DCount 1; DText; DRow (ql [1;2;3;4;5;6;7]%Z); DRow (ql [8]%Z)] = Ok [mkRow (qz 1) (qz 2) (qz 3) (qz 4) (qz 5) (qz 6) (qz 7)].
Proof. reflexivity. Qed.
