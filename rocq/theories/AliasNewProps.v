(* C74, the constructors: a call of Vector or Matrix with arrays of any variables or made on the
   spot shows exactly what the model of the constructor returns, or raises its exception and
   leaves everything as it was. *)
From Verif Require Import PyBase Axis MatrixModel MatrixRunModel VectorModel FillModel ArithModel AliasModel AliasSpec AliasProofs AliasStep AliasRun.
Local Open Scope nat_scope.

(* ------------------------------------------------ specification *)
(* the contents of optional and two-dimensional arguments *)
Definition argument_o (s : heap) (a : option src) : option (option (list Qc)) :=
  match a with None => Some None | Some x => option_map Some (argument s (Some x)) end.
Definition shown_attr2 (x : shown) (a : attr) : option arr2 :=
  match x, a with
  | ShArr2 l, AWhole => Some l
  | ShMat m, AValues => Some (values m)
  | ShMat m, AStd => std m
  | _, _ => None
  end.
Definition argument2 (s : heap) (a : src2) : option arr2 :=
  match a with STemp2 x => Some x | SAttr2 i b => match shows s i with Some x => shown_attr2 x b | None => None end end.
Definition argument2_o (s : heap) (a : option src2) : option (option arr2) :=
  match a with None => Some None | Some x => option_map Some (argument2 s x) end.

(* ------------------------------------------------ arguments *)
Lemma shows_with s h i : valid s -> grows [] (mem s) h -> shows (with_mem s h) i = shows s i.
Proof.
  intros V G. unfold shows, with_mem. cbn [mem objs]. destruct (nth_error (objs s) i) as [o|] eqn:N; [|reflexivity]. cbn [option_map]. f_equal.
  apply (show_frame [] _ _ _ G); [|intros c _ []]. intros c Hc. apply nth_error_In in N. exact (V o c N Hc).
Qed.
Lemma argument_with s h a : valid s -> grows [] (mem s) h -> argument (with_mem s h) a = argument s a.
Proof. intros V G. destruct a as [[xs|i b]|]; cbn [argument]; try reflexivity. now rewrite shows_with. Qed.
Lemma argument2_with s h a : valid s -> grows [] (mem s) h -> argument2 (with_mem s h) a = argument2 s a.
Proof. intros V G. destruct a as [xs|i b]; cbn [argument2]; try reflexivity. now rewrite shows_with. Qed.
Lemma eval1 s x xs : valid s -> argument s (Some x) = Some xs -> exists h A, eval s x = Ok (h, A) /\ get h A = xs /\ fit h A /\ grows [] (mem s) h.
Proof. intros V E. exact (argument_eval s (Some x) xs V E). Qed.
Lemma eval_o s x xs : valid s -> argument_o s x = Some xs -> exists h A, eval_opt eval s x = Ok (h, A) /\ option_map (get h) A = xs /\ fit h (ocells A) /\ grows [] (mem s) h.
Proof.
  intros V. destruct x as [x|]; cbn [argument_o eval_opt].
  - destruct (argument s (Some x)) as [ys|] eqn:E; [|discriminate]. intros H. injection H as <-. destruct (eval1 s x ys V E) as (h & A & -> & <- & F & G). exists h, (Some A). auto.
  - intros H. injection H as <-. exists (mem s), None. split; [reflexivity|]. split; [reflexivity|]. split; [intros c []|apply grows_refl].
Qed.
Lemma eval2d s x xs : valid s -> argument2 s x = Some xs -> exists h A, eval2 s x = Ok (h, A) /\ get2 h A = xs /\ fit h (cells2 A) /\ grows [] (mem s) h.
Proof.
  intros V H. assert (X : exists h A, eval2 s x = Ok (h, A) /\ get2 h A = xs).
  { destruct x as [ys|i b]; cbn [argument2 eval2] in *.
    - injection H as <-. destruct (alloc2 (mem s) ys) as [h A] eqn:E. exists h, A. split; [reflexivity|]. now apply alloc2_spec in E as (_ & E & _).
    - unfold shows, find_obj in *. destruct (nth_error (objs s) i) as [o|]; [|discriminate]. cbn [option_map rbind] in *.
      destruct o as [a|a|v|m]; destruct b; cbn in *; try discriminate; try (injection H as <-; eexists; eexists; split; [reflexivity|reflexivity]).
      destruct (hm_std m) as [d|]; [|discriminate]. injection H as <-. eexists; eexists; split; [reflexivity|reflexivity]. }
  destruct X as (h & A & E & GE). exists h, A. destruct (eval2_spec _ _ _ _ E V) as (G & F & _). auto.
Qed.
Lemma eval2_o s x xs : valid s -> argument2_o s x = Some xs -> exists h A, eval_opt eval2 s x = Ok (h, A) /\ option_map (get2 h) A = xs /\ fit h (ocells2 A) /\ grows [] (mem s) h.
Proof.
  intros V. destruct x as [x|]; cbn [argument2_o eval_opt].
  - destruct (argument2 s x) as [ys|] eqn:E; [|discriminate]. intros H. injection H as <-. destruct (eval2d s x ys V E) as (h & A & -> & <- & F & G). exists h, (Some A). auto.
  - intros H. injection H as <-. exists (mem s), None. split; [reflexivity|]. split; [reflexivity|]. split; [intros c []|apply grows_refl].
Qed.
Lemma fit_g h h' a : grows [] h h' -> fit h a -> fit h' a.
Proof. apply fit_grows. Qed.
Lemma get_og h h' a : grows [] h h' -> fit h (ocells a) -> option_map (get h') a = option_map (get h) a.
Proof. intros G F. destruct a as [a|]; [|reflexivity]. cbn. f_equal. now apply grows_nil_get. Qed.
Lemma get2_og h h' a : grows [] h h' -> fit h (ocells2 a) -> option_map (get2 h') a = option_map (get2 h) a.
Proof. intros G F. destruct a as [a|]; [|reflexivity]. cbn. f_equal. now apply grows_nil_get2. Qed.

Section New.
Variable expf : Qc -> Qc.
Variable sqrtf : Qc -> Qc.
Variable gauss : nat -> nat -> Qc.
Variable argsort : list Qc -> list nat.
Local Notation step := (step expf sqrtf gauss argsort).

Theorem vector_constructor_shows : forall s vals E sd u vs es ds, valid s ->
  argument_o s vals = Some vs -> argument s (Some E) = Some es -> argument_o s sd = Some ds ->
  match mk_vector vs es ds u with
  | Ok v => snd (step s (VecNew vals E sd u)) = Ok tt /\ length (objs (fst (step s (VecNew vals E sd u)))) = S (length (objs s)) /\
            shows (fst (step s (VecNew vals E sd u))) (length (objs s)) = Some (ShVec v)
  | Raise e => step s (VecNew vals E sd u) = (s, Raise e)
  end.
Proof.
  intros * V HV HE HD. cbn [AliasModel.step]. unfold vec_new.
  destruct (eval1 _ _ _ V HE) as (h1 & e & -> & GE & FE & G1). cbn [rbind].
  assert (V1 : valid (with_mem s h1)) by now apply valid_with.
  assert (HV' : argument_o (with_mem s h1) vals = Some vs) by (rewrite <- HV; destruct vals; [|reflexivity]; cbn [argument_o]; now rewrite argument_with).
  destruct (eval_o _ _ _ V1 HV') as (h2 & w & -> & GW & FW & G2). cbn [rbind]. cbn [with_mem mem] in G2.
  pose proof (grows_trans _ _ _ _ G1 G2) as G12. assert (V2 : valid (with_mem s h2)) by now apply valid_with.
  assert (HD' : argument_o (with_mem s h2) sd = Some ds) by (rewrite <- HD; destruct sd; [|reflexivity]; cbn [argument_o]; now rewrite argument_with).
  destruct (eval_o _ _ _ V2 HD') as (h3 & d & -> & GD & FD & G3). cbn [rbind]. cbn [with_mem mem] in G3.
  pose proof (grows_trans _ _ _ _ G2 G3) as G23.
  assert (FE3 := fit_g _ _ _ G23 FE). assert (FW3 := fit_g _ _ _ G3 FW).
  assert (GE3 : get h3 e = es) by (rewrite <- GE; now apply grows_nil_get).
  assert (GW3 : option_map (get h3) w = vs) by (rewrite <- GW; now apply get_og).
  destruct (match w with Some w => (h3, w) | None => _ end) as [h0 w0] eqn:W.
  assert (X : grows [] h3 h0 /\ fit h0 w0 /\ get h0 w0 = match vs with Some v => v | None => map (fun _ => 0%Qc) es end).
  { clear GW HV HV'. destruct w as [w|]; cbn [option_map] in GW3; subst vs.
    - injection W as <- <-. split; [apply grows_refl|]. split; [exact FW3|reflexivity].
    - apply alloc_spec in W as (GA & GG & _ & IN & _). split; [exact GA|]. split; [intros c Hc; apply IN in Hc; lia|]. rewrite GG, <- GE3. unfold get. rewrite map_map. reflexivity. }
  destruct X as (G0 & FW0 & GW0). destruct (new_vec h0 w0 e d u) as [h' v] eqn:NV.
  apply new_vec_spec in NV as (G4 & _ & LK). rewrite LK; [|exact FW0|exact (fit_g _ _ _ G0 FE3)|exact (fit_g _ _ _ G0 FD)].
  rewrite GW0, (grows_nil_get _ _ _ G0 FE3), GE3, (get_og _ _ _ G0 FD), GD. unfold mk_vector. cbv zeta. 
  destruct (v_verify _) as [[]|ex] eqn:VV; cbn [rbind]; [|reflexivity].
  unfold bind_new. cbn [fst snd objs]. split; [reflexivity|]. split; [rewrite app_length; cbn; lia|].
  rewrite shows_app. cbn [show]. rewrite LK; [|exact FW0|exact (fit_g _ _ _ G0 FE3)|exact (fit_g _ _ _ G0 FD)].
  now rewrite GW0, (grows_nil_get _ _ _ G0 FE3), GE3, (get_og _ _ _ G0 FD), GD.
Qed.
Theorem matrix_constructor_shows : forall s vals eg ex sd st vs gs xs ds, valid s ->
  argument2 s vals = Some vs -> argument_o s eg = Some gs -> argument_o s ex = Some xs -> argument2_o s sd = Some ds ->
  match mk_matrix vs gs xs ds st with
  | Ok m => snd (step s (MatNew vals eg ex sd st)) = Ok tt /\ length (objs (fst (step s (MatNew vals eg ex sd st)))) = S (length (objs s)) /\
            shows (fst (step s (MatNew vals eg ex sd st))) (length (objs s)) = Some (ShMat m)
  | Raise e => step s (MatNew vals eg ex sd st) = (s, Raise e)
  end.
Proof.
  intros * V HV HG HX HD. cbn [AliasModel.step]. unfold mat_new.
  destruct (eval2d _ _ _ V HV) as (h1 & w & -> & GW & FW & G1). cbn [rbind].
  assert (AO : forall h a r, grows [] (mem s) h -> argument_o s a = Some r -> argument_o (with_mem s h) a = Some r) by (intros h [a|] r G <-; [|reflexivity]; cbn [argument_o]; now rewrite argument_with).
  destruct (eval_o _ _ _ (valid_with _ _ G1 V) (AO _ _ _ G1 HG)) as (h2 & g & -> & GG & FG & G2). cbn [rbind]. cbn [with_mem mem] in G2.
  pose proof (grows_trans _ _ _ _ G1 G2) as G12.
  destruct (eval_o _ _ _ (valid_with _ _ G12 V) (AO _ _ _ G12 HX)) as (h3 & x & -> & GX & FX & G3). cbn [rbind]. cbn [with_mem mem] in G3.
  pose proof (grows_trans _ _ _ _ G12 G3) as G13.
  assert (HD' : argument2_o (with_mem s h3) sd = Some ds) by (rewrite <- HD; destruct sd; [|reflexivity]; cbn [argument2_o]; now rewrite argument2_with).
  destruct (eval2_o _ _ _ (valid_with _ _ G13 V) HD') as (h4 & d & -> & GD & FD & G4). cbn [rbind]. cbn [with_mem mem] in G4.
  pose proof (grows_trans _ _ _ _ G3 G4) as G34. pose proof (grows_trans _ _ _ _ G2 G34) as G24.
  assert (FW4 := fit_g _ _ _ G24 FW). assert (FG4 := fit_g _ _ _ G34 FG). assert (FX4 := fit_g _ _ _ G4 FX).
  assert (GW4 : get2 h4 w = vs) by (rewrite <- GW; now apply grows_nil_get2).
  assert (GG4 : option_map (get h4) g = gs) by (rewrite <- GG; now apply get_og).
  assert (GX4 : option_map (get h4) x = xs) by (rewrite <- GX; now apply get_og).
  destruct (match x with Some x => (h4, x) | None => _ end) as [h5 x0] eqn:X.
  assert (A5 : grows [] h4 h5 /\ fit h5 x0 /\ get h5 x0 = match xs with Some e => e | None => default_axis (a_nr vs) end).
  { clear GX HX. destruct x as [x|]; cbn [option_map] in GX4; subst xs.
    - injection X as <- <-. split; [apply grows_refl|]. split; [exact FX4|reflexivity].
    - apply alloc_spec in X as (GA & GG' & _ & IN & _). split; [exact GA|]. split; [intros c Hc; apply IN in Hc; lia|]. rewrite GG'. f_equal. rewrite <- GW4. unfold a_nr, get2. cbn [a_rows]. now rewrite map_length. }
  destruct A5 as (G5 & FX5 & EX5).
  destruct (match g with Some g => (h5, g) | None => _ end) as [h6 g0] eqn:Y.
  assert (A6 : grows [] h5 h6 /\ fit h6 g0 /\ get h6 g0 = match gs with Some e => e | None => default_axis (a_nc vs) end).
  { clear GG HG. destruct g as [g|]; cbn [option_map] in GG4; subst gs.
    - injection Y as <- <-. split; [apply grows_refl|]. split; [exact (fit_g _ _ _ G5 FG4)|]. exact (grows_nil_get _ _ _ G5 FG4).
    - apply alloc_spec in Y as (GA & GG' & _ & IN & _). split; [exact GA|]. split; [intros c Hc; apply IN in Hc; lia|]. rewrite GG'. f_equal. now rewrite <- GW4. }
  destruct A6 as (G6 & FG6 & EG6). pose proof (grows_trans _ _ _ _ G5 G6) as G46.
  destruct (new_mat h6 w g0 x0 d None) as [h' m] eqn:NM. apply new_mat_spec in NM as (G7 & _ & SD & LK).
  assert (L : look_mat h' m = mkM vs (match gs with Some e => e | None => default_axis (a_nc vs) end) (match xs with Some e => e | None => default_axis (a_nr vs) end) ds None).
  { rewrite LK; [|exact (fit_g _ _ _ G46 FW4)|exact FG6|exact (fit_g _ _ _ G6 FX5)|exact (fit_g _ _ _ G46 FD)].
    rewrite EG6, (grows_nil_get _ _ _ G6 FX5), EX5, (grows_nil_get2 _ _ _ G46 FW4), GW4, (get2_og _ _ _ G46 FD), GD. reflexivity. }
  rewrite L. unfold mk_matrix. cbv zeta. destruct (verify_integrity _) as [[]|e1]; cbn [rbind]; [|reflexivity].
  destruct (set_state st) as [t|e2]; cbn [rbind]; [|reflexivity].
  unfold bind_new. cbn [fst snd objs]. split; [reflexivity|]. split; [rewrite app_length; cbn; lia|].
  rewrite shows_app. cbn [show]. unfold look_mat in *. cbn [hm_values hm_Eg hm_Ex hm_std hm_state]. injection L as -> -> -> -> _. reflexivity.
Qed.
End New.
Print Assumptions vector_constructor_shows.
Print Assumptions matrix_constructor_shows.
(* Examples: a vector without values from the energies of another vector; a matrix without axes *)
Example an_e (x : Qc) : Qc := x.
Example an_g (i j : nat) : Qc := if Nat.eqb i j then 1%Qc else 0%Qc.
Example an_s (l : list Qc) : list nat := seq 0 (length l).
Example an_start : heap := run an_e an_e an_g an_s start [ VecNew (Some (STemp (ql [5; 6]%Z))) (STemp (ql [10; 20]%Z)) None KeV ].
Example an_args : valid an_start /\ argument_o an_start None = Some None /\ argument an_start (Some (SAttr 0 AE)) = Some (ql [10; 20]%Z).
Proof. split; [apply run_valid; apply start_separate|]. split; [reflexivity|]. vm_compute. reflexivity. Qed.
Example an_zeros : mk_vector None (ql [10; 20]%Z) None MeV = Ok (mkV (ql [0; 0]%Z) (ql [10; 20]%Z) None MeV).
Proof. reflexivity. Qed.
Example an_matrix : snd (step an_e an_e an_g an_s an_start (MatNew (STemp2 (mkArr 2 [ql [1; 2]%Z])) None None None SNone)) = Ok tt /\
  snd (step an_e an_e an_g an_s an_start (MatNew (STemp2 (mkArr 2 [ql [1; 2]%Z])) (Some (SAttr 0 AE)) (Some (SAttr 0 AValues)) None SNone)) = Raise ValueError.
Proof. split; vm_compute; reflexivity. Qed.
