(* C107: inputs that are refused, with which exception, and that nothing is written. *)
From Verif Require Import PyBase Axis MatrixModel VectorModel FileModel FileSpec.
From Coq Require Import List String.
Import ListNotations.
Local Notation length := List.length (only parsing).

(* MaMa files hold at most 2048 x 2048 bins, spectra at most 8192 *)
Theorem mama_matrix_too_large : forall cwd corner rd6 rd8 m p ft, filetype p ft = TMama ->
  (2048 < Z.of_nat (a_nr (values m)) \/ 2048 < Z.of_nat (a_nc (values m)))%Z ->
  save_matrix cwd corner rd6 rd8 m p ft WValues = ([], Raise AssertionError).
Proof.
  intros cwd corner rd6 rd8 m p ft F H. unfold save_matrix. rewrite F. unfold mama_write2D.
  destruct (Z.ltb_spec 2048 (Z.of_nat (a_nr (values m)))), (Z.ltb_spec 2048 (Z.of_nat (a_nc (values m)))); try reflexivity. lia.
Qed.
Print Assumptions mama_matrix_too_large.
Theorem mama_vector_too_large : forall cwd rd6 rd8 v p ft u, filetype p ft = TMama -> (8192 < Z.of_nat (length (v_values v)))%Z ->
  (v_units v = KeV \/ v_units v = MeV) -> u <> UOther ->
  save_vector cwd rd6 rd8 v p ft u = ([], Raise AssertionError).
Proof.
  intros cwd rd6 rd8 v p ft u F H U NO. unfold save_vector. rewrite F. unfold mama_write1D.
  destruct (Z.ltb_spec 8192 (Z.of_nat (length (v_values v)))); [|lia].
  unfold convert, to_keV, to_MeV. destruct u; [| | |congruence]; destruct U as [U|U]; rewrite ?U; cbn [v_units]; rewrite ?U; reflexivity.
Qed.
Print Assumptions mama_vector_too_large.
(* a save that raises has written nothing *)
Theorem refused_save_writes_nothing : forall cwd corner rd6 rd8 p ft e,
  (forall m which, snd (save_matrix cwd corner rd6 rd8 m p ft which) = Raise e -> fst (save_matrix cwd corner rd6 rd8 m p ft which) = []) /\
  (forall v u, snd (save_vector cwd rd6 rd8 v p ft u) = Raise e -> fst (save_vector cwd rd6 rd8 v p ft u) = []).
Proof.
  intros cwd corner rd6 rd8 p ft e. split.
  - intros m which. unfold save_matrix, mama_write2D.
    destruct (match which with WValues => _ | WStd => _ | WOther => _ end) as [v|]; [|reflexivity].
    destruct (filetype p ft); cbn [written]; try discriminate; try reflexivity.
    + destruct (framed corner v (Eg m) (Ex m)); [discriminate|reflexivity].
    + destruct (framed 0 v (Eg m) (Ex m)); [discriminate|reflexivity].
    + destruct (_ || _)%bool; [reflexivity|]. destruct (calibration m) as [[[[x0 x1] g0] g1]|]; [discriminate|reflexivity].
  - intros v u. unfold save_vector, mama_write1D. destruct (convert u v) as [w|]; [|reflexivity].
    destruct (filetype p ft); cbn [written]; try discriminate; try reflexivity.
    + destruct (columns (v_E w) (v_values w) (v_std w)); [discriminate|reflexivity].
    + destruct (columns (v_E w) (v_values w) (v_std w)); [discriminate|reflexivity].
    + destruct (to_keV w); [|reflexivity]. destruct (_ <? _)%Z; [reflexivity|]. destruct (v_calibration _) as [[b0 b1]|]; [discriminate|reflexivity].
    + destruct (columns (v_E w) (v_values w) (v_std w)); [discriminate|reflexivity].
Qed.
Print Assumptions refused_save_writes_nothing.
(* which matrices cannot be saved: the exception for every reason, in this order *)
Theorem save_matrix_refusals : forall cwd corner rd6 rd8 m p ft which, matrix_ok m ->
  (forall s, std m = Some s -> shape s = shape (values m)) ->
  snd (save_matrix cwd corner rd6 rd8 m p ft which) =
    match which, std m with
    | WOther, _ => Raise NotImplementedErr
    | WStd, None => Raise RuntimeError
    | _, _ =>
        match filetype p ft with
        | TNumpy | TTxt | TTar => Ok tt
        | TCsv | TUnknown => Raise ValueError
        | TMama => if (2048 <? Z.max (Z.of_nat (a_nr (values m))) (Z.of_nat (a_nc (values m))))%Z then Raise AssertionError
                   else if (Nat.min (a_nr (values m)) (a_nc (values m)) <? 2)%nat then Raise IndexError else Ok tt
        end
    end.
Proof.
  intros cwd corner rd6 rd8 m p ft which (A & LX & LG) HS.
  assert (FR : forall z v, shape v = shape (values m) -> exists a, framed z v (Eg m) (Ex m) = Ok a).
  { intros z v E. unfold shape in E. injection E as E1 E2. unfold framed. rewrite LX, LG, E1, E2, !Nat.eqb_refl. cbn [andb negb]. eexists. reflexivity. }
  assert (MM : snd (mama_write2D cwd rd6 rd8 m p) = if (2048 <? Z.max (Z.of_nat (a_nr (values m))) (Z.of_nat (a_nc (values m))))%Z then Raise AssertionError
     else if (Nat.min (a_nr (values m)) (a_nc (values m)) <? 2)%nat then Raise IndexError else Ok tt).
  { unfold mama_write2D, calibration. rewrite <- LX, <- LG.
    destruct (Z.ltb_spec 2048 (Z.max (Z.of_nat (length (Ex m))) (Z.of_nat (length (Eg m))))),
      (Z.ltb_spec 2048 (Z.of_nat (length (Ex m)))), (Z.ltb_spec 2048 (Z.of_nat (length (Eg m)))); cbn [orb snd]; try reflexivity; try lia.
    destruct (Ex m) as [|x0 [|x1 X]]; [reflexivity|destruct (Nat.ltb_spec (Nat.min (length [x0]) (length (Eg m))) 2); [reflexivity|]|].
    1: exfalso; cbn [length] in *; lia.
    destruct (Eg m) as [|g0 [|g1 G]]; reflexivity. }
  unfold save_matrix. destruct which; [|destruct (std m) as [s|] eqn:SD; [|reflexivity]|reflexivity].
  - destruct (filetype p ft); try reflexivity; try exact MM.
    + destruct (FR corner (values m) eq_refl) as (a & ->). reflexivity.
    + destruct (FR 0 (values m) eq_refl) as (a & ->). reflexivity.
  - destruct (filetype p ft); try reflexivity; try exact MM.
    + destruct (FR corner s (HS s eq_refl)) as (a & ->). reflexivity.
    + destruct (FR 0 s (HS s eq_refl)) as (a & ->). reflexivity.
Qed.
Print Assumptions save_matrix_refusals.

(* cutting an axis without bins *)
Theorem cut_empty_axis : forall m ax Emin Emax imin imax r, to_plot_axis ax = Ok r -> r <> AxBoth ->
  (match r with AxEg => Eg m | _ => Ex m end) = [] ->
  cut_inplace m ax Emin Emax imin imax = Raise (match Emin, Emax with Some _, Some _ => IndexError | _, _ => ValueError end).
Proof.
  intros m ax Emin Emax imin imax r P NB E. unfold cut_inplace, cut_data. rewrite P. cbn [rbind]. rewrite E.
  unfold cut_bounds. destruct Emin, Emax; reflexivity.
Qed.
Print Assumptions cut_empty_axis.
(* the printed names of the states differ, and are not the names that the setter accepts *)
Theorem state_names : (forall s t, mstate_str s = mstate_str t -> s = t) /\
  (forall s, set_state (SStr (mstate_str s)) = match s with RAW | UNFOLDED => Ok (Some s) | _ => Raise KeyError end).
Proof. split; [intros [] []; cbv; congruence|intros []; vm_compute; reflexivity]. Qed.
Print Assumptions state_names.

Example rj_m (n : nat) : matrix := mkM (mkArr 2 (repeat [1; 1] n)) [1; 1 + 1] (repeat 1 n) None None.
Example rj_large : matrix_ok (rj_m 2049) /\ (2048 < Z.of_nat (a_nr (values (rj_m 2049))))%Z /\
  snd (save_matrix [] 0 (fun x => x) (fun x => x) (rj_m 3) [] None WStd) = Raise RuntimeError /\
  cut_inplace (rj_m 0) (AStr "Ex"%string) None None true true = Raise ValueError.
Proof.
  assert (L : forall n, length (repeat ([1; 1] : list Qc) n) = n) by (intros; apply repeat_length).
  split; [|split; [|split]].
  - split; [intros r Hr; apply repeat_spec in Hr; subst r; reflexivity|]. unfold a_nr, rj_m. cbn [Ex Eg values a_rows a_nc]. now rewrite !repeat_length.
  - unfold a_nr, rj_m. cbn [values a_rows]. rewrite L. lia.
  - reflexivity.
  - vm_compute. reflexivity.
Qed.
