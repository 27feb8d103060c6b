(* C71, C72: construction and integrity checks; C08: cutting like another matrix. *)
From Verif Require Import PyBase Axis MatrixModel MatrixSpec CutSpec CheckModel CheckProofs.

(* C71: whatever the constructor accepts is well formed and holds the given data ... *)
Theorem matrix_constructor_result : forall v eg ex s st m,
  rect_arr v -> (forall x, s = Some x -> rect_arr x) ->
  mk_matrix v eg ex s st = Ok m ->
  consistent m /\ values m = v /\ std m = s /\
  (forall e, eg = Some e -> Eg m = e) /\ (forall e, ex = Some e -> Ex m = e) /\
  (eg = None -> forall j, (j < length (Eg m))%nat -> nth j (Eg m) 0 = qnat j + qn 1 2) /\
  (ex = None -> forall i, (i < length (Ex m))%nat -> nth i (Ex m) 0 = qnat i + qn 1 2) /\
  Ok (state m) = set_state st.
Proof. exact constructor_accepts. Qed.
Print Assumptions matrix_constructor_result.
(* ... everything that does not fit is refused ... *)
Theorem matrix_constructor_rejects : forall v eg ex s st,
  (exists e, ex = Some e /\ length e <> a_nr v) \/ (exists e, eg = Some e /\ length e <> a_nc v) \/
  (exists x, s = Some x /\ (a_nr x <> a_nr v \/ a_nc x <> a_nc v)) ->
  mk_matrix v eg ex s st = Raise ValueError.
Proof. exact constructor_rejects. Qed.
Print Assumptions matrix_constructor_rejects.
(* ... and everything that fits is accepted. *)
Theorem matrix_constructor_accepts : forall v eg ex s st,
  (forall e, ex = Some e -> length e = a_nr v) -> (forall e, eg = Some e -> length e = a_nc v) ->
  (forall x, s = Some x -> a_nr x = a_nr v /\ a_nc x = a_nc v) -> (exists t, set_state st = Ok t) ->
  exists m, mk_matrix v eg ex s st = Ok m.
Proof. exact constructor_total. Qed.
Print Assumptions matrix_constructor_accepts.

(* C72: verify_integrity(check_equidistant) *)
Theorem verify_integrity_iff : forall m c, rect_arr (values m) -> (forall s, std m = Some s -> rect_arr s) ->
  verify_integrity_eq m c = Ok tt <->
  consistent m /\ (c = true -> verify_equidistant (Ex m) = Ok tt /\ verify_equidistant (Eg m) = Ok tt).
Proof. exact check_integrity_lemma. Qed.
Print Assumptions verify_integrity_iff.
(* every equidistant axis passes *)
Theorem equidistant_axis_passes : forall l,
  (exists a0 a1, forall i, (i < length l)%nat -> nth i l 0 = a0 + a1 * qnat i) -> verify_equidistant l = Ok tt.
Proof. exact equidistant_ok. Qed.
Print Assumptions equidistant_axis_passes.
(* an axis that passes has all its bin widths within 1.5e-6 of the second, so bin i is
   at most i*1.5e-6 away from where the calibration puts it *)
Theorem equidistant_check_iff : forall l, (2 < length l)%nat ->
  verify_equidistant l = Ok tt <->
  forall i, (S i < length l)%nat -> qabs ((nth (S i) l 0 - nth i l 0) - (nth 2 l 0 - nth 1 l 0)) < qn 15 10000000.
Proof. exact equidistant_check. Qed.
Print Assumptions equidistant_check_iff.
Theorem equidistant_check_deviation : forall l, (2 < length l)%nat -> verify_equidistant l = Ok tt ->
  forall i, (i < length l)%nat -> qabs (nth i l 0 - (nth 0 l 0 + qnat i * (nth 2 l 0 - nth 1 l 0))) <= qnat i * qn 15 10000000.
Proof. exact equidistant_deviation. Qed.
Print Assumptions equidistant_check_deviation.
(* The check is absolute: an axis with very small bins passes whatever its shape. *)
Theorem equidistant_check_absolute_refuted : exists l, verify_equidistant l = Ok tt /\ (2 < length l)%nat /\
  nth 2 l 0 - nth 1 l 0 = qz 5 * (nth 1 l 0 - nth 0 l 0) /\ 0 < nth 1 l 0 - nth 0 l 0.
Proof. exists [0; qn 1 10000000; qn 6 10000000]. split; [reflexivity|]. split; [cbn; lia|]. split; [now apply qeqb_eq|reflexivity]. Qed.
Print Assumptions equidistant_check_absolute_refuted.

(* C08: cut_like keeps exactly the bins inside the range of the other matrix, on both
   axes, in place and as a copy. *)
Theorem cut_like_window : forall m other lox hix log hig,
  consistent m -> Ex m <> [] -> Eg m <> [] -> increasing (Ex m) -> increasing (Eg m) ->
  (In lox (Ex other) /\ forall y, In y (Ex other) -> lox <= y) /\ (In hix (Ex other) /\ forall y, In y (Ex other) -> y <= hix) ->
  (In log (Eg other) /\ forall y, In y (Eg other) -> log <= y) /\ (In hig (Eg other) /\ forall y, In y (Eg other) -> y <= hig) ->
  let kx := in_window (Some lox) (Some hix) in
  let kg := in_window (Some log) (Some hig) in
  cut_like_inplace m other =
  (mkM (mkArr (length (filter kg (Eg m))) (map (select kg (Eg m)) (select kx (Ex m) (a_rows (values m)))))
       (filter kg (Eg m)) (filter kx (Ex m)) (std m) (state m), Ok tt).
Proof. exact cut_like_inplace_lemma. Qed.
Print Assumptions cut_like_window.
Theorem cut_like_copy_window : forall m other lox hix log hig,
  consistent m -> Ex m <> [] -> Eg m <> [] -> increasing (Ex m) -> increasing (Eg m) ->
  (In lox (Ex other) /\ forall y, In y (Ex other) -> lox <= y) /\ (In hix (Ex other) /\ forall y, In y (Ex other) -> y <= hix) ->
  (In log (Eg other) /\ forall y, In y (Eg other) -> log <= y) /\ (In hig (Eg other) /\ forall y, In y (Eg other) -> y <= hig) ->
  let kx := in_window (Some lox) (Some hix) in
  let kg := in_window (Some log) (Some hig) in
  cut_like_copy m other =
  Ok (mkM (mkArr (length (filter kg (Eg m))) (map (select kg (Eg m)) (select kx (Ex m) (a_rows (values m)))))
       (filter kg (Eg m)) (filter kx (Ex m)) None None).
Proof. exact cut_like_copy_lemma. Qed.
Print Assumptions cut_like_copy_window.

(* Examples *)
Example chk_m : matrix :=
  mkM (mkArr 4 [ql [1;2;3;4]%Z; ql [5;6;7;8]%Z; ql [9;10;11;12]%Z]) (ql [10;20;30;40]%Z) (ql [5;6;7]%Z) None None.
Example chk_other : matrix := mkM (mkArr 2 [ql [0;0]%Z; ql [0;0]%Z]) (ql [15;30]%Z) (ql [6;9]%Z) None None.
Example chk_cut_like : let '(m, r) := cut_like_inplace chk_m chk_other in
  r = Ok tt /\ leqb (Eg m) (ql [20;30]%Z) && leqb (Ex m) (ql [6;7]%Z) && lleqb (a_rows (values m)) [ql [6;7]%Z; ql [10;11]%Z] = true.
Proof. vm_compute. auto. Qed.
Example chk_constructor : exists m, mk_matrix (mkArr 2 [ql [1;2]%Z]) None (Some (ql [7]%Z)) (Some (mkArr 2 [ql [3;4]%Z])) SNone = Ok m /\
  leqb (Eg m) [qn 1 2; qn 3 2] = true.
Proof. eexists. split; vm_compute; reflexivity. Qed.
Example chk_rejects : mk_matrix (mkArr 2 [ql [1;2]%Z]) (Some (ql [7]%Z)) None None SNone = Raise ValueError.
Proof. reflexivity. Qed.
Example chk_equi : verify_equidistant (ql [10;20;30;40]%Z) = Ok tt /\ verify_equidistant (ql [10;20;30;41]%Z) = Raise ValueError.
Proof. split; vm_compute; reflexivity. Qed.
