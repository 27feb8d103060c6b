(* C40-C43: unfolding.  Vocabulary in UnfoldSpec.v (matrix powers, best score). *)
From Verif Require Import PyBase Axis MatrixModel MatrixSpec VectorModel ArithModel SmoothModel SmoothSpec UnfoldModel UnfoldSpec UnfoldProofs UnfoldApplyProofs.

(* the k-th (unfolded, folded) spectra computed by apply *)
Definition iterate (r R : arr2) (num_iter k : nat) : arr2 * arr2 := nth k (unfold_cube r R num_iter) (mkArr 0 [], mkArr 0 []).

(* C40: raw minus refolded after iteration k is raw (I-R)^(k+1); unfolded is
   raw (I + (I-R) + ... + (I-R)^k). *)
Theorem unfold_residual : forall r R nr n num_iter k i j, shaped r nr n -> shaped R n n ->
  (k < num_iter)%nat -> (i < nr)%nat -> (j < n)%nat ->
  aget r i j - aget (snd (iterate r R num_iter k)) i j =
  sumn n (fun l => aget r i l * mpow n (id_minus (aget R)) (S k) l j).
Proof. intros * Sr SR Hk Hi Hj. unfold iterate. rewrite cube_nth by exact Hk. exact (residual r R nr n Sr SR k i j Hi Hj). Qed.
Print Assumptions unfold_residual.
Theorem unfold_closed_form : forall r R nr n num_iter k i j, shaped r nr n -> shaped R n n ->
  (k < num_iter)%nat -> (i < nr)%nat -> (j < n)%nat ->
  aget (fst (iterate r R num_iter k)) i j = sumn n (fun l => aget r i l * geometric n (id_minus (aget R)) k l j).
Proof. intros * Sr SR Hk Hi Hj. unfold iterate. rewrite cube_nth by exact Hk. exact (closed_form r R nr n Sr SR k i j Hi Hj). Qed.
Print Assumptions unfold_closed_form.
(* a row that folds exactly to the raw data no longer changes *)
Theorem unfold_fixed_point : forall r R nr n num_iter k k' i, shaped r nr n -> shaped R n n ->
  (k <= k')%nat -> (k' < num_iter)%nat -> (i < nr)%nat ->
  (forall j, (j < n)%nat -> aget (snd (iterate r R num_iter k)) i j = aget r i j) ->
  forall j, (j < n)%nat -> aget (fst (iterate r R num_iter k')) i j = aget (fst (iterate r R num_iter k)) i j /\
                     aget (snd (iterate r R num_iter k')) i j = aget r i j.
Proof.
  intros * Sr SR Hk Hk' Hi. unfold iterate. rewrite !cube_nth by lia. intros H j Hj.
  replace k' with (k + (k' - k))%nat by lia. exact (fixed_point r R nr n Sr SR k (k' - k) i Hi H j Hj).
Qed.
Print Assumptions unfold_fixed_point.
Theorem unfold_identity_response : forall r R nr n num_iter k i j, shaped r nr n -> shaped R n n ->
  (forall a b, (a < n)%nat -> (b < n)%nat -> aget R a b = idm a b) ->
  (k < num_iter)%nat -> (i < nr)%nat -> (j < n)%nat -> aget (fst (iterate r R num_iter k)) i j = aget r i j.
Proof. intros * Sr SR HR Hk Hi Hj. unfold iterate. rewrite cube_nth by exact Hk. exact (identity_response r R nr n Sr SR k i j HR Hi Hj). Qed.
Print Assumptions unfold_identity_response.
Theorem unfold_rows_independent : forall r r' R nr nr' n i i' num_iter k j,
  shaped r nr n -> shaped r' nr' n -> shaped R n n -> (i < nr)%nat -> (i' < nr')%nat -> (k < num_iter)%nat ->
  (forall l, (l < n)%nat -> aget r i l = aget r' i' l) -> (j < n)%nat ->
  aget (fst (iterate r R num_iter k)) i j = aget (fst (iterate r' R num_iter k)) i' j.
Proof.
  intros * S1 S2 S3 Hi Hi' Hk H Hj. unfold iterate. rewrite !cube_nth by exact Hk.
  exact (rows_independent r r' R nr nr' n i i' k j S1 S2 S3 Hi Hi' H Hj).
Qed.
Print Assumptions unfold_rows_independent.
(* ... and this is what apply returns (without Compton subtraction), negative bins set to 0 *)
Theorem unfold_apply_rows : forall filter1d gaussian un raw resp un' m,
  consistent raw -> u_compton un = false ->
  (forall R, u_R (set_R un resp) = Some R -> consistent R) ->
  apply filter1d gaussian un raw resp = (un', Ok m) ->
  exists R isc, u_R (set_R un resp) = Some R /\ u_iscores un' = Some isc /\
  forall i j, (i < length (Ex raw))%nat -> (j < length (Eg raw))%nat ->
    aget (values m) i j = pos_part (sumn (length (Eg raw)) (fun l => aget (values raw) i l *
      geometric (length (Eg raw)) (id_minus (aget (values R))) (nth i isc 0%nat) l j)).
Proof. exact apply_rows. Qed.
Print Assumptions unfold_apply_rows.

(* C41 *)
Theorem unfold_iterates_keep_counts : forall r R nr n num_iter k i, shaped r nr n -> shaped R n n ->
  row_stochastic n (aget R) -> (k < num_iter)%nat -> (i < nr)%nat ->
  sumn n (aget (fst (iterate r R num_iter k)) i) = sumn n (aget r i) /\
  sumn n (aget (snd (iterate r R num_iter k)) i) = sumn n (aget r i).
Proof.
  intros * Sr SR HR Hk Hi. unfold iterate. rewrite cube_nth by exact Hk.
  pose proof (counts_kept r R nr n Sr SR k i HR Hi) as A. split; [exact A|]. rewrite <- A. exact (fold_counts r R nr n Sr SR k i HR Hi).
Qed.
Print Assumptions unfold_iterates_keep_counts.
Theorem fold_is_product : forall un m R, u_R un = Some R -> consistent m -> consistent R ->
  length (Ex R) = length (Eg R) -> length (Eg m) = length (Eg R) ->
  exists m', fold un m = Ok m' /\ consistent m' /\ Eg m' = Eg m /\ Ex m' = Ex m /\
  (forall i j, (i < length (Ex m))%nat -> (j < length (Eg m))%nat ->
     aget (values m') i j = sumn (length (Eg m)) (fun l => aget (values m) i l * aget (values R) l j)) /\
  (row_stochastic (length (Eg m)) (aget (values R)) ->
     forall i, (i < length (Ex m))%nat -> sumn (length (Eg m)) (aget (values m') i) = sumn (length (Eg m)) (aget (values m) i)).
Proof. exact fold_lemma. Qed.
Print Assumptions fold_is_product.

(* C42.  What is missing for the full claim: with num_iter <= minimum_iterations the call
   raises instead (next theorem). *)
Theorem unfold_selection_partial : forall filter1d gaussian un raw resp un' m, consistent raw ->
  (forall R, u_R (set_R un resp) = Some R -> consistent R) ->
  (forall t, u_tab un = Some t -> tab_ok t) ->
  apply filter1d gaussian un raw resp = (un', Ok m) ->
  exists R f0 isc, u_R (set_R un resp) = Some R /\ fluctuations filter1d (Eg raw) (values raw) = Ok f0 /\
    u_iscores un' = Some isc /\ length isc = length (Ex raw) /\
    forall i, (i < length (Ex raw))%nat ->
      (nth i isc 0 < u_num_iter un)%nat /\ (u_min_iter un <= nth i isc 0)%nat /\
      exists b, best (map (fun p => nth i (scores filter1d (u_weight un) (values raw) f0 (nth 1 (Eg raw) 0 - nth 0 (Eg raw) 0) p) NaN)
                     (unfold_cube (values raw) (values R) (u_num_iter un))) b /\
        nth i isc 0%nat = Nat.max b (u_min_iter un).
Proof. exact apply_selection. Qed.
Print Assumptions unfold_selection_partial.
Theorem unfold_succeeds : forall filter1d gaussian un raw R, consistent raw -> (2 <= length (Eg raw))%nat -> consistent R ->
  update_values un raw = Ok R -> u_compton un = false -> (u_min_iter un < u_num_iter un)%nat ->
  exists un' m, apply filter1d gaussian un raw None = (un', Ok m).
Proof. exact apply_total. Qed.
Print Assumptions unfold_succeeds.
(* what the scores are: (1-w) chi^2 + w * relative fluctuation *)
Theorem unfold_score_meaning : forall filter1d r f0 u f w a1 nr n i,
  shaped r nr n -> shaped u nr n -> shaped f nr n -> length f0 = nr -> (i < nr)%nat -> nth i f0 0 <> 0 ->
  nth i (scores filter1d w r f0 a1 (u, f)) NaN =
  Fin ((1 - w) * chi2 n (aget r i) (aget f i) + w * (fluct_row filter1d a1 (nth i (a_rows u) []) / nth i f0 0)).
Proof. exact scores_row. Qed.
Print Assumptions unfold_score_meaning.
(* C42 refuted: whenever the number of iterations does not exceed the minimum, a valid
   call raises IndexError (and the object's minimum has been changed). *)
Theorem unfold_few_iterations_refuted : forall filter1d gaussian un raw R,
  consistent raw -> (0 < length (Ex raw))%nat -> (2 <= length (Eg raw))%nat ->
  consistent R -> update_values un raw = Ok R -> (0 < u_num_iter un)%nat -> (u_num_iter un <= u_min_iter un)%nat ->
  exists un', apply filter1d gaussian un raw None = (un', Raise IndexError) /\ u_min_iter un' = u_num_iter un.
Proof. exact apply_min_iter. Qed.
Print Assumptions unfold_few_iterations_refuted.

(* C43 *)
Theorem unfold_result_nonnegative : forall filter1d gaussian un raw resp un' m, consistent raw ->
  (forall R, u_R (set_R un resp) = Some R -> consistent R) ->
  (forall t, u_tab un = Some t -> tab_ok t) ->
  apply filter1d gaussian un raw resp = (un', Ok m) ->
  consistent m /\ Eg m = Eg raw /\ Ex m = Ex raw /\ state m = Some UNFOLDED /\ std m = None /\
  forall i j, (i < length (Ex raw))%nat -> (j < length (Eg raw))%nat -> 0 <= aget (values m) i j.
Proof. exact apply_nonneg. Qed.
Print Assumptions unfold_result_nonnegative.
Theorem unfold_rejects : forall filter1d gaussian un raw resp,
  (u_R (set_R un resp) = None -> apply filter1d gaussian un raw resp = (set_R un resp, Raise AssertionError)) /\
  (forall R, u_R (set_R un resp) = Some R ->
     (a_nr (values R) <> a_nc (values R) -> apply filter1d gaussian un raw resp = (set_R un resp, Raise AssertionError)) /\
     (a_nr (values R) = a_nc (values R) ->
        length (Eg raw) <> length (Eg R) \/ allclose (Eg raw) (Eg R) = false \/
        (exists row x, In row (a_rows (values raw)) /\ In x row /\ x < 0) \/
        (exists row x, In row (a_rows (values R)) /\ In x row /\ x < 0) ->
        apply filter1d gaussian un raw resp = (set_R un resp, Raise ValueError))).
Proof. exact apply_rejects. Qed.
Print Assumptions unfold_rejects.

(* Examples *)
Example uf_filter (s : Qc) (l : list Qc) : list Qc := map (fun _ => qsum l / qnat (length l)) l.
Example uf_gauss (e m s : Qc) : Qc := 1 / (1 + (e - m) * (e - m)).
Example uf_raw : matrix := mkM (mkArr 3 [ql [4; 2; 6]%Z; ql [0; 8; 1]%Z]) (ql [100; 200; 300]%Z) (ql [1; 2]%Z) None (Some RAW).
Example uf_R : matrix := mkM (mkArr 3 [ql [1; 0; 0]%Z; [qn 1 4; qn 3 4; 0]; [qn 1 4; qn 1 4; qn 1 2]])
  (ql [100; 200; 300]%Z) (ql [100; 200; 300]%Z) None None.
Example uf_un (n k : nat) : unfolder := mkU (Some uf_R) n k (qn 1 5) false None None None.
Example uf_consistent : consistent uf_raw /\ consistent uf_R.
Proof. split; (split; [split; [reflexivity|split; [reflexivity|]]|exact I]); [intros r [<-|[<-|[]]]|intros r [<-|[<-|[<-|[]]]]]; reflexivity. Qed.
Example uf_stochastic : row_stochastic 3 (aget (values uf_R)).
Proof. intros [|[|[|i]]] H; [now apply qeqb_eq..|lia]. Qed.
Example uf_run : match apply uf_filter uf_gauss (uf_un 5 2) uf_raw None with
  | (un', Ok m) => (match u_iscores un' with Some [a; b] => (2 <=? a) && (a <? 5) && (2 <=? b) && (b <? 5) | _ => false end)%nat
      && qltb 0 (aget (values m) 0 2) && qeqb (aget (values m) 1 0) 0 = true
  | _ => False end.
Proof. vm_compute. reflexivity. Qed.
Example uf_few : snd (apply uf_filter uf_gauss (uf_un 2 3) uf_raw None) = Raise IndexError.
Proof. vm_compute. reflexivity. Qed.
Example uf_tab : resp_tab := mkTab (ql [100; 200; 300]%Z) (ql [10; 10; 10]%Z) (ql [1; 1; 1]%Z)
  [qn 1 2; qn 1 2; qn 1 2] [qn 1 10; qn 1 10; qn 1 10] [qn 1 10; qn 1 10; qn 1 10] [qn 1 10; qn 1 10; qn 1 10].
Example uf_tab_ok : tab_ok uf_tab. Proof. repeat split. Qed.
Example uf_compton : match apply uf_filter uf_gauss (mkU (Some uf_R) 4 0 (qn 1 5) true (Some uf_tab) None None) uf_raw None with
  | (_, Ok m) => forallb (forallb (qleb 0)) (a_rows (values m)) && qltb 0 (qsum (concat (a_rows (values m)))) = true
  | _ => False end.
Proof. vm_compute. reflexivity. Qed.
Example uf_negative : snd (apply uf_filter uf_gauss (uf_un 5 2)
  (mkM (mkArr 3 [ql [4; -2; 6]%Z]) (ql [100; 200; 300]%Z) (ql [1]%Z) None None) None) = Raise ValueError.
Proof. vm_compute. reflexivity. Qed.
