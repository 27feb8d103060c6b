(* Properties of the interpolation of the response matrix. *)
From Verif Require Import PyBase Axis CutSpec RebinModel RebinSpec MatrixModel VectorModel SmoothModel InterpModel InterpProofs ResponseModel ResponseSpec ResponseProofs ResponseFanProofs.

(* A table used in the examples: three tabulated energies, Compton spectra on nine channels. *)
Definition ex_g (e m s : Qc) : Qc := 1 / (1 + (e - m) * (e - m)).
Definition ex_r : resp_t := mkResp (ql [500;1330;3000]%Z) (ql [1;1;1]%Z) (ql [1;1;1]%Z)
  (ql [60;40;20]%Z) (ql [0;10;20]%Z) (ql [0;5;15]%Z) (ql [0;5;5]%Z)
  [ql [10;10;10;10;0;0;0;0;0]%Z; ql [5;5;5;10;10;5;0;0;0]%Z; ql [5;5;5;5;5;5;5;5;0]%Z] (ql [0;500;1000;1500;2000;2500;3000;3500;4000]%Z).
Lemma ex_g_bell : (forall e m s, 0 <= s -> 0 <= ex_g e m s) /\ (forall m s, 0 <= s -> 0 < ex_g m m s).
Proof.
  split.
  - intros e m s _. unfold ex_g. apply Qcdiv_nonneg; [discriminate|]. assert (0 <= (e - m) * (e - m)) by (destruct (Qclt_le_dec (e - m) 0); [replace ((e - m) * (e - m)) with ((m - e) * (m - e)) by ring|]; apply Qcmult_nonneg; qlra). qlra.
  - intros m s _. unfold ex_g. replace (1 / (1 + (m - m) * (m - m))) with 1 by (unfold Qcdiv; replace ((m - m) * (m - m)) with 0 by ring; reflexivity). reflexivity.
Qed.
Lemma ex_r_ok : table_ok ex_r /\ counts_ok ex_r /\ rows_filled ex_r.
Proof.
  split; [|split].
  - repeat split; try reflexivity; [vm_compute; lia|]. repeat constructor.
  - repeat split; try (intros x Hx; cbn in Hx; repeat destruct Hx as [<-|Hx]; discriminate || contradiction).
    intros c Hc. cbn in Hc. repeat destruct Hc as [<-|Hc]; try contradiction; intros x Hx; cbn in Hx; repeat destruct Hx as [<-|Hx]; discriminate || contradiction.
  - intros i Hi. cbn in Hi. destruct i as [|[|[|i]]]; [..|lia]; apply qeqb_neq; reflexivity.
Qed.

(* C64. At every tabulated energy the five probabilities add up to one, and they do so too at
   every energy inside the table, where none of them is negative. *)
Theorem response_probabilities r : table_ok r -> rows_filled r ->
  (forall i, (i < length (r_Eg r))%nat ->
     vget (pcmp r) i + vget (prob r (r_FE r)) i + vget (prob r (r_SE r)) i + vget (prob r (r_DE r)) i + vget (prob r (r_c511 r)) i = 1) /\
  (forall e, in_table r e ->
     exists a b c d f, f_pcmp r e = Ok a /\ f_pFE r e = Ok b /\ f_pSE r e = Ok c /\ f_pDE r e = Ok d /\ f_p511 r e = Ok f /\
       a + b + c + d + f = 1 /\ (counts_ok r -> 0 <= a /\ 0 <= b /\ 0 <= c /\ 0 <= d /\ 0 <= f)).
Proof.
  intros T RF. split.
  - intros i Hi. apply probabilities_sum; [exact Hi|now apply RF].
  - intros e He. now apply interpolated_sum.
Qed.
Print Assumptions response_probabilities.
Example response_probabilities_run : in_table ex_r (qz 2000) /\
  match f_pcmp ex_r (qz 2000), f_pFE ex_r (qz 2000), f_p511 ex_r (qz 2000) with
  | Ok a, Ok b, Ok c => qltb 0 a && qltb 0 b && qltb b (qn 40 100) && qeqb c (qn 5 100) = true
  | _, _, _ => False end.
Proof. split; [split; discriminate|]. vm_compute. reflexivity. Qed.

(* Above the table the escape peaks and the annihilation peak are taken to be absent while the
   other two are extrapolated: the probabilities no longer add up to one, and the probability
   of the full-energy peak can be negative. *)
Theorem response_probabilities_outside_refuted : exists r e, table_ok r /\ counts_ok r /\ rows_filled r /\ vget (r_Eg r) 0 <= e /\
  exists a b c d f, f_pcmp r e = Ok a /\ f_pFE r e = Ok b /\ f_pSE r e = Ok c /\ f_pDE r e = Ok d /\ f_p511 r e = Ok f /\
    a + b + c + d + f <> 1 /\ b < 0.
Proof.
  exists ex_r, (qz 5000). destruct ex_r_ok as (A & B & C). split; [exact A|]. split; [exact B|]. split; [exact C|]. split; [discriminate|].
  pose proof (eq_refl : match f_pcmp ex_r (qz 5000), f_pFE ex_r (qz 5000), f_pSE ex_r (qz 5000), f_pDE ex_r (qz 5000), f_p511 ex_r (qz 5000) with
    Ok a, Ok b, Ok c, Ok d, Ok f => negb (qeqb (a + b + c + d + f) 1) && qltb b 0 = true | _, _, _, _, _ => False end) as H.
  destruct (f_pcmp ex_r (qz 5000)) as [a|]; [|contradiction]. destruct (f_pFE ex_r (qz 5000)) as [b|]; [|contradiction].
  destruct (f_pSE ex_r (qz 5000)) as [c|]; [|contradiction]. destruct (f_pDE ex_r (qz 5000)) as [d|]; [|contradiction].
  destruct (f_p511 ex_r (qz 5000)) as [f|]; [|contradiction].
  apply andb_prop in H. destruct H as [H1 H2]. exists a, b, c, d, f. do 5 (split; [reflexivity|]).
  split; [|now apply qltb_lt]. apply negb_true_iff in H1. intros Q. apply qeqb_eq in Q. congruence.
Qed.
Print Assumptions response_probabilities_outside_refuted.

(* C64. A peak is shared between the two neighbouring channels such that its area and its
   centroid are kept. *)
Theorem response_peak_split E e : equidistant E -> vget E 0 <= e -> e <= vget E (length E - 1) ->
  exists i k d, two_channel_split e E = Ok (Z.of_nat i, Z.of_nat k, d) /\ (i <= k <= i + 1)%nat /\ (k < length E)%nat /\
    0 <= d /\ d < 1 /\ (1 - d) * vget E i + d * vget E k = e /\ (k = i -> d = 0).
Proof. exact (two_channel_lemma E e). Qed.
Print Assumptions response_peak_split.
Example response_peak_split_run : two_channel_split (qz 511) (ql [100;200;300;400;500;600]%Z) = Ok (4%Z, 5%Z, qn 11 100).
Proof. vm_compute. reflexivity. Qed.

(* C64. The discrete part of a row: the areas of the peaks on the axis and their mean energies. *)
Theorem response_peaks r E j : table_ok r -> equidistant E -> (j < length E)%nat ->
  exists l pFE pSE pDE p511, raw_peaks r E j = Ok l /\
    f_pFE r (vget E j) = Ok pFE /\ f_pSE r (vget E j) = Ok pSE /\ f_pDE r (vget E j) = Ok pDE /\ f_p511 r (vget E j) = Ok p511 /\
    length l = length E /\
    (let e := vget E j in
     let se := when (has_escape E (e - qz 511)) pSE in
     let de := when (has_escape E (e - qz 2 * qz 511)) pDE in
     let an := when (has_511 E e) p511 in
     qsum l = pFE + se + de + an /\
     moment l E = pFE * e + se * (e - qz 511) + de * (e - qz 2 * qz 511) + an * qz 511) /\
    (counts_ok r -> (forall k, k <> j -> 0 <= vget l k) /\ pFE <= vget l j).
Proof. exact (raw_peaks_lemma r E j). Qed.
Print Assumptions response_peaks.
Definition ex_axis : list Qc := tab 16 (fun k => qz 200 * qnat k).
Lemma ex_axis_equidistant : equidistant ex_axis.
Proof.
  split; [vm_compute; lia|]. split; [reflexivity|]. intros i Hi. unfold ex_axis in *. rewrite tab_length in Hi.
  do 16 (destruct i as [|i]; [apply qeqb_eq; vm_compute; reflexivity|]). lia.
Qed.
Example response_peaks_run : match raw_peaks ex_r ex_axis 10 with
  | Ok l => qltb 0 (vget l 10) && qltb 0 (vget l 7) && qltb 0 (vget l 8) && qltb 0 (vget l 4) && qltb 0 (vget l 5) && qltb 0 (vget l 2) && qltb 0 (vget l 3) && qeqb (vget l 6) 0 = true
  | _ => False end.
Proof. vm_compute. reflexivity. Qed.

(* C64. The interpolated response: a square matrix on the requested axis, without negative
   entries, every row of which adds up to one or is zero; if the counts of the table are not
   negative, every row whose full-energy peak has a positive probability adds up to one. *)
Theorem response_rows_partial gaussian smooth_compton truncate r E fw m :
  (forall e mu s, 0 <= s -> 0 <= gaussian e mu s) -> (forall mu s, 0 <= s -> 0 < gaussian mu mu s) -> 0 <= truncate ->
  table_ok r -> equidistant E ->
  (forall e, In e E -> exists f, f_fwhm_rel r fw e = Ok f /\ 0 <= e * f) ->
  interpolate gaussian smooth_compton truncate r E fw = Ok m ->
  Eg m = E /\ Ex m = E /\ rect (a_rows (values m)) (length E) (length E) /\
  (forall row, In row (a_rows (values m)) -> nonneg row /\ (qsum row = 1 \/ forall x, In x row -> x = 0)) /\
  (counts_ok r -> forall j p, (j < length E)%nat -> f_pFE r (vget E j) = Ok p -> 0 < p -> qsum (nth j (a_rows (values m)) []) = 1).
Proof. intros G0 G1 T. apply interpolate_lemma; assumption. Qed.
Print Assumptions response_rows_partial.
Example response_rows_run :
  (forall e, In e ex_axis -> exists f, f_fwhm_rel ex_r (qz 60) e = Ok f /\ 0 <= e * f) /\
  match interpolate ex_g true (qz 3) ex_r ex_axis (qz 60) with
  | Ok m => forallb (fun row => qeqb (qsum row) 1) (a_rows (values m)) = true
  | Raise _ => False end.
Proof.
  split; [|vm_compute; reflexivity]. intros e He. apply in_tab in He. destruct He as (k & Hk & ->).
  do 16 (destruct k as [|k]; [eexists; split; [vm_compute; reflexivity|vm_compute; discriminate]|]). lia.
Qed.

(* The interpolation is not defined on every axis inside the table: with channels so wide that
   the Compton edge and the full-energy peak are neighbours, the part above the edge is scaled
   by an infinite factor. *)
Definition ex_coarse : list Qc := ql [500;1000;1500;2000;2500;3000]%Z.
Theorem response_defined_refuted : exists gaussian r E fw,
  (forall e mu s, 0 <= s -> 0 <= gaussian e mu s) /\ (forall mu s, 0 <= s -> 0 < gaussian mu mu s) /\
  table_ok r /\ counts_ok r /\ rows_filled r /\ equidistant E /\ (forall e, In e E -> in_table r e) /\
  interpolate_checks r E fw = Ok tt /\ interpolate gaussian true (qz 3) r E fw = Raise ValueError.
Proof.
  exists ex_g, ex_r, ex_coarse, (qz 60). destruct ex_g_bell as [G0 G1]. destruct ex_r_ok as (A & B & C).
  split; [exact G0|]. split; [exact G1|]. split; [exact A|]. split; [exact B|]. split; [exact C|].
  split; [|split; [|split]].
  - split; [vm_compute; lia|]. split; [reflexivity|]. intros i Hi. cbn in Hi. do 6 (destruct i as [|i]; [apply qeqb_eq; vm_compute; reflexivity|]). lia.
  - intros e He. cbn in He. repeat destruct He as [<-|He]; try contradiction; split; discriminate.
  - vm_compute. reflexivity.
  - vm_compute. reflexivity.
Qed.
Print Assumptions response_defined_refuted.

(* C64. At a tabulated energy the fan method returns the tabulated Compton spectrum, channel by
   channel, between the backscatter channel and the Compton edge. *)
Theorem response_fan_reproduces_table Eout E c i_start i_stop R k :
  increasing Eout -> qn 1 10 < E -> c_Elow c = E -> c_Ehigh c <> E ->
  fan_method Eout E c i_start i_stop = Ok (R, k) ->
  forall i, (i < length Eout)%nat -> vget R i =
    if (i_start <=? i)%nat && (i <? index Eout (E_compton E (- (1))))%nat && (i <? i_stop)%nat && qleb (qn 1 10) (vget Eout i)
    then qmax 0 (vget (c_low c) i) else 0.
Proof. exact (fan_exact Eout E c i_start i_stop R k). Qed.
Print Assumptions response_fan_reproduces_table.
Example response_fan_run :
  match fan_method ex_axis (qz 1330) (mkCompton (qz 1330) (qz 3000) (ql [9;8;7;6;5;4;3;2;1;0;0;0;0;0;0;0]%Z) (ql [5;5;5;5;5;5;5;5;5;5;5;5;5;5;5;5]%Z)) 2 8 with
  | Ok (R, k) => leqb R (ql [0;0;7;6;5;4;0;0;0;0;0;0;0;0;0;0]%Z) && (k =? 5)%nat = true
  | Raise _ => False end.
Proof. vm_compute. reflexivity. Qed.

(* Requests interpolate refuses: a FWHM outside 0.1 to 1000 keV, fewer than two energies, and
   a table whose FWHM at 1330 keV is not 1 within 5%. *)
Theorem response_refuses gaussian smooth_compton truncate r E fw :
  (fw < qn 1 10 \/ qz 1000 < fw \/ (length E <= 1)%nat \/
   (forall f, f_fwhm_norm r (qz 1330) = Ok f -> f <= qn 95 100 \/ qn 105 100 <= f)) ->
  exists e, interpolate gaussian smooth_compton truncate r E fw = Raise e.
Proof.
  intros H. enough (K : exists e, interpolate_checks r E fw = Raise e).
  { destruct K as (e & K). unfold interpolate. rewrite K. cbn [rbind]. eauto. }
  unfold interpolate_checks.
  destruct (qleb_spec (qn 1 10) fw) as [A|A]; [|cbn; eauto].
  destruct (qleb_spec fw (qz 1000)) as [B|B]; [|cbn; eauto]. cbn [negb andb].
  destruct (Nat.leb_spec (length E) 1) as [C|C]; [eauto|].
  destruct H as [H|[H|[H|H]]]; try (exfalso; qlra); try lia.
  destruct (f_fwhm_norm r (qz 1330)) as [f|e]; cbn [rbind]; [|eauto].
  destruct (qltb_spec (qabs (f - 1)) (qn 5 100)) as [D|D]; [|eauto]. exfalso.
  assert (X : qn 95 100 = 1 - qn 5 100) by now apply qeqb_eq.
  assert (Y : qn 105 100 = 1 + qn 5 100) by now apply qeqb_eq.
  destruct (H f eq_refl) as [L|L]; rewrite ?X, ?Y in L; destruct (qabs_spec (f - 1)) as [[P Q]|[P Q]]; rewrite Q in D; qlra.
Qed.
Print Assumptions response_refuses.
(* the table of the examples passes at 60 keV FWHM; its first energy alone does not *)
Example response_refuses_x : is_ok (interpolate_checks ex_r ex_axis (qz 60)) = true /\ is_ok (interpolate_checks ex_r (firstn 1 ex_axis) (qz 60)) = false.
Proof. split; vm_compute; reflexivity. Qed.
