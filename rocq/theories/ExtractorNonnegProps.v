(* C86: negative solutions of the fit (extractor.py 387-401, 310-429). *)
From Coq Require Import String.
From Verif Require Import PyBase Axis MatrixModel VectorModel ArithModel CalibModel DecompModel CutSpec ExtractorModel ExtractorSpec ExtractorProofs ExtractorProps.
Local Open Scope list_scope.
Local Notation length := List.length (only parsing).

(* the cost of every solution with a negative entry is 1e20, whatever the data *)
Theorem negative_costs_1e20 v std Exa Ega res E_nld x : (exists y, In y x /\ y < 0) ->
  errfun v std Exa Ega res E_nld x = Some (qz (10 ^ 20)).
Proof.
  intros (y & I & N). unfold errfun. replace (existsb (fun y => qltb y 0) x) with true; [reflexivity|].
  symmetry. apply existsb_exists. exists y. split; [exact I|]. now apply qltb_lt.
Qed.
Print Assumptions negative_costs_1e20.

(* a minimiser that does not end worse than it started *)
Definition descends (minimize : (list Qc -> option Qc) -> list Qc -> list Qc) : Prop :=
  forall f x c, f x = Some c -> exists c', f (minimize f x) = Some c' /\ c' <= c.

Lemma map2_in {A B C} (f : A -> B -> C) l : forall m z, In z (map2 f l m) -> exists x y, In x l /\ In y m /\ z = f x y.
Proof.
  intros m z I. unfold map2 in I. apply in_map_iff in I. destruct I as ([x y] & <- & I).
  exists x, y. split; [eapply in_combine_l; exact I|]. split; [eapply in_combine_r; exact I|reflexivity].
Qed.
Lemma mask_nan_in x c l : mask_nan x c = Ok l -> forall q, In (Fin q) l -> In q x.
Proof.
  unfold mask_nan. destruct (Nat.eqb _ _); [|discriminate]. intros H q I. injection H as <-.
  apply map2_in in I. destruct I as (y & d & Iy & _ & E). destruct (qeqb d 0); congruence.
Qed.

(* Extracted level densities and strength functions have no negative entries,
   for every start value better than the penalty. *)
Theorem extracted_nonneg sqrtq twopi bsfg rng uniform minimize randomize extend resolution_Ex self_x0 g m std x0 vn vg g' :
  descends minimize -> 0 < twopi -> (forall e, In e (Eg m) -> 0 < e) ->
  (forall E_nld res x g1 , nld_grid (Ex m) (Eg m) = Ok E_nld -> the_resolution sqrtq extend resolution_Ex (Ex m) (Eg m) = Ok res ->
     start_values bsfg rng uniform randomize self_x0 g E_nld m x0 = Ok (x, g1) ->
     exists c, errfun (a_rows (values m)) std (Ex m) (Eg m) res E_nld x = Some c /\ c < qz (10 ^ 20)) ->
  fit_normalized sqrtq twopi bsfg rng uniform minimize randomize extend resolution_Ex self_x0 g m std x0 = Ok (vn, vg, g') ->
  forall q, In (Fin q) (ev_v vn) \/ In (Fin q) (ev_v vg) -> 0 <= q.
Proof.
  intros D TP EP ST H. unfold fit_normalized in H.
  destruct (nld_grid (Ex m) (Eg m)) as [E_nld|e] eqn:EN; cbn [rbind] in H; [|discriminate].
  destruct (the_resolution sqrtq extend resolution_Ex (Ex m) (Eg m)) as [res|e] eqn:ER; cbn [rbind] in H; [|discriminate].
  destruct (start_values bsfg rng uniform randomize self_x0 g E_nld m x0) as [[x g1]|e] eqn:ES; cbn [rbind] in H; [|discriminate].
  destruct (ST E_nld res x g1 eq_refl eq_refl ES) as (c & Ec & Lc).
  set (f := errfun (a_rows (values m)) std (Ex m) (Eg m) res E_nld) in *.
  set (sol := minimize f x) in *.
  assert (P : forall y, In y sol -> 0 <= y).
  { intros y I. destruct (Qclt_le_dec y 0) as [N|N]; [exfalso|exact N].
    destruct (D f x c Ec) as (c' & Ec' & Lc'). fold sol in Ec'. unfold f in Ec'.
    rewrite negative_costs_1e20 in Ec' by eauto. assert (X : qz (10 ^ 20) = c') by (now inversion Ec').
    rewrite X in Lc. qlra. }
  destruct (constraining_counts (values m) (Ex m) (Eg m) res) as [nc tc].
  destruct (mask_nan (firstn (length (Eg m)) sol) tc) as [T'|e] eqn:MT; cbn [rbind] in H; [|discriminate].
  destruct (mask_nan (skipn (length (Eg m)) sol) nc) as [nld'|e] eqn:MN; cbn [rbind] in H; [|discriminate].
  destruct (mk_evec nld' E_nld) as [vn1|e] eqn:V1; cbn [rbind] in H; [|discriminate].
  destruct (mk_evec _ (Eg m)) as [vg1|e] eqn:V2 in H; cbn [rbind] in H; [|discriminate].
  assert (K : vn1 = vn /\ vg1 = vg) by (split; congruence). destruct K as [-> ->]. clear H.
  unfold mk_evec in V1, V2.
  repeat match type of V1 with (if ?b then _ else _) = _ => destruct b; [|discriminate] end.
  repeat match type of V2 with (if ?b then _ else _) = _ => destruct b; [|discriminate] end.
  assert (W1 : ev_v vn = nld') by (now inversion V1).
  assert (W2 : ev_v vg = map2 (fun t e => xdiv t (Fin (twopi * (e * e * e)))) T' (Eg m)) by (now inversion V2).
  intros q [I|I].
  - rewrite W1 in I. apply P. apply (mask_nan_in _ _ _ MN) in I.
    rewrite <- (firstn_skipn (length (Eg m)) sol). apply in_or_app. now right.
  - rewrite W2 in I. apply map2_in in I. destruct I as (t & e & It & Ie & E).
    specialize (EP e Ie). assert (P2 : 0 < e * e) by qnra.
    assert (P3 : 0 < e * e * e) by (set (w := e * e) in *; clearbody w; qnra).
    assert (PP : 0 < twopi * (e * e * e)) by (set (w := e * e * e) in *; clearbody w; qnra).
    unfold xdiv in E. destruct t as [y| | |]; try discriminate.
    + assert (Y : 0 <= y).
      { apply P. rewrite <- (firstn_skipn (length (Eg m)) sol). apply in_or_app. left. eapply mask_nan_in; eassumption. }
      destruct (qeqb_spec (twopi * (e * e * e)) 0) as [Z|Z]; [rewrite Z in PP; exfalso; revert PP; apply Qcle_not_lt, Qcle_refl|].
      assert (X : q = y / (twopi * (e * e * e))) by (now inversion E). rewrite X. apply Qcdiv_nonneg; [exact Y|qlra].
    + destruct (qltb _ _); discriminate.
    + destruct (qltb _ _); discriminate.
Qed.
Print Assumptions extracted_nonneg.

(* the hypotheses can be met: a minimiser that stays where it is, and the matrix of em_decompose *)
Example descends_id : descends id_min.
Proof. intros f x c H. exists c. split; [exact H|apply Qcle_refl]. Qed.
Example em_start : match nld_grid (Ex em) (Eg em), the_resolution (fun x => x) false 0 (Ex em) (Eg em) with
  | Ok E, Ok res => match start_values ones nat nat_uniform false XNone 0%nat E em XNone with
      | Ok (x, _) => match errfun (a_rows (values em)) (a_rows es) (Ex em) (Eg em) res E x with
                     | Some c => qltb c (qz (10 ^ 20)) | None => false end
      | _ => false end
  | _, _ => false end = true.
Proof. vm_compute. reflexivity. Qed.
