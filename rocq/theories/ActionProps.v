(* C57: recorded actions. *)
From Coq Require String.
From Verif Require Import PyBase ActionModel.

Section Spec.
Variables (Arg Tgt Ret : Type).
Variable invoke : call Arg -> Tgt -> Tgt * result Ret.

(* looking up a keyword argument in a call *)
Fixpoint kwarg (d : kwargs Arg) (k : String.string) : option Arg :=
  match d with [] => None | (k', v) :: t => if String.eqb k k' then Some v else kwarg t k end.
(* ... in the keywords of a curry: the last one given for that key (Python rejects
   duplicates, so there is at most one) *)
Fixpoint given (d : kwargs Arg) (k : String.string) : option Arg :=
  match d with
  | [] => None
  | (k', v) :: t => match given t k with Some w => Some w | None => if String.eqb k k' then Some v else None end
  end.

(* the calls recorded in a history, in order, each with the keywords of the curry
   operations that came after it *)
Fixpoint curried (os : list (aop Arg Tgt)) : list (kwargs Arg) :=
  match os with [] => [] | ACurry kw :: t => kw :: curried t | _ :: t => curried t end.
Fixpoint recorded (os : list (aop Arg Tgt)) : list (call Arg * list (kwargs Arg)) :=
  match os with
  | [] => []
  | ARec c :: t => (c, curried t) :: recorded t
  | _ :: t => recorded t
  end.
(* value of keyword k in a call: from the last later curry that mentions k, else the
   recorded one *)
Fixpoint effective (d : option Arg) (cs : list (kwargs Arg)) (k : String.string) : option Arg :=
  match cs with
  | [] => d
  | kw :: t => effective (match given kw k with Some v => Some v | None => d end) t k
  end.
(* the effect of making the calls directly on the target, one after the other *)
Inductive direct : list (call Arg) -> Tgt -> Tgt -> result (list Ret) -> Prop :=
| D_nil t : direct [] t t (Ok [])
| D_ok c cs t t1 t2 x rs : invoke c t = (t1, Ok x) -> direct cs t1 t2 (Ok rs) -> direct (c :: cs) t t2 (Ok (x :: rs))
| D_later c cs t t1 t2 x e : invoke c t = (t1, Ok x) -> direct cs t1 t2 (Raise e) -> direct (c :: cs) t t2 (Raise e)
| D_now c cs t t1 e : invoke c t = (t1, Raise e) -> direct (c :: cs) t t1 (Raise e).
End Spec.
Arguments kwarg {Arg}. Arguments given {Arg}. Arguments recorded {Arg Tgt}. Arguments effective {Arg}.

Lemma kwarg_set {A} (d : kwargs A) k v q : kwarg (dict_set A d k v) q = if String.eqb q k then Some v else kwarg d q.
Proof.
  induction d as [|[k' v'] d IH]; cbn [dict_set kwarg].
  - reflexivity.
  - destruct (String.eqb_spec k k') as [->|NE]; cbn [kwarg].
    + destruct (String.eqb q k'); reflexivity.
    + rewrite IH. destruct (String.eqb_spec q k') as [->|]; [|reflexivity].
      destruct (String.eqb_spec k' k); [congruence|reflexivity].
Qed.
Lemma kwarg_update {A} (e d : kwargs A) q : kwarg (dict_update A d e) q = match given e q with Some v => Some v | None => kwarg d q end.
Proof.
  unfold dict_update. revert d. induction e as [|[k v] e IH]; intros d; cbn [fold_left given]; [reflexivity|].
  rewrite IH, kwarg_set. cbn [fst snd]. destruct (given e q); [reflexivity|]. destruct (String.eqb q k); reflexivity.
Qed.

Lemma act_on_acc {A T R} (invoke : call A -> T -> T * result R) cs : forall t ret,
  act_on A T R invoke cs t ret = (fst (act_on A T R invoke cs t []), rmap (app ret) (snd (act_on A T R invoke cs t []))).
Proof.
  induction cs as [|c cs IH]; intros t ret; cbn [act_on fst snd rmap]; [now rewrite app_nil_r|].
  destruct (invoke c t) as [t' [x|e]]; [|reflexivity]. rewrite (IH t' (ret ++ [x])), (IH t' ([] ++ [x])). cbn [app fst snd].
  destruct (snd (act_on A T R invoke cs t' [])); cbn [rmap]; [|reflexivity]. now rewrite <- app_assoc.
Qed.

(* act_on does on its target exactly what the calls, made directly and in order, do; the
   return values are collected in order; an exception stops it *)
Theorem act_on_is_direct : forall A T R invoke cs t t' r,
  act_on A T R invoke cs t [] = (t', r) <-> direct A T R invoke cs t t' r.
Proof.
  intros A T R invoke cs. split.
  - revert t t' r. induction cs as [|c cs IH]; intros t t' r; cbn [act_on].
    + intros H; injection H as <- <-. constructor.
    + destruct (invoke c t) as [t1 [x|e]] eqn:E.
      * rewrite act_on_acc. destruct (act_on A T R invoke cs t1 []) as [t2 r2] eqn:E2. cbn [fst snd]. intros H; injection H as <- <-.
        specialize (IH _ _ _ E2). destruct r2; cbn [rmap app]; econstructor; eauto.
      * intros H; injection H as <- <-. now constructor.
  - induction 1 as [t|c cs t t1 t2 x rs E D IH|c cs t t1 t2 x e E D IH|c cs t t1 e E]; cbn [act_on]; [reflexivity|..]; rewrite E.
    + rewrite act_on_acc, IH. reflexivity.
    + rewrite act_on_acc, IH. reflexivity.
    + reflexivity.
Qed.
Print Assumptions act_on_is_direct.

Lemma aexec_app {A T R} inv (os : list (aop A T)) o : aexec A T R inv (os ++ [o]) = fst (astep A T R inv (aexec A T R inv os) o).
Proof. unfold aexec. now rewrite fold_left_app. Qed.

(* After any history of recording, currying and applying: the object holds the recorded
   calls in order, with their names and positional arguments, and each keyword has the
   value of the last later curry that gave it, otherwise the recorded value. *)
Lemma curry_fold {A T R} inv : forall (os : list (aop A T)) cs,
  exists extra, fold_left (fun c o => fst (astep A T R inv c o)) os cs = map (fun c => mkCall (c_name c) (c_args c) (fold_left (dict_update A) (curried A T os) (c_kw c))) cs ++ extra /\
  extra = fold_left (fun c o => fst (astep A T R inv c o)) os [].
Proof.
  induction os as [|o os IH]; intros cs; cbn [fold_left curried].
  - exists []. rewrite app_nil_r. split; [|reflexivity]. rewrite (map_ext _ (fun c => c)), map_id; [reflexivity|]. intros []; reflexivity.
  - destruct o as [c|kw|t|ts]; cbn [astep fst].
    + destruct (IH (record A cs c)) as (x1 & E1 & _). destruct (IH (record A [] c)) as (x2 & E2 & X2). destruct (IH (record A cs c)) as (x3 & E3 & X3).
      eexists. split; [|reflexivity]. rewrite E3, E2, X3, X2. unfold record. rewrite map_app, <- app_assoc. reflexivity.
    + destruct (IH (curry A cs kw)) as (x1 & E1 & X1). eexists. split; [|reflexivity]. rewrite E1, X1. unfold curry at 1. rewrite map_map. reflexivity.
    + destruct (IH cs) as (x1 & E1 & X1). eexists. split; [|reflexivity]. now rewrite E1, X1.
    + destruct (IH cs) as (x1 & E1 & X1). eexists. split; [|reflexivity]. now rewrite E1, X1.
Qed.
Lemma kwarg_fold {A} (css : list (kwargs A)) : forall d k, kwarg (fold_left (dict_update A) css d) k = effective (kwarg d k) css k.
Proof. induction css as [|kw css IH]; intros d k; cbn [fold_left effective]; [reflexivity|]. rewrite IH, kwarg_update. reflexivity. Qed.

Theorem action_history : forall A T R inv (os : list (aop A T)),
  Forall2 (fun c rc => c_name c = c_name (fst rc) /\ c_args c = c_args (fst rc) /\
                       forall k, kwarg (c_kw c) k = effective (kwarg (c_kw (fst rc)) k) (snd rc) k)
          (aexec A T R inv os) (recorded os).
Proof.
  intros A T R inv os. unfold aexec. induction os as [|o os IH]; cbn [fold_left]; [constructor|].
  destruct (curry_fold inv os (fst (astep A T R inv [] o))) as (x & E & X). rewrite E. subst x.
  destruct o as [c|kw|t|ts]; cbn [astep fst record curry map app recorded]; try exact IH.
  constructor; [|exact IH]. cbn [fst snd c_name c_args c_kw]. split; [reflexivity|]. split; [reflexivity|]. intros k. apply kwarg_fold.
Qed.
Print Assumptions action_history.
(* applying an action leaves the action unchanged: it can be applied any number of times *)
Theorem action_reusable : forall A T R inv (os : list (aop A T)) t ts,
  aexec A T R inv (os ++ [AAct t]) = aexec A T R inv os /\ aexec A T R inv (os ++ [AMap ts]) = aexec A T R inv os.
Proof. intros. now rewrite !aexec_app. Qed.
Print Assumptions action_reusable.
(* currying twice with disjoint or equal keys, in any case: the later value wins *)
Theorem curry_overrides : forall A (calls : list (call A)) kw i c, nth_error calls i = Some c ->
  exists c', nth_error (curry A calls kw) i = Some c' /\ c_name c' = c_name c /\ c_args c' = c_args c /\
  forall k, kwarg (c_kw c') k = match given kw k with Some v => Some v | None => kwarg (c_kw c) k end.
Proof.
  intros A calls kw i c E. unfold curry. rewrite nth_error_map, E. cbn [option_map]. eexists. split; [reflexivity|].
  cbn [c_name c_args c_kw]. split; [reflexivity|]. split; [reflexivity|]. intros k. apply kwarg_update.
Qed.
Print Assumptions curry_overrides.
(* map: if no call raises, every member is treated as by act_on and the results are
   collected in the order of the collection *)
Theorem act_map_members : forall A T R invoke cs ts ts' rs, act_map A T R invoke cs ts [] = (ts', Ok rs) ->
  length ts' = length ts /\ length rs = length ts /\
  forall i t, nth_error ts i = Some t -> exists t' r, nth_error ts' i = Some t' /\ nth_error rs i = Some r /\ direct A T R invoke cs t t' (Ok r).
Proof.
  intros A T R invoke cs.
  assert (G : forall ts ts' rs acc, act_map A T R invoke cs ts acc = (ts', Ok rs) -> exists rs', rs = acc ++ rs' /\ length ts' = length ts /\ length rs' = length ts /\
    forall i t, nth_error ts i = Some t -> exists t' r, nth_error ts' i = Some t' /\ nth_error rs' i = Some r /\ direct A T R invoke cs t t' (Ok r)).
  { induction ts as [|t ts IH]; intros ts' rs acc; cbn [act_map].
    - intros H; injection H as <- <-. exists []. rewrite app_nil_r. repeat split; auto. intros [|i] t; discriminate.
    - destruct (act_on A T R invoke cs t []) as [t1 [x|e]] eqn:E; [|discriminate].
      destruct (act_map A T R invoke cs ts (acc ++ [x])) as [r' res] eqn:E2. intros H; injection H as <- ->.
      destruct (IH _ _ _ E2) as (rs' & -> & L1 & L2 & H). exists (x :: rs'). rewrite <- app_assoc. split; [reflexivity|].
      cbn [length]. split; [lia|]. split; [lia|]. intros [|i] t0; cbn [nth_error].
      + intros H0; injection H0 as <-. exists t1, x. split; [reflexivity|]. split; [reflexivity|]. now apply act_on_is_direct.
      + apply H. }
  intros ts ts' rs E. destruct (G _ _ _ _ E) as (rs' & -> & H). exact H.
Qed.
Print Assumptions act_map_members.
(* if one raises, the members before it are done, those after it are untouched *)
Theorem act_map_raises : forall A T R invoke cs ts ts' e, act_map A T R invoke cs ts [] = (ts', Raise e) ->
  exists pre t post pre' t', ts = pre ++ t :: post /\ ts' = pre' ++ t' :: post /\ length pre' = length pre /\
  direct A T R invoke cs t t' (Raise e) /\
  forall i u, nth_error pre i = Some u -> exists u' r, nth_error pre' i = Some u' /\ direct A T R invoke cs u u' (Ok r).
Proof.
  intros A T R invoke cs ts. generalize (@nil (list R)). induction ts as [|t ts IH]; intros acc ts' e; cbn [act_map]; [discriminate|].
  destruct (act_on A T R invoke cs t []) as [t1 [x|e1]] eqn:E.
  - destruct (act_map A T R invoke cs ts (acc ++ [x])) as [r' res] eqn:E2. intros H; injection H as <- ->.
    destruct (IH _ _ _ E2) as (pre & u & post & pre' & u' & -> & -> & L & D & P).
    exists (t :: pre), u, post, (t1 :: pre'), u'. repeat split; auto; [cbn [length]; lia|].
    intros [|i] w; cbn [nth_error]; [|apply P]. intros H0; injection H0 as <-. exists t1, x. split; [reflexivity|]. now apply act_on_is_direct.
  - intros H; injection H as <- <-. exists [], t, ts, [], t1. repeat split; auto; [now apply act_on_is_direct|]. intros [|i] w; discriminate.
Qed.
Print Assumptions act_map_raises.

(* two recorded calls, curried, applied twice *)
Import String.
Local Open Scope string_scope.
Example ax_inv (c : call nat) (t : list nat) : list nat * result nat :=
  match kwarg (c_kw c) "Eg_max" with Some v => (v :: t, Ok (List.length t)) | None => (t, Raise TypeError) end.
Example ax_os : list (aop nat (list nat)) :=
  [ARec (mkCall "cut" [1] [("Eg_max", 5)]); ARec (mkCall "rebin" [] []); AAct [0]; ACurry [("Eg_max", 7)]; ARec (mkCall "cut" [] [("Eg_max", 3)])]%nat.
Example ax_run : act_on nat (list nat) nat ax_inv (aexec _ _ nat ax_inv ax_os) [0]%nat [] = ([3; 7; 7; 0], Ok [1; 2; 3])%nat.
Proof. reflexivity. Qed.
Example ax_raise : act_on nat (list nat) nat ax_inv (aexec _ _ nat ax_inv (firstn 2 ax_os)) [0]%nat [] = ([5; 0], Raise TypeError)%nat.
Proof. reflexivity. Qed.
