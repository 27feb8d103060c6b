(* Lemmas on axis names and matrix states. *)
From Coq Require Import Ascii String. Import Coq.Init.Datatypes.
From Verif Require Import PyBase Axis AxisSpec.

Lemma nat_ascii_inj c d : nat_of_ascii c = nat_of_ascii d -> c = d.
Proof. intros H. rewrite <- (ascii_nat_embedding c), <- (ascii_nat_embedding d). now rewrite H. Qed.
Lemma lower_ascii_nat c : nat_of_ascii (lower_ascii c) =
  if ((65 <=? nat_of_ascii c) && (nat_of_ascii c <=? 90))%nat then (nat_of_ascii c + 32)%nat else nat_of_ascii c.
Proof.
  unfold lower_ascii. destruct ((65 <=? nat_of_ascii c) && (nat_of_ascii c <=? 90))%nat eqn:E; [|reflexivity].
  apply andb_true_iff in E as [E1 E2]. apply Nat.leb_le in E1, E2. rewrite nat_ascii_embedding; [reflexivity|lia].
Qed.
Lemma lower_letter c d : lower_ascii c = lower_ascii d <-> same_letter c d.
Proof.
  unfold same_letter, is_upper.
  assert (H : lower_ascii c = lower_ascii d <-> nat_of_ascii (lower_ascii c) = nat_of_ascii (lower_ascii d)).
  { split; [congruence|apply nat_ascii_inj]. }
  rewrite H, !lower_ascii_nat.
  assert (I : c = d <-> nat_of_ascii c = nat_of_ascii d) by (split; [congruence|apply nat_ascii_inj]).
  rewrite I. set (x := nat_of_ascii c). set (y := nat_of_ascii d).
  destruct (Nat.leb_spec 65 x), (Nat.leb_spec x 90), (Nat.leb_spec 65 y), (Nat.leb_spec y 90); cbn [andb]; lia.
Qed.
Lemma lower_name s t : lower s = lower t <-> same_name s t.
Proof.
  revert t. induction s as [|c s IH]; intros [|d t]; cbn.
  - tauto.
  - split; [discriminate|tauto].
  - split; [discriminate|tauto].
  - rewrite <- lower_letter, <- IH. split; [intros [= H1 H2]; auto|intros [H1 H2]; congruence].
Qed.
Lemma same_name_const s t : lower t = t -> (String.eqb (lower s) t = true <-> same_name s t).
Proof. intros H. rewrite String.eqb_eq, <- lower_name, H. tauto. Qed.
Lemma str_in_one_of s l : (forall t, In t l -> lower t = t) -> str_in (lower s) l = true <-> one_of s l.
Proof.
  intros H. unfold str_in, one_of. rewrite existsb_exists. split; intros (t & Ht & E); exists t; (split; [exact Ht|]).
  - now apply same_name_const; [apply H|].
  - now apply same_name_const; [apply H|].
Qed.
Lemma one_of_axis_excl s a b : one_of s (axis_names a) -> one_of s (axis_names b) -> a = b.
Proof.
  intros (t & Ht & E) (u & Hu & F). apply lower_name in E, F. rewrite E in F.
  destruct a, b; try reflexivity; cbn [axis_names In] in Ht, Hu; intuition (subst; cbn in F; discriminate).
Qed.
Lemma axis_str_lemma s :
  (forall a, to_plot_axis (AStr s) = Ok a <-> one_of s (axis_names a)) /\
  ((forall a, ~ one_of s (axis_names a)) -> to_plot_axis (AStr s) = Raise ValueError).
Proof.
  assert (LO : forall a t, In t (axis_names a) -> lower t = t).
  { intros [] t Ht; cbn in Ht; intuition (subst; reflexivity). }
  pose proof (str_in_one_of s _ (LO AxEg)) as H1. pose proof (str_in_one_of s _ (LO AxEx)) as H2.
  pose proof (str_in_one_of s _ (LO AxBoth)) as H3. unfold to_plot_axis. cbn [axis_names] in *.
  destruct (str_in (lower s) ["eg"; "x"]%string) eqn:E1.
  { assert (P : one_of s (axis_names AxEg)) by (now apply H1). split.
    - intros a. split; [intros [= <-]; exact P|]. intros Q. f_equal. now apply (one_of_axis_excl s).
    - intros N. now apply N in P. }
  destruct (str_in (lower s) ["ex"; "y"]%string) eqn:E2.
  { assert (P : one_of s (axis_names AxEx)) by (now apply H2). split.
    - intros a. split; [intros [= <-]; exact P|]. intros Q. f_equal. now apply (one_of_axis_excl s).
    - intros N. now apply N in P. }
  destruct (str_in (lower s) ["both"; "egex"; "exeg"; "xy"; "yx"]%string) eqn:E3.
  { assert (P : one_of s (axis_names AxBoth)) by (now apply H3). split.
    - intros a. split; [intros [= <-]; exact P|]. intros Q. f_equal. now apply (one_of_axis_excl s).
    - intros N. now apply N in P. }
  split; [|reflexivity]. intros a. split; [discriminate|]. intros Q. exfalso.
  destruct a; [apply H1 in Q|apply H2 in Q|apply H3 in Q]; congruence.
Qed.
Lemma axis_int_lemma n :
  (forall a, to_plot_axis (AInt n) = Ok a <-> n = axis_number a) /\
  ((forall a, n <> axis_number a) -> to_plot_axis (AInt n) = Raise ValueError).
Proof.
  unfold to_plot_axis. destruct (Z.eqb_spec n 0) as [->|N0].
  { split; [intros []; cbn; split; congruence|intros H; now specialize (H AxEg)]. }
  destruct (Z.eqb_spec n 1) as [->|N1].
  { split; [intros []; cbn; split; congruence|intros H; now specialize (H AxEx)]. }
  destruct (Z.eqb_spec n 2) as [->|N2].
  { split; [intros []; cbn; split; congruence|intros H; now specialize (H AxBoth)]. }
  split; [|reflexivity]. intros []; cbn; split; congruence.
Qed.

Lemma str_to_state_lemma s :
  (forall t, str_to_state s = Ok t <-> same_name s (state_name t)) /\
  ((forall t, ~ same_name s (state_name t)) -> str_to_state s = Raise KeyError).
Proof.
  assert (K : forall t, String.eqb (lower s) (state_name t) = true <-> same_name s (state_name t)).
  { intros t. apply same_name_const. now destruct t. }
  assert (X : forall t u, same_name s (state_name t) -> same_name s (state_name u) -> t = u).
  { intros t u E F. apply lower_name in E, F. rewrite E in F. destruct t, u; try reflexivity; cbn in F; discriminate. }
  pose proof (K RAW) as K1. pose proof (K UNFOLDED) as K2. pose proof (K FIRST_GENERATION) as K3.
  pose proof (K STD) as K4. pose proof (K PROMPT_AND_BACKGROUND) as K5. pose proof (K BACKGROUND) as K6.
  unfold str_to_state. cbn [state_name] in K1, K2, K3, K4, K5, K6.
  repeat match goal with |- context [if String.eqb (lower s) ?n then _ else _] =>
    destruct (String.eqb (lower s) n) eqn:?;
    [ match goal with KK : (true = true <-> _) |- _ => pose proof (proj1 KK eq_refl) as P end;
      split; [intros t; split; [intros [= <-]; exact P|intros Q; f_equal; now apply X]|
              intros N; exfalso; revert P; (apply (N RAW) || apply (N UNFOLDED) || apply (N FIRST_GENERATION)
                || apply (N STD) || apply (N PROMPT_AND_BACKGROUND) || apply (N BACKGROUND))]
    | ] end.
  split; [|reflexivity]. intros t. split; [discriminate|]. intros Q. exfalso.
  destruct t; [apply K1 in Q|apply K2 in Q|apply K3 in Q|apply K4 in Q|apply K5 in Q|apply K6 in Q]; discriminate.
Qed.
Lemma set_state_denotes a : (forall s, set_state a = Ok s <-> denotes a s) /\
  ((forall s, ~ denotes a s) -> exists e, set_state a = Raise e /\ (e = KeyError \/ e = ValueError)).
Proof.
  destruct a as [|n|t|]; cbn [set_state denotes].
  - split; [intros s; split; congruence|intros H; now specialize (H None)].
  - destruct (str_to_state_lemma n) as [H1 H2]. split.
    + intros s. split.
      * intros E. destruct (str_to_state n) as [t|] eqn:En; [|discriminate]. cbn in E. injection E as <-.
        exists t. split; [reflexivity|]. now apply H1.
      * intros (t & -> & E). apply H1 in E. now rewrite E.
    + intros N. exists KeyError. rewrite H2; [cbn; auto|]. intros t E. apply (N (Some t)). exists t. auto.
  - split; [intros s; split; congruence|intros H; now specialize (H (Some t))].
  - split; [intros s; split; [discriminate|contradiction]|]. intros _. exists ValueError. auto.
Qed.
Lemma denotes_fun a s t : denotes a s -> denotes a t -> s = t.
Proof. intros H1 H2. apply set_state_denotes in H1, H2. congruence. Qed.
Lemma assign_all_app cur l a : assign_all cur (l ++ [a]) =
  match set_state a with Ok s => s | Raise _ => assign_all cur l end.
Proof. revert cur. induction l as [|b l IH]; intros cur; cbn; [reflexivity|apply IH]. Qed.
(* the state is what the last valid assignment denotes *)
Lemma assign_all_last cur l a rest s : denotes a s -> (forall b, In b rest -> forall t, ~ denotes b t) ->
  assign_all cur (l ++ a :: rest) = s.
Proof.
  intros H N. replace (l ++ a :: rest) with ((l ++ [a]) ++ rest) by (now rewrite <- app_assoc).
  revert N. induction rest as [|b rest IH] using rev_ind; intros N.
  - rewrite app_nil_r, assign_all_app. apply set_state_denotes in H. now rewrite H.
  - rewrite app_assoc, assign_all_app. destruct (set_state b) as [t|] eqn:E.
    + apply set_state_denotes in E. exfalso. apply (N b) with t; [apply in_or_app; right; now left|exact E].
    + apply IH. intros c Hc. apply N, in_or_app. now left.
Qed.
Lemma state_ne_lemma s t : state_ne s (PState t) = negb (state_eq s (PState t)) /\ (state_eq s (PState t) = true <-> s = t).
Proof. split; [reflexivity|]. destruct s, t; cbn; split; congruence. Qed.
