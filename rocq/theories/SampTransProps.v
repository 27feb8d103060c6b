From Coq Require Import List Arith String Bool Lia Permutation.
From Verif Require Import PyBase SampTransModel.
Import ListNotations.
Local Open Scope string_scope.
Local Open Scope nat_scope.

(* ------------------------------------------------------------------ *)
(* Specification.  A shuffle returns the numbers 0 .. n-1 in some order. *)
Definition shuffles (shuffle : nat -> list nat) : Prop := forall n, Permutation (shuffle n) (seq 0 n).
(* the i-th sample: the value of parameter k *)
Definition sample_par {num} (d : samples_t num) (k : string) (i : nat) (x : num) : Prop :=
  exists l, dict_get d k = Ok l /\ nth_error l i = Some x.
(* the j-th vector an argument stands for *)
Definition arg_at {vec} (a : varg vec) (j : nat) (v : vec) : Prop :=
  match a with ANone => False | AVec w => v = w | AList l => nth_error l j = Some v end.
(* samples as multinest gives them: equally many values, at least the three parameters *)
Definition good_samples {num} (n : nat) (d : samples_t num) : Prop :=
  (exists A B al, dict_get d "A" = Ok A /\ dict_get d "B" = Ok B /\ dict_get d "alpha" = Ok al) /\
  forall k l, In (k, l) d -> List.length l = n.

Section Props.
Context {num vec : Type}.
Variable transform : num -> num -> vec -> vec.
Variable to_MeV : vec -> vec.
Notation try_one := (try_one transform).
Notation loop := (loop transform).
Notation tranform := (tranform_nld_gsf transform).

(* ------------------------------------------------------------------ *)
Lemma loop_rows nld gsf A B alpha rl N : forall i nl gl,
  loop nld gsf A B alpha rl i N = Ok (nl, gl) ->
  (i + N <= List.length rl \/ N = 0) /\ List.length nl <= N /\ List.length gl <= N /\
  (List.length nl = N -> List.length gl = N -> forall j, j < N -> exists im v w, nth_error rl (i + j) = Some im /\
     try_one nld A alpha (i + j) im = Some v /\ try_one gsf B alpha (i + j) im = Some w /\
     nth_error nl j = Some v /\ nth_error gl j = Some w).
Proof.
  induction N as [|N IH]; intros i nl gl H; cbn [SampTransModel.loop] in H.
  - injection H as <- <-. repeat split; auto. intros _ _ j Hj. lia.
  - destruct (nth_error rl i) as [im|] eqn:Ei; [|discriminate].
    destruct (loop nld gsf A B alpha rl (S i) N) as [[nl' gl']|e] eqn:E; cbn [rbind] in H; [|discriminate].
    injection H as <- <-. cbn [fst snd].
    destruct (IH (S i) nl' gl' E) as (K1 & K2 & K3 & K4).
    assert (Li : i < List.length rl) by (apply nth_error_Some; congruence).
    assert (T : forall (o : option vec) l, List.length ((match o with Some v => [v] | None => [] end) ++ l) =
       (match o with Some _ => 1 | None => 0 end) + List.length l) by (intros [v|] l; reflexivity).
    rewrite !T. split; [lia|].
    split; [destruct (try_one nld A alpha i im); lia|]. split; [destruct (try_one gsf B alpha i im); lia|].
    intros L1 L2 j Hj.
    destruct (try_one nld A alpha i im) as [v|] eqn:Ev; [|lia].
    destruct (try_one gsf B alpha i im) as [w|] eqn:Ew; [|lia].
    destruct j as [|j].
    + rewrite Nat.add_0_r. exists im, v, w. cbn. auto.
    + destruct (K4 ltac:(lia) ltac:(lia) j ltac:(lia)) as (im' & v' & w' & R1 & R2 & R3 & R4 & R5).
      exists im', v', w'. replace (i + S j) with (S i + j) by lia. cbn [app nth_error]. auto.
Qed.
Lemma zip_rows_nth (d : samples_t num) idx : forall (nl gl : list vec) j,
  List.length nl = List.length idx -> List.length gl = List.length idx ->
  nth_error (zip_rows d idx nl gl) j =
  match nth_error idx j, nth_error nl j, nth_error gl j with
  | Some i, Some v, Some w => Some (mkRow i (pars_at d i) v w)
  | _, _, _ => None
  end.
Proof.
  induction idx as [|i idx IH]; intros [|v nl] [|w gl] j L1 L2; cbn in *; try discriminate.
  - destruct j; reflexivity.
  - destruct j as [|j]; cbn; [reflexivity|]. apply IH; lia.
Qed.
Lemma zip_rows_length (d : samples_t num) idx : forall (nl gl : list vec),
  List.length nl = List.length idx -> List.length gl = List.length idx -> List.length (zip_rows d idx nl gl) = List.length idx.
Proof. induction idx as [|i idx IH]; intros [|v nl] [|w gl] L1 L2; cbn in *; try discriminate; auto. Qed.
Lemma pars_at_get (d : samples_t num) n i k x : (forall k l, In (k, l) d -> List.length l = n) -> i < n -> sample_par d k i x ->
  In (k, x) (pars_at d i).
Proof.
  intros G Hi (l & D & X). induction d as [|[k' l'] d IH]; [discriminate|]. cbn in D. cbn [pars_at].
  destruct (String.eqb_spec k' k) as [->|N].
  - injection D as ->. rewrite X. now left.
  - destruct (nth_error l' i) eqn:E.
    + right. apply IH; auto. intros; eapply G; right; eassumption.
    + exfalso. apply nth_error_None in E. rewrite (G k' l') in E by now left. lia.
Qed.
Lemma try_one_at a c al j im v : try_one a c al j im = Some v ->
  exists x y u, nth_error c im = Some x /\ nth_error al im = Some y /\ arg_at a j u /\ v = transform x y u.
Proof.
  unfold SampTransModel.try_one. destruct a as [|w|l]; try discriminate.
  - destruct (nth_error al im) eqn:E1; [|discriminate]. destruct (nth_error c im) eqn:E2; [|discriminate].
    intros H. injection H as <-. do 3 eexists. split; [reflexivity|]. split; [reflexivity|]. split; [reflexivity|reflexivity].
  - destruct (nth_error l j) eqn:E0; [|discriminate]. destruct (nth_error al im) eqn:E1; [|discriminate].
    destruct (nth_error c im) eqn:E2; [|discriminate].
    intros H. injection H as <-. do 3 eexists. split; [reflexivity|]. split; [reflexivity|]. split; [exact E0|reflexivity].
Qed.
Lemma get_in (d : samples_t num) k l : dict_get d k = Ok l -> In (k, l) d.
Proof.
  induction d as [|[k' l'] d IH]; cbn; [discriminate|]. destruct (String.eqb_spec k' k) as [->|N].
  - intros H. injection H as ->. now left.
  - auto.
Qed.
Lemma perm_index s n j i : shuffles s -> nth_error (s n) j = Some i -> i < n.
Proof.
  intros P H. apply nth_error_In in H. apply (Permutation_in _ (P n)) in H. apply in_seq in H. lia.
Qed.
Lemma shuffle_length s n : shuffles s -> List.length (s n) = n.
Proof. intros P. rewrite (Permutation_length (P n)). apply seq_length. Qed.

(* the number of rows asked for *)
Definition asked (n N_max : nat) (nld gsf : varg vec) : nat :=
  match gsf, nld with
  | AVec _, _ | ANone, AVec _ => Nat.min n N_max
  | AList l, _ | ANone, AList l => List.length l
  | ANone, ANone => 0
  end.

Lemma tranform_inv s N_max d nld gsf rows : shuffles s -> tranform s N_max d nld gsf = Ok rows ->
  exists n N nl gl A B al, n_multinest d = Ok n /\ N = asked n N_max nld gsf /\
    (nld <> ANone -> dict_get d "A" = Ok A /\ dict_get d "alpha" = Ok al) /\
    (gsf <> ANone -> dict_get d "B" = Ok B /\ dict_get d "alpha" = Ok al) /\
    loop nld gsf A B al (s n) 0 N = Ok (nl, gl) /\
    (forall k l, In (k, l) d -> List.length l = n) /\ N <= n /\
    List.length nl = N /\ List.length gl = N /\ rows = zip_rows d (firstn N (s n)) nl gl.
Proof.
  intros P H. unfold tranform_nld_gsf in H.
  destruct (n_multinest d) as [n|e]; cbn [rbind] in H; [|discriminate].
  match type of H with rbind ?x _ = _ => destruct x as [[A al1]|e] eqn:E1 end; cbn [rbind] in H; [|discriminate].
  match type of H with rbind ?x _ = _ => destruct x as [[B al]|e] eqn:E2 end; cbn [rbind fst snd] in H; [|discriminate].
  assert (KA : nld <> ANone -> dict_get d "A" = Ok A /\ dict_get d "alpha" = Ok al1).
  { intros Nn. destruct nld; [congruence| |]; (destruct (dict_get d "A"); cbn [rbind] in E1; [|discriminate];
      destruct (dict_get d "alpha"); cbn [rbind] in E1; [|discriminate]; injection E1 as -> ->; auto). }
  assert (KB : gsf <> ANone -> dict_get d "B" = Ok B /\ dict_get d "alpha" = Ok al).
  { intros Nn. destruct gsf; [congruence| |]; (destruct (dict_get d "B"); cbn [rbind] in E2; [|discriminate];
      destruct (dict_get d "alpha"); cbn [rbind] in E2; [|discriminate]; injection E2 as -> ->; auto). }
  assert (KC : nld <> ANone -> al1 = al).
  { intros Nn. destruct (KA Nn) as [_ X]. destruct gsf.
    - injection E2 as _ ->. reflexivity.
    - destruct KB as [_ Y]; [discriminate|]. congruence.
    - destruct KB as [_ Y]; [discriminate|]. congruence. }
  destruct (arg_N n N_max gsf (arg_N n N_max nld None)) as [N|] eqn:EN; [|discriminate].
  destruct (loop nld gsf A B al (s n) 0 N) as [[nl gl]|e] eqn:EL; cbn [rbind fst snd] in H; [|discriminate].
  destruct (forallb _ d) eqn:F; cbn [negb] in H; [|discriminate].
  destruct (Nat.eqb_spec (List.length nl) (List.length (firstn N (s n)))) as [L1|L1]; cbn [negb] in H; [|discriminate].
  destruct (Nat.eqb_spec (List.length gl) (List.length (firstn N (s n)))) as [L2|L2]; cbn [negb] in H; [|discriminate].
  injection H as <-.
  destruct (loop_rows _ _ _ _ _ _ _ _ _ _ EL) as (K1 & _). rewrite (shuffle_length s n P) in K1.
  rewrite firstn_length, (shuffle_length s n P) in L1, L2.
  exists n, N, nl, gl, A, B, al. split; [reflexivity|].
  split.
  { unfold asked, arg_N in *. destruct gsf, nld; congruence. }
  split; [intros Nn; destruct (KA Nn); rewrite <- (KC Nn); auto|]. split; [exact KB|].
  split; [exact EL|].
  split.
  { rewrite forallb_forall in F. intros k l I. apply F in I. now apply Nat.eqb_eq in I. }
  split; [lia|]. split; [lia|]. split; [lia|reflexivity].
Qed.

(* Every row belongs to one posterior sample: its parameters, its nld and its
   gsf are those of the same sample, and no sample is used twice. *)
Theorem rows_one_sample s N_max d nld gsf rows : shuffles s -> tranform s N_max d nld gsf = Ok rows ->
  NoDup (map r_index rows) /\
  forall j r, nth_error rows j = Some r ->
    exists i A B al v w, r_index r = i /\
      sample_par d "A" i A /\ sample_par d "B" i B /\ sample_par d "alpha" i al /\
      (forall k x, sample_par d k i x -> In (k, x) (r_pars r)) /\
      arg_at nld j v /\ arg_at gsf j w /\
      r_nld r = transform A al v /\ r_gsf r = transform B al w.
Proof.
  intros P H. destruct (tranform_inv _ _ _ _ _ _ P H) as (n & N & nl & gl & A & B & al & _ & _ & KA & KB & EL & G & LN & L1 & L2 & ->).
  assert (Li : List.length (firstn N (s n)) = N) by (rewrite firstn_length, (shuffle_length s n P); lia).
  destruct (loop_rows _ _ _ _ _ _ _ _ _ _ EL) as (_ & _ & _ & K).
  split.
  - assert (X : map r_index (zip_rows d (firstn N (s n)) nl gl) = firstn N (s n)).
    { assert (Y1 : List.length nl = List.length (firstn N (s n))) by lia.
      assert (Y2 : List.length gl = List.length (firstn N (s n))) by lia.
      revert Y1 Y2. clear. generalize (firstn N (s n)). clear. intros idx. revert nl gl.
      induction idx as [|i idx IH]; intros [|v nl] [|w gl] Y1 Y2; cbn in *; try discriminate; [reflexivity|].
      f_equal. apply IH; lia. }
    rewrite X. assert (ND : NoDup (s n)) by (eapply Permutation_NoDup; [symmetry; apply P|apply seq_NoDup]).
    rewrite <- (firstn_skipn N (s n)) in ND. clear -ND. revert ND. generalize (skipn N (s n)). generalize (firstn N (s n)).
    induction l as [|x l IH]; intros m ND; [constructor|]. cbn in ND. inversion ND as [|? ? N1 N2]; subst.
    constructor; [intros I; apply N1, in_or_app; now left|]. eapply IH; exact N2.
  - intros j r Hr. rewrite zip_rows_nth in Hr by lia.
    destruct (nth_error (firstn N (s n)) j) as [i|] eqn:E1; [|discriminate].
    destruct (nth_error nl j) as [v|] eqn:E2; [|discriminate].
    destruct (nth_error gl j) as [w|] eqn:E3; [|discriminate]. injection Hr as <-.
    assert (Hj : j < N) by (rewrite <- L1; apply nth_error_Some; congruence).
    destruct (K L1 L2 j Hj) as (im & v' & w' & R1 & R2 & R3 & R4 & R5). cbn [Nat.add] in *.
    assert (im = i).
    { rewrite <- (firstn_skipn N (s n)) in R1. rewrite nth_error_app1 in R1 by lia. congruence. }
    subst im. assert (v' = v) by congruence. assert (w' = w) by congruence. subst v' w'.
    destruct (try_one_at _ _ _ _ _ _ R2) as (a & x & u & A1 & A2 & A3 & A4).
    destruct (try_one_at _ _ _ _ _ _ R3) as (b & y & z & B1 & B2 & B3 & B4).
    assert (y = x) by congruence. subst y.
    assert (Nn : nld <> ANone) by (intros ->; destruct A3). assert (Ng : gsf <> ANone) by (intros ->; destruct B3).
    destruct (KA Nn) as [D1 D2]. destruct (KB Ng) as [D3 D4].
    exists i, a, b, x, u, z. cbn [r_index r_pars r_nld r_gsf]. split; [reflexivity|].
    split; [exists A; auto|]. split; [exists B; auto|]. split; [exists al; auto|].
    split.
    { intros k q Q. eapply pars_at_get; [exact G| |exact Q]. eapply perm_index; [exact P|exact R1]. }
    auto.
Qed.

(* with a Vector each for nld and gsf and samples from the normalisation the
   function succeeds and gives min(n, N_max) rows *)
Lemma nth_error_ok {A} (l : list A) i : i < List.length l -> exists x, nth_error l i = Some x.
Proof. intros H. apply nth_error_Some in H. destruct (nth_error l i); [eauto|congruence]. Qed.
Lemma loop_full v w A B al rl n : List.length A = n -> List.length B = n -> List.length al = n ->
  (forall i, In i rl -> i < n) -> forall N i, i + N <= List.length rl ->
  exists nl gl, loop (AVec v) (AVec w) A B al rl i N = Ok (nl, gl) /\ List.length nl = N /\ List.length gl = N.
Proof.
  intros LA LB La I. induction N as [|N IH]; intros i L; cbn [SampTransModel.loop]; [exists [], []; auto|].
  destruct (nth_error_ok rl i) as (im & E); [lia|]. rewrite E.
  destruct (IH (S i)) as (nl & gl & H & L1 & L2); [lia|]. rewrite H. cbn [rbind fst snd].
  assert (Hi : im < n) by (apply I; eapply nth_error_In; exact E).
  destruct (nth_error_ok A im) as (a & Ea); [lia|]. destruct (nth_error_ok B im) as (b & Eb); [lia|].
  destruct (nth_error_ok al im) as (x & Ex); [lia|].
  unfold SampTransModel.try_one. rewrite Ea, Eb, Ex. do 2 eexists. split; [reflexivity|].
  cbn. split; congruence.
Qed.
Theorem vectors_succeed s N_max d n v w : shuffles s -> good_samples n d ->
  exists rows, tranform s N_max d (AVec v) (AVec w) = Ok rows /\ List.length rows = Nat.min n N_max.
Proof.
  intros P ((A & B & al & DA & DB & Da) & G).
  assert (En : n_multinest d = Ok n).
  { destruct d as [|[k l] d]; [discriminate|]. cbn. f_equal. apply (G k). now left. }
  unfold tranform_nld_gsf. rewrite En. cbn [rbind]. rewrite DA, DB, Da. cbn [rbind fst snd arg_N].
  assert (LA := G _ _ (get_in _ _ _ DA)). assert (LB := G _ _ (get_in _ _ _ DB)). assert (La := G _ _ (get_in _ _ _ Da)).
  assert (Ls := shuffle_length s n P).
  destruct (loop_full v w A B al (s n) n LA LB La) with (N := Nat.min n N_max) (i := 0) as (nl & gl & H & L1 & L2).
  { intros i I. apply (Permutation_in _ (P n)), in_seq in I. lia. }
  { lia. }
  rewrite H. cbn [rbind fst snd].
  assert (F : forallb (fun kv : string * list num => Nat.eqb (List.length (snd kv)) n) d = true).
  { apply forallb_forall. intros [k l] I. apply Nat.eqb_eq. cbn. eapply G; exact I. }
  rewrite F. cbn [negb]. assert (Li : List.length (firstn (Nat.min n N_max) (s n)) = Nat.min n N_max) by (rewrite firstn_length; lia).
  rewrite Li, L1, L2, Nat.eqb_refl. cbn [negb]. eexists. split; [reflexivity|].
  rewrite zip_rows_length; lia.
Qed.

(* the random order only decides which samples are used and in which order;
   when all are used (n <= N_max) every sample occurs *)
Theorem all_samples_used s N_max d n v w rows : shuffles s -> good_samples n d -> n <= N_max ->
  tranform s N_max d (AVec v) (AVec w) = Ok rows -> forall i, i < n -> In i (map r_index rows).
Proof.
  intros P G L H i Hi.
  destruct (rows_one_sample _ _ _ _ _ _ P H) as [ND R].
  destruct (vectors_succeed s N_max d n v w P G) as (rows' & H' & Lr). rewrite H in H'. injection H' as <-.
  rewrite Nat.min_l in Lr by exact L.
  assert (I : incl (map r_index rows) (seq 0 n)).
  { intros k Ik. apply in_map_iff in Ik. destruct Ik as (r & <- & Ir). apply In_nth_error in Ir. destruct Ir as (j & Ej).
    destruct (R j r Ej) as (k & A & _ & _ & _ & _ & <- & (l & D & X) & _).
    apply in_seq. assert (List.length l = n) by (destruct G as [_ G]; eapply G, get_in; exact D).
    assert (r_index r < List.length l) by (apply nth_error_Some; congruence). lia. }
  assert (I' : incl (seq 0 n) (map r_index rows)).
  { apply NoDup_length_incl; [exact ND|rewrite map_length, seq_length; lia|exact I]. }
  apply I', in_seq. lia.
Qed.

(* the optional arguments cannot be left out: without nld or without gsf the
   call always fails (unless there is no sample at all) *)
Theorem left_out_refuted s N_max d n v : shuffles s -> good_samples n d -> 0 < n -> 0 < N_max ->
  tranform s N_max d ANone (AVec v) = Raise ValueError /\
  tranform s N_max d (AVec v) ANone = Raise ValueError /\
  tranform s N_max d ANone ANone = Raise NameError.
Proof.
  intros P G Hn HN.
  assert (NO : forall nld gsf rows, (nld = ANone \/ gsf = ANone) -> 0 < asked n N_max nld gsf ->
            tranform s N_max d nld gsf = Ok rows -> False).
  { intros nld gsf rows O Ha H. destruct (rows_one_sample _ _ _ _ _ _ P H) as [_ R].
    destruct (tranform_inv _ _ _ _ _ _ P H) as (n' & N & nl & gl & A & B & al & En & -> & _ & _ & EL & _ & LN & L1 & L2 & Er).
    assert (n' = n).
    { destruct G as [_ G]. destruct d as [|[k l] d']; [discriminate|]. cbn in En. injection En as <-. apply (G k). now left. }
    subst n'.
    assert (Lr : List.length rows = asked n N_max nld gsf).
    { rewrite Er. rewrite zip_rows_length; rewrite firstn_length, (shuffle_length s n P); lia. }
    destruct (nth_error_ok rows 0) as (r & E0); [lia|].
    destruct (R 0 r E0) as (i & a & b & x & v1 & w1 & _ & _ & _ & _ & _ & A1 & A2 & _).
    destruct O as [-> | ->]; contradiction. }
  assert (GE : forall nld gsf, nld <> ANone \/ gsf <> ANone -> (forall l, nld <> AList l) -> (forall l, gsf <> AList l) ->
            (exists rows, tranform s N_max d nld gsf = Ok rows) \/ tranform s N_max d nld gsf = Raise ValueError).
  { intros nld gsf O N1 N2. destruct G as ((A & B & al & DA & DB & Da) & G).
    assert (En : n_multinest d = Ok n).
    { destruct d as [|[k l] d']; [discriminate|]. cbn. f_equal. apply (G k). now left. }
    unfold tranform_nld_gsf. rewrite En, DA, DB, Da. cbn [rbind].
    assert (LL : forall A B al N i, i + N <= List.length (s n) -> exists r, loop nld gsf A B al (s n) i N = Ok r).
    { clear. induction N as [|N IH]; intros i L; cbn [SampTransModel.loop]; [eauto|].
      destruct (nth_error_ok (s n) i) as (im & E); [lia|]. rewrite E. destruct (IH (S i)) as (r & E2); [lia|]. rewrite E2. cbn [rbind]. eauto. }
    rewrite (shuffle_length s n P) in LL.
    destruct nld as [|u|l]; [| |exfalso; eapply N1; reflexivity]; (destruct gsf as [|u2|l]; [| |exfalso; eapply N2; reflexivity]);
      cbn [rbind fst snd arg_N]; try (destruct O; congruence);
      (match goal with |- context [SampTransModel.loop _ _ _ ?a ?b ?c _ 0 ?N] => destruct (LL a b c N 0) as ([nl gl] & ->); [lia|] end);
      cbn [rbind fst snd]; repeat (destruct (negb _); [now right|]); left; eauto. }
  split; [|split].
  - destruct (GE ANone (AVec v)) as [(rows & E)|E]; try (intros; discriminate); [right; discriminate| |exact E].
    exfalso. apply (NO ANone (AVec v) rows); auto. cbn. lia.
  - destruct (GE (AVec v) ANone) as [(rows & E)|E]; try (intros; discriminate); [left; discriminate| |exact E].
    exfalso. apply (NO (AVec v) ANone rows); auto. cbn. lia.
  - destruct G as ((A & B & al & DA & _ & _) & _). destruct d as [|[k l] d']; [discriminate|reflexivity].
Qed.

(* a list of vectors must not be longer than the list of samples, and N_max
   (documented as the limit for lists) does not shorten it: the number of rows
   is the length of the list *)
Theorem list_not_limited s N_max d nld l rows : shuffles s -> tranform s N_max d nld (AList l) = Ok rows ->
  List.length rows = List.length l.
Proof.
  intros P H. destruct (tranform_inv _ _ _ _ _ _ P H) as (n & N & nl & gl & A & B & al & _ & EN & _ & _ & _ & _ & LN & L1 & L2 & ->).
  cbn in EN. rewrite zip_rows_length; rewrite firstn_length, (shuffle_length s n P); lia.
Qed.
Theorem list_too_long s N_max d n nld l : shuffles s -> good_samples n d -> n < List.length l ->
  tranform s N_max d nld (AList l) = Raise IndexError.
Proof.
  intros P ((A & B & al & DA & DB & Da) & G) L.
  assert (En : n_multinest d = Ok n).
  { destruct d as [|[k x] d']; [discriminate|]. cbn. f_equal. apply (G k). now left. }
  unfold tranform_nld_gsf. rewrite En, DA, DB, Da. cbn [rbind].
  assert (LL : forall A B al N i, i <= n -> n < i + N -> loop nld (AList l) A B al (s n) i N = Raise IndexError).
  { clear - P. induction N as [|N IH]; intros i I1 I2; [lia|]. cbn [SampTransModel.loop].
    destruct (nth_error (s n) i) as [im|] eqn:E; [|reflexivity].
    assert (i < n) by (rewrite <- (shuffle_length s n P); apply nth_error_Some; congruence).
    rewrite IH by lia. reflexivity. }
  destruct nld as [|u|l2]; cbn [rbind fst snd arg_N]; rewrite LL by lia; reflexivity.
Qed.

(* ------------------------------------------------------------------ *)
(* samples_from_res: the samples of all members.  Every row stems from one
   member: its vectors are that member's, transformed by the parameters of one
   of that member's samples. *)
Definition row_of (m : member num vec) (r : row num vec) : Prop :=
  exists i A B al, r_index r = i /\
    sample_par (m_samples m) "A" i A /\ sample_par (m_samples m) "B" i B /\ sample_par (m_samples m) "alpha" i al /\
    (forall k x, sample_par (m_samples m) k i x -> In (k, x) (r_pars r)) /\
    r_nld r = transform A al (to_MeV (m_nld m)) /\ r_gsf r = transform B al (to_MeV (m_gsf m)).
Theorem samples_of_members shuffle l : l <> [] -> (forall k, shuffles (shuffle k)) ->
  (forall m, In m l -> exists n, good_samples n (m_samples m)) ->
  exists blocks, samples_from_res transform to_MeV shuffle l = Ok (List.concat blocks) /\
    Forall2 (fun m rows => (forall r, In r rows -> row_of m r) /\ NoDup (map r_index rows) /\
                           forall n, good_samples n (m_samples m) -> List.length rows = Nat.min n 100) l blocks.
Proof.
  intros N P G. assert (K : forall k, exists blocks, members transform to_MeV shuffle k l = Ok (List.concat blocks) /\
    Forall2 (fun m rows => (forall r, In r rows -> row_of m r) /\ NoDup (map r_index rows) /\
                           forall n, good_samples n (m_samples m) -> List.length rows = Nat.min n 100) l blocks).
  { clear N. induction l as [|m l IH]; intros k; [exists []; split; [reflexivity|constructor]|].
    destruct (G m) as (n & Gm); [now left|].
    destruct (vectors_succeed (shuffle k) 100 (m_samples m) n (to_MeV (m_nld m)) (to_MeV (m_gsf m)) (P k) Gm) as (rows & E & L).
    destruct IH with (k := S k) as (blocks & Eb & F); [intros; apply G; now right|].
    exists (rows :: blocks). split; [cbn [members]; rewrite E; cbn [rbind]; rewrite Eb; reflexivity|].
    constructor; [|exact F]. destruct (rows_one_sample _ _ _ _ _ _ (P k) E) as [ND R].
    split; [|split; [exact ND|]].
    - intros r Ir. apply In_nth_error in Ir. destruct Ir as (j & Ej).
      destruct (R j r Ej) as (i & A & B & al & v & w & R1 & R2 & R3 & R4 & R5 & R6 & R7 & R8 & R9).
      cbn [arg_at] in R6, R7. subst v w. exists i, A, B, al. auto 10.
    - intros n2 G2. destruct (vectors_succeed (shuffle k) 100 (m_samples m) n2 (to_MeV (m_nld m)) (to_MeV (m_gsf m)) (P k) G2) as (rows2 & E2 & L2).
      congruence. }
  destruct (K 0) as (blocks & E & F). exists blocks. split; [|exact F].
  destruct l; [congruence|exact E].
Qed.
End Props.
Print Assumptions rows_one_sample.
Print Assumptions vectors_succeed.
Print Assumptions all_samples_used.
Print Assumptions left_out_refuted.
Print Assumptions list_not_limited.
Print Assumptions list_too_long.
Print Assumptions samples_of_members.

(* ------------------------------------------------------------------ *)
(* Examples: numbers as numbers, a "vector" remembers what was done to it *)
Definition ex_samples : samples_t nat := [("A", [1; 2; 3]); ("alpha", [10; 20; 30]); ("B", [7; 8; 9]); ("T", [4; 5; 6])].
Example ex_good : good_samples 3 ex_samples.
Proof.
  split; [do 3 eexists; repeat split; reflexivity|].
  intros k l [E|[E|[E|[E|[]]]]]; injection E as <- <-; reflexivity.
Qed.
Example ex_shuffles : shuffles (fun n => rev (seq 0 n)).
Proof. intros n. symmetry. apply Permutation_rev. Qed.
Example ex_rows : tranform_nld_gsf (fun c al v => (c, al) :: v) (fun n => rev (seq 0 n)) 2 ex_samples (AVec []) (AVec []) =
  Ok [mkRow 2 [("A", 3); ("alpha", 30); ("B", 9); ("T", 6)] [(3, 30)] [(9, 30)];
      mkRow 1 [("A", 2); ("alpha", 20); ("B", 8); ("T", 5)] [(2, 20)] [(8, 20)]].
Proof. reflexivity. Qed.
Example ex_members : exists rows, samples_from_res (fun c al v => (c, al) :: v) (fun v => v) (fun _ n => rev (seq 0 n))
  [mkMember ex_samples [] []; mkMember ex_samples [(0, 0)] []] = Ok rows /\ List.length rows = 6.
Proof. eexists. split; reflexivity. Qed.
