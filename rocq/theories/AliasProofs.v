(* Lemmas about the heap model of AliasModel.v. *)
From Verif Require Import PyBase Axis RebinModel MatrixModel VectorModel FillModel ArithModel CutProofs AliasModel AliasSpec.
Local Open Scope nat_scope.

(* --- lists ----------------------------------------------------------------------------- *)
Inductive subl {A} : list A -> list A -> Prop :=
| subl_nil l : subl [] l
| subl_skip x a b : subl a b -> subl a (x :: b)
| subl_keep x a b : subl a b -> subl (x :: a) (x :: b).
Lemma subl_refl {A} (l : list A) : subl l l.
Proof. induction l; [constructor|apply subl_keep; auto]. Qed.
Lemma subl_in {A} (a b : list A) : subl a b -> forall x, In x a -> In x b.
Proof. induction 1; intros y Hy; cbn in *; [tauto|auto|]. destruct Hy; auto. Qed.
Lemma subl_nodup {A} (a b : list A) : subl a b -> NoDup b -> NoDup a.
Proof.
  induction 1; intros N; [constructor| |]; inversion N; subst; auto.
  constructor; auto. intros I. apply H2. now apply (subl_in a b).
Qed.
Lemma subl_app {A} (a b c d : list A) : subl a b -> subl c d -> subl (a ++ c) (b ++ d).
Proof.
  intros H. revert c d. induction H; intros c d K; cbn; [|apply subl_skip; auto|apply subl_keep; auto].
  induction l; cbn; [exact K|apply subl_skip; auto].
Qed.
Lemma subl_firstn {A} n (l : list A) : subl (firstn n l) l.
Proof. revert l; induction n; destruct l; cbn; try (constructor; fail); apply subl_keep; auto. Qed.
Lemma subl_skipn {A} n (l : list A) : subl (skipn n l) l.
Proof. revert l; induction n; destruct l; cbn; try (constructor; fail); [apply subl_refl|apply subl_skip; auto]. Qed.
Lemma subl_trans {A} (a b c : list A) : subl a b -> subl b c -> subl a c.
Proof.
  intros H K; revert a H. induction K; intros a' H; [inversion H; constructor|apply subl_skip; auto|].
  inversion H; subst; [constructor|apply subl_skip; auto|apply subl_keep; auto].
Qed.
Lemma subl_slice {A} (l : list A) lo hi : subl (py_slice l lo hi) l.
Proof. unfold py_slice. eapply subl_trans; [apply subl_firstn|apply subl_skipn]. Qed.
Lemma subl_concat {A} (a b : list (list A)) : subl a b -> subl (concat a) (concat b).
Proof.
  induction 1; cbn; [constructor| |].
  - change (concat a) with ([] ++ concat a). apply subl_app; [constructor|auto].
  - apply subl_app; [apply subl_refl|auto].
Qed.
Lemma subl_concat_map {A} (f : list A -> list A) (l : list (list A)) : (forall x, subl (f x) x) ->
  subl (concat (map f l)) (concat l).
Proof. intros H; induction l; cbn; [constructor|]. apply subl_app; auto. Qed.

Lemma nodup_app {A} (a b : list A) : NoDup (a ++ b) <-> NoDup a /\ NoDup b /\ forall x, In x a -> In x b -> False.
Proof.
  induction a as [|x a IH]; cbn; [split; [intros N; repeat split; [constructor|exact N|tauto]|tauto]|].
  split.
  - intros N; inversion N; subst. apply IH in H2 as (N1 & N2 & D). rewrite in_app_iff in H1. repeat split; auto.
    + constructor; tauto.
    + intros y [<-|Hy] Hb; [tauto|eauto].
  - intros (N1 & N2 & D). inversion N1; subst. constructor.
    + rewrite in_app_iff. intros [H|H]; [tauto|]. apply (D x); auto.
    + apply IH. repeat split; auto. intros y Hy Hb. apply (D y); auto.
Qed.

Lemma upd_length {A} (l : list A) i x : length (upd l i x) = length l.
Proof. revert i; induction l; destruct i; cbn; auto. Qed.
Lemma nth_upd {A} (l : list A) i x k d : nth k (upd l i x) d = if (Nat.eqb k i && (i <? length l))%bool then x else nth k l d.
Proof.
  revert i k; induction l as [|y l IH]; intros i k; cbn [upd].
  - cbn. rewrite andb_false_r. destruct k; reflexivity.
  - destruct i, k; cbn [nth Nat.eqb andb length]; try reflexivity. rewrite IH. reflexivity.
Qed.
Lemma nth_error_upd {A} (l : list A) i x k : nth_error (upd l i x) k = if (Nat.eqb k i && (i <? length l))%bool then Some x else nth_error l k.
Proof.
  revert i k; induction l as [|y l IH]; intros i k; cbn [upd].
  - cbn. rewrite andb_false_r. destruct k; reflexivity.
  - destruct i, k; cbn [nth_error Nat.eqb andb length]; try reflexivity. rewrite IH. reflexivity.
Qed.

(* --- memory ---------------------------------------------------------------------------- *)
Definition fit (h : memory) (a : list nat) : Prop := forall c, In c a -> c < length h.
(* h' is h with new cells and with changes in the cells `own` only *)
Definition grows (own : list nat) (h h' : memory) : Prop :=
  length h <= length h' /\ forall c, c < length h -> ~ In c own -> nth c h' 0%Qc = nth c h 0%Qc.
Lemma grows_refl own h : grows own h h. Proof. split; auto. Qed.
Lemma grows_trans own h1 h2 h3 : grows own h1 h2 -> grows own h2 h3 -> grows own h1 h3.
Proof. intros [L1 H1] [L2 H2]. split; [lia|]. intros c Hc N. rewrite H2 by (auto; lia). auto. Qed.
Lemma grows_mono own own' h h' : (forall c, In c own -> In c own') -> grows own h h' -> grows own' h h'.
Proof. intros I [L H]. split; [exact L|]. intros c Hc N. apply H; auto. Qed.
Lemma grows_app own h xs : grows own h (h ++ xs).
Proof. split; [rewrite app_length; lia|]. intros c Hc _. now rewrite app_nth1. Qed.
Lemma grows_get own h h' a : grows own h h' -> fit h a -> (forall c, In c a -> In c own -> False) -> get h' a = get h a.
Proof. intros [_ H] F D. unfold get. apply map_ext_in. intros c Hc. apply H; [auto|]. intros I. eauto. Qed.
Lemma get_app h xs a : fit h a -> get (h ++ xs) a = get h a.
Proof. intros F. apply (grows_get []); [apply grows_app|exact F|]. intros c _ []. Qed.
Lemma get_seq_gen (p h t : list Qc) : get (p ++ h ++ t) (seq (length p) (length h)) = h.
Proof.
  revert p; induction h as [|x h IH]; intros p; [reflexivity|]. cbn [length seq get map].
  rewrite app_nth2, Nat.sub_diag by lia. cbn [app nth]. f_equal.
  specialize (IH (p ++ [x])). rewrite app_length in IH. cbn [length] in IH. replace (length p + 1) with (S (length p)) in IH by lia.
  rewrite <- app_assoc in IH. exact IH.
Qed.
Lemma alloc_spec h xs h' a : alloc h xs = (h', a) -> grows [] h h' /\ get h' a = xs /\ NoDup a /\
  (forall c, In c a <-> length h <= c < length h') /\ length h' = length h + length xs.
Proof.
  unfold alloc. intros E; injection E as <- <-. split; [apply grows_app|]. split.
  { rewrite <- (app_nil_r xs) at 1. apply get_seq_gen. }
  split; [apply seq_NoDup|]. rewrite app_length. split; [|lia]. intros c. rewrite in_seq. lia.
Qed.
Lemma alloc_rows_spec rows : forall h h' a, alloc_rows h rows = (h', a) -> grows [] h h' /\ map (get h') a = rows /\ NoDup (concat a) /\
  (forall c, In c (concat a) -> length h <= c < length h').
Proof.
  induction rows as [|r rows IH]; intros h h' a E; cbn [alloc_rows] in E.
  - injection E as <- <-. repeat split; try constructor; destruct H.
  - destruct (alloc h r) as [h1 b] eqn:A. destruct (alloc_rows h1 rows) as [h2 c] eqn:R. injection E as <- <-.
    apply alloc_spec in A as (G1 & E1 & N1 & I1 & L1). apply IH in R as (G2 & E2 & N2 & I2).
    split; [eapply grows_trans; eauto|]. split.
    { cbn [map]. f_equal; [|exact E2]. rewrite <- E1. apply (grows_get []); [exact G2| |intros ? _ []]. intros x Hx. apply I1 in Hx. lia. }
    assert (B : forall x, In x (concat c) -> length h1 <= x < length h2) by exact I2.
    destruct G1 as [G1 _], G2 as [G2 _]. cbn [concat]. split.
    + apply nodup_app. split; [exact N1|]. split; [exact N2|]. intros x Hx Hc. apply I1 in Hx. apply B in Hc. lia.
    + intros x Hx. apply in_app_iff in Hx as [Hx|Hx]; [apply I1 in Hx|apply B in Hx]; lia.
Qed.
Lemma alloc2_spec h x h' a : alloc2 h x = (h', a) -> grows [] h h' /\ get2 h' a = x /\ NoDup (cells2 a) /\
  (forall c, In c (cells2 a) -> length h <= c < length h').
Proof.
  unfold alloc2. destruct (alloc_rows h (a_rows x)) as [h1 rows] eqn:A. intros E; injection E as <- <-.
  apply alloc_rows_spec in A as (G & E & N & I). repeat split; try apply G; auto.
  - unfold get2. cbn [h_nc h_rows]. rewrite E. destruct x; reflexivity.
  - unfold cells2 in H. cbn in H. apply I in H. lia.
  - unfold cells2 in H. cbn in H. apply I in H. lia.
Qed.

(* writing *)
Fixpoint mapi_from {A B} (k : nat) (f : nat -> A -> B) (l : list A) : list B :=
  match l with [] => [] | x :: t => f k x :: mapi_from (S k) f t end.
Definition mapi {A B} (f : nat -> A -> B) (l : list A) : list B := mapi_from 0 f l.
Lemma write_from_spec a : forall k h f, length (write_from k h a f) = length h /\
  (forall c, ~ In c a -> nth c (write_from k h a f) 0%Qc = nth c h 0%Qc) /\
  (fit h a -> NoDup a -> get (write_from k h a f) a = mapi_from k f (get h a)).
Proof.
  induction a as [|c a IH]; intros k h f; cbn [write_from].
  - repeat split.
  - destruct (IH (S k) (upd h c (f k (nth c h 0%Qc))) f) as (L & N & G). rewrite upd_length in L. split; [exact L|]. split.
    + intros x Hx. cbn in Hx. rewrite N by tauto. rewrite nth_upd.
      destruct (Nat.eqb_spec x c) as [->|]; [tauto|]. reflexivity.
    + intros F ND. inversion ND; subst. cbn [get map mapi_from]. rewrite N by assumption. rewrite nth_upd, Nat.eqb_refl.
      replace (c <? length h) with true by (symmetry; apply Nat.ltb_lt, F; left; reflexivity). cbn [andb]. f_equal.
      fold (get (write_from (S k) (upd h c (f k (nth c h 0%Qc))) a f) a). rewrite G; [|intros x Hx; rewrite upd_length; apply F; now right|assumption].
      f_equal. unfold get. apply map_ext_in. intros x Hx. rewrite nth_upd. destruct (Nat.eqb_spec x c) as [->|]; [contradiction|reflexivity].
Qed.
Lemma write_spec h a f : length (write h a f) = length h /\ grows a h (write h a f) /\
  (fit h a -> NoDup a -> get (write h a f) a = mapi f (get h a)).
Proof.
  destruct (write_from_spec a 0 h f) as (L & N & G). split; [exact L|]. split; [|exact G].
  split; [unfold write; lia|]. intros c _. apply N.
Qed.
Lemma write_rows_spec rows : forall r h f, length (write_rows r h rows f) = length h /\ grows (concat rows) h (write_rows r h rows f) /\
  (fit h (concat rows) -> NoDup (concat rows) ->
   map (get (write_rows r h rows f)) rows = mapi_from r (fun p row => mapi (f p) row) (map (get h) rows)).
Proof.
  induction rows as [|a rows IH]; intros r h f; cbn [write_rows].
  - split; [reflexivity|]. split; [apply grows_refl|]. reflexivity.
  - destruct (write_spec h a (f r)) as (L1 & G1 & E1). destruct (IH (S r) (write h a (f r)) f) as (L2 & G2 & E2).
    split; [lia|]. split.
    + cbn [concat]. eapply grows_trans; (eapply grows_mono; [|eassumption]); intros c Hc; apply in_app_iff; auto.
    + cbn [concat map mapi_from]. intros F N. apply nodup_app in N as (N1 & N2 & D).
      assert (F1 : fit h a) by (intros c Hc; apply F, in_app_iff; auto).
      assert (F2 : fit (write h a (f r)) (concat rows)) by (intros c Hc; rewrite L1; apply F, in_app_iff; auto).
      f_equal.
      * rewrite <- E1 by assumption. apply (grows_get (concat rows)); [exact G2|intros c Hc; rewrite L1; auto|]. intros c Hc Hr. eapply D; eauto.
      * rewrite E2 by assumption. f_equal. apply map_ext_in. intros b Hb. apply (grows_get a); [exact G1| |].
        -- intros c Hc. apply F, in_app_iff. right. apply in_concat. eauto.
        -- intros c Hc Ha. apply (D c Ha). apply in_concat. eauto.
Qed.

(* --- parts of arrays --------------------------------------------------------------------- *)
(* the new array a' consists of cells of a and of cells in the range P *)
Definition part (P : nat -> Prop) (a a' : list nat) : Prop :=
  (NoDup a -> NoDup a') /\ forall c, In c a' -> In c a \/ P c.
Lemma part_subl P a a' : subl a' a -> part P a a'.
Proof. intros S. split; [now apply subl_nodup|]. intros c Hc. left. eapply subl_in; eauto. Qed.
Lemma part_refl P a : part P a a. Proof. apply part_subl, subl_refl. Qed.
Lemma part_mono (P Q : nat -> Prop) a a' : (forall c, P c -> Q c) -> part P a a' -> part Q a a'.
Proof. intros I [N H]. split; [exact N|]. intros c Hc. destruct (H c Hc); auto. Qed.
Lemma part_new (P : nat -> Prop) a a' : NoDup a' -> (forall c, In c a' -> P c) -> part P a a'.
Proof. intros N H. split; auto. Qed.
Lemma part_app (P Q : nat -> Prop) a a' b b' : part P a a' -> part Q b b' ->
  (forall c, P c -> Q c -> False) -> (forall c, In c (a ++ b) -> P c \/ Q c -> False) ->
  part (fun c => P c \/ Q c) (a ++ b) (a' ++ b').
Proof.
  intros [N1 H1] [N2 H2] D F. split.
  - intros N. apply nodup_app in N as (Na & Nb & Dab). apply nodup_app. split; [auto|]. split; [auto|].
    intros c Ha Hb. apply H1 in Ha. apply H2 in Hb. destruct Ha as [Ha|Ha], Hb as [Hb|Hb].
    + eauto.
    + apply (F c); [apply in_app_iff; auto|auto].
    + apply (F c); [apply in_app_iff; auto|auto].
    + eauto.
  - intros c Hc. apply in_app_iff in Hc as [Hc|Hc]; [apply H1 in Hc|apply H2 in Hc]; rewrite in_app_iff; tauto.
Qed.

(* effects on one attribute *)
Definition bound1 (e : eff1) : list nat := match e with Bind1 b => b | _ => [] end.
Definition after1 (h : memory) (l : list Qc) (e : eff1) : list Qc :=
  match e with
  | Keep1 => l
  | Fresh1 xs => xs
  | Slice1 lo hi => py_slice l lo hi
  | Bind1 b => get h b
  | Upd1 f => mapi f l
  end.
Definition wrote1 (e : eff1) (a : list nat) : list nat := match e with Upd1 _ => a | _ => [] end.
Lemma do1_spec h a e h' a' : do1 h a e = (h', a') ->
  grows (wrote1 e a) h h' /\
  (forall c, In c a' -> In c a \/ length h <= c < length h' \/ In c (bound1 e)) /\
  ((forall b, e <> Bind1 b) -> part (fun c => length h <= c < length h') a a') /\
  (fit h a -> NoDup a -> (forall b, e = Bind1 b -> fit h b) -> get h' a' = after1 h (get h a) e /\ fit h' a').
Proof.
  destruct e; cbn [do1]; intros E; [injection E as <- <-| |injection E as <- <-|injection E as <- <-|injection E as <- <-].
  - split; [apply grows_refl|]. split; [auto|]. split; [intros _; apply part_refl|]. auto.
  - apply alloc_spec in E as (G & E & N & I & L). split; [exact G|].
    split; [intros c Hc; apply I in Hc; auto|]. split; [intros _; apply part_new; [exact N|intros c; apply I]|].
    intros _ _ _. split; [exact E|]. intros c Hc. apply I in Hc. lia.
  - split; [apply grows_refl|]. split; [intros c Hc; left; eapply subl_in; [apply subl_slice|exact Hc]|].
    split; [intros _; apply part_subl, subl_slice|]. intros F _ _. split; [symmetry; apply py_slice_map|].
    intros c Hc. apply F. eapply subl_in; [apply subl_slice|exact Hc].
  - split; [apply grows_refl|]. split; [auto|]. split; [intros B; exfalso; eapply B; reflexivity|]. intros _ _ B. split; [reflexivity|]. now apply B.
  - destruct (write_spec h a f) as (L & G & E). split; [exact G|]. split; [auto|]. split; [intros _; apply part_refl|].
    intros F N _. split; [now apply E|]. intros c Hc. rewrite L. auto.
Qed.
Definition after2 (x : arr2) (e : eff2) : arr2 :=
  match e with
  | Keep2 => x
  | Fresh2 y => y
  | Rows2 lo hi => slice_rows x lo hi
  | Cols2 lo hi => slice_cols x lo hi
  | Upd2 f => mkArr (a_nc x) (mapi (fun r row => mapi (f r) row) (a_rows x))
  end.
Definition wrote2 (e : eff2) (a : list nat) : list nat := match e with Upd2 _ => a | _ => [] end.
Lemma do2_spec h a e h' a' : do2 h a e = (h', a') ->
  grows (wrote2 e (cells2 a)) h h' /\ part (fun c => length h <= c < length h') (cells2 a) (cells2 a') /\
  (fit h (cells2 a) -> NoDup (cells2 a) -> get2 h' a' = after2 (get2 h a) e /\ fit h' (cells2 a')).
Proof.
  destruct e; cbn [do2]; intros E; [injection E as <- <-| |injection E as <- <-|injection E as <- <-|injection E as <- <-].
  - split; [apply grows_refl|]. split; [apply part_refl|]. auto.
  - apply alloc2_spec in E as (G & E & N & I). split; [exact G|].
    split; [apply part_new; assumption|]. intros _ _. split; [exact E|]. intros c Hc. apply I in Hc. lia.
  - split; [apply grows_refl|].
    assert (S : subl (cells2 (hslice_rows a lo hi)) (cells2 a)) by (apply subl_concat, subl_slice).
    split; [apply part_subl, S|]. intros F _. split.
    + unfold get2, after2, slice_rows, hslice_rows. cbn [h_nc h_rows a_nc a_rows]. now rewrite py_slice_map.
    + intros c Hc. apply F. eapply subl_in; eauto.
  - split; [apply grows_refl|].
    assert (S : subl (cells2 (hslice_cols a lo hi)) (cells2 a)) by (apply subl_concat_map; intros; apply subl_slice).
    split; [apply part_subl, S|]. intros F _. split.
    + unfold get2, after2, slice_cols, hslice_cols. cbn [h_nc h_rows a_nc a_rows]. f_equal. rewrite !map_map. apply map_ext. intros r. symmetry. apply py_slice_map.
    + intros c Hc. apply F. eapply subl_in; eauto.
  - destruct (write_rows_spec (h_rows a) 0 h f) as (L & G & E). split; [exact G|]. split; [apply part_refl|].
    intros F N. split.
    + unfold get2, after2. cbn [a_nc a_rows]. f_equal. now apply E.
    + intros c Hc. rewrite L. auto.
Qed.

Lemma wrote1_in e a c : In c (wrote1 e a) -> In c a. Proof. destruct e; cbn; tauto. Qed.
Lemma wrote2_in e a c : In c (wrote2 e a) -> In c a. Proof. destruct e; cbn; tauto. Qed.
Lemma grows_le own h h' : grows own h h' -> length h <= length h'. Proof. intros G; apply G. Qed.
Lemma fit_grows own h h' a : grows own h h' -> fit h a -> fit h' a.
Proof. intros [L _] F c Hc. specialize (F c Hc). lia. Qed.
Lemma fit_app h a b : fit h (a ++ b) <-> fit h a /\ fit h b.
Proof. unfold fit. split; [intros H; split; intros c Hc; apply H, in_app_iff; auto|]. intros [A B] c Hc. apply in_app_iff in Hc as [Hc|Hc]; auto. Qed.
Lemma grows_get2 own h h' a : grows own h h' -> fit h (cells2 a) -> (forall c, In c (cells2 a) -> In c own -> False) -> get2 h' a = get2 h a.
Proof.
  intros G F D. unfold get2. f_equal. apply map_ext_in. intros r Hr. apply (grows_get own); [exact G| |].
  - intros c Hc. apply F, in_concat. eauto.
  - intros c Hc. apply D, in_concat. eauto.
Qed.

(* std of a vector *)
Definition after1o (h : memory) (l : option (list Qc)) (e : eff1) : option (list Qc) :=
  match l, e with None, Fresh1 xs => Some xs | None, _ => None | Some l, _ => Some (after1 h l e) end.
Lemma do1o_spec h a e h' a' : (forall b, e <> Bind1 b) -> do1o h a e = (h', a') ->
  grows (wrote1 e (ocells a)) h h' /\
  part (fun c => length h <= c < length h') (ocells a) (ocells a') /\
  (fit h (ocells a) -> NoDup (ocells a) -> option_map (get h') a' = after1o h (option_map (get h) a) e /\ fit h' (ocells a')).
Proof.
  intros NB. destruct a as [a|]; cbn [do1o ocells option_map].
  - destruct (do1 h a e) as [h1 b] eqn:D. intros E.
    assert (E2 : h1 = h' /\ Some b = a') by (destruct e; injection E; auto). destruct E2 as [<- <-]. cbn [ocells option_map].
    apply do1_spec in D as (G & _ & P & C). split; [exact G|]. split; [auto|]. intros F N.
    destruct C as [C1 C2]; auto. { intros b0 ->. exfalso. eapply NB; reflexivity. } split; [|exact C2].
    rewrite C1. destruct e; reflexivity.
  - destruct e; intros E; try (injection E as <- <-; split; [apply grows_refl|split; [apply part_refl|auto]]; fail).
    destruct (alloc h xs) as [h1 b] eqn:A. injection E as <- <-. apply alloc_spec in A as (G & E & N & I & L). cbn [ocells option_map].
    split; [exact G|]. split; [apply part_new; [exact N|intros c; apply I]|]. intros _ _. rewrite E. split; [reflexivity|]. intros c Hc. apply I in Hc. lia.
Qed.

(* effects as the methods produce them: only E (or one axis) is bound to another array, and
   then nothing is written in place *)
Definition not_bind (e : eff1) : Prop := forall b, e <> Bind1 b.
Definition calm (e : eff1) : Prop := forall a, wrote1 e a = [].
Definition calm2 (e : eff2) : Prop := forall a, wrote2 e a = [].
Definition vgood (e : veff) : Prop :=
  not_bind (ve_values e) /\ not_bind (ve_std e) /\
  (not_bind (ve_E e) \/ (calm (ve_values e) /\ calm (ve_std e))).
Definition vafter (h : memory) (v : vector) (e : veff) : vector :=
  mkV (after1 h (v_values v) (ve_values e)) (after1 h (v_E v) (ve_E e)) (after1o h (v_std v) (ve_std e)) (ve_units e).
Lemma not_bind_bound e : not_bind e -> bound1 e = [].
Proof. destruct e; try reflexivity. intros H. exfalso. eapply H; reflexivity. Qed.
Lemma not_bind_in e c : not_bind e -> In c (bound1 e) -> False.
Proof. intros H. rewrite (not_bind_bound _ H). auto. Qed.
Lemma calm_nil e a c : calm e -> In c (wrote1 e a) -> False.
Proof. intros C. rewrite C. auto. Qed.
Lemma after1_grows own h h' l e : grows own h h' -> fit h (bound1 e) -> (forall c, In c (bound1 e) -> In c own -> False) ->
  after1 h' l e = after1 h l e.
Proof. destruct e; cbn [after1 bound1]; auto. apply grows_get. Qed.

Lemma do_vec_spec h v e h' v' : vgood e -> do_vec h v e = (h', v') ->
  grows (vcells v) h h' /\
  (forall c, In c (vcells v') -> In c (vcells v) \/ length h <= c < length h' \/ In c (bound1 (ve_E e))) /\
  (fit h (vcells v) -> NoDup (vcells v) -> fit h (bound1 (ve_E e)) ->
     look_vec h' v' = vafter h (look_vec h v) e /\ fit h' (vcells v')).
Proof.
  intros (NV & NS & BE). unfold do_vec.
  destruct (do1 h (hv_values v) (ve_values e)) as [h1 a] eqn:D1.
  destruct (do1 h1 (hv_E v) (ve_E e)) as [h2 b] eqn:D2.
  destruct (do1o h2 (hv_std v) (ve_std e)) as [h3 s] eqn:D3. intros E; injection E as <- <-.
  apply do1_spec in D1 as (G1 & I1 & P1 & C1). apply do1_spec in D2 as (G2 & I2 & P2 & C2). apply do1o_spec in D3 as (G3 & [P3n P3] & C3); [|exact NS].
  assert (B1 : bound1 (ve_values e) = []) by (now apply not_bind_bound).
  pose proof (grows_le _ _ _ G1). pose proof (grows_le _ _ _ G2). pose proof (grows_le _ _ _ G3).
  unfold vcells. cbn [hv_values hv_E hv_std]. split; [|split].
  - eapply grows_trans; [eapply grows_mono; [|exact G1]|eapply grows_trans; [eapply grows_mono; [|exact G2]|eapply grows_mono; [|exact G3]]];
      intros c Hc; apply wrote1_in in Hc; rewrite !in_app_iff; auto.
  - intros c. rewrite !in_app_iff. intros [Hc|[Hc|Hc]].
    + apply I1 in Hc as [Hc|[Hc|Hc]]; [auto|right; left; lia|rewrite B1 in Hc; destruct Hc].
    + apply I2 in Hc as [Hc|[Hc|Hc]]; [auto|right; left; lia|auto].
    + apply P3 in Hc as [Hc|Hc]; [auto|right; left; lia].
  - intros F N FB. apply fit_app in F as [F1 F]. apply fit_app in F as [F2 F3].
    apply nodup_app in N as (N1 & N & D12). apply nodup_app in N as (N2 & N3 & D23).
    assert (D13 : forall x, In x (hv_values v) -> In x (hv_E v) -> False) by (intros x Hx Hy; apply (D12 x Hx), in_app_iff; auto).
    assert (D1s : forall x, In x (hv_values v) -> In x (ocells (hv_std v)) -> False) by (intros x Hx Hy; apply (D12 x Hx), in_app_iff; auto).
    destruct C1 as [C1 Fa]; auto. { intros b0 E. exfalso. eapply NV; exact E. }
    assert (FB1 : fit h1 (bound1 (ve_E e))) by (eapply fit_grows; eauto).
    assert (FE1 : fit h1 (hv_E v)) by (eapply fit_grows; eauto).
    destruct C2 as [C2 Fb]; auto. { intros b0 E. rewrite E in FB1. exact FB1. }
    assert (FS2 : fit h2 (ocells (hv_std v))) by (eapply fit_grows; [exact G2|eapply fit_grows; eauto]).
    destruct C3 as [C3 Fs]; auto.
    assert (EE : get h1 (hv_E v) = get h (hv_E v)).
    { apply (grows_get _ _ _ _ G1 F2). intros c Hc Hw. apply wrote1_in in Hw. eapply D13; eauto. }
    assert (ES : option_map (get h2) (hv_std v) = option_map (get h) (hv_std v)).
    { destruct (hv_std v) as [s0|]; [|reflexivity]. cbn [option_map ocells] in *. f_equal.
      transitivity (get h1 s0).
      - apply (grows_get _ _ _ _ G2); [eapply fit_grows; eauto|]. intros c Hc Hw. apply wrote1_in in Hw. eapply D23; eauto.
      - apply (grows_get _ _ _ _ G1 F3). intros c Hc Hw. apply wrote1_in in Hw. eapply D1s; eauto. }
    assert (EB : after1 h1 (get h (hv_E v)) (ve_E e) = after1 h (get h (hv_E v)) (ve_E e)).
    { apply (after1_grows _ _ _ _ _ G1 FB). intros c Hc Hw. destruct BE as [BE|[BE _]].
      - eapply not_bind_in; eauto.
      - eapply calm_nil; eauto. }
    assert (Ea : get h3 a = get h1 a).
    { transitivity (get h2 a).
      - apply (grows_get _ _ _ _ G3); [eapply fit_grows; eauto|]. intros c Hc Hw. apply wrote1_in in Hw.
        apply I1 in Hc as [Hc|[Hc|Hc]]; [eapply D1s; eauto|apply F3 in Hw; lia|rewrite B1 in Hc; destruct Hc].
      - apply (grows_get _ _ _ _ G2 Fa). intros c Hc Hw. apply wrote1_in in Hw.
        apply I1 in Hc as [Hc|[Hc|Hc]]; [eapply D13; eauto|apply F2 in Hw; lia|rewrite B1 in Hc; destruct Hc]. }
    assert (Eb : get h3 b = get h2 b).
    { apply (grows_get _ _ _ _ G3 Fb). intros c Hc Hw.
      apply I2 in Hc as [Hc|[Hc|Hc]]; [apply wrote1_in in Hw; eapply D23; eauto|apply wrote1_in in Hw; apply F3 in Hw; lia|].
      destruct BE as [BE|[_ BE]].
      - eapply not_bind_in; eauto.
      - eapply calm_nil; eauto. }
    split.
    + unfold look_vec, vafter. cbn [hv_values hv_E hv_std hv_units v_values v_E v_std]. rewrite Ea, Eb, C1, C2, C3, EE, EB, ES. f_equal.
      unfold not_bind in NS. destruct (hv_std v), (ve_std e); cbn; try reflexivity. exfalso. eapply NS; reflexivity.
    + rewrite !fit_app. split; [eapply fit_grows; [exact G3|eapply fit_grows; eauto]|]. split; [eapply fit_grows; eauto|exact Fs].
Qed.

Lemma do1_part (P0 : nat -> Prop) h a e h' a' : do1 h a e = (h', a') -> NoDup (bound1 e) -> (forall c, In c (bound1 e) -> P0 c) ->
  part (fun c => P0 c \/ length h <= c < length h') a a'.
Proof.
  intros D N B. destruct e as [|xs|lo hi|b|f].
  1,2,3,5: apply do1_spec in D as (_ & _ & P & _); eapply part_mono; [|apply P; intros ?; discriminate]; auto.
  cbn [do1] in D. injection D as <- <-. apply part_new; [exact N|]. intros c Hc. left. now apply B.
Qed.
Lemma do_vec_part (P0 : nat -> Prop) h v e h' v' : vgood e -> do_vec h v e = (h', v') -> fit h (vcells v) ->
  NoDup (bound1 (ve_E e)) -> (forall c, In c (bound1 (ve_E e)) -> P0 c) -> (forall c, P0 c -> c < length h /\ ~ In c (vcells v)) ->
  part (fun c => P0 c \/ length h <= c < length h') (vcells v) (vcells v').
Proof.
  intros (NV & NS & BE). unfold do_vec.
  destruct (do1 h (hv_values v) (ve_values e)) as [h1 a] eqn:D1.
  destruct (do1 h1 (hv_E v) (ve_E e)) as [h2 b] eqn:D2.
  destruct (do1o h2 (hv_std v) (ve_std e)) as [h3 s] eqn:D3. intros E; injection E as <- <-. intros F N0 B0 H0.
  pose proof (do1_part P0 _ _ _ _ _ D2 N0 B0) as P2.
  apply do1_spec in D1 as (G1 & _ & P1 & _). apply do1_spec in D2 as (G2 & _). apply do1o_spec in D3 as (G3 & P3 & _); [|exact NS].
  specialize (P1 NV). apply grows_le in G1, G2, G3. unfold vcells in *. cbn [hv_values hv_E hv_std] in *.
  assert (FF : forall c, In c (hv_values v ++ hv_E v ++ ocells (hv_std v)) -> c < length h) by exact F.
  eapply part_mono; [|apply part_app; [exact P1|apply part_app; [exact P2|exact P3|..]|..]].
  - cbn beta. intros c [Hc|[[Hc|Hc]|Hc]]; try (left; exact Hc); right; lia.
  - cbn beta; intros c [Hc|Hc] Hc'; [apply H0 in Hc as [Hc _]; lia|lia].
  - cbn beta; intros c Hc [[Hp|Hp]|Hp].
    + apply H0 in Hp as [_ Hp]. apply Hp, in_app_iff. now right.
    + assert (c < length h) by (apply FF, in_app_iff; now right). lia.
    + assert (c < length h) by (apply FF, in_app_iff; now right). lia.
  - cbn beta; intros c Hc [[Hp|Hp]|Hp]; [apply H0 in Hp as [Hp _]; lia|lia|lia].
  - cbn beta; intros c Hc [Hp|[[Hp|Hp]|Hp]]; [apply FF in Hc; lia|apply H0 in Hp as [_ Hp]; auto|apply FF in Hc; lia|apply FF in Hc; lia].
Qed.

(* the same for a matrix *)
Definition mgood (e : meff) : Prop :=
  (not_bind (me_Ex e) /\ not_bind (me_Eg e)) \/
  (calm2 (me_values e) /\ calm (me_Ex e) /\ calm (me_Eg e) /\ (not_bind (me_Ex e) \/ not_bind (me_Eg e))).
Definition mbound (e : meff) : list nat := bound1 (me_Ex e) ++ bound1 (me_Eg e).
Definition mafter (h : memory) (m : matrix) (e : meff) : matrix :=
  mkM (after2 (values m) (me_values e)) (after1 h (Eg m) (me_Eg e)) (after1 h (Ex m) (me_Ex e)) (std m) (me_state e).
Lemma do_mat_spec h m e h' m' : mgood e -> do_mat h m e = (h', m') ->
  grows (mcells m) h h' /\
  (forall c, In c (mcells m') -> In c (mcells m) \/ length h <= c < length h' \/ In c (mbound e)) /\
  (fit h (mcells m) -> NoDup (mcells m) -> fit h (mbound e) ->
     look_mat h' m' = mafter h (look_mat h m) e /\ fit h' (mcells m')).
Proof.
  intros BE. unfold do_mat.
  destruct (do2 h (hm_values m) (me_values e)) as [h1 a] eqn:D1.
  destruct (do1 h1 (hm_Ex m) (me_Ex e)) as [h2 b] eqn:D2.
  destruct (do1 h2 (hm_Eg m) (me_Eg e)) as [h3 g] eqn:D3. intros E; injection E as <- <-.
  apply do2_spec in D1 as (G1 & [P1n P1] & C1). apply do1_spec in D2 as (G2 & I2 & P2 & C2). apply do1_spec in D3 as (G3 & I3 & P3 & C3).
  pose proof (grows_le _ _ _ G1). pose proof (grows_le _ _ _ G2). pose proof (grows_le _ _ _ G3).
  unfold mcells, mbound. cbn [hm_values hm_Eg hm_Ex hm_std]. split; [|split].
  - eapply grows_trans; [eapply grows_mono; [|exact G1]|eapply grows_trans; [eapply grows_mono; [|exact G2]|eapply grows_mono; [|exact G3]]];
      intros c Hc; (apply wrote1_in in Hc || apply wrote2_in in Hc); rewrite !in_app_iff; auto.
  - intros c. rewrite !in_app_iff. intros [Hc|[Hc|[Hc|Hc]]].
    + apply P1 in Hc as [Hc|Hc]; [auto|right; left; lia].
    + apply I2 in Hc as [Hc|[Hc|Hc]]; [auto|right; left; lia|auto].
    + apply I3 in Hc as [Hc|[Hc|Hc]]; [auto|right; left; lia|auto].
    + auto.
  - intros F N FB. apply fit_app in FB as [FBx FBg]. apply fit_app in F as [F1 F]. apply fit_app in F as [F2 F]. apply fit_app in F as [F3 F4].
    apply nodup_app in N as (N1 & N & D1). apply nodup_app in N as (N2 & N & D2). apply nodup_app in N as (N3 & N4 & D34).
    assert (D12 : forall x, In x (cells2 (hm_values m)) -> In x (hm_Ex m) -> False) by (intros x Hx Hy; apply (D1 x Hx); rewrite !in_app_iff; auto).
    assert (D13 : forall x, In x (cells2 (hm_values m)) -> In x (hm_Eg m) -> False) by (intros x Hx Hy; apply (D1 x Hx); rewrite !in_app_iff; auto).
    assert (D14 : forall x, In x (cells2 (hm_values m)) -> In x (ocells2 (hm_std m)) -> False) by (intros x Hx Hy; apply (D1 x Hx); rewrite !in_app_iff; auto).
    assert (D23 : forall x, In x (hm_Ex m) -> In x (hm_Eg m) -> False) by (intros x Hx Hy; apply (D2 x Hx); rewrite !in_app_iff; auto).
    assert (D24 : forall x, In x (hm_Ex m) -> In x (ocells2 (hm_std m)) -> False) by (intros x Hx Hy; apply (D2 x Hx); rewrite !in_app_iff; auto).
    destruct C1 as [C1 Fa]; auto.
    assert (FE1 : fit h1 (hm_Ex m)) by (eapply fit_grows; eauto).
    assert (FG2 : fit h2 (hm_Eg m)) by (eapply fit_grows; [exact G2|eapply fit_grows; eauto]).
    assert (FBx1 : fit h1 (bound1 (me_Ex e))) by (eapply fit_grows; eauto).
    assert (FBg2 : fit h2 (bound1 (me_Eg e))) by (eapply fit_grows; [exact G2|eapply fit_grows; eauto]).
    destruct C2 as [C2 Fb]; auto. { intros b0 E. rewrite E in FBx1. exact FBx1. }
    destruct C3 as [C3 Fg]; auto. { intros b0 E. rewrite E in FBg2. exact FBg2. }
    assert (Ex1 : get h1 (hm_Ex m) = get h (hm_Ex m)).
    { apply (grows_get _ _ _ _ G1 F2). intros c Hc Hw. apply wrote2_in in Hw. eapply D12; eauto. }
    assert (Eg2 : get h2 (hm_Eg m) = get h (hm_Eg m)).
    { transitivity (get h1 (hm_Eg m)).
      - apply (grows_get _ _ _ _ G2); [eapply fit_grows; eauto|]. intros c Hc Hw. apply wrote1_in in Hw. eapply D23; eauto.
      - apply (grows_get _ _ _ _ G1 F3). intros c Hc Hw. apply wrote2_in in Hw. eapply D13; eauto. }
    assert (EBx : after1 h1 (get h (hm_Ex m)) (me_Ex e) = after1 h (get h (hm_Ex m)) (me_Ex e)).
    { apply (after1_grows _ _ _ _ _ G1 FBx). intros c Hc Hw. destruct BE as [[BE _]|[BE _]]; [eapply not_bind_in; eauto|]. rewrite BE in Hw. destruct Hw. }
    assert (EBg : after1 h2 (get h (hm_Eg m)) (me_Eg e) = after1 h (get h (hm_Eg m)) (me_Eg e)).
    { transitivity (after1 h1 (get h (hm_Eg m)) (me_Eg e)).
      - apply (after1_grows _ _ _ _ _ G2); [eapply fit_grows; eauto|]. intros c Hc Hw. destruct BE as [[_ BE]|(_ & BE & _)]; [eapply not_bind_in; eauto|eapply calm_nil; eauto].
      - apply (after1_grows _ _ _ _ _ G1 FBg). intros c Hc Hw. destruct BE as [[_ BE]|(BE & _)]; [eapply not_bind_in; eauto|]. rewrite BE in Hw. destruct Hw. }
    assert (Ea : get2 h3 a = get2 h1 a).
    { transitivity (get2 h2 a).
      - apply (grows_get2 _ _ _ _ G3); [eapply fit_grows; eauto|]. intros c Hc Hw. apply wrote1_in in Hw.
        apply P1 in Hc as [Hc|Hc]; [eapply D13; eauto|apply F3 in Hw; lia].
      - apply (grows_get2 _ _ _ _ G2 Fa). intros c Hc Hw. apply wrote1_in in Hw.
        apply P1 in Hc as [Hc|Hc]; [eapply D12; eauto|apply F2 in Hw; lia]. }
    assert (Eb : get h3 b = get h2 b).
    { apply (grows_get _ _ _ _ G3 Fb). intros c Hc Hw.
      apply I2 in Hc as [Hc|[Hc|Hc]]; [apply wrote1_in in Hw; eapply D23; eauto|apply wrote1_in in Hw; apply F3 in Hw; lia|].
      destruct BE as [[BE _]|(_ & _ & BE & _)]; [eapply not_bind_in; eauto|eapply calm_nil; eauto]. }
    assert (Es : option_map (get2 h3) (hm_std m) = option_map (get2 h) (hm_std m)).
    { destruct (hm_std m) as [s|]; [|reflexivity]. cbn [option_map ocells2] in *. f_equal.
      transitivity (get2 h2 s); [|transitivity (get2 h1 s)].
      - apply (grows_get2 _ _ _ _ G3); [eapply fit_grows; [exact G2|eapply fit_grows; eauto]|]. intros c Hc Hw. apply wrote1_in in Hw. eapply D34; eauto.
      - apply (grows_get2 _ _ _ _ G2); [eapply fit_grows; eauto|]. intros c Hc Hw. apply wrote1_in in Hw. eapply D24; eauto.
      - apply (grows_get2 _ _ _ _ G1 F4). intros c Hc Hw. apply wrote2_in in Hw. eapply D14; eauto. }
    split.
    + unfold look_mat, mafter. cbn [hm_values hm_Ex hm_Eg hm_std hm_state values Ex Eg std]. rewrite Ea, Eb, C1, C2, C3, Ex1, Eg2, EBx, EBg, Es. reflexivity.
    + rewrite !fit_app. split; [eapply fit_grows; [exact G3|eapply fit_grows; eauto]|]. split; [eapply fit_grows; eauto|]. split; [exact Fg|].
      eapply fit_grows; [exact G3|]. eapply fit_grows; [exact G2|]. eapply fit_grows; eauto.
Qed.
Lemma do_mat_part (P0 : nat -> Prop) h m e h' m' : (not_bind (me_Ex e) \/ not_bind (me_Eg e)) -> do_mat h m e = (h', m') -> fit h (mcells m) ->
  NoDup (mbound e) -> (forall c, In c (mbound e) -> P0 c) -> (forall c, P0 c -> c < length h /\ ~ In c (mcells m)) ->
  part (fun c => P0 c \/ length h <= c < length h') (mcells m) (mcells m').
Proof.
  intros NB. unfold do_mat.
  destruct (do2 h (hm_values m) (me_values e)) as [h1 a] eqn:D1.
  destruct (do1 h1 (hm_Ex m) (me_Ex e)) as [h2 b] eqn:D2.
  destruct (do1 h2 (hm_Eg m) (me_Eg e)) as [h3 g] eqn:D3. intros E; injection E as <- <-. intros F N0 B0 H0.
  unfold mbound in *. apply nodup_app in N0 as (Nx & Ng & Dxg).
  set (Q c := P0 c /\ In c (bound1 (me_Ex e))). set (Q' c := P0 c /\ In c (bound1 (me_Eg e))).
  pose proof (do1_part Q _ _ _ _ _ D2 Nx (fun c Hc => conj (B0 c (proj2 (in_app_iff _ _ _) (or_introl Hc))) Hc)) as P2.
  pose proof (do1_part Q' _ _ _ _ _ D3 Ng (fun c Hc => conj (B0 c (proj2 (in_app_iff _ _ _) (or_intror Hc))) Hc)) as P3.
  apply do2_spec in D1 as (G1 & P1 & _). apply do1_spec in D2 as (G2 & _). apply do1_spec in D3 as (G3 & _).
  apply grows_le in G1, G2, G3. unfold mcells in *. cbn [hm_values hm_Eg hm_Ex hm_std] in *.
  assert (FF : forall c, In c (cells2 (hm_values m) ++ hm_Ex m ++ hm_Eg m ++ ocells2 (hm_std m)) -> c < length h) by exact F.
  pose proof (part_refl (fun _ => False) (ocells2 (hm_std m))) as P4.
  eapply part_mono; [|apply part_app; [exact P1|apply part_app; [exact P2|apply part_app; [exact P3|exact P4|..]|..]|..]].
  - cbn beta. intros c [Hc|[[[Hc _]|Hc]|[[[Hc _]|Hc]|[]]]]; try (left; exact Hc); right; lia.
  - intros c _ [].
  - cbn beta; intros c Hc [[[Hp _]|Hp]|[]]; [apply H0 in Hp as [_ Hp]; apply Hp|assert (c < length h); [apply FF|lia]]; rewrite !in_app_iff in *; tauto.
  - cbn beta; intros c [[Hp Hi]|Hp] [[[Hq Hi']|Hq]|[]]; [eauto|apply H0 in Hp as [Hp _]; lia|apply H0 in Hq as [Hq _]; lia|lia].
  - cbn beta; intros c Hc [[[Hp _]|Hp]|[[[Hp _]|Hp]|[]]]; try (apply H0 in Hp as [_ Hp]; apply Hp; rewrite !in_app_iff in *; tauto);
      assert (c < length h) by (apply FF; rewrite !in_app_iff in *; tauto); lia.
  - cbn beta; intros c Hc [[[Hp _]|Hp]|[[[Hp _]|Hp]|[]]]; try (apply H0 in Hp as [Hp _]; lia); lia.
  - cbn beta; intros c Hc [Hp|[[[Hp _]|Hp]|[[[Hp _]|Hp]|[]]]]; try (apply H0 in Hp as [_ Hp]; auto); apply FF in Hc; lia.
Qed.

(* --- construction ------------------------------------------------------------------------- *)
(* a freshly made object: all its cells are new *)
Definition fresh_in (h h' : memory) (a : list nat) : Prop := NoDup a /\ forall c, In c a -> length h <= c < length h'.
Lemma fresh_app h1 h2 h3 a b : length h1 <= length h2 -> length h2 <= length h3 -> fresh_in h1 h2 a -> fresh_in h2 h3 b -> fresh_in h1 h3 (a ++ b).
Proof.
  intros L1 L2 [Na Ia] [Nb Ib]. split.
  - apply nodup_app. split; [exact Na|]. split; [exact Nb|]. intros c Hc Hd. apply Ia in Hc. apply Ib in Hd. lia.
  - intros c Hc. apply in_app_iff in Hc as [Hc|Hc]; [apply Ia in Hc|apply Ib in Hc]; lia.
Qed.
Lemma fresh_perm h h' a b : Permutation.Permutation a b -> fresh_in h h' a -> fresh_in h h' b.
Proof.
  intros P [N I]. split; [eapply Permutation.Permutation_NoDup; eauto|]. intros c Hc. apply I. eapply Permutation.Permutation_in; [apply Permutation.Permutation_sym; exact P|exact Hc].
Qed.
Lemma fresh_nil h : fresh_in h h []. Proof. split; [constructor|intros c []]. Qed.
Lemma copy1_spec h a h' b : copy1 h a = (h', b) -> grows [] h h' /\ get h' b = get h a /\ fresh_in h h' b.
Proof. intros E. apply alloc_spec in E as (G & E & N & I & _). split; [exact G|]. split; [exact E|]. split; [exact N|]. intros c. apply I. Qed.
Lemma copy2_spec h a h' b : copy2 h a = (h', b) -> grows [] h h' /\ get2 h' b = get2 h a /\ fresh_in h h' (cells2 b).
Proof. intros E. apply alloc2_spec in E as (G & E & N & I). split; [exact G|]. split; [exact E|]. split; assumption. Qed.
Lemma copy_o1_spec h a h' b : copy_opt copy1 h a = (h', b) -> grows [] h h' /\ option_map (get h') b = option_map (get h) a /\ fresh_in h h' (ocells b).
Proof.
  destruct a as [a|]; cbn [copy_opt].
  - destruct (copy1 h a) as [h1 c] eqn:C. intros E; injection E as <- <-. apply copy1_spec in C as (G & E & F). cbn [option_map ocells]. rewrite E. auto.
  - intros E; injection E as <- <-. split; [apply grows_refl|]. split; [reflexivity|apply fresh_nil].
Qed.
Lemma copy_o2_spec h a h' b : copy_opt copy2 h a = (h', b) -> grows [] h h' /\ option_map (get2 h') b = option_map (get2 h) a /\ fresh_in h h' (ocells2 b).
Proof.
  destruct a as [a|]; cbn [copy_opt].
  - destruct (copy2 h a) as [h1 c] eqn:C. intros E; injection E as <- <-. apply copy2_spec in C as (G & E & F). cbn [option_map ocells2]. rewrite E. auto.
  - intros E; injection E as <- <-. split; [apply grows_refl|]. split; [reflexivity|apply fresh_nil].
Qed.
Lemma grows_nil_get h h' a : grows [] h h' -> fit h a -> get h' a = get h a.
Proof. intros G F. apply (grows_get [] _ _ _ G F). intros c _ []. Qed.
Lemma grows_nil_get2 h h' a : grows [] h h' -> fit h (cells2 a) -> get2 h' a = get2 h a.
Proof. intros G F. apply (grows_get2 [] _ _ _ G F). intros c _ []. Qed.
Lemma fresh_fit h h' a : fresh_in h h' a -> fit h' a. Proof. intros [_ I] c Hc. apply I in Hc. lia. Qed.
Lemma new_vec_spec h a b s u h' v : new_vec h a b s u = (h', v) -> grows [] h h' /\ fresh_in h h' (vcells v) /\
  (fit h a -> fit h b -> fit h (ocells s) -> look_vec h' v = mkV (get h a) (get h b) (option_map (get h) s) u).
Proof.
  unfold new_vec. destruct (copy1 h a) as [h1 a'] eqn:C1. destruct (copy1 h1 b) as [h2 b'] eqn:C2. destruct (copy_opt copy1 h2 s) as [h3 s'] eqn:C3.
  intros E; injection E as <- <-. apply copy1_spec in C1 as (G1 & E1 & F1). apply copy1_spec in C2 as (G2 & E2 & F2). apply copy_o1_spec in C3 as (G3 & E3 & F3).
  split; [eapply grows_trans; [exact G1|eapply grows_trans; eauto]|]. split.
  - unfold vcells. cbn [hv_values hv_E hv_std]. pose proof (grows_le _ _ _ G1). pose proof (grows_le _ _ _ G2). pose proof (grows_le _ _ _ G3).
    apply (fresh_app h h1 h3); [lia|lia|exact F1|]. apply (fresh_app h1 h2 h3); [lia|lia|exact F2|exact F3].
  - intros Fa Fb Fs. unfold look_vec. cbn [hv_values hv_E hv_std hv_units].
    rewrite (grows_nil_get h2 h3 b') by (auto; eapply fresh_fit; eauto). rewrite E2, (grows_nil_get h h1 b) by auto.
    assert (Fa1 : fit h1 a') by (eapply fresh_fit; eauto). assert (Fa2 : fit h2 a') by (eapply fit_grows; eauto).
    rewrite (grows_nil_get h2 h3 a'), (grows_nil_get h1 h2 a') by assumption. rewrite E1. f_equal.
    rewrite E3. destruct s as [s|]; [|reflexivity]. cbn [option_map ocells] in *. f_equal.
    rewrite (grows_nil_get h1 h2), (grows_nil_get h h1) by (auto; eapply fit_grows; eauto). reflexivity.
Qed.
(* the matrix without its std *)
Definition mcells0 (m : hmat) : list nat := cells2 (hm_values m) ++ hm_Ex m ++ hm_Eg m.
Lemma mcells_split m : mcells m = mcells0 m ++ ocells2 (hm_std m).
Proof. unfold mcells, mcells0. now rewrite <- !app_assoc. Qed.
Lemma new_mat_spec h a g x s st h' m : new_mat h a g x s st = (h', m) -> grows [] h h' /\ fresh_in h h' (mcells0 m) /\ hm_std m = s /\
  (fit h (cells2 a) -> fit h g -> fit h x -> fit h (ocells2 s) ->
   look_mat h' m = mkM (get2 h a) (get h g) (get h x) (option_map (get2 h) s) st).
Proof.
  unfold new_mat. destruct (copy2 h a) as [h1 a'] eqn:C1. destruct (copy1 h1 g) as [h2 g'] eqn:C2. destruct (copy1 h2 x) as [h3 x'] eqn:C3.
  intros E; injection E as <- <-. apply copy2_spec in C1 as (G1 & E1 & F1). apply copy1_spec in C2 as (G2 & E2 & F2). apply copy1_spec in C3 as (G3 & E3 & F3).
  split; [eapply grows_trans; [exact G1|eapply grows_trans; eauto]|]. split.
  - unfold mcells0. cbn [hm_values hm_Ex hm_Eg]. pose proof (grows_le _ _ _ G1). pose proof (grows_le _ _ _ G2). pose proof (grows_le _ _ _ G3).
    apply (fresh_app h h1 h3); [lia|lia|exact F1|]. apply (fresh_perm _ _ (g' ++ x')); [apply Permutation.Permutation_app_comm|].
    apply (fresh_app h1 h2 h3); [lia|lia|exact F2|exact F3].
  - split; [reflexivity|]. intros Fa Fg Fx Fs. unfold look_mat. cbn [hm_values hm_Ex hm_Eg hm_std hm_state].
    assert (Fa1 : fit h1 (cells2 a')) by (eapply fresh_fit; eauto). assert (Fa2 : fit h2 (cells2 a')) by (eapply fit_grows; eauto).
    rewrite (grows_nil_get2 h2 h3 a'), (grows_nil_get2 h1 h2 a') by assumption. rewrite E1.
    rewrite (grows_nil_get h2 h3 g') by (auto; eapply fresh_fit; eauto). rewrite E2, (grows_nil_get h h1 g) by auto.
    rewrite E3, (grows_nil_get h1 h2 x), (grows_nil_get h h1 x) by (auto; eapply fit_grows; eauto). f_equal.
    destruct s as [s|]; [|reflexivity]. cbn [option_map ocells2] in *. f_equal. apply (grows_nil_get2 h h3); [|exact Fs].
    eapply grows_trans; [exact G1|eapply grows_trans; eauto].
Qed.
Lemma deep_mat_spec h m h' w : deep_mat h m = (h', w) -> grows [] h h' /\ fresh_in h h' (mcells w) /\
  (fit h (mcells m) -> look_mat h' w = look_mat h m).
Proof.
  unfold deep_mat. destruct (copy2 h (hm_values m)) as [h1 a] eqn:C1. destruct (copy1 h1 (hm_Eg m)) as [h2 g] eqn:C2.
  destruct (copy1 h2 (hm_Ex m)) as [h3 x] eqn:C3. destruct (copy_opt copy2 h3 (hm_std m)) as [h4 s] eqn:C4.
  intros E; injection E as <- <-. apply copy2_spec in C1 as (G1 & E1 & F1). apply copy1_spec in C2 as (G2 & E2 & F2). apply copy1_spec in C3 as (G3 & E3 & F3).
  apply copy_o2_spec in C4 as (G4 & E4 & F4).
  assert (G : grows [] h h4) by (eapply grows_trans; [exact G1|eapply grows_trans; [exact G2|eapply grows_trans; eauto]]).
  split; [exact G|]. pose proof (grows_le _ _ _ G1). pose proof (grows_le _ _ _ G2). pose proof (grows_le _ _ _ G3). pose proof (grows_le _ _ _ G4). split.
  - rewrite mcells_split. cbn [hm_std]. apply (fresh_app h h3 h4); [lia|lia| |exact F4]. unfold mcells0. cbn [hm_values hm_Ex hm_Eg].
    apply (fresh_app h h1 h3); [lia|lia|exact F1|]. apply (fresh_perm _ _ (g ++ x)); [apply Permutation.Permutation_app_comm|].
    apply (fresh_app h1 h2 h3); [lia|lia|exact F2|exact F3].
  - unfold mcells. rewrite !fit_app. intros (Fa & Fx & Fg & Fs). unfold look_mat. cbn [hm_values hm_Ex hm_Eg hm_std hm_state].
    assert (G24 : grows [] h2 h4) by exact (grows_trans _ _ _ _ G3 G4). assert (G14 : grows [] h1 h4) by exact (grows_trans _ _ _ _ G2 G24).
    assert (G02 : grows [] h h2) by exact (grows_trans _ _ _ _ G1 G2). assert (G03 : grows [] h h3) by exact (grows_trans _ _ _ _ G02 G3).
    rewrite (grows_nil_get2 h1 h4 a) by (auto; eapply fresh_fit; eauto). rewrite E1.
    rewrite (grows_nil_get h2 h4 g) by (auto; eapply fresh_fit; eauto). rewrite E2, (grows_nil_get h h1 (hm_Eg m)) by auto.
    rewrite (grows_nil_get h3 h4 x) by (auto; eapply fresh_fit; eauto). rewrite E3, (grows_nil_get h h2 (hm_Ex m)) by auto. f_equal.
    rewrite E4. destruct (hm_std m) as [s0|]; [|reflexivity]. cbn [option_map ocells2] in *. f_equal. now apply grows_nil_get2.
Qed.
