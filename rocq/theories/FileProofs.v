From Coq Require Import String Ascii Decimal DecimalNat.
From Verif Require Import PyBase Axis RebinModel MatrixModel VectorModel FileModel FileSpec.
Local Open Scope list_scope.
Local Notation length := List.length (only parsing).

Lemma peqb_eq p : forall q, peqb p q = true <-> p = q.
Proof.
  induction p as [|a p IH]; intros [|b q]; cbn [peqb]; try (split; congruence).
  rewrite Bool.andb_true_iff, IH, Ascii.eqb_eq. split; [intros [-> ->]; reflexivity|intros X; injection X; auto].
Qed.
Lemma peqb_refl p : peqb p p = true. Proof. now apply peqb_eq. Qed.
Lemma peqb_neq p q : p <> q -> peqb p q = false.
Proof. intros N. destruct (peqb p q) eqn:E; [|reflexivity]. now apply peqb_eq in E. Qed.

Lemma break_app c p : fst (break c p) ++ snd (break c p) = p.
Proof. induction p as [|a p IH]; [reflexivity|]. cbn [break]. destruct (Ascii.eqb a c); [reflexivity|]. destruct (break c p). cbn in *. now rewrite IH. Qed.
Lemma suffix_of p : exists stem, p = stem ++ suffix p.
Proof.
  unfold suffix, name. rewrite rev_involutive. set (n := fst (break "/" (rev p))).
  assert (H : exists a, p = a ++ rev n).
  { exists (rev (snd (break "/"%char (rev p)))). rewrite <- rev_app_distr. unfold n. rewrite break_app. now rewrite rev_involutive. }
  destruct H as [a H]. pose proof (break_app "." n) as B. destruct (break "." n) as [e d]. cbn [fst snd] in B.
  destruct e as [|c e]; [exists p; now rewrite app_nil_r|]. destruct d as [|x [|y d]]; try (exists p; now rewrite app_nil_r).
  exists (a ++ rev (y :: d)). rewrite <- app_assoc, <- rev_app_distr, H.
  replace n with (((c :: e) ++ [x]) ++ y :: d); [reflexivity|]. rewrite <- B, <- app_assoc. reflexivity.
Qed.
Lemma suffix_length p : (length (suffix p) <= length p)%nat.
Proof. destruct (suffix_of p) as [s H]. rewrite H at 2. rewrite app_length. lia. Qed.

Lemma digits_inj u : forall w, digits u = digits w -> u = w.
Proof. induction u; intros []; cbn [digits]; intros H; try discriminate; try reflexivity; injection H as H; f_equal; now apply IHu. Qed.
Lemma str_nat_inj i j : str_nat i = str_nat j -> i = j.
Proof. intros H. apply Unsigned.to_uint_inj, digits_inj, H. Qed.

Section Fs.
Variable cwd : path.
Local Notation abs := (abs cwd).

Lemma abs_cases p : abs p = p \/ abs p = cwd ++ "/"%char :: p.
Proof. unfold FileModel.abs. destruct p as [|a p]; [now right|]. destruct a as [[] [] [] [] [] [] [] []]; auto. Qed.
Lemma abs_last p d : p <> [] -> last (abs p) d = last p d.
Proof.
  intros N. destruct (abs_cases p) as [-> | ->]; [reflexivity|]. destruct (exists_last N) as (q & x & ->).
  rewrite app_comm_cons, app_assoc, !last_last. reflexivity.
Qed.
Lemma tar_path_end p : exists q, tar_path p = q ++ pth ".tar".
Proof.
  unfold tar_path. destruct (peqb (suffix p) (pth ".tar")) eqn:E; [|eauto]. apply peqb_eq in E. destruct (suffix_of p) as [s H]. rewrite E in H. eauto.
Qed.
Lemma tmp_not_tar p i : abs (tmp_path p i) <> abs (tar_path p).
Proof.
  intros E. apply (f_equal (fun q => last q "."%char)) in E. destruct (tar_path_end p) as [q H]. rewrite H in E.
  unfold tmp_path in E. rewrite !abs_last in E.
  - change (pth ".tar") with (pth ".ta" ++ ["r"%char]) in E. change (pth ".npy") with (pth ".np" ++ ["y"%char]) in E. rewrite !app_assoc, !last_last in E. discriminate.
  - now destruct q.
  - rewrite app_assoc. destruct (drop_suffix p ++ str_nat i); discriminate.
Qed.
Lemma tmp_np p i : np_path (tmp_path p i) = tmp_path p i.
Proof.
  unfold np_path. replace (skipn _ (tmp_path p i)) with (pth ".npy"); [reflexivity|]. unfold tmp_path. rewrite app_assoc, app_length.
  change (length (pth ".npy")) with 4%nat. rewrite Nat.add_sub, skipn_app, skipn_all, Nat.sub_diag. reflexivity.
Qed.

Lemma exec_app a b d : exec (a ++ b) d = exec b (exec a d).
Proof. apply fold_left_app. Qed.
Definition target (o : op) : path := match o with Put p _ => p | Del p => p end.
Lemma exec1_other o d q : q <> target o -> exec1 d o q = d q.
Proof. intros N. destruct o; cbn [exec1 target] in *; now rewrite peqb_neq. Qed.
Lemma exec_other ops : forall d q, (forall o, In o ops -> target o <> q) -> exec ops d q = d q.
Proof.
  induction ops as [|o t IH]; intros d q H; [reflexivity|]. unfold exec in *. cbn [fold_left]. rewrite IH by (intros; apply H; now right).
  apply exec1_other. intros ->. exact (H o (or_introl eq_refl) eq_refl).
Qed.
Lemma exec_prefix_only (P : path -> Prop) ops d d' : (forall o, In o ops -> P (target o)) -> crash_state ops d d' -> only P d d'.
Proof.
  intros H [n ->] q N. apply exec_other. intros o O E. apply N. rewrite <- E. apply H. rewrite <- (firstn_skipn n ops). apply in_or_app. now left.
Qed.
Lemma put_last ops p f d : exec (ops ++ [Put p f]) d p = Some f.
Proof. rewrite exec_app. cbn. now rewrite peqb_refl. Qed.
Lemma write_reads p f d : exec (write cwd p f) d (abs p) = Some f.
Proof. exact (put_last [Put (abs p) FTorn] (abs p) f d). Qed.

(* targets of the operations *)
Lemma write_target p f o : In o (write cwd p f) -> target o = abs p.
Proof. intros [<-|[<-|[]]]; reflexivity. Qed.
Lemma tar_members_target p objs : forall k o, In o (tar_members cwd p k objs) -> exists i, (k <= i < k + length objs)%nat /\ target o = abs (tmp_path p i).
Proof.
  induction objs as [|x t IH]; intros k o; cbn [tar_members length]; [intros []|]. unfold np_save. rewrite tmp_np. rewrite !in_app_iff.
  intros [H|[H|H]]; [exists k; split; [lia|exact (write_target _ _ _ H)]|destruct H as [<-|[]]; exists k; split; [lia|reflexivity]|].
  destruct (IH _ _ H) as (i & I & E). exists i. split; [lia|exact E].
Qed.
Lemma save_tar_target p objs o : In o (save_tar cwd objs p) -> target o = abs (tar_path p) \/ exists i, (i < length objs)%nat /\ target o = abs (tmp_path p i).
Proof.
  unfold save_tar. rewrite !in_app_iff. intros [[<-|[]]|[H|[<-|[]]]]; [now left| |now left].
  destruct (tar_members_target _ _ _ _ H) as (i & I & E). right. exists i. split; [lia|exact E].
Qed.
Lemma save_tar_reads p objs d : exec (save_tar cwd objs p) d (abs (tar_path p)) = Some (FTar (tar_content p 0 objs)).
Proof. unfold save_tar. rewrite app_assoc. apply put_last. Qed.
(* after the run no temporary file exists *)
Lemma tar_members_gone p objs : forall k d i, (k <= i < k + length objs)%nat -> exec (tar_members cwd p k objs) d (abs (tmp_path p i)) = None.
Proof.
  induction objs as [|x t IH]; intros k d i; cbn [tar_members length]; [lia|]. intros H. rewrite !exec_app.
  destruct (Nat.eq_dec i k) as [->|N]; [|apply IH; lia].
  destruct (in_dec (list_eq_dec Ascii.ascii_dec) (abs (tmp_path p k)) (map target (tar_members cwd p (S k) t))) as [I|I].
  - apply in_map_iff in I. destruct I as (o & E & I). destruct (tar_members_target _ _ _ _ I) as (j & J & EJ).
    rewrite <- E, EJ. apply IH. lia.
  - rewrite exec_other by (intros o O E; apply I; rewrite <- E; now apply in_map). cbn. now rewrite peqb_refl.
Qed.
Lemma tar_content_snd p objs : forall k, map snd (tar_content p k objs) = objs.
Proof. induction objs as [|x t IH]; intros k; cbn; [|rewrite IH]; reflexivity. Qed.
Lemma extract_all_effect ms : forall d q, exec (extract_all cwd ms) d q = if existsb (fun n => peqb q (abs (fst n))) ms then None else d q.
Proof.
  induction ms as [|[n x] t IH]; intros d q; [reflexivity|]. cbn [extract_all existsb fst]. rewrite exec_app, IH. cbn [exec fold_left exec1].
  destruct (peqb q (abs n)); cbn [orb]; [now destruct (existsb _ t)|reflexivity].
Qed.
End Fs.

(* arrays *)
Lemma framed_unframed c v eg ex a : array_ok v -> length eg = a_nc v -> length ex = a_nr v -> framed c v eg ex = Ok a -> unframed (N2 a) = Ok (v, eg, ex).
Proof.
  intros A L1 L2. unfold framed. rewrite L1, L2, !Nat.eqb_refl. cbn [andb]. intros X. injection X as <-. unfold unframed. cbn [a_nc a_rows]. f_equal.
  rewrite map_map. f_equal; [f_equal|].
  - destruct v as [nc rows]. unfold a_nr in *. cbn [a_nc a_rows] in *. f_equal. clear A L1. revert ex L2. induction rows as [|r t IH]; intros [|e ex] L; cbn in *; try discriminate; [reflexivity|].
    f_equal. apply IH. congruence.
  - unfold col. rewrite map_map. cbn. unfold a_nr in L2. revert L2. generalize (a_rows v). clear. induction ex as [|e ex IH]; intros [|r t] L; cbn in *; try discriminate; [reflexivity|].
    f_equal. apply IH. congruence.
Qed.
Lemma framed_ok c v eg ex : length eg = a_nc v -> length ex = a_nr v -> exists a, framed c v eg ex = Ok a /\ a_nr a = S (a_nr v) /\ a_nc a = S (a_nc v).
Proof.
  intros L1 L2. unfold framed. rewrite L1, L2, !Nat.eqb_refl. cbn [andb]. eexists. split; [reflexivity|]. unfold a_nr in *. cbn [a_rows a_nc length].
  rewrite map_length, combine_length, L2, Nat.min_id. now split.
Qed.
Lemma squeeze_2d a : (2 <= a_nr a)%nat -> (2 <= a_nc a)%nat -> squeeze a = N2 a.
Proof.
  unfold squeeze, a_nr. intros R C. destruct (a_rows a) as [|r [|r' t]]; cbn in R; try lia. destruct (Nat.eqb_spec (a_nc a) 1); [lia|reflexivity].
Qed.
Lemma col_tab n f j : (forall i, (i < n)%nat -> (j < length (f i))%nat) -> col (tab n f) j = tab n (fun i => vget (f i) j).
Proof. intros _. unfold col. apply map_tab. Qed.
Lemma columns_uncolumns E v s a : columns E v s = Ok a -> uncolumns (N2 a) = Ok (v, E, s) /\ a_nr a = length E /\ (2 <= a_nc a)%nat.
Proof.
  unfold columns. destruct s as [s|].
  - destruct (Nat.eqb_spec (length E) (length v)) as [L1|]; [|discriminate]. destruct (Nat.eqb_spec (length E) (length s)) as [L2|]; [|discriminate].
    cbn [andb]. intros X. injection X as <-. unfold uncolumns, a_nr. cbn [a_nc a_rows]. rewrite tab_length. split; [|split; [reflexivity|lia]].
    cbn. unfold col. rewrite !map_tab. unfold vget. cbn. rewrite L1 at 1. rewrite L2 at 2. now rewrite !tab_nth.
  - destruct (Nat.eqb_spec (length E) (length v)) as [L1|]; [|discriminate].
    intros X. injection X as <-. unfold uncolumns, a_nr. cbn [a_nc a_rows]. rewrite tab_length. split; [|split; [reflexivity|lia]].
    cbn. unfold col. rewrite !map_tab. unfold vget. cbn. rewrite L1 at 1. now rewrite !tab_nth.
Qed.
Lemma columns_ok E v s : length E = length v -> (forall x, s = Some x -> length x = length v) -> exists a, columns E v s = Ok a.
Proof.
  intros L H. unfold columns. rewrite L, Nat.eqb_refl. destruct s as [s|]; [|eauto]. rewrite (H s eq_refl), Nat.eqb_refl. cbn. eauto.
Qed.
Lemma convert_lemma u v w : convert u v = Ok w -> v_values w = v_values v /\ v_std w = v_std v /\ energies_in u v (v_E w) /\ length (v_E w) = length (v_E v).
Proof.
  unfold convert, energies_in, to_keV, to_MeV. destruct u; try discriminate; destruct (v_units v) as [| |s]; try discriminate; intros X; injection X as <-; cbn; rewrite ?map_length; auto.
Qed.
Lemma convert_ok u v w : vector_ok v -> convert u v = Ok w -> vector_ok w.
Proof. intros [A B] H. destruct (convert_lemma _ _ _ H) as (E1 & E2 & _ & L). unfold vector_ok. rewrite E1, E2, L. now split. Qed.
Lemma verify_ok v : vector_ok v -> v_verify v = Ok tt.
Proof.
  intros [A B]. unfold v_verify. rewrite A, Nat.eqb_refl. cbn [negb]. destruct (v_std v) as [s|]; [|reflexivity]. now rewrite (B s eq_refl), Nat.eqb_refl.
Qed.
