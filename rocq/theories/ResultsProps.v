(* C102: the text files of the normalisation results. *)
From Coq Require Import ZArith String Ascii List Bool Lia.
From Verif Require Import PyBase FileModel FileProofs MamaTextModel MamaTextProps TxtTextModel TxtTextProps ResultsModel.
Import ListNotations.
Local Open Scope list_scope.
Local Notation length := List.length (only parsing).

(* ---------------------------------------------------------------- specification *)
(* the names that save_results_txt is to use *)
Definition plain_name (dir kind sfx : path) : path := dir ++ "/"%char :: kind ++ sfx ++ t ".txt".
Definition kinds : list path := [t "nld_"; t "gsf_"; t "samples_"].
(* samples that can be written: at least one parameter, all with the same positive number of values; names in one line *)
Definition good_samples (s : list (text * list dec)) : Prop :=
  s <> [] /\ exists n, (1 <= n)%nat /\ Forall (fun q => length (snd q) = n /\ Forall (printable 18) (snd q) /\ one_line (fst q)) s.
(* the directory holds a result *)
Definition holds (d : dirstate) (dir sfx : path) (n g : text) (s : list (text * list dec)) : Prop :=
  d (plain_name dir (t "nld_") sfx) = Some n /\ d (plain_name dir (t "gsf_") sfx) = Some g /\
  exists x, d (plain_name dir (t "samples_") sfx) = Some x /\ loadtxt x = Ok (map snd s) /\
    (join (t " ") (map fst s) <> [] -> nth_error (lines x) 0 = Some (t "# " ++ join (t " ") (map fst s))).

(* ---------------------------------------------------------------- names *)
Lemma break_found c a r : ~ In c a -> break c (a ++ c :: r) = (a, c :: r).
Proof. induction a as [|x a IH]; intros N; cbn [app break]; [now rewrite Ascii.eqb_refl|]. destruct (Ascii.eqb_spec x c) as [->|]; [exfalso; apply N; now left|]. rewrite IH by (intros I; apply N; now right). reflexivity. Qed.
Lemma break_none c a : ~ In c a -> break c a = (a, []).
Proof. induction a as [|x a IH]; intros N; cbn [break]; [reflexivity|]. destruct (Ascii.eqb_spec x c) as [->|]; [exfalso; apply N; now left|]. rewrite IH by (intros I; apply N; now right). reflexivity. Qed.
Lemma last_split c (l : path) : ~ In c l \/ exists a b, l = a ++ c :: b /\ ~ In c b.
Proof.
  induction l as [|x l IH]; [now left|]. destruct IH as [N|(a & b & -> & N)]; [|right; exists (x :: a), b; now split].
  destruct (ascii_dec x c) as [->|D]; [right; exists [], l; now split|left; intros [E|I]; [now apply D|contradiction]].
Qed.
Lemma name_of dir n : ~ In "/"%char n -> name (dir ++ "/"%char :: n) = n.
Proof. intros N. unfold name. rewrite rev_app_distr. cbn [rev]. rewrite <- app_assoc. cbn [app]. rewrite break_found by (now rewrite <- in_rev). cbn [fst]. apply rev_involutive. Qed.
Lemma drop_end {A} (a b : list A) : firstn (length (a ++ b) - length b) (a ++ b) = a.
Proof. rewrite app_length. replace (length a + length b - length b)%nat with (length a + 0)%nat by lia. rewrite firstn_app_2. cbn. apply app_nil_r. Qed.
Definition is_kind (k : path) : Prop := k <> [] /\ ~ In "."%char k /\ ~ In "/"%char k.
Lemma result_path_shape sfx : ~ In "/"%char sfx -> exists st, (forall dir k, is_kind k -> result_path dir k sfx = plain_name dir k st) /\ (~ In "."%char sfx -> st = sfx).
Proof.
  intros NS. destruct (last_split "."%char sfx) as [N|(a & b & E & NB)].
  - exists sfx. split; [|reflexivity]. intros dir k (K0 & K1 & K2). unfold result_path, with_suffix, suffix. rewrite name_of by (intros I; apply in_app_or in I; tauto).
    rewrite break_none by (rewrite <- in_rev; intros I; apply in_app_or in I; tauto). assert (S0 : match rev (k ++ sfx) with [] => @nil ascii | _ :: _ => [] end = []) by (destruct (rev (k ++ sfx)); reflexivity). destruct (rev (k ++ sfx)); cbn [length]; rewrite Nat.sub_0_r, firstn_all; unfold plain_name; rewrite <- !app_assoc; cbn [app]; now rewrite <- app_assoc.
  - destruct b as [|x b].
    + exists sfx. split; [|reflexivity]. intros dir k (K0 & K1 & K2). unfold result_path, with_suffix, suffix. rewrite name_of by (intros I; apply in_app_or in I; tauto). subst sfx. rewrite app_assoc, rev_app_distr. cbn [rev app break]. change (Ascii.eqb "." ".") with true. cbv iota. cbn [length].
      rewrite Nat.sub_0_r, firstn_all. unfold plain_name. rewrite <- !app_assoc. cbn [app]. now rewrite <- !app_assoc.
    + exists a. split; [|intros N; exfalso; apply N; subst; apply in_or_app; right; now left]. intros dir k (K0 & K1 & K2). unfold result_path, with_suffix.
      assert (SX : suffix (dir ++ "/"%char :: k ++ sfx) = "."%char :: x :: b). { unfold suffix. rewrite name_of by (intros I; apply in_app_or in I; tauto). subst sfx. rewrite app_assoc, rev_app_distr. change (rev ("."%char :: x :: b)) with (rev (x :: b) ++ ["."%char]). rewrite <- app_assoc. cbn [app].
        rewrite break_found by (now rewrite <- in_rev). destruct (rev (x :: b)) as [|y z] eqn:EZ; [apply (f_equal (@List.length ascii)) in EZ; rewrite rev_length in EZ; discriminate EZ|]. destruct (rev (k ++ a)) as [|p q] eqn:EP. { apply (f_equal (@List.length ascii)) in EP. rewrite rev_length, app_length in EP. destruct k; [contradiction|discriminate EP]. }
        change (rev ((y :: z) ++ ["."%char]) = "."%char :: x :: b). rewrite <- EZ, rev_app_distr, rev_involutive. reflexivity. }
      rewrite SX. subst sfx. assert (EP : dir ++ "/"%char :: k ++ a ++ "."%char :: x :: b = (dir ++ "/"%char :: k ++ a) ++ "."%char :: x :: b) by (rewrite <- app_assoc; cbn [app]; now rewrite <- app_assoc). rewrite EP, drop_end. unfold plain_name. rewrite <- app_assoc. cbn [app]. now rewrite <- app_assoc.
Qed.
Lemma kind_ok k : In k kinds -> is_kind k.
Proof. intros [<-|[<-|[<-|[]]]]; (split; [discriminate|split; intros I; vm_compute in I; repeat (destruct I as [I|I]; [discriminate I|]); exact I]). Qed.
Lemma plain_name_kind dir k1 k2 s1 s2 : In k1 kinds -> In k2 kinds -> plain_name dir k1 s1 = plain_name dir k2 s2 -> k1 = k2 /\ s1 = s2.
Proof.
  unfold plain_name. intros I1 I2 E. apply app_inv_head in E. injection E as E.
  assert (K : k1 = k2) by (destruct I1 as [<-|[<-|[<-|[]]]], I2 as [<-|[<-|[<-|[]]]]; try reflexivity; discriminate E).
  split; [exact K|]. subst. apply app_inv_head in E. now apply app_inv_tail in E.
Qed.
(* The three files of one call have different names, whatever the suffix. *)
Theorem results_three_names dir sfx k1 k2 : ~ In "/"%char sfx -> In k1 kinds -> In k2 kinds -> result_path dir k1 sfx = result_path dir k2 sfx -> k1 = k2.
Proof. intros N I1 I2. destruct (result_path_shape sfx N) as (st & H & _). rewrite !H by (now apply kind_ok). intros E. now apply plain_name_kind in E. Qed.
Print Assumptions results_three_names.
(* Suffixes without a point keep different results apart. *)
Theorem results_suffix_injective dir k1 k2 s1 s2 : ~ In "/"%char s1 -> ~ In "/"%char s2 -> ~ In "."%char s1 -> ~ In "."%char s2 -> In k1 kinds -> In k2 kinds ->
  result_path dir k1 s1 = plain_name dir k1 s1 /\ (result_path dir k1 s1 = result_path dir k2 s2 -> k1 = k2 /\ s1 = s2).
Proof.
  intros A B C D I1 I2. destruct (result_path_shape s1 A) as (t1 & H1 & E1). destruct (result_path_shape s2 B) as (t2 & H2 & E2). rewrite H1, H2 by (now apply kind_ok). rewrite (E1 C), (E2 D). split; [reflexivity|]. now apply plain_name_kind.
Qed.
Print Assumptions results_suffix_injective.
(* With a point they do not: results labelled 1.5 and 1.6 MeV have the same files. *)
Theorem results_suffix_refuted : exists dir s1 s2, s1 <> s2 /\ forall k, In k kinds -> result_path dir k s1 = result_path dir k s2.
Proof. exists (t "/out"), (t "1.5"), (t "1.6"). split; [discriminate|]. intros k [<-|[<-|[<-|[]]]]; reflexivity. Qed.
Print Assumptions results_suffix_refuted.
(* ---------------------------------------------------------------- contents *)
Lemma put_same d p x : put d p x p = Some x.
Proof. unfold put. now rewrite peqb_refl. Qed.
Lemma put_other d p q x : q <> p -> put d p x q = d q.
Proof. intros N. unfold put. now rewrite peqb_neq. Qed.
Lemma sample_rows_good s n : Forall (fun q => length (snd q) = n /\ Forall (printable 18) (snd q) /\ one_line (fst q)) s -> sample_rows n s = Ok (map snd s).
Proof. induction 1 as [|(k, v) s (L & _) F IH]; [reflexivity|]. cbn [sample_rows map snd] in *. unfold sample_row. rewrite L, Nat.eqb_refl. cbn [rbind]. rewrite IH. reflexivity. Qed.
Lemma names_no_return s n : Forall (fun q => length (snd q) = n /\ Forall (printable 18) (snd q) /\ one_line (fst q)) s -> no_return (join (t " ") (map fst s)).
Proof.
  intros F I. apply in_join in I. destruct I as [[I|[]]|(x & X & I)]; [discriminate I|]. apply in_map_iff in X. destruct X as ((k, v) & <- & Q). destruct (proj1 (Forall_forall _ _) F _ Q) as (_ & _ & _ & N). contradiction.
Qed.
Lemma comment_out_line h : one_line h -> comment_out h = h.
Proof. intros (N & _). induction h as [|c h IH]; [reflexivity|]. cbn [comment_out flat_map]. destruct (Ascii.eqb_spec c NL) as [->|]; [exfalso; apply N; now left|]. cbn [app]. f_equal. apply IH. intros I. apply N. now right. Qed.
Lemma header_line h rows f : one_line h -> h <> [] -> Forall (Forall (printable 18)) rows -> savetxt18 (HStr h) rows = Ok f -> lines f = (t "# " ++ h) :: map row18 rows.
Proof.
  intros O NE F E. injection E as <-. destruct h as [|c h]; [contradiction|]. unfold head18. rewrite comment_out_line by exact O.
  assert (U : (t "# " ++ (c :: h) ++ [NL]) ++ flat_map (fun r => row18 r ++ [NL]) rows = unlines ((t "# " ++ c :: h) :: map row18 rows)).
  { unfold unlines. cbn [flat_map]. rewrite <- !app_assoc. do 4 f_equal. rewrite !flat_map_concat_map, map_map. reflexivity. }
  transitivity (lines (unlines ((t "# " ++ c :: h) :: map row18 rows))); [f_equal; exact U|]. apply lines_unlines. constructor; [apply one_line_app; [apply one_line_const; reflexivity|exact O]|].
  apply Forall_forall. intros x X. apply in_map_iff in X. destruct X as (r & <- & R). apply row18_line. now apply (proj1 (Forall_forall _ _) F).
Qed.
Lemma names_line s n : Forall (fun q => length (snd q) = n /\ Forall (printable 18) (snd q) /\ one_line (fst q)) s -> one_line (join (t " ") (map fst s)).
Proof.
  intros F. apply one_line_join; [apply one_line_const; reflexivity|]. apply Forall_forall. intros x X. apply in_map_iff in X. destruct X as (q & <- & Q). apply (proj1 (Forall_forall _ _) F _ Q).
Qed.
(* One call: the three files hold the result, every other file is as before, and the samples are read back
   with one row for each parameter, in the order of the names in the first line. *)
Theorem results_saved dir sfx n g s d : ~ In "/"%char sfx -> ~ In "."%char sfx -> good_samples s ->
  let (d', e) := save_results_txt dir sfx (Ok n) (Ok g) s d in
  e = Done /\ holds d' dir sfx n g s /\ (forall q, (forall k, In k kinds -> q <> plain_name dir k sfx) -> d' q = d q).
Proof.
  intros NS ND (NE & m & M & F). destruct (result_path_shape sfx NS) as (st & H & ES). rewrite (ES ND) in H. clear ES.
  unfold save_results_txt. rewrite !H by (apply kind_ok; cbn; tauto). destruct s as [|(k0, v0) s]; [contradiction|].
  assert (L0 : length v0 = m) by (inversion_clear F as [|? ? Q _]; apply Q). rewrite L0, (sample_rows_good _ m F). cbn [rbind].
  assert (PR : Forall (Forall (printable 18)) (map snd ((k0, v0) :: s))) by (apply Forall_forall; intros r I; apply in_map_iff in I; destruct I as (q & <- & I); apply (proj1 (Forall_forall _ _) F q I)).
  destruct (savetxt_loadtxt (join (t " ") (map fst ((k0, v0) :: s))) (map snd ((k0, v0) :: s)) m) as (x & W & R); [exact (names_no_return _ m F)|exact PR| |exact M|].
  { intros r I. apply in_map_iff in I. destruct I as (q & <- & I). apply (proj1 (Forall_forall _ _) F q I). }
  rewrite W. assert (D12 : plain_name dir (t "nld_") sfx <> plain_name dir (t "gsf_") sfx) by (intros E; apply plain_name_kind in E; cbn; try tauto; destruct E as (E & _); discriminate E).
  assert (D13 : plain_name dir (t "nld_") sfx <> plain_name dir (t "samples_") sfx) by (intros E; apply plain_name_kind in E; cbn; try tauto; destruct E as (E & _); discriminate E).
  assert (D23 : plain_name dir (t "gsf_") sfx <> plain_name dir (t "samples_") sfx) by (intros E; apply plain_name_kind in E; cbn; try tauto; destruct E as (E & _); discriminate E).
  split; [reflexivity|]. split.
  - unfold holds. rewrite put_other, put_other, put_same by assumption. rewrite put_other, put_same by assumption. rewrite put_same. split; [reflexivity|]. split; [reflexivity|]. exists x. split; [reflexivity|]. split; [exact R|]. intros NH. rewrite (header_line _ (map snd ((k0, v0) :: s)) x (names_line _ m F) NH PR W). reflexivity.
  - intros q Q. rewrite !put_other; [reflexivity|apply Q; cbn; tauto|apply Q; cbn; tauto|apply Q; cbn; tauto].
Qed.
Print Assumptions results_saved.
Lemma digits_char u c : In c (digits u) -> c <> "/"%char /\ c <> "."%char.
Proof. induction u; cbn [digits]; intros I; try contradiction; destruct I as [<-|I]; try (split; discriminate); now apply IHu. Qed.
Lemma str_nat_plain i : ~ In "/"%char (str_nat i) /\ ~ In "."%char (str_nat i).
Proof. split; intros I; apply digits_char in I; now destruct I. Qed.
Definition good_member (q : text * text * list (text * list dec)) : Prop := good_samples (snd q).
Definition ok_member (q : text * text * list (text * list dec)) : member := (Ok (fst (fst q)), Ok (snd (fst q)), snd q).
Lemma members_saved dir res : Forall good_member res -> forall i d, let (d', e) := save_members dir i (map ok_member res) d in
  e = Done /\ (forall j n g s, nth_error res j = Some (n, g, s) -> holds d' dir (str_nat (i + j)) n g s) /\
  (forall q, (forall k j, In k kinds -> (j < length res)%nat -> q <> plain_name dir k (str_nat (i + j))) -> d' q = d q).
Proof.
  induction 1 as [|((n, g), s) res G F IH]; intros i d; cbn [map save_members ok_member fst snd].
  - split; [reflexivity|]. split; [intros [|j]; discriminate|]. reflexivity.
  - pose proof (results_saved dir (str_nat i) n g s d (proj1 (str_nat_plain i)) (proj2 (str_nat_plain i)) G) as R. destruct (save_results_txt dir (str_nat i) (Ok n) (Ok g) s d) as (d1, e1). destruct R as (-> & H & O).
    specialize (IH (S i) d1). destruct (save_members dir (S i) (map ok_member res) d1) as (d', e). destruct IH as (-> & IH1 & IH2). split; [reflexivity|]. split.
    + intros [|j] n' g' s' E.
      * injection E as <- <- <-. rewrite Nat.add_0_r. assert (K : forall k, In k kinds -> d' (plain_name dir k (str_nat i)) = d1 (plain_name dir k (str_nat i))).
        { intros k K. apply IH2. intros k' j K' _ E. apply plain_name_kind in E; try assumption. destruct E as (_ & E). apply str_nat_inj in E. lia. }
        unfold holds in *. rewrite !K by (cbn; tauto). exact H.
      * cbn [nth_error] in E. replace (i + S j)%nat with (S i + j)%nat by lia. now apply IH1.
    + intros q Q. rewrite IH2; [apply O|].
      * intros k K. specialize (Q k 0%nat K ltac:(cbn; lia)). now rewrite Nat.add_0_r in Q.
      * intros k j K J. specialize (Q k (S j) K ltac:(cbn; lia)). now replace (i + S j)%nat with (S i + j)%nat in Q by lia.
Qed.
(* The ensemble: after the call every member has its three files, none overwritten by another one,
   and no other file is touched, whatever was passed as suffix. *)
Theorem ensemble_results_saved dir sfx res d : Forall good_member res ->
  let (d', e) := ensemble_save_results_txt dir sfx (map ok_member res) d in
  e = Done /\ (forall j n g s, nth_error res j = Some (n, g, s) -> holds d' dir (str_nat j) n g s) /\
  (forall q, (forall k j, In k kinds -> (j < length res)%nat -> q <> plain_name dir k (str_nat j)) -> d' q = d q).
Proof. intros F. exact (members_saved dir res F 0 d). Qed.
Print Assumptions ensemble_results_saved.
(* Files of members that no longer exist stay: a directory used before for more members mixes two runs. *)
Theorem ensemble_results_stale dir sfx res d k j : Forall good_member res -> In k kinds -> (length res <= j)%nat ->
  fst (ensemble_save_results_txt dir sfx (map ok_member res) d) (plain_name dir k (str_nat j)) = d (plain_name dir k (str_nat j)).
Proof.
  intros F K J. pose proof (ensemble_results_saved dir sfx res d F) as H. destruct (ensemble_save_results_txt dir sfx (map ok_member res) d) as (d', e). destruct H as (_ & _ & H). cbn [fst]. apply H. intros k' j' K' J' E. apply plain_name_kind in E; try assumption. destruct E as (_ & E). apply str_nat_inj in E. lia.
Qed.
Print Assumptions ensemble_results_stale.
(* ---------------------------------------------------------------- failures *)
Definition nodir : dirstate := fun _ => None.
Definition ex_s1 : list (text * list dec) := [(t "A", [one; one]); (t "alpha", [one; one])].
Definition ex_s2 : list (text * list dec) := [(t "A", [one; one; one]); (t "alpha", [one; one])].
Example good_case : good_samples ex_s1 /\ fst (ensemble_save_results_txt (t "out") None [(Ok (t "n"), Ok (t "g"), ex_s1)] nodir) (t "out/gsf_0.txt") = Some (t "g").
Proof.
  split; [|vm_compute; reflexivity]. split; [discriminate|]. exists 2%nat. split; [lia|]. repeat apply Forall_cons; try apply Forall_nil; (split; [reflexivity|]; split; [repeat (apply Forall_cons || apply Forall_nil || exact one_printable)|apply one_line_const; reflexivity]).
Qed.
(* A failure in the samples comes after the new level density and strength function were written: the
   directory then holds these two of the new result and the samples of the old one. *)
Theorem results_torn_refuted : exists dir sfx n g s n' g' s' d1 d2 x, good_samples s /\ save_results_txt dir sfx (Ok n) (Ok g) s nodir = (d1, Done) /\
  save_results_txt dir sfx (Ok n') (Ok g') s' d1 = (d2, Failed ValueError) /\ n <> n' /\
  d2 (plain_name dir (t "nld_") sfx) = Some n' /\ d1 (plain_name dir (t "samples_") sfx) = Some x /\ d2 (plain_name dir (t "samples_") sfx) = Some x.
Proof.
  exists (t "out"), (t "7"), (t "old"), (t "old"), ex_s1, (t "new"), (t "new"), ex_s2. eexists _, _, _. split; [exact (proj1 good_case)|]. split; [reflexivity|]. split; [reflexivity|]. split; [discriminate|]. split; [vm_compute; reflexivity|]. split; vm_compute; reflexivity.
Qed.
Print Assumptions results_torn_refuted.
(* No samples: StopIteration, again after two files were written. *)
Theorem results_no_samples dir sfx n g d : snd (save_results_txt dir sfx (Ok n) (Ok g) [] d) = Stopped.
Proof. reflexivity. Qed.
Print Assumptions results_no_samples.
(* A single value is repeated: a parameter with one sample is written as a row of equal numbers. *)
Theorem results_broadcast_refuted : exists s f rows, ~ good_samples s /\ snd (save_results_txt (t "out") (t "0") (Ok []) (Ok []) s nodir) = Done /\
  fst (save_results_txt (t "out") (t "0") (Ok []) (Ok []) s nodir) (t "out/samples_0.txt") = Some f /\ loadtxt f = Ok rows /\ rows <> map snd s.
Proof.
  exists [(t "A", [one; one]); (t "alpha", [one])]. eexists _, _. split; [|split; [vm_compute; reflexivity|]; split; [vm_compute; reflexivity|]; split; [vm_compute; reflexivity|discriminate]].
  intros (_ & n & _ & F). inversion_clear F as [|? ? (L1 & _) F']. inversion_clear F' as [|? ? (L2 & _) _]. cbn in L1, L2. congruence.
Qed.
Print Assumptions results_broadcast_refuted.
