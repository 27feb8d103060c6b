(* C101: text files of Matrix and Vector give back every finite double exactly, whatever the header. *)
From Coq Require Import Reals ZArith String Ascii List Bool Lia.
From Flocq Require Import Core.
From Verif Require Import PyBase MamaTextModel MamaTextProps MamaTextNumProps TextNumModel TextNumProps TxtTextModel.
Import ListNotations.
Local Open Scope list_scope.
Local Notation length := List.length (only parsing).

(* ---------------------------------------------------------------- specification *)
(* the decimals d are the eighteen-digit texts of the doubles x *)
Definition shown (x : list R) (d : list dec) : Prop := Forall2 (shows 18) x d.
(* the doubles that are read *)
Definition doubles (d : list dec) : list R := map (fun q => near (value q)) d.
(* no carriage return: line feeds are allowed *)
Definition no_return (h : text) : Prop := ~ In CR h.

(* ---------------------------------------------------------------- small letters *)
Lemma low_space c : is_space (low c) = is_space c.
Proof. destruct c as [[] [] [] [] [] [] [] []]; reflexivity. Qed.
Lemma low_digit c : digit_of (low c) = digit_of c.
Proof. destruct c as [[] [] [] [] [] [] [] []]; reflexivity. Qed.
Lemma low_char d c : is_char "E" d = false -> is_char "e" d = false -> is_char d (low c) = is_char d c.
Proof.
  unfold low. destruct (is_char "E" c) eqn:E; [|reflexivity]. apply Ascii.eqb_eq in E. subst. unfold is_char. intros A B. rewrite Ascii.eqb_sym, B. symmetry. rewrite Ascii.eqb_sym. exact A.
Qed.
Lemma low_exp c : is_char "E" (low c) || is_char "e" (low c) = is_char "E" c || is_char "e" c.
Proof. destruct c as [[] [] [] [] [] [] [] []]; reflexivity. Qed.
Lemma lstrip_low l : lstrip (map low l) = map low (lstrip l).
Proof. induction l as [|c l IH]; [reflexivity|]. cbn [map lstrip]. rewrite low_space. destruct (is_space c); [exact IH|reflexivity]. Qed.
Lemma strip_low l : strip (map low l) = map low (strip l).
Proof. unfold strip. now rewrite lstrip_low, <- map_rev, lstrip_low, <- map_rev. Qed.
Lemma take_digits_low l : take_digits (map low l) = (fst (take_digits l), map low (snd (take_digits l))).
Proof. induction l as [|c l IH]; [reflexivity|]. cbn [map take_digits]. rewrite low_digit. destruct (digit_of c); [|reflexivity]. rewrite IH. destruct (take_digits l). reflexivity. Qed.
Lemma take_sign_low l : take_sign (map low l) = (fst (take_sign l), map low (snd (take_sign l))).
Proof. destruct l as [|c l]; [reflexivity|]. cbn [map take_sign]. rewrite !low_char by reflexivity. destruct (is_char "-" c); [reflexivity|]. destruct (is_char "+" c); reflexivity. Qed.
Lemma nonempty_map {A B} (f : A -> B) l : nonempty (map f l) = nonempty l.
Proof. now destruct l. Qed.
Lemma parse_low s : parse_number (map low s) = parse_number s.
Proof.
  unfold parse_number. rewrite strip_low, take_sign_low. destruct (take_sign (strip s)) as (neg, s1). cbn [fst snd]. rewrite take_digits_low. destruct (take_digits s1) as (ip, s2). cbn [fst snd].
  set (tail := fun (fp : list Z) (s3 : text) => if negb (nonempty (ip ++ fp)) then None else
    let m := if neg then (- undigs (ip ++ fp))%Z else undigs (ip ++ fp) in
    match s3 with
    | [] => Some (m, (- Z.of_nat (length fp))%Z)
    | c :: r => if is_char "E" c || is_char "e" c then let (eneg, r1) := take_sign r in let (ed, r2) := take_digits r1 in
        if nonempty ed && negb (nonempty r2) then Some (m, ((if eneg then - undigs ed else undigs ed) - Z.of_nat (length fp))%Z) else None else None
    end).
  assert (T : forall fp s3, tail fp (map low s3) = tail fp s3).
  { intros fp s3. unfold tail. destruct (negb (nonempty (ip ++ fp))); [reflexivity|]. destruct s3 as [|c r]; [reflexivity|]. cbn [map]. rewrite low_exp. destruct (is_char "E" c || is_char "e" c); [|reflexivity].
    rewrite take_sign_low. destruct (take_sign r) as (en, r1). cbn [fst snd]. rewrite take_digits_low. destruct (take_digits r1) as (ed, r2). cbn [fst snd]. now rewrite nonempty_map. }
  destruct s2 as [|c r]; [reflexivity|]. cbn [map]. rewrite low_char by reflexivity. destruct (is_char "." c).
  - rewrite take_digits_low. destruct (take_digits r) as (fp, s3). cbn [fst snd]. exact (T fp s3).
  - exact (T [] (c :: r)).
Qed.
(* ---------------------------------------------------------------- words and lines *)
Definition plain (c : ascii) : Prop := is_space c = false /\ c <> NL /\ c <> CR /\ is_char "#" c = false.
Lemma numc_low c : numc c = true -> plain (low c).
Proof. destruct c as [[] [] [] [] [] [] [] []]; vm_compute; intros H; try discriminate H; repeat split; discriminate. Qed.
Lemma render_e_plain n d : printable n d -> render_e n d <> [] /\ Forall plain (render_e n d).
Proof.
  intros P. split; [intros E; apply map_eq_nil in E; now apply (render_ne n d P)|]. apply Forall_forall. intros c C. apply in_map_iff in C. destruct C as (b & <- & B). apply numc_low. apply (proj1 (Forall_forall _ _) (render_numc n d P) b B).
Qed.
Lemma words_join ws : Forall (fun w => w <> [] /\ Forall plain w) ws -> words (join (t " ") ws) = ws.
Proof.
  induction 1 as [|w ws (N & P) F IH]; [reflexivity|]. assert (SP : Forall (fun c => is_space c = false) w) by (apply (Forall_impl _ (P := plain)); [|exact P]; intros c H; apply H).
  destruct ws as [|v ws]; cbn [join]; [pose proof (words_end w 0 N SP) as Q; cbn [spaces repeat] in Q; now rewrite app_nil_r in Q|]. cbn [join] in IH. change (t " ") with (spaces 1) at 1. rewrite words_word by assumption. now rewrite IH.
Qed.
Lemma join_in sep ws c : In c (join sep ws) -> In c sep \/ exists w, In w ws /\ In c w.
Proof. apply in_join. Qed.
Lemma row18_words r : Forall (printable 18) r -> Forall (fun w => w <> [] /\ Forall plain w) (map (render_e 18) r).
Proof. intros F. apply Forall_forall. intros w W. apply in_map_iff in W. destruct W as (d & <- & D). apply render_e_plain. now apply (proj1 (Forall_forall _ _) F). Qed.
Lemma row18_char r c : Forall (printable 18) r -> In c (row18 r) -> c = " "%char \/ plain c.
Proof.
  intros F I. apply in_join in I. destruct I as [[<-|[]]|(w & W & I)]; [now left|]. right. destruct (proj1 (Forall_forall _ _) (row18_words r F) w W) as (_ & P). now apply (proj1 (Forall_forall _ _) P).
Qed.
Lemma row18_line r : Forall (printable 18) r -> one_line (row18 r) /\ ~ In "#"%char (row18 r).
Proof.
  intros F. repeat split; intros I; destruct (row18_char r _ F I) as [E|(_ & A & B & C)]; try discriminate E; try contradiction. discriminate C.
Qed.
Lemma row18_fields r : Forall (printable 18) r -> fields (row18 r) = map (render_e 18) r.
Proof. intros F. unfold fields, split. rewrite split_last by (apply not_in_class, row18_line, F). cbn [rev app hd]. now apply words_join, row18_words. Qed.
Lemma row18_floats r : Forall (printable 18) r -> floats (map (render_e 18) r) = Ok r.
Proof.
  induction 1 as [|d r P F IH]; [reflexivity|]. cbn [map floats]. unfold render_e at 1. rewrite parse_low. pose proof (parse_render 18 d 0 0 P) as Q. cbn [spaces repeat app] in Q. rewrite app_nil_r in Q. rewrite Q, IH. reflexivity.
Qed.
Definition remark (l : text) : Prop := one_line l /\ exists z, l = t "# " ++ z.
Lemma remark_fields l : remark l -> fields l = [].
Proof. intros (_ & z & ->). unfold fields, split. cbn [t list_ascii_of_string app split_acc]. change (is_char "#" "#") with true. cbv iota. reflexivity. Qed.
Lemma comment_lines h : forall pre, one_line pre -> no_return h -> exists hl, (t "# " ++ pre) ++ comment_out h ++ [NL] = unlines hl /\ Forall remark hl.
Proof.
  induction h as [|c h IH]; intros pre O N.
  - exists [t "# " ++ pre]. split; [cbn; now rewrite app_nil_r|]. constructor; [|constructor]. split; [|now exists pre]. apply one_line_app; [apply one_line_const; reflexivity|exact O].
  - assert (NH : no_return h) by (intros I; apply N; now right). cbn [comment_out flat_map]. destruct (Ascii.eqb_spec c NL) as [->|C].
    + destruct (IH [] (conj (fun x => x) (fun x => x)) NH) as (hl & E & F). exists ((t "# " ++ pre) :: hl). split; [|constructor; [split; [apply one_line_app; [apply one_line_const; reflexivity|exact O]|now exists pre]|exact F]].
      cbn [unlines flat_map]. fold (unlines hl). rewrite <- E. rewrite app_nil_r. rewrite <- !app_assoc. reflexivity.
    + assert (O' : one_line (pre ++ [c])). { apply one_line_app; [exact O|]. split; intros [I|[]]; [now apply C|apply N; left; now rewrite I]. }
      destruct (IH (pre ++ [c]) O' NH) as (hl & E & F). exists hl. split; [|exact F]. rewrite <- E. rewrite <- !app_assoc. reflexivity.
Qed.
Lemma head_remarks h : no_return h -> exists hl, head18 h = unlines hl /\ Forall remark hl.
Proof.
  intros N. destruct h as [|c h]; [exists []; split; [reflexivity|constructor]|]. unfold head18. destruct (comment_lines (c :: h) [] (conj (fun x => x) (fun x => x)) N) as (hl & E & F). exists hl. split; [|exact F]. rewrite <- E. now rewrite app_nil_r.
Qed.
Lemma rows_of_table rows nc : Forall (Forall (printable 18)) rows -> (forall r, In r rows -> length r = nc) -> rows_of nc (map (map (render_e 18)) rows) = Ok rows.
Proof.
  intros F L. induction F as [|r rows P F IH]; [reflexivity|]. cbn [map rows_of]. rewrite map_length, (L r) by now left. rewrite Nat.eqb_refl. rewrite row18_floats by exact P. rewrite IH by (intros q Q; apply L; now right). reflexivity.
Qed.
(* What np.savetxt writes, np.loadtxt reads, for every header (of several lines or none). *)
Theorem savetxt_loadtxt h rows nc : no_return h -> Forall (Forall (printable 18)) rows -> (forall r, In r rows -> length r = nc) -> (1 <= nc)%nat ->
  exists f, savetxt18 (HStr h) rows = Ok f /\ loadtxt f = Ok rows.
Proof.
  intros N F L NC. eexists. split; [reflexivity|]. destruct (head_remarks h N) as (hl & -> & R). change (flat_map (fun r => row18 r ++ [NL]) rows) with (flat_map (fun r => (fun x => x ++ [NL]) (row18 r)) rows).
  assert (U : unlines hl ++ flat_map (fun r => (fun x => x ++ [NL]) (row18 r)) rows = unlines (hl ++ map row18 rows)). { unfold unlines. rewrite flat_map_app. f_equal. rewrite !flat_map_concat_map, map_map. reflexivity. }
  transitivity (loadtxt (unlines (hl ++ map row18 rows))); [f_equal; exact U|]. unfold loadtxt. rewrite lines_unlines.
  2:{ apply Forall_app. split; [apply (Forall_impl _ (P := remark)); [|exact R]; intros x X; apply X|]. apply Forall_forall. intros x X. apply in_map_iff in X. destruct X as (r & <- & I). apply row18_line. now apply (proj1 (Forall_forall _ _) F). }
  rewrite map_app, filter_app. assert (E1 : filter nonempty (map fields hl) = []). { clear - R. induction R as [|x hl H R IH]; [reflexivity|]. cbn [map filter]. rewrite (remark_fields x H). exact IH. }
  rewrite E1. cbn [app]. rewrite map_map. assert (E2 : map (fun x => fields (row18 x)) rows = map (map (render_e 18)) rows) by (apply map_ext_in; intros r I; apply row18_fields; now apply (proj1 (Forall_forall _ _) F)). rewrite E2.
  rewrite filter_all. 2:{ intros x X. apply in_map_iff in X. destruct X as (r & <- & I). rewrite nonempty_map. specialize (L r I). destruct r; [cbn in L; lia|reflexivity]. }
  destruct rows as [|r rows]; [reflexivity|]. change (map (map (render_e 18)) (r :: rows)) with (map (render_e 18) r :: map (map (render_e 18)) rows). cbv iota beta. rewrite map_length, (L r) by now left. exact (rows_of_table (r :: rows) nc F L).
Qed.
Print Assumptions savetxt_loadtxt.
(* ---------------------------------------------------------------- doubles *)
Lemma shown_printable x d : shown x d -> Forall (printable 18) d.
Proof. apply shows_printable. Qed.
Lemma shown_doubles x d : Forall finite_double x -> shown x d -> doubles d = x.
Proof.
  intros F S. unfold doubles. induction S as [|y q x d (P & V) S IH]; [reflexivity|]. inversion_clear F as [|? ? (D & _) F']. cbn [map]. rewrite IH by exact F'. f_equal. rewrite V. now apply digits_suffice.
Qed.
Lemma nth_map_seq {A} (l : list A) d : map (fun i => nth i l d) (seq 0 (length l)) = l.
Proof. induction l as [|x l IH]; [reflexivity|]. cbn [length seq map nth]. f_equal. rewrite <- seq_shift, map_map. exact IH. Qed.
Lemma forall_nth {A} (P : A -> Prop) l d i : Forall P l -> (i < length l)%nat -> P (nth i l d).
Proof. intros F H. apply (proj1 (Forall_forall _ _) F). now apply nth_In. Qed.
(* A vector of at least two bins, with or without errors: energies, values and errors come back as the same doubles. *)
Theorem txt_vector_bits h (E values : list R) (sd : option (list R)) dE dv ds : no_return h -> Forall finite_double E -> Forall finite_double values -> match sd with None => True | Some s => Forall finite_double s /\ length s = length E end ->
  length values = length E -> (2 <= length E)%nat -> shown E dE -> shown values dv -> match sd, ds with None, None => True | Some s, Some d => shown s d | _, _ => False end ->
  exists f dv' dE' ds', save_txt_1D (HStr h) dE dv ds = Ok f /\ load_txt_1D f = Ok (dv', dE', ds') /\
    doubles dE' = E /\ doubles dv' = values /\ option_map doubles ds' = sd.
Proof.
  intros N FE FV FS LV L2 SE SV SS. pose proof (f2_length _ _ _ SE) as L1. pose proof (f2_length _ _ _ SV) as L3.
  assert (LS : match ds with None => True | Some s => length s = length dE end). { destruct sd as [s|], ds as [d|]; try contradiction; [|exact I]. rewrite <- (f2_length _ _ _ SS), <- L1. apply FS. }
  unfold save_txt_1D, column_stack. rewrite <- L3, LV, L1, Nat.eqb_refl. assert (B : match ds with None => true | Some s => Nat.eqb (length s) (length dE) end = true) by (destruct ds; [now apply Nat.eqb_eq|reflexivity]). rewrite B. cbn [andb].
  set (row := fun i => nth i dE (0, 0)%Z :: nth i dv (0, 0)%Z :: match ds with None => [] | Some s => [nth i s (0, 0)%Z] end). set (m := map row (seq 0 (length dE))).
  destruct (savetxt_loadtxt h m (match ds with None => 2 | Some _ => 3 end)%nat N) as (f & W & RD).
  { apply Forall_forall. intros r R. apply in_map_iff in R. destruct R as (i & <- & I). apply in_seq in I. unfold row. constructor; [apply forall_nth; [exact (shown_printable _ _ SE)|lia]|]. constructor; [apply forall_nth; [exact (shown_printable _ _ SV)|rewrite <- L3, LV, L1; lia]|].
    destruct sd as [s|], ds as [d|]; try contradiction; constructor; [|constructor]. apply forall_nth; [exact (shown_printable _ _ SS)|lia]. }
  { intros r R. apply in_map_iff in R. destruct R as (i & <- & I). unfold row. destruct ds; reflexivity. }
  { destruct ds; lia. }
  assert (C0 : column 0 m = dE) by (unfold column, m; rewrite map_map; apply nth_map_seq).
  assert (C1 : column 1 m = dv). { unfold column, m. rewrite map_map. cbn [row nth]. transitivity (map (fun i => nth i dv (0, 0)%Z) (seq 0 (length dv))); [now rewrite <- L3, LV, L1|apply nth_map_seq]. }
  assert (C2 : forall d, ds = Some d -> column 2 m = d). { intros d ->. unfold column, m. rewrite map_map. unfold row. cbn [nth]. rewrite <- LS. apply nth_map_seq. }
  exists f, dv, dE, ds. split; [exact W|]. split; [|split; [|split]].
  - unfold load_txt_1D. rewrite RD. assert (SH : exists r1 r2 q, m = r1 :: r2 :: q /\ length r1 = (match ds with None => 2 | Some _ => 3 end)%nat). { unfold m. rewrite <- L1. destruct (length E) as [|[|k]]; [lia|lia|]. cbn [seq map]. eexists _, _, _. split; [reflexivity|]. unfold row. destruct ds; reflexivity. }
    destruct SH as (r1 & r2 & q & E0 & LR). cbn -[two_d column]. assert (TD : two_d m = true) by (rewrite E0; cbn [two_d]; rewrite LR; destruct ds; reflexivity). rewrite TD, C0, C1. f_equal. f_equal. rewrite E0 at 1. rewrite LR. destruct ds as [d|]; cbn [Nat.leb]; [f_equal; now apply C2|reflexivity].
  - now apply shown_doubles.
  - now apply shown_doubles.
  - destruct sd as [s|], ds as [d|]; try contradiction; [|reflexivity]. cbn [option_map]. f_equal. apply shown_doubles; [apply FS|exact SS].
Qed.
Print Assumptions txt_vector_bits.
Lemma shown_rows (m : list (list R)) dm : Forall2 shown m dm -> Forall (Forall (printable 18)) dm.
Proof. intros F. induction F as [|x d m dm H F IH]; constructor; [exact (shown_printable _ _ H)|exact IH]. Qed.
Lemma shown_matrix (m : list (list R)) dm : Forall (Forall finite_double) m -> Forall2 shown m dm -> map doubles dm = m.
Proof. intros FD F. induction F as [|x d m dm H F IH]; [reflexivity|]. inversion_clear FD as [|? ? F0 F1]. cbn [map]. rewrite IH by exact F1. f_equal. now apply shown_doubles. Qed.
Lemma default_no_return : no_return default_header.
Proof. intros I. vm_compute in I. repeat (destruct I as [I|I]; [discriminate I|]). exact I. Qed.
(* A matrix of at least one bin: values and both axes come back as the same doubles, with the default header or one's own. *)
Theorem txt_matrix_bits h (m : list (list R)) (Eg Ex : list R) dm dg dx : match h with HDefault => True | HText x => no_return x | HFalse => False end ->
  Forall (Forall finite_double) m -> Forall finite_double Eg -> Forall finite_double Ex -> (forall r, In r m -> length r = length Eg) -> length Ex = length m -> (1 <= length Eg)%nat -> (1 <= length Ex)%nat ->
  Forall2 shown m dm -> shown Eg dg -> shown Ex dx ->
  exists f dm' dg' dx', save_txt_2D h dm dg dx = Ok f /\ load_txt_2D f = Ok (dm', dg', dx') /\
    map doubles dm' = m /\ doubles dg' = Eg /\ doubles dx' = Ex.
Proof.
  intros N FM FG FX LR LX G1 X1 SM SG SX. pose proof (f2_length _ _ _ SM) as L1. pose proof (f2_length _ _ _ SG) as L2. pose proof (f2_length _ _ _ SX) as L3.
  assert (RD : forall r, In r dm -> length r = length dg). { rewrite <- L2. clear - LR SM. induction SM as [|x d m dm H F IH]; intros r []; [subst; rewrite <- (f2_length _ _ _ H); apply LR; now left|apply IH; [|assumption]; intros q Q; apply LR; now right]. }
  unfold save_txt_2D, framed18. assert (B1 : forallb (fun r => Nat.eqb (length r) (length dg)) dm = true) by (apply forallb_forall; intros r I; apply Nat.eqb_eq; now apply RD). rewrite B1. assert (B2 : Nat.eqb (length dx) (length dm) = true) by (apply Nat.eqb_eq; lia). rewrite B2. cbn [andb].
  set (fr := ((0, -18)%Z :: dg) :: map (fun p => fst p :: snd p) (combine dx dm)).
  assert (PR : Forall (Forall (printable 18)) fr). { constructor; [constructor; [left; split; reflexivity|exact (shown_printable _ _ SG)]|]. apply Forall_forall. intros r I. apply in_map_iff in I. destruct I as ((e, q) & <- & I). constructor; [apply (proj1 (Forall_forall _ _) (shown_printable _ _ SX)); exact (in_combine_l _ _ _ _ I)|apply (proj1 (Forall_forall _ _) (shown_rows _ _ SM)); exact (in_combine_r _ _ _ _ I)]. }
  assert (LE : forall r, In r fr -> length r = S (length dg)). { intros r [<-|I]; [reflexivity|]. apply in_map_iff in I. destruct I as ((e, q) & <- & I). cbn [fst snd length]. f_equal. apply RD. exact (in_combine_r _ _ _ _ I). }
  assert (HA : exists x, header_arg h = HStr x /\ no_return x) by (destruct h as [| |x]; [exists default_header; split; [reflexivity|exact default_no_return]|contradiction|exists x; split; [reflexivity|exact N]]).
  destruct HA as (x & HE & NX). destruct (savetxt_loadtxt x fr (S (length dg)) NX PR LE ltac:(lia)) as (f & W & RT). exists f, dm, dg, dx. split; [rewrite HE; exact W|]. split; [|split; [now apply shown_matrix|split; now apply shown_doubles]].
  assert (T1 : map (@tl dec) (map (fun p => fst p :: snd p) (combine dx dm)) = dm). { rewrite map_map. cbn [tl]. clear - L1 L3 LX. assert (LL : length dx = length dm) by lia. clear - LL. revert dx LL. induction dm as [|r dm IH]; intros [|x dx] LL; cbn in *; try discriminate; [reflexivity|]. f_equal. apply IH. lia. }
  assert (T2 : column 0 (map (fun p => fst p :: snd p) (combine dx dm)) = dx). { unfold column. rewrite map_map. cbn [nth]. assert (LL : length dx = length dm) by lia. clear - LL. revert dm LL. induction dx as [|r dx IH]; intros [|x dm] LL; cbn in *; try discriminate; [reflexivity|]. f_equal. apply IH. lia. }
  unfold load_txt_2D. rewrite RT. cbn -[two_d column]. assert (TD : two_d fr = true). { unfold fr. destruct dx as [|e dx]; [cbn in *; lia|]. destruct dm as [|r dm]; [cbn in *; lia|]. cbn [combine map two_d]. destruct dg; [cbn in *; lia|reflexivity]. } rewrite TD. unfold fr. cbn [tl]. now rewrite T1, T2.
Qed.
Print Assumptions txt_matrix_bits.
(* header=False, meant to suppress the header, is passed on as None: np.savetxt raises TypeError. *)
Theorem txt_header_false_refuted m Eg Ex f : save_txt_2D HFalse m Eg Ex <> Ok f /\
  ((forall r, In r m -> length r = length Eg) -> length Ex = length m -> save_txt_2D HFalse m Eg Ex = Raise TypeError).
Proof.
  unfold save_txt_2D, framed18. split.
  - destruct (_ && _); discriminate.
  - intros L1 L2. assert (B1 : forallb (fun r => Nat.eqb (length r) (length Eg)) m = true) by (apply forallb_forall; intros r I; apply Nat.eqb_eq; now apply L1). rewrite B1, L2, Nat.eqb_refl. reflexivity.
Qed.
Print Assumptions txt_header_false_refuted.
(* A carriage return in the header starts a line that is not commented out: the vector gains a bin. *)
Definition one : dec := (1000000000000000000, -18)%Z.
Lemma one_printable : printable 18 one.
Proof. right. split; [split|]; vm_compute; congruence. Qed.
Theorem txt_header_return_refuted : exists h E v f E' v', Forall (printable 18) E /\ Forall (printable 18) v /\ length E = 2%nat /\ length v = 2%nat /\
  save_txt_1D (HStr h) E v None = Ok f /\ load_txt_1D f = Ok (v', E', None) /\ length E' = 3%nat.
Proof.
  exists (t "run" ++ [CR] ++ t "12 5"), [one; one], [one; one]. eexists _, _, _. split; [repeat (apply Forall_cons || apply Forall_nil || exact one_printable)|]. split; [repeat (apply Forall_cons || apply Forall_nil || exact one_printable)|]. split; [reflexivity|]. split; [reflexivity|]. split; [reflexivity|]. split; [vm_compute; reflexivity|reflexivity].
Qed.
Print Assumptions txt_header_return_refuted.
(* every list of finite doubles has texts: the hypotheses of the theorems can be met *)
Theorem shown_exists x : Forall finite_double x -> exists d, shown x d.
Proof. apply shows_all. lia. Qed.
Print Assumptions shown_exists.
Example txt_case : save_txt_2D HDefault [[one; one]] [one; one] [one] <> Raise ValueError /\
  exists f, save_txt_1D (HStr (t "E[keV] values")) [one; (-2500000000000000000, -18)%Z] [one; one] None = Ok f /\ firstn 17 (skipn 16 f) = t "1.000000000000000".
Proof. split; [vm_compute; discriminate|]. eexists. split; [reflexivity|]. vm_compute. reflexivity. Qed.
Lemma one_double : finite_double 1%R /\ shows 18 1%R one.
Proof.
  split; [split|split].
  - replace 1%R with (IZR 1 * bpow radix2 0)%R by (cbn; ring). apply double_dyadic; cbn; lia.
  - rewrite Rabs_R1. change 1%R with (bpow radix2 0). apply bpow_lt. lia.
  - exact one_printable.
  - assert (V : value one = 1%R) by (unfold value, one; cbn; Lra.lra). rewrite V. unfold fmt_e. symmetry. apply Generic_fmt.round_generic; [apply Generic_fmt.valid_rnd_N|]. rewrite <- V. apply decimal; vm_compute; congruence.
Qed.
Example txt_bits_case : exists f dv dE ds, save_txt_1D (HStr (t "two" ++ [NL] ++ t "lines")) [one; one] [one; one] None = Ok f /\ load_txt_1D f = Ok (dv, dE, ds) /\ doubles dE = [1; 1]%R.
Proof.
  destruct one_double as (F & S). destruct (txt_vector_bits (t "two" ++ [NL] ++ t "lines") [1; 1]%R [1; 1]%R None [one; one] [one; one] None) as (f & a & b & c & H1 & H2 & H3 & _); try (repeat (apply Forall_cons || apply Forall_nil || apply Forall2_cons || apply Forall2_nil || assumption)); try reflexivity; try exact (le_n 2); try exact I.
  - intros I. vm_compute in I. repeat (destruct I as [I|I]; [discriminate I|]). exact I.
  - now exists f, a, b, c.
Qed.
