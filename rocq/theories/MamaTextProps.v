(* C100: a MaMa file is read back as it was written, character by character. *)
From Coq Require Import Reals ZArith String Ascii List Bool Lia Lra.
From Flocq Require Import Core.
From Verif Require Import PyBase MamaTextModel TextNumModel TextNumProps.
Import ListNotations.
Local Open Scope list_scope.
Local Notation length := List.length (only parsing).

(* ---------------------------------------------------------------- specification *)
(* no line break *)
Definition one_line (x : text) : Prop := ~ In NL x /\ ~ In CR x.
(* m * 10^e can be printed with n digits after the point: |m| has n+1 digits, or it is zero *)
Definition printable (n : nat) (d : dec) : Prop :=
  (fst d = 0 /\ snd d = - Z.of_nat n \/ 10 ^ Z.of_nat n <= Z.abs (fst d) < 10 ^ Z.of_nat (S n) /\ Z.abs (snd d + Z.of_nat n) < 1000)%Z.

(* ---------------------------------------------------------------- characters *)
(* the characters of a printed number *)
Definition numc (c : ascii) : bool := match digit_of c with Some _ => true | None => false end || is_char "-" c || is_char "+" c || is_char "." c || is_char "E" c.
Lemma numc_plain c : numc c = true -> is_space c = false /\ is_char "," c = false /\ is_char "#" c = false /\ c <> NL /\ c <> CR.
Proof. destruct c as [[] [] [] [] [] [] [] []]; vm_compute; intros H; try discriminate H; repeat split; discriminate. Qed.
Lemma digit_digit d : (0 <= d < 10)%Z -> digit_of (digit d) = Some d.
Proof. intros H. assert (C : (d = 0 \/ d = 1 \/ d = 2 \/ d = 3 \/ d = 4 \/ d = 5 \/ d = 6 \/ d = 7 \/ d = 8 \/ d = 9)%Z) by lia. repeat destruct C as [-> | C]; try reflexivity. rewrite C. reflexivity. Qed.
Definition is_dig (d : Z) : Prop := (0 <= d < 10)%Z.
Lemma digs_dig n : forall m, Forall is_dig (digs n m).
Proof. induction n as [|n IH]; intros m; cbn; [constructor|]. apply Forall_app. split; [apply IH|]. constructor; [|constructor]. apply Z.mod_pos_bound. lia. Qed.
Lemma digs_length n : forall m, length (digs n m) = n.
Proof. induction n as [|n IH]; intros m; cbn; [reflexivity|]. rewrite app_length, IH. cbn. lia. Qed.
Lemma undigs_app l d : undigs (l ++ [d]) = (10 * undigs l + d)%Z.
Proof. unfold undigs. now rewrite fold_left_app. Qed.
Lemma undigs_digs n : forall m, (0 <= m < 10 ^ Z.of_nat n)%Z -> undigs (digs n m) = m.
Proof.
  induction n as [|n IH]; intros m H; [cbn in *; lia|]. cbn [digs]. rewrite undigs_app. rewrite Nat2Z.inj_succ, Z.pow_succ_r in H by lia. rewrite IH; [pose proof (Z.div_mod m 10); lia|].
  split; [apply Z.div_pos; lia|]. apply Z.div_lt_upper_bound; lia.
Qed.
Lemma exp_digs_ok a : (0 <= a < 1000)%Z -> undigs (exp_digs a) = a /\ Forall is_dig (exp_digs a) /\ exp_digs a <> [].
Proof.
  intros H. unfold exp_digs. destruct (Z.ltb_spec a 100).
  - split; [apply undigs_digs; cbn; lia|]. split; [apply digs_dig|]. intros E. apply (f_equal (@List.length Z)) in E. rewrite digs_length in E. discriminate E.
  - split; [apply undigs_digs; cbn; lia|]. split; [apply digs_dig|]. intros E. apply (f_equal (@List.length Z)) in E. rewrite digs_length in E. discriminate E.
Qed.
Lemma take_digits_map ds c r : Forall is_dig ds -> digit_of c = None -> take_digits (map digit ds ++ c :: r) = (ds, c :: r).
Proof. intros F N. induction F as [|d ds H F IH]; cbn [map app take_digits]; [now rewrite N|]. rewrite (digit_digit d H), IH. reflexivity. Qed.
Lemma take_digits_end ds : Forall is_dig ds -> take_digits (map digit ds) = (ds, []).
Proof. intros F. induction F as [|d ds H F IH]; cbn [map app take_digits]; [reflexivity|]. rewrite (digit_digit d H), IH. reflexivity. Qed.
Lemma digit_nosign d : is_dig d -> is_char "-" (digit d) = false /\ is_char "+" (digit d) = false.
Proof. intros H. unfold is_dig in H. assert (C : (d = 0 \/ d = 1 \/ d = 2 \/ d = 3 \/ d = 4 \/ d = 5 \/ d = 6 \/ d = 7 \/ d = 8 \/ d = 9)%Z) by lia. repeat destruct C as [-> | C]; try (split; reflexivity). rewrite C. split; reflexivity. Qed.
Lemma digits_numc ds : Forall is_dig ds -> Forall (fun c => numc c = true) (map digit ds).
Proof. intros F. induction F as [|d ds H F IH]; cbn [map]; constructor; [|exact IH]. unfold numc. now rewrite (digit_digit d H). Qed.

(* ---------------------------------------------------------------- numbers *)
Lemma render_shape n d : printable n d -> exists d0 ds ex, is_dig d0 /\ Forall is_dig ds /\ length ds = n /\ Forall is_dig ex /\ ex <> [] /\
  undigs (d0 :: ds) = Z.abs (fst d) /\ undigs ex = Z.abs (snd d + Z.of_nat n) /\
  render n d = (if (fst d <? 0)%Z then t "-" else []) ++ digit d0 :: t "." ++ map digit ds ++ t "E" ++ (if (snd d + Z.of_nat n <? 0)%Z then t "-" else t "+") ++ map digit ex.
Proof.
  destruct d as (m, e). cbn [fst snd]. intros P. assert (B : (Z.abs m < 10 ^ Z.of_nat (S n) /\ Z.abs (e + Z.of_nat n) < 1000)%Z).
  { destruct P as [(M & E)|(M & E)]; cbn [fst snd] in *; [|lia]. subst. split; [apply Z.pow_pos_nonneg; lia|]. replace (- Z.of_nat n + Z.of_nat n)%Z with 0%Z by lia. reflexivity. }
  destruct B as (B1 & B2). pose proof (digs_length (S n) (Z.abs m)) as L. pose proof (digs_dig (S n) (Z.abs m)) as F. pose proof (undigs_digs (S n) (Z.abs m) ltac:(lia)) as UD.
  destruct (digs (S n) (Z.abs m)) as [|d0 ds] eqn:DD; [discriminate L|]. destruct (exp_digs_ok (Z.abs (e + Z.of_nat n)) ltac:(lia)) as (X1 & X2 & X3).
  exists d0, ds, (exp_digs (Z.abs (e + Z.of_nat n))). inversion_clear F as [|? ? F0 F1]. split; [exact F0|]. split; [exact F1|]. split; [cbn in L; lia|]. split; [exact X2|]. split; [exact X3|]. split; [exact UD|]. split; [exact X1|].
  unfold render. rewrite DD. cbn [map firstn skipn app]. reflexivity.
Qed.
Lemma render_numc n d : printable n d -> Forall (fun c => numc c = true) (render n d).
Proof.
  intros P. destruct (render_shape n d P) as (d0 & ds & ex & D0 & DS & _ & EX & _ & _ & _ & ->). apply Forall_app. split; [destruct (fst d <? 0)%Z; repeat constructor|].
  change (digit d0 :: t "." ++ ?z) with (map digit [d0] ++ t "." ++ z). apply Forall_app. split; [apply digits_numc; repeat constructor; apply D0|]. apply Forall_app. split; [repeat constructor|]. apply Forall_app. split; [now apply digits_numc|].
  apply Forall_app. split; [repeat constructor|]. apply Forall_app. split; [destruct (_ <? 0)%Z; repeat constructor|]. now apply digits_numc.
Qed.
Lemma render_ne n d : printable n d -> render n d <> [].
Proof. intros P. destruct (render_shape n d P) as (d0 & ds & ex & _ & _ & _ & _ & _ & _ & _ & ->). destruct (fst d <? 0)%Z; discriminate. Qed.
Lemma lstrip_spaces k l : lstrip (spaces k ++ l) = lstrip l.
Proof. induction k as [|k IH]; [reflexivity|]. cbn. exact IH. Qed.
Lemma lstrip_plain l : Forall (fun c => is_space c = false) l -> lstrip l = l.
Proof. destruct 1 as [|c l H _]; [reflexivity|]. cbn. now rewrite H. Qed.
Lemma spaces_rev k : rev (spaces k) = spaces k.
Proof. unfold spaces. induction k as [|k IH]; [reflexivity|]. cbn. rewrite IH. clear IH. induction k as [|k IH]; [reflexivity|]. cbn. now rewrite IH. Qed.
Lemma strip_pad a b l : Forall (fun c => is_space c = false) l -> strip (spaces a ++ l ++ spaces b) = l.
Proof.
  intros F. unfold strip. rewrite lstrip_spaces. destruct F as [|c l H F].
  - cbn. rewrite <- (app_nil_r (spaces b)). rewrite lstrip_spaces. reflexivity.
  - assert (E : lstrip ((c :: l) ++ spaces b) = (c :: l) ++ spaces b) by (cbn; now rewrite H). rewrite E, rev_app_distr, spaces_rev, lstrip_spaces.
    rewrite lstrip_plain; [apply rev_involutive|]. apply Forall_rev. now constructor.
Qed.
Lemma numc_forall l : Forall (fun c => numc c = true) l -> Forall (fun c => is_space c = false) l.
Proof. apply Forall_impl. intros c H. now apply numc_plain. Qed.
(* A printed number, with blanks before and after it, is read as the same number. *)
Theorem parse_render n d a b : printable n d -> parse_number (spaces a ++ render n d ++ spaces b) = Some d.
Proof.
  intros P. unfold parse_number. rewrite strip_pad by (apply numc_forall, render_numc, P). destruct (render_shape n d P) as (d0 & ds & ex & D0 & DS & LN & EX & EN & UM & UE & ->). destruct d as (m, e). cbn [fst snd] in *.
  set (tl := digit d0 :: t "." ++ map digit ds ++ t "E" ++ (if (e + Z.of_nat n <? 0)%Z then t "-" else t "+") ++ map digit ex).
  assert (SG : take_sign ((if (m <? 0)%Z then t "-" else []) ++ tl) = ((m <? 0)%Z, tl)). { destruct (m <? 0)%Z; [reflexivity|]. unfold tl, take_sign. cbn [app]. destruct (digit_nosign d0 D0) as (-> & ->). reflexivity. }
  rewrite SG. unfold tl. assert (T1 : take_digits (digit d0 :: t "." ++ map digit ds ++ t "E" ++ (if (e + Z.of_nat n <? 0)%Z then t "-" else t "+") ++ map digit ex) = ([d0], t "." ++ map digit ds ++ t "E" ++ (if (e + Z.of_nat n <? 0)%Z then t "-" else t "+") ++ map digit ex)).
  { change (digit d0 :: t "." ++ ?z) with (map digit [d0] ++ t "." ++ z). apply (take_digits_map [d0] "."%char); [repeat constructor; apply D0|reflexivity]. }
  rewrite T1. cbn [t list_ascii_of_string app is_char]. change (is_char "." ".") with true. cbv iota.
  rewrite (take_digits_map ds "E"%char) by (exact DS || reflexivity). cbn [app nonempty negb]. change (is_char "E" "E" || is_char "e" "E") with true. cbv iota.
  assert (S2 : take_sign ((if (e + Z.of_nat n <? 0)%Z then ["-"%char] else ["+"%char]) ++ map digit ex) = ((e + Z.of_nat n <? 0)%Z, map digit ex)) by (destruct (e + Z.of_nat n <? 0)%Z; reflexivity).
  rewrite S2, (take_digits_end ex EX). assert (NE : nonempty ex = true) by (destruct ex; [contradiction|reflexivity]). rewrite NE. cbn [andb negb nonempty]. rewrite UM, UE, LN. f_equal. f_equal.
  - destruct (Z.ltb_spec m 0); lia.
  - destruct (Z.ltb_spec (e + Z.of_nat n) 0); lia.
Qed.
Print Assumptions parse_render.
Lemma render_plain n d : printable n d -> ~ In ","%char (render n d) /\ ~ In "#"%char (render n d) /\ one_line (render n d).
Proof.
  intros P. pose proof (proj1 (Forall_forall _ _) (render_numc n d P)) as H. repeat split; intros I; destruct (numc_plain _ (H _ I)) as (_ & A & B & C & D).
  - discriminate A. - discriminate B. - now apply C. - now apply D.
Qed.

(* ---------------------------------------------------------------- lines, fields *)
Lemma universal_id l : ~ In CR l -> universal l = l.
Proof. induction l as [|c l IH]; intros N; [reflexivity|]. cbn [universal]. destruct (Ascii.eqb_spec c CR) as [->|_]; [exfalso; apply N; now left|]. f_equal. apply IH. intros I. apply N. now right. Qed.
Lemma lines_acc_line a : forall acc r, ~ In NL a -> lines_acc acc (a ++ NL :: r) = (rev acc ++ a) :: lines_acc [] r.
Proof.
  induction a as [|c a IH]; intros acc r N; cbn [app lines_acc].
  - change (Ascii.eqb NL NL) with true. cbv iota. now rewrite app_nil_r.
  - destruct (Ascii.eqb_spec c NL) as [->|_]; [exfalso; apply N; now left|]. rewrite IH by (intros I; apply N; now right). cbn. now rewrite <- app_assoc.
Qed.
(* a file made of lines *)
Definition unlines (ls : list text) : text := flat_map (fun x => x ++ [NL]) ls.
Lemma lines_unlines ls : Forall one_line ls -> lines (unlines ls) = ls.
Proof.
  intros F. unfold lines. rewrite universal_id.
  - induction F as [|x ls H F IH]; [reflexivity|]. cbn [unlines flat_map]. rewrite <- app_assoc. cbn [app]. rewrite lines_acc_line by apply H. f_equal. exact IH.
  - intros I. apply in_flat_map in I. destruct I as (x & X & I). apply in_app_or in I. destruct I as [I|[I|[]]]; [|discriminate I]. destruct (proj1 (Forall_forall _ _) F x X) as (_ & N). contradiction.
Qed.
Lemma split_piece p a : forall acc c r, Forall (fun x => p x = false) a -> p c = true -> split_acc p acc (a ++ c :: r) = (rev acc ++ a) :: split_acc p [] r.
Proof.
  induction a as [|x a IH]; intros acc c r F C; cbn [app split_acc]; [rewrite C; now rewrite app_nil_r|]. inversion_clear F as [|? ? H F']. rewrite H, IH by assumption. cbn. now rewrite <- app_assoc.
Qed.
Lemma split_last p a : forall acc, Forall (fun x => p x = false) a -> split_acc p acc a = [rev acc ++ a].
Proof. induction a as [|x a IH]; intros acc F; cbn [split_acc]; [now rewrite app_nil_r|]. inversion_clear F as [|? ? H F']. rewrite H, IH by assumption. cbn. now rewrite <- app_assoc. Qed.
Lemma not_in_class d a : ~ In d a -> Forall (fun x => is_char d x = false) a.
Proof. intros N. apply Forall_forall. intros x X. unfold is_char. destruct (Ascii.eqb_spec x d) as [->|]; [contradiction|reflexivity]. Qed.
Lemma words_spaces k l : words (spaces k ++ l) = words l.
Proof. unfold words, split. induction k as [|k IH]; [reflexivity|]. cbn [spaces repeat app split_acc]. change (is_space " ") with true. cbv iota. cbn [rev filter nonempty]. exact IH. Qed.
Lemma words_word w k l : w <> [] -> Forall (fun c => is_space c = false) w -> words (w ++ spaces (S k) ++ l) = w :: words l.
Proof.
  intros N F. unfold words at 1, split. cbn [spaces repeat app]. rewrite split_piece by (assumption || reflexivity). cbn [rev app filter]. destruct w as [|c w]; [contradiction|]. cbn [nonempty]. f_equal. apply (words_spaces k).
Qed.
Lemma words_end w k : w <> [] -> Forall (fun c => is_space c = false) w -> words (w ++ spaces k) = [w].
Proof.
  intros N F. destruct k as [|k].
  - cbn. rewrite app_nil_r. unfold words, split. rewrite split_last by exact F. destruct w; [contradiction|reflexivity].
  - rewrite <- (app_nil_r (spaces (S k))). now rewrite words_word.
Qed.
Lemma spaces_one k : spaces k ++ t " " = spaces (S k).
Proof. unfold spaces. induction k as [|k IH]; [reflexivity|]. cbn. f_equal. exact IH. Qed.
Lemma row_words r : Forall (printable 8) r -> words (row_text r) = map (render 8) r.
Proof.
  unfold row_text. induction 1 as [|x r P F IH]; [reflexivity|]. destruct r as [|y r].
  - cbn [map join]. apply words_end; [now apply render_ne|apply numc_forall, render_numc, P].
  - cbn [map join] in *. unfold pad_right at 1. rewrite <- app_assoc. rewrite (app_assoc (spaces _)), spaces_one. rewrite words_word; [now rewrite IH|now apply render_ne|apply numc_forall, render_numc, P].
Qed.
Lemma in_spaces c k : In c (spaces k) -> c = " "%char.
Proof. unfold spaces. apply repeat_spec. Qed.
Lemma in_join sep l c : In c (join sep l) -> In c sep \/ exists x, In x l /\ In c x.
Proof.
  induction l as [|x l IH]; [intros []|]. destruct l as [|y l]; cbn [join]; intros I; [right; exists x; split; [now left|exact I]|].
  apply in_app_or in I. destruct I as [I|I]; [right; exists x; split; [now left|exact I]|]. apply in_app_or in I. destruct I as [I|I]; [now left|]. destruct (IH I) as [H|(z & Z & H)]; [now left|right; exists z; split; [now right|exact H]].
Qed.
Lemma row_plain r c : Forall (printable 8) r -> In c (row_text r) -> c = " "%char \/ numc c = true.
Proof.
  intros F I. apply in_join in I. destruct I as [[<-|[]]|(x & X & I)]; [now left|]. apply in_map_iff in X. destruct X as (d & <- & D). apply in_app_or in I. destruct I as [I|I]; [right; apply (proj1 (Forall_forall _ _) (render_numc 8 d (proj1 (Forall_forall _ _) F d D)) c I)|left; now apply in_spaces in I].
Qed.
Lemma row_line r : Forall (printable 8) r -> one_line (row_text r) /\ ~ In "#"%char (row_text r).
Proof.
  intros F. repeat split; intros I; apply (row_plain r _ F) in I; destruct I as [I|I]; try discriminate I; destruct (numc_plain _ I) as (_ & _ & A & B & C); try discriminate A; congruence.
Qed.
Lemma row_fields r : Forall (printable 8) r -> fields (row_text r) = map (render 8) r.
Proof. intros F. unfold fields, split. rewrite split_last by (apply not_in_class, row_line, F). cbn [rev app hd]. now apply row_words. Qed.
(* ---------------------------------------------------------------- the table *)
Lemma filter_all {A} (f : A -> bool) l : (forall x, In x l -> f x = true) -> filter f l = l.
Proof. induction l as [|x l IH]; intros H; [reflexivity|]. cbn. rewrite (H x (or_introl eq_refl)), IH; [reflexivity|]. intros y Y. apply H. now right. Qed.
Lemma filter_none {A} (f : A -> bool) l : (forall x, In x l -> f x = false) -> filter f l = [].
Proof. induction l as [|x l IH]; intros H; [reflexivity|]. cbn. rewrite (H x (or_introl eq_refl)), IH; [reflexivity|]. intros y Y. apply H. now right. Qed.
Lemma map_snd_combine {A B} (l : list A) (k : list B) : length l = length k -> map snd (combine l k) = k.
Proof. revert k. induction l as [|x l IH]; intros [|y k] E; cbn in *; try discriminate; [reflexivity|]. f_equal. apply IH. lia. Qed.
Lemma combine_app {A B} (l l2 : list A) (k k2 : list B) : length l = length k -> combine (l ++ l2) (k ++ k2) = combine l k ++ combine l2 k2.
Proof. revert k. induction l as [|x l IH]; intros [|y k] E; cbn in *; try discriminate; [reflexivity|]. f_equal. apply IH. lia. Qed.
Lemma genfromtxt_table hl (rows : list (list text)) (ls : list text) nc foot : length hl = 10%nat -> map fields ls = rows -> (forall r, In r rows -> length r = nc) -> (1 <= nc)%nat -> fields foot = [foot] ->
  genfromtxt 10 1 (hl ++ ls ++ [foot; []]) = Ok rows.
Proof.
  intros H M R NC FT. unfold genfromtxt. assert (SK : skipn 10 (hl ++ ls ++ [foot; []]) = ls ++ [foot; []]) by (rewrite <- H; apply skipn_app_len || (rewrite skipn_app, skipn_all, Nat.sub_diag; reflexivity)). rewrite SK, map_app, M. cbn [map]. rewrite FT. change (fields []) with (@nil text).
  destruct rows as [|r0 rows].
  - cbn [app drop_empty]. cbn [length seq combine filter snd nonempty map Nat.eqb negb fst]. reflexivity.
  - assert (L0 : length r0 = nc) by (apply R; now left). assert (DE : drop_empty ((r0 :: rows) ++ [[foot]; []]) = r0 :: rows ++ [[foot]; []]) by (destruct r0; [cbn in L0; lia|reflexivity]). rewrite DE. cbv zeta.
    set (N := length rows). assert (LEN : length (rows ++ [[foot]; []]) = (N + 2)%nat) by (rewrite app_length; reflexivity). rewrite LEN.
    replace (S (N + 2)) with (S N + 2)%nat by lia. rewrite seq_app. change (r0 :: rows ++ [[foot]; []]) with ((r0 :: rows) ++ [[foot]; []]). rewrite combine_app by (rewrite seq_length; reflexivity).
    set (C := combine (seq 0 (S N)) (r0 :: rows)). change (combine (seq (0 + S N) 2) [[foot]; []]) with [(S N, [foot]); (S (S N), @nil text)]. rewrite filter_app.
    assert (RN : forall q, In q C -> length (snd q) = nc). { intros (i, q) Q. apply in_combine_r in Q. now apply R. }
    rewrite (filter_all (fun q : nat * list text => nonempty (snd q)) C). 2:{ intros q Q. specialize (RN q Q). destruct (snd q); [cbn in RN; lia|reflexivity]. }
    assert (LC : map snd C = r0 :: rows) by (apply map_snd_combine; rewrite seq_length; reflexivity). assert (LCn : length C = S N) by (rewrite <- (map_length snd), LC; reflexivity). clearbody C.
    cbn [filter snd nonempty app fst].
    rewrite L0. rewrite !filter_app. rewrite (filter_all (fun q => Nat.eqb (length (snd q)) nc) C) by (intros q Q; apply Nat.eqb_eq; now apply RN). rewrite (filter_none (fun q => negb (Nat.eqb (length (snd q)) nc)) C) by (intros q Q; rewrite (RN q Q), Nat.eqb_refl; reflexivity).
    cbn [filter snd length]. rewrite map_app, LC. destruct (Nat.eqb_spec 1 nc) as [E|E].
    + cbn [negb map app filter length]. rewrite app_length. cbn [length Nat.sub Nat.eqb]. f_equal. change (r0 :: rows ++ [snd (S N, [foot])]) with ((r0 :: rows) ++ [[foot]]). replace (length rows + 1 - 0)%nat with (length (r0 :: rows) + 0)%nat by (cbn; lia). rewrite firstn_app_2. cbn [firstn]. now rewrite app_nil_r.
    + cbn [negb map app filter length fst]. rewrite app_nil_r. cbn [length]. fold N. replace (S N + 1 - 1)%nat with (S N) by lia. assert (LT : (S N <? S N + 1)%nat = true) by (apply Nat.ltb_lt; lia). rewrite LT. cbn [length Nat.sub Nat.eqb]. f_equal. change (S N) with (length (r0 :: rows)). apply firstn_all.
Qed.

(* ---------------------------------------------------------------- the calibration line *)
Lemma spaces_split k : spaces (S k) = t " " ++ spaces k.
Proof. reflexivity. Qed.
(* the pieces between the commas: each number with blanks around it *)
Lemma cal_pieces cal : Forall (printable 6) cal -> forall first, ~ In ","%char first -> cal <> [] ->
  exists ps, split (is_char ",") (first ++ t ", " ++ join (t ", ") (map (fun c => pad_left 12 (render 6 c)) cal) ++ t " ") = first :: ps /\
    Forall2 (fun p d => exists a b, p = spaces a ++ render 6 d ++ spaces b) ps cal.
Proof.
  induction 1 as [|d cal P F IH]; intros first NF NE; [contradiction|]. unfold split. change (first ++ t ", " ++ ?z) with (first ++ ","%char :: t " " ++ z). rewrite split_piece by (reflexivity || now apply not_in_class). cbn [rev app].
  destruct cal as [|d2 cal].
  - cbn [map join]. exists [t " " ++ pad_left 12 (render 6 d) ++ t " "]. split; [f_equal|].
    + apply split_last. constructor; [reflexivity|]. unfold pad_left. rewrite <- app_assoc. apply Forall_app. split; [apply Forall_forall; intros c C; apply in_spaces in C; now subst|]. apply Forall_app. split; [|repeat constructor]. apply not_in_class, (render_plain 6 d P).
    + constructor; [|constructor]. exists (S (12 - length (render 6 d))), 1%nat. unfold pad_left. rewrite <- app_assoc. reflexivity.
  - cbn [map join] in *. set (rest := join (t ", ") (pad_left 12 (render 6 d2) :: map (fun c => pad_left 12 (render 6 c)) cal)) in *.
    assert (NC : ~ In ","%char (" "%char :: pad_left 12 (render 6 d))). { intros [C|C]; [discriminate C|]. apply in_app_or in C. destruct C as [C|C]; [apply in_spaces in C; discriminate C|]. exact (proj1 (render_plain 6 d P) C). }
    destruct (IH (" "%char :: pad_left 12 (render 6 d)) NC ltac:(discriminate)) as (ps & E & F2). exists ((" "%char :: pad_left 12 (render 6 d)) :: ps). split.
    + f_equal. rewrite <- E. unfold split. f_equal. cbn [app]. f_equal. rewrite <- !app_assoc. reflexivity.
    + constructor; [|exact F2]. exists (S (12 - length (render 6 d))), 0%nat. cbn [spaces repeat]. rewrite app_nil_r. reflexivity.
Qed.
Lemma floats_pieces ps cal : Forall (printable 6) cal -> Forall2 (fun p d => exists a b, p = spaces a ++ render 6 d ++ spaces b) ps cal -> floats ps = Ok cal.
Proof. intros F H. induction H as [|p d ps cal (a & b & ->) H IH]; [reflexivity|]. inversion_clear F as [|? ? P F']. cbn [floats]. rewrite parse_render by exact P. now rewrite IH. Qed.

(* ---------------------------------------------------------------- the file *)
Definition cal_line (cal : list dec) : text := t "!CALIBRATION EkeV=6, " ++ join (t ", ") (map (fun c => pad_left 12 (render 6 c)) cal) ++ t " ".
Definition head_lines (kind dims chans comment stamp : text) (cal : list dec) : list text :=
  [t "!FILE=Disk "; t "!KIND=" ++ kind ++ t " "; t "!LABORATORY=Oslo Cyclotron Laboratory (OCL) "; t "!EXPERIMENT= oslo_method_python "; t "!COMMENT=" ++ comment ++ t " ";
   t "!TIME=DATE:" ++ stamp ++ t "   "; cal_line cal; t "!PRECISION=16 "; t "!DIMENSION=" ++ dims ++ t " "; t "!CHANNEL=(" ++ chans ++ t ") "].
Lemma savetxt_lines kind dims chans comment stamp cal rows :
  savetxt (header kind dims chans comment stamp cal) rows = unlines (head_lines kind dims chans comment stamp cal ++ map row_text rows ++ [t "!IDEND="; []]).
Proof.
  unfold savetxt, header, head_lines, cal_line, unlines. rewrite !flat_map_app. cbn [flat_map]. rewrite !app_nil_r. rewrite <- !app_assoc. repeat (f_equal; rewrite <- ?app_assoc).
  rewrite !flat_map_concat_map, map_map. reflexivity.
Qed.
Lemma one_line_app a b : one_line a -> one_line b -> one_line (a ++ b).
Proof. intros (A & B) (C & D). split; intros I; apply in_app_or in I; tauto. Qed.
Lemma one_line_const (l : text) : forallb (fun c => negb (Ascii.eqb c NL) && negb (Ascii.eqb c CR)) l = true -> one_line l.
Proof. intros H. rewrite forallb_forall in H. split; intros I; specialize (H _ I); cbn in H; discriminate H. Qed.
Lemma one_line_spaces k : one_line (spaces k).
Proof. split; intros I; apply in_spaces in I; discriminate I. Qed.
Lemma one_line_join sep l : one_line sep -> Forall one_line l -> one_line (join sep l).
Proof. intros (S1 & S2) F. rewrite Forall_forall in F. split; intros I; apply in_join in I; destruct I as [I|(x & X & I)]; try contradiction; destruct (F x X); contradiction. Qed.
Lemma cal_one_line cal : Forall (printable 6) cal -> one_line (cal_line cal).
Proof.
  intros F. apply one_line_app; [apply one_line_const; reflexivity|]. apply one_line_app; [|apply one_line_const; reflexivity]. apply one_line_join; [apply one_line_const; reflexivity|]. apply Forall_forall. intros x X. apply in_map_iff in X. destruct X as (d & <- & D).
  apply one_line_app; [apply one_line_spaces|]. apply (render_plain 6). now apply (proj1 (Forall_forall _ _) F).
Qed.
Lemma parse_fields r : Forall (printable 8) r -> map parse_number (map (render 8) r) = map Some r.
Proof. intros F. rewrite map_map. apply map_ext_in. intros d D. pose proof (parse_render 8 d 0 0 (proj1 (Forall_forall _ _) F d D)) as Q. cbn [spaces repeat app] in Q. now rewrite app_nil_r in Q. Qed.
Lemma file_round_trip kind dims chans comment stamp cal rows nc : one_line kind -> one_line dims -> one_line chans -> one_line comment -> one_line stamp -> (length cal = 3 \/ length cal = 6)%nat -> Forall (printable 6) cal ->
  Forall (Forall (printable 8)) rows -> (forall r, In r rows -> length r = nc) -> (1 <= nc)%nat ->
  mama_read_text (savetxt (header kind dims chans comment stamp cal) rows) = Ok (cal, map (map Some) rows).
Proof.
  intros K1 K2 K3 K4 K5 LC PC PR RN NC. unfold mama_read_text. rewrite savetxt_lines, lines_unlines.
  2:{ apply Forall_app. split; [|apply Forall_app; split].
      - unfold head_lines. repeat (apply Forall_cons); try apply Forall_nil; try (apply one_line_const; reflexivity); try (apply one_line_app; [apply one_line_const; reflexivity|]; apply one_line_app; [assumption|apply one_line_const; reflexivity]). now apply cal_one_line.
      - apply Forall_forall. intros x X. apply in_map_iff in X. destruct X as (r & <- & R). apply row_line. now apply (proj1 (Forall_forall _ _) PR).
      - repeat constructor; apply one_line_const; reflexivity. }
  rewrite (genfromtxt_table (head_lines kind dims chans comment stamp cal) (map (map (render 8)) rows) (map row_text rows) nc (t "!IDEND=")); [|reflexivity| | |exact NC|reflexivity].
  2:{ rewrite map_map. apply map_ext_in. intros r R. apply row_fields. now apply (proj1 (Forall_forall _ _) PR). }
  2:{ intros r R. apply in_map_iff in R. destruct R as (q & <- & Q). rewrite map_length. now apply RN. }
  cbn [nth_error app head_lines]. destruct (cal_pieces cal PC (t "!CALIBRATION EkeV=6")) as (ps & E & F2); [intros I; vm_compute in I; repeat destruct I as [I|I]; try discriminate I; contradiction|destruct cal; [destruct LC as [LC|LC]; discriminate LC|discriminate]|].
  change (cal_line cal) with (t "!CALIBRATION EkeV=6" ++ t ", " ++ join (t ", ") (map (fun c => pad_left 12 (render 6 c)) cal) ++ t " "). rewrite E.
  assert (LP : @List.length text ps = length cal) by (clear - F2; induction F2; cbn; congruence). cbn [length skipn]. rewrite LP. assert (OK : (S (length cal) =? 4)%nat || (S (length cal) =? 7)%nat = true) by (destruct LC as [-> | ->]; reflexivity). rewrite OK.
  rewrite (floats_pieces ps cal PC F2). cbn. f_equal. f_equal. rewrite map_map. apply map_ext_in. intros r R. apply parse_fields. now apply (proj1 (Forall_forall _ _) PR).
Qed.
Lemma nat_digs_dig f : forall n, (0 <= n)%Z -> Forall is_dig (nat_digs f n).
Proof.
  induction f as [|f IH]; intros n N; cbn [nat_digs]; [constructor|]. destruct (Z.ltb_spec n 10); [constructor; [unfold is_dig; lia|constructor]|]. apply Forall_app. split; [apply IH; apply Z.div_pos; lia|]. constructor; [apply Z.mod_pos_bound; lia|constructor].
Qed.
Lemma fmt_4d_line n : one_line (fmt_4d n).
Proof.
  apply one_line_app; [apply one_line_spaces|]. apply one_line_app; [destruct (n <? 0)%Z; apply one_line_const; reflexivity|]. pose proof (digits_numc _ (nat_digs_dig 20 (Z.abs n) ltac:(lia))) as F. rewrite Forall_forall in F.
  split; intros I; destruct (numc_plain _ (F _ I)) as (_ & _ & _ & A & B); [now apply A|now apply B].
Qed.
Local Ltac ol := match goal with
  | |- one_line (fmt_4d _) => apply fmt_4d_line
  | |- one_line (_ ++ _) => apply one_line_app; [apply one_line_const; reflexivity | ol] || (apply one_line_app; ol)
  | |- one_line (t _) => apply one_line_const; reflexivity
  end.
(* A matrix: the six coefficients and all counts come back, whatever the (one-line) comment and time stamp. *)
Theorem mama_matrix_text comment stamp cal rows nc : one_line comment -> one_line stamp -> length cal = 6%nat -> Forall (printable 6) cal -> Forall (Forall (printable 8)) rows -> (forall r, In r rows -> length r = nc) -> (1 <= nc)%nat ->
  mama_read_text (mama_text2 comment stamp cal nc rows) = Ok (cal, map (map Some) rows).
Proof.
  intros A B C D E F G. apply (file_round_trip _ _ _ _ _ _ _ nc); try assumption; try (now right); ol.
Qed.
Print Assumptions mama_matrix_text.
(* A spectrum: three coefficients. *)
Theorem mama_spectrum_text comment stamp cal counts : one_line comment -> one_line stamp -> length cal = 3%nat -> Forall (printable 6) cal -> Forall (printable 8) counts ->
  mama_read_text (mama_text1 comment stamp cal counts) = Ok (cal, map (fun x => [Some x]) counts).
Proof.
  intros A B C D E. unfold mama_text1. rewrite (file_round_trip _ _ _ _ _ _ _ 1%nat); try assumption; try (now left); try (apply one_line_const; reflexivity); try (apply one_line_app; [apply one_line_const; reflexivity|apply fmt_4d_line]); try lia.
  - f_equal. f_equal. now rewrite map_map.
  - apply Forall_forall. intros r R. apply in_map_iff in R. destruct R as (x & <- & X). constructor; [now apply (proj1 (Forall_forall _ _) E)|constructor].
  - intros r R. apply in_map_iff in R. destruct R as (x & <- & X). reflexivity.
Qed.
Print Assumptions mama_spectrum_text.
(* ---------------------------------------------------------------- the size of the matrix in the header *)
(* the characters between the numbers of the lines !DIMENSION and !CHANNEL *)
Definition separator (c : ascii) : bool := existsb (fun d => is_char d c) [","; ":"; "="; "("; ")"]%char.
(* the numbers in a header line *)
Definition numbers (l : text) : list dec := flat_map (fun p => match parse_number p with Some d => [d] | None => [] end) (split separator l).
Lemma nat_digs_value f : forall n, (0 <= n < 10 ^ Z.of_nat f)%Z -> undigs (nat_digs f n) = n /\ (nat_digs f n = [] -> f = 0%nat).
Proof.
  induction f as [|f IH]; intros n N; [cbn in *; split; [lia|reflexivity]|]. cbn [nat_digs]. destruct (Z.ltb_spec n 10); [split; [cbn; lia|discriminate]|]. rewrite Nat2Z.inj_succ, Z.pow_succ_r in N by lia. rewrite undigs_app. split; [|intros E; symmetry in E; now apply app_cons_not_nil in E].
  rewrite (proj1 (IH (n / 10)%Z ltac:(split; [apply Z.div_pos; lia|apply Z.div_lt_upper_bound; lia]))). pose proof (Z.div_mod n 10). lia.
Qed.
Lemma parse_int n b : (Z.abs n < 10 ^ 20)%Z -> parse_number (fmt_4d n ++ spaces b) = Some (n, 0%Z).
Proof.
  intros N. unfold fmt_4d, pad_left. rewrite <- app_assoc. unfold parse_number. pose proof (nat_digs_dig 20 (Z.abs n) ltac:(lia)) as D. destruct (nat_digs_value 20 (Z.abs n) ltac:(split; [lia|exact N])) as (V & NE). set (ds := nat_digs 20 (Z.abs n)) in *. clearbody ds.
  rewrite strip_pad. 2:{ apply numc_forall, Forall_app. split; [destruct (n <? 0)%Z; repeat constructor|now apply digits_numc]. }
  assert (SG : take_sign ((if (n <? 0)%Z then t "-" else []) ++ map digit ds) = ((n <? 0)%Z, map digit ds)). { destruct (n <? 0)%Z; [reflexivity|]. destruct ds as [|d ds]; [specialize (NE eq_refl); discriminate NE|]. inversion_clear D as [|? ? D0 _]. unfold take_sign. cbn [app map]. destruct (digit_nosign d D0) as (-> & ->). reflexivity. }
  rewrite SG, take_digits_end by exact D. cbn [app]. rewrite app_nil_r. assert (NN : nonempty ds = true) by (destruct ds; [specialize (NE eq_refl); discriminate NE|reflexivity]). rewrite NN. cbn [negb]. rewrite V. destruct (Z.ltb_spec n 0); cbn [length Z.of_nat Z.opp]; f_equal; f_equal; lia.
Qed.
Lemma fmt_4d_nosep n : Forall (fun c => separator c = false) (fmt_4d n).
Proof.
  apply Forall_app. split; [apply Forall_forall; intros c C; apply in_spaces in C; now subst|]. apply Forall_app. split; [destruct (n <? 0)%Z; repeat constructor|].
  pose proof (nat_digs_dig 20 (Z.abs n) ltac:(lia)) as D. induction D as [|d ds H D IH]; cbn [map]; constructor; [|exact IH]. unfold is_dig in H. assert (C : (d = 0 \/ d = 1 \/ d = 2 \/ d = 3 \/ d = 4 \/ d = 5 \/ d = 6 \/ d = 7 \/ d = 8 \/ d = 9)%Z) by lia. repeat destruct C as [-> | C]; try reflexivity. rewrite C. reflexivity.
Qed.
Lemma numbers_piece a c r : Forall (fun x => separator x = false) a -> separator c = true -> numbers (a ++ c :: r) = (match parse_number a with Some d => [d] | None => [] end) ++ numbers r.
Proof. intros F C. unfold numbers, split. rewrite split_piece by assumption. reflexivity. Qed.
Lemma numbers_last a : Forall (fun x => separator x = false) a -> numbers a = match parse_number a with Some d => [d] | None => [] end.
Proof. intros F. unfold numbers, split. rewrite split_last by assumption. cbn. apply app_nil_r. Qed.
Lemma parse_int0 n : (Z.abs n < 10 ^ 20)%Z -> parse_number (fmt_4d n) = Some (n, 0%Z).
Proof. intros N. rewrite <- (app_nil_r (fmt_4d n)). exact (parse_int n 0 N). Qed.
Lemma file_lines kind dims chans comment stamp cal rows : one_line kind -> one_line dims -> one_line chans -> one_line comment -> one_line stamp -> Forall (printable 6) cal -> Forall (Forall (printable 8)) rows ->
  exists rest, lines (savetxt (header kind dims chans comment stamp cal) rows) = head_lines kind dims chans comment stamp cal ++ rest.
Proof.
  intros K1 K2 K3 K4 K5 PC PR. rewrite savetxt_lines, lines_unlines; [eexists; reflexivity|]. apply Forall_app. split; [|apply Forall_app; split].
  - unfold head_lines. repeat (apply Forall_cons); try apply Forall_nil; try (apply one_line_const; reflexivity); try (apply one_line_app; [apply one_line_const; reflexivity|]; apply one_line_app; [assumption|apply one_line_const; reflexivity]). now apply cal_one_line.
  - apply Forall_forall. intros x X. apply in_map_iff in X. destruct X as (r & <- & R). apply row_line. now apply (proj1 (Forall_forall _ _) PR).
  - repeat constructor; apply one_line_const; reflexivity.
Qed.
Definition int (n : Z) : dec := (n, 0%Z).
(* The lines !DIMENSION and !CHANNEL give the last channel in x and y (columns first), the line
   !COMMENT the comment. *)
Theorem mama_matrix_header comment stamp cal rows nc : one_line comment -> one_line stamp -> Forall (printable 6) cal -> Forall (Forall (printable 8)) rows -> (Z.of_nat nc < 10 ^ 20)%Z -> (Z.of_nat (length rows) < 10 ^ 20)%Z ->
  exists dim chan, nth_error (lines (mama_text2 comment stamp cal nc rows)) 4 = Some (t "!COMMENT=" ++ comment ++ t " ") /\
    nth_error (lines (mama_text2 comment stamp cal nc rows)) 8 = Some dim /\ numbers dim = map int [2; 0; Z.of_nat nc - 1; 0; Z.of_nat (length rows) - 1]%Z /\
    nth_error (lines (mama_text2 comment stamp cal nc rows)) 9 = Some chan /\ numbers chan = map int [0; Z.of_nat nc - 1; 0; Z.of_nat (length rows) - 1]%Z.
Proof.
  intros A B C D N1 N2. unfold mama_text2. set (nx := (Z.of_nat nc - 1)%Z). set (ny := (Z.of_nat (length rows) - 1)%Z). cbv zeta.
  destruct (file_lines (t "Matrix") (t "2,0:" ++ fmt_4d nx ++ t ",0:" ++ fmt_4d ny) (t "0:" ++ fmt_4d nx ++ t ",0:" ++ fmt_4d ny) comment stamp cal rows) as (rest & ->); try assumption; try ol.
  cbn [nth_error app head_lines]. eexists _, _. split; [reflexivity|]. split; [reflexivity|]. split; [|split; [reflexivity|]].
  - change (t "!DIMENSION=" ++ (t "2,0:" ++ fmt_4d nx ++ t ",0:" ++ fmt_4d ny) ++ t " ") with (t "!DIMENSION" ++ "="%char :: t "2" ++ ","%char :: t "0" ++ ":"%char :: (fmt_4d nx ++ t ",0:" ++ fmt_4d ny) ++ t " "). rewrite <- !app_assoc. change (t ",0:" ++ ?z) with (","%char :: t "0" ++ ":"%char :: z).
    rewrite !numbers_piece by (reflexivity || (apply fmt_4d_nosep) || (repeat constructor)). rewrite numbers_last by (apply Forall_app; split; [apply fmt_4d_nosep|repeat constructor]). rewrite parse_int0 by lia. change (t " ") with (spaces 1). rewrite parse_int by lia. reflexivity.
  - change (t "!CHANNEL=(" ++ (t "0:" ++ fmt_4d nx ++ t ",0:" ++ fmt_4d ny) ++ t ") ") with (t "!CHANNEL" ++ "="%char :: [] ++ "("%char :: t "0" ++ ":"%char :: (fmt_4d nx ++ t ",0:" ++ fmt_4d ny) ++ t ") "). rewrite <- !app_assoc. change (t ",0:" ++ ?z) with (","%char :: t "0" ++ ":"%char :: z). change (t ") ") with (")"%char :: t " ").
    rewrite !numbers_piece by (reflexivity || (apply fmt_4d_nosep) || (repeat constructor)). rewrite !parse_int0 by lia. reflexivity.
Qed.
Print Assumptions mama_matrix_header.
Theorem mama_spectrum_header comment stamp cal counts : one_line comment -> one_line stamp -> Forall (printable 6) cal -> Forall (printable 8) counts -> (Z.of_nat (length counts) < 10 ^ 20)%Z ->
  exists dim chan, nth_error (lines (mama_text1 comment stamp cal counts)) 4 = Some (t "!COMMENT=" ++ comment ++ t " ") /\
    nth_error (lines (mama_text1 comment stamp cal counts)) 8 = Some dim /\ numbers dim = map int [1; 0; Z.of_nat (length counts) - 1]%Z /\
    nth_error (lines (mama_text1 comment stamp cal counts)) 9 = Some chan /\ numbers chan = map int [0; Z.of_nat (length counts) - 1]%Z.
Proof.
  intros A B C D N1. unfold mama_text1. set (nx := (Z.of_nat (length counts) - 1)%Z). cbv zeta.
  destruct (file_lines (t "Spectrum") (t "1,0:" ++ fmt_4d nx) (t "0:" ++ fmt_4d nx) comment stamp cal (map (fun x => [x]) counts)) as (rest & ->); try assumption; try ol.
  { apply Forall_forall. intros r R. apply in_map_iff in R. destruct R as (x & <- & X). constructor; [now apply (proj1 (Forall_forall _ _) D)|constructor]. }
  cbn [nth_error app head_lines]. eexists _, _. split; [reflexivity|]. split; [reflexivity|]. split; [|split; [reflexivity|]].
  - change (t "!DIMENSION=" ++ (t "1,0:" ++ fmt_4d nx) ++ t " ") with (t "!DIMENSION" ++ "="%char :: t "1" ++ ","%char :: t "0" ++ ":"%char :: fmt_4d nx ++ t " ").
    rewrite !numbers_piece by (reflexivity || (apply fmt_4d_nosep) || (repeat constructor)). rewrite numbers_last by (apply Forall_app; split; [apply fmt_4d_nosep|repeat constructor]). change (t " ") with (spaces 1). rewrite parse_int by lia. reflexivity.
  - change (t "!CHANNEL=(" ++ (t "0:" ++ fmt_4d nx) ++ t ") ") with (t "!CHANNEL" ++ "="%char :: [] ++ "("%char :: t "0" ++ ":"%char :: fmt_4d nx ++ t ") "). change (t ") ") with (")"%char :: t " ").
    rewrite !numbers_piece by (reflexivity || (apply fmt_4d_nosep) || (repeat constructor)). rewrite !parse_int0 by lia. reflexivity.
Qed.
Print Assumptions mama_spectrum_header.
(* A comment with a line break makes the file unreadable (or, if it is composed to do so, replaces the calibration). *)
Definition ex_cal : list dec := [(1000000, -4); (1000000, -5); (0, -6); (2500000, -5); (1000000, -5); (0, -6)]%Z.
Definition ex_rows : list (list dec) := [[(100000000, -8); (-123456789, -6); (100000000, -7)]; [(0, -8); (999999999, 100); (100000000, 0)]]%Z.
Theorem mama_comment_refuted : exists comment stamp cal rows, one_line stamp /\ length cal = 6%nat /\ Forall (printable 6) cal /\ Forall (Forall (printable 8)) rows /\ (forall r, In r rows -> length r = 3%nat) /\
  mama_read_text (mama_text2 comment stamp cal 3 rows) = Raise ValueError.
Proof.
  exists (t "first" ++ [NL] ++ t "second"), (t "17-Nov-26 10:00:00"), ex_cal, ex_rows. split; [apply one_line_const; reflexivity|]. split; [reflexivity|]. split; [repeat constructor; unfold printable; cbn; lia|]. split; [repeat constructor; unfold printable; cbn; lia|]. split; [intros r [<-|[<-|[]]]; reflexivity|vm_compute; reflexivity].
Qed.
Print Assumptions mama_comment_refuted.
(* read_response never succeeds: mama_read returns two or three values, four are unpacked. *)
Theorem read_response_raises f : exists e, read_response_unpack f = Raise e.
Proof. unfold read_response_unpack. destruct (mama_read_text f) as [v|e]; eexists; reflexivity. Qed.
Print Assumptions read_response_raises.
Example mama_text_case : one_line (t "a, comment; # with characters") /\ Forall (printable 6) ex_cal /\ Forall (Forall (printable 8)) ex_rows /\ mama_read_text (mama_text2 (t "a, comment; # with characters") (t "now") ex_cal 3 ex_rows) = Ok (ex_cal, map (map Some) ex_rows).
Proof. split; [apply one_line_const; reflexivity|]. split; [repeat constructor; unfold printable; cbn; lia|]. split; [repeat constructor; unfold printable; cbn; lia|]. vm_compute. reflexivity. Qed.
