(* C124: the version strings, the working directory, builds with and without git, and the example data. *)
From Coq Require Import ZArith String Ascii List Bool Lia.
From Verif Require Import VersionModel.
Import ListNotations.
Local Open Scope list_scope.
Local Notation length := List.length (only parsing).

(* ---------------------------------------------------------------- specification *)
(* the text of a commit: not empty, printable, without blanks, quotes and backslashes *)
Definition commit_text (h : chars) : Prop :=
  h <> [] /\ forall c, In c h -> 32 < nat_of_ascii c < 127 /\ nat_of_ascii c <> 39 /\ nat_of_ascii c <> 92.
Definition newline : ascii := ascii_of_nat 10.
(* a part of a path that normalisation keeps *)
Definition kept (p : chars) : Prop := p <> [] /\ p <> str "." /\ p <> str "..".
Definition same_but_case (a b : chars) : Prop := Forall2 (fun x y => lower_char x = y) a b.

(* ---------------------------------------------------------------- helpers *)
Lemma chars_eqb_eq a b : chars_eqb a b = true <-> a = b.
Proof.
  revert b. induction a as [|x a IH]; intros [|y b]; cbn; split; try discriminate; try reflexivity.
  - intros H. apply andb_true_iff in H. destruct H as (E & H). apply Ascii.eqb_eq in E. apply IH in H. now subst.
  - intros H. injection H as -> ->. now rewrite Ascii.eqb_refl, (proj2 (IH b) eq_refl).
Qed.
Lemma chars_eqb_neq a b : a <> b -> chars_eqb a b = false.
Proof. intros N. destruct (chars_eqb a b) eqn:E; [|reflexivity]. apply chars_eqb_eq in E. contradiction. Qed.
Lemma lstrip_keep s c r : s = c :: r -> blank c = false -> lstrip s = s.
Proof. intros -> B. cbn. now rewrite B. Qed.
Lemma commit_strip h : commit_text h -> strip (h ++ [newline]) = h.
Proof.
  intros (N & C). unfold strip.
  assert (B : forall c, In c h -> blank c = false).
  { intros c I. destruct (C c I) as (L & _). unfold blank.
    destruct (Nat.eqb_spec (nat_of_ascii c) 32); [lia|]. destruct (Nat.leb_spec (nat_of_ascii c) 13); [lia|]. now rewrite Bool.andb_false_r. }
  destruct h as [|a h]; [contradiction|].
  rewrite (lstrip_keep ((a :: h) ++ [newline]) a (h ++ [newline]) eq_refl (B a (or_introl eq_refl))).
  rewrite rev_app_distr. cbn [rev app]. change (lstrip (newline :: rev h ++ [a])) with (lstrip (rev h ++ [a])).
  destruct (rev (a :: h)) as [|z q] eqn:E.
  - apply (f_equal (@rev ascii)) in E. rewrite rev_involutive in E. discriminate.
  - assert (Z : In z (a :: h)) by (apply in_rev; rewrite E; left; reflexivity).
    cbn [rev] in E. rewrite E. cbn [lstrip]. rewrite (B z Z). rewrite <- E. change (rev h ++ [a]) with (rev (a :: h)). apply rev_involutive.
Qed.
Lemma commit_decode h : commit_text h -> decode h = Good h.
Proof.
  intros (_ & C). unfold decode. replace (forallb _ h) with true; [reflexivity|]. symmetry. apply forallb_forall.
  intros c I. apply Nat.ltb_lt. pose proof (C c I). lia.
Qed.
Lemma commit_git h : commit_text h -> git_version (Printed (h ++ [newline])) = Good h.
Proof.
  intros C. unfold git_version. rewrite (commit_strip h C), (commit_decode h C). cbn [obind]. destruct h; [now destruct C|reflexivity].
Qed.
Lemma commit_plain h : commit_text h -> forallb plain h = true.
Proof.
  intros (_ & C). apply forallb_forall. intros c I. pose proof (C c I). unfold plain.
  destruct (Nat.eqb_spec (nat_of_ascii c) 39); [lia|]. destruct (Nat.eqb_spec (nat_of_ascii c) 92); [lia|].
  destruct (Nat.eqb_spec (nat_of_ascii c) 10); [lia|]. destruct (Nat.eqb_spec (nat_of_ascii c) 13); [lia|]. reflexivity.
Qed.
Lemma plain_full r : forallb plain r = true -> forallb plain (full_of VERSION r) = true.
Proof.
  intros P. unfold full_of. rewrite !forallb_app. change (forallb plain VERSION) with true. change (forallb plain (str ".dev0+")) with true. cbn [andb].
  apply forallb_forall. intros c I. apply (proj1 (forallb_forall _ _) P). rewrite <- (firstn_skipn 7 r). apply in_or_app. now left.
Qed.
Lemma git_version_cases g r : git_version g = Good r -> r <> [] /\ (r = str "Unknown" \/ exists out, g = Printed out /\ r = strip out).
Proof.
  unfold git_version. destruct g as [out| |]; cbn [obind].
  - unfold decode. destruct (forallb _ (strip out)); [|discriminate]. cbn [obind]. destruct (strip out) eqn:E; intros H; injection H as <-.
    + split; [discriminate|now left].
    + split; [discriminate|right; now exists out].
  - intros H; injection H as <-. split; [discriminate|now left].
  - intros H; injection H as <-. split; [discriminate|now left].
Qed.
Lemma version_lacks_name : existsb (chars_eqb (str "git_revision")) version_names = false.
Proof. reflexivity. Qed.

(* ---------------------------------------------------------------- importing the package *)
(* in a clone the version names the commit that git prints *)
Theorem import_in_clone : forall t cwd f h, t_file t = Some f -> run_vfile f = Good f -> t_git t = true ->
  t_ans t = Printed (h ++ [newline]) -> commit_text h ->
  import_version t cwd = (cwd, Good (f_version f, f_version f ++ str ".dev0+" ++ firstn 7 h, h)).
Proof.
  intros t cwd f h F R G A C. unfold import_version. rewrite F, R, G, A, (commit_git h C). reflexivity.
Qed.
Print Assumptions import_in_clone.
Definition hash : chars := str "0123456789abcdef0123456789abcdef01234567".
Definition a_file : vfile := {| f_version := VERSION; f_full := full_of VERSION hash; f_rev := hash |}.
Lemma hash_commit : commit_text hash.
Proof. split; [discriminate|]. intros c I. unfold hash in I. cbn in I. repeat (destruct I as [<-|I]; [cbn; lia|]). destruct I. Qed.
Example clone_case : import_version {| t_dir := 3; t_git := true; t_ans := Printed (hash ++ [newline]); t_named := true; t_file := Some a_file |} 7
  = (7, Good (str "1.1.0", str "1.1.0.dev0+0123456", hash)).
Proof. reflexivity. Qed.
(* an installed package, with no .git beside it, names the commit it was built from *)
Theorem import_installed : forall t cwd f, t_file t = Some f -> run_vfile f = Good f -> t_git t = false -> t_named t = true ->
  import_version t cwd = (cwd, Good (f_version f, f_version f ++ str ".dev0+" ++ firstn 7 (f_rev f), f_rev f)).
Proof. intros t cwd f F R G N. unfold import_version. rewrite F, R, G, N. reflexivity. Qed.
Print Assumptions import_installed.
Example installed_case : import_version {| t_dir := 3; t_git := false; t_ans := NoGit; t_named := true; t_file := Some a_file |} 7
  = (7, Good (str "1.1.0", str "1.1.0.dev0+0123456", hash)).
Proof. reflexivity. Qed.
(* a working git is not needed, but then the commit of the build is forgotten as well *)
Theorem import_git_fails : forall t cwd f, t_file t = Some f -> run_vfile f = Good f -> t_git t = true ->
  t_ans t = Failed \/ t_ans t = NoGit ->
  import_version t cwd = (cwd, Good (f_version f, f_version f ++ str ".dev0+Unknown", str "Unknown")).
Proof. intros t cwd f F R G [A|A]; unfold import_version; rewrite F, R, G, A; reflexivity. Qed.
Print Assumptions import_git_fails.
(* before the first build the package cannot be imported *)
Theorem import_before_build : forall t cwd, t_file t = None -> import_version t cwd = (cwd, Bad ImportFault).
Proof. intros t cwd F. unfold import_version. now rewrite F. Qed.
Print Assumptions import_before_build.
(* a successful import leaves the working directory, and the full version is made of the other two *)
Theorem import_version_partial : forall t cwd d v f r, import_version t cwd = (d, Good (v, f, r)) ->
  d = cwd /\ f = v ++ str ".dev0+" ++ firstn 7 r /\ (t_git t = true -> r <> []).
Proof.
  intros t cwd d v f r. unfold import_version. destruct (t_file t) as [m|]; [|discriminate]. unfold run_vfile.
  destruct (_ && _ && _); [|discriminate]. destruct (t_git t).
  - destruct (git_version (t_ans t)) as [x|e] eqn:G; [|discriminate]. intros H. injection H as <- <- <- <-. repeat split. intros _. exact (proj1 (git_version_cases _ _ G)).
  - destruct (t_named t); intros H; injection H as <- <- <- <-; repeat split; discriminate.
Qed.
Print Assumptions import_version_partial.
(* an import that fails may leave the process in another directory: exactly when git printed a byte above 127 *)
Theorem import_directory : forall t cwd, t_dir t <> cwd ->
  fst (import_version t cwd) <> cwd <->
  (exists f, t_file t = Some f /\ run_vfile f = Good f) /\ t_git t = true /\
  exists out, t_ans t = Printed out /\ exists c, In c (strip out) /\ 128 <= nat_of_ascii c.
Proof.
  intros t cwd D. unfold import_version. destruct (t_file t) as [f|].
  2:{ cbn [fst]. split; [intros N; now contradiction N|intros ((f & E & _) & _); discriminate]. }
  assert (R : run_vfile f = Good f \/ run_vfile f = Bad SyntaxFault) by (unfold run_vfile; destruct (_ && _ && _); auto).
  destruct R as [R|R]; rewrite R.
  2:{ cbn [fst]. split; [intros N; now contradiction N|]. intros ((f' & E & R') & _). injection E as <-. rewrite R in R'. discriminate. }
  destruct (t_git t).
  2:{ destruct (t_named t); cbn [fst]; (split; [intros N; now contradiction N|intros (_ & A & _); discriminate]). }
  unfold git_version. destruct (t_ans t) as [out| |].
  2,3: cbn [obind str list_ascii_of_string fst]; (split; [intros N; now contradiction N|intros (_ & _ & out & A & _); discriminate]).
  unfold decode. destruct (forallb _ (strip out)) eqn:B.
  - cbn [obind]. assert (E : forall x : chars, fst (match match x with [] => Good (str "Unknown") | _ => Good x end with Good r => (cwd, Good (f_version f, full_of (f_version f) r, r)) | Bad e => (t_dir t, Bad e) end) = cwd) by (intros [|? ?]; reflexivity).
    rewrite E. split; [intros N; now contradiction N|]. intros (_ & _ & o & A & c & I & L). injection A as <-.
    apply (proj1 (forallb_forall _ _) B) in I. apply Nat.ltb_lt in I. lia.
  - cbn [obind fst]. split; [|intros _; exact D]. intros _. split; [exists f; now split|]. split; [reflexivity|]. exists out. split; [reflexivity|].
    clear -B. induction (strip out) as [|c s IH]; [discriminate|]. cbn [forallb] in B. apply andb_false_iff in B. destruct B as [B|B].
    + exists c. split; [now left|]. apply Nat.ltb_ge in B. exact B.
    + destruct (IH B) as (z & I & L). exists z. split; [now right|exact L].
Qed.
Print Assumptions import_directory.
(* "importing the package never changes the working directory" is false *)
Theorem import_version_refuted : exists t cwd, fst (import_version t cwd) <> cwd /\ snd (import_version t cwd) = Bad DecodeFault.
Proof.
  exists {| t_dir := 3; t_git := true; t_ans := Printed (ascii_of_nat 195 :: hash); t_named := true; t_file := Some a_file |}, 7.
  split; [vm_compute; discriminate|reflexivity].
Qed.
Print Assumptions import_version_refuted.

(* ---------------------------------------------------------------- building the package *)
Lemma setup_git t r : t_git t = true -> git_version (t_ans t) = Good r -> setup_version_info t = Good (full_of VERSION r, r).
Proof. intros G A. unfold setup_version_info. now rewrite G, A. Qed.
(* in a clone: the build succeeds, and the version of the distribution is the one the package reports afterwards, in the
   clone and wherever the package is copied; any earlier version file is replaced *)
Theorem build_in_clone : forall t h env darwin found omp, t_git t = true -> t_named t = true -> t_ans t = Printed (h ++ [newline]) -> commit_text h ->
  openmp_switch env darwin found = Good omp ->
  exists t', run_setup t env darwin found = (t', Good (str "1.1.0.dev0+" ++ firstn 7 h, ext_args omp darwin)) /\
    (forall cwd, import_version t' cwd = (cwd, Good (str "1.1.0", str "1.1.0.dev0+" ++ firstn 7 h, h))) /\
    (forall cwd dir, import_version {| t_dir := dir; t_git := false; t_ans := NoGit; t_named := true; t_file := t_file t' |} cwd
       = (cwd, Good (str "1.1.0", str "1.1.0.dev0+" ++ firstn 7 h, h))).
Proof.
  intros t h env darwin found omp G N A C O. pose proof (commit_git h C) as V. pose proof V as V'. rewrite <- A in V'.
  unfold run_setup, write_version. rewrite (setup_git t h G V'), N. cbn [negb]. eexists. split.
  - rewrite O. cbn [obind]. rewrite (setup_git _ h); [reflexivity|exact G|exact V'].
  - assert (R : run_vfile {| f_version := VERSION; f_full := full_of VERSION h; f_rev := h |} = Good {| f_version := VERSION; f_full := full_of VERSION h; f_rev := h |}).
    { unfold run_vfile. cbn [f_version f_full f_rev]. now rewrite (commit_plain h C), (plain_full h (commit_plain h C)). }
    split; intros; unfold import_version; cbn [t_file t_git t_named t_ans t_dir]; rewrite R, ?G, ?V'; reflexivity.
Qed.
Print Assumptions build_in_clone.
Definition fresh_clone : tree := {| t_dir := 3; t_git := true; t_ans := Printed (hash ++ [newline]); t_named := true; t_file := None |}.
Example build_case : snd (run_setup fresh_clone None false false) = Good (str "1.1.0.dev0+0123456", (map str ["-O3"; "-ffast-math"; "-fopenmp"; "-march=native"]%string, [str "-fopenmp"])).
Proof. reflexivity. Qed.
(* without .git, as in an unpacked archive of a release, no build succeeds, neither the first nor any later one *)
Theorem build_without_git_refuted : forall t env darwin found, t_git t = false -> exists e, snd (run_setup t env darwin found) = Bad e.
Proof.
  intros t env darwin found G. unfold run_setup, write_version. destruct (setup_version_info t) as [[f r]|e] eqn:S; [|now exists e].
  destruct (t_named t) eqn:N; cbn [negb snd]; [|now exists OSFault].
  destruct (openmp_switch env darwin found) as [omp|e]; [|now exists e]. cbn [obind].
  unfold setup_version_info. cbn [t_git t_file t_named]. rewrite G.
  set (T := {| t_dir := t_dir t; t_git := _ |}). destruct (snd (import_version T (t_dir T))) as [[[a b] c]|e] eqn:I; rewrite ?I; [|now exists e].
  rewrite version_lacks_name. now exists ImportFault.
Qed.
Print Assumptions build_without_git_refuted.
(* with the documented settings the error is an ImportError, and the first attempt leaves a version file of commit "Unknown" *)
Theorem build_without_git_first : forall t env darwin found omp, t_git t = false -> t_named t = true -> t_file t = None ->
  openmp_switch env darwin found = Good omp ->
  exists t', run_setup t env darwin found = (t', Bad ImportFault) /\
    t_file t' = Some {| f_version := str "1.1.0"; f_full := str "1.1.0.dev0+Unknown"; f_rev := str "Unknown" |}.
Proof.
  intros t env darwin found omp G N F O. unfold run_setup, write_version, setup_version_info. rewrite G, F, N. cbn [obind negb].
  eexists. split; [rewrite O; reflexivity|reflexivity].
Qed.
Print Assumptions build_without_git_first.
Theorem build_without_git_again : forall t f env darwin found, t_git t = false -> t_named t = true -> t_file t = Some f ->
  run_vfile f = Good f -> run_setup t env darwin found = (t, Bad ImportFault).
Proof.
  intros t f env darwin found G N F R. unfold run_setup, write_version, setup_version_info. rewrite G, F, N. unfold import_version. rewrite F, R, G, N. reflexivity.
Qed.
Print Assumptions build_without_git_again.
Definition archive : tree := {| t_dir := 3; t_git := false; t_ans := Failed; t_named := true; t_file := None |}.
Example archive_case : snd (run_setup archive None false false) = Bad ImportFault /\ snd (run_setup (fst (run_setup archive None false false)) None false false) = Bad ImportFault.
Proof. split; reflexivity. Qed.
(* standard error is captured together with the output: a warning of git before the commit gets into the version, and as the
   version file then has a string over several lines, the package that was built can no longer be imported *)
Theorem build_warning_refuted : forall t out r env darwin found omp cwd, t_git t = true -> t_named t = true -> t_ans t = Printed out ->
  git_version (Printed out) = Good r -> In newline r -> openmp_switch env darwin found = Good omp ->
  exists t', run_setup t env darwin found = (t', Good (str "1.1.0.dev0+" ++ firstn 7 r, ext_args omp darwin)) /\ import_version t' cwd = (cwd, Bad SyntaxFault).
Proof.
  intros t out r env darwin found omp cwd G N A V I O. rewrite <- A in V.
  unfold run_setup, write_version. rewrite (setup_git t r G V), N. cbn [negb]. eexists. split.
  - rewrite O. cbn [obind]. rewrite (setup_git _ r); [reflexivity|exact G|exact V].
  - unfold import_version, run_vfile. cbn [t_file f_version f_full f_rev].
    replace (forallb plain r) with false; [rewrite Bool.andb_false_r; reflexivity|]. symmetry. destruct (forallb plain r) eqn:P; [|reflexivity].
    apply (proj1 (forallb_forall _ _) P) in I. discriminate.
Qed.
Print Assumptions build_warning_refuted.
Definition warned : chars := str "warning: refname HEAD is ambiguous." ++ newline :: hash ++ [newline].
Example warning_case : let t := {| t_dir := 3; t_git := true; t_ans := Printed warned; t_named := true; t_file := None |} in
  (exists r, git_version (Printed warned) = Good r /\ In newline r) /\ option_map f_full (t_file (fst (run_setup t None false false))) = Some (str "1.1.0.dev0+warning").
Proof. split; [eexists; split; [reflexivity|vm_compute; repeat (first [left; reflexivity|right])]|reflexivity]. Qed.

(* ---------------------------------------------------------------- OpenMP *)
Theorem openmp_choice : forall env darwin found b, openmp_switch env darwin found = Good b <->
  match env with
  | None => b = (if darwin then found else true)
  | Some v => (b = true /\ (v = str "True" \/ v = str "true")) \/ (b = false /\ (v = str "False" \/ v = str "false"))
  end.
Proof.
  intros [v|] darwin found b; cbn [openmp_switch].
  - cbn [map existsb]. rewrite !Bool.orb_false_r.
    destruct (chars_eqb v (str "True")) eqn:A; [apply chars_eqb_eq in A; subst; cbn [orb]; split; [intros H; injection H as <-; auto|intros [(-> & _)|(_ & [E|E])]; [reflexivity|discriminate|discriminate]]|].
    destruct (chars_eqb v (str "true")) eqn:B; [apply chars_eqb_eq in B; subst; cbn [orb]; split; [intros H; injection H as <-; auto|intros [(-> & _)|(_ & [E|E])]; [reflexivity|discriminate|discriminate]]|].
    destruct (chars_eqb v (str "False")) eqn:C; [apply chars_eqb_eq in C; subst; cbn [orb]; split; [intros H; injection H as <-; auto|intros [(_ & [E|E])|(-> & _)]; [discriminate|discriminate|reflexivity]]|].
    destruct (chars_eqb v (str "false")) eqn:D; [apply chars_eqb_eq in D; subst; cbn [orb]; split; [intros H; injection H as <-; auto|intros [(_ & [E|E])|(-> & _)]; [discriminate|discriminate|reflexivity]]|].
    cbn [orb]. split; [discriminate|]. intros [(_ & [-> | ->])|(_ & [-> | ->])]; discriminate.
  - destruct darwin; split; intros H; congruence.
Qed.
Print Assumptions openmp_choice.
Example openmp_cases : openmp_switch (Some (str "false")) false true = Good false /\ openmp_switch (Some (str "FALSE")) false true = Bad ValueFault /\ openmp_switch None true false = Good false.
Proof. repeat split. Qed.
(* the compiler gets -fopenmp exactly with OpenMP outside of Darwin; the other arguments keep their order in every case *)
Theorem openmp_arguments : forall omp darwin, (In (str "-fopenmp") (fst (ext_args omp darwin)) <-> omp = true /\ darwin = false) /\
  filter (fun a => existsb (chars_eqb a) (map str ["-O3"; "-ffast-math"; "-march=native"]%string)) (fst (ext_args omp darwin)) = map str ["-O3"; "-ffast-math"; "-march=native"]%string /\
  snd (ext_args omp darwin) = (if omp then [str (if darwin then "-lomp" else "-fopenmp")] else []).
Proof.
  intros [] []; (split; [|split; reflexivity]); cbn; split; intros H;
    repeat match goal with | H : _ \/ _ |- _ => destruct H | H : _ /\ _ |- _ => destruct H | H : False |- _ => destruct H end; try discriminate; auto.
Qed.
Print Assumptions openmp_arguments.

(* ---------------------------------------------------------------- example data *)
Lemma norm_kept l : Forall kept l -> forall acc rest, norm_go acc (l ++ rest) = norm_go (rev l ++ acc) rest.
Proof.
  intros K. induction K as [|p l (A & B & C) K IH]; intros acc rest; [reflexivity|]. cbn [app norm_go rev].
  rewrite (chars_eqb_neq p [] A), (chars_eqb_neq p _ B), (chars_eqb_neq p _ C). cbn [orb]. rewrite IH, <- app_assoc. reflexivity.
Qed.
Lemma path_of root a b : Forall kept root -> kept a -> kept b -> forall tail, Forall kept tail ->
  get_path (root ++ [a; b]) (str ".." :: str ".." :: tail) = root ++ tail.
Proof.
  intros R A B tail T. unfold get_path. rewrite norm_kept; [|apply Forall_app; split; [exact R|repeat constructor; apply A || apply B]].
  rewrite rev_app_distr. cbn [rev app]. change (norm_go (b :: a :: rev root ++ []) (str ".." :: str ".." :: tail)) with (norm_go (rev root ++ []) tail).
  rewrite app_nil_r. rewrite <- (app_nil_r tail) at 1. rewrite norm_kept by exact T. cbn [norm_go]. now rewrite rev_app_distr, !rev_involutive.
Qed.
Lemma kept_str s : kept (str s) \/ s = ""%string \/ s = "."%string \/ s = ".."%string.
Proof.
  destruct (string_dec s ""); [auto|]. destruct (string_dec s "."); [auto|]. destruct (string_dec s ".."); [auto|]. left.
  unfold kept, str. repeat split; intros E.
  - destruct s; [contradiction|discriminate].
  - apply (f_equal string_of_list_ascii) in E. rewrite !string_of_list_ascii_of_string in E. contradiction.
  - apply (f_equal string_of_list_ascii) in E. rewrite !string_of_list_ascii_of_string in E. contradiction.
Qed.
(* the path of the example with that name, in any case of the letters: a file of the directory beside the package *)
Theorem example_raw_path : forall root name, Forall kept root ->
  let datapath := root ++ map str ["ompy"; "examples.py"]%string in
  (lower name = str "dy164" -> example_raw datapath name = Good (root ++ map str ["example_data"; "Dy164_raw.m"]%string)) /\
  (lower name = str "si28" -> example_raw datapath name = Good (root ++ map str ["example_data"; "Si28_raw_matrix_compressed.m"]%string)) /\
  (~ In (lower name) list_examples -> example_raw datapath name = Bad KeyFault).
Proof.
  intros root name R. cbv zeta. unfold example_raw, example. repeat split.
  - intros ->.
    change (lookup EXAMPLES (str "dy164")) with (Good [(str "raw", map str [".."; ".."; "example_data"; "Dy164_raw.m"]%string)]). cbn [obind].
    change (lookup [(str "raw", map str [".."; ".."; "example_data"; "Dy164_raw.m"]%string)] (str "raw")) with (Good (map str [".."; ".."; "example_data"; "Dy164_raw.m"]%string)). cbn [obind map].
    f_equal. apply path_of; [exact R|repeat split; discriminate|repeat split; discriminate|repeat constructor; discriminate].
  - intros ->.
    change (lookup EXAMPLES (str "si28")) with (Good [(str "raw", map str [".."; ".."; "example_data"; "Si28_raw_matrix_compressed.m"]%string)]). cbn [obind].
    change (lookup [(str "raw", map str [".."; ".."; "example_data"; "Si28_raw_matrix_compressed.m"]%string)] (str "raw")) with (Good (map str [".."; ".."; "example_data"; "Si28_raw_matrix_compressed.m"]%string)). cbn [obind map].
    f_equal. apply path_of; [exact R|repeat split; discriminate|repeat split; discriminate|repeat constructor; discriminate].
  - intros N. unfold EXAMPLES. cbn [lookup].
    rewrite (chars_eqb_neq (lower name) (str "dy164")) by (intros E; apply N; rewrite E; now left).
    rewrite (chars_eqb_neq (lower name) (str "si28")) by (intros E; apply N; rewrite E; right; now left). reflexivity.
Qed.
Print Assumptions example_raw_path.
Example example_case : example_raw (map str ["home"; "u"; "ompy"; "ompy"; "examples.py"]%string) (str "Dy164")
  = Good (map str ["home"; "u"; "ompy"; "example_data"; "Dy164_raw.m"]%string).
Proof. reflexivity. Qed.
(* every name of list_examples is accepted, also in capitals *)
Theorem listed_examples_load : forall root name n, Forall kept root -> In n list_examples -> lower name = n ->
  exists f, example_raw (root ++ map str ["ompy"; "examples.py"]%string) name = Good (root ++ [str "example_data"; f]).
Proof.
  intros root name n R I E. destruct (example_raw_path root name R) as (A & B & _). destruct I as [<-|[<-|[]]].
  - eexists. exact (A E).
  - eexists. exact (B E).
Qed.
Print Assumptions listed_examples_load.
(* lowering: the 26 capitals, and nothing else *)
Theorem lower_alphabet : lower (str "ABCDEFGHIJKLMNOPQRSTUVWXYZ") = str "abcdefghijklmnopqrstuvwxyz" /\
  forall c, ~ In c (str "ABCDEFGHIJKLMNOPQRSTUVWXYZ") -> lower_char c = c.
Proof.
  split; [reflexivity|]. intros c N. destruct c as [[] [] [] [] [] [] [] []]; try reflexivity; exfalso; apply N; vm_compute; repeat (first [left; reflexivity|right]).
Qed.
Print Assumptions lower_alphabet.
(* no response of an example can be loaded *)
Theorem example_response_refuted : forall datapath name, example_response datapath name = Bad KeyFault.
Proof.
  intros d name. unfold example_response, example, EXAMPLES. cbn [lookup]. destruct (chars_eqb _ _); [reflexivity|]. destruct (chars_eqb _ _); reflexivity.
Qed.
Print Assumptions example_response_refuted.
(* the mock matrix: row r is empty when r is even and holds r ones, cut at the width, when it is odd *)
Theorem disjoint_rows_shape : forall rows cols, length (disjoint_rows rows cols) = rows /\
  forall r, r < rows -> nth_error (disjoint_rows rows cols) r =
    Some (if Nat.odd r then repeat 1%Z (Nat.min r cols) ++ repeat 0%Z (cols - r) else repeat 0%Z cols).
Proof.
  intros rows cols. unfold disjoint_rows. split; [now rewrite map_length, seq_length|]. intros r L.
  erewrite map_nth_error; [|rewrite (nth_error_nth' _ 0) by (rewrite seq_length; exact L); rewrite seq_nth by exact L; reflexivity]. cbn [Nat.add]. f_equal.
  destruct (Nat.odd r); cbn [andb].
  - assert (H : forall k s, map (fun col => if Nat.ltb col r then 1%Z else 0%Z) (seq s k) = repeat 1%Z (Nat.min (r - s) k) ++ repeat 0%Z (k - (r - s))).
    { clear. induction k as [|k IH]; intros s; [now rewrite Nat.min_0_r|]. cbn [seq map]. rewrite IH. destruct (Nat.ltb_spec s r).
      - replace (r - s) with (S (r - S s)) by lia. reflexivity.
      - replace (r - s) with 0 by lia. replace (r - S s) with 0 by lia. cbn. now rewrite Nat.sub_0_r. }
    rewrite H, Nat.sub_0_r. reflexivity.
  - clear. generalize 0. induction cols as [|k IH]; intros s; [reflexivity|]. cbn [seq map repeat]. now rewrite IH.
Qed.
Print Assumptions disjoint_rows_shape.
Example disjoint_case : disjoint_rows 5 6 = [[0;0;0;0;0;0]; [1;0;0;0;0;0]; [0;0;0;0;0;0]; [1;1;1;0;0;0]; [0;0;0;0;0;0]]%Z.
Proof. reflexivity. Qed.
(* the picture in the documentation, rows of five, three and one ones with empty rows between, is not what is made, also not upside down *)
Definition documented : list (list Z) := [[1;1;1;1;1;0]; [0;0;0;0;0;0]; [1;1;1;0;0;0]; [0;0;0;0;0;0]; [1;0;0;0;0;0]]%Z.
Theorem disjoint_rows_documented_refuted : disjoint_rows 5 6 <> documented /\ disjoint_rows 5 6 <> rev documented.
Proof. split; discriminate. Qed.
Print Assumptions disjoint_rows_documented_refuted.
