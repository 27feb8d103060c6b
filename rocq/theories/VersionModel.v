(* ompy/version.py, the version part and the OpenMP switch of setup.py, ompy/examples.py.
   Simplifications: the commands and the file system are values (the answer of git, which files exist);
   strings are lists of ASCII characters; a directory is an opaque name. *)
From Coq Require Import ZArith String Ascii List Bool.
Import ListNotations.
Local Open Scope list_scope.
Local Notation length := List.length (only parsing).
Definition chars := list ascii.
Definition str (s : string) : chars := list_ascii_of_string s.
Fixpoint chars_eqb (a b : chars) : bool :=
  match a, b with [], [] => true | x :: a', y :: b' => Ascii.eqb x y && chars_eqb a' b' | _, _ => false end.
(* the exceptions of these files; the ones of PyBase have no ImportError *)
Inductive fault := ImportFault | SyntaxFault | DecodeFault | KeyFault | ValueFault | OSFault.
Inductive outcome (A : Type) := Good (a : A) | Bad (f : fault).
Arguments Good {A} a.
Arguments Bad {A} f.
Definition obind {A B} (x : outcome A) (k : A -> outcome B) : outcome B := match x with Good a => k a | Bad f => Bad f end.

(* ---------------------------------------------------------------- git_version *)
(* subprocess.check_output(['git','rev-parse','HEAD'], stderr=STDOUT): what git printed on both streams, a non-zero
   exit (SubprocessError), or no program at all (OSError); version.py:20, setup.py:42 *)
Inductive gitres := Printed (out : chars) | Failed | NoGit.
(* bytes.strip(): space, \t \n \v \f \r *)
Definition blank (c : ascii) : bool := let n := nat_of_ascii c in Nat.eqb n 32 || (Nat.leb 9 n && Nat.leb n 13).
Fixpoint lstrip (s : chars) : chars := match s with [] => [] | c :: r => if blank c then lstrip r else s end.
Definition strip (s : chars) : chars := rev (lstrip (rev (lstrip s))).
(* .decode('ascii'): UnicodeDecodeError for a byte above 127; it is a ValueError and not caught by the except *)
Definition decode (s : chars) : outcome chars := if forallb (fun c => Nat.ltb (nat_of_ascii c) 128) s then Good s else Bad DecodeFault.
(* git_version (version.py:10-34, setup.py:32-57, the same text) *)
Definition git_version (g : gitres) : outcome chars :=
  obind (match g with Printed out => decode (strip out) | Failed | NoGit => Good (str "Unknown") end)
        (fun r => match r with [] => Good (str "Unknown") | _ => Good r end).

(* ---------------------------------------------------------------- version_setup.py *)
(* MAJOR, MINOR, MICRO and their format (setup.py:23-26) *)
Definition VERSION : chars := str "1.1.0".
(* FULLVERSION += '.dev0+' + GIT_REVISION[:7] (version.py:62, setup.py:84) *)
Definition full_of (version rev : chars) : chars := version ++ str ".dev0+" ++ firstn 7 rev.
(* the strings put between single quotes in ompy/version_setup.py (setup.py:89-105) *)
Record vfile := { f_version : chars; f_full : chars; f_rev : chars }.
(* a character that stands for itself between single quotes on one line *)
Definition plain (c : ascii) : bool := let n := nat_of_ascii c in negb (Nat.eqb n 39 || Nat.eqb n 92 || Nat.eqb n 10 || Nat.eqb n 13).
(* executing the generated file: the strings it was written from, or a SyntaxError. Simplified: a backslash counts as
   an error although some escapes would be read as other characters. *)
Definition run_vfile (f : vfile) : outcome vfile :=
  if forallb plain (f_version f) && forallb plain (f_full f) && forallb plain (f_rev f) then Good f else Bad SyntaxFault.

(* ---------------------------------------------------------------- version.py *)
(* where the package lies: t_git: '.git' exists beside the package; t_named: the package directory is called ompy, so that
   'ompy/version_setup.py' names the file; t_file: version_setup.py *)
Record tree := { t_dir : nat; t_git : bool; t_ans : gitres; t_named : bool; t_file : option vfile }.
(* importing ompy.version with the working directory cwd: the directory afterwards and VERSION, FULLVERSION,
   GIT_REVISION (version.py:6, 37-69). `from ompy.version_setup import git_revision` finds the module already
   executed by line 6 and the name the file defines, so its ImportError (version.py:55-58) cannot occur. *)
Definition import_version (t : tree) (cwd : nat) : nat * outcome (chars * chars * chars) :=
  match t_file t with
  | None => (cwd, Bad ImportFault)
  | Some f => match run_vfile f with
    | Bad e => (cwd, Bad e)
    | Good m =>
      let at_dir := t_dir t in
      match (if t_git t then git_version (t_ans t) else if t_named t then Good (f_rev m) else Good (str "Unknown")) with
      | Bad e => (at_dir, Bad e)
      | Good r => (cwd, Good (f_version m, full_of (f_version m) r, r))
      end
    end
  end.
(* the names ompy/version.py defines (version.py:3-6, 10, 37, 69) *)
Definition version_names : list chars := map str ["os"; "subprocess"; "pathlib"; "VERSION"; "git_version"; "get_version_info"; "FULLVERSION"; "GIT_REVISION"]%string.

(* ---------------------------------------------------------------- setup.py *)
(* get_version_info (setup.py:68-86), started in the directory of the tree. `from ompy.version import git_revision`:
   the module is executed and the name looked up; any failure that is an ImportError becomes the ImportError of line 79 *)
Definition setup_version_info (t : tree) : outcome (chars * chars) :=
  obind (if t_git t then git_version (t_ans t)
         else match t_file t with
              | Some _ => if t_named t then
                            match snd (import_version t (t_dir t)) with
                            | Bad e => Bad e
                            | Good (_, _, r) => if existsb (chars_eqb (str "git_revision")) version_names then Good r else Bad ImportFault
                            end
                          else Good (str "Unknown")
              | None => Good (str "Unknown")
              end)
        (fun r => Good (full_of VERSION r, r)).
(* write_version_py (setup.py:88-107): opens a file below ompy/, which fails when no directory has that name *)
Definition write_version (t : tree) : tree * outcome unit :=
  match setup_version_info t with
  | Bad e => (t, Bad e)
  | Good (f, r) => if negb (t_named t) then (t, Bad OSFault) else ({| t_dir := t_dir t; t_git := t_git t; t_ans := t_ans t; t_named := t_named t;
                       t_file := Some {| f_version := VERSION; f_full := f; f_rev := r |} |}, Good tt)
  end.
(* the switch for OpenMP: the variable ompy_OpenMP, whether the system is Darwin, whether find_library finds omp (setup.py:110-129).
   On Darwin without the library the variable stays None, which is false in line 136. *)
Definition openmp_switch (env : option chars) (darwin found : bool) : outcome bool :=
  match env with
  | None => if darwin then Good found else Good true
  | Some v => if existsb (chars_eqb v) (map str ["True"; "true"]%string) then Good true
              else if existsb (chars_eqb v) (map str ["False"; "false"]%string) then Good false
              else Bad ValueFault
  end.
(* list.insert(-1, x) *)
Definition insert_last (l : list chars) (x : chars) : list chars := firstn (length l - 1) l ++ x :: skipn (length l - 1) l.
(* the arguments of the compiler and of the linker (setup.py:134-141) *)
Definition ext_args (openmp darwin : bool) : list chars * list chars :=
  let c := map str ["-O3"; "-ffast-math"; "-march=native"]%string in
  if openmp && darwin then (insert_last c (str "-Xpreprocessor -fopenmp"), insert_last [] (str "-lomp"))
  else if openmp then (insert_last c (str "-fopenmp"), insert_last [] (str "-fopenmp")) else (c, []).
(* the script up to the call of setup (setup.py:107-187): the tree afterwards, the version and the arguments *)
Definition run_setup (t : tree) (env : option chars) (darwin found : bool) : tree * outcome (chars * (list chars * list chars)) :=
  match write_version t with
  | (t1, Bad e) => (t1, Bad e)
  | (t1, Good _) =>
    (t1, obind (openmp_switch env darwin found) (fun omp => obind (setup_version_info t1) (fun v => Good (fst v, ext_args omp darwin))))
  end.

(* ---------------------------------------------------------------- examples.py *)
(* str.lower for ASCII *)
Definition lower_char (c : ascii) : ascii := let n := nat_of_ascii c in if Nat.leb 65 n && Nat.leb n 90 then ascii_of_nat (n + 32) else c.
Definition lower (s : chars) : chars := map lower_char s.
(* EXAMPLES: name, kind, the parts of the path between slashes (examples.py:6-10) *)
Definition EXAMPLES : list (chars * list (chars * list chars)) :=
  [(str "dy164", [(str "raw", map str [".."; ".."; "example_data"; "Dy164_raw.m"]%string)]);
   (str "si28", [(str "raw", map str [".."; ".."; "example_data"; "Si28_raw_matrix_compressed.m"]%string)])].
Fixpoint lookup {A} (d : list (chars * A)) (k : chars) : outcome A :=
  match d with [] => Bad KeyFault | (n, v) :: r => if chars_eqb k n then Good v else lookup r k end.
(* os.path.normpath on the parts of an absolute path: empty parts and "." vanish, ".." removes the part before it *)
Fixpoint norm_go (acc rest : list chars) : list chars :=
  match rest with
  | [] => rev acc
  | p :: r => if chars_eqb p [] || chars_eqb p (str ".") then norm_go acc r
              else if chars_eqb p (str "..") then norm_go (tl acc) r else norm_go (p :: acc) r
  end.
(* get_path (examples.py:14-15): abspath of the join of DATAPATH, the absolute path of examples.py itself, with a relative path *)
Definition get_path (datapath path : list chars) : list chars := norm_go [] (datapath ++ path).
(* list_examples (examples.py:18-20) *)
Definition list_examples : list chars := map fst EXAMPLES.
(* example_raw, example_response (examples.py:23-33): the path handed to Matrix(path=...) *)
Definition example (kind : chars) (datapath : list chars) (name : chars) : outcome (list chars) :=
  obind (lookup EXAMPLES (lower name)) (fun d => obind (lookup d kind) (fun p => Good (get_path datapath p))).
Definition example_raw : list chars -> chars -> outcome (list chars) := example (str "raw").
Definition example_response : list chars -> chars -> outcome (list chars) := example (str "response").
(* disjoint_rows (examples.py:36-57): the values of the matrix *)
Definition disjoint_rows (rows cols : nat) : list (list Z) :=
  map (fun row => map (fun col => if Nat.odd row && Nat.ltb col row then 1%Z else 0%Z) (seq 0 cols)) (seq 0 rows).
