(* Model of ompy/filehandling.py and of save/load of Matrix (matrix.py:179-259) and Vector
   (vector.py:161-262).

   A file system is a partial function from absolute paths to file contents.  Saving is a
   list of file operations together with an outcome, so that every crash point is a prefix
   of that list; writing a file first truncates it.  Contents are what the formats store,
   not bytes: numpy arrays, a text table of numbers, csv columns, tar members, MaMa
   calibration and counts.  Number formatting: %.18e (savetxt) and repr (csv) are taken to
   be exact; %12.6E and %-17.8E (MaMa) are the variables rd6 and rd8.
   Simplified: directories always exist, paths are normalised as pathlib does, keyword
   arguments for savetxt/to_csv keep their defaults; a file of the wrong kind (or a
   truncated one) raises ValueError when loaded. *)
From Coq Require Import String Ascii Decimal.
From Verif Require Import PyBase Axis RebinModel MatrixModel VectorModel.
Local Open Scope list_scope.
Local Notation length := List.length (only parsing).

Notation path := (list ascii).
Definition pth (s : string) : path := list_ascii_of_string s.

Fixpoint peqb (p q : path) : bool :=
  match p, q with
  | [], [] => true
  | a :: p', b :: q' => Ascii.eqb a b && peqb p' q'
  | _, _ => false
  end.
(* everything before the first c, and the rest starting at c *)
Fixpoint break (c : ascii) (p : path) : path * path :=
  match p with
  | [] => ([], [])
  | a :: t => if Ascii.eqb a c then ([], p) else let (x, y) := break c t in (a :: x, y)
  end.
(* pathlib: name is the last component; suffix is name[i:] for i = name.rfind('.') if
   0 < i < len(name)-1, else '' *)
Definition name (p : path) : path := rev (fst (break "/" (rev p))).
Definition suffix (p : path) : path :=
  match break "." (rev (name p)) with
  | ((_ :: _) as e, d :: _ :: _) => rev (e ++ [d])
  | _ => []
  end.
(* filehandling.py:225 str(path)[:-len(path.suffix)]; s[:-0] is the empty string *)
Definition drop_suffix (p : path) : path :=
  match length (suffix p) with O => [] | n => firstn (length p - n) p end.
Definition lower (c : ascii) : ascii :=
  let n := nat_of_ascii c in if ((65 <=? n) && (n <=? 90))%nat then ascii_of_nat (n + 32) else c.
(* str(num) *)
Fixpoint digits (u : uint) : path :=
  match u with
  | Nil => [] | D0 u => "0" :: digits u | D1 u => "1" :: digits u | D2 u => "2" :: digits u
  | D3 u => "3" :: digits u | D4 u => "4" :: digits u | D5 u => "5" :: digits u
  | D6 u => "6" :: digits u | D7 u => "7" :: digits u | D8 u => "8" :: digits u | D9 u => "9" :: digits u
  end%char.
Definition str_nat (n : nat) : path := digits (Nat.to_uint n).

(* numpy arrays of one and two dimensions *)
Inductive npy := N1 (l : list Qc) | N2 (a : arr2).
Inductive file :=
| FTorn                                                          (* written incompletely *)
| FNpy (x : npy)
| FTxt (a : arr2)
| FCsv (E values : list Qc) (sd : option (list Qc))
| FTar (members : list (path * npy))
| FMama1 (cal : Qc * Qc * Qc) (counts : list Qc)
| FMama2 (calx caly : Qc * Qc * Qc) (counts : arr2)
| FOther (what : nat).                                           (* anything else *)
Definition fs : Type := path -> option file.
Inductive op := Put (p : path) (f : file) | Del (p : path).
Definition exec1 (d : fs) (o : op) : fs :=
  match o with
  | Put p f => fun q => if peqb q p then Some f else d q
  | Del p => fun q => if peqb q p then None else d q
  end.
Definition exec (ops : list op) (d : fs) : fs := fold_left exec1 ops d.

Inductive ftype := TNumpy | TTxt | TTar | TMama | TCsv | TUnknown.
(* filehandling.py:359-372 *)
Definition filetype_from_suffix (p : path) : ftype :=
  let s := suffix p in
  if peqb s (pth ".tar") then TTar else if peqb s (pth ".npy") then TNumpy
  else if peqb s (pth ".txt") then TTxt else if peqb s (pth ".m") then TMama
  else if peqb s (pth ".csv") then TCsv else TUnknown.
(* matrix.py:192-194, vector.py:188-190 *)
Definition filetype (p : path) (arg : option path) : ftype :=
  match arg with
  | None => filetype_from_suffix p
  | Some s =>
      let s := map lower s in
      if peqb s (pth "numpy") then TNumpy else if peqb s (pth "txt") then TTxt
      else if peqb s (pth "tar") then TTar else if peqb s (pth "mama") then TMama
      else if peqb s (pth "csv") then TCsv else TUnknown
  end.

Section Files.
Variable cwd : path.                 (* the current directory *)
Variable corner : Qc.                (* the uninitialised corner of np.empty *)
Variables rd6 rd8 : Qc -> Qc.        (* printing and reading with %12.6E and %-17.8E *)

Definition abs (p : path) : path := match p with "/"%char :: _ => p | _ => cwd ++ "/"%char :: p end.
Definition write (p : path) (f : file) : list op := [Put (abs p) FTorn; Put (abs p) f].
(* numpy.save appends .npy to names that do not end in it *)
Definition np_path (p : path) : path :=
  if peqb (skipn (length p - 4) p) (pth ".npy") then p else p ++ pth ".npy".
Definition np_save (p : path) (x : npy) : list op := write (np_path p) (FNpy x).
(* np.loadtxt: arrays with one row or one column come back one-dimensional *)
Definition squeeze (a : arr2) : npy :=
  match a_rows a with
  | [] => N1 []
  | [r] => N1 r
  | rows => if Nat.eqb (a_nc a) 1 then N1 (col rows 0) else N2 a
  end.

(* filehandling.py:215-229 save_tar *)
Definition tar_path (p : path) : path := if peqb (suffix p) (pth ".tar") then p else p ++ pth ".tar".
Definition tmp_path (p : path) (num : nat) : path := drop_suffix p ++ str_nat num ++ pth ".npy".
(* tarfile.add stores the name without leading slashes *)
Fixpoint lstrip (p : path) : path := match p with "/"%char :: t => lstrip t | _ => p end.
Fixpoint tar_members (p : path) (num : nat) (objs : list npy) : list op :=
  match objs with
  | [] => []
  | x :: t => np_save (tmp_path p num) x ++ [Del (abs (tmp_path p num))] ++ tar_members p (S num) t
  end.
Fixpoint tar_content (p : path) (num : nat) (objs : list npy) : list (path * npy) :=
  match objs with [] => [] | x :: t => (lstrip (tmp_path p num), x) :: tar_content p (S num) t end.
Definition save_tar (objs : list npy) (p : path) : list op :=
  [Put (abs (tar_path p)) FTorn] ++ tar_members p 0 objs ++ [Put (abs (tar_path p)) (FTar (tar_content p 0 objs))].
(* filehandling.py:232-244 load_tar: extract (into the current directory), load, unlink *)
Fixpoint extract_all (ms : list (path * npy)) : list op :=
  match ms with
  | [] => []
  | (n, x) :: t => [Put (abs n) (FNpy x); Del (abs n)] ++ extract_all t
  end.
Definition load_tar (d : fs) (p : path) : list op * result (list npy) :=
  match d (abs (tar_path p)) with
  | None => ([], Raise OSErr)
  | Some (FTar ms) => (extract_all ms, Ok (map snd ms))
  | Some _ => ([], Raise ValueError)
  end.

(* filehandling.py:247-259, 262-285: the array with axes in row and column 0.
   (numpy would also broadcast axes of length one; only met by inconsistent matrices.) *)
Definition framed (c : Qc) (v : arr2) (eg ex : list Qc) : result arr2 :=
  if (Nat.eqb (length eg) (a_nc v) && Nat.eqb (length ex) (a_nr v))%bool
  then Ok (mkArr (S (a_nc v)) ((c :: eg) :: map (fun p => fst p :: snd p) (combine ex (a_rows v))))
  else Raise ValueError.
Definition unframed (x : npy) : result (arr2 * list Qc * list Qc) :=
  match x with
  | N1 _ => Raise IndexError
  | N2 a => match a_nc a, a_rows a with
            | O, _ | _, [] => Raise IndexError
            | S nc, r :: t => Ok (mkArr nc (map (@tl Qc) t), tl r, col t 0)
            end
  end.
(* filehandling.py:301-308, 343-356 column_stack of E, values and std *)
Definition columns (E values : list Qc) (sd : option (list Qc)) : result arr2 :=
  match sd with
  | None => if Nat.eqb (length E) (length values)
            then Ok (mkArr 2 (tab (length E) (fun i => [vget E i; vget values i]))) else Raise ValueError
  | Some s => if (Nat.eqb (length E) (length values) && Nat.eqb (length E) (length s))%bool
              then Ok (mkArr 3 (tab (length E) (fun i => [vget E i; vget values i; vget s i]))) else Raise ValueError
  end.
(* filehandling.py:288-298, 335-345: (values, E, std) *)
Definition uncolumns (x : npy) : result (list Qc * list Qc * option (list Qc)) :=
  match x with
  | N1 _ => Raise IndexError
  | N2 a => if (a_nc a <? 2)%nat then Raise IndexError
            else Ok (col (a_rows a) 1, col (a_rows a) 0, if (3 <=? a_nc a)%nat then Some (col (a_rows a) 2) else None)
  end.

(* filehandling.py:85-129 mama_write1D: calibration of the first two energies *)
Definition mama_write1D (v : vector) (p : path) : list op * result unit :=
  if (8192 <? Z.of_nat (length (v_values v)))%Z then ([], Raise AssertionError)
  else match v_calibration v with
       | Raise e => ([], Raise e)
       | Ok (a0, a1) => (write p (FMama1 (rd6 a0, rd6 a1, rd6 0) (map rd8 (v_values v))), Ok tt)
       end.
(* filehandling.py:132-184 mama_write2D: x is Eg, y is Ex *)
Definition mama_write2D (m : matrix) (p : path) : list op * result unit :=
  if ((2048 <? Z.of_nat (a_nr (values m))) || (2048 <? Z.of_nat (a_nc (values m))))%Z%bool then ([], Raise AssertionError)
  else match calibration m with
       | Raise e => ([], Raise e)
       | Ok (x0, x1, g0, g1) =>
           (write p (FMama2 (rd6 g0, rd6 g1, rd6 0) (rd6 x0, rd6 x1, rd6 0) (amap rd8 (values m))), Ok tt)
       end.
(* filehandling.py:11-72 mama_read *)
Definition quadratic (c : Qc * Qc * Qc) (n : nat) : list Qc :=
  let '(a0, a1, a2) := c in tab n (fun i => a0 + a1 * qnat i + a2 * (qnat i * qnat i)).
Inductive mama := Mama1 (counts E : list Qc) | Mama2 (counts : arr2) (x y : list Qc).
Definition mama_read (d : fs) (p : path) : result mama :=
  match d (abs p) with
  | None => Raise OSErr
  | Some (FMama1 c l) => if (length l <=? 1)%nat then Raise IndexError else Ok (Mama1 l (quadratic c (length l)))
  | Some (FMama2 cx cy a) => if ((a_nr a <=? 1) || (a_nc a <=? 1))%nat%bool then Raise ValueError
                             else Ok (Mama2 a (quadratic cx (a_nc a)) (quadratic cy (a_nr a)))
  | Some _ => Raise ValueError
  end.
Definition np_load (d : fs) (p : path) : result npy :=
  match d (abs p) with None => Raise OSErr | Some (FNpy x) => Ok x | Some _ => Raise ValueError end.
Definition loadtxt (d : fs) (p : path) : result npy :=
  match d (abs p) with None => Raise OSErr | Some (FTxt a) => Ok (squeeze a) | Some _ => Raise ValueError end.

Definition written (r : result (list op)) : list op * result unit :=
  match r with Ok ops => (ops, Ok tt) | Raise e => ([], Raise e) end.

(* matrix.py:211-259 Matrix.save; which = 'values' or 'std' *)
Inductive which_t := WValues | WStd | WOther.
Definition save_matrix (m : matrix) (p : path) (ft : option path) (which : which_t) : list op * result unit :=
  match match which with
        | WValues => Ok (values m)
        | WStd => match std m with None => Raise RuntimeError | Some s => Ok s end
        | WOther => Raise NotImplementedErr
        end with
  | Raise e => ([], Raise e)
  | Ok v =>
      match filetype p ft with
      | TNumpy => written (rmap (fun a => np_save p (N2 a)) (framed corner v (Eg m) (Ex m)))
      | TTxt => written (rmap (fun a => write p (FTxt a)) (framed 0 v (Eg m) (Ex m)))
      | TTar => (save_tar [N2 v; N1 (Eg m); N1 (Ex m)] p, Ok tt)
      | TMama => mama_write2D m p
      | TCsv | TUnknown => ([], Raise ValueError)
      end
  end.
(* matrix.py:195-209: unpacking into values, Eg, Ex.  A 1-D MaMa file or a tar with other
   than three members raises ValueError on unpacking; arrays of the wrong dimension are
   not modelled (ValueError). *)
Definition read_matrix (d : fs) (p : path) (ft : option path) : list op * result (arr2 * list Qc * list Qc) :=
  match filetype p ft with
  | TNumpy => ([], do x <- np_load d p ;; unframed x)
  | TTxt => ([], do x <- loadtxt d p ;; unframed x)
  | TTar => match load_tar d p with
            | (ops, Ok [N2 v; N1 eg; N1 ex]) => (ops, Ok (v, eg, ex))
            | (ops, Ok _) => (ops, Raise ValueError)
            | (ops, Raise e) => (ops, Raise e)
            end
  | TMama | TCsv | TUnknown =>
      ([], do x <- mama_read d p ;; match x with Mama2 c eg ex => Ok (c, eg, ex) | Mama1 _ _ => Raise ValueError end)
  end.
(* the loading object m afterwards: std and state are not touched (matrix.py:195-209) *)
Definition load_matrix (d : fs) (m : matrix) (p : path) (ft : option path) : list op * (matrix * result unit) :=
  let (ops, r) := read_matrix d p ft in
  (ops, match r with
        | Raise e => (m, Raise e)
        | Ok (v, eg, ex) => let m' := mkM v eg ex (std m) (state m) in (m', verify_integrity m')
        end).

(* vector.py:161-218 Vector.save *)
Inductive units_arg := UKeV | UMeV | USame | UOther.
Definition convert (u : units_arg) (v : vector) : result vector :=
  match u with UKeV => to_keV v | UMeV => to_MeV v | USame => Ok v | UOther => Raise NotImplementedErr end.
Definition save_vector (v : vector) (p : path) (ft : option path) (u : units_arg) : list op * result unit :=
  match convert u v with
  | Raise e => ([], Raise e)
  | Ok w =>
      match filetype p ft with
      | TNumpy => written (rmap (fun a => np_save p (N2 a)) (columns (v_E w) (v_values w) (v_std w)))
      | TTxt => written (rmap (fun a => write p (FTxt a)) (columns (v_E w) (v_values w) (v_std w)))
      | TTar => (save_tar (N1 (v_values w) :: N1 (v_E w) :: match v_std w with Some s => [N1 s] | None => [] end) p, Ok tt)
      | TMama =>                              (* vector.py:204-213: self, not vector, is written *)
          match to_keV w with
          | Raise e => ([], Raise e)
          | Ok _ => mama_write1D v p
          end
      | TCsv => written (rmap (fun _ => write p (FCsv (v_E w) (v_values w) (v_std w))) (columns (v_E w) (v_values w) (v_std w)))
      | TUnknown => ([], Raise ValueError)
      end
  end.
(* vector.py:238-258: the last component is the new std; None: std keeps its old value *)
Definition read_vector (d : fs) (p : path) (ft : option path)
  : list op * result (list Qc * list Qc * option (option (list Qc))) :=
  let with_std (r : result (list Qc * list Qc * option (list Qc))) := rmap (fun '(v, e, s) => (v, e, Some s)) r in
  match filetype p ft with
  | TNumpy => ([], with_std (do x <- np_load d p ;; uncolumns x))
  | TTxt => ([], with_std (do x <- loadtxt d p ;; uncolumns x))
  | TTar => match load_tar d p with
            | (ops, Ok [N1 v; N1 e; N1 s]) => (ops, Ok (v, e, Some (Some s)))
            | (ops, Ok [N1 v; N1 e]) => (ops, Ok (v, e, None))
            | (ops, Ok _) => (ops, Raise ValueError)
            | (ops, Raise e) => (ops, Raise e)
            end
  | TCsv => ([], match d (abs p) with
                 | None => Raise OSErr
                 | Some (FCsv e v s) => Ok (v, e, Some s)
                 | Some _ => Raise ValueError
                 end)
  | TMama | TUnknown =>
      ([], do x <- mama_read d p ;; match x with Mama1 c e => Ok (c, e, None) | Mama2 _ _ _ => Raise ValueError end)
  end.
(* units are never changed by load *)
Definition load_vector (d : fs) (v : vector) (p : path) (ft : option path) : list op * (vector * result unit) :=
  let (ops, r) := read_vector d p ft in
  (ops, match r with
        | Raise e => (v, Raise e)
        | Ok (x, e, s) =>
            let v' := mkV x e (match s with Some s' => s' | None => v_std v end) (v_units v) in (v', v_verify v')
        end).
End Files.
