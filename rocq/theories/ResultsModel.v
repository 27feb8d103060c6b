(* ompy/abstract_normalizer.py 70-108 and ompy/ensembleNormalizer.py 629-643: save_results_txt.
   A directory is a function from paths to texts; the texts of vectors and tables are those of
   TxtTextModel.  Simplified: paths are normalised, the directory exists; a call of Vector.save
   that raises writes nothing (FileModel has the torn file). *)
From Coq Require Import ZArith String Ascii List Bool Lia.
From Verif Require Import PyBase FileModel MamaTextModel TxtTextModel.
Import ListNotations.
Local Open Scope list_scope.
Local Notation length := List.length (only parsing).

(* pathlib: with_suffix replaces the suffix of the last component, or appends to it *)
Definition with_suffix (p s : path) : path := firstn (length p - length (suffix p)) p ++ s.
(* abstract_normalizer.py 87-107: (path / f"nld_{suffix}").with_suffix('.txt') *)
Definition result_path (dir kind sfx : path) : path := with_suffix (dir ++ "/"%char :: kind ++ sfx) (t ".txt").
Definition dirstate := path -> option text.
Definition put (d : dirstate) (p : path) (x : text) : dirstate := fun q => if peqb q p then Some x else d q.
(* how the call ends: StopIteration comes from next() on an empty dict *)
Inductive ending := Done | Failed (e : exn) | Stopped.
(* 95-99: array[i, :] = values, broadcast if there is one value *)
Definition sample_row (n : nat) (v : list dec) : result (list dec) :=
  if Nat.eqb (length v) n then Ok v else match v with [x] => Ok (repeat x n) | _ => Raise ValueError end.
Fixpoint sample_rows (n : nat) (l : list (text * list dec)) : result (list (list dec)) :=
  match l with
  | [] => Ok []
  | (_, v) :: r => do x <- sample_row n v ;; do xs <- sample_rows n r ;; Ok (x :: xs)
  end.
(* 70-108; samples is a dict in its order of insertion; nld and gsf are the texts Vector.save writes, or what it raises *)
Definition save_results_txt (dir sfx : path) (nld gsf : result text) (samples : list (text * list dec)) (d : dirstate) : dirstate * ending :=
  match nld with
  | Raise e => (d, Failed e)
  | Ok n =>
      let d1 := put d (result_path dir (t "nld_") sfx) n in
      match gsf with
      | Raise e => (d1, Failed e)
      | Ok g =>
          let d2 := put d1 (result_path dir (t "gsf_") sfx) g in
          match samples with
          | [] => (d2, Stopped)
          | (_, first) :: _ =>
              match (do rows <- sample_rows (length first) samples ;; savetxt18 (HStr (join (t " ") (map fst samples))) rows) with
              | Raise e => (d2, Failed e)
              | Ok x => (put d2 (result_path dir (t "samples_") sfx) x, Done)
              end
          end
      end
  end.
(* ensembleNormalizer.py 629-643: one call for each member, with its number; the argument suffix is not used *)
Definition member := (result text * result text * list (text * list dec))%type.
Fixpoint save_members (dir : path) (i : nat) (res : list member) (d : dirstate) : dirstate * ending :=
  match res with
  | [] => (d, Done)
  | (n, g, s) :: r =>
      let (d', e) := save_results_txt dir (str_nat i) n g s d in
      match e with Done => save_members dir (S i) r d' | _ => (d', e) end
  end.
Definition ensemble_save_results_txt (dir : path) (sfx : option path) (res : list member) (d : dirstate) : dirstate * ending :=
  save_members dir 0 res d.
