(* ompy/filehandling.py 262-285, 335-356: the characters of the text files of Matrix and Vector,
   written by np.savetxt and read by np.loadtxt (numpy/lib/npyio.py), with their default arguments
   except for the header.  Texts, lines, fields and numbers are those of MamaTextModel. *)
From Coq Require Import ZArith String Ascii List Bool Lia.
From Verif Require Import PyBase MamaTextModel.
Import ListNotations.
Local Open Scope list_scope.
Local Notation length := List.length (only parsing).

(* '%.18e' is '%.18E' with a small letter *)
Definition low (c : ascii) : ascii := if is_char "E" c then "e"%char else c.
Definition render_e (n : nat) (x : dec) : text := map low (render n x).
(* np.savetxt: the default delimiter is a blank *)
Definition row18 (r : list dec) : text := join (t " ") (map (render_e 18) r).
(* np.savetxt: a header that is not empty is preceded by '# ', as is every line after a line feed *)
Definition comment_out (h : text) : text := flat_map (fun c => if Ascii.eqb c NL then NL :: t "# " else [c]) h.
Definition head18 (h : text) : text := match h with [] => [] | _ => t "# " ++ comment_out h ++ [NL] end.
(* the header argument: numpy calls len(header) before anything is written, but after opening the file *)
Inductive harg := HStr (h : text) | HNone.
Definition savetxt18 (h : harg) (rows : list (list dec)) : result text :=
  match h with
  | HNone => Raise TypeError
  | HStr h => Ok (head18 h ++ flat_map (fun r => row18 r ++ [NL]) rows)
  end.
(* np.loadtxt: what precedes # is split at white space; lines without words are left out; the first row
   fixes the number of columns; every word has to be a number *)
Fixpoint rows_of (nc : nat) (l : list (list text)) : result (list (list dec)) :=
  match l with
  | [] => Ok []
  | r :: q => if Nat.eqb (length r) nc then do v <- floats r ;; do vs <- rows_of nc q ;; Ok (v :: vs) else Raise ValueError
  end.
Definition loadtxt (f : text) : result (list (list dec)) :=
  match filter nonempty (map fields (lines f)) with
  | [] => Ok []
  | r :: q => rows_of (length r) (r :: q)
  end.

(* 347-356 save_txt_1D: np.column_stack of two or three columns, ValueError if their lengths differ *)
Definition column_stack (E values : list dec) (sd : option (list dec)) : result (list (list dec)) :=
  if Nat.eqb (length values) (length E) && match sd with None => true | Some s => Nat.eqb (length s) (length E) end
  then Ok (map (fun i => nth i E (0, 0)%Z :: nth i values (0, 0)%Z :: match sd with None => [] | Some s => [nth i s (0, 0)%Z] end) (seq 0 (length E)))
  else Raise ValueError.
Definition save_txt_1D (h : harg) (E values : list dec) (sd : option (list dec)) : result text :=
  do m <- column_stack E values sd ;; savetxt18 h m.
(* the shape of a loaded table: fewer than two rows, or one column, lose a dimension; columns by index *)
Definition two_d (m : list (list dec)) : bool := match m with r :: _ :: _ => negb (Nat.eqb (length r) 1) | _ => false end.
Definition column (j : nat) (m : list (list dec)) : list dec := map (fun r => nth j r (0, 0)%Z) m.
(* 335-344 load_txt_1D: values, E, std *)
Definition load_txt_1D (f : text) : result (list dec * list dec * option (list dec)) :=
  do m <- loadtxt f ;;
  if two_d m
  then Ok (column 1 m, column 0 m, match m with r :: _ => if (3 <=? length r)%nat then Some (column 2 m) else None | [] => None end)
  else Raise IndexError.
(* 262-279 save_txt_2D: None gives the default header, False gives None; the corner is zero *)
Inductive hopt := HDefault | HFalse | HText (h : text).
Definition default_header : text :=
  t "Format:" ++ [NL] ++ t " 0   Eg0    Eg1    Eg2   ..." ++ [NL] ++ t "Ex0  val00  val01  val02" ++ [NL] ++ t "Ex1  val10  val11  ..." ++ [NL] ++ t "Ex2  ..." ++ [NL] ++ t "...".
Definition header_arg (h : hopt) : harg := match h with HDefault => HStr default_header | HFalse => HNone | HText x => HStr x end.
(* (numpy would also broadcast axes of length one; only met by inconsistent matrices) *)
Definition framed18 (zero : dec) (m : list (list dec)) (Eg Ex : list dec) : result (list (list dec)) :=
  if forallb (fun r => Nat.eqb (length r) (length Eg)) m && Nat.eqb (length Ex) (length m)
  then Ok ((zero :: Eg) :: map (fun p => fst p :: snd p) (combine Ex m))
  else Raise ValueError.
Definition save_txt_2D (h : hopt) (m : list (list dec)) (Eg Ex : list dec) : result text :=
  do f <- framed18 (0, -18)%Z m Eg Ex ;; savetxt18 (header_arg h) f.
(* 282-285 load_txt_2D: values, Eg, Ex *)
Definition load_txt_2D (f : text) : result (list (list dec) * list dec * list dec) :=
  do m <- loadtxt f ;;
  if two_d m
  then match m with r :: q => Ok (map (@tl dec) q, tl r, column 0 q) | [] => Raise IndexError end
  else Raise IndexError.
