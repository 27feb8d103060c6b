(* ompy/filehandling.py 11-189: the characters of a MaMa file, written and read.  A text is a list of
   bytes (the files are read as latin-1).  FileModel has the same functions on tables; TextNumModel
   has the decimal rounding of the numbers. *)
From Coq Require Import ZArith String Ascii List Bool Lia.
From Verif Require Import PyBase.
Import ListNotations.
Local Open Scope list_scope.
Local Notation length := List.length (only parsing).

Definition text := list ascii.
Definition t (s : string) : text := list_ascii_of_string s.
Definition NL : ascii := ascii_of_nat 10.
Definition CR : ascii := ascii_of_nat 13.

(* ---------------------------------------------------------------- numbers *)
(* a decimal number: (m, e) is m * 10^e *)
Definition dec := (Z * Z)%type.
Definition digit (d : Z) : ascii := ascii_of_nat (48 + Z.to_nat d).
(* the last n decimal digits of m *)
Fixpoint digs (n : nat) (m : Z) : list Z := match n with O => [] | S k => digs k (m / 10)%Z ++ [(m mod 10)%Z] end.
Definition undigs (l : list Z) : Z := fold_left (fun a d => (10 * a + d)%Z) l 0%Z.
(* the exponent has at least two digits; the exponent of a double has at most three *)
Definition exp_digs (a : Z) : list Z := if (a <? 100)%Z then digs 2 a else digs 3 a.
(* '%.<n>E' of m * 10^e where |m| has n+1 digits (or is 0): one digit, a point, n digits, E, sign, exponent *)
Definition render (n : nat) (x : dec) : text :=
  let '(m, e) := x in
  let ds := map digit (digs (S n) (Z.abs m)) in
  let ex := (e + Z.of_nat n)%Z in
  (if (m <? 0)%Z then t "-" else []) ++ firstn 1 ds ++ t "." ++ skipn 1 ds ++ t "E" ++ (if (ex <? 0)%Z then t "-" else t "+") ++ map digit (exp_digs (Z.abs ex)).
Definition spaces (n : nat) : text := repeat " "%char n.
(* '%<w>...' aligned to the right, '%-<w>...' to the left *)
Definition pad_left (w : nat) (x : text) : text := spaces (w - length x) ++ x.
Definition pad_right (w : nat) (x : text) : text := x ++ spaces (w - length x).
(* '{:4d}', '%4d' *)
Fixpoint nat_digs (fuel : nat) (n : Z) : list Z :=
  match fuel with O => [] | S f => if (n <? 10)%Z then [n] else nat_digs f (n / 10)%Z ++ [(n mod 10)%Z] end.
Definition fmt_4d (n : Z) : text := pad_left 4 ((if (n <? 0)%Z then t "-" else []) ++ map digit (nat_digs 20 (Z.abs n))).

(* ---------------------------------------------------------------- writing *)
(* 99-117, 149-173: the ten lines of the header (the last one without its line break).  stamp is the
   time; the matrix has six calibration coefficients (a0x a1x a2x a0y a1y a2y), the spectrum three *)
Fixpoint join (sep : text) (l : list text) : text :=
  match l with [] => [] | [x] => x | x :: r => x ++ sep ++ join sep r end.
Definition header (kind dims chans comment stamp : text) (cal : list dec) : text :=
  t "!FILE=Disk " ++ [NL] ++ t "!KIND=" ++ kind ++ t " " ++ [NL] ++ t "!LABORATORY=Oslo Cyclotron Laboratory (OCL) " ++ [NL] ++
  t "!EXPERIMENT= oslo_method_python " ++ [NL] ++ t "!COMMENT=" ++ comment ++ t " " ++ [NL] ++ t "!TIME=DATE:" ++ stamp ++ t "   " ++ [NL] ++
  t "!CALIBRATION EkeV=6, " ++ join (t ", ") (map (fun c => pad_left 12 (render 6 c)) cal) ++ t " " ++ [NL] ++
  t "!PRECISION=16 " ++ [NL] ++ t "!DIMENSION=" ++ dims ++ t " " ++ [NL] ++ t "!CHANNEL=(" ++ chans ++ t ") ".
(* 119-129, 175-184: np.savetxt(fmt="%-17.8E", delimiter=" ", newline="\n", header, footer, comments=""):
   header, rows and footer each followed by a line break; the footer ends with one of its own *)
Definition row_text (r : list dec) : text := join (t " ") (map (fun x => pad_right 17 (render 8 x)) r).
Definition savetxt (head : text) (rows : list (list dec)) : text :=
  head ++ [NL] ++ flat_map (fun r => row_text r ++ [NL]) rows ++ t "!IDEND=" ++ [NL] ++ [NL].
(* 85-129 mama_write1D *)
Definition mama_text1 (comment stamp : text) (cal : list dec) (counts : list dec) : text :=
  let n := (Z.of_nat (length counts) - 1)%Z in
  savetxt (header (t "Spectrum") (t "1,0:" ++ fmt_4d n) (t "0:" ++ fmt_4d n) comment stamp cal) (map (fun x => [x]) counts).
(* 132-184 mama_write2D *)
Definition mama_text2 (comment stamp : text) (cal : list dec) (nc : nat) (rows : list (list dec)) : text :=
  let nx := (Z.of_nat nc - 1)%Z in let ny := (Z.of_nat (length rows) - 1)%Z in
  savetxt (header (t "Matrix") (t "2,0:" ++ fmt_4d nx ++ t ",0:" ++ fmt_4d ny) (t "0:" ++ fmt_4d nx ++ t ",0:" ++ fmt_4d ny) comment stamp cal) rows.

(* ---------------------------------------------------------------- reading *)
(* text mode: \r\n and \r are line breaks too *)
Fixpoint universal (l : text) : text :=
  match l with
  | c :: r => if Ascii.eqb c CR
              then NL :: match r with d :: r' => if Ascii.eqb d NL then universal r' else universal r | [] => [] end
              else c :: universal r
  | [] => []
  end.
(* the lines of a file, without their line breaks; an unfinished last line counts if it is not empty *)
Fixpoint lines_acc (acc : text) (l : text) : list text :=
  match l with
  | [] => match acc with [] => [] | _ => [rev acc] end
  | c :: r => if Ascii.eqb c NL then rev acc :: lines_acc [] r else lines_acc (c :: acc) r
  end.
Definition lines (l : text) : list text := lines_acc [] (universal l).
(* str.split(sep) for one character *)
Fixpoint split_acc (p : ascii -> bool) (acc : text) (l : text) : list text :=
  match l with [] => [rev acc] | c :: r => if p c then rev acc :: split_acc p [] r else split_acc p (c :: acc) r end.
Definition split (p : ascii -> bool) (l : text) : list text := split_acc p [] l.
Definition is_char (d c : ascii) : bool := Ascii.eqb c d.
(* white space of str.split() and float(): \t \n \v \f \r, 28-31, space, 133, 160 *)
Definition is_space (c : ascii) : bool :=
  let n := nat_of_ascii c in ((9 <=? n) && (n <=? 13) || (28 <=? n) && (n <=? 32) || (n =? 133) || (n =? 160))%nat.
Definition nonempty {A} (l : list A) : bool := match l with [] => false | _ => true end.
(* str.split() *)
Definition words (l : text) : list text := filter nonempty (split is_space l).
Fixpoint lstrip (l : text) : text := match l with c :: r => if is_space c then lstrip r else l | [] => [] end.
Definition strip (l : text) : text := rev (lstrip (rev (lstrip l))).
Definition digit_of (c : ascii) : option Z :=
  let n := nat_of_ascii c in if ((48 <=? n) && (n <=? 57))%nat then Some (Z.of_nat (n - 48)) else None.
Fixpoint take_digits (l : text) : list Z * text :=
  match l with
  | c :: r => match digit_of c with Some d => let (ds, r') := take_digits r in (d :: ds, r') | None => ([], l) end
  | [] => ([], [])
  end.
Definition take_sign (l : text) : bool * text :=
  match l with
  | c :: r => if is_char "-" c then (true, r) else if is_char "+" c then (false, r) else (false, l)
  | [] => (false, [])
  end.
(* float(s): sign, digits with a point, exponent.  inf, nan and digits grouped by _ are not modelled: None *)
Definition parse_number (s : text) : option dec :=
  let (neg, s1) := take_sign (strip s) in
  let (ip, s2) := take_digits s1 in
  let (fp, s3) := match s2 with c :: r => if is_char "." c then take_digits r else ([], s2) | [] => ([], s2) end in
  if negb (nonempty (ip ++ fp)) then None else
  let m := if neg then (- undigs (ip ++ fp))%Z else undigs (ip ++ fp) in
  match s3 with
  | [] => Some (m, (- Z.of_nat (length fp))%Z)
  | c :: r =>
      if is_char "E" c || is_char "e" c then
        let (eneg, r1) := take_sign r in
        let (ed, r2) := take_digits r1 in
        if nonempty ed && negb (nonempty r2)
        then Some (m, ((if eneg then - undigs ed else undigs ed) - Z.of_nat (length fp))%Z)
        else None
      else None
  end.

(* np.genfromtxt(skip_header, skip_footer): the fields of the lines.  The first line that is not empty
   fixes the number of columns; other lines with a different number are errors, unless they
   are in the footer.  Lines are numbered from the first one that is not empty.  (numpy/lib/npyio.py) *)
Definition fields (l : text) : list text := words (hd [] (split (is_char "#") l)).
Fixpoint drop_empty {A} (l : list (list A)) : list (list A) := match l with [] :: r => drop_empty r | _ => l end.
Definition genfromtxt (skip_header skip_footer : nat) (ls : list text) : result (list (list text)) :=
  match drop_empty (map fields (skipn skip_header ls)) with
  | [] => Ok []
  | first :: rest =>
      let numbered := filter (fun q => nonempty (snd q)) (combine (seq 0 (S (length rest))) (first :: rest)) in
      let is_good := fun q : nat * list text => Nat.eqb (length (snd q)) (length first) in
      let good := map snd (filter is_good numbered) in
      let bad := filter (fun q => negb (is_good q)) numbered in
      let nbrows := (length good + length bad - skip_footer)%nat in
      let skipped := length (filter (fun q => (nbrows <? fst q + 1)%nat) bad) in
      if (length bad - skipped =? 0)%nat
      then Ok (firstn (length good - (skip_footer - skipped)) good)
      else Raise ValueError
  end.
(* [float(x) for x in ...]: the first failure is a ValueError *)
Fixpoint floats (l : list text) : result (list dec) :=
  match l with
  | [] => Ok []
  | x :: r => match parse_number x with Some v => do vs <- floats r ;; Ok (v :: vs) | None => Raise ValueError end
  end.
(* 30-56 mama_read up to the arrays: the calibration coefficients (three or six) and the table of
   counts (None: nan, what genfromtxt makes of a field that is no number) *)
Definition mama_read_text (f : text) : result (list dec * list (list (option dec))) :=
  do rows <- genfromtxt 10 1 (lines f) ;;
  match nth_error (lines f) 6 with
  | None => Raise IndexError
  | Some line =>
      let p := split (is_char ",") line in
      if ((length p =? 4) || (length p =? 7))%nat
      then do cal <- floats (skipn 1 p) ;; Ok (cal, map (map parse_number) rows)
      else Raise ValueError
  end.
(* 187-189 read_response unpacks four values from mama_read, which returns two or three *)
Definition read_response_unpack (f : text) : result unit :=
  do _ <- mama_read_text f ;; Raise ValueError.
