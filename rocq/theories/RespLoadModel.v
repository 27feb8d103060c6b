(* Model of the loading of a response in ompy/response.py: __init__ (52-86), LoadZip (88-151)
   and LoadDir (153-233).  Files are tables of numbers, not bytes. *)
From Verif Require Import PyBase Axis RebinModel MatrixModel VectorModel FileModel CalibModel SampStatModel ResponseModel.
Local Open Scope Qc_scope.

(* A spectrum in mama format: the calibration line, the last channel in the dimension line,
   and the counts *)
Record spectrum := mkSp { sp_cal : Qc * Qc * Qc; sp_last : Z; sp_counts : list Qc }.
(* One line of the response table: Eg, FWHM, Eff_tot, FE, SE, DE, c511 *)
Record trow := mkRow { t_Eg : Qc; t_fwhm : Qc; t_eff : Qc; t_FE : Qc; t_SE : Qc; t_DE : Qc; t_c511 : Qc }.
(* The spectra, by the number in their file name (cmp1000: 1000).  The decimal notation of an
   integer identifies it. *)
Definition spectra := Z -> option spectrum.
(* 224-233: the table and the spectra together *)
Definition response_of (t : list trow) (cmp : list (list Qc)) (E : list Qc) : resp_t :=
  mkResp (map t_Eg t) (map t_fwhm t) (map t_eff t) (map t_FE t) (map t_SE t) (map t_DE t) (map t_c511 t) cmp E.

(* 144, 221: compton_matrix[i, 0:len(c)] = c on a row of n zeros.  A longer right-hand side
   cannot be assigned. *)
Definition fill_row (n : nat) (c : list Qc) : result (list Qc) :=
  if (length c <=? n)%nat then Ok (c ++ repeat 0 (n - length c)) else Raise ValueError.

(* ------------------------------------------------------------------ zip archive *)
(* max of a column; of an empty one ValueError *)
Definition qmaximum (l : list Qc) : result Qc :=
  match l with [] => Raise ValueError | x :: r => Ok (fold_left (fun a b => if qltb a b then b else a) r x) end.
(* 142-145: np.genfromtxt gives an array without length if there is a single number *)
Definition zip_row (n : nat) (s : option spectrum) : result (list Qc) :=
  match s with
  | None => Raise ValueError
  | Some s => if (length (sp_counts s) =? 1)%nat then Raise TypeError else fill_row n (sp_counts s)
  end.
(* 117-151.  table: None if resp.csv is missing or lacks a column.  The names of the spectra
   are those of the sorted energies, cut to integers. *)
Definition load_zip (table : option (list trow)) (files : spectra) : result resp_t :=
  match table with
  | None => Raise ValueError
  | Some t =>
      let names := map qtrunc (isort (map t_Eg t)) in
      if negb (forallb (fun k => match files k with Some _ => true | None => false end) names) then Raise ValueError
      else
        do top <- qmaximum (map t_Eg t) ;;
        match files (qtrunc top) with
        | None => Raise KeyError
        | Some s =>
            let '(a0, a1, _) := sp_cal s in
            let n := (sp_last s + 1)%Z in
            if (n <? 0)%Z then Raise ValueError
            else
              do rows <- rmapm (fun k => zip_row (Z.to_nat n) (files k)) names ;;
              do E <- linspace a0 (a1 * qz (n - 1)) n ;;
              Ok (response_of t rows E)
        end
  end.

(* ------------------------------------------------------------------ directory *)
(* 176-203, the lines of resp.dat: the line that announces the number of lines, a line with
   an integer, a line of numbers, any other line *)
Inductive dline := DMarker | DCount (n : Z) | DRow (l : list Qc) | DText.
Fixpoint after_marker (l : list dline) : option (list dline) :=
  match l with [] => None | DMarker :: r => Some r | _ :: r => after_marker r end.
(* 207: a line of the table must have seven numbers (seven lines of different lengths, which
   numpy would take for the columns, are refused in the model) *)
Definition row_of (d : dline) : result trow :=
  match d with
  | DRow [a; b; c; d; e; f; g] => Ok (mkRow a b c d e f g)
  | _ => Raise ValueError
  end.
(* 176-207; Exception is written RuntimeError.  Lines missing at the end are empty. *)
Definition read_table (l : list dline) : result (list trow) :=
  match after_marker l with
  | None => Raise RuntimeError
  | Some (DCount n :: header :: rest) =>
      if (n <=? 0)%Z then Raise ValueError
      else if (length rest <? Z.to_nat n)%nat then Raise ValueError
      else rmapm row_of (firstn (Z.to_nat n) rest)
  | Some [DCount _] => Raise RuntimeError
  | Some _ => Raise ValueError
  end.
(* Vector(path=...) on a file without suffix: mama_read (filehandling.py:11-63) *)
Definition read_spectrum (s : option spectrum) : result vector :=
  match s with
  | None => Raise OSErr
  | Some s =>
      if (length (sp_counts s) <=? 1)%nat then Raise IndexError
      else mk_vector (Some (sp_counts s)) (quadratic (sp_cal s) (length (sp_counts s))) None KeV
  end.
(* 219-222 *)
Definition dir_row (n : nat) (cal : Qc * Qc) (s : option spectrum) : result (list Qc) :=
  do v <- read_spectrum s ;;
  do c <- v_calibration v ;;
  if negb (qeqb (fst c) (fst cal) && qeqb (snd c) (snd cal)) then Raise NotImplementedErr
  else fill_row n (v_values v).
(* 205-233 *)
Definition load_dir (dat : list dline) (files : spectra) : result resp_t :=
  do t <- read_table dat ;;
  let names := map (fun r => round_even (t_Eg r)) t in
  match rev names with
  | [] => Raise IndexError
  | k :: _ =>
      do last <- read_spectrum (files k) ;;
      do rows <- rmapm (fun k => do cal <- v_calibration last ;; dir_row (length (v_values last)) cal (files k)) names ;;
      Ok (response_of t rows (v_E last))
  end.

(* 52-86: what is at the path.  Something that exists but is neither is not modelled. *)
Inductive place := ADir (dat : list dline) (files : spectra) | AZip (table : option (list trow)) (files : spectra) | Nothing.
Definition load_response (p : place) : result resp_t :=
  match p with
  | ADir dat files => load_dir dat files
  | AZip table files => load_zip table files
  | Nothing => Raise ValueError
  end.
