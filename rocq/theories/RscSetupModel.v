(* How pyrhosigchi prepares its matrices (ompy/pyrhosigchi.py 285-319), the helpers
   find_limits and pad_matrix, and the loop over the members of an ensemble in
   ompy/extractor.py (Extractor.rhosigchi). Exact rationals
   replace doubles. *)
From Coq Require Import String.
From Verif Require Import PyBase Axis MatrixModel RebinModel VectorModel ArithModel RhosigchiModel.

(* l[0], l[1] *)
Definition first_two (l : list Qc) : result (Qc * Qc) :=
  match l with x :: y :: _ => Ok (x, y) | _ => Raise IndexError end.

(* np.arange(start, stop, step): start, start+step, ... below stop. A step of zero
   raises. *)
Definition arange (start stop step : Qc) : result (list Qc) :=
  if qeqb step 0 then Raise ZeroDivErr
  else Ok (tab (Z.to_nat (qceil ((stop - start) / step))) (fun i => start + qnat i * step)).

(* pyrhosigchi.py 299-301: bin width and start of the extended axes. A bin width of
   zero gives int(nan) or int(inf), which raise. *)
Definition extended_start (axis : list Qc) (ext : Qc) : result (Qc * Qc) :=
  do p <- first_two axis ;;
  let a1 := snd p - fst p in
  let aEx0 := fst p in
  if qeqb a1 0 then Raise ValueError
  else
    let a0 := (aEx0 / a1 - qz (qtrunc (aEx0 / a1))) * a1 in
    Ok (a0 - qz (qtrunc (ext / a1 + qn 1 2)) * a1, a1).

(* rebinning in place, as the two states it leaves behind *)
Definition extend (m : matrix) (mids : result (list Qc)) : matrix * result unit :=
  match mids with
  | Raise e => (m, Raise e)
  | Ok g => rebin_inplace m (AStr "both") (Some g) None
  end.
(* Ex[-1] *)
Definition last_of (l : list Qc) : result Qc :=
  match l with [] => Raise IndexError | x :: _ => Ok (last l x) end.

(* pyrhosigchi.py 311, 312, 313, 319: int((E - a0)/a1 + 0.5) and u0 *)
Definition bin_of (a0 a1 E : Qc) : Z := qtrunc ((E - a0) / a1 + qn 1 2).
Definition offset_of (a0 a1 : Qc) : Z := qtrunc (qabs (a0 / a1) + qn 1 2).

Record setup := mkSetup { su_a0 : Qc; su_a1 : Qc; su_lim : limits }.

(* pyrhosigchi.py 285-319: both matrices are rebinned in place; the states of both are
   returned beside the limits. The loop that finds igmax reads values[ix, ig]: a row
   beyond the matrix is an error (a negative imin or igmin would wrap around, which
   find_igmax does not follow; the theorems ask for Ex_min, Eg_min >= a0). *)
Definition prepare (fg std : matrix) (Ex_min Ex_max Eg_min ext : Qc)
  : (matrix * matrix) * result setup :=
  if negb (pair_eqb (shape (values fg)) (shape (values std))) then ((fg, std), Raise ValueError)
  else match bcast_allclose (Ex fg) (Eg fg) with
  | Raise e => ((fg, std), Raise e)
  | Ok false => ((fg, std), Raise ValueError)
  | Ok true =>
  match bcast_allclose (Ex fg) (Ex std) with
  | Raise e => ((fg, std), Raise e)
  | Ok false => ((fg, std), Raise ValueError)
  | Ok true =>
  match extended_start (Ex fg) ext with
  | Raise e => ((fg, std), Raise e)
  | Ok (a0, a1) =>
      let grid (m : matrix) := do e <- last_of (Ex m) ;; arange a0 (e + a1) a1 in
      match extend fg (grid fg) with
      | (fg', Raise e) => ((fg', std), Raise e)
      | (fg', Ok _) =>
          match extend std (grid fg') with
          | (std', Raise e) => ((fg', std'), Raise e)
          | (std', Ok _) =>
              let igmin := bin_of a0 a1 Eg_min in
              let imin := bin_of a0 a1 Ex_min in
              let imax := (bin_of a0 a1 Ex_max + 1)%Z in
              ((fg', std'),
               if (imax <? 0)%Z then Raise ValueError
               else if (Z.of_nat (a_nr (values fg')) <? imax)%Z && (imin <? imax)%Z
                       && (igmin <? Z.of_nat (length (Eg fg')))%Z
               then Raise IndexError
               else Ok (mkSetup a0 a1
                     (mkLim imin imax igmin
                        (find_igmax (a_rows (values fg')) imin imax igmin) (offset_of a0 a1))))
          end
      end
  end end end.

(* pyrhosigchi.py 373-377: the energies of the two results *)
Definition nld_energies (s : setup) : list Qc :=
  let L := su_lim s in
  tab (Z.to_nat (jmax L - igmin L + iu0 L)) (fun i => qnat i * su_a1 s + su_a0 s).
Definition gsf_energies (s : setup) : list Qc :=
  tab (Z.to_nat (zmax (igmax (su_lim s)))) (fun i => qnat i * su_a1 s + su_a0 s).

Section Members.
(* the rest of pyrhosigchi, from the prepared matrices to the two vectors *)
Variable V : Type.
Variable finish : matrix -> matrix -> setup -> result V.

(* pyrhosigchi.py 264-382 for one member; the uncertainty matrix is left rebinned *)
Definition pyrhosigchi (fg std : matrix) (Ex_min Ex_max Eg_min ext : Qc) : matrix * result V :=
  match prepare fg std Ex_min Ex_max Eg_min ext with
  | ((_, std'), Raise e) => (std', Raise e)
  | ((fg', std'), Ok s) => (std', finish fg' std' s)
  end.

(* a member of the ensemble: its results are read from files, or its matrix is used *)
Inductive member := Saved (r : V) | Fresh (v : arr2).
(* extractor.py 224-227, 241-268: the loop over the members. The matrix of a member is
   made anew; the matrix of uncertainties is made once, before the loop, and handed to
   every call. axes: those of the first-generation matrix (Eg, Ex). Zeros turned into nan
   and the factor on the strength function are in RscDriverModel; the saving is not modelled. *)
Fixpoint extract_members (axes : list Qc * list Qc) (members : list member) (std : matrix)
    (Ex_min Ex_max Eg_min ext : Qc) : result (list V) :=
  match members with
  | [] => Ok []
  | Saved r :: rest =>
      do rs <- extract_members axes rest std Ex_min Ex_max Eg_min ext ;; Ok (r :: rs)
  | Fresh v :: rest =>
      do fg <- mk_matrix v (Some (fst axes)) (Some (snd axes)) None SNone ;;
      match pyrhosigchi fg std Ex_min Ex_max Eg_min ext with
      | (_, Raise e) => Raise e
      | (std', Ok r) =>
          do rs <- extract_members axes rest std' Ex_min Ex_max Eg_min ext ;;
          Ok (r :: rs)
      end
  end.
End Members.
Arguments Saved {V} r.
Arguments Fresh {V} v.
Arguments extract_members {V}.
Arguments pyrhosigchi {V}.

(* ------------------------------------------------ find_limits, pad_matrix *)

(* pyrhosigchi.py 27-29: one row of igmax; mat[i, j] and igmax[i] are Python
   indexing. The loop does not read anything if its range is empty. *)
Definition scan_row (m : list (list Qc)) (i : Z) (ig : list Z) (js : list Z) : result (list Z) :=
  loop (fun acc j =>
          do x <- at2 true m i j ;;
          if qltb 0 x then set_ true acc i (j + 1)%Z else Ok acc) ig js.
(* pyrhosigchi.py 8-31 *)
Definition find_limits (m : matrix) (Ex_min Ex_max Eg_min : Qc) : result limits :=
  do p <- first_two (Ex m) ;;
  let gain := snd p - fst p in
  let shift := fst p in
  if qeqb gain 0 then Raise ValueError
  else
    let imin := qceil ((Ex_min - shift) / gain) in
    let imax := (qfloor ((Ex_max - shift) / gain) + 1)%Z in
    let igmin := qceil ((Eg_min - shift) / gain) in
    do ig <- loop (fun acc i => scan_row (a_rows (values m)) i acc
                                  (zrange igmin (Z.of_nat (a_nc (values m)))))
                  (repeat igmin (a_nr (values m))) (zrange imin imax) ;;
    Ok (mkLim imin imax igmin ig (qtrunc (qabs (shift / gain) + qn 1 2))).

(* pyrhosigchi.py 93: np.pad with N rows above and N columns on the left *)
Definition pad (N : nat) (a : arr2) : arr2 :=
  mkArr (N + a_nc a)
    (repeat (repeat 0 (N + a_nc a)) N ++ map (fun r => repeat 0 N ++ r) (a_rows a)).
(* pyrhosigchi.py 81-95; neither std nor state are passed on *)
Definition pad_matrix (m : matrix) (N : nat) : result matrix :=
  do same <- bcast_allclose (Ex m) (Eg m) ;;
  if negb same then Raise ValueError
  else
    do p <- first_two (Ex m) ;;
    let gain := snd p - fst p in
    let shift := fst p in
    let E := (tab N (fun i => - qnat (N - i) * gain + shift) ++ Ex m)%list in
    mk_matrix (pad N (values m)) (Some E) (Some E) None SNone.
