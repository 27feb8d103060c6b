(* The rhosigchi iteration: ompy/rhosigchi.cpp (iterate) and ompy/pyrhosigchi.py
   (normalize, normalize_array, iterate_python and the first half of pyrhosigchi).
   Exact rationals replace doubles. A division by zero and an access outside of an
   array are errors of the model: C++ checks the row but not the column of its arrays
   (rhosigchi.cpp 65-80), and gives inf or NaN for a division by zero. *)
From Coq Require Import List ZArith QArith Qcanon Lia.
From Verif Require Import Num PyBase.
Import ListNotations.
Local Open Scope Qc_scope.

(* element i; in Python (wrap) a negative index counts from the end *)
Definition at_ {A} (wrap : bool) (l : list A) (i : Z) : result A :=
  let j := if wrap && (i <? 0)%Z then (i + Z.of_nat (length l))%Z else i in
  if (j <? 0)%Z then Raise IndexError
  else match nth_error l (Z.to_nat j) with Some x => Ok x | None => Raise IndexError end.
Definition at2 {A} (wrap : bool) (m : list (list A)) (i j : Z) : result A :=
  do r <- at_ wrap m i ;; at_ wrap r j.
(* assignment to element i *)
Definition set_ {A} (wrap : bool) (l : list A) (i : Z) (x : A) : result (list A) :=
  let j := if wrap && (i <? 0)%Z then (i + Z.of_nat (length l))%Z else i in
  if (j <? 0)%Z || (Z.of_nat (length l) <=? j)%Z then Raise IndexError
  else Ok (upd l (Z.to_nat j) x).
Definition sdiv (a b : Qc) : result Qc := if qeqb b 0 then Raise ZeroDivErr else Ok (a / b).

(* a loop over indices *)
Fixpoint loop {S} (body : S -> Z -> result S) (s : S) (l : list Z) : result S :=
  match l with [] => Ok s | i :: l' => do s' <- body s i ;; loop body s' l' end.

(* limits of the fit: arguments jmin, jmax, igmin, igmax, iu0 of iterate *)
Record limits := mkLim { jmin : Z; jmax : Z; igmin : Z; igmax : list Z; iu0 : Z }.

(* rhosigchi.cpp 191: the largest element *)
Definition zmax (l : list Z) : Z := fold_left Z.max l (hd 0%Z l).
Definition maxig (L : limits) : Z := zmax (igmax L).
(* rhosigchi.cpp 192 *)
Definition size_use (L : limits) : Z := Z.max (maxig L) (jmax L + iu0 L).

(* rhosigchi.cpp 196-205, pyrhosigchi.py 137-147: allowed change per iteration *)
Definition var (it : nat) : Qc :=
  if (it <=? 5)%nat then qn 12 10
  else if (it <=? 12)%nat then qn 11 10
  else if (it <=? 21)%nat then qn 105 100
  else if (it <=? 30)%nat then qn 1025 1000
  else qn 101 100.

Section Iterate.
  Variable wrap : bool.
  Variables FgN sFgN : list (list Qc).
  Variable L : limits.

  (* rhosigchi.cpp 207-226: the three sums of one row *)
  Definition sums_body (rho sig : list Qc) (ix : Z) (f : Qc * Qc * Qc) (ig : Z)
    : result (Qc * Qc * Qc) :=
    let '(f1, f2, f3) := f in
    do s <- at_ wrap sig ig ;;
    do r <- at_ wrap rho (ix - ig + iu0 L)%Z ;;
    do sd <- at2 wrap sFgN ix ig ;;
    if qltb 0 sd then
      do a <- sdiv (s * r) sd ;;
      do F <- at2 wrap FgN ix ig ;;
      do b <- sdiv (s * r * F) (sd * sd) ;;
      Ok (f1 + s * r, f2 + a * a, f3 + b)
    else Ok (f1 + s * r, f2, f3).
  Definition row_sums (rho sig : list Qc) (ix : Z) : result (Qc * Qc * Qc) :=
    do gm <- at_ wrap (igmax L) ix ;;
    do f <- loop (sums_body rho sig ix) (0, 0, 0) (zrange (igmin L) gm) ;;
    let '(f1, f2, f3) := f in
    if qltb 0 f1 then
      do f2' <- sdiv f2 (f1 * f1 * f1) ;;
      do f3' <- sdiv f3 (f1 * f1) ;;
      Ok (f1, f2', f3')
    else Ok (f1, 0, 0).

  (* rhosigchi.cpp 227-236: numerator and denominator of row ix; the other entries
     are zero from the start and never written *)
  Definition nd_body (ix : Z) (f1 f2 f3 : Qc) (row : list (Qc * Qc)) (ig : Z)
    : result (list (Qc * Qc)) :=
    do sd <- at2 wrap sFgN ix ig ;;
    if qltb 0 (f1 * sd) then
      do F <- at2 wrap FgN ix ig ;;
      do q <- sdiv F (f1 * (sd * sd)) ;;
      do d <- sdiv 1 ((f1 * sd) * (f1 * sd)) ;;
      set_ wrap row ig (f2 - f3 + q, d)
    else set_ wrap row ig (0, 0).
  Definition nd_row (rho sig : list Qc) (row : list (Qc * Qc)) (ix : Z)
    : result (list (Qc * Qc)) :=
    do f <- row_sums rho sig ix ;;
    let '(f1, f2, f3) := f in
    do gm <- at_ wrap (igmax L) ix ;;
    loop (nd_body ix f1 f2 f3) row (zrange (igmin L) gm).
  (* rhosigchi.cpp 194, 207-237: all rows. Every iteration writes the same entries, so
     starting from zeros each time gives the same arrays. *)
  Definition nd_table (rho sig : list Qc) : result (list (list (Qc * Qc))) :=
    let n := Z.to_nat (size_use L) in
    loop (fun m ix => do row <- at_ wrap m ix ;;
                      do row' <- nd_row rho sig row ix ;;
                      set_ wrap m ix row')
         (repeat (repeat (0, 0) n) n) (zrange (jmin L) (jmax L)).

  (* rhosigchi.cpp 249-257, 269-277: the new value *)
  Definition new_value (v old up down : Qc) : result Qc :=
    if qltb 0 down then
      do q <- sdiv up down ;;
      do lo <- sdiv old v ;;
      if qltb (v * old) q then Ok (v * old)
      else if qltb q lo then Ok lo
      else Ok q
    else Ok 0.

  (* rhosigchi.cpp 240-258: one entry of sig *)
  Definition sig_body (rho : list Qc) (nd : list (list (Qc * Qc))) (ig : Z)
      (ud : Qc * Qc) (ix : Z) : result (Qc * Qc) :=
    do r <- at_ wrap rho (ix - ig + iu0 L)%Z ;;
    do e <- at2 wrap nd ix ig ;;
    Ok (fst ud + r * fst e, snd ud + r * r * snd e).
  Definition sig_entry (v : Qc) (rho sig : list Qc) (nd : list (list (Qc * Qc))) (ig : Z)
    : result Qc :=
    do ud <- loop (sig_body rho nd ig) (0, 0) (zrange (Z.max (jmin L) ig) (jmax L)) ;;
    do old <- at_ wrap sig ig ;;
    new_value v old (fst ud) (snd ud).
  (* rhosigchi.cpp 260-278: one entry of rho *)
  Definition rho_body (sig : list Qc) (nd : list (list (Qc * Qc))) (iu : Z)
      (ud : Qc * Qc) (ix : Z) : result (Qc * Qc) :=
    let ig := (ix - iu + iu0 L)%Z in
    do s <- at_ wrap sig ig ;;
    do e <- at2 wrap nd ix ig ;;
    Ok (fst ud + s * fst e, snd ud + s * s * snd e).
  Definition rho_entry (v : Qc) (rho sig : list Qc) (nd : list (list (Qc * Qc))) (iu : Z)
    : result Qc :=
    do ud <- loop (rho_body sig nd iu) (0, 0) (zrange (Z.max (jmin L) iu) (jmax L)) ;;
    do old <- at_ wrap rho iu ;;
    new_value v old (fst ud) (snd ud).

  (* rhosigchi.cpp 239-278: the new rows of sig and rho; sig0 and rho0 are the rows as
     they are before, whose entries outside of the ranges stay *)
  Definition step (v : Qc) (rho sig rho0 sig0 : list Qc) : result (list Qc * list Qc) :=
    do nd <- nd_table rho sig ;;
    do sig' <- loop (fun acc ig => do x <- sig_entry v rho sig nd ig ;; set_ wrap acc ig x)
                    sig0 (zrange (igmin L) (maxig L)) ;;
    do rho' <- loop (fun acc iu => do x <- rho_entry v rho sig nd iu ;; set_ wrap acc iu x)
                    rho0 (zrange 0 (jmax L - igmin L + iu0 L)) ;;
    Ok (rho', sig').

  (* rhosigchi.cpp 195-279: iterations it, it+1, ...; the rows still to be filled are
     given, the filled ones returned *)
  Fixpoint iterate_from (it : nat) (rho sig : list Qc) (rest : list (list Qc * list Qc))
    : result (list (list Qc * list Qc)) :=
    match rest with
    | [] => Ok [(rho, sig)]
    | (rho0, sig0) :: rest' =>
        do rs <- step (var it) rho sig rho0 sig0 ;;
        do out <- iterate_from (S it) (fst rs) (snd rs) rest' ;;
        Ok ((rho, sig) :: out)
    end.
  Definition iterate (rows : list (list Qc * list Qc)) : result (list (list Qc * list Qc)) :=
    match rows with
    | [] => Ok []
    | (rho, sig) :: rest => iterate_from 1 rho sig rest
    end.
End Iterate.

(* pyrhosigchi.py 98-200: the same loops in Python, where a negative index wraps
   around; the arrays are created here *)
Definition iterate_python (FgN sFgN : list (list Qc)) (rho0 sig0 : list Qc) (L : limits)
    (nit : nat) : result (list (list Qc * list Qc)) :=
  let nr := Z.to_nat (jmax L - igmin L + iu0 L) in
  let ns := Z.to_nat (size_use L) in
  if negb (Nat.eqb (length rho0) nr && Nat.eqb (length sig0) ns) then Raise ValueError
  else iterate true FgN sFgN L
         ((rho0, sig0) :: repeat (repeat 0 nr, repeat 0 ns) (Nat.pred nit)).

(* ------------------------------------------------ normalisation *)

(* a row sliced to [lo, hi) and divided by its sum, zero elsewhere: one row of res in
   normalize (53-55) and normalize_array (84-85). None: NaN or inf entries, from a sum
   that is zero *)
Definition normalize_row (lo hi : Z) (row : list Qc) : option (list Qc) :=
  let part := py_slice row lo hi in
  let norm := qsum part in
  if qeqb norm 0 && negb (Nat.eqb (length part) 0) then None
  else
    let n := Z.of_nat (length row) in
    let a := slice_bound n lo in
    let b := slice_bound n hi in
    Some (tab (length row) (fun j =>
      if (a <=? Z.of_nat j)%Z && (Z.of_nat j <? b)%Z then vget row j / norm else 0)).
(* rows outside [imin, imax) stay zero; rows are numbered from i *)
Fixpoint normalize_rows (L : limits) (i : Z) (m : list (list Qc)) : result (option (list (list Qc))) :=
  match m with
  | [] => Ok (Some [])
  | row :: m' =>
      do rest <- normalize_rows L (i + 1) m' ;;
      if (jmin L <=? i)%Z && (i <? jmax L)%Z then
        do gm <- at_ true (igmax L) i ;;
        Ok (match normalize_row (igmin L) gm row, rest with
            | Some r, Some rs => Some (r :: rs)
            | _, _ => None
            end)
      else Ok (option_map (cons (repeat 0 (length row))) rest)
  end.
(* pyrhosigchi.py 68-86 *)
Definition normalize_array (m : list (list Qc)) (L : limits) : result (option (list (list Qc))) :=
  normalize_rows L 0 m.
(* pyrhosigchi.py 35-65: the propagated uncertainty err is computed but std is
   returned *)
Definition normalize (m std : list (list Qc)) (L : limits)
  : result (option (list (list Qc)) * list (list Qc)) :=
  do r <- normalize_rows L 0 m ;; Ok (r, std).

(* ------------------------------------------------ pyrhosigchi, lines 287-312 *)

(* 290-294: igmax, one more than the last positive entry of the row in [igmin, ...) *)
Definition last_positive (row : list Qc) (lo : Z) : Z :=
  fold_left (fun acc ig =>
    match at_ true row ig with
    | Ok x => if qltb 0 x && (acc <? ig + 1)%Z then (ig + 1)%Z else acc
    | Raise _ => acc
    end) (zrange lo (Z.of_nat (length row))) 0%Z.
Definition find_igmax (m : list (list Qc)) (imin imax lo : Z) : list Z :=
  tab (Z.to_nat imax) (fun ix =>
    if (imin <=? Z.of_nat ix)%Z then last_positive (nth ix m []) lo else 0%Z).

(* 304-306: the initial transmission coefficients *)
Definition gsf_start (L : limits) (FgN : list (list Qc)) (n : nat) : result (list Qc) :=
  loop (fun acc ix =>
    do gm <- at_ true (igmax L) ix ;;
    loop (fun acc ig =>
            do F <- at2 true FgN ix ig ;;
            do old <- at_ true acc ig ;;
            set_ true acc ig (old + F))
         acc (zrange (igmin L) gm))
    (repeat 0 n) (zrange (jmin L) (jmax L)).

(* 287-309: from the rebinned matrix to the rows of all iterations; imin, imax, igmin
   and u0 are computed from the energies (287-289, 295) *)
Definition run (fg std : list (list Qc)) (imin imax lo u0 : Z) (nit : nat)
  : result (option (list (list Qc * list Qc))) :=
  let L := mkLim imin imax lo (find_igmax fg imin imax lo) u0 in
  do n <- normalize fg std L ;;
  match fst n with
  | None => Ok None
  | Some FgN =>
      let nr := Z.to_nat (imax - lo + u0) in
      let ns := Z.to_nat (imax + u0) in
      do g0 <- gsf_start L FgN ns ;;
      rmap Some (iterate false FgN (snd n) L
                   ((repeat 1 nr, g0) :: repeat (repeat 0 nr, repeat 0 ns) (Nat.pred nit)))
  end.

(* ------------------------------------------------ chisquare, lines 203-257 *)

(* 227-230 *)
Definition degrees (L : limits) : Z :=
  (fold_left (fun acc ix => acc + (nth (Z.to_nat ix) (igmax L) 0 - igmin L))
     (zrange (jmin L) (jmax L)) 0
   - ((jmax L - jmin L + 1) + (maxig L - igmin L + 1)))%Z.
(* 235-256 for one iteration, with the term of each entry given (None: the entry does
   not count and deg is decreased). The division by deg is inside the loop over ix. *)
Definition chi_of_rows (deg : Z) (rows : list (list (option Qc))) : Qc :=
  fst (fold_left (fun '(chi, deg) row =>
         let chi := fold_left (fun c e => match e with Some x => c + x | None => c end) row chi in
         let deg := (deg - Z.of_nat (length (filter (fun e => match e with None => true | _ => false end) row)))%Z in
         (if (0 <? deg)%Z then chi / qz deg else chi, deg))
       rows (0, deg)).
