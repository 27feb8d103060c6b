(* The error analysis of pyrhosigchi (ompy/pyrhosigchi.py 335-363). Exact rationals replace
   doubles; the squares of the errors are computed, the root is left out. *)
From Verif Require Import PyBase VectorModel RhosigchiModel.
Local Open Scope Qc_scope.

Notation rows := (list (list Qc * list Qc)).

(* 344-347: one random number per cell, times the uncertainty; negative counts become 0 *)
Definition perturb_row (f s z : list Qc) : list Qc :=
  map2 (fun a b => let x := a + b in if qltb x 0 then 0 else x) f (map2 Qcmult z s).
Definition perturb (fg std zs : list (list Qc)) : list (list Qc) :=
  map2 (fun f sz => perturb_row f (fst sz) (snd sz)) fg (combine std zs).

Section Draws.
Variable fg std sFgN : list (list Qc).
Variable L : limits.
Variable nominal : list Qc * list Qc.   (* the last row of the two results *)
Variable ns : nat.

(* 344-357: one draw. bufs: the rows of nldv, gsfv as the draw before has left them. Only
   row 0 of gsfv is set anew, row 0 of nldv was set before the loop and is never written.
   None: nan entries *)
Definition draw (bufs : rows) (z : list (list Qc)) : result (option rows) :=
  do n <- normalize_array (perturb fg std z) L ;;
  match n with
  | None => Ok None
  | Some Fgv =>
      do g0 <- gsf_start L Fgv ns ;;
      match bufs with
      | [] => Raise IndexError
      | (r0, _) :: rest => rmap Some (iterate false Fgv sFgN L ((r0, g0) :: rest))
      end
  end.

(* 359, 360: acc + (v - nominal)^2 *)
Definition add_square (acc v nom : list Qc) : list Qc :=
  map2 Qcplus acc (map2 (fun a b => (a - b) * (a - b)) v nom).
(* 343-360. After a draw with nan the sums are nan; the remaining draws are not followed. *)
Fixpoint draws (bufs : rows) (acc : list Qc * list Qc) (zs : list (list (list Qc)))
  : result (option (list Qc * list Qc)) :=
  match zs with
  | [] => Ok (Some acc)
  | z :: zs' =>
      do d <- draw bufs z ;;
      match d with
      | None => Ok None
      | Some b =>
          let v := last b ([], []) in
          draws b (add_square (fst acc) (fst v) (fst nominal),
                   add_square (snd acc) (snd v) (snd nominal)) zs'
      end
  end.
End Draws.

(* the array of all iterations: row 0 given, the others zero *)
Definition empty_rows (nr ns nit : nat) (r0 g0 : list Qc) : rows :=
  (r0, g0) :: repeat (repeat 0 nr, repeat 0 ns) (Nat.pred nit).

(* pyrhosigchi.py 309-363 without the root: the squares of nlderr, gsferr. nit >= 1; with
   no draws the division by zero gives nan *)
Definition errors (fg std : list (list Qc)) (imin imax lo u0 : Z) (nit : nat)
    (zs : list (list (list Qc))) : result (option (list Qc * list Qc)) :=
  let L := mkLim imin imax lo (find_igmax fg imin imax lo) u0 in
  let nr := Z.to_nat (imax - lo + u0) in
  let ns := Z.to_nat (imax + u0) in
  do r <- run fg std imin imax lo u0 nit ;;
  match r with
  | None => Ok None
  | Some res =>
      do d <- draws fg std std L (last res ([], [])) ns
                (empty_rows nr ns nit (repeat 1 nr) (repeat 0 ns)) (repeat 0 nr, repeat 0 ns) zs ;;
      Ok (match d with
          | Some (a, b) =>
              if Nat.eqb (length zs) 0 then None
              else Some (map (fun x => x / qnat (length zs)) a, map (fun x => x / qnat (length zs)) b)
          | None => None
          end)
  end.
