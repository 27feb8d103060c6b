(* Model of Ensemble.rebin (ompy/ensemble.py:367-418) and of the accessors get_raw,
   get_unfolded and get_firstgen (ompy/ensemble.py:465-531). *)
From Coq Require Import String.
From Verif Require Import PyBase RebinModel Axis MatrixModel ArithModel Conc EnsembleModel.
Local Open Scope list_scope.
Local Open Scope nat_scope.
Local Notation length := List.length (only parsing).

Section Rebin.
Variable sqrtq : Qc -> Qc.
(* ensemble.py:391-398 and 401-407: values of one matrix with axes ex and eg *)
Definition rebin_values (ex eg out : list Qc) (v : arr2) : result arr2 :=
  do v1 <- (if leqb out ex then Ok v
            else do rows <- rebin_2D (a_nc v) (a_rows v) ex out 0%Z ;; Ok (mkArr (a_nc v) rows)) ;;
  if leqb out eg then Ok v1
  else do rows <- rebin_2D (a_nc v1) (a_rows v1) eg out 1%Z ;; Ok (mkArr (length out) rows).
(* ensemble.py:389, 399: rebinned[i] = values; other shapes raise ValueError (numpy's
   broadcasting of single rows is not modelled) *)
Definition rebin_member (ex eg out : list Qc) (v : arr2) : result arr2 :=
  do w <- rebin_values ex eg out v ;;
  if pair_eqb (shape w) (length out, length out) then Ok w else Raise ValueError.
(* ensemble.py:367-418.  The attributes are assigned at the end; the only file written is
   firstgen_std.npy. *)
Definition ens_rebin (e : ensemble) (out : list Qc) (member : string) : fprog ensemble :=
  if String.eqb member "firstgen" then
    let m := e_firstgen e in
    if leqb out (Ex m) && leqb out (Eg m) then pret (Ok e)
    else
      pbind (pret (rmapm (rebin_member (Ex m) (Eg m) out) (e_fgs e))) (fun fgs =>
      pbind (pret (rebin_values (Ex m) (Eg m) out (values m))) (fun v =>
      pbind (pret (mk_matrix v (Some out) (Some out) None SNone)) (fun fg =>
      pbind (pret (mk_matrix (ens_std sqrtq fgs) (Some (Eg fg)) (Some (Ex fg)) None (SStr "std"))) (fun sd =>
      pbind (save (Top TStdFg) sd) (fun _ =>
      pret (Ok (mkEns (e_raws e) (e_unfs e) fgs fg (e_std_raw e) (e_std_unf e) sd)))))))
  else pret (Raise NotImplementedErr).
End Rebin.

(* The argument index: a number, or a list of numbers *)
Inductive index_arg := IOne (i : Z) | IMany (l : list Z).
Definition members_of (ens : list arr2) (axes : matrix) (st1 st2 : state_arg) (ix : index_arg)
  : result (matrix + list matrix) :=
  let get st i := do v <- py_index ens i ;; mk_matrix v (Some (Eg axes)) (Some (Ex axes)) None st in
  match ix with
  | IOne i => rmap inl (get st1 i)
  | IMany l => rmap inr (rmapm (get st2) l)
  end.
(* ensemble.py:465-486; raw: the attribute raw *)
Definition get_raw (raw : matrix) (e : ensemble) := members_of (e_raws e) raw SNone SNone.
(* ensemble.py:488-508 *)
Definition get_unfolded (raw : matrix) (e : ensemble) := members_of (e_unfs e) raw (SStr "unfolded") SNone.
(* ensemble.py:510-531 *)
Definition get_firstgen (e : ensemble) := members_of (e_fgs e) (e_firstgen e) (SStr "firstgen") SNone.
