(* Model of ompy/spinfunctions.py: the spin-cut models (get_sigma2). *)
From Coq Require Import String.
From Verif Require Import PyBase RebinModel InterpModel.
Local Notation length := List.length (only parsing).
Local Open Scope string_scope.

(* a parameter: a number or a pair [Energy, sigma2] *)
Inductive pval := VNum (x : Qc) | VPair (e s : Qc).
(* the dictionary pars *)
Definition pars_t := list (string * pval).
Fixpoint lookup (p : pars_t) (k : string) : option pval :=
  match p with
  | [] => None
  | (k', v) :: t => if String.eqb k k' then Some v else lookup t k
  end.
(* library.py:302-311 call_model: every required name must be present; a value of the wrong
   kind fails with TypeError in the arithmetic of the models *)
Definition num_of (p : pars_t) (k : string) : result Qc :=
  match lookup p k with Some (VNum x) => Ok x | _ => Raise TypeError end.
Definition pair_of (p : pars_t) (k : string) : result (Qc * Qc) :=
  match lookup p k with Some (VPair e s) => Ok (e, s) | _ => Raise TypeError end.

(* the array self.Ex = np.atleast_1d(Ex): integer or floating-point *)
Record exarr := mkEx { ex_int : bool; ex_vals : list Qc }.
(* the models return an array, gEB09_CT a scalar *)
Inductive sigma_t := SArr (l : list Qc) | SScalar (x : Qc).

Section Spin.
(* spinfunctions.py:105-108 as a function of mass, NLDa and the effective energy:
   0.0146 * mass**(5/3) * (1 + sqrt(1 + 4*NLDa*Eeff)) / (2*NLDa) *)
Variable eb05_core : Qc -> Qc -> Qc -> Qc.
(* spinfunctions.py:125: (0.98 * mass**0.29)**2 *)
Variable eb09_ct : Qc -> Qc.
(* spinfunctions.py:147: 0.391 * mass**0.675 * Eeff**0.312 *)
Variable eb09_emp : Qc -> Qc -> Qc.

(* Eeff[Eeff < 0] = 0 *)
Definition clip (x : Qc) : Qc := if qltb x 0 then 0 else x.
(* spinfunctions.py:85-109 gEB05 *)
Definition gEB05 (mass a shift : Qc) (e : Qc) : Qc := eb05_core mass a (clip (e - shift)).
(* spinfunctions.py:71-83 gconst: np.full_like keeps the type of Ex *)
Definition gconst (sigma : Qc) (Ex : exarr) : list Qc :=
  map (fun _ => if ex_int Ex then qz (qtrunc (sigma * sigma)) else sigma * sigma) (ex_vals Ex).
(* spinfunctions.py:150-187 gDisc_and_EB05.  The list y holds a number and an array with one
   element; numpy up to 1.23 makes an array of it, later versions raise ValueError. *)
Definition gDisc_and_EB05 (mass a shift Sn : Qc) (disc : Qc * Qc) (e : Qc) : result Qc :=
  let s_Sn := gEB05 mass a shift Sn in
  do v <- interp1d [fst disc; Sn] [snd disc; s_Sn] (FillBoth (snd disc) s_Sn) e ;;
  Ok (if qltb e Sn then v else gEB05 mass a shift e).
(* spinfunctions.py:189-220 gDisc_and_sigmaSn *)
Definition gDisc_and_sigmaSn (disc sn : Qc * Qc) (e : Qc) : result Qc :=
  interp1d [fst disc; fst sn] [snd disc; snd sn] (FillBoth (snd disc) (snd sn)) e.

(* spinfunctions.py:26-50 get_sigma2 *)
Definition get_sigma2 (model : string) (pars : pars_t) (Ex : exarr) : result sigma_t :=
  if model =? "const" then
    do s <- num_of pars "sigma" ;; Ok (SArr (gconst s Ex))
  else if model =? "EB05" then
    do m <- num_of pars "mass" ;; do a <- num_of pars "NLDa" ;; do sh <- num_of pars "Eshift" ;;
    Ok (SArr (map (gEB05 m a sh) (ex_vals Ex)))
  else if model =? "EB09_CT" then
    do m <- num_of pars "mass" ;; Ok (SScalar (eb09_ct m))
  else if model =? "EB09_emp" then
    do m <- num_of pars "mass" ;; do pa <- num_of pars "Pa_prime" ;;
    Ok (SArr (map (fun e => eb09_emp m (clip (e - qn 1 2 * pa))) (ex_vals Ex)))
  else if model =? "Disc_and_EB05" then
    do m <- num_of pars "mass" ;; do a <- num_of pars "NLDa" ;; do sh <- num_of pars "Eshift" ;;
    do Sn <- num_of pars "Sn" ;; do d <- pair_of pars "sigma2_disc" ;;
    do l <- rmapm (gDisc_and_EB05 m a sh Sn d) (ex_vals Ex) ;; Ok (SArr l)
  else if model =? "Disc_and_sigmaSn" then
    do d <- pair_of pars "sigma2_disc" ;; do s <- pair_of pars "sigma2_Sn" ;;
    do l <- rmapm (gDisc_and_sigmaSn d s) (ex_vals Ex) ;; Ok (SArr l)
  else Raise TypeError.
End Spin.
