(* Model of Extractor.extract_from, and of what Extractor.rhosigchi does around the calls of
   pyrhosigchi (ompy/extractor.py 105-143, 165-179, 201-276). *)
From Coq Require Import String.
From Verif Require Import PyBase MatrixModel VectorModel ArithModel ActionModel EnsembleModel.
Local Open Scope list_scope.
Local Notation length := List.length (only parsing).

(* ------------------------------------------------------------------ entry *)
Section Entry.
Variables Ens Act : Type.
(* the attributes ensemble, trapezoid, regenerate *)
Record settings := mkSet { x_ens : option Ens; x_trap : option Act; x_regen : bool }.
(* what is run: the loop over the members of an ensemble with an action *)
Inductive plan := RunStandard (e : Ens) (t : Act) (regen : bool) | RunRsc (e : Ens) (t : Act) (regen : bool) | NoRun.
(* 125-135, 166-176, 209-219: the three attributes are completed by the arguments.  An
   ensemble is stored even if the trapezoid is then missing. *)
Definition complete (s : settings) (e : option Ens) (t : option Act) (r : option bool) : settings * result (Ens * Act * bool) :=
  match e, x_ens s with
  | None, None => (s, Raise ValueError)
  | Some e, _ | None, Some e =>
      let s1 := mkSet (Some e) (x_trap s) (x_regen s) in
      match t, x_trap s with
      | None, None => (s1, Raise ValueError)
      | Some t, _ | None, Some t =>
          (mkSet (Some e) (Some t) (x_regen s), Ok (e, t, match r with Some b => b | None => x_regen s end))
      end
  end.
(* 201-224: rhosigchi goes on with its argument, not with the attribute; None.firstgen
   raises AttributeError *)
Definition rhosigchi_entry (s : settings) (e : option Ens) (t : option Act) (r : option bool) : settings * result plan :=
  match complete s e t r with
  | (s', Raise x) => (s', Raise x)
  | (s', Ok (_, t', r')) =>
      (s', match e with None => Raise AttributeError | Some e => Ok (RunRsc e t' r') end)
  end.
(* 145-179 *)
Definition standard_entry (s : settings) (e : option Ens) (t : option Act) (r : option bool) : settings * result plan :=
  match complete s e t r with
  | (s', Raise x) => (s', Raise x)
  | (s', Ok (e', t', r')) => (s', Ok (RunStandard e' t' r'))
  end.
(* 105-143 extract_from *)
Definition extract_from (s : settings) (e : option Ens) (t : option Act) (r : option bool) (algorithm : string) : settings * result plan :=
  match complete s e t r with
  | (s', Raise x) => (s', Raise x)
  | (s', Ok (_, _, r')) =>
      if String.eqb algorithm "standard" then standard_entry s' e t (Some r')
      else if String.eqb algorithm "rhosigchi" then rhosigchi_entry s' e t (Some r')
      else (s', Ok NoRun)
  end.
End Entry.
Arguments mkSet {Ens Act}. Arguments x_ens {Ens Act}. Arguments x_trap {Ens Act}. Arguments x_regen {Ens Act}.
Arguments RunStandard {Ens Act}. Arguments RunRsc {Ens Act}. Arguments NoRun {Ens Act}.
Arguments complete {Ens Act}. Arguments extract_from {Ens Act}. Arguments rhosigchi_entry {Ens Act}. Arguments standard_entry {Ens Act}.

(* ------------------------------------------------------------------ limits *)
Section Limits.
Variable Arg : Type.
Definition kw_get (d : kwargs Arg) (k : string) : result Arg :=
  match find (fun p => String.eqb (fst p) k) d with Some p => Ok (snd p) | None => Raise KeyError end.
(* 232-239: 'trapezoid' in [name, args, kwargs]; a tuple or a dict is never equal to a string *)
Definition limits_step (acc : result (option (Arg * Arg * Arg))) (c : call Arg) : result (option (Arg * Arg * Arg)) :=
  do a <- acc ;;
  if String.eqb (c_name c) "trapezoid" then
    do x1 <- kw_get (c_kw c) "Ex_min" ;;
    do x2 <- kw_get (c_kw c) "Ex_max" ;;
    do g <- kw_get (c_kw c) "Eg_min" ;; Ok (Some (x1, x2, g))
  else Ok a.
Definition rsc_limits (calls : list (call Arg)) : result (option (Arg * Arg * Arg)) := fold_left limits_step calls (Ok None).
End Limits.
Arguments rsc_limits {Arg}. Arguments kw_get {Arg}.

(* ------------------------------------------------------------------ uncertainties *)
(* 224-227: np.mean(ensemble.firstgen_ensemble, axis=0), nr x nc; the members have this shape
   and there is at least one *)
Definition rsc_std (nr nc : nat) (members : list (list (list Qc))) : list (list Qc) :=
  mtab nr nc (fun i j => mean (map (fun m => mget m i j) members)).
(* ensemble.std_firstgen, which `standard` uses (ensemble.py, np.std(axis=0)): its square *)
Definition ens_variance (nr nc : nat) (members : list (list (list Qc))) : list (list Qc) :=
  mtab nr nc (fun i j => variance (map (fun m => mget m i j) members)).

(* ------------------------------------------------------------------ results *)
Section Results.
Variable twopi : Qc.                                  (* 2*np.pi *)
(* 256-259: the std is treated before the values, which decide *)
Definition zero_to_nan (values std : list Qc) : list xnum * list xnum :=
  (map (fun v => if qeqb v 0 then NaN else Fin v) values,
   map2 (fun v s => if qeqb v 0 then NaN else Fin s) values std).
(* 261-262: energies in keV *)
Definition rsc_factor (e : Qc) : Qc := twopi * ((e / qz 1000) * (e / qz 1000) * (e / qz 1000)).
Definition rsc_nld (values std : list Qc) : list xnum * list xnum := zero_to_nan values std.
Definition rsc_gsf (values std E : list Qc) : list xnum * list xnum :=
  let (v, s) := zero_to_nan values std in
  (map2 (fun x e => xdiv x (Fin (rsc_factor e))) v E, map2 (fun x e => xdiv x (Fin (rsc_factor e))) s E).
(* 417 (decompose): what `standard` reports for a transmission coefficient t *)
Definition standard_gsf (t : xnum) (e : Qc) : xnum := xdiv t (Fin (twopi * (e * e * e))).
(* 676-680, 682-689 check_unconstrained_results: whether any value is nan *)
Definition is_nan (x : xnum) : bool := match x with NaN => true | _ => false end.
Definition unconstrained (vs : list (list xnum)) : bool := existsb (existsb is_nan) vs.
End Results.
