(* Parameter classes of ompy/models.py: Model (17-131), NormalizationParameters
   (402-530), ResultsNormalized (533-569), ExtrapolationModelLow/High (144-399).
   An object is its instance dictionary, its class and the private flag
   _Model__isfrozen.  Warnings (498-499, 514-516) are not modelled; numbers are
   exact; names of dunder methods (__init__, __class__, ...) do not occur. *)
From Verif Require Import PyBase.
From Coq Require Export String.
From Coq Require Import Ascii.
Local Open Scope string_scope.
Local Notation length := List.length (only parsing).

(* Values held by the parameters. PMeth n is a bound method of the instance
   itself with function name n (the default of `model`, models.py 298, 353);
   PObj is any other object (vectors, functions). *)
Inductive pyv :=
| PNone | PNum (q : Qc) | PStr (s : string) | PList (l : list pyv) | PTup (l : list pyv)
| PDict (d : list (string * pyv)) | PMeth (n : string) | PObj (i : nat).

Definition dict := list (string * pyv).

(* d[k] of a Python dictionary *)
Fixpoint dget (d : dict) (k : string) : option pyv :=
  match d with
  | [] => None
  | (k', v) :: d' => if k =? k' then Some v else dget d' k
  end.
(* d[k] = v: replaces in place or appends (dictionaries keep insertion order) *)
Fixpoint dset (d : dict) (k : string) (v : pyv) : dict :=
  match d with
  | [] => [(k, v)]
  | (k', v') :: d' => if k =? k' then (k, v) :: d' else (k', v') :: dset d' k v
  end.

(* A class: fields with defaults in the order of the generated __init__, names of
   methods and other class attributes, getters of properties, setters of
   properties, and whether __post_init__ freezes (models.py 110-111, overridden in
   297-298 and 352-353). A setter returns the private attribute it assigns. *)
Record cls := mkCls {
  c_name : string;
  c_fields : dict;
  c_attrs : list string;
  c_get : string -> option (dict -> result pyv);
  c_set : string -> option (dict -> pyv -> result (string * pyv));
  c_freeze : bool }.

Record obj := mkObj { o_cls : cls; o_dict : dict; o_frozen : bool }.

Definition mem (k : string) (l : list string) : bool := existsb (String.eqb k) l.

(* getattr(self, name): a property of the class takes precedence, then the instance
   dictionary, then class attributes *)
Definition getattr (o : obj) (n : string) : result pyv :=
  match c_get (o_cls o) n with
  | Some g => g (o_dict o)
  | None =>
      match dget (o_dict o) n with
      | Some v => Ok v
      | None => if mem n (c_attrs (o_cls o)) then Ok (PMeth n) else Raise AttributeError
      end
  end.

(* hasattr(self, name): only AttributeError means False, other exceptions of a
   property getter propagate *)
Definition hasattr (o : obj) (n : string) : result bool :=
  match getattr o n with
  | Ok _ => Ok true
  | Raise AttributeError => Ok false
  | Raise e => Raise e
  end.

(* object.__setattr__: a property without setter raises AttributeError. The
   setters assign private attributes by self._x = v, which passes the check of
   __setattr__ because _x is a field; simplified to the assignment. *)
Definition raw_setattr (o : obj) (n : string) (v : pyv) : result obj :=
  match c_set (o_cls o) n with
  | Some f => do kv <- f (o_dict o) v ;;
              Ok (mkObj (o_cls o) (dset (o_dict o) (fst kv) (snd kv)) (o_frozen o))
  | None =>
      match c_get (o_cls o) n with
      | Some _ => Raise AttributeError
      | None => Ok (mkObj (o_cls o) (dset (o_dict o) n v) (o_frozen o))
      end
  end.

(* models.py 100-105 Model.__setattr__. *)
Definition setattr (o : obj) (n : string) (v : pyv) : result obj :=
  if o_frozen o then
    do h <- hasattr o n ;;
    if h then raw_setattr o n v else Raise AttributeError
  else raw_setattr o n v.

(* Generated __init__ with keyword arguments args, then __post_init__. All fields
   are assigned through __setattr__ while not frozen; names are checked by the
   signature (TypeError). The extrapolation models set self.model afterwards
   (298, 353). *)
Definition construct (c : cls) (args : dict) : result obj :=
  if forallb (fun kv => mem (fst kv) (map fst (c_fields c))) args then
    let d := map (fun kv => (fst kv, match dget args (fst kv) with
                                     | Some v => v | None => snd kv end)) (c_fields c) in
    let d' := if c_freeze c then d else dset d "model" (PMeth "__model") in
    Ok (mkObj c d' (c_freeze c))
  else Raise TypeError.

(* "__" in name *)
Fixpoint has_dunder (s : string) : bool :=
  match s with
  | EmptyString => false
  | String a s' =>
      match s' with
      | EmptyString => false
      | String b _ => (Ascii.eqb a "_"%char && Ascii.eqb b "_"%char) || has_dunder s'
      end
  end.

(* models.py 28-32 get_parameters (the flag _Model__isfrozen is in the instance
   dictionary of Python and removed here; it is o_frozen in the model) *)
Definition get_parameters (o : obj) : list string :=
  filter (fun k => negb (has_dunder k)) (map fst (o_dict o)).

Definition is_none (v : pyv) : bool := match v with PNone => true | _ => false end.

(* models.py 52-53 *)
Definition strip_ (k : string) : string :=
  match k with
  | String a k' => if Ascii.eqb a "_"%char then k' else k
  | EmptyString => k
  end.

(* models.py 55-62, one key: None raises ValueError; for an empty list or a list
   containing None the message uses the undefined name `name`: NameError *)
Definition check_key (o : obj) (k : string) : result unit :=
  do v <- getattr o (strip_ k) ;;
  match v with
  | PNone => Raise ValueError
  | PList l => if match l with [] => true | _ => existsb is_none l end
               then Raise NameError else Ok tt
  | _ => Ok tt
  end.

Fixpoint check_keys (o : obj) (ks : list string) : result unit :=
  match ks with
  | [] => Ok tt
  | k :: ks' => do _ <- check_key o k ;; check_keys o ks'
  end.

(* models.py 34-62 Model.is_changed(include, exclude) *)
Definition is_changed (o : obj) (include exclude : list string) : result unit :=
  let inc := match include with [] => get_parameters o | _ => include end in
  check_keys o (filter (fun k => negb (mem k exclude)) inc).

(* strings of a list value *)
Fixpoint strings (l : list pyv) : list string :=
  match l with
  | [] => []
  | PStr s :: l' => s :: strings l'
  | _ :: l' => strings l'
  end.

(* models.py 453-462 NormalizationParameters.is_changed: the default of exclude is
   self.exclude_check_change *)
Definition np_is_changed (o : obj) (include : list string) (exclude : option (list string))
  : result unit :=
  match exclude with
  | Some e => is_changed o include e
  | None =>
      do v <- getattr o "exclude_check_change" ;;
      match v with
      | PList l => is_changed o include (strings l)
      | _ => Raise TypeError
      end
  end.

(* pickle of a bound method stores (getattr, (self, function name)); for the
   private method __model the name is not mangled, so loading raises
   AttributeError (models.py 79, 96 with the default model of 298, 353). *)
Definition unpicklable (v : pyv) : bool :=
  match v with PMeth n => has_dunder n | _ => false end.

(* models.py 71-98: save writes the pickled object, load reads it and assigns every
   parameter. A file is the object it holds. *)
Fixpoint load_keys (o src : obj) (ks : list string) : result obj :=
  match ks with
  | [] => Ok o
  | k :: ks' => do v <- getattr src k ;; do o' <- setattr o k v ;; load_keys o' src ks'
  end.
Definition load (o : obj) (file : option obj) : result obj :=
  match file with
  | None => Raise OSErr
  | Some src =>
      if existsb (fun kv => unpicklable (snd kv)) (o_dict src) then Raise AttributeError
      else load_keys o src (get_parameters src)
  end.

(* ------------------------------------------------------------------ classes *)

Definition num (z : Z) : pyv := PNum (qz z).
Definition model_attrs : list string :=
  ["get_parameters"; "is_changed"; "asdict"; "save"; "load"; "_freeze"].

(* models.py 479-486 *)
Definition spinMass (d : dict) : pyv :=
  match dget d "_spincutPars" with
  | Some (PDict p) => match dget p "mass" with Some m => m | None => PNone end
  | _ => PNone
  end.
(* a field of the own dictionary (always present) *)
Definition fld (d : dict) (k : string) : pyv :=
  match dget d k with Some v => v | None => PNone end.

(* models.py 479-525: getters *)
Definition np_get (n : string) : option (dict -> result pyv) :=
  if n =? "spinMass" then Some (fun d => Ok (spinMass d))
  else if n =? "spincutPars" then Some (fun d => Ok (fld d "_spincutPars"))
  else if n =? "A" then
    Some (fun d => Ok (match fld d "_A" with PNone => spinMass d | v => v end))
  else if n =? "Emax" then
    Some (fun d => match fld d "_Emax" with
                   | PNone => match fld d "Sn" with
                              | PList (x :: _) | PTup (x :: _) => Ok x
                              | PList [] | PTup [] => Raise IndexError
                              | PDict _ => Raise KeyError
                              | PStr (String a _) => Ok (PStr (String a ""))
                              | PStr EmptyString => Raise IndexError
                              | _ => Raise TypeError
                              end
                   | v => Ok v
                   end)
  else None.

(* models.py 493-530: setters *)
Definition np_set (n : string) : option (dict -> pyv -> result (string * pyv)) :=
  if n =? "spincutPars" then
    Some (fun d v => match v with
                     | PDict _ => Ok ("_spincutPars", v)
                     | _ => Raise TypeError
                     end)
  else if n =? "A" then Some (fun d v => Ok ("_A", v))
  else if n =? "Emax" then
    Some (fun d v => match v, fld d "Emin" with
                     | PNum x, PNum e => if qltb e x then Ok ("_Emax", v)
                                         else Raise AssertionError
                     | _, _ => Raise TypeError
                     end)
  else None.

Definition np_fields : dict :=
  [("name", PStr ""); ("Z", PNone); ("_A", PNone); ("D0", PNone); ("Gg", PNone);
   ("Sn", PNone); ("Jtarget", PNone); ("Emin", num 0); ("_Emax", PNone);
   ("steps", num 101); ("spincutModel", PNone); ("_spincutPars", PNone);
   ("exclude_check_change", PList [PStr "A"; PStr "Z"; PStr "exclude_check_change"])].

(* models.py 402-530. name has no default in Python (TypeError if omitted; the
   model lets it default to the empty string). *)
Definition NP : cls :=
  mkCls "NormalizationParameters" np_fields (model_attrs ++ ["E_grid"]) np_get np_set true.

(* models.py 533-569 *)
Definition res_fields : dict :=
  ("name", PStr "") :: map (fun k => (k, PList []))
    ["nld"; "gsf"; "pars"; "samples"; "nld_model"; "gsf_model_low"; "gsf_model_high"].
Definition RES : cls :=
  mkCls "ResultsNormalized" res_fields model_attrs (fun _ => None) (fun _ => None) true.

(* models.py 144-399 *)
Definition ext_get (n : string) : option (dict -> result pyv) :=
  if n =? "method" then Some (fun d => Ok (fld d "_method"))
  else if n =? "shift_after" then
    Some (fun d => Ok (match fld d "_shift_after" with PNone => fld d "shift" | v => v end))
  else None.
Definition ext_set (n : string) : option (dict -> pyv -> result (string * pyv)) :=
  if n =? "method" then
    Some (fun d v => match v with
                     | PStr s => if mem s ["fit"; "fix"] then Ok ("_method", v)
                                 else Raise NotImplementedErr
                     | _ => Raise NotImplementedErr
                     end)
  else if n =? "shift_after" then Some (fun d v => Ok ("_shift_after", v))
  else None.
Definition ext_fields : dict :=
  [("name", PStr ""); ("scale", num 1); ("shift", num 25); ("_shift_after", PNone);
   ("Emin", PNone); ("Emax", PNone); ("steps", num 1001); ("_method", PStr "fit");
   ("model", PNone); ("Efit", PList [PNone; PNone])].
Definition EXT (n : string) : cls :=
  mkCls n ext_fields
        (model_attrs ++ ["range"; "norm_to_shift_after"; "fit"; "extrapolate"; "autorange";
                         "autofitrange"]) ext_get ext_set false.

(* ------------------------------------------------------------------ histories *)

(* One statement of a user: o.n = v; a raised exception leaves the object as it is *)
Definition assign (o : obj) (nv : string * pyv) : obj :=
  match setattr o (fst nv) (snd nv) with Ok o' => o' | Raise _ => o end.
Definition history (o : obj) (l : list (string * pyv)) : obj := fold_left assign l o.
