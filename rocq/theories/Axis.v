(* Axis names and matrix states: ompy/abstractarray.py:142-167 and
   ompy/matrixstate.py.  Strings are ASCII strings; str.lower() is modelled on
   ASCII letters (no non-ASCII character lower-cases to one of the names used). *)
From Coq Require Import Ascii String.
From Verif Require Import PyBase.
Local Open Scope string_scope.

Definition lower_ascii (c : ascii) : ascii :=
  let n := nat_of_ascii c in
  if ((65 <=? n) && (n <=? 90))%nat then ascii_of_nat (n + 32) else c.
Fixpoint lower (s : string) : string :=
  match s with
  | EmptyString => EmptyString
  | String c s' => String (lower_ascii c) (lower s')
  end.

(* The axis argument: an int or a str. *)
Inductive axis_arg := AInt (n : Z) | AStr (s : string).
(* The axis in the basis of the plot. *)
Inductive paxis := AxEg | AxEx | AxBoth.

Definition str_in (s : string) (l : list string) : bool := existsb (String.eqb s) l.

(* abstractarray.py:142-167 to_plot_axis *)
Definition to_plot_axis (a : axis_arg) : result paxis :=
  match a with
  | AInt n =>
      if (n =? 0)%Z then Ok AxEg else if (n =? 1)%Z then Ok AxEx
      else if (n =? 2)%Z then Ok AxBoth else Raise ValueError
  | AStr s0 =>
      let s := lower s0 in
      if str_in s ["eg"; "x"] then Ok AxEg
      else if str_in s ["ex"; "y"] then Ok AxEx
      else if str_in s ["both"; "egex"; "exeg"; "xy"; "yx"] then Ok AxBoth
      else Raise ValueError
  end.

(* matrixstate.py:4-12 *)
Inductive mstate := RAW | UNFOLDED | FIRST_GENERATION | STD | PROMPT_AND_BACKGROUND | BACKGROUND.
Definition mstate_value (s : mstate) : Z :=
  match s with
  | RAW => 1 | UNFOLDED => 2 | FIRST_GENERATION => 3 | STD => 4
  | PROMPT_AND_BACKGROUND => 5 | BACKGROUND => 6
  end.
(* matrixstate.py:14-18 __str__ *)
Definition mstate_str (s : mstate) : string :=
  match s with
  | RAW => "Raw" | UNFOLDED => "Unfolded" | FIRST_GENERATION => "First Generation"
  | STD => "Standard Deviation" | PROMPT_AND_BACKGROUND => "Prompt + background"
  | BACKGROUND => "Background"
  end.
(* matrixstate.py:25-33 str_to_state; unknown key raises KeyError *)
Definition str_to_state (s0 : string) : result mstate :=
  let s := lower s0 in
  if s =? "raw" then Ok RAW
  else if s =? "unfolded" then Ok UNFOLDED
  else if s =? "firstgen" then Ok FIRST_GENERATION
  else if s =? "std" then Ok STD
  else if s =? "prompt+bg" then Ok PROMPT_AND_BACKGROUND
  else if s =? "bg" then Ok BACKGROUND
  else Raise KeyError.

(* A Python value compared with a state: a state, an int, something that has an
   integer attribute [value] but is no int (another enum), or anything else. *)
Inductive pyval := PState (s : mstate) | PInt (n : Z) | PEnum (v : Z) | POther.
(* matrixstate.py:20-23 __eq__ : hasattr(other, "value").  int objects have no
   attribute [value]. *)
Definition state_eq (s : mstate) (o : pyval) : bool :=
  match o with
  | PState t => Z.eqb (mstate_value s) (mstate_value t)
  | PEnum v => Z.eqb (mstate_value s) v
  | PInt _ | POther => false
  end.
(* `!=`: MatrixState defines only __eq__; IntEnum inherits int.__ne__, which is found
   first in the method resolution order (object.__ne__ would have negated __eq__).
   int.__ne__ returns NotImplemented for a non-int, and the default comparison is
   identity: different objects are unequal. *)
Definition state_ne (s : mstate) (o : pyval) : bool :=
  match o with
  | PState t => negb (Z.eqb (mstate_value s) (mstate_value t))
  | PInt n => negb (Z.eqb (mstate_value s) n)
  | PEnum _ | POther => true
  end.

(* The argument of the state setter *)
Inductive state_arg := SNone | SStr (s : string) | SState (s : mstate) | SOther.
(* matrix.py:838-849 state setter *)
Definition set_state (a : state_arg) : result (option mstate) :=
  match a with
  | SNone => Ok None
  | SStr s => rmap Some (str_to_state s)
  | SState s => Ok (Some s)
  | SOther => Raise ValueError
  end.
