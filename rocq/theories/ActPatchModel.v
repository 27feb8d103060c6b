(* Model of the construction of an Action (ompy/action.py 6-23, 45-57): which names record a call, and into which
   object.  Objects live in a heap (a list indexed by identity), because the recorders are closures over the Action they
   were made for.  Applying the recorded calls is ActionModel. *)
From Coq Require Import String Ascii List Bool.
From Verif Require Import PyBase ActionModel VersionModel.
Import ListNotations.
Local Open Scope string_scope.
Local Open Scope list_scope.
Local Notation length := List.length (only parsing).

(* the callables in Matrix.__dict__ (matrix.py:81-908); properties are not callable *)
Definition matrix_own : list string :=
  ["__init__"; "verify_integrity"; "load"; "save"; "calibration"; "plot"; "plot_projection"; "projection"; "ascii_plot"; "cut"; "cut_like";
   "cut_diagonal"; "line_mask"; "trapezoid"; "rebin"; "diagonal_elements"; "fill"; "fill_negative"; "remove_negative"; "fill_and_remove_negative";
   "index_Eg"; "index_Ex"; "indices_Eg"; "indices_Ex"; "to_lower_bin"; "to_mid_bin"; "iter"; "has_equal_binning"; "__matmul__"].
(* the callables in Vector.__dict__ (vector.py:36-580) *)
Definition vector_own : list string :=
  ["__init__"; "__len__"; "verify_integrity"; "calibration"; "plot"; "save"; "load"; "transform"; "error"; "cut"; "cut_nan"; "rebin"; "to_MeV"; "to_keV";
   "closest"; "cumulative"; "has_equal_binning"; "index"; "__matmul__"].
(* the callables both inherit from AbstractArray (abstractarray.py:9-139) *)
Definition abstract_own : list string :=
  ["__init__"; "has_equal_binning"; "copy"; "verify_equdistant"; "__eq__"; "__sub__"; "__rsub__"; "__add__"; "__radd__"; "__mul__"; "__rmul__";
   "__truediv__"; "__rtruediv__"; "__matmul__"; "__getitem__"; "__setitem__"].
(* the methods of Action itself (action.py:8-42) *)
Definition action_own : list string := ["__init__"; "__call__"; "patch"; "act_on"; "map"; "curry"].
Inductive base := BMatrix | BVector.
Definition own (b : base) : list string := match b with BMatrix => matrix_own | BVector => vector_own end.
Definition has (l : list string) (n : string) : bool := existsb (String.eqb n) l.

Section Heap.
Variable Arg : Type.
(* an Action: its calls, the names set on the instance by patch, and the object its recorders append to *)
Record obj := mkObj { o_calls : list (call Arg); o_names : list string; o_bound : nat }.
Definition heap := list obj.
(* __init__ with patch (action.py:8-23): the new object gets the next identity, its recorders are closed over it *)
Definition lower_string (s : string) : string := string_of_list_ascii (lower (list_ascii_of_string s)).
Definition new_action (h : heap) (b : string) : heap * result nat :=
  let make l := (h ++ [mkObj [] l (length h)], Ok (length h)) in
  if String.eqb (lower_string b) "matrix" then make matrix_own
  else if String.eqb (lower_string b) "vector" then make vector_own else (h, Raise ValueError).
Fixpoint update (h : heap) (i : nat) (f : obj -> obj) : heap :=
  match h, i with [], _ => [] | o :: r, O => f o :: r | o :: r, S j => o :: update r j f end.
(* what getattr(action, name) finds: the instance dictionary first, then the class *)
Inductive found := Recorder (into : nat) | OwnMethod | NoAttribute.
Definition attr (h : heap) (i : nat) (n : string) : found :=
  match nth_error h i with
  | None => NoAttribute
  | Some o => if has (o_names o) n then Recorder (o_bound o) else if has action_own n then OwnMethod else NoAttribute
  end.
(* action.name of a recorded name called with args and kwargs (action.py:54-57): the object of the closure gets the call, and is returned *)
Definition record_call (h : heap) (i : nat) (c : call Arg) : heap * result nat :=
  match attr h i (c_name c) with
  | Recorder j => (update h j (fun o => mkObj (record Arg (o_calls o) c) (o_names o) (o_bound o)), Ok j)
  | OwnMethod | NoAttribute => (h, Raise AttributeError)
  end.
(* action.m1(..).m2(..)...: each call on what the one before returned *)
Fixpoint chain (h : heap) (i : nat) (cs : list (call Arg)) : heap * result nat :=
  match cs with
  | [] => (h, Ok i)
  | c :: r => match record_call h i c with (h', Ok j) => chain h' j r | (h', Raise e) => (h', Raise e) end
  end.
(* copy.deepcopy(action): the calls are copied; functions are not, so the recorders stay closed over the original *)
Definition deep_copy (h : heap) (i : nat) : heap * result nat :=
  match nth_error h i with Some o => (h ++ [o], Ok (length h)) | None => (h, Raise IndexError) end.
Definition calls_of (h : heap) (i : nat) : option (list (call Arg)) := option_map o_calls (nth_error h i).
End Heap.
Arguments mkObj {Arg}. Arguments o_calls {Arg}. Arguments o_names {Arg}. Arguments o_bound {Arg}.
Arguments attr {Arg}. Arguments new_action {Arg}. Arguments record_call {Arg}. Arguments chain {Arg}. Arguments deep_copy {Arg}. Arguments calls_of {Arg}. Arguments update {Arg}.
