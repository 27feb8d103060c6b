(* Names up to letter case; the history of a state. *)
From Coq Require Import Ascii String.
From Verif Require Import PyBase Axis.

Definition is_upper (c : ascii) : Prop := (65 <= nat_of_ascii c <= 90)%nat.
(* the same letter, possibly in different case *)
Definition same_letter (c d : ascii) : Prop :=
  c = d \/ (is_upper c /\ nat_of_ascii d = (nat_of_ascii c + 32)%nat) \/
  (is_upper d /\ nat_of_ascii c = (nat_of_ascii d + 32)%nat).
Fixpoint same_name (s t : string) : Prop :=
  match s, t with
  | EmptyString, EmptyString => True
  | String c s', String d t' => same_letter c d /\ same_name s' t'
  | _, _ => False
  end.
Definition one_of (s : string) (names : list string) : Prop := exists t, In t names /\ same_name s t.
Definition axis_names (a : paxis) : list string :=
  match a with
  | AxEg => ["eg"; "x"] | AxEx => ["ex"; "y"] | AxBoth => ["both"; "egex"; "exeg"; "xy"; "yx"]
  end%string.
Definition axis_number (a : paxis) : Z := match a with AxEg => 0 | AxEx => 1 | AxBoth => 2 end.
Definition state_name (s : mstate) : string :=
  match s with
  | RAW => "raw" | UNFOLDED => "unfolded" | FIRST_GENERATION => "firstgen" | STD => "std"
  | PROMPT_AND_BACKGROUND => "prompt+bg" | BACKGROUND => "bg"
  end.
(* what an argument of the state setter denotes, if anything *)
Definition denotes (a : state_arg) (s : option mstate) : Prop :=
  match a with
  | SNone => s = None
  | SStr n => exists t, s = Some t /\ same_name n (state_name t)
  | SState t => s = Some t
  | SOther => False
  end.
(* the state after a sequence of assignments, of which the failing ones are caught *)
Fixpoint assign_all (cur : option mstate) (l : list state_arg) : option mstate :=
  match l with
  | [] => cur
  | a :: t => assign_all (match set_state a with Ok s => s | Raise _ => cur end) t
  end.
