(* Vocabulary for C31-C33. *)
From Coq Require Import Ascii.
From Verif Require Import PyBase Axis MatrixModel VectorModel FileModel.

(* arrays that fit together *)
Definition vector_ok (v : vector) : Prop :=
  length (v_E v) = length (v_values v) /\ forall s, v_std v = Some s -> length s = length (v_values v).
Definition array_ok (a : arr2) : Prop := forall r, In r (a_rows a) -> length r = a_nc a.
Definition matrix_ok (m : matrix) : Prop :=
  array_ok (values m) /\ length (Ex m) = a_nr (values m) /\ length (Eg m) = a_nc (values m).

(* the energies of v expressed in the units asked for *)
Definition energies_in (u : units_arg) (v : vector) (E : list Qc) : Prop :=
  match u, v_units v with
  | UKeV, MeV => E = map (fun e => e * qz 1000) (v_E v)
  | UMeV, KeV => E = map (fun e => e / qz 1000) (v_E v)
  | UKeV, KeV | UMeV, MeV | USame, _ => E = v_E v
  | _, _ => False
  end.

(* nothing outside P differs *)
Definition only (P : path -> Prop) (d d' : fs) : Prop := forall q, ~ P q -> d' q = d q.
(* the states of the file system in which a sequence of operations can be interrupted *)
Definition crash_state (ops : list op) (d d' : fs) : Prop := exists n, d' = exec (firstn n ops) d.

(* an axis with constant bin width *)
Definition equidistant (l : list Qc) (a b : Qc) : Prop := forall i, (i < length l)%nat -> vget l i = a + b * qnat i.
(* printing with a relative error of at most e *)
Definition printed (rd : Qc -> Qc) (e : Qc) : Prop := 0 <= e /\ forall x, qabs (rd x - x) <= e * qabs x.
