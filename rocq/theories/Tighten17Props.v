(* Refusals and small facts found by mutation testing. *)
From Coq Require Import String Ascii Lia.
From Verif Require Import Num PyBase Axis MatrixModel VectorModel NameModel SampStatModel RscDriverModel UnfoldModel RespLoadModel.
From Verif Require ExtractorModel.
Import ListNotations.
Local Notation length := List.length (only parsing).
Local Open Scope Qc_scope.

(* the characters of a name: letters, digits, underscore *)
Theorem word_characters : forall c, word_char c = true <->
  In c (list_ascii_of_string "0123456789ABCDEFGHIJKLMNOPQRSTUVWXYZ_abcdefghijklmnopqrstuvwxyz").
Proof.
  intros c.
  assert (X : word_char c = existsb (Ascii.eqb c) (list_ascii_of_string "0123456789ABCDEFGHIJKLMNOPQRSTUVWXYZ_abcdefghijklmnopqrstuvwxyz")) by (destruct c as [[] [] [] [] [] [] [] []]; reflexivity).
  rewrite X, existsb_exists. split; [intros (x & I & E); apply Ascii.eqb_eq in E; now subst|intros I; exists c; split; [exact I|apply Ascii.eqb_refl]].
Qed.
Print Assumptions word_characters.
(* a sample with another number of values than energies cannot be put on the common energies: IndexError *)
Theorem extend_values_refused : forall U v, length (s_E v) <> length (s_val v) ->
  vec_extend_values U v = Raise IndexError.
Proof. intros U v N. assert (L : length (in1d (s_E v) U) = length (s_E v)) by apply map_length. unfold vec_extend_values. rewrite L. destruct (Nat.eqb_spec (length (s_E v)) (length (s_val v))); [contradiction|reflexivity]. Qed.
Print Assumptions extend_values_refused.
(* a row of another width than the table, and not of one entry, is refused: ValueError *)
Theorem put_row_refused : forall n v, length (s_val v) <> n -> length (s_val v) <> 1%nat -> put_row n v = Raise ValueError.
Proof.
  intros n v N O. unfold put_row. destruct (Nat.eqb_spec (length (s_val v)) n); [contradiction|]. destruct (s_val v) as [|x [|y l]]; [reflexivity|now contradiction O|reflexivity].
Qed.
Print Assumptions put_row_refused.
(* the error about a missing ensemble or trapezoid is the same for both algorithms *)
Theorem entry_errors : forall Ens Act (s : settings Ens Act) e t r s' x, complete s e t r = (s', Raise x) ->
  rhosigchi_entry s e t r = (s', Raise x) /\ standard_entry s e t r = (s', Raise x).
Proof. intros Ens Act s e t r s' x C. unfold rhosigchi_entry, standard_entry. rewrite C. split; reflexivity. Qed.
Print Assumptions entry_errors.
(* the parabola starts from positive densities *)
Theorem parabola_positive : forall E v, In v (ExtractorModel.x0_parabola E) -> qn 1 100 <= v.
Proof.
  intros E v I. apply in_map_iff in I. destruct I as (e & <- & _). assert (0 <= (e - qz 4) * (e - qz 4)) by (destruct (Qclt_le_dec (e - qz 4) 0); qnra). qlra.
Qed.
Print Assumptions parabola_positive.
(* a line of the response table without seven numbers is refused: ValueError *)
Theorem row_refused : forall d, (forall l, d = DRow l -> length l <> 7%nat) -> row_of d = Raise ValueError.
Proof.
  intros d N. unfold row_of. destruct d as [|n|l|]; try reflexivity.
  specialize (N l eq_refl). destruct l as [|a [|b [|c [|d [|e [|f [|g [|h l]]]]]]]]; try reflexivity. now contradiction N.
Qed.
Print Assumptions row_refused.
Example refused_cases : put_row 3 (mkS [1; 0] [Some 1; None] None) = Raise ValueError /\ row_of (DRow [1]) = Raise ValueError.
Proof. split; reflexivity. Qed.
(* unfolding with no iterations is refused: the iteration is chosen among none *)
Theorem no_iterations_refused : forall filter1d gaussian un raw R f, u_num_iter un = 0%nat -> update_values un raw = Ok R ->
  fluctuations filter1d (Eg raw) (values raw) = Ok f -> snd (apply filter1d gaussian un raw None) = Raise ValueError.
Proof.
  intros filter1d gaussian un raw R f Z U F. unfold apply, set_R. rewrite U, F, Z. reflexivity.
Qed.
Print Assumptions no_iterations_refused.
