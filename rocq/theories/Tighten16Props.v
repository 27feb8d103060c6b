(* Ragged text files and the resolution on the diagonal, found by mutation testing. *)
From Coq Require Import ZArith String Ascii List Bool Lia.
From Verif Require Import PyBase MatrixModel ExtractorModel MamaTextModel MamaTextProps TxtTextModel TxtTextProps.
Import ListNotations.
Local Open Scope list_scope.
Local Notation length := List.length (only parsing).

(* the lines of the file that have words *)
Definition word_lines (f : text) : list (list text) := filter nonempty (map fields (lines f)).
(* a file whose rows have different numbers of words is refused with ValueError at the first such row *)
Theorem loadtxt_ragged_refused : forall f r q x rest, word_lines f = (r :: q) ++ x :: rest ->
  Forall (fun w => length w = length r /\ exists v, floats w = Ok v) (r :: q) -> length x <> length r -> loadtxt f = Raise ValueError.
Proof.
  intros f r q x rest W F X. unfold loadtxt. fold (word_lines f). rewrite W. cbn [app].
  change (r :: q ++ x :: rest) with ((r :: q) ++ x :: rest). clear W. induction F as [|w l (L & v & V) F IH]; cbn [app rows_of].
  - destruct (Nat.eqb_spec (length x) (length r)); [contradiction|reflexivity].
  - rewrite L, Nat.eqb_refl, V. cbn [rbind]. now rewrite IH.
Qed.
Print Assumptions loadtxt_ragged_refused.
Example ragged_case : loadtxt (t "1 2" ++ [NL] ++ t "3 4 5" ++ [NL]) = Raise ValueError.
Proof. reflexivity. Qed.

Local Open Scope Qc_scope.
(* the resolution at Ex = Eg for equal binning: the one of Ex and the one of the detector, 73.2087 + 0.50824 E + 0.0000962481 E^2,
   added in squares *)
Theorem resolution_value : forall sqrtq rx Exa Ega x0 x1 X g0 g1 G, Exa = x0 :: x1 :: X -> Ega = g0 :: g1 :: G ->
  the_resolution sqrtq true rx Exa Ega =
    if qeqb (x1 - x0) (g1 - g0)
    then Ok (map (fun E => let g := sqrtq ((qz 73208700000 + qz 508240000 * E + qz 9624810 * (E * E) / qz 100) / qz 1000000000) in sqrtq (rx * rx + g * g)) Exa)
    else Raise AssertionError.
Proof.
  intros sqrtq rx Exa Ega x0 x1 X g0 g1 G -> ->. unfold the_resolution, diagonal_resolution.
  assert (P : forall a b (l : list Qc), py_index (a :: b :: l) 1 = Ok b /\ py_index (a :: b :: l) 0 = Ok a).
  { intros a b l. unfold py_index. cbn [length]. rewrite !Nat2Z.inj_succ. change (1 <? 0)%Z with false. change (0 <? 0)%Z with false. cbv zeta iota.
    replace (1 <? Z.succ (Z.succ (Z.of_nat (length l))))%Z with true by (symmetry; apply Z.ltb_lt; lia).
    replace (0 <? Z.succ (Z.succ (Z.of_nat (length l))))%Z with true by (symmetry; apply Z.ltb_lt; lia). split; reflexivity. }
  rewrite (proj1 (P x0 x1 X)), (proj2 (P x0 x1 X)), (proj1 (P g0 g1 G)), (proj2 (P g0 g1 G)). cbn [rbind].
  destruct (qeqb _ _); [|reflexivity]. f_equal. apply map_ext. intros E. cbv zeta.
  assert (Q : (qz 73208700000 + qz 508240000 * E + qz 9624810 * (E * E) / qz 100) / qz 1000000000 = qn 732087 10000 + qn 50824 100000 * E + qn 962481 10000000000 * (E * E)).
  { replace (qn 732087 10000) with (qz 732087 / qz 10000) by (apply Qc_is_canon; reflexivity).
    replace (qn 50824 100000) with (qz 50824 / qz 100000) by (apply Qc_is_canon; reflexivity).
    replace (qn 962481 10000000000) with (qz 962481 / qz 10000000000) by (apply Qc_is_canon; reflexivity).
    replace (qz 73208700000) with (qz 732087 * qz 100000) by (apply Qc_is_canon; reflexivity).
    replace (qz 1000000000) with (qz 10000 * qz 100000) by (apply Qc_is_canon; reflexivity).
    replace (qz 508240000) with (qz 50824 * qz 10000) by (apply Qc_is_canon; reflexivity).
    replace (qz 9624810) with (qz 962481 * qz 10) by (apply Qc_is_canon; reflexivity).
    replace (qz 10000000000) with (qz 10000 * qz 100000 * qz 10) by (apply Qc_is_canon; reflexivity).
    replace (qz 100) with (qz 10 * qz 10) by (apply Qc_is_canon; reflexivity).
    field. repeat split; discriminate. }
  unfold fwhm_Eg. rewrite Q. reflexivity.
Qed.
Print Assumptions resolution_value.
Theorem resolution_off : forall sqrtq rx Exa Ega, the_resolution sqrtq false rx Exa Ega = Ok (map (fun _ => 0) Exa).
Proof. reflexivity. Qed.
Print Assumptions resolution_off.
Example resolution_case : the_resolution (fun x => x) true 0 [0; 1] [0; 1; qz 2] = Ok [qn 732087 10000 * qn 732087 10000; qn 737170362481 10000000000 * qn 737170362481 10000000000].
Proof. vm_compute. repeat f_equal; apply Qc_is_canon; reflexivity. Qed.
