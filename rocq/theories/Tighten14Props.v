(* Text files that cannot be read back, found by mutation testing. *)
From Coq Require Import ZArith String Ascii List Bool Lia.
From Verif Require Import PyBase MamaTextModel MamaTextProps TxtTextModel TxtTextProps.
Import ListNotations.
Local Open Scope list_scope.
Local Notation length := List.length (only parsing).

(* A matrix without rows is written, but its file, of one line, cannot be read: IndexError. *)
Theorem txt_no_rows_refused : forall h Eg, match h with HDefault => True | HText x => no_return x | HFalse => False end ->
  Forall (printable 18) Eg -> exists f, save_txt_2D h [] Eg [] = Ok f /\ load_txt_2D f = Raise IndexError.
Proof.
  intros h Eg N P.
  assert (HA : exists x, header_arg h = HStr x /\ no_return x) by (destruct h as [| |x]; [exists default_header; split; [reflexivity|exact default_no_return]|contradiction|exists x; split; [reflexivity|exact N]]).
  destruct HA as (x & HE & NX).
  destruct (savetxt_loadtxt x [(0, -18)%Z :: Eg] (S (length Eg)) NX) as (f & W & RT).
  { constructor; [constructor; [left; split; reflexivity|exact P]|constructor]. }
  { intros r [<-|[]]. reflexivity. }
  { lia. }
  exists f. split; [unfold save_txt_2D, framed18; cbn [forallb length Nat.eqb andb combine map rbind]; rewrite HE; exact W|].
  unfold load_txt_2D. rewrite RT. reflexivity.
Qed.
Print Assumptions txt_no_rows_refused.
(* A matrix without columns, of any number of rows, is written as one column: IndexError. *)
Theorem txt_no_columns_refused : forall h Ex, match h with HDefault => True | HText x => no_return x | HFalse => False end ->
  Forall (printable 18) Ex -> exists f, save_txt_2D h (map (fun _ => []) Ex) [] Ex = Ok f /\ load_txt_2D f = Raise IndexError.
Proof.
  intros h Ex N P.
  assert (HA : exists x, header_arg h = HStr x /\ no_return x) by (destruct h as [| |x]; [exists default_header; split; [reflexivity|exact default_no_return]|contradiction|exists x; split; [reflexivity|exact N]]).
  destruct HA as (x & HE & NX).
  assert (C : map (fun p : dec * list dec => fst p :: snd p) (combine Ex (map (fun _ => []) Ex)) = map (fun e => [e]) Ex).
  { clear. induction Ex as [|e Ex IH]; [reflexivity|]. cbn [map combine fst snd]. now rewrite IH. }
  destruct (savetxt_loadtxt x ([(0, -18)%Z] :: map (fun e => [e]) Ex) 1 NX) as (f & W & RT).
  { constructor; [repeat constructor|]. apply Forall_forall. intros r I. apply in_map_iff in I. destruct I as (e & <- & I). constructor; [exact (proj1 (Forall_forall _ _) P e I)|constructor]. }
  { intros r [<-|I]; [reflexivity|]. apply in_map_iff in I. destruct I as (e & <- & _). reflexivity. }
  { lia. }
  exists f. split.
  - unfold save_txt_2D, framed18. rewrite map_length, Nat.eqb_refl.
    assert (B : forallb (fun r : list dec => Nat.eqb (length r) (length (@nil dec))) (map (fun _ => []) Ex) = true) by (apply forallb_forall; intros r I; apply in_map_iff in I; destruct I as (e & <- & _); reflexivity).
    rewrite B. cbn [andb rbind]. rewrite C, HE. exact W.
  - unfold load_txt_2D. rewrite RT. cbn [rbind two_d]. destruct (map (fun e => [e]) Ex); reflexivity.
Qed.
Print Assumptions txt_no_columns_refused.
(* A vector of one bin is written, but its file cannot be read: IndexError. *)
Theorem txt_one_bin_refused : forall h e v, no_return h -> printable 18 e -> printable 18 v ->
  exists f, save_txt_1D (HStr h) [e] [v] None = Ok f /\ load_txt_1D f = Raise IndexError.
Proof.
  intros h e v N Pe Pv. destruct (savetxt_loadtxt h [[e; v]] 2 N) as (f & W & RT).
  { constructor; [constructor; [exact Pe|constructor; [exact Pv|constructor]]|constructor]. }
  { intros r [<-|[]]. reflexivity. }
  { lia. }
  exists f. split; [exact W|]. unfold load_txt_1D. rewrite RT. reflexivity.
Qed.
Print Assumptions txt_one_bin_refused.
Example one_bin_case : exists f, save_txt_1D (HStr []) [(5, -18)%Z] [(0, -18)%Z] None = Ok f /\ load_txt_1D f = Raise IndexError.
Proof. eexists. split; vm_compute; reflexivity. Qed.
