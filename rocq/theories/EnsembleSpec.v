(* What an ensemble with given parameters consists of, without files, processes and
   caches. *)
From Coq Require Import String.
From Verif Require Import PyBase Axis MatrixModel ArithModel EnsembleModel.
Local Open Scope list_scope.
Local Open Scope nat_scope.

(* a matrix that can be stored: values fit the axes *)
Definition checked (m : matrix) : result matrix := if fits m then Ok m else Raise ValueError.

Section Spec.
Variable rng : Type.
Variable rng_of : Z -> nat -> rng.
Variable normal : rng -> arr2 -> (nat -> nat -> Qc) * rng.
Variable poisson : rng -> arr2 -> (nat -> nat -> nat) * rng.
Variable sqrtq : Qc -> Qc.
Variable raw0 : matrix.
Variable bg0 : option matrix.
Variable bg_ratio : Qc.
Variables act_prompt act_bg act_raw act_unf act_fg : matrix -> result matrix.
Variables unfolder fg_method : matrix -> result matrix.
Variables (seed : Z) (meth : method).

Local Notation draw := (draw rng normal poisson raw0 bg0).
(* The five matrices of perturbation i.  The background is drawn with the generator left
   over from drawing prompt+bg. *)
Definition prompt_member (i : nat) : result (matrix * rng) := draw meth KPrompt (rng_of seed i).
Definition bg_member (i : nat) : result (matrix * rng) :=
  do pg <- prompt_member i ;; do _ <- act_prompt (fst pg) ;; draw meth KBg (snd pg).
Definition raw_member (i : nat) : result matrix :=
  if has_bg bg0
  then do pg <- prompt_member i ;; do p <- act_prompt (fst pg) ;;
       do bg <- draw meth KBg (snd pg) ;; do b <- act_bg (fst bg) ;;
       do r <- subtracted bg_ratio p b ;; checked r
  else rmap fst (draw meth KRaw (rng_of seed i)).
Definition unf_member (i : nat) : result matrix :=
  do r <- raw_member i ;; do r' <- act_raw r ;; do u <- unfolder r' ;; checked u.
Definition fg_member (i : nat) : result matrix :=
  do u <- unf_member i ;; do u' <- act_unf u ;; do f <- fg_method u' ;; checked f.
(* what is stored in the file of kind k *)
Definition member_file (k : kind) (i : nat) : result matrix :=
  match k with
  | KRaw => raw_member i
  | KPrompt => rmap fst (prompt_member i)
  | KBg => rmap fst (bg_member i)
  | KUnf => unf_member i
  | KFg => fg_member i
  end.
(* the arrays that belong to perturbation i *)
Definition member (i : nat) : result (arr2 * arr2 * arr2) :=
  do r <- raw_member i ;; do r' <- act_raw r ;;
  do u <- unf_member i ;; do u' <- act_unf u ;;
  do f <- fg_member i ;; do f' <- act_fg f ;;
  do _ <- (if Nat.eqb i 0 then checked f' else Ok f') ;;
  if pair_eqb (shape (values r')) (shape (values u')) && pair_eqb (shape (values r')) (shape (values f'))
  then Ok (values r', values u', values f') else Raise AssertionError.

(* the whole ensemble asked for *)
Definition requested (number : nat) : result ensemble :=
  do ts <- collect (map member (seq 0 number)) ;;
  do (rws, us, fs) <- stack ts ;;
  do _ <- checked raw0 ;;
  do f <- fg_member 0 ;; do f0 <- act_fg f ;;
  do sr <- mk_matrix (ens_std sqrtq rws) (Some (Eg raw0)) (Some (Ex raw0)) None (SStr "std") ;;
  do su <- mk_matrix (ens_std sqrtq us) (Some (Eg raw0)) (Some (Ex raw0)) None (SStr "std") ;;
  do sf <- mk_matrix (ens_std sqrtq fs) (Some (Eg f0)) (Some (Ex f0)) None (SStr "std") ;;
  Ok (mkEns rws us fs (strip f0) sr su sf).
End Spec.

(* The spread of the members, entry by entry: s has the shape of the members, and its entry is
   the root of the variance v of the n entries x, for which n^2 v = n sum(x^2) - sum(x)^2. *)
Definition is_spread (sqrtq : Qc -> Qc) (members : list arr2) (s : arr2) : Prop :=
  (forall a, In a (firstn 1 members) -> shape s = shape a) /\ forall i j, (i < a_nr s)%nat -> (j < a_nc s)%nat ->
    let x := map (fun a => aget a i j) members in
    let n := qnat (length members) in
    exists v, aget s i j = sqrtq v /\ (n * n * v = n * qsum (map (fun y => y * y) x) - qsum x * qsum x)%Qc.

(* f does not look at the state and std attributes, which files do not keep *)
Definition ignores_state (f : matrix -> result matrix) : Prop :=
  forall m, rmap strip (f m) = rmap strip (f (strip m)).
Definition torn_free (d : fdir) : Prop := forall k i, d (Member k i) <> Some FTorn.
(* for every step the files prompt+bg and bg are both there or both missing *)
Definition paired (d : fdir) : Prop := forall i, d (Member KPrompt i) = None <-> d (Member KBg i) = None.

Section History.
Variable rng : Type.
Variable rng_of : Z -> nat -> rng.
Variable normal : rng -> arr2 -> (nat -> nat -> Qc) * rng.
Variable poisson : rng -> arr2 -> (nat -> nat -> nat) * rng.
Variable raw0 : matrix.
Variable bg0 : option matrix.
Variable bg_ratio : Qc.
Variables act_prompt act_bg act_raw act_unf act_fg : matrix -> result matrix.
Variables unfolder fg_method : matrix -> result matrix.
Variables (seed : Z) (meth : method).
(* Directories produced by any number of runs with one set of parameters (but any ensemble
   size, with or without regenerate), each stopped anywhere or finished.  With a
   background, runs start from directories in which prompt+bg and bg are paired. *)
Inductive history : fdir -> Prop :=
| H_empty d : (forall k i, d (Member k i) = None) -> history d
| H_run d regen number sched : history d -> (has_bg bg0 = true -> paired d) ->
    history (fst (pool rng rng_of normal poisson raw0 bg0 bg_ratio act_prompt act_bg act_raw act_unf act_fg unfolder fg_method
                    seed meth regen number sched d))
| H_top d d' : history d -> (forall k i, d' (Member k i) = d (Member k i)) -> history d'.
(* the files of the first n members are there, complete, and the ones asked for *)
Definition holds_members (d : fdir) (n : nat) : Prop :=
  forall i k m, (i < n)%nat -> (has_bg bg0 = false -> k <> KPrompt /\ k <> KBg) ->
    member_file rng rng_of normal poisson raw0 bg0 bg_ratio act_prompt act_bg act_raw act_unf unfolder fg_method seed meth k i = Ok m ->
    d (Member k i) = Some (FMat (strip m)).
End History.

Definition nonneg (a : arr2) : Prop := forall r, In r (a_rows a) -> forall x, In x r -> (0 <= x)%Qc.
(* same axes and shape *)
Definition like (m b : matrix) : Prop := Eg m = Eg b /\ Ex m = Ex b /\ shape (values m) = shape (values b).
Definition keeps_axes (f : matrix -> result matrix) : Prop := forall m m', f m = Ok m' -> like m' m.
Definition keeps_nonneg (f : matrix -> result matrix) : Prop := forall m m', nonneg (values m) -> f m = Ok m' -> nonneg (values m').
