(* Model of the arguments and results of the two optimisers of the normalisation: the bounds of
   differential evolution, the warning about them, the priors of MultiNest
   (ompy/normalizer_nld.py 116-117, 252, 274-287, 316-354, ompy/normalizer_simultan.py
   244-294), over the real numbers.  The optimisers are not modelled: what differential
   evolution finds is a point within the bounds at which the likelihood is largest. *)
From Coq Require Import Reals List String.
From Coquelicot Require Import Rbar.
From Verif Require Import PyBase TransformModel NormModel LikeModel StatsModel.
Import ListNotations.
Local Open Scope R_scope.

(* normalizer_nld.py:116-117, a dict in the order of insertion *)
Definition bdict := list (string * (R * R)).
Definition default_bounds : bdict :=
  [("A", (/ 10, 1000)); ("alpha", (/ 10, 20)); ("T", (/ 10, 1)); ("Eshift", (- (5), 5))]%string.
Fixpoint lookup (k : string) (b : bdict) : option (R * R) :=
  match b with [] => None | (n, v) :: t => if String.eqb n k then Some v else lookup k t end.
(* normalizer_nld.py:252 and 274: list(self.bounds.values()), parameter by position *)
Fixpoint in_box (bs : list (R * R)) (x : list R) : Prop :=
  match bs, x with
  | [], [] => True
  | (lo, hi) :: bs', v :: x' => lo <= v <= hi /\ in_box bs' x'
  | _, _ => False
  end.
(* the parameters as the likelihood unpacks them *)
Definition plist (x : par4) : list R := [p_A x; p_alpha x; p_T x; p_Eshift x].
Definition within (b : bdict) (x : par4) : Prop := in_box (map snd b) (plist x).
(* normalizer_nld.py:280-285: the parameters warned about; x in [lo, hi] as a list compares
   with the two ends.  A missing key is a KeyError. *)
Fixpoint edge_warnings (b : bdict) (p0 : list (string * R)) : result (list string) :=
  match p0 with
  | [] => Ok []
  | (k, x) :: t =>
      match lookup k b with
      | None => Raise KeyError
      | Some (lo, hi) =>
          do w <- edge_warnings b t ;;
          Ok (if Req_EM_T x lo then k :: w else if Req_EM_T x hi then k :: w else w)
      end
  end.
Definition p0_of (x : par4) : list (string * R) := combine ["A"; "alpha"; "T"; "Eshift"]%string (plist x).

(* 10**(u*2 + (log10(g) - 1)); log10(0) is -inf, and 10**(-inf) is 0 *)
Definition prior_log0 (g u : R) : R := if Req_EM_T g 0 then 0 else prior_log g u.
(* normalizer_nld.py:316-351: the point of the unit cube u1 .. u4 as parameters, or the exception
   raised before.  (The prior of A for a guess of A that is not positive is not modelled: the
   theorems ask for a positive one.) *)
Definition prior (inv : R -> Rbar) (g : par4) (u1 u2 u3 u4 : R) : result (Rbar * R * R * Rbar) :=
  if Rlt_dec (p_alpha g) 0 then Raise NotImplementedErr
  else if Rlt_dec (p_T g) 0 then Raise ValueError
  else Ok (prior_scale inv (p_A g) u1, prior_log0 (p_alpha g) u2, prior_log0 (p_T g) u3, prior_shift inv u4).
