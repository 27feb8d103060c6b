(* Model of the report of the sampler: ompy/normalizer_nld.py 316-323, 359-361, 373-402 and
   ompy/normalizer_simultan.py 244-251, 299-301, 314-345 (optimize around the call of MultiNest):
   the files written, the medians and uncertainties returned and the table printed. *)
From Coq Require Import Reals List String Ascii.
From Flocq Require Import Core.Raux Core.Generic_fmt.
From Verif Require Import PyBase.
Import ListNotations.
Local Open Scope R_scope.

(* the exceptions of PyBase and OverflowError, which int(inf) raises *)
Inductive oexn := Py (e : exn) | OverflowErr.
Inductive outcome (A : Type) := Done (x : A) | Fails (e : oexn).
Arguments Done {A} x.
Arguments Fails {A} e.

(* f"{num}" of a number that is not negative: its decimal digits, the last one first looked at *)
Fixpoint digits (fuel n : nat) : list nat :=
  match fuel with
  | O => []
  | S f => if (n <? 10)%nat then [n] else digits f (n / 10)%nat ++ [(n mod 10)%nat]
  end.
Definition decimal (n : nat) : list ascii := map (fun d => ascii_of_nat (48 + d)) (digits (S n) n).
Definition chars := list_ascii_of_string.
(* self.multinest_path / f"nld_norm_{num}_"; dir is the path as str() gives it, not "." *)
Definition base_path (dir : list ascii) (stage : string) (num : nat) : list ascii :=
  dir ++ chars "/" ++ chars stage ++ decimal num ++ chars "_".
Definition nld_stage : string := "nld_norm_".
Definition sim_stage : string := "sim_norm_".
Definition params_json : string := "params.json".

(* one entry of stats['marginals']: m['1sigma'] and m['median'] *)
Record marginal := mkMg { mg_lo : R; mg_hi : R; mg_median : R }.
(* max(0, int(-np.floor(np.log10(sigma))) + 1); log10(0) is -inf, log10 of a negative number
   nan, and int(nan) raises ValueError *)
Definition decimals (sigma : R) : outcome nat :=
  if Rlt_dec sigma 0 then Fails (Py ValueError)
  else if Req_EM_T sigma 0 then Fails OverflowErr
  else Done (Z.to_nat (Z.max 0 (- Zfloor (ln sigma / ln 10) + 1))).
(* '%.{i}f' % x: the nearest number with i decimals, ties to even *)
Definition printed (i : nat) (x : R) : R := IZR (Znearest (fun n => negb (Z.even n)) (x * 10 ^ i)) / 10 ^ i.
(* normalizer_nld.py:388-398; a name, (median, sigma) and the two numbers printed *)
Record entry := mkEn { en_name : string; en_median : R; en_sigma : R; en_shown : R * R }.
Fixpoint report (names : list string) (ms : list marginal) : outcome (list entry) :=
  match names, ms with
  | n :: names', m :: ms' =>
      let sigma := (mg_hi m - mg_lo m) / 2 in
      match decimals sigma with
      | Fails e => Fails e
      | Done i =>
          match report names' ms' with
          | Fails e => Fails e
          | Done t => Done (mkEn n (mg_median m) sigma (printed i (mg_median m), printed i sigma) :: t)
          end
      end
  | _, _ => Done []
  end.

(* optimize: alpha and T of the guess, the names in the order of the guess; run is MultiNest
   with its analysis, writing files whose names start with the given characters *)
Definition optimize (stage : string) (names : list string) (dir : list ascii) (num : nat) (alpha T : R)
    (run : list ascii -> list marginal) : outcome (list entry) :=
  if Rlt_dec alpha 0 then Fails (Py NotImplementedErr)
  else if Rlt_dec T 0 then Fails (Py ValueError)
  else
    let path := base_path dir stage num in
    if (length path <? 60)%nat then report names (run path)
    else Fails (Py AssertionError).
(* the keys of the guess: normalizer_nld.py:279, normalizer_simultan.py:199-206 *)
Definition nld_names : list string := ["A"; "alpha"; "T"; "Eshift"]%string.
Definition sim_names : list string := (nld_names ++ ["B"%string])%list.
Definition optimize_nld := optimize nld_stage nld_names.
Definition optimize_sim := optimize sim_stage sim_names.
