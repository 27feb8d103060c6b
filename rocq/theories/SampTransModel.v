(* ompy/ensembleNormalizer.py: tranform_nld_gsf (646-731) and samples_from_res
   (309-334): the samples drawn from the posterior of every ensemble member,
   with the nld and gsf transformed by them.

   Numbers, vectors and the two Vector methods used (transform, vector.py
   264-297, and to_MeV, vector.py 441-460) are parameters: this module is
   about which parameters are applied to which vector.  A Vector in MeV can
   always be transformed.  np.random's shuffle is a parameter too. *)
From Coq Require Import List Arith String Bool.
From Verif Require Import PyBase.
Import ListNotations.

Section Trans.
Context {num vec : Type}.
Variable transform : num -> num -> vec -> vec.   (* const alpha v *)
Variable to_MeV : vec -> vec.

(* the nld and gsf arguments: None, a Vector, or a list/array of them *)
Inductive varg := ANone | AVec (v : vec) | AList (l : list vec).

(* samples: dict of parameter name -> list of values, in insertion order *)
Definition samples_t := list (string * list num).
Fixpoint dict_get (d : samples_t) (k : string) : result (list num) :=
  match d with
  | [] => Raise KeyError
  | (k', v) :: r => if String.eqb k' k then Ok v else dict_get r k
  end.

(* 673-675: N_multinest is the length of the first entry; with no entry it
   stays unbound *)
Definition n_multinest (d : samples_t) : result nat :=
  match d with [] => Raise NameError | (_, v) :: _ => Ok (List.length v) end.

(* N_max = 100 is the default (647), samples_from_res does not change it *)
Definition arg_N (N_multi N_max : nat) (a : varg) (before : option nat) : option nat :=
  match a with
  | ANone => before
  | AVec _ => Some (Nat.min N_multi N_max)
  | AList l => Some (List.length l)
  end.

(* one try block of the loop, 702-713 and 714-723: whatever goes wrong is
   passed over, and nothing is appended.  pars = (const, alpha) lists, unbound
   when the argument is None (which fails before they are read) *)
Definition try_one (a : varg) (const alpha : list num) (i i_multi : nat) : option vec :=
  match (match a with ANone => None | AVec v => Some v | AList l => nth_error l i end),
        nth_error alpha i_multi, nth_error const i_multi with
  | Some v, Some al, Some c => Some (transform c al v)
  | _, _, _ => None
  end.

(* the loop 699-723: randlist[i] is outside of the try blocks *)
Fixpoint loop (nld gsf : varg) (A B alpha : list num) (randlist : list nat) (i : nat) (fuel : nat)
    : result (list vec * list vec) :=
  match fuel with
  | O => Ok ([], [])
  | S f =>
      match nth_error randlist i with
      | None => Raise IndexError
      | Some im =>
          do r <- loop nld gsf A B alpha randlist (S i) f ;;
          Ok ((match try_one nld A alpha i im with Some v => [v] | None => [] end) ++ fst r,
              (match try_one gsf B alpha i im with Some v => [v] | None => [] end) ++ snd r)
      end
  end.

(* one row of the resulting DataFrame: its index label, the parameters and the
   two vectors *)
Record row := mkRow { r_index : nat; r_pars : list (string * num); r_nld : vec; r_gsf : vec }.

(* the parameters of one row: df.iloc[i] *)
Fixpoint pars_at (d : samples_t) (i : nat) : list (string * num) :=
  match d with
  | [] => []
  | (k, v) :: r => match nth_error v i with Some x => (k, x) :: pars_at r i | None => pars_at r i end
  end.
Fixpoint zip_rows (d : samples_t) (idx : list nat) (nl gl : list vec) : list row :=
  match idx, nl, gl with
  | i :: idx', v :: nl', w :: gl' => mkRow i (pars_at d i) v w :: zip_rows d idx' nl' gl'
  | _, _, _ => []
  end.

(* tranform_nld_gsf, 646-731.  randlist: what the shuffle makes of
   0, ..., N_multinest - 1.  DataFrame.from_dict (725-726) refuses entries of
   different lengths; a list of the wrong length cannot become a column
   (728-729). *)
Definition tranform_nld_gsf (shuffle : nat -> list nat) (N_max : nat) (d : samples_t) (nld gsf : varg)
    : result (list row) :=
  do n <- n_multinest d ;;
  let randlist := shuffle n in
  do pn <- (match nld with
            | ANone => Ok ([], [])
            | _ => do A <- dict_get d "A" ;; do al <- dict_get d "alpha" ;; Ok (A, al)
            end) ;;
  do pg <- (match gsf with
            | ANone => Ok ([], snd pn)
            | _ => do B <- dict_get d "B" ;; do al <- dict_get d "alpha" ;; Ok (B, al)
            end) ;;
  match arg_N n N_max gsf (arg_N n N_max nld None) with
  | None => Raise NameError
  | Some N =>
      do r <- loop nld gsf (fst pn) (fst pg) (snd pg) randlist 0 N ;;
      if negb (forallb (fun kv => Nat.eqb (List.length (snd kv)) n) d) then Raise ValueError
      else
        let idx := firstn N randlist in
        if negb (Nat.eqb (List.length (fst r)) (List.length idx)) then Raise ValueError
        else if negb (Nat.eqb (List.length (snd r)) (List.length idx)) then Raise ValueError
        else Ok (zip_rows d idx (fst r) (snd r))
  end.

(* samples_from_res, 309-334: the members one after the other.  shuffle k is
   the shuffle of the k-th call: with random_state=None it is the same each
   time (a generator with a fixed seed is made per call), with a generator
   passed in it is not.  Without results the name samples is never bound. *)
Record member := mkMember { m_samples : samples_t; m_nld : vec; m_gsf : vec }.
Fixpoint members (shuffle : nat -> nat -> list nat) (k : nat) (l : list member) : result (list row) :=
  match l with
  | [] => Ok []
  | m :: r =>
      do rows <- tranform_nld_gsf (shuffle k) 100 (m_samples m) (AVec (to_MeV (m_nld m))) (AVec (to_MeV (m_gsf m))) ;;
      do rest <- members shuffle (S k) r ;;
      Ok (rows ++ rest)
  end.
Definition samples_from_res (shuffle : nat -> nat -> list nat) (l : list member) : result (list row) :=
  match l with [] => Raise NameError | _ => members shuffle 0 l end.
End Trans.
Arguments varg : clear implicits.
Arguments samples_t : clear implicits.
Arguments row : clear implicits.
Arguments member : clear implicits.
