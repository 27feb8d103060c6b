(* ompy/library.py 387-433: self_if_none and _retrieve_name, which finds the name of the
   argument by matching a regular expression with the line of source of the call. *)
From Coq Require Import String Ascii List Bool Arith Lia.
From Verif Require Import PyBase.
Import ListNotations.
Local Open Scope list_scope.

(* \w: a letter, digit or underscore (non-ASCII letters are not modelled) *)
Definition word_char (c : ascii) : bool :=
  let n := nat_of_ascii c in
  ((48 <=? n) && (n <=? 57) || (65 <=? n) && (n <=? 90) || (97 <=? n) && (n <=? 122) || (n =? 95))%nat.
(* the longest run of \w at the start *)
Fixpoint word_run (l : list ascii) : list ascii :=
  match l with
  | c :: t => if word_char c then c :: word_run t else []
  | [] => []
  end.
Definition is_open (c : ascii) : bool := Ascii.eqb c "("%char.
Definition is_close (c : ascii) : bool := Ascii.eqb c ")"%char.
(* \((\w+).*\).* at the start of l: the group, if it matches.  The group takes the longest run
   of \w; giving characters back never helps, since they are no ")" *)
Definition match_here (l : list ascii) : option (list ascii) :=
  match l with
  | c :: t =>
      if is_open c
      then match word_run t with
           | [] => None
           | w => if existsb is_close (skipn (List.length w) t) then Some w else None
           end
      else None
  | [] => None
  end.
(* 430: re.search(r".*\((\w+).*\).*", line): the leading .* is greedy, hence the last place
   where the rest matches; the line has no line break *)
Fixpoint search (l : list ascii) : option (list ascii) :=
  match l with
  | [] => match_here []
  | _ :: t => match search t with Some w => Some w | None => match_here l end
  end.
(* 429-433 _retrieve_name; the line is the one of the caller of the caller of self_if_none
   (frame 3), stripped of white space, which does not matter *)
Definition retrieve_name (line : string) : result string :=
  match search (list_ascii_of_string line) with
  | Some w => Ok (string_of_list_ascii w)
  | None => Raise AssertionError
  end.

(* 387-411 self_if_none(instance, variable, nonable) seen from the line of its caller.  The
   attributes of the instance: None if there is none of that name, Some None if it is None *)
Definition self_if_none {A} (attrs : string -> option (option A)) (line : string) (variable : option A) (nonable : bool) : result (option A) :=
  do name <- retrieve_name line ;;
  match variable with
  | Some x => Ok (Some x)
  | None =>
      match attrs name with
      | None => Raise AttributeError
      | Some None => if nonable then Ok None else Raise ValueError
      | Some (Some x) => Ok (Some x)
      end
  end.

(* the calls in the package, with the name of the argument: normalizer_nld.py 179-192, 251-252,
   normalizer_gsf.py 162-184, normalizer_simultan.py 126-133 *)
Local Open Scope string_scope.
Definition call_sites : list (string * string) :=
  [("self.limit_low = self.self_if_none(limit_low)", "limit_low");
   ("self.limit_high = self.self_if_none(limit_high)", "limit_high");
   ("discrete = self.self_if_none(discrete)", "discrete");
   ("nld = self.self_if_none(nld)", "nld");
   ("self.norm_pars = self.self_if_none(norm_pars)", "norm_pars");
   ("self.bounds = self.self_if_none(bounds)", "bounds");
   ("limit_low = self.self_if_none(limit_low)", "limit_low");
   ("limit_high = self.self_if_none(limit_high)", "limit_high");
   ("normalizer_nld = self.self_if_none(normalizer_nld, nonable=True)", "normalizer_nld");
   ("self.nld = self.self_if_none(nld)", "nld");
   ("alpha = self.self_if_none(alpha, nonable=True)", "alpha");
   ("self.nld_model = self.self_if_none(nld_model, nonable=True)", "nld_model");
   ("self.norm_pars = self.self_if_none(norm_pars)", "norm_pars");
   ("self.normalizer_nld = copy.deepcopy(self.self_if_none(normalizer_nld))", "normalizer_nld");
   ("self.normalizer_gsf = copy.deepcopy(self.self_if_none(normalizer_gsf))", "normalizer_gsf");
   ("gsf = self.self_if_none(gsf)", "gsf");
   ("nld = self.self_if_none(nld)", "nld")].
