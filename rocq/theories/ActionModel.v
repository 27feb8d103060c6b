(* Model of ompy/action.py: class Action. *)
From Coq Require String.
From Verif Require Import PyBase.

Section Action.
(* argument values, targets (Matrix/Vector objects), return values *)
Variables (Arg Tgt Ret : Type).
(* getattr(target, name) called with args and kwargs: the new content of the target and the returned
   value or the exception (also AttributeError for an unknown method).  The arguments
   themselves are not changed by the call. *)
Definition kwargs : Type := list (String.string * Arg).
Record call := mkCall { c_name : String.string; c_args : list Arg; c_kw : kwargs }.
Variable invoke : call -> Tgt -> Tgt * result Ret.

(* dict.update for one key: overwrite in place or append *)
Fixpoint dict_set (d : kwargs) (k : String.string) (v : Arg) : kwargs :=
  match d with
  | [] => [(k, v)]
  | (k', v') :: t => if String.eqb k k' then (k', v) :: t else (k', v') :: dict_set t k v
  end.
Definition dict_update (d e : kwargs) : kwargs := fold_left (fun d kv => dict_set d (fst kv) (snd kv)) e d.

(* action.py:54-57 wrapper: append [name, args, kwargs] *)
Definition record (calls : list call) (c : call) : list call := calls ++ [c].
(* action.py:40-42 curry *)
Definition curry (calls : list call) (kw : kwargs) : list call :=
  map (fun c => mkCall (c_name c) (c_args c) (dict_update (c_kw c) kw)) calls.
(* action.py:25-30 act_on: stops at the first exception *)
Fixpoint act_on (calls : list call) (t : Tgt) (ret : list Ret) : Tgt * result (list Ret) :=
  match calls with
  | [] => (t, Ok ret)
  | c :: r =>
      match invoke c t with
      | (t', Ok x) => act_on r t' (ret ++ [x])
      | (t', Raise e) => (t', Raise e)
      end
  end.
(* action.py:32-37 map: the collection is changed member by member *)
Fixpoint act_map (calls : list call) (ts : list Tgt) (ret : list (list Ret)) : list Tgt * result (list (list Ret)) :=
  match ts with
  | [] => ([], Ok ret)
  | t :: r =>
      match act_on calls t [] with
      | (t', Ok x) => let (r', res) := act_map calls r (ret ++ [x]) in (t' :: r', res)
      | (t', Raise e) => (t' :: r, Raise e)
      end
  end.

(* what a user does with one Action object *)
Inductive aop := ARec (c : call) | ACurry (kw : kwargs) | AAct (t : Tgt) | AMap (ts : list Tgt).
Inductive aobs := ODone | OAct (r : Tgt * result (list Ret)) | OMap (r : list Tgt * result (list (list Ret))).
Definition astep (calls : list call) (o : aop) : list call * aobs :=
  match o with
  | ARec c => (record calls c, ODone)
  | ACurry kw => (curry calls kw, ODone)
  | AAct t => (calls, OAct (act_on calls t []))
  | AMap ts => (calls, OMap (act_map calls ts []))
  end.
Definition aexec (os : list aop) : list call := fold_left (fun c o => fst (astep c o)) os [].
End Action.
Arguments mkCall {Arg}. Arguments c_name {Arg}. Arguments c_args {Arg}. Arguments c_kw {Arg}.
Arguments ARec {Arg Tgt}. Arguments ACurry {Arg Tgt}. Arguments AAct {Arg Tgt}. Arguments AMap {Arg Tgt}.
