(* The name that self_if_none looks up. *)
From Coq Require Import String Ascii List Bool Arith Lia.
From Verif Require Import PyBase NameModel.
Import ListNotations.
Local Open Scope list_scope.

(* ---------------------------------------------------------------- specification *)
(* text that contains "(word ... )": an opening parenthesis followed by a letter, digit or
   underscore, and a closing parenthesis anywhere later *)
Definition has_call (l : list ascii) : Prop :=
  exists pre c post, l = pre ++ "("%char :: c :: post /\ word_char c = true /\ In ")"%char post.
(* an identifier *)
Definition word (w : list ascii) : Prop := w <> [] /\ Forall (fun c => word_char c = true) w.
Definition no_word_first (l : list ascii) : Prop := forall c t, l = c :: t -> word_char c = false.

Lemma word_run_spec l : exists t, l = word_run l ++ t /\ Forall (fun c => word_char c = true) (word_run l) /\ no_word_first t.
Proof.
  induction l as [|c l (t & E & F & N)]; [exists []; repeat split; [constructor|intros c t Q; discriminate]|].
  cbn. destruct (word_char c) eqn:W.
  - exists t. split; [cbn; now rewrite E at 1|]. split; [now constructor|exact N].
  - exists (c :: l). split; [reflexivity|]. split; [constructor|]. intros c' t' Q. injection Q as <- _. exact W.
Qed.
Lemma word_run_app w t : Forall (fun c => word_char c = true) w -> no_word_first t -> word_run (w ++ t) = w.
Proof.
  intros F N. induction F as [|c w W _ IH]; [|cbn; now rewrite W, IH].
  destruct t as [|c t]; [reflexivity|]. cbn. now rewrite (N c t eq_refl).
Qed.
Lemma close_spec l : existsb is_close l = true <-> In ")"%char l.
Proof.
  rewrite existsb_exists. split.
  - intros (c & I & E). unfold is_close in E. apply Ascii.eqb_eq in E. now subst.
  - intros I. exists ")"%char. split; [exact I|reflexivity].
Qed.
Lemma skipn_app_len {A} (w t : list A) : skipn (List.length w) (w ++ t) = t.
Proof. now rewrite skipn_app, skipn_all, Nat.sub_diag. Qed.
Lemma not_close c : word_char c = true -> c <> ")"%char.
Proof. intros W ->. discriminate W. Qed.
Lemma match_here_spec l w : match_here l = Some w <->
  exists t, l = "("%char :: w ++ t /\ word w /\ no_word_first t /\ In ")"%char t.
Proof.
  unfold match_here. split.
  - destruct l as [|c l]; [discriminate|]. destruct (is_open c) eqn:O; [|discriminate]. unfold is_open in O. apply Ascii.eqb_eq in O as ->.
    destruct (word_run_spec l) as (t & E & F & N). destruct (word_run l) as [|d r] eqn:WR; [discriminate|].
    rewrite E at 1. rewrite skipn_app_len. destruct (existsb is_close t) eqn:C; [|discriminate]. intros Q. injection Q as <-. exists t. rewrite E. repeat split; try assumption; [discriminate|now apply close_spec].
  - intros (t & -> & [NE F] & N & C). change (is_open "("%char) with true. cbv iota. rewrite (word_run_app w t F N). destruct w as [|d r]; [contradiction|].
    rewrite skipn_app_len. now rewrite (proj2 (close_spec t) C).
Qed.
Lemma match_here_none l : match_here l = None <-> ~ exists c post, l = "("%char :: c :: post /\ word_char c = true /\ In ")"%char post.
Proof.
  split.
  - intros M (c & post & -> & W & C). unfold match_here in M. change (is_open "("%char) with true in M. cbv iota in M. destruct (word_run_spec (c :: post)) as (t & E & F & N).
    destruct (word_run (c :: post)) as [|d r] eqn:WR; [cbn in WR; now rewrite W in WR|]. rewrite E in M at 1. rewrite skipn_app_len in M.
    assert (I : In ")"%char t). { injection E as <- E. rewrite E in C. apply in_app_or in C as [C|C]; [|exact C]. exfalso. inversion F as [|? ? _ F']; subst. rewrite Forall_forall in F'. apply F' in C. discriminate C. }
    rewrite (proj2 (close_spec t) I) in M. discriminate.
  - intros N. destruct (match_here l) as [w|] eqn:M; [|reflexivity]. apply match_here_spec in M as (t & -> & [NE F] & _ & C). exfalso. apply N. destruct w as [|c w]; [contradiction|].
    exists c, (w ++ t). split; [reflexivity|]. inversion F; subst. split; [assumption|apply in_or_app; now right].
Qed.
Lemma has_call_cons c l : has_call (c :: l) <-> has_call l \/ exists d post, c :: l = "("%char :: d :: post /\ word_char d = true /\ In ")"%char post.
Proof.
  split.
  - intros ([|p pre] & d & post & E & W & C); [right; now exists d, post|]. left. injection E as -> ->. now exists pre, d, post.
  - intros [(pre & d & post & -> & W & C)|(d & post & E & W & C)]; [now exists (c :: pre), d, post|now exists [], d, post].
Qed.
Lemma search_none l : search l = None <-> ~ has_call l.
Proof.
  induction l as [|c l IH].
  - cbn. split; [intros _ ([|] & d & post & E & _); discriminate E|reflexivity].
  - change (search (c :: l)) with (match search l with Some w => Some w | None => match_here (c :: l) end). rewrite has_call_cons. destruct (search l) as [w|] eqn:S.
    + split; [discriminate|]. intros N. exfalso. assert (Q : Some w = None); [|discriminate Q]. apply IH. tauto.
    + rewrite match_here_none. split; [|tauto]. intros M [Z|Z]; [now apply IH|now apply M].
Qed.

(* What is found: the word after the last opening parenthesis that is followed by a word and,
   later, by a closing parenthesis. *)
Theorem search_is_last_call l w : search l = Some w <->
  exists pre post, l = pre ++ "("%char :: w ++ post /\ word w /\ no_word_first post /\ In ")"%char post /\ ~ has_call (w ++ post).
Proof.
  induction l as [|c l IH].
  - cbn. split; [discriminate|]. intros ([|] & post & E & _); discriminate E.
  - change (search (c :: l)) with (match search l with Some w => Some w | None => match_here (c :: l) end). split.
    + destruct (search l) as [w'|] eqn:S.
      * intros Q. injection Q as ->. destruct (proj1 IH eq_refl) as (pre & post & -> & R). exists (c :: pre), post. split; [reflexivity|exact R].
      * intros M. apply match_here_spec in M as (t & E & W & N & C). exists [], t. split; [exact E|]. split; [exact W|]. split; [exact N|]. split; [exact C|]. injection E as _ E. rewrite <- E. now apply search_none.
    + intros ([|p pre] & post & E & W & N & C & L).
      * injection E as -> ->. rewrite (proj2 (search_none _) L). apply match_here_spec. now exists post.
      * injection E as -> ->. rewrite (proj2 IH); [reflexivity|]. now exists pre, post.
Qed.
Print Assumptions search_is_last_call.
Theorem search_fails_iff l : search l = None <-> ~ has_call l.
Proof. apply search_none. Qed.
Print Assumptions search_fails_iff.

(* A call on one line, whatever stands before it: if no "(word ... )" follows the name, the
   name of the argument is found. *)
Theorem call_line_name pre name post : word (list_ascii_of_string name) -> no_word_first (list_ascii_of_string post) ->
  In ")"%char (list_ascii_of_string post) -> ~ has_call (list_ascii_of_string (name ++ post)) -> retrieve_name (pre ++ "(" ++ name ++ post)%string = Ok name.
Proof.
  intros W N C L. unfold retrieve_name.
  assert (A : forall a b, list_ascii_of_string (a ++ b)%string = list_ascii_of_string a ++ list_ascii_of_string b) by (induction a as [|x a IH]; intros b; [reflexivity|cbn; now rewrite IH]).
  rewrite (proj2 (search_is_last_call _ (list_ascii_of_string name))).
  - now rewrite string_of_list_ascii_of_string.
  - exists (list_ascii_of_string pre), (list_ascii_of_string post). rewrite !A. split; [reflexivity|]. split; [exact W|]. split; [exact N|]. split; [exact C|]. now rewrite <- A.
Qed.
Print Assumptions call_line_name.

(* All calls in the package find the attribute with the name of their argument, so that None is
   replaced by that attribute and anything else is kept. *)
Theorem call_sites_ok : Forall (fun p => retrieve_name (fst p) = Ok (snd p)) call_sites.
Proof. repeat constructor. Qed.
Print Assumptions call_sites_ok.
Theorem self_if_none_effect {A} (attrs : string -> option (option A)) line name variable nonable : In (line, name) call_sites ->
  self_if_none attrs line variable nonable =
  match variable, attrs name with
  | Some x, _ => Ok (Some x)
  | None, None => Raise AttributeError
  | None, Some (Some x) => Ok (Some x)
  | None, Some None => if nonable then Ok None else Raise ValueError
  end.
Proof.
  intros I. unfold self_if_none. pose proof call_sites_ok as F. rewrite Forall_forall in F. specialize (F _ I). cbn [fst snd] in F. rewrite F. cbn [rbind].
  destruct variable as [x|]; [reflexivity|]. destruct (attrs name) as [[x|]|]; reflexivity.
Qed.
Print Assumptions self_if_none_effect.

(* But a comment after the call can change the name, and a call spread over several lines has
   none, even if the argument is given. *)
Theorem call_line_refuted : exists pre name post, word (list_ascii_of_string name) /\ no_word_first (list_ascii_of_string post) /\
  In ")"%char (list_ascii_of_string post) /\ exists other, retrieve_name (pre ++ "(" ++ name ++ post)%string = Ok other /\ other <> name.
Proof.
  exists "nld = self.self_if_none"%string, "nld"%string, ")  # (see above)"%string. split; [split; [discriminate|repeat constructor]|]. split; [intros c t Q; injection Q as <- _; reflexivity|].
  split; [left; reflexivity|]. exists "see"%string. split; [reflexivity|discriminate].
Qed.
Print Assumptions call_line_refuted.
Theorem split_call_raises {A} (attrs : string -> option (option A)) line variable nonable : ~ has_call (list_ascii_of_string line) ->
  self_if_none attrs line variable nonable = Raise AssertionError.
Proof. intros N. unfold self_if_none, retrieve_name. now rewrite (proj2 (search_none _) N). Qed.
Print Assumptions split_call_raises.
Example split_call_ex : self_if_none (fun _ => Some (Some 1%nat)) "nld = self.self_if_none(" (Some 2%nat) false = Raise AssertionError.
Proof. reflexivity. Qed.
Example self_if_none_ex :
  let attrs := fun n => if String.eqb n "nld" then Some (Some 1%nat) else if String.eqb n "alpha" then Some None else None in
  self_if_none attrs "nld = self.self_if_none(nld)" None false = Ok (Some 1%nat) /\ self_if_none attrs "nld = self.self_if_none(nld)" (Some 2%nat) false = Ok (Some 2%nat) /\
  self_if_none attrs "alpha = self.self_if_none(alpha, nonable=True)" None true = Ok None /\ self_if_none attrs "gsf = self.self_if_none(gsf)" None false = Raise AttributeError.
Proof. repeat split. Qed.
