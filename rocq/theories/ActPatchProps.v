(* C125: what an Action can record, and into which Action. *)
From Coq Require Import String Ascii List Bool Lia.
From Verif Require Import PyBase ActionModel VersionModel ActPatchModel.
Import ListNotations.
Local Open Scope nat_scope.
Local Open Scope string_scope.
Local Open Scope list_scope.
Local Notation length := List.length (only parsing).

(* ---------------------------------------------------------------- specification *)
Definition base_name (b : base) : string := match b with BMatrix => "matrix" | BVector => "vector" end.
(* a method the class or its base class has *)
Definition method_of (b : base) (n : string) : Prop := In n (own b) \/ In n abstract_own.
(* the object i is an Action that was made, not copied *)
Definition made {A} (h : heap A) (i : nat) (b : base) : Prop := exists o, nth_error h i = Some o /\ o_names o = own b /\ o_bound o = i.
Arguments made {A}.

Lemma has_In l n : has l n = true <-> In n l.
Proof.
  unfold has. rewrite existsb_exists. split; [intros (x & I & E); apply String.eqb_eq in E; now subst|intros I; exists n; split; [exact I|apply String.eqb_refl]].
Qed.
Lemma nth_update {A} (h : heap A) i f : forall k, nth_error (update h i f) k = (if Nat.eqb k i then option_map f (nth_error h k) else nth_error h k).
Proof.
  revert i. induction h as [|o h IH]; intros [|i] [|k]; cbn; try reflexivity; [now destruct (Nat.eqb k i)|apply IH].
Qed.
Lemma length_update {A} (h : heap A) i f : length (update h i f) = length h.
Proof. revert i. induction h as [|o h IH]; intros [|i]; cbn; auto. Qed.

(* ---------------------------------------------------------------- construction *)
(* the name of the base counts in any case of the letters; another name is refused *)
Theorem new_action_made : forall A (h : heap A) s b, lower_string s = base_name b ->
  exists h', new_action h s = (h', Ok (length h)) /\ made h' (length h) b /\ calls_of h' (length h) = Some [] /\ forall k, k < length h -> nth_error h' k = nth_error h k.
Proof.
  intros A h s b E. unfold new_action. rewrite E. exists (h ++ [mkObj [] (own b) (length h)]).
  assert (N : nth_error (h ++ [mkObj [] (own b) (length h)]) (length h) = Some (mkObj [] (own b) (length h))) by (rewrite nth_error_app2, Nat.sub_diag by lia; reflexivity).
  split; [destruct b; reflexivity|]. split; [exists (mkObj [] (own b) (length h)); now rewrite N|]. split; [unfold calls_of; now rewrite N|]. intros k L. now rewrite nth_error_app1.
Qed.
Print Assumptions new_action_made.
Theorem new_action_refuses : forall A (h : heap A) s, lower_string s <> "matrix" -> lower_string s <> "vector" -> new_action h s = (h, Raise ValueError).
Proof.
  intros A h s M V. unfold new_action. destruct (String.eqb_spec (lower_string s) "matrix"); [contradiction|]. destruct (String.eqb_spec (lower_string s) "vector"); [contradiction|reflexivity].
Qed.
Print Assumptions new_action_refuses.
Example base_case : snd (new_action (Arg:=nat) [] "MATRIX") = Ok 0 /\ snd (new_action (Arg:=nat) [] "array") = Raise ValueError.
Proof. split; reflexivity. Qed.

(* ---------------------------------------------------------------- names *)
(* exactly the methods written in the class itself are recorded *)
Theorem recorded_names : forall A (h : heap A) i b n, made h i b -> (attr h i n = Recorder i <-> In n (own b)).
Proof.
  intros A h i b n (o & N & O & B). unfold attr. rewrite N, O, B, <- has_In. destruct (has (own b) n); [split; reflexivity|].
  split; [destruct (has action_own n); discriminate|discriminate].
Qed.
Print Assumptions recorded_names.
(* the methods of Action stay usable: no method of Matrix or Vector hides one of them, apart from the constructor *)
Theorem own_methods_kept : forall A (h : heap A) i b n, made h i b -> In n action_own -> n <> "__init__" -> attr h i n = OwnMethod.
Proof.
  intros A h i b n (o & N & O & _) I X. unfold attr. rewrite N, O.
  destruct I as [<-|[<-|[<-|[<-|[<-|[<-|[]]]]]]]; [contradiction|..]; destruct b; reflexivity.
Qed.
Print Assumptions own_methods_kept.
(* "every method of the class can be recorded" is false: those inherited from AbstractArray are unknown to the Action *)
Theorem inherited_refuted : forall A (h : heap A) i b n c, made h i b -> In n abstract_own -> ~ In n (own b) -> c_name c = n ->
  method_of b n /\ record_call h i c = (h, Raise AttributeError).
Proof.
  intros A h i b n c M I X E. split; [right; exact I|]. unfold record_call. rewrite E. destruct (attr h i n) eqn:F; [|reflexivity|reflexivity].
  exfalso. destruct M as (o & N & O & B). unfold attr in F. rewrite N, O, B in F. destruct (has (own b) n) eqn:H; [|destruct (has action_own n); discriminate].
  apply has_In in H. contradiction.
Qed.
Print Assumptions inherited_refuted.
(* so copies and checks of the binning cannot be part of an Action *)
Theorem inherited_names_refuted : forall A (h : heap A) i b n args kw, made h i b -> n = "copy" \/ n = "verify_equdistant" ->
  method_of b n /\ record_call h i (mkCall n args kw) = (h, Raise AttributeError).
Proof.
  intros A h i b n args kw M N. apply (inherited_refuted A h i b n (mkCall n args kw) M); [|intros I; apply has_In in I|reflexivity].
  - apply has_In. destruct N as [-> | ->]; reflexivity.
  - destruct N as [-> | ->], b; discriminate.
Qed.
Print Assumptions inherited_names_refuted.
Example inherited_cases : forall b, In "copy" abstract_own /\ ~ In "copy" (own b) /\ In "verify_equdistant" abstract_own /\ ~ In "verify_equdistant" (own b).
Proof.
  intros b. assert (X : forall n, has (own b) n = false -> ~ In n (own b)) by (intros n H I; apply has_In in I; congruence).
  split; [apply has_In; reflexivity|]. split; [apply X; destruct b; reflexivity|]. split; [apply has_In; reflexivity|apply X; destruct b; reflexivity].
Qed.

(* ---------------------------------------------------------------- recording *)
Lemma record_made {A} (h : heap A) i b c : made h i b -> In (c_name c) (own b) ->
  exists h', record_call h i c = (h', Ok i) /\ made h' i b /\ calls_of h' i = option_map (fun l => (l ++ [c])%list) (calls_of h i) /\ length h' = length h /\
    forall k, k <> i -> nth_error h' k = nth_error h k.
Proof.
  intros M I. pose proof (proj2 (recorded_names A h i b (c_name c) M) I) as R. destruct M as (o & N & O & B).
  unfold record_call. rewrite R. eexists. split; [reflexivity|]. split.
  - exists (mkObj (record A (o_calls o) c) (o_names o) (o_bound o)). rewrite nth_update, Nat.eqb_refl, N. now cbn.
  - split; [unfold calls_of; rewrite nth_update, Nat.eqb_refl, N; reflexivity|]. split; [apply length_update|]. intros k K. rewrite nth_update. destruct (Nat.eqb_spec k i); [contradiction|reflexivity].
Qed.
(* a chain of calls is recorded in its order, in this Action only, and gives the Action itself *)
Theorem chain_records : forall A (h : heap A) i b cs, made h i b -> Forall (fun c => In (c_name c) (own b)) cs ->
  exists h', chain h i cs = (h', Ok i) /\ made h' i b /\ calls_of h' i = option_map (fun l => (l ++ cs)%list) (calls_of h i) /\
    forall k, k <> i -> nth_error h' k = nth_error h k.
Proof.
  intros A h i b cs M F. revert h M. induction F as [|c cs I F IH]; intros h M; cbn [chain].
  - exists h. split; [reflexivity|]. split; [exact M|]. split; [destruct (calls_of h i); cbn; now rewrite ?app_nil_r|reflexivity].
  - destruct (record_made h i b c M I) as (h1 & R & M1 & C1 & _ & K1). rewrite R. destruct (IH h1 M1) as (h2 & S & M2 & C2 & K2).
    exists h2. split; [exact S|]. split; [exact M2|]. split.
    + rewrite C2, C1. destruct (calls_of h i); cbn; [rewrite <- app_assoc|]; reflexivity.
    + intros k K. now rewrite (K2 k K), (K1 k K).
Qed.
Print Assumptions chain_records.
Definition cut : call nat := mkCall "cut" [1] [].
Definition rebin : call nat := mkCall "rebin" [0] [("factor", 2)].
Example chain_case : let h := fst (new_action (Arg:=nat) [] "matrix") in calls_of (fst (chain h 0 [cut; rebin])) 0 = Some [cut; rebin].
Proof. reflexivity. Qed.
(* a method that is not recorded stops the chain; the calls before it stay *)
Theorem chain_stops : forall A (h : heap A) i b cs c r, made h i b -> Forall (fun c => In (c_name c) (own b)) cs -> ~ In (c_name c) (own b) ->
  exists h', chain h i (cs ++ c :: r) = (h', Raise AttributeError) /\ calls_of h' i = option_map (fun l => (l ++ cs)%list) (calls_of h i).
Proof.
  intros A h i b cs c r M F X. revert h M. induction F as [|d cs I F IH]; intros h M; cbn [chain app].
  - unfold record_call. destruct M as (o & N & O & B). unfold attr. rewrite N, O. destruct (has (own b) (c_name c)) eqn:H; [apply has_In in H; contradiction|].
    exists h. split; [destruct (has action_own (c_name c)); reflexivity|destruct (calls_of h i); cbn; now rewrite ?app_nil_r].
  - destruct (record_made h i b d M I) as (h1 & R & M1 & C1 & _ & _). rewrite R. destruct (IH h1 M1) as (h2 & S & C2). exists h2. split; [exact S|].
    rewrite C2, C1. destruct (calls_of h i); cbn; [rewrite <- app_assoc|]; reflexivity.
Qed.
Print Assumptions chain_stops.
(* "two Actions derived from one by further calls are two Actions" is false: both are the first one, with all calls *)
Theorem derived_refuted : forall A (h : heap A) a b c1 c2 l, made h a b -> calls_of h a = Some l -> In (c_name c1) (own b) -> In (c_name c2) (own b) ->
  exists h1 h2, record_call h a c1 = (h1, Ok a) /\ record_call h1 a c2 = (h2, Ok a) /\ calls_of h2 a = Some (l ++ [c1; c2])%list.
Proof.
  intros A h a b c1 c2 l M L I1 I2. destruct (record_made h a b c1 M I1) as (h1 & R1 & M1 & C1 & _). destruct (record_made h1 a b c2 M1 I2) as (h2 & R2 & _ & C2 & _).
  exists h1, h2. split; [exact R1|]. split; [exact R2|]. rewrite C2, C1, L. cbn. now rewrite <- app_assoc.
Qed.
Print Assumptions derived_refuted.
(* a deep copy starts with the calls of the original; but a call on the copy is recorded in the original, which is also what it returns *)
Theorem copy_refuted : forall A (h : heap A) a b c l, made h a b -> calls_of h a = Some l -> In (c_name c) (own b) ->
  exists h1 h2, deep_copy h a = (h1, Ok (length h)) /\ calls_of h1 (length h) = Some l /\
    record_call h1 (length h) c = (h2, Ok a) /\ calls_of h2 (length h) = Some l /\ calls_of h2 a = Some (l ++ [c])%list.
Proof.
  intros A h a b c l (o & N & O & B) L I. unfold deep_copy. rewrite N.
  assert (La : a < length h) by (apply nth_error_Some; congruence).
  assert (NC : nth_error (h ++ [o]) (length h) = Some o) by (rewrite nth_error_app2, Nat.sub_diag by lia; reflexivity).
  assert (NA : nth_error (h ++ [o]) a = Some o) by (now rewrite nth_error_app1).
  unfold calls_of in L. rewrite N in L. injection L as L.
  exists (h ++ [o])%list. unfold record_call, attr, calls_of. rewrite NC, O, (proj2 (has_In _ _) I), B. cbn [option_map]. rewrite L. eexists. do 3 (split; [reflexivity|]).
  rewrite !nth_update, Nat.eqb_refl, NA, NC. destruct (Nat.eqb_spec (length h) a); [lia|]. cbn [option_map o_calls]. unfold record. now rewrite L.
Qed.
Print Assumptions copy_refuted.
Example copy_case : let h := fst (chain (fst (new_action (Arg:=nat) [] "matrix")) 0 [cut]) in
  let h2 := fst (record_call (fst (deep_copy h 0)) 1 rebin) in calls_of h2 0 = Some [cut; rebin] /\ calls_of h2 1 = Some [cut].
Proof. split; reflexivity. Qed.
