(* State of the normalisers across calls and across processes:
   abstract_normalizer.py 10-68 (save, load), normalizer_nld.py 73-230 (constructor,
   normalize), 625-654 (discrete), normalizer_gsf.py 87-222 (constructor, normalize),
   library.py self_if_none.
   The numerical parts are parameters of the model: the guess and fit
   (initial_guess, optimize: seeded, hence functions of their arguments), the
   transformation, the check of the parameters, the smoothing of levels, Gg.
   Attributes that no function modelled here reads (bounds of D0, kwargs of the
   optimisers, LOG, the models of the extrapolation) are left out. *)
From Verif Require Import PyBase.

(* ompy Vector: energies, values, standard deviation, unit (True: MeV, False: keV) *)
Record vec := mkVec { v_E : list Qc; v_val : list Qc; v_std : option (list Qc); v_MeV : bool }.

(* vector.py 430-438 *)
Definition to_MeV (v : vec) : vec :=
  if v_MeV v then v
  else mkVec (map (fun e => e / qz 1000) (v_E v)) (v_val v) (v_std v) true.

(* normalizer_nld.py 209: nld.std = nld.values * 0.3 *)
Definition fake_std (v : vec) : vec :=
  mkVec (v_E v) (v_val v) (Some (map (fun x => x * Q2Qc (3 # 10)) (v_val v))) (v_MeV v).
Definition drop_std (v : vec) : vec := mkVec (v_E v) (v_val v) None (v_MeV v).

(* library.py self_if_none: the argument, else the attribute of the same name, else
   ValueError (nonable=False). The name is found from the source line of the caller;
   the model takes the attribute meant. *)
Definition self_if_none {A} (arg own : option A) : result A :=
  match arg with
  | Some a => Ok a
  | None => match own with Some a => Ok a | None => Raise ValueError end
  end.

(* nonable=True *)
Definition self_if_nonable {A} (arg own : option A) : option A :=
  match arg with Some a => Some a | None => own end.

(* The file path/ClassName.pkl: missing, written partly (process killed inside
   dill.dump), or complete *)
Inductive file (S : Type) := Absent | Torn | Whole (s : S).
Arguments Absent {S}.
Arguments Torn {S}.
Arguments Whole {S} s.

Section Disk.
  Variable S : Type.
  Definition disk := nat -> file S.
  Definition put (d : disk) (p : nat) (f : file S) : disk :=
    fun q => if Nat.eqb q p then f else d q.

  (* abstract_normalizer.py 27-45 save(): nothing if _save_instance is false;
     Path(None) raises TypeError; overwrite=True *)
  Definition save (saving : bool) (path : option nat) (s : S) (d : disk) : disk * result unit :=
    if saving then
      match path with
      | None => (d, Raise TypeError)
      | Some p => (put d p (Whole s), Ok tt)
      end
    else (d, Ok tt).

  (* abstract_normalizer.py 47-68 load(): Some s: loaded (the whole __dict__ is
     overwritten); None: FileNotFoundError; a torn file raises EOFError or
     UnpicklingError, represented by RuntimeError *)
  Definition load (path : option nat) (d : disk) : result (option S) :=
    match path with
    | None => Raise TypeError
    | Some p => match d p with
                | Absent => Ok None
                | Torn => Raise RuntimeError
                | Whole s => Ok (Some s)
                end
    end.

  (* The common frame of the normalize methods (normalizer_nld.py 171-176, 230;
     normalizer_gsf.py 149-155, 222; normalizer_simultan.py 116-121, 184;
     ensembleNormalizer.py 100-105, 135). *)
  Variable regenerate saving : S -> bool.
  Variable path : S -> option nat.
  Variable compute : S -> S * result unit.
  Definition frame (s : S) (d : disk) : S * disk * result unit :=
    let work :=
      match compute s with
      | (s', Raise e) => (s', d, Raise e)
      | (s', Ok _) => let '(d', r) := save (saving s') (path s') s' d in (s', d', r)
      end in
    if regenerate s then work
    else match load (path s) d with
         | Raise e => (s, d, Raise e)
         | Ok (Some s') => (s', d, Ok tt)
         | Ok None => work
         end.
  (* The process is killed while dill.dump writes. *)
  Definition killed_in_save (s : S) (d : disk) : disk :=
    match path s with Some p => if saving s then put d p Torn else d | None => d end.
End Disk.
Arguments put {S}.
Arguments save {S}.
Arguments load {S}.
Arguments frame {S}.
Arguments killed_in_save {S}.

Section NLD.
  (* limits, bounds, normalisation parameters, remaining fit results *)
  Variables L B P O : Type.
  (* NormalizationParameters.is_changed(include=[D0, Sn, spincutModel, spincutPars]) *)
  Variable pars_set : P -> result unit.
  (* initial_guess + optimize (232-400): nld, discrete, limits, bounds, parameters
     to A, alpha and the other results (T, Eshift, samples); the vector discrete may
     be missing: self.discrete.cut raises AttributeError *)
  Variable fit : vec -> vec -> L -> L -> B -> P -> result (Qc * Qc * O).
  (* vector.transform(A, alpha, inplace=False) *)
  Variable transform : vec -> Qc -> Qc -> vec.

  Record nres := mkNR { r_nld : vec; r_A : Qc; r_alpha : Qc; r_other : O }.

  Record nst := mkN {
    n_regen : bool; n_save : bool; n_path : option nat;
    n_nld : option vec; n_disc : option vec;
    n_low : option L; n_high : option L; n_bounds : B; n_pars : option P;
    n_fake : option bool; n_res : option nres }.

  Record nargs := mkA {
    a_low : option L; a_high : option L; a_nld : option vec; a_disc : option vec;
    a_bounds : option B; a_pars : option P }.
  Definition no_args : nargs := mkA None None None None None None.

  (* normalizer_nld.py 73-139 without the levels from a file. *)
  Definition nld_new (nld disc : option vec) (path : option nat) (regen : bool)
             (pars : option P) (bounds : B) : nst :=
    mkN regen true path nld disc None None bounds pars None None.

  (* normalizer_nld.py 629-654, the setter of discrete: None only sets the
     misspelled attribute _discretes; vectors of other length count as different
     binning (numpy broadcasting of a vector of length 1 is not modelled) *)
  Definition set_discrete (s : nst) (v : option vec) : result nst :=
    match v with
    | None => Ok s
    | Some w =>
        match n_nld s with
        | Some n => if leqb (v_E n) (v_E w)
                    then Ok (mkN (n_regen s) (n_save s) (n_path s) (n_nld s) (Some w) (n_low s)
                                 (n_high s) (n_bounds s) (n_pars s) (n_fake s) (n_res s))
                    else Raise ValueError
        | None => Ok (mkN (n_regen s) (n_save s) (n_path s) (n_nld s) (Some w) (n_low s)
                          (n_high s) (n_bounds s) (n_pars s) (n_fake s) (n_res s))
        end
    end.

  (* normalizer_nld.py 178-228: state after the call (also if it raises) and result.
     self.discrete is converted to MeV in place if no discrete is given; a given
     discrete is converted in place (the caller's vector, see caller_discrete) and
     otherwise unused: initial_guess reads self.discrete. *)
  Definition nld_compute (a : nargs) (s : nst) : nst * result unit :=
    match self_if_none (a_low a) (n_low s) with
    | Raise e => (s, Raise e)
    | Ok low =>
    let s1 := mkN (n_regen s) (n_save s) (n_path s) (n_nld s) (n_disc s) (Some low) (n_high s)
                  (n_bounds s) (n_pars s) (n_fake s) (n_res s) in
    match self_if_none (a_high a) (n_high s) with
    | Raise e => (s1, Raise e)
    | Ok high =>
    let s2 := mkN (n_regen s) (n_save s) (n_path s) (n_nld s) (n_disc s) (Some low) (Some high)
                  (n_bounds s) (n_pars s) (n_fake s) (n_res s) in
    match self_if_none (a_disc a) (n_disc s) with
    | Raise e => (s2, Raise e)
    | Ok _ =>
    let disc := match a_disc a with Some _ => n_disc s
                | None => match n_disc s with Some v => Some (to_MeV v) | None => None end end in
    let s3 := mkN (n_regen s) (n_save s) (n_path s) (n_nld s) disc (Some low) (Some high)
                  (n_bounds s) (n_pars s) (n_fake s) (n_res s) in
    match self_if_none (a_nld a) (n_nld s) with
    | Raise e => (s3, Raise e)
    | Ok nld0 =>
    match self_if_none (a_pars a) (n_pars s) with
    | Raise e => (s3, Raise e)
    | Ok pars =>
    let s4 := mkN (n_regen s) (n_save s) (n_path s) (n_nld s) disc (Some low) (Some high)
                  (n_bounds s) (Some pars) (n_fake s) (n_res s) in
    match pars_set pars with
    | Raise e => (s4, Raise e)
    | Ok _ =>
    let bounds := match a_bounds a with Some b => b | None => n_bounds s end in
    let n1 := to_MeV nld0 in
    let fake := match n_fake s with Some b => b | None => false end in
    let fake' := fake || match v_std n1 with None => true | Some _ => false end in
    let n2 := if fake' then fake_std n1 else n1 in
    let s5 := mkN (n_regen s) (n_save s) (n_path s) (Some n2) disc (Some low) (Some high)
                  bounds (Some pars) (Some fake') None in
    match disc with
    | None => (s5, Raise AttributeError)
    | Some d =>
    match fit n2 d low high bounds pars with
    | Raise e => (s5, Raise e)
    | Ok (A, alpha, o) =>
    let t := transform n2 A alpha in
    let n3 := if fake' then drop_std n2 else n2 in
    let t3 := if fake' then drop_std t else t in
    (mkN (n_regen s) (n_save s) (n_path s) (Some n3) disc (Some low) (Some high)
         bounds (Some pars) (Some fake') (Some (mkNR t3 A alpha o)), Ok tt)
    end end end end end end end end.

  (* normalizer_nld.py 185: the vector given as discrete after the call *)
  Definition caller_discrete (a : nargs) : option vec := option_map to_MeV (a_disc a).

  (* normalizer_nld.py 145-230 *)
  Definition nld_normalize (a : nargs) (s : nst) (d : disk nst) : nst * disk nst * result unit :=
    frame n_regen n_save n_path (nld_compute a) s d.

  (* ------------------------------------------------------------------ gsf *)
  Variable M : Type.   (* models of the level density above the data *)
  (* T, Eshift of the result as a model: res.nld_model (normalizer_nld.py 226-228) *)
  Variable model_of : O -> M.
  Variable gpars_set : P -> result unit.
  (* extrapolation, Gg and the scaling (199-209): transformed gsf, nld, model of nld
     and parameters to the normalised gsf and B *)
  Variable scale : vec -> vec -> M -> P -> result (vec * Qc).

  Record gres := mkGR { gr_gsf : vec; gr_B : Qc; gr_nld : option nres }.
  Record gst := mkG {
    g_regen : bool; g_save : bool; g_path : option nat;
    g_in : option vec; g_nld : option vec; g_norm : option nst; g_model : option M;
    g_alpha : option Qc; g_pars : option P; g_res : option gres }.
  Record gargs := mkGA {
    b_gsf : option vec; b_norm : option nst; b_alpha : option Qc; b_nld : option vec;
    b_model : option M; b_pars : option P }.
  Definition g_no_args : gargs := mkGA None None None None None None.

  (* normalizer_gsf.py 87-123 *)
  Definition gsf_new (gsf nld : option vec) (norm : option nst) (model : option M)
             (alpha : option Qc) (path : option nat) (regen : bool) (pars : option P) : gst :=
    mkG regen true path gsf nld norm model alpha pars None.

  (* attribute .res.X of an optional normaliser: AttributeError for None; the result of
     a normaliser that has not run holds empty lists, subscripting them or using
     them later raises TypeError *)
  Definition norm_res (n : option nst) : result nres :=
    match n with
    | None => Raise AttributeError
    | Some s => match n_res s with Some r => Ok r | None => Raise TypeError end
    end.

  (* normalizer_gsf.py 157-220. The state after an exception is not modelled further
     than "as before" (the attributes nld, nld_model and norm_pars may already be
     changed). gsf.to_MeV() acts on the vector given or on self.gsf_in. *)
  Definition gsf_compute (b : gargs) (s : gst) : gst * result unit :=
    let out :=
      do gsf <- match self_if_nonable (b_gsf b) (g_in s) with
                | Some g => Ok g | None => Raise AssertionError end ;;
      let norm := self_if_nonable (b_norm b) (g_norm s) in
      do nld <- match b_nld b with
                | None => rmap r_nld (norm_res norm)
                | Some v => Ok v
                end ;;
      do alpha <- match self_if_nonable (b_alpha b) (g_alpha s) with
                  | Some x => Ok x
                  | None => rmap r_alpha (norm_res norm)
                  end ;;
      do model <- match b_model b with
                  | None => rmap (fun r => model_of (r_other r)) (norm_res norm)
                  | Some m => Ok m
                  end ;;
      do pars <- self_if_none (b_pars b) (g_pars s) ;;
      do _ <- gpars_set pars ;;
      do gB <- scale (transform (to_MeV gsf) 1 alpha) nld model pars ;;
      Ok (mkG (g_regen s) (g_save s) (g_path s)
              (match b_gsf b with Some _ => g_in s | None => Some (to_MeV gsf) end)
              (Some nld) (g_norm s) (Some model) (g_alpha s) (Some pars)
              (Some (mkGR (fst gB) (snd gB)
                          (match norm with Some n => n_res n | None => None end)))) in
    match out with
    | Ok s' => (s', Ok tt)
    | Raise e => (s, Raise e)
    end.

  (* normalizer_gsf.py 195: the vector given as gsf after the call *)
  Definition caller_gsf (b : gargs) : option vec := option_map to_MeV (b_gsf b).

  Definition gsf_normalize (b : gargs) (s : gst) (d : disk gst) : gst * disk gst * result unit :=
    frame g_regen g_save g_path (gsf_compute b) s d.
End NLD.
