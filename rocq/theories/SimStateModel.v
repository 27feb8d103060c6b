(* State of the simultaneous normalisation across the evaluations of its likelihood and across
   calls: ompy/normalizer_simultan.py 100-184 (normalize without load and save, which are the
   frame of NormStateModel.v), 186-214 (initial_guess), 216-345 (optimize), 347-383 (lnlike);
   of ompy/normalizer_gsf.py 157-245 and 573-579 what they use; ompy/models.py 220-264, 298-305,
   354-360 (autorange, fit, extrapolate).
   Parameters of the model: the guess and the likelihood of the level density, Gg_before_norm,
   curve_fit, the curve of an extrapolation, log, Vector.transform, the type of likelihood
   values, and MultiNest with its report, which may evaluate the likelihood wherever and as
   often as it likes. *)
From Verif Require Import PyBase NormStateModel.
From Verif Require FitWinModel.
Import FitWinModel(efit, efit_new, gvec, mkGV, points).

(* models.py:168-190: an extrapolation model.  m_fit: method is "fit" *)
Record mdl := mkMdl {
  m_fit : bool; m_Emin : option Qc; m_Emax : option Qc; m_efit : efit;
  m_scale : Qc; m_shift : Qc; m_after : option Qc }.
(* models.py:298-303 (low), 354-360 (high); the vector is in MeV *)
Definition autorange (high : bool) (v : vec) (m : mdl) : mdl * result unit :=
  let emin := match m_Emin m with Some e => e | None => 0 end in
  let put e := mkMdl (m_fit m) (Some emin) e (m_efit m) (m_scale m) (m_shift m) (m_after m) in
  match m_Emax m with
  | Some e => (put (Some e), Ok tt)
  | None => if high then (put (Some (qz 20)), Ok tt)
            else match v_E v with e :: _ => (put (Some e), Ok tt) | [] => (put None, Raise IndexError) end
  end.
Definition gv (v : vec) : gvec := mkGV (v_E v) (v_val v) (v_std v) (v_MeV v).

Section Sim.
(* C: settings of the normaliser of the level density; Ar: the arguments of its likelihood;
   P: the parameters of the normaliser of the strength function except D0; G: values of Gg;
   V: values of the likelihood; Sm: the samples *)
Variables C Ar P G V Sm : Type.
Record par4 := mkP4 { p_A : Qc; p_alpha : Qc; p_T : Qc; p_Esh : Qc }.
Record par5 := mkP5 { p_4 : par4; p_B : Qc }.
(* normalizer_nld.initial_guess and lnlike; D0_from_nldSn with the parameters of the level
   density's normaliser *)
Variable guess4 : C -> vec -> result (Ar * par4).
Variable lnl_nld : Ar -> par4 -> result V.
Variable D0_of : C -> Qc -> Qc -> Qc.
(* normalizer_gsf.py 573-579: the likelihood of a calculated Gg; its Gg/Gg_before_norm;
   Gg_before_norm: parameters, D0, strength function, lower and upper extrapolation, level
   density and T, Eshift of its model *)
Variable gauss : P -> G -> V.
Variable vadd : V -> V -> V.
Variable ratio : P -> G -> Qc.
Variable Gg : P -> Qc -> vec -> vec -> vec -> vec -> Qc * Qc -> result G.
(* norm_pars.is_changed() *)
Variable gpars_set : P -> result unit.
(* curve_fit started at (1, -20): scale and shift; the curve between Emin and Emax *)
Variable cfit : bool -> points -> result (Qc * Qc).
Variable curve : bool -> option Qc -> option Qc -> Qc -> Qc -> result vec.
Variable log : Qc -> Qc.
Variable transform : vec -> Qc -> Qc -> vec.

(* the normaliser of the strength function; D0: value and uncertainty, None: nan.
   The attributes gsf_in, nld, nld_model, _gsf, _gsf_low, _gsf_high *)
Record gnorm := mkGN {
  q_pars : P; q_D0 : Qc * option Qc; q_low : mdl; q_high : mdl;
  q_in : option vec; q_nld : option vec; q_model : option (Qc * Qc);
  q_gsf : option vec; q_glow : option vec; q_ghigh : option vec }.
Definition with_models (g : gnorm) (l h : mdl) : gnorm :=
  mkGN (q_pars g) (q_D0 g) l h (q_in g) (q_nld g) (q_model g) (q_gsf g) (q_glow g) (q_ghigh g).

(* models.py:224-264 *)
Definition mfit (high : bool) (v : vec) (m : mdl) : mdl * result unit :=
  let (f', r) := FitWinModel.fit high (gv v) None None (m_efit m) in
  let m1 := mkMdl (m_fit m) (m_Emin m) (m_Emax m) f' (m_scale m) (m_shift m) (m_after m) in
  match r with
  | Raise e => (m1, Raise e)
  | Ok pts => match cfit high pts with
              | Raise e => (m1, Raise e)
              | Ok (a, b) => (mkMdl (m_fit m) (m_Emin m) (m_Emax m) f' a b (m_after m), Ok tt)
              end
  end.
(* models.py:266-282, scaled=False *)
Definition unscaled (high : bool) (m : mdl) : result vec := curve high (m_Emin m) (m_Emax m) (m_scale m) (m_shift m).
(* normalizer_gsf.py:223-245: the method of the low model decides for both *)
Definition extrapolate (v : vec) (l h : mdl) : mdl * mdl * result (vec * vec) :=
  let out l h := (l, h, do a <- unscaled false l ;; do b <- unscaled true h ;; Ok (a, b)) in
  if m_fit l then
    match mfit false v l with
    | (l', Raise e) => (l', h, Raise e)
    | (l', Ok _) => match mfit true v h with
                    | (h', Raise e) => (l', h', Raise e)
                    | (h', Ok _) => out l' h'
                    end
    end
  else out l h.

(* normalizer_gsf.py:573-579 and 247-262: what the attributes give *)
Definition gsf_like (g : gnorm) : result V :=
  match q_gsf g, q_glow g, q_ghigh g, q_nld g, q_model g with
  | Some v, Some l, Some h, Some n, Some m => rmap (gauss (q_pars g)) (Gg (q_pars g) (fst (q_D0 g)) v l h n m)
  | _, _, _, _, _ => Raise AttributeError
  end.
(* normalizer_simultan.py:347-383.  cfg and nld: settings and level density of normalizer_nld *)
Definition lnlike (cfg : C) (nld : vec) (args : Ar) (g : gnorm) (x : par5) : gnorm * result V :=
  match lnl_nld args (p_4 x) with
  | Raise e => (g, Raise e)
  | Ok e1 =>
      let n := transform nld (p_A (p_4 x)) (p_alpha (p_4 x)) in
      let D0 := D0_of cfg (p_T (p_4 x)) (p_Esh (p_4 x)) in
      let md := (p_T (p_4 x), p_Esh (p_4 x)) in
      match q_in g with
      | None => (mkGN (q_pars g) (D0, None) (q_low g) (q_high g) (q_in g) (Some n) (Some md) (q_gsf g) (q_glow g) (q_ghigh g), Raise AttributeError)
      | Some v =>
          let t := transform v (p_B x) (p_alpha (p_4 x)) in
          match extrapolate t (q_low g) (q_high g) with
          | (l, h, Raise e) => (mkGN (q_pars g) (D0, None) l h (q_in g) (Some n) (Some md) (Some t) (q_glow g) (q_ghigh g), Raise e)
          | (l, h, Ok (a, b)) =>
              let g' := mkGN (q_pars g) (D0, None) l h (q_in g) (Some n) (Some md) (Some t) (Some a) (Some b) in
              (g', rmap (vadd e1) (gsf_like g'))
          end
      end
  end.

(* pymultinest.run with the analysis and the report: evaluates the likelihood at points that
   may depend on all earlier values (an exception of the likelihood is one of the answers it may
   get) and ends with the medians and samples, or with an exception (an interrupt, or the
   OverflowError of the report, see ReportModel.v) *)
Inductive sampler := Ask (x : par5) (k : result V -> sampler) | Stop (r : result (par5 * Sm)).
Fixpoint run (f : gnorm -> par5 -> gnorm * result V) (g : gnorm) (t : sampler) : gnorm * result (par5 * Sm) :=
  match t with
  | Stop r => (g, r)
  | Ask x k => let (g', v) := f g x in run f g' (k v)
  end.
Variable sample : par5 -> sampler.          (* the priors are set up from the guess *)

(* normalizer_gsf.py:157-221 as called by initial_guess (nld, nld_model and alpha given, gsf
   from gsf_in); the result is B *)
Definition gsf_norm (g : gnorm) (n : vec) (md : Qc * Qc) (alpha : Qc) : gnorm * result Qc :=
  match q_in g with
  | None => (g, Raise AssertionError)
  | Some v =>
      let g0 := mkGN (q_pars g) (q_D0 g) (q_low g) (q_high g) (q_in g) (Some n) (Some md) (q_gsf g) (q_glow g) (q_ghigh g) in
      match gpars_set (q_pars g) with
      | Raise e => (g0, Raise e)
      | Ok _ =>
          let t := transform v 1 alpha in
          let g1 l h := mkGN (q_pars g) (q_D0 g) l h (q_in g) (Some n) (Some md) (Some t) (q_glow g) (q_ghigh g) in
          match autorange false t (q_low g) with
          | (l1, Raise e) => (g1 l1 (q_high g), Raise e)
          | (l1, Ok _) =>
              match autorange true t (q_high g) with
              | (h1, Raise e) => (g1 l1 h1, Raise e)
              | (h1, Ok _) =>
                  match extrapolate t l1 h1 with
                  | (l, h, Raise e) => (g1 l h, Raise e)
                  | (l, h, Ok (a, b)) =>
                      match Gg (q_pars g) (fst (q_D0 g)) t a b n md with
                      | Raise e => (g1 l h, Raise e)
                      | Ok x =>
                          let B := ratio (q_pars g) x in
                          let after m := mkMdl (m_fit m) (m_Emin m) (m_Emax m) (m_efit m) (m_scale m) (m_shift m) (Some (m_shift m + log B)) in
                          (mkGN (q_pars g) (q_D0 g) (after l) (after h) (q_in g) (Some n) (Some md)
                                (Some (transform t B 0)) (Some a) (Some b), Ok B)
                      end
                  end
              end
          end
      end
  end.

(* normalizer_simultan.py:186-345: guess, sampling, and the parameters put back *)
Definition guess_and_run (cfg : C) (nld : vec) (g : gnorm) : gnorm * result (par5 * Sm) :=
  match guess4 cfg nld with
  | Raise e => (g, Raise e)
  | Ok (args, q) =>
      match gsf_norm g (transform nld (p_A q) (p_alpha q)) (p_T q, p_Esh q) (p_alpha q) with
      | (g1, Raise e) => (g1, Raise e)
      | (g1, Ok B) =>
          if qltb (p_alpha q) 0 then (g1, Raise NotImplementedErr)
          else if qltb (p_T q) 0 then (g1, Raise ValueError)
          else
            let (g2, r) := run (lnlike cfg nld args) g1 (sample (mkP5 q B)) in
            match r with
            | Raise e => (g2, Raise e)
            | Ok o => (mkGN (q_pars g1) (q_D0 g1) (q_low g2) (q_high g2) (q_in g2) (q_nld g2) (q_model g2) (q_gsf g2) (q_glow g2) (q_ghigh g2), Ok o)
            end
      end
  end.

Record nnorm := mkNN { nn_cfg : C; nn_nld : option vec }.
Record sres := mkSR { sr_pars : par5; sr_samples : Sm; sr_nld : vec; sr_gsf : vec; sr_low : mdl; sr_high : mdl }.
Record sst := mkS {
  s_nn : option nnorm; s_gn : option gnorm; s_gsf : option vec; s_nld : option vec;
  s_fake_nld : option bool; s_fake_gsf : option bool; s_res : option sres }.
Record sargs := mkSA { sa_gsf : option vec; sa_nld : option vec; sa_nn : option nnorm; sa_gn : option gnorm }.
Definition is_true (b : option bool) : bool := match b with Some true => true | _ => false end.
Definition no_std (v : vec) : bool := match v_std v with None => true | Some _ => false end.

(* normalizer_simultan.py:123-182; the state after the call, also after an exception *)
Definition sim_compute (a : sargs) (s : sst) : sst * result unit :=
  let s0 nn gn := mkS nn gn (s_gsf s) (s_nld s) (s_fake_nld s) (s_fake_gsf s) None in
  match self_if_none (sa_nn a) (s_nn s) with
  | Raise e => (s0 (s_nn s) (s_gn s), Raise e)
  | Ok nn =>
  match self_if_none (sa_gn a) (s_gn s) with
  | Raise e => (s0 (Some nn) (s_gn s), Raise e)
  | Ok gn =>
  match self_if_none (sa_gsf a) (s_gsf s) with
  | Raise e => (s0 (Some nn) (Some gn), Raise e)
  | Ok gsf0 =>
  match self_if_none (sa_nld a) (s_nld s) with
  | Raise e => (s0 (Some nn) (Some gn), Raise e)
  | Ok nld0 =>
  let nld1 := to_MeV nld0 in
  let gsf1 := to_MeV gsf0 in
  let fn := is_true (s_fake_nld s) || no_std nld1 in
  let fg := is_true (s_fake_gsf s) || no_std gsf1 in
  let nld2 := if fn then fake_std nld1 else nld1 in
  let gsf2 := if fg then fake_std gsf1 else gsf1 in
  let flag_g := if fg then Some true else s_fake_gsf s in
  let nn1 := mkNN (nn_cfg nn) (Some nld2) in
  let gn1 := mkGN (q_pars gn) (q_D0 gn) (q_low gn) (q_high gn) (Some gsf2) (q_nld gn) (q_model gn) (q_gsf gn) (q_glow gn) (q_ghigh gn) in
  match guess_and_run (nn_cfg nn) nld2 gn1 with
  | (g, Raise e) => (mkS (Some nn1) (Some g) (s_gsf s) (s_nld s) (Some fn) flag_g None, Raise e)
  | (g, Ok (x, sm)) =>
      let nld3 := if fn then drop_std nld2 else nld2 in
      let gsf3 := if fg then drop_std gsf2 else gsf2 in
      let nn2 := mkNN (nn_cfg nn) (Some nld3) in
      let g2 l h := mkGN (q_pars g) (q_D0 g) l h (Some gsf3) (q_nld g) (q_model g) (q_gsf g) (q_glow g) (q_ghigh g) in
      let flag_n' := if fn then None else Some false in
      let flag_g' := if fg then None else s_fake_gsf s in
      let rn := transform nld3 (p_A (p_4 x)) (p_alpha (p_4 x)) in
      let rg := transform gsf3 (p_B x) (p_alpha (p_4 x)) in
      let st l h res := mkS (Some nn2) (Some (g2 l h)) (s_gsf s) (s_nld s) flag_n' flag_g' res in
      match autorange false rg (q_low g) with
      | (l1, Raise e) => (st l1 (q_high g) None, Raise e)
      | (l1, Ok _) =>
          match autorange true rg (q_high g) with
          | (h1, Raise e) => (st l1 h1 None, Raise e)
          | (h1, Ok _) =>
              match extrapolate rg l1 h1 with
              | (l, h, Raise e) => (st l h None, Raise e)
              | (l, h, Ok _) =>
                  let after m := mkMdl (m_fit m) (m_Emin m) (m_Emax m) (m_efit m) (m_scale m) (m_shift m) (Some (m_shift m)) in
                  (st (after l) (after h) (Some (mkSR x sm rn rg (after l) (after h))), Ok tt)
              end
          end
      end
  end end end end end.
End Sim.
