(* Model of the pictures of an ensemble of normalised samples: ompy/ensembleNormalizer.py 207-409
   (plot, plot_selection), with ompy/normalizer_nld.py 402-482 and ompy/normalizer_gsf.py 443-508
   (the panels of one sample).

   A panel is the list of its lines with their labels, and the labels of its other named items
   (error bars, shaded regions).  Energies and values are rationals, NaN is None.  Not modelled:
   colours, sizes, axis limits, the lines and bands added by plot_vector_stats and the
   plot_*_ext_stats (their numbers are SampStatModel and ExtStatModel). *)
From Coq Require Import String.
From Verif Require Import Num PyBase RebinModel MatrixModel SampStatModel FitWinModel.
Local Notation length := List.length (only parsing).
Local Open Scope Qc_scope.

(* ---------------------------------------------------------------- lines *)
(* what a line shows; KCap: the caps of an error bar *)
Inductive lkind :=
| KData (v : svec)
| KCap
| KKnown
| KSn
| KSnCap
| KNldModel (T Eshift : Qc) (x : list Qc)
| KGsfModel (high : bool) (scale shift : Qc) (x : list Qc).
Record line := mkLine { ln_label : string; ln_kind : lkind; ln_marker : nat; ln_alpha : Qc }.
Record panel := mkPanel { pn_lines : list line; pn_named : list string }.
Definition new_panel : panel := mkPanel [] [].
Definition add_lines (l : list line) (p : panel) : panel := mkPanel (pn_lines p ++ l) (pn_named p).
Definition add_name (s : string) (p : panel) : panel := mkPanel (pn_lines p) (pn_named p ++ [s]).

(* matplotlib's errorbar: a line for the data, which does not enter the legend, two more for the
   caps if rcParams["errorbar.capsize"] > 0 (the default is 0), and a named container *)
Definition errorbar (caps : bool) (lab : string) (k kcap : lkind) (marker : nat) (alpha : Qc) (p : panel) : panel :=
  add_name lab (add_lines (mkLine "_nolegend_" k marker alpha ::
    (if caps then [mkLine "_nolegend_" kcap marker alpha; mkLine "_nolegend_" kcap marker alpha] else [])) p).
(* vector.py:139-156 (kind 'line'): error bars if there are uncertainties *)
Definition vec_plot (caps : bool) (lab : string) (v : svec) (marker : nat) (alpha : Qc) (p : panel) : panel :=
  match s_std v with
  | None => add_lines [mkLine lab (KData v) marker alpha] p
  | Some _ => errorbar caps lab (KData v) KCap marker alpha p
  end.
(* normalizer_nld.py:461-463: the last three lines get a new label *)
Definition relabel (s : string) (l : line) : line := mkLine s (ln_kind l) (ln_marker l) (ln_alpha l).
Definition relabel_last3 (s : string) (p : panel) : panel :=
  let n := (length (pn_lines p) - 3)%nat in
  mkPanel (firstn n (pn_lines p) ++ map (relabel s) (skipn n (pn_lines p))) (pn_named p).

(* ---------------------------------------------------------------- the panel of the level density *)
(* what the plot reads of NormalizerNLD: limit_high[0] and norm_pars.Sn[0] *)
Record nlimits := mkNL { nl_high : Qc; nl_Sn : Qc }.
(* normalizer_nld.py:402-482, ax given, results given; the known levels have no uncertainties.
   Line 477 reads nld.E[1]. *)
Definition nld_plot (caps : bool) (lim : nlimits) (add_label fitregion : bool) (v : svec) (T Eshift : Qc)
    (marker : nat) (alpha : Qc) (p : panel) : result panel :=
  let lab (s : string) := if add_label then s else ("_" ++ s)%string in
  let p := vec_plot caps (lab "exp."%string) v marker alpha p in
  let p := add_lines [mkLine (lab "known levels"%string) KKnown 0 1] p in
  let p := errorbar caps (if add_label then "rho(Sn)"%string else "_nolegend_"%string) KSn KSnCap 0 1 p in
  let p := relabel_last3 "_nld(Sn)" p in
  let p := add_lines [mkLine (lab "model"%string) (KNldModel T Eshift (linspace (nl_high lim) (nl_Sn lim) 50)) marker alpha] p in
  let p := if fitregion then add_name "fit limits" p else p in
  if (length (s_E v) <? 2)%nat then Raise IndexError else Ok p.

(* ---------------------------------------------------------------- fitting an extrapolation *)
(* models.py:160-190 the fields used *)
Record gmod := mkGM { g_fit : bool; g_scale : Qc; g_shift : Qc; g_Emin : option Qc; g_Emax : option Qc; g_efit : efit }.
Definition set_efit (f : efit) (m : gmod) : gmod := mkGM (g_fit m) (g_scale m) (g_shift m) (g_Emin m) (g_Emax m) f.
Definition set_pars (q : Qc * Qc) (m : gmod) : gmod := mkGM (g_fit m) (fst q) (snd q) (g_Emin m) (g_Emax m) (g_efit m).
(* models.py:250-260: the slices handed to curve_fit *)
Record fpoints := mkFP { fp_E : list Qc; fp_values : list (option Qc); fp_std : option (list Qc) }.
Definition window (v : svec) (a b : Qc) : fpoints :=
  let i := index (s_E v) a in
  let j := S (index (s_E v) b) in
  mkFP (between i j (s_E v)) (between i j (s_val v)) (option_map (between i j) (s_std v)).
(* scipy's curve_fit: NaN refused (ValueError), then no points (ValueError), a sigma of another
   length (ValueError) and fewer points than parameters (TypeError) *)
Definition is_missing (o : option Qc) : bool := match o with None => true | Some _ => false end.
Definition curve_fit_refuses (p : fpoints) : option exn :=
  if existsb is_missing (fp_values p) then Some ValueError
  else if Nat.eqb (length (fp_values p)) 0 then Some ValueError
  else if match fp_std p with Some s => negb (Nat.eqb (length s) (length (fp_values p))) | None => false end then Some ValueError
  else if (length (fp_values p) <? 2)%nat then Some TypeError
  else None.

Section Oracles.
(* the fitted (scale, shift); the low and the high model are different functions *)
Variable curve_fit : bool -> fpoints -> Qc * Qc.
(* np.random.RandomState(seed).choice(N, size=n, replace=False), used by DataFrame.sample *)
Variable choice : Z -> nat -> nat -> list nat.

(* models.py:224-264 fit(gsf), gsf in MeV.  The fit range stays in the model. *)
Definition fit_model (high : bool) (v : svec) (m : gmod) : gmod * result fpoints :=
  match autofitrange high (mkGV (s_E v) [] None true) (g_efit m) with
  | (f, Raise e) => (set_efit f m, Raise e)
  | (f, Ok _) =>
      let m := set_efit f m in
      match ef_low f, ef_high f with
      | Some a, Some b =>
          if qltb a b then
            let w := window v a b in
            match curve_fit_refuses w with
            | Some e => (m, Raise e)
            | None => (set_pars (curve_fit high w) m, Ok w)
            end
          else (m, Raise AssertionError)
      | _, _ => (m, Raise TypeError)
      end
  end.
(* normalizer_gsf.py:241-246: both models are fitted if the low one says so *)
Definition fit_both (v : svec) (low high : gmod) : gmod * gmod * result unit :=
  if g_fit low then
    match fit_model false v low with
    | (low, Raise e) => (low, high, Raise e)
    | (low, Ok _) =>
        match fit_model true v high with
        | (high, Raise e) => (low, high, Raise e)
        | (high, Ok _) => (low, high, Ok tt)
        end
    end
  else (low, high, Ok tt).
(* models.py:190-192, 277-278: extrapolate without energies needs Emin and Emax *)
Definition has_range (m : gmod) : bool :=
  match g_Emin m, g_Emax m with Some _, Some _ => true | _, _ => false end.

(* ---------------------------------------------------------------- the panel of the strength function *)
(* normalizer_gsf.py:443-508, ax given, results given, shift_after = shift
   (ensembleNormalizer.py:381-382); Efit entries that are None make linspace raise TypeError *)
Definition gsf_plot (caps : bool) (Sn : Qc) (add_label fitregion : bool) (v : svec) (low high : gmod)
    (marker : nat) (alpha : Qc) (p : panel) : result panel :=
  let lab (s : string) := if add_label then s else ("_" ++ s)%string in
  let p := vec_plot caps (lab "exp."%string) v marker alpha p in
  match g_Emin low, ef_high (g_efit low), ef_low (g_efit high) with
  | Some a, Some b, Some c =>
      let curve (h : bool) (m : gmod) (x : list Qc) := mkLine (if h then "_child"%string else lab "model"%string) (KGsfModel h (g_scale m) (g_shift m) x) marker alpha in
      let p := add_lines [curve false low (linspace a b 50); curve true high (linspace c Sn 50)] p in
      if fitregion then
        match ef_low (g_efit low), ef_high (g_efit high) with
        | Some _, Some _ => Ok (add_name (lab "fit limits"%string) p)
        | _, _ => Raise TypeError
        end
      else Ok p
  | _, _, _ => Raise TypeError
  end.

(* ---------------------------------------------------------------- plot_selection *)
(* one line of the table of samples *)
Record sample := mkSmp { sm_nld : svec; sm_gsf : svec; sm_T : Qc; sm_Eshift : Qc }.
Record normalizers := mkNs { ns_nld : nlimits; ns_low : gmod; ns_high : gmod; ns_gsf_Sn : Qc }.
Definition set_models (low high : gmod) (ns : normalizers) : normalizers := mkNs (ns_nld ns) low high (ns_gsf_Sn ns).

(* ensembleNormalizer.py:355: at least one *)
Definition n_drawn (n_plot : Z) : nat := if (0 <? n_plot)%Z then Z.to_nat n_plot else 1%nat.
(* ensembleNormalizer.py:361: without replacement, so not more than there are *)
Definition select (seed : Z) (samples : list sample) (n : nat) : result (list sample) :=
  if (n <=? length samples)%nat then
    Ok (flat_map (fun k => match nth_error samples k with Some s => [s] | None => [] end) (choice seed (length samples) n))
  else Raise ValueError.
(* ensembleNormalizer.py:362-399: the i-th sample drawn; 16 markers in turn *)
Definition draw_one (caps : bool) (n i : nat) (s : sample) (st : normalizers * (panel * panel))
  : normalizers * result (panel * panel) :=
  let '(ns, (p0, p1)) := st in
  match fit_both (sm_gsf s) (ns_low ns) (ns_high ns) with
  | (low, high, Raise e) => (set_models low high ns, Raise e)
  | (low, high, Ok _) =>
      let ns := set_models low high ns in
      (ns,
       if has_range low && has_range high then
         let first := Nat.eqb i 0 in
         let alpha := 1 / qnat n in
         let marker := Nat.modulo i 16 in
         do p0 <- nld_plot caps (ns_nld ns) first first (sm_nld s) (sm_T s) (sm_Eshift s) marker alpha p0 ;;
         do p1 <- gsf_plot caps (ns_gsf_Sn ns) false first (sm_gsf s) low high marker alpha p1 ;;
         Ok (p0, p1)
       else Raise TypeError)
  end.
Fixpoint draw_all (caps : bool) (n i : nat) (sel : list sample) (st : normalizers * (panel * panel))
  : normalizers * result (panel * panel) :=
  match sel with
  | [] => (fst st, Ok (snd st))
  | s :: r =>
      match draw_one caps n i s st with
      | (ns, Raise e) => (ns, Raise e)
      | (ns, Ok ps) => draw_all caps n (S i) r (ns, ps)
      end
  end.
(* ensembleNormalizer.py:401-407 *)
Definition kept (l : line) : bool := (ln_label l =? "known levels")%string || (ln_label l =? "_nld(Sn)")%string.
Definition drop_dummy (n_plot : Z) (ps : panel * panel) : panel * panel :=
  if (n_plot =? 0)%Z
  then (mkPanel (filter kept (pn_lines (fst ps))) (pn_named (fst ps)), mkPanel [] (pn_named (snd ps)))
  else ps.
(* ensembleNormalizer.py:325-407 *)
Definition plot_selection (caps : bool) (seed : option Z) (samples : list sample) (n_plot : Z)
    (st : normalizers * (panel * panel)) : normalizers * result (panel * panel) :=
  let seed := match seed with Some s => s | None => 98765%Z end in
  match select seed samples (n_drawn n_plot) with
  | Raise e => (fst st, Raise e)
  | Ok sel =>
      match draw_all caps (n_drawn n_plot) 0 sel st with
      | (ns, Raise e) => (ns, Raise e)
      | (ns, Ok ps) => (ns, Ok (drop_dummy n_plot ps))
      end
  end.

(* ---------------------------------------------------------------- plot *)
(* ensembleNormalizer.py:613-618 (in plot_gsf_ext_stats): the fits, one sample after the other;
   the parameters of both models for each sample *)
Fixpoint fit_samples (vs : list svec) (low high : gmod) : result (list ((Qc * Qc) * (Qc * Qc))) :=
  match vs with
  | [] => Ok []
  | v :: r =>
      match fit_both v low high with
      | (_, _, Raise e) => Raise e
      | (low, high, Ok _) =>
          do t <- fit_samples r low high ;;
          Ok (((g_scale low, g_shift low), (g_scale high, g_shift high)) :: t)
      end
  end.
(* the energies of the extrapolations' statistics and the fits behind them *)
Record mstats := mkMS { ms_nld_x : list Qc; ms_low_x : list Qc; ms_high_x : list Qc; ms_fits : list ((Qc * Qc) * (Qc * Qc)) }.
(* figures are numbered; o_fig: the figure returned, o_axfig: the one with the axes returned *)
Record outcome := mkOut {
  o_fig : nat; o_axfig : nat; o_legend : option nat; o_panels : panel * panel;
  o_stats : option (list (Qc * stat) * list (Qc * stat) * mstats) }.

(* ensembleNormalizer.py:279-298; the vectors are those after samples_unify_E *)
Definition model_stats (ns : normalizers) (nlds gsfs : list svec) : result mstats :=
  match nlds, gsfs with
  | vn :: _, vg :: _ =>
      match s_E vn, s_E vg with
      | en :: _, eg :: _ =>
          let Emin := last (s_E vn) 0 in
          let xlow := linspace (qn 1 1000) eg 20 in
          let xhigh := linspace (last (s_E vg) 0) (ns_gsf_Sn ns) 20 in
          do fits <- fit_samples gsfs (ns_low ns) (ns_high ns) ;;
          Ok (mkMS (linspace Emin (nl_Sn (ns_nld ns)) 20) xlow xhigh fits)
      | _, _ => Raise IndexError
      end
  | _, _ => Raise IndexError
  end.
(* ensembleNormalizer.py:207-310.  `from_res` is samples_from_res (300-324), `new` the number of
   the next figure, `axfig` the figure of the axes given.  The normalisers are deep copies, so
   the ones of the object do not change.  percentiles are 0.16 and 0.84. *)
Definition plot (from_res : Z -> list sample) (ns : normalizers) (caps : bool) (new : nat) (axfig : option nat)
    (figlegend : bool) (n_plot : Z) (plot_model_stats return_stats : bool) (random_state : option Z) : result outcome :=
  let axf := match axfig with Some f => f | None => new end in
  let new := match axfig with Some _ => new | None => S new end in
  let samples := from_res (match random_state with Some s => s | None => 98765%Z end) in
  match plot_selection caps None samples n_plot (ns, (new_panel, new_panel)) with
  | (_, Raise e) => Raise e
  | (ns, Ok ps) =>
      do nlds <- samples_unify_E (map sm_nld samples) ;;
      do gsfs <- samples_unify_E (map sm_gsf samples) ;;
      do sn <- vector_stats (qn 4 25) (qn 21 25) (map sm_nld samples) ;;
      do sg <- vector_stats (qn 4 25) (qn 21 25) (map sm_gsf samples) ;;
      let fig := if return_stats && negb plot_model_stats then new else axf in
      do ms <- (if plot_model_stats || return_stats then do m <- model_stats ns nlds gsfs ;; Ok (Some m) else Ok None) ;;
      Ok (mkOut fig axf (if figlegend then Some fig else None) ps
            (if return_stats then match ms with Some m => Some (sn, sg, m) | None => None end else None))
  end.
(* matplotlib's figure legend: the labels of lines and named items not starting with "_" *)
Definition shown (s : string) : bool := negb (String.prefix "_" s).
Definition legend (p : panel) : list string := filter shown (map ln_label (pn_lines p) ++ pn_named p).
End Oracles.
