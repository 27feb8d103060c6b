# Formal model of ompy (oslocyclotronlab/ompy) in Rocq/Coq 8.16.1

The code base is a numerical Python/Cython/C++ package.  It reads spectra,
rebins and cuts them, unfolds them, extracts primary gamma rays, fits a level
density (`nld`) and a gamma strength function (`gsf`), and normalises these,
for an ensemble of perturbed matrices with on-disk caches.  The code was only
read, never run.

Contents: 1 Layout · 2 Modelling decisions · 3 Trusted base · 4 What is modelled
and what is not · 5 Findings · 6 Proof plan per property · 7 Testing the theorems
· 8 Assumptions of every theorem.

## 1 Layout

* `properties.jsonl` – the semantic properties (C01 ...).
* `rocq/theories/*Model.v` – definitions only, each with a citation of the file
  and lines it models and of every simplification.
* `rocq/theories/*Spec.v` – the vocabulary in which properties are stated
  (independent of how the model computes).
* `rocq/theories/*Proofs.v` (and a few other names, e.g. `AliasStep.v`,
  `RhosigchiFix.v`) – lemmas about the model.
* `rocq/theories/*Props.v` – the property theorems, each with `Print
  Assumptions`, and `Example`s showing that the hypotheses are met by a concrete
  non-trivial case.
* `MANIFEST.json` – which theorem supports which property.  `proved`: the
  statement holds for the model as given.  `partial`: the statement is refuted for
  some inputs (theorem `..._refuted`, with a concrete witness) or proved under a
  stated restriction (`..._partial`); the note says which.
* `seeded/LOG.jsonl` – mutation tests: bugs planted in a scratch copy of the model
  and the theorems that no longer hold.

## 2 Modelling decisions

* **Numbers.** Double precision is replaced by exact arithmetic: `Qc` (canonical
  rationals of the standard library: computable, Leibniz equality, no axioms)
  for the algorithms, the standard library's `R` where `exp`, `sqrt`, `erf`,
  integrals or trigonometry are needed.  Rounding is therefore *not* modelled,
  except where a theorem says so (C70 rounding of calibrations; C69's bound for
  arguments up to 1-2^-53; C95 the decimal text formats; C98 the rebinning loop with
  every operation rounded to binary64, by Flocq's `round` with round-to-nearest-even; C99
  the first-generation product and chi square in the same way, for every order of the
  additions).  Non-finite values (NaN, inf) are modelled where
  the code handles or produces them on purpose: `div0`, row normalisation,
  `cut_nan`, `fluctuations`, extrapolations, `transform` (types `option Qc`,
  `xnum`, `lnum`, `Rbar`).
* **Arrays.** 1-D arrays are `list Qc`; 2-D arrays are lists of rows with an
  explicit column count (so that an array with no rows still has a shape).
  Python exceptions are values of a `result` type; an operation that mutates its
  object returns the new object *and* the outcome, so that the state left behind
  by a failing call is visible.
* **Indexing.** Python slices (including negative bounds) follow the Python
  rules.  Look-ups which in Cython run without bounds checks are `nth … 0`;
  theorems state or prove that the index is in range.
* **Identity of arrays.** The value-level models treat arrays as values.  What
  sharing does is modelled separately in `AliasModel.v`: a memory of cells, arrays
  as lists of cell numbers (so views are expressible), objects as records of
  arrays, and a language of statements (constructors, methods in place and not,
  arithmetic, item assignment).  The theorems for C74 tie the two together: for an
  object whose arrays are not shared, every method does what its value-level model
  says.
* **Environment.** Random numbers, external fits (differential evolution,
  MultiNest), `scipy` filters and file formats of third parties are section
  variables (oracles), universally quantified in the theorems.  The file system is
  a finite map from names to contents; a crash is a prefix of the write operations;
  parallel loops (`prange`, multiprocessing) are arbitrary interleavings
  (`Conc.v`).
* **Iteration.** Loops are structural recursion or folds; loops without a bound
  in the code carry fuel, and theorems prove the fuel sufficient or hold for any
  fuel.

## 3 Trusted base

* Coq's kernel (8.16.1), `coqc`/`coqchk`, `vm_compute` (used for the concrete
  witnesses of refutations and for examples).
* Axioms: only those of the standard library's real numbers and classical logic,
  and only in theorems about `R` (section 8 lists them per theorem):
  `ClassicalDedekindReals.sig_forall_dec`, `ClassicalDedekindReals.sig_not_dec`,
  `FunctionalExtensionality.functional_extensionality_dep`,
  `Classical_Prop.classic`.  All theorems over `Qc` are closed under the global
  context.  No axiom, parameter or admitted proof is added here; no kernel check is
  switched off; no functor or module type is defined.  Coquelicot's lemmas (limits,
  integrals) are used; they add no axioms beyond those four.
* The correspondence between `/repo` and the `*Model.v` files.  It was made by
  reading; every definition cites its source lines and its simplifications.
* The oracles: each theorem holds for *all* values of the section variables unless
  it states a hypothesis about them (for example "`sqrtq` is a square root on the
  values it is applied to", "the listing of the directory is in numerical order").
* The semantics of numpy, scipy, pickle and CPython that the models encode:
  slicing, broadcasting in the places named, `np.linspace`, `np.searchsorted`,
  `np.delete`, `interp1d` (linear, with fill values), `np.savetxt` as a table of
  numbers, `pickle` of an object's `__dict__` with name-mangled attributes,
  `os.replace`-free file writes, copy-on-fork of the random state.

## 4 What is modelled and what is not

| source | modelled (definitions in) | not modelled |
|---|---|---|
| `rebin.pyx` | `overlap`, `rebin_1D` with its index window, `rebin_2D` incl. validation (`RebinModel`); the same loop with every operation rounded to double precision (`FloatRebinModel`) | dtype conversion; typed memory views |
| `decomposition.pyx` | `index`, `nld_T_product` incl. scheduling of rows and concurrent writes, `chisquare_diagonal`, `chisquare`, `normalize` (`DecompModel`, `MatrixModel`, `Conc`); the same in double precision with any order of additions (`FloatDecompModel`) | flush-to-zero mode, fused multiply-add; out-of-range reads with `boundscheck(False)` (index ranges are proved instead) |
| `gauss_smoothing.pyx` | `gaussian`, `gauss_smoothing` with truncation, `gauss_smoothing_matrix_1D` (`SmoothModel`) | – |
| `matrix.py` | constructor, `verify_integrity`, `calibration`, `projection`, `cut`, `cut_like`, `cut_diagonal`, `line_mask`, `trapezoid`, `rebin`, `diagonal_elements`, `fill*`, `remove_negative`, `index_*`, `state`, `to_lower_bin`/`to_mid_bin`, `has_equal_binning`, `__matmul__`, `save`/`load` (`MatrixModel`, `MatrixRunModel`, `FileModel`, `CheckModel`, `AliasModel`), `ZerosMatrix` and the constructor without values (`ZerosModel`), `plot` (cells, scale, pointer, effect on the axes), `ascii_plot`, `MeshLocator` (`PlotModel`; in doubles `FloatShiftModel`) | colours, texts and figures of `plot`, `iter` |
| `vector.py` | constructor, `verify_integrity`, `calibration`, `save`/`load`, `transform`, `error`, `cut`, `cut_nan`, `rebin`, unit conversion, `closest`, `cumulative`, `has_equal_binning` (`VectorModel`, `TransformModel`, `FileModel`, `AliasModel`), the integer type of `Vector(E=int array)` (`ZerosModel`) | colours of `plot` (`StdPlotModel` has the kinds) |
| `abstractarray.py`, `matrixstate.py`, `action.py` | all but `__matmul__` of the base class; `to_plot_axis`; states; the action log, the names it records and the objects it records into (`ArithModel`, `Axis`, `CheckModel`, `ActionModel`, `ActPatchModel`) | – |
| `library.py` | `div0`, `i_from_E`, `line`, `make_mask`, `E_array_from_calibration`, `fill_negative_*`, `shuffle_counts`, `cut_diagonal`, `log_interp1d`, `call_model`, `diagonal_elements`, `self_if_none` with the regular expression of `_retrieve_name` (`NameModel`), `interpolate_matrix_1D/2D` (`MatInterpModel`) | `annotate_heatmap` |
| `filehandling.py` | mama, tar, numpy, text and csv formats as tables and directories, `load_discrete` (`FileModel`, `LevelsModel`); decimal printing and reading of doubles (`TextNumModel`); the characters and lines of a mama file, `read_response` (`MamaTextModel`) and of the txt files (`TxtTextModel`) | the characters of csv files, nan, inf and overflow in text |
| `firstgeneration.py` | everything numerical (`FirstGenModel`) | logging, progress bars |
| `unfolder.py` | everything numerical incl. Compton subtraction (`UnfoldModel`, `SmoothModel`) | `interp1d` of the response inside it is an oracle |
| `response.py` | `get_probabilities`, `interpolate` and all its cases, Compton kinematics, `discrete_peaks`, `two_channel_split`, `LoadZip`, `LoadDir` (`ResponseModel`, `ComptonModel`, `InterpModel`, `RespLoadModel`) | the bytes of the files: a spectrum is a calibration, a last channel and counts, `resp.dat` a list of classified lines, `resp.csv` its rows |
| `ensemble.py` | constructor, `load`, `generate`, `step`, perturbation, background, unfolding, first generation, caching, std , `rebin`, `get_*` (`EnsembleModel`, `EnsRebinModel`) | colours of `plot` (`StdPlotModel` has its limits and scales) |
| `extractor.py` | `extract_from`, `standard`, `rhosigchi` driver, `step`, caching, `decompose` objective and its parameter vector, `resolution`, unconstrained entries, statistics (`ExtractorModel`), the choice of the algorithm, the limits, nan and units of `rhosigchi` (`RscDriverModel`), the initial guesses (`GuessModel`, over R), from transmission to strength (`PipeModel`, over R) | optimisers |
| `pyrhosigchi.py`, `rhosigchi.cpp` | `normalize`, `iterate`, `chisquare`, the fixed-point equations (`RhosigchiModel`); `Finv` (`FinvModel`, over R); the preparation of the matrices, limits and result energies, `find_limits`, `pad_matrix`, the loop over members in `Extractor.rhosigchi` (`RscSetupModel`); the error analysis without the root (`RscErrModel`) | the random generator |
| `normalizer_nld.py`, `normalizer_gsf.py`, `normalizer_simultan.py`, `abstract_normalizer.py` | level densities, `D0` relations, spin sums, the width integral, extrapolations, transformation, caching, argument handling, state kept between calls, save/load, the likelihoods, `load_levels_*`, `save_results_txt` (`ResultsModel`, `NormModel`, `SpinSumModel`, `NormStateModel`, `LikeModel`, `LevelsModel`), bounds, edge warning and priors (`OptModel`), file names and report of the sampler (`ReportModel`, over R), state of the simultaneous normalisation across likelihood evaluations and calls (`SimStateModel`) | the optimisers themselves, plotting |
| `models.py` | parameter classes, freezing, `is_changed`, properties, extrapolation models, save/load (`ParModel`, `NormModel`), the fit ranges and the points handed to `curve_fit` (`FitWinModel`) | pickling at byte level |
| `spinfunctions.py` | all models (`SpinModel`) | – |
| `ensembleNormalizer.py` | `normalize` sequential and parallel, `step`, sampling of random numbers (`EnsNormModel`), `samples_unify_E`, `stats_from_df`, `plot_vector_stats` without the drawing (`SampStatModel`), `tranform_nld_gsf`, `samples_from_res` (`SampTransModel`), `save_results_txt` (`ResultsModel`), `plot_nld_ext_stats` and `plot_gsf_ext_stats` without the drawing, over the reals, columns with infinite entries kept as unknown (`ExtStatModel`), `plot` and `plot_selection`: samples drawn, labels, fits, figures and energies (`EnsPlotModel`) | colours, limits and positions in the plots |
| `stats.cpp`, `erfinv.hpp` | quantile of the truncated normal distribution, the inverse error function (`StatsModel`; accuracy in `ErfSeries`, `ErfGrid`, `ErfinvGrid`, `ErfinvAccProps`) | vectorised wrappers |
| `version.py`, `examples.py`, `setup.py` | the version strings and working directory, the version file, the OpenMP switch, the example paths, `disjoint_rows` (`VersionModel`) | the environment passed to git, the extension list, reading of the example files (see `filehandling.py`) |
| `__init__.py` | – | not modelled |

## 5 Findings

Behaviour of the code (as modelled) that contradicts what its documentation or a
user would expect.  "R" marks those with a machine-checked counterexample
(theorem `..._refuted`); the others were found by reading.

**Rebinning, cutting, matrices and vectors**

* R `rebin` with a factor below 1 loses counts (C05).  A target axis with fewer
  than two points raises `IndexError`; `mids` given as a list raises `TypeError`.
* R Cuts with exclusive limits drop or keep the wrong bins (C09).
* R In-place `cut`, `rebin` and `trapezoid` leave `std` with its old shape; the
  not-in-place variants drop `std` and `state`.  `verify_integrity` then fails later
  (C10, C12).
* R `trapezoid` and `cut_diagonal` corner cases (C25); `verify_equdistant` uses an
  absolute tolerance (C72); `__eq__` and `has_equal_binning` are neither symmetric nor
  complete; `state !=` compares identities; `div0` on empty or scalar input.
* R Arrays are shared (C74): `rebin(mids=other.E)` and `closest(E_new)` in place
  store the caller's array, so that `to_MeV` on one vector divides the energies of
  another; `rebin('both', mids=a)` makes `Ex` and `Eg` one array, so that
  `to_lower_bin` (called by `plot`) shifts by a whole bin; with `inplace=False` the new
  matrix still keeps the caller's array as `Ex`; `Matrix(std=a)` stores `a`;
  `projection` returns the matrix's own axis array.
* `closest` with a scalar energy raises `TypeError`.  `Vector(E=int array)` gets
  integer `values`.  `ZerosMatrix(std=True)` raises `AttributeError`.
  `Matrix.__matmul__` creates `NotImplementedError` without raising it.
* R `fill_negative_gauss` can move counts far away or leave negatives (C19);
  `fill_negative_max` with a negative window raises `ValueError`.
* R `transform`: bins with value zero lose their `std`; `const = 0` breaks
  composition (C29).

**Files**

* R Text and tar formats: a single row is read back as a different shape; temporary
  files of `save_tar` overwrite and delete files in the working directory; file names
  without suffix are cut at the wrong place; loading extracts into the working
  directory; numpy adds a suffix (C31-C33).
* `Matrix.save(filetype='mama')` ignores `which='std'`; `Vector.save` as mama writes
  the energies unconverted; two-column loads keep a stale `std` and do not set
  units; `Matrix.load` is not atomic; `save_txt_2D(header=False)` raises `TypeError`.

**Unfolding and first generation**

* R C38, C39 (first generation), C42 (unfolder).  In the Compton subtraction the
  double-escape shift uses 1024 keV instead of 1022 keV; `c` may be negative before
  smoothing; a matrix that is not in state RAW only gives a warning.

**Decomposition and extraction**

* R `chisquare_diagonal`'s limit lacks the half bin used elsewhere (C49).
* R An unknown extraction algorithm does nothing; the rhosigchi path uses a local
  `ensemble` that may be `None`; its "std" is a mean; caching ignores the settings
  (C55, C76, C77).  `trapezoid` is mutated by `curry`; `__getstate__` drops the ensemble.
* R rhosigchi: `normalize` returns the unnormalised errors; rows with sum zero are
  divided by zero; an `igmax` beyond the row reads outside it; negative counts give
  negative strengths; `chisquare` divides repeatedly inside a loop (C63).
  `pyrhosigchi` rebins its input matrices in place.

**Ensemble**

* R `load` pairs three independent directory listings, in arbitrary order, includes
  left-over files and skips the actions; the cache ignores method and seed; a crash
  between writes leaves files that are later taken as complete; a torn `.npy` raises on every later run
  (C51-C53, C75).

**Response**

* R `interpolate` on coarse axes divides by zero (`fan_to_end` with one channel) and
  raises `OverflowError`; outside the table probabilities do not sum to one and can be
  negative; `E_compton` returns `Eg` below 0.1 keV (C64, C65).  An axis that reaches beyond the
  last energy of the tabulated Compton spectra makes it raise `IndexError` (or `ValueError`); it is
  defined on all other equidistant axes with channels of at most 438 keV (`response_defined`).
* Negative discrete peaks are dropped by the smoothing.  For `LoadZip` see C92.

**Normalisation**

* R The spin-sum cache is keyed by reference and returns the saved array itself;
  `extrapolate` ignores the method of the high-energy model; `E_grid` ignores `Emax`;
  the constructor's `nld` is never used; the `gsf` argument is converted in place (C60,
  C61, C66).
* R `NormalizerSimultan`: fixed extrapolations are not transformed with the normalisation.
* R `NormalizerNLD`: the `discrete` argument of `normalize` is ignored; `std_fake` stays
  set; setting `discrete` to `None` does nothing (`_discretes`); `path=None` raises.
* R `load` overwrites `regenerate` and `path`; all normalisers of one class at one path
  share one file; a torn pickle raises until `regenerate=True` (C66).
* R `models.py`: extrapolation models are never frozen and cannot be pickled; `Emax`
  cannot be set before `Sn`; the exclusion of `A` is ineffective; non-`None` defaults are
  not reported; list defaults raise `NameError` (C67).
* R `EnsembleNormalizer`: `samples["B"]` depends on the number of processes, and forked
  workers share their deviates; the sequential fallback carries state from member to
  member and cuts NaN from the extractor's vectors in place (C68).
* `spinfunctions`: `const` with integer energies truncates; reversed points swap the fill
  values; `EB09_CT` returns a scalar; `Disc_and_EB05` builds a ragged array.
* C69 `erfinv`: two Newton steps from below never pass the exact inverse for arguments up to
  1-2^-53 (proved); beyond it, for real numbers not representable as doubles, the initial
  approximation exceeds it. The result is within 1.5e-7 of the exact inverse (proved from a grid
  of 1259 points checked by computation and monotony between them), but not equal to it.
* R C69 `truncnorm_ppf`: it may return a point below the lower bound (by less than 2.2e-7), even
  for p = 0, as the error of `erfinv` has a definite sign.
* R C79 `NormalizerNLD.lnlike`: `ln_stds` is the sum of ln(sigma), but it is added to the chi
  squares before the factor -1/2, so it has half its weight. As sigma scales with A exp(alpha E),
  this is not a constant: the less likely of two parameter sets may be preferred.
* C79 `NormalizerNLD.lnlike`: one bin with value 0 within `limit_low` or `limit_high` (its std is
  nan after `transform`) makes the likelihood nan for all parameters.
* R C80 `load_discrete`: a file with exactly one level raises TypeError (`np.loadtxt` returns an
  array without dimensions, `len` fails), although the next line treats this case separately.
* R C81 `Ensemble.rebin` rewrites only `firstgen_std.npy`: `firstgen.npy` and the member files keep the
  old binning, so a later `load` (or `generate(regenerate=False)`) mixes old members with
  standard deviations of another shape; the new matrix `firstgen` has lost its state.
* R C82 `Ensemble.get_unfolded([i])`, `get_firstgen([i])`: the matrices have no state, those of
  `get_unfolded(i)`, `get_firstgen(i)` do.
* R C84 `samples_unify_E`: the new grid is the union of the energies of one vector that starts lowest
  and one that ends highest. Values of the other vectors at energies outside it are dropped without
  notice; vectors with equal end points but different energies in between are left as they are, and
  the statistics then mix energies (or raise). The uncertainties are not put on the new grid.
* R C85 `tranform_nld_gsf`: `nld` and `gsf` are optional by signature, but leaving out either raises
  ValueError (the bare `except: pass` swallows `None[i]`, the empty list then does not fit the table).
  `N_max` limits the number of samples for Vectors, not, as documented, for lists; a list longer than
  the samples raises IndexError.
* R C87 `Finv`: all random numbers within 1e-3 of 1/2 give exactly 0 (Finv_flat), so 0.2 % of the cells are
  not perturbed, and the quantiles are only good to 1e-3.
* R C88 `pyrhosigchi`: level densities are reported at i*a1 + a0, but belong to (i - u0)*a1. The difference is
  up to half a bin (e.g. 1 keV for bins at 1, 3, 5 keV; zero if the first energy is a multiple of the bin width).
* R C89 `Extractor.rhosigchi`: `first_gen_std` is created once and rebinned in place by every `pyrhosigchi`. The second
  member without saved results always raises ValueError ("different shapes"); calling again gets one member further.
* R C90 `find_limits`: an Ex_min below the first energy gives negative row numbers, which wrap around: rows above Ex_max
  get an upper limit; an Ex_max above the last bin raises IndexError.
* R C91 `pyrhosigchi`: a single draw in which all counts of one row fluctuate to zero or below divides by zero in
  `normalize_array`; all errors of the level density and of the strength function are then nan.
* R C92 `LoadZip` reads the spectra in the order of `sorted(resp['Eg'])`, but the table keeps its order: in a `resp.csv`
  that is not sorted the peaks of one energy are combined with the Compton spectrum of another.
* R C92 `LoadZip`: the energies are `linspace(a0, a1*(N-1), N)`; the end point lacks `a0`, so channel i is off by a0*i/(N-1);
  the quadratic term is ignored. Spectra with other calibrations, refused in a directory with `NotImplementedError`, are
  accepted. File names are cut (`int(Eg)`) in an archive and rounded (`:.0f`) in a directory.
* R C93 `Extractor.rhosigchi` goes on with its argument `ensemble` instead of the attribute: AttributeError for an ensemble
  that was given earlier, for which `standard` works (`algorithms_same_arguments_refuted`).
* R C93 `Extractor.rhosigchi`: `first_gen_std` is `np.mean(..., axis=0)` of the members, not their standard deviation; members
  that agree get an uncertainty of 100 % (`rsc_uncertainty_refuted`).
* R C93 rhosigchi reports the strength function in MeV^-3, `standard` in keV^-3 (for axes in keV): a factor 10^9
  (`algorithms_same_units_refuted`, `rsc_units`).
* C93 The limits of rhosigchi must be keywords of a `trapezoid` call (KeyError if positional); only the last one counts, all
  other recorded calls and `Eg_max` are ignored; without one the limits are None (`limits_of_last_trapezoid`, `limits_missing`).
* C93 An unknown name of an algorithm does nothing, silently (`unknown_algorithm`).
* R C94 `x0_BSFG`: only energies at or below the back-shift -0.2 MeV are replaced; one just above it gives an arbitrarily
  large start value, although the guess is meant to be close to one (`guess_bounded_refuted`).
* R C94 `guess_initial_values`: `assert np.isfinite(x0).all` lacks the call and never fails; a single energy gives nan
  (`guess_single_refuted`).
* R C94 `guess_initial_values`: an axis in keV is recognised by a last energy above 100; one ending at or below 100 keV is
  taken for MeV (`guess_units_refuted`).
* R C95 `mama_write1D`, `mama_write2D`: the calibration is printed with seven digits, so the
  axis read back can fail `has_equal_binning` with the one written when it starts below zero: for
  E = -1000.0000153, -999.0000153, ... bin 1000 is 0 instead of -1.5e-5 (the tolerance there is 1e-8).
* R C96 `interpolate_matrix_2D` (unused in the package): the mask compares with `<=` and `>=`, so the
  outermost rows and columns of a matrix interpolated on its own axes become zero; a 2x2 matrix
  vanishes. `interpolate_matrix_1D` keeps them.
* R C97 `_retrieve_name`: the name of the argument is guessed from the source line; a comment like
  `nld = self.self_if_none(nld)  # (see above)` makes it look up `see`, and a call broken over two
  lines raises AssertionError. All calls now in the package are found correctly.
* R C99 `chisquare`, `chisquare_diagonal`: bins are skipped when `std == 0`, but the division is by `std**2`, which underflows to zero for |std| below about 1.6e-162 (`chi_guard_refuted`): chi square becomes inf, or nan where fact equals fit.  Only for absurdly small uncertainties.
* R C100 `mama_write`: a comment containing a line break is written as it is; the file then has more than ten header lines and mama_read raises ValueError (or reads another line as the calibration) - `mama_comment_refuted`.
* R C100 `read_response`: unpacks four values from mama_read, which returns two or three: it raises for every file - `read_response_raises`.
* R C101 `save_txt_2D`: header=False is turned into header=None, for which np.savetxt evaluates len(None): TypeError after the file was emptied - `txt_header_false_refuted`.
* R C101 `save_txt_1D`, `save_txt_2D`: np.savetxt comments out the header only after line feeds; text after a carriage return is read as data, silently if it consists of the right number of numbers - `txt_header_return_refuted`.
* R C102 `AbstractNormalizer.save_results_txt`: with_suffix removes everything after the last point of the suffix argument: results with suffixes 1.5 and 1.6 overwrite each other - `results_suffix_refuted`.
* R C102 `EnsembleNormalizer.save_results_txt`: files of members of an earlier, larger ensemble remain and are indistinguishable from the new ones - `ensemble_results_stale`.  The argument suffix is not used.
* R C102 `AbstractNormalizer.save_results_txt`: the samples are checked after the other files were written; an error leaves the new nld and gsf with the old samples - `results_torn_refuted`; a parameter with one value is broadcast to a row - `results_broadcast_refuted`.
* R C104 `Ensemble.generate_gaussian`, `subtract_bg`: negative entries of each member are set to 0 before members are combined, so that the average of the members exceeds the measured counts (Gaussian) or prompt - ratio*background (with a background) in every bin in which a draw can be negative. In bins with few counts the ensemble is biased upwards.
* R C105 `library.cut_diagonal`: if both points fall into the same gamma-ray bin the slope is a division by zero, every comparison is false, and the whole matrix is silently set to zero (`lib_cut_vertical`).
* R C108 `rhosigchi.cpp iterate`: the sums over rows start at `max(jmin, ig)` although with an extended diagonal (`extend_diagnoal` = 800 keV by default, so `iu0 > 0`) the rows `ig - iu0 <= ix < ig` also contain the column; they are left out, and a transmission coefficient that only these rows constrain is set to zero in the first iteration even if the matrix factorises exactly (`exact_solution_lost_refuted`). Bins with zero uncertainty count in the normalisation of the row but not in the update (`no_uncertainty_lost_refuted`).
* R C109 `FirstGeneration`: the weight of the decay from bin i to bin k is read from Eg bin i−k of the rebinned spectrum, which is the energy of that decay only if both axes start at 0. With axes starting at one bin width (the usual output of a calibration with no zero bin) the weights are one bin off and the true primary spectra are not a fixed point (`firstgen_offset_refuted`). They are not one either with the default statistical multiplicity, which leaves out energies below 430 keV (`firstgen_statistical_refuted`). And the all-generations matrix does not determine the primary spectra at all: 3→2→0 and 3→1→0 can give the same matrix (`primary_unique_refuted`).
* R C110 `NormalizerGSF.normalize`: with extrapolation models of method "fix" the result depends on the arbitrary scale of the extracted strength function, because the fixed shift refers to the input before normalisation; the data are scaled by B while the width may come from the extrapolations alone (`gsf_normalize_gauge_fixed_refuted`). With method "fit" the scale drops out (`oslo_gauge`).
* R C111 `NormalizerNLD.lnlike`: the term `ln_stds` depends on A and alpha, so on data that agree exactly with levels, model and nld(Sn) the likelihood is never largest at the true normalisation (`truth_best_refuted`, for every data set). With the other parameters true, it is largest for A = 2/(1+sqrt(1+2r^2)) of the true scale, r being the relative uncertainty: about r^2/2 too low, 4 % for the 30 % assumed for data without uncertainties (`likelihood_scale_biased`, `best_scale_relative`).
* R C112 `Unfolder.step`: the additive iteration u + (raw - u R) converges only if the powers of I-R vanish. For a response that puts more than half of the counts into a neighbouring bin the distance to the true spectrum grows in every iteration although the data are folded exactly and the response is invertible (`unfold_converges_refuted`); no check or warning exists. It converges for responses that are triangular (`unfold_converges`) or have more than half of the counts in the full-energy bin (`unfold_error_bound`, `spread_meaning`).
* R C114 `NormalizerNLD.initial_guess`: the bounds go to differential evolution by position in the dict, the warning looks them up by name; a user's dict in another order bounds other parameters (`bounds_order_refuted`).
* R C114 `NormalizerNLD.bounds`, `optimize`: the fixed bounds of `A` and `alpha` and the log-uniform prior of `alpha` around the guess refer to the arbitrary scale and slope of the extracted level density, so the result is not invariant under the transformation the method leaves open (`guess_same_bounds_refuted`, `prior_slope_refuted`). A guess with `alpha < 0`, which is only a matter of the input's slope, raises `NotImplementedError`.
* R C115 `ZerosMatrix(std=True)`: the flag itself is passed on as `std`, so `True.shape` raises `AttributeError` (`zeros_matrix_std_refuted`).
* R C115 `Vector(E=...)`: `np.zeros_like(E)` of integer energies is an integer array: stored numbers lose their fraction, adding a float or dividing raises `TypeError` (`vector_of_integer_energies_refuted`).
* S C115 `Matrix(values, shape=...)`: values given next to a shape are silently replaced by zeros (`matrix_of_shape`); `Matrix(Ex=...)` alone is accepted with `nan` as values (`matrix_without_values_refuted`).
* R C116 `plot_gsf_ext_stats`: with `method = "fix"` all samples give the same curve, with the shift before normalisation: a band of width zero, off by the factor B from the extrapolation in the results (`gsf_bands_fixed`, `gsf_bands_fixed_refuted`).
* S C116 `plot_gsf_ext_stats`: whether the upper extrapolation is fitted is decided by the method of the lower one (`gsf_bands_fitted`); lower and upper energies of different number raise `AssertionError` (`ext_stats_refuse`).
* R C117 `AbstractExtrapolationModel.fit`: the default fit range is set once and kept, so a second strength function on another axis is fitted in the window of the first (`own_window_refuted`).
* R C117 `fit` with energies in keV: `autofitrange` converts a copy to MeV, `gsf.index` then searches the axis in keV; both ends fall on the first bin and `curve_fit` raises `TypeError` (`fit_keV_refuted`).
* S C117 `autofitrange`: `Efit` given as a tuple with a missing end raises `TypeError` (`fit_refuses`).
* R C118 `optimize`: `int(-floor(log10(sigma)))` of a parameter with `sigma = 0` raises `OverflowError` after the whole run, before anything is returned (`zero_width_refuted`).
* R C118 `optimize`: the limit of 60 characters includes the digits of the member number, so the ensemble fails with `AssertionError` at the first member with one digit more (`member_number_refuted`).
* R C119 `NormalizerSimultan.normalize`: a call that fails during or after sampling (interrupt, `OverflowError` of the report, `alpha < 0`) leaves `std_fake_nld`/`std_fake_gsf` set, so that the real standard deviations of the next vectors are replaced by 30 % of the values (`sim_interrupted_refuted`).
* R C119 `NormalizerSimultan.lnlike`, `optimize`: `norm_pars.D0` of the held normaliser is put back only after success; after an exception the next call starts from the D0 of the last sampled point with uncertainty nan, takes it for the original and keeps it (`sim_interrupted_D0_refuted`).
* R C120 `pyrhosigchi`: the default 51 rows allow a total change by a factor of at most 11.5 per entry from the start at 1, so the entries of the level density span less than a factor of 133 and a matrix with larger double ratios cannot be reproduced, however many counts it has (`rhosigchi_span`, `rhosigchi_reach_refuted`). There is no test for convergence.
* R C121 `Matrix.plot` on unequal bins: half of the first bin is taken off every energy, so an entry can be drawn away from its energy (`plot_unequal_refuted`).
* R C121 `Matrix.ascii_plot`: the argument `shape`, documented to rebin the matrix, is ignored (`ascii_shape_refuted`); a matrix with negative but no positive entries raises ValueError (`ascii_refuses`).
* R C121 `MeshLocator.tick_values`: with more than 20 bins in view the ticks are rounded to multiples of at least 10 of the unit of the axis; for an axis in MeV they collapse, one of them outside of the data (`ticks_mev_refuted`). If the last bin lies at 0, int(log10(0)) raises OverflowError (`ticks_overflow_refuted`).
* R C122 `Matrix.plot`: the axes of the matrix are moved down and up again in place, which is not exact for energies such as 0.1 and 0.3: plotting changes the matrix, and code that compares energies exactly (`unfolder.py:340` asserts that the energies of the response table are those of the response matrix; `ensemble.py:383`) sees another axis (`plot_drift_refuted`); the change is bounded (`plots_drift_bound`).
* R C123 `NormalizerNLD.plot` renames the last three lines "_nld(Sn)", which is right only if error bars have caps: with matplotlib's default the known levels (and data without uncertainties) disappear from the legend (`plot_legend_refuted`), and `EnsembleNormalizer.plot(n_plot=0)` keeps the line of the dummy sample (`plot_no_samples_refuted`). A negative n_plot draws one sample (`plot_negative`).
* R C123 `EnsembleNormalizer.plot(return_stats=True)` without plot_model_stats returns an empty dummy figure instead of the one with the axes, and puts the legend there (`plot_figure_refuted`).
* R C123 `EnsembleNormalizer.plot`: the argument random_state is not passed on to plot_selection: the positions drawn are the same for every random state (`plot_positions_fixed`).
* R C123 `EnsembleNormalizer.plot`: samples of different ranges are put on one grid without their uncertainties (samples_unify_E), so the fits behind the bands weight the points with the uncertainties of other energies (`stats_fit_refuted`) or meet NaN and raise ValueError (`stats_fit_fails_refuted`).
* R C123 `EnsembleNormalizer.plot` with extrapolations of method 'fix' and no Efit raises TypeError (`fixed_model_not_drawn`). If the data end above Sn the energies of the bands run backwards over the data (`stats_energies_backwards`).
* R C124 `setup.py`: without a `.git` directory (an unpacked release archive) no build can succeed: the script writes ompy/version_setup.py and then, on the second call of get_version_info in the same run, imports `git_revision` from ompy.version, which only has `GIT_REVISION` (`build_without_git_refuted`, `build_without_git_first`, `build_without_git_again`).
* R C124 `git_version` captures standard error with the output: a warning of git becomes the version, the generated version_setup.py then has a string over several lines, and the package built cannot be imported (`build_warning_refuted`). Output that is not ASCII is an uncaught UnicodeDecodeError that also leaves the process in another working directory (`import_version_refuted`, `import_directory`).
* R C124 `example_response` raises KeyError for every name: the table has no responses (`example_response_refuted`). `disjoint_rows` fills the odd rows with 1, 3, ... ones, not the rows of the documentation (`disjoint_rows_documented_refuted`).
* R C125 `Action` only records methods written in Matrix or Vector themselves: inherited ones (`copy`, `verify_equdistant`) raise AttributeError (`inherited_refuted`). The methods return the Action itself, so two Actions derived from a common one are the same (`derived_refuted`). The recorders are closures, which copy.deepcopy keeps: a call on a deep copy is recorded in the original (`copy_refuted`).
* R C126 `Ensemble.plot`: the argument ax cannot be used: one axis has no len, a list or array of axes has no figure (`std_plot_axes_refuted`). The scale is chosen for each picture by its own sum, while the single colour bar is that of the last one (`std_plot_scale_refuted`). With a zero among the entries the lower limit is 1, so smaller entries are cut off without an arrow, and the limits are in the wrong order if no entry reaches 1 (`std_plot_limits_refuted`, `std_plot_order`).
* R C126 `Vector.plot`: the documented kind 'bar' raises NotImplementedError (`vector_bar_refuted`); with uncertainties the kind is ignored, also an unknown one (`vector_kind_refuted`).

## 6 Proof plan per property

| id | model | proof |
|----|-------|-------|
| C01–C05 | `rebin_1D` with its index window, `Vector.rebin` incl. `linspace` | telescoping of overlaps; refutation for factor < 1 |
| C06 | `rebin_2D`, `Matrix.rebin` | double-sum exchange; validation branches |
| C07 | early-exit scan | induction over the scan on sorted axes; refutation for unsorted ones |
| C08, C09 | `Matrix.cut` with Python slice semantics | case analysis through C07; refutation for exclusive limits |
| C10, C12 | operation interpreters for matrices/vectors | invariant by induction over histories; refutations for `std` |
| C11, C13, C27, C28, C30 | `Vector` methods | direct |
| C14–C17 | arithmetic, `__eq__`, axis names, states | direct, refutations of symmetry / `!=` |
| C18–C21 | `fill_negative_*`, `shuffle_counts`, `remove_negative`, `div0` | loop invariants with a termination measure |
| C22–C26 | projection, fill, masks, trapezoid, diagonal | sums over index sets, permutations |
| C29, C48, C58, C61, C62, C65, C69 | formulas over `R` | real analysis |
| C31–C33 | file formats as tables, directory as finite map | round trips; refutations with colliding names |
| C34–C39, C73 | `FirstGeneration` | invariants over iterations, two-run non-interference |
| C40–C45 | `Unfolder`, smoothing, shifting | induction over iterations, linear algebra on lists |
| C46, C47, C49, C76, C77 | `nld_T_product`, chi-square | row sums; permutation of row tasks, interleavings |
| C50–C55, C75 | ensemble/extractor cache as file-system state machine | schedules and crash prefixes; refutations |
| C56 | diagonals of the matrix | counting |
| C57 | action log | replay = direct calls |
| C59, C60 | discretised width integral, spin sums, caching | linearity; cache invariant, refutation under aliasing |
| C63 | rhosigchi update step | invariant, fixed points |
| C64 | interpolation, two-channel split | direct |
| C66–C68 | normaliser/model objects as state machines | histories; schedules |
| C70–C72 | `linspace`, rounding, checks | direct |
| C74 | memory cells, statements | frame property, separation invariant by induction over programs, refinement to the value-level models |
| C95, C98, C99 | Flocq formats and rounding | error analysis; telescoping overlaps |

Not expressible here: the rounding of the loops not named in section 2; performance; plotting; the
statistical quality of fits; third-party file formats at byte level.

## 7 Testing the theorems

`seeded/LOG.jsonl` has one line per planted bug: the definition edited, the edit,
the claim it breaks, the theorems that failed, and the theorems that were tightened
because the bug survived at first.  The edits are made in a scratch copy; failing
proofs are stubbed there so that all theorems affected by the bug are found.

## 8 Assumptions of every theorem

Output of `Print Assumptions`, grouped.  Names are `File.theorem`.

### Closed under the global context (697)

* **ActPatchProps**: new_action_made, new_action_refuses, recorded_names, own_methods_kept, inherited_refuted, chain_records, chain_stops, derived_refuted, copy_refuted, inherited_names_refuted
* **ActionProps**: act_on_is_direct, action_history, action_reusable, curry_overrides, act_map_members, act_map_raises
* **AliasArithProps**: vector_arithmetic_is_pure, matrix_arithmetic_is_pure, matrix_product_is_pure
* **AliasNewProps**: vector_constructor_shows, matrix_constructor_shows
* **AliasProps**: statement_changes_target_only, creating_statement_changes_nothing, reachable_valid, created_objects_are_independent, programs_keep_objects_apart_partial, untouched_objects_keep_arrays_partial, vector_method_in_place, matrix_method_in_place, vector_method_copy, matrix_method_copy, copy_shows_the_same, rebin_in_place_shares_refuted, closest_in_place_shares_refuted, matrix_rebin_in_place_shares_refuted, matrix_std_shares_refuted, projection_axis_shares_refuted, both_axes_share_refuted, both_axes_copy_shares_refuted, row_shares_refuted
* **ArithProps**: matrix_arith_elementwise, matrix_arith_scalar, vector_arith_elementwise, vector_arith_scalar, matmul_is_matrix_product, arith_binning_check_symmetric_refuted, vector_eq_decides_closeness_partial, vector_eq_reflexive_partial, matrix_eq_decides_closeness_partial, matrix_eq_reflexive, eq_symmetric_refuted, eq_nan_not_reflexive_refuted, eq_never_raises_refuted, eq_std_raises_refuted, eq_broadcast_refuted, div0_arrays_partial, div0_numbers_partial, div0_scalar_nonfinite_refuted
* **AxisProps**: axis_name_denotes, axis_number_denotes, axis_name_unique, state_assignment_denotes, state_argument_unique, state_is_last_valid_assignment, state_ne_negates_eq_partial, state_ne_refuted
* **CalibProps**: calibration_by_number, calibration_by_energy, calibration_rejects
* **CheckProps**: matrix_constructor_result, matrix_constructor_rejects, matrix_constructor_accepts, verify_integrity_iff, equidistant_axis_passes, equidistant_check_iff, equidistant_check_deviation, equidistant_check_absolute_refuted, cut_like_window, cut_like_copy_window
* **CutProps**: index_is_nearest, nearest_is_unique, index_unsorted_refuted, cut_Eg_inclusive, cut_Ex_inclusive, cut_copy_same_data, cut_rejects_bad_axis, cut_Eg_exclusive_partial, cut_Ex_exclusive_partial, cut_exclusive_refuted, cut_exclusive_lower_refuted
* **DecompProps**: product_is_probability, product_rows_sum_to_one, product_defined, product_schedule_independent, product_schedule_terminates, product_row_final, chisquare_value, chisquare_measure, chisquare_diagonal_measure, chisquare_compares_product_partial, chisquare_compares_product_refuted
* **EnsNormProps**: ensemble_pool, ensemble_pool_simultan, ensemble_member_raises, ensemble_sequential_partial, sample_values, ensemble_sequential_alike_partial, samples_depend_on_processes_refuted, samples_shared_refuted, sequential_carry_over_refuted, sequential_changes_extractor_refuted
* **EnsPlotProps**: selection_draws, selection_too_many, drawn_extrapolations, fixed_model_not_drawn, plot_legend, plot_legend_refuted, plot_no_samples, plot_no_samples_refuted, plot_negative, plot_figure, plot_figure_refuted, plot_positions_fixed, stats_fits, missing_value_refused, stats_fit_drawn, stats_fit_refuted, stats_fit_fails_refuted, stats_energies, stats_energies_backwards
* **EnsRebinProps**: ensemble_rebin_memberwise, ensemble_rebin_shapes, rebinned_member_counts, ensemble_rebin_nothing, rebin_then_load_refuted, members_by_index_partial, members_state_refuted
* **EnsembleMeanProps**: poisson_member_mean, gaussian_member_mean, background_member_mean_partial, background_member_mean_refuted
* **EnsembleProps**: generate_schedule_independent, generate_completes, regenerated_is_requested, generated_std_is_spread, generated_in_empty_is_requested, resumed_is_requested_partial, interrupted_run_resumes_partial, members_nonnegative, member_files_nonnegative, returned_raws_nonnegative, load_reads_listed_files, loaded_members_correspond_partial, loaded_is_generated_partial, resume_truncated_refuted, resume_background_refuted, cached_parameters_refuted, load_pairing_refuted, load_leftovers_refuted, load_misses_actions_refuted
* **ExtractorNonnegProps**: negative_costs_1e20, extracted_nonneg
* **ExtractorProps**: grid_one_bin_per_diagonal, unconstrained_bins, decompose_succeeds, grid_mismatch_refuted, constrained_not_compared_refuted, rows_become_probabilities, propagated_error, normalisation_scale_free, normalisation_fails_iff, empty_row_refuted, decompose_argument_partial, decompose_argument_refuted, decompose_without_std_refuted, extraction_from_scratch, finished_extraction_reloads, extraction_resumes_partial, resume_random_refuted, resume_cut_refuted, resume_torn_refuted
* **FileProps**: vector_round_trip, vector_saves, matrix_round_trip, vector_tar_std_refuted, matrix_std_refuted, vector_units_refuted, vector_txt_single_refuted, numpy_suffix_refuted, mama_matrix_round_trip, mama_vector_round_trip_partial, mama_units_refuted, mama_std_refuted, save_touches_own_file_vector, save_touches_own_file_matrix, save_tar_touches_partial, save_as_tar, load_changes_nothing_partial, save_tar_deletes_refuted, save_tar_no_suffix_refuted, save_tar_crash_refuted, load_tar_deletes_refuted
* **FillProps**: fill_negative_max_correct, fill_negative_max_rejects, fill_negative_gauss_rows_partial, fill_negative_gauss_does_nothing, fill_negative_gauss_refuted, remove_negative_clips, fill_and_remove_negative_nonneg
* **FirstGenProps**: firstgen_result, firstgen_rejects, firstgen_accepts, firstgen_formula, firstgen_weights, firstgen_weights_follow_spectrum, firstgen_noninterference, firstgen_lowest_row, multiplicities_nonnegative, firstgen_history_partial, firstgen_history_same_axis_partial, firstgen_history_refuted, allgen_exact, allgen_formula_partial, allgen_more_rows_refuted, allgen_formula_refuted, firstgen_subtracted_counts, total_multiplicity_energy
* **FirstGenTruthProps**: multiplicity_of_cascades, firstgen_keeps_primary, firstgen_error, firstgen_stays_exact, allgen_is_cascade_matrix, firstgen_converged_counts, firstgen_allgen_round_trip, primary_unique_refuted, firstgen_statistical_refuted, firstgen_offset_refuted
* **FitWinProps**: default_window, default_windows_apart, given_window, window_kept_partial, own_window_refuted, fit_keV_refuted, fit_refuses
* **LibCutProps**: i_from_E_nearest, lib_cut_keeps_above, lib_cut_vertical, lib_cut_rejects
* **MamaTextProps**: parse_render, mama_matrix_text, mama_spectrum_text, mama_matrix_header, mama_spectrum_header, mama_comment_refuted, read_response_raises
* **MatInterpProps**: interp1_own_axis, interp1_commute, interp2_value, interp2_own_axes_partial, interp2_own_axes_refuted, interp_errors
* **MatrixOpsProps**: lower_mid_bin_inverse, lower_mid_bin_needs_two_bins, projection_on_Eg, projection_on_Ex, projection_sums_to_total, projection_normalized, projection_rejects_both, fill_adds_to_nearest_bin, fill_adds_to_total, fill_order_irrelevant, cut_diagonal_clears_below_line, cut_diagonal_rejects, trapezoid_contents_partial, trapezoid_auto_limit, trapezoid_above_refuted, trapezoid_zero_row_refuted, diagonal_elements_partial, diagonal_elements_refuted
* **MatrixRunProps**: matrix_histories_consistent_partial, matrix_failed_op_consistent, matrix_cut_std_refuted, matrix_load_not_atomic_refuted, some_argsort_sorts
* **NameProps**: search_is_last_call, search_fails_iff, call_line_name, call_sites_ok, self_if_none_effect, call_line_refuted, split_call_raises
* **NormStateProps**: nld_result_saved, nld_loads_stored, nld_save_load, gsf_save_load, nld_torn_file, nld_torn_file_repaired, nld_arguments_partial, nld_repeat, gsf_arguments_partial, discrete_argument_refuted, fake_std_sticky_refuted, load_sets_regenerate_refuted, shared_file_refuted, path_none_raises, clear_discrete_refuted, gsf_constructor_nld_refuted, gsf_argument_mutated_refuted
* **ParProps**: unknown_attribute_raises, field_assignment, is_changed_iff, is_changed_include, is_changed_none, save_load_restores, save_load_NP, extrapolation_unknown_refuted, extrapolation_save_load_refuted, set_Emax_refuted, exclude_A_refuted, default_not_reported_refuted, default_list_refuted
* **PlotProps**: plot_keeps_matrix, plot_shows_bins, plot_scale, plot_unequal_refuted, ascii_shades, ascii_monotone, ascii_refuses, ascii_shape_refuted, ticks_near, ticks_are_bins, ticks_mev_refuted, ticks_overflow_refuted
* **RebinProps**: rebin_conserves_counts, rebin_total_is_counts_in_range, matrix_rebin_conserves_counts, rebin_is_full_overlap_sum, rebin_never_creates_counts, rebin_same_binning_is_identity, rebin_is_linear, rebin_factor_conserves_partial, rebin_factor_ge_1_never_adds_bins, rebin_factor_growing_bins_loses_counts, rebin_factor_conserves_refuted, rebin_Eg_rowwise, rebin_Ex_columnwise, rebin_axis_order_irrelevant, rebin_needs_exactly_one_of_mids_factor, rebin_rejects_bad_axis, rebin_rejects_nonpositive_factor, rebin_with_std_not_atomic
* **RejectProps**: mama_matrix_too_large, mama_vector_too_large, refused_save_writes_nothing, save_matrix_refusals, cut_empty_axis, state_names
* **ReportProps**: member_files_distinct
* **RespLoadProps**: dir_spectra, zip_spectra_partial, zip_spectra_in_order_of_energy, zip_energies, zip_energies_partial, zip_loads_iff, zip_dir_agree, dir_refuses, zip_spectra_refuted, zip_energies_refuted, zip_calibration_refuted, zip_dir_names_refuted, dir_table
* **ResponseDefProps**: response_defined, response_defined_range_refuted
* **ResponseProps**: response_probabilities, response_probabilities_outside_refuted, response_peak_split, response_peaks, response_rows_partial, response_defined_refuted, response_fan_reproduces_table, response_refuses
* **ResultsProps**: results_three_names, results_suffix_injective, results_suffix_refuted, results_saved, ensemble_results_saved, ensemble_results_stale, results_torn_refuted, results_no_samples, results_broadcast_refuted
* **RhosigchiProps**: step_allowed, allowed_zero, iterate_allowed, iterate_bounded, iterate_safe, exact_solution_kept, normalize_row_sum, normalize_row_nonneg, above_diagonal_refuted, normalize_zero_refuted, normalize_array_zero_refuted, negative_counts_refuted, normalize_std_refuted, chisquare_refuted
* **RhosigchiReachProps**: rhosigchi_schedule, rhosigchi_reach, rhosigchi_span, rhosigchi_double_ratio, rhosigchi_reach_refuted
* **RhosigchiUpdateProps**: step_formula, exact_solution_lost_refuted, no_uncertainty_lost_refuted
* **RscDriverProps**: standard_arguments, rhosigchi_arguments, unknown_algorithm, algorithms_same_arguments_refuted, limits_of_last_trapezoid, limits_missing, rsc_uncertainty_refuted, rsc_uncertainty_is_mean, rsc_nan, rsc_units, algorithms_same_units_refuted, rsc_relative_std, rsc_strength_sign, rsc_unconstrained
* **RscErrProps**: errors_are_rms, errors_order, errors_nonneg, perturbed_counts, errors_zero, errors_nan_refuted
* **RscHelpersProps**: find_limits_select, find_limits_beyond, find_limits_wraps_refuted, pad_matrix_keeps_counts, pad_matrix_axes
* **RscRunProps**: pyrhosigchi_runs
* **RscSetupProps**: extension_keeps_counts, limits_contain_energies, gsf_energies_exact, nld_energies_partial, nld_energies_exact_refuted, second_member_refused, saved_members
* **SampStatProps**: quantile_counts, quantile_missing, quantile_monotone, median_is_half, quantile_order_free, quantile_skips_missing, quantile_affine, quantile_mirror, stats_ordered, stats_percentiles_are_fractions, stats_need_all_values, unify_succeeds, unify_keeps_values, unify_same_ends, unify_lossless, unify_loses_refuted, unify_same_ends_refuted, unify_std_kept, vector_stats_meaning
* **SampTransProps**: rows_one_sample, vectors_succeed, all_samples_used, left_out_refuted, list_not_limited, list_too_long, samples_of_members
* **SimStateProps**: sim_no_memory, sim_order_free, sim_stateless, sim_repeat, sim_inputs_kept, sim_refuses, sim_interrupted_refuted, sim_interrupted_D0_refuted
* **SmoothProps**: smoothing_spreads_counts, smoothing_preserves_counts, smoothing_drops_negative_counts, smoothing_rejects_lengths, smoothing_matrix_rows, smoothing_matrix_cols, shift_whole_bins, shift_never_gains, shift_matrix_whole_bins
* **SpinProps**: spin_two_point, spin_two_point_shape, spin_two_point_order_refuted, spin_disc_eb05, spin_elementwise, spin_const_partial, spin_const_type_refuted, spin_shape_refuted
* **SpinSumProps**: spin_sum_selection, spin_sum_array, spin_sum_swave, spin_sum_cached_partial, spin_sum_dictionary_refuted, spin_sum_array_mutation_refuted, spin_sum_shape_refuted
* **StdPlotProps**: std_plot_axes_refuted, std_plot_limits, std_plot_given, std_plot_order, std_plot_scale_partial, std_plot_scale_refuted, std_plot_limits_refuted, std_plot_refuses, std_plot_made, vector_plot_partial, vector_bar_refuted, vector_kind_refuted, plot_projection_shows, plot_projection_refuses
* **Tighten10Props**: unknown_method_refused, unknown_method_cached, compton_row_lost, extrapolation_method_refused, negative_spin_refused, unknown_units_refused, empty_sample_refused, zip_single_number_refused
* **Tighten11Props**: vector_item_assignment, matrix_item_assignment, rebin_shape_refused, guess_shape_refused, vector_tar_refused
* **Tighten12Props**: verify_integrity_refusal, fold_refused, table_refused, normalised_in_MeV
* **Tighten13Props**: rebin_few_bins_refused, rebin_vector_few_bins_refused, ticks_halves_even
* **Tighten14Props**: txt_no_rows_refused, txt_no_columns_refused, txt_one_bin_refused
* **Tighten15Props**: nld_panel_curve, nld_panel_refuses, gsf_panel_curves, gsf_panel_refuses, fit_accepts, fit_sigma_refused
* **Tighten16Props**: loadtxt_ragged_refused, resolution_value, resolution_off
* **Tighten17Props**: word_characters, extend_values_refused, put_row_refused, entry_errors, parabola_positive, row_refused, no_iterations_refused
* **Tighten2Props**: errfun_nan, EB05_shift, is_space_codes, spinMass_read_only, in_place_changes_one, vector_without_values, spin_pairs_needed, load_csv_refused, gsf_new_saves
* **Tighten3Props**: calibration_values, run_stops, save_vector_units, load_numpy_refused, load_text_refused, tar_names_distinct, resolution_grows, samples_missing, results_kept_without_path, allclose_shapes, ensemble_first_raises, chisquare_formula, tweaks_complete, limits_need_two_bins, samples_empty
* **Tighten4Props**: fake_std_relative, set_discrete_cases, extract_stops, set_index, eval_missing
* **Tighten5Props**: fluctuations_meaning, firstgen_start, vector_lengths, smoothing_refused, energies_compared, construct_keywords, Emax_default
* **Tighten6Props**: gsf_start_meaning, mama_columns, floats_result, mama_read_refuses, mama_short_vector, matmul_refuses, firstgen_action_raises, zip_without_rows, load_tar_refused
* **Tighten8Props**: gsf_normalize_refuses, iterate_only_index_errors
* **Tighten9Props**: loadtxt_flat, flat_text_refused, nld_missing_input, nld_discrete_argument, stagewise_empty_gsf
* **TightenProps**: state_eq_ne, state_ne_others, vector_transform_entries, axes_allclose, matrix_eq_missing_std, degrees_count, iterate_python_sizes, load_matrix_refused, load_vector_refused, load_wrong_format, fluctuations_defined, firstgen_empty, normalization_defaults, extrapolation_defaults
* **TxtTextProps**: savetxt_loadtxt, txt_header_false_refuted, txt_header_return_refuted
* **UnfoldProps**: unfold_residual, unfold_closed_form, unfold_fixed_point, unfold_identity_response, unfold_rows_independent, unfold_apply_rows, unfold_iterates_keep_counts, fold_is_product, unfold_selection_partial, unfold_succeeds, unfold_score_meaning, unfold_few_iterations_refuted, unfold_result_nonnegative, unfold_rejects
* **UnfoldTruthProps**: unfold_error, unfold_error_bound, spread_meaning, unfold_converges, unfold_noise_bound, unfold_converges_refuted, unfold_apply_truth
* **VectorProps**: vector_cut_range, vector_cut_copy_same, vector_cut_half_bin_partial, vector_cut_outside_refuted, vector_op_consistent, vector_failed_op_unchanged_partial, vector_histories_consistent_partial, vector_rebin_std_refuted, cut_nan_removes_nan, cut_nan_idempotent, vector_units_lossless, vector_units_unknown_raise, cumulative_prefix_sums, cumulative_std, cumulative_factor, cumulative_last_is_total, cumulative_monotone, closest_assigns_containing_bin, closest_unsorted_raises, error_nonneg_and_zero_iff_agree, error_std_decreases_partial, error_std_increases_refuted
* **VersionProps**: import_in_clone, import_installed, import_git_fails, import_before_build, import_version_partial, import_directory, import_version_refuted, build_in_clone, build_without_git_refuted, build_without_git_first, build_without_git_again, build_warning_refuted, openmp_choice, openmp_arguments, example_raw_path, listed_examples_load, example_response_refuted, disjoint_rows_shape, disjoint_rows_documented_refuted, lower_alphabet
* **ZerosProps**: zeros_matrix_made_partial, zeros_matrix_refuses, zeros_matrix_std_refuted, matrix_of_shape, matrix_of_axes, matrix_without_values_refuted, vector_of_float_energies, vector_of_integer_energies_partial, vector_of_integer_energies_refuted

### `ClassicalDedekindReals.sig_forall_dec`, `FunctionalExtensionality.functional_extensionality_dep` (11)

* **ExtStatProps**: nld_bands
* **ExtrapProps**: high_method_refuted, high_method_fit_refuted
* **GuessProps**: randomised_start_positive
* **LikeFitProps**: error_needs_same_binning, error_value
* **NormProps**: E_grid_Emax_refuted
* **OptProps**: bounds_named, bounds_order_refuted
* **Tighten2Props**: radius_nearest
* **Tighten7Props**: close_same

### `ClassicalDedekindReals.sig_forall_dec`, `ClassicalDedekindReals.sig_not_dec`, `FunctionalExtensionality.functional_extensionality_dep` (47)

* **ComptonProps**: compton_range, compton_increasing, compton_increasing_energy, compton_threshold_refuted, compton_edge, compton_angle_unique, compton_cosine_form, fan_sine_cancels
* **ExtStatProps**: gsf_bands_fitted, gsf_bands_fixed, ext_stats_refuse
* **ExtrapProps**: extrapolate_unscaled
* **FinvProps**: Finv_flat, Finv_strict_refuted
* **LevelsProps**: smoothing_keeps_total, smoothing_stays_between, levels_per_bin, levels_total, levels_load_iff, levels_units, single_level_refuted
* **LikeFitProps**: sn_point_uncertainty
* **LikeProps**: transform_compose, cut_transform_commute
* **NldTruthProps**: truth_deviates_least, best_scale_relative
* **NormProps**: nldSn_defining, D0_round_trip, nldSn_round_trip, nldSn_decreasing, nldSn_inverse
* **OptProps**: prior_scale_gauge
* **OsloProps**: oslo_degeneracy
* **OsloUniqueProps**: oslo_one_row_refuted
* **SimResProps**: simultan_result_is_likelihood, simultan_result_default_ranges, simultan_result_empty
* **StatsProps**: normal_is_truncnorm, truncnorm_ends_partial, newton_fixpoint
* **Tighten7Props**: weights_gaussian
* **TransformProps**: transform_bins, transform_identity, transform_compose_partial, transform_relative_uncertainty, transform_compose_refuted, transform_identity_zero_refuted

### `ClassicalDedekindReals.sig_forall_dec`, `ClassicalDedekindReals.sig_not_dec`, `Classical_Prop.classic`, `FunctionalExtensionality.functional_extensionality_dep` (132)

* **ComptonProps**: compton_derivative, compton_inverse
* **ErfinvAccProps**: erfinv_accurate, truncnorm_accurate, normal_accurate, normal_order, prior_shift_accurate, truncnorm_inside_refuted
* **ExtStatProps**: gsf_bands_scale, sample_curve_is_reported, gsf_bands_fixed_refuted
* **ExtrapProps**: extrapolation_transform, composite_transform, norm_to_shift_scaled, norm_to_shift_repeat, low_extrapolation_exact, fit_transform, simultan_fixed_refuted, simultan_fitted
* **FinvProps**: Finv_terminates, Finv_quantile, Finv_symmetric, Finv_increasing_partial
* **FloatDecompProps**: float_sum_error, float_sum_orders, float_sum_above, float_index_closest, float_index_exact, float_row_exact, float_product_accurate, float_product_sum, float_chi_accurate, chi_guard_refuted
* **FloatDecompQcProps**: float_product_vs_exact
* **FloatRebinProps**: float_rebin_error, float_rebin_no_int_overflow, float_rebin_nonneg, float_rebin_total
* **FloatRebinQcProps**: float_rebin_vs_exact
* **FloatShiftProps**: plot_exact_dyadic, plot_drift_bound, plots_drift_bound, plot_drift_refuted
* **GsfGaugeProps**: gsf_normalize_gauge, oslo_gauge, least_squares_follows, gsf_normalize_gauge_least_squares, gsf_normalize_gauge_fixed_refuted
* **GuessProps**: guess_shape, guess_units, guess_bounded_refuted, guess_methods, guess_single_refuted, guess_units_refuted, guess_is_transformed_fermi_gas, guess_values
* **LikeFitProps**: objective_local, objective_value_partial, objective_needs_same_binning, gsf_lnlike_normal, simultaneous_ignores_D0, simultaneous_value
* **LikeProps**: objective_gauge, best_fit_gauge, simultaneous_gauge, lnlike_value_partial, lnlike_order_refuted, zero_bin_no_likelihood
* **MamaTextNumProps**: shows_unique, shows_some, mama_matrix_doubles, mama_spectrum_doubles
* **NldTruthProps**: lnlike_terms, likelihood_scale_biased, truth_best_refuted, truth_best_gauge_refuted
* **NormFormulaProps**: const_temperature_derivative, const_temperature_shift, Gg_value
* **NormProps**: spin_dist_cumulative, spin_dist_mode, Gg_proportional, gsf_normalize_Gg, Gg_positive, Gg_needs_nld_at_zero, gsf_normalize_defined
* **OptProps**: guess_moved_bounds, guess_same_bounds_partial, guess_same_bounds_refuted, prior_raises, prior_log_uniform, prior_slope_refuted, scale_between, no_warning_best_scale
* **OsloUniqueProps**: oslo_unique, oslo_solutions
* **PipeProps**: oslo_method_width, oslo_method_truth
* **ReportProps**: smaller_numbers_run_partial, sampler_report, optimize_report, shown_uncertainty, zero_width_refuted, optimize_refuses, member_number_refuted
* **RhosigchiGradProps**: rhosigchi_descends_partial
* **StatsProps**: normal_total, truncnorm_quantile_partial, normal_quantile_partial, truncnorm_increasing_partial, truncnorm_error, erfinv_range, erfinv_odd, erfinv_no_overshoot, truncnorm_inside, prior_shift_range, prior_scale_nonneg, prior_log_range
* **TextNumProps**: digits_suffice, txt_exact, mama_number_error, mama_exact_refuted, mama_stable, mama_axis_error, mama_binning_kept, mama_binning_refuted, mama_counts_error, mama_counts_stable
* **Tighten10Props**: prior_of_guess
* **TxtTextProps**: txt_vector_bits, txt_matrix_bits, shown_exists

