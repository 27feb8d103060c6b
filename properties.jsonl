{"id": "C01", "title": "Rebinning conserves counts when the new bins cover the old ones", "statement": "Rebinning a spectrum (or one axis of a matrix) from one equidistant binning to another leaves the sum of counts unchanged whenever the union of the new bins contains the union of the old bins.", "quantifier": "all count arrays, all numbers of bins, all pairs of equidistant binnings with positive bin width and covering output range", "why_tests_cant": "bin widths, offsets and lengths form an infinite family and the loop bounds truncate towards zero; a test only checks a few ratios of bin widths", "anchors": ["ompy/rebin.pyx:rebin_1D", "ompy/rebin.pyx:overlap", "ompy/rebin.pyx:rebin_2D"]}
{"id": "C02", "title": "Each rebinned bin is the full overlap-weighted sum", "statement": "Every output bin of a rebinning equals the sum over ALL input bins of counts times (length of the overlap of the two bins / input bin width): restricting the inner loop to a precomputed index window never loses or double-counts a contribution, and the window never leaves the input array.", "quantifier": "all count arrays and all pairs of equidistant binnings with positive bin widths, every output bin", "why_tests_cant": "an off-by-one in the window shows only for particular phase relations of the two grids", "anchors": ["ompy/rebin.pyx:rebin_1D", "ompy/rebin.pyx:overlap"]}
{"id": "C03", "title": "Rebinning never creates counts", "statement": "Rebinning non-negative counts yields non-negative counts whose total does not exceed the input total, for any output binning (covering or not).", "quantifier": "all non-negative count arrays, all pairs of equidistant binnings", "why_tests_cant": "needs every relative position of the grids", "anchors": ["ompy/rebin.pyx:rebin_1D"]}
{"id": "C04", "title": "Rebinning is linear and is the identity on the same binning", "statement": "Rebinning a linear combination of spectra gives the linear combination of the rebinned spectra; rebinning to the binning a spectrum already has returns it unchanged.", "quantifier": "all count arrays, scalars and equidistant binnings", "why_tests_cant": "algebraic law over all inputs", "anchors": ["ompy/rebin.pyx:rebin_1D", "ompy/vector.py:Vector.rebin", "ompy/matrix.py:Matrix.rebin"]}
{"id": "C05", "title": "Rebinning by a factor conserves counts", "statement": "rebin(factor=f) with f > 0 keeps the first and last bin centres and the total number of counts, and changes the number of bins to int(len/f).", "quantifier": "all vectors/matrices with equidistant axes and all positive factors", "why_tests_cant": "the existing test fails for factor<1; which factors and lengths conserve counts needs a proof for all", "anchors": ["ompy/vector.py:Vector.rebin", "ompy/matrix.py:Matrix.rebin", "tests/test_rebin.py"]}
{"id": "C06", "title": "Matrix rebinning treats the two axes consistently", "statement": "Rebinning along one axis leaves the other axis untouched, produces an array whose shape matches the new axes, processes rows (columns) independently, and rebinning Eg then Ex gives the same matrix as Ex then Eg. An invalid axis or giving both/neither of mids and factor raises and changes nothing.", "quantifier": "all matrices, all target binnings for both axes, both orders", "why_tests_cant": "commutation for all shapes and grids is a double-sum exchange", "anchors": ["ompy/rebin.pyx:rebin_2D", "ompy/matrix.py:Matrix.rebin"]}
{"id": "C07", "title": "Energy look-up returns the nearest bin", "statement": "For a sorted non-empty axis, the index returned for an energy is in range and no other bin centre is closer to the energy (of two equally close bins the higher one is returned).", "quantifier": "all sorted axes of any length and all energies, inside or outside the axis", "why_tests_cant": "early exit from the scan is only correct for unimodal distances: universally quantified over axes", "anchors": ["ompy/decomposition.pyx:index", "ompy/decomposition.pyx:_index", "ompy/matrix.py:Matrix.index_Eg", "ompy/vector.py:Vector.index"]}
{"id": "C08", "title": "Matrix.cut keeps exactly the requested energy interval", "statement": "An inclusive cut along Eg or Ex keeps exactly the bins with Emin <= E <= Emax, in order, with the counts that belonged to them, and leaves the other axis alone; defaults mean no limit.", "quantifier": "all matrices with strictly increasing axes, all limits (inside, outside, reversed), both axes", "why_tests_cant": "limits on, between and beyond bins combine with the nearest-bin look-up in many cases", "anchors": ["ompy/matrix.py:Matrix.cut"]}
{"id": "C09", "title": "Exclusive cut limits exclude the limit and nothing else", "statement": "With Emin_inclusive=False (Emax_inclusive=False) the cut keeps exactly the bins strictly above Emin (strictly below Emax) that satisfy the other limit; in particular a limit outside the axis never brings bins back in.", "quantifier": "all matrices with strictly increasing axes, all limits, all four inclusivity combinations", "why_tests_cant": "negative slice ends wrap around only for limits below the first bin", "anchors": ["ompy/matrix.py:Matrix.cut"]}
{"id": "C10", "title": "Matrix operations keep values, axes and std consistent", "statement": "After any sequence of successful public operations on a matrix that was valid at construction, len(Ex) and len(Eg) match the shape of values, and std (if present) has the same shape.", "quantifier": "all initial matrices, all finite sequences of cut, rebin, trapezoid, cut_diagonal, fill, remove_negative, arithmetic, load", "why_tests_cant": "invariant over unbounded operation histories", "anchors": ["ompy/matrix.py:Matrix.verify_integrity", "ompy/matrix.py:Matrix.cut", "ompy/matrix.py:Matrix.rebin"]}
{"id": "C11", "title": "Vector.cut selects a contiguous range around the limits", "statement": "Vector.cut keeps a contiguous slice from the bin nearest to Emin to the bin nearest to Emax, cuts values, E and std together, loses no bin strictly inside the limits by more than half a bin and keeps none further than half a bin outside.", "quantifier": "all vectors with sorted axes, all limits", "why_tests_cant": "nearest-bin semantics at all phases of the limits", "anchors": ["ompy/vector.py:Vector.cut"]}
{"id": "C12", "title": "Vector operations keep values, E and std consistent", "statement": "After any sequence of successful vector operations values, E and std (if present) have equal length; an operation that raises leaves the vector unchanged.", "quantifier": "all vectors and all finite operation sequences including failing ones", "why_tests_cant": "invariant over unbounded histories and over exception points", "anchors": ["ompy/vector.py:Vector.cut", "ompy/vector.py:Vector.rebin", "ompy/vector.py:Vector.cut_nan", "ompy/vector.py:Vector.closest", "ompy/vector.py:Vector.cumulative", "ompy/vector.py:Vector.verify_integrity"]}
{"id": "C13", "title": "Unit and bin-edge conversions are lossless", "statement": "to_MeV and to_keV are idempotent, mutually inverse and keep values and std; to_lower_bin followed by to_mid_bin restores the axes; unknown units raise without changing the energies.", "quantifier": "all vectors/matrices with at least two bins, all interleavings of conversions", "why_tests_cant": "holds for every conversion history", "anchors": ["ompy/vector.py:Vector.to_MeV", "ompy/vector.py:Vector.to_keV", "ompy/matrix.py:Matrix.to_lower_bin", "ompy/matrix.py:Matrix.to_mid_bin"]}
{"id": "C14", "title": "Arithmetic is element-wise, pure and binning-checked", "statement": "a+b, a-b, a*b, a/b and their scalar and reflected forms return a new object with the left operand's axes and the element-wise result, never modify an operand, and raise ValueError if shapes or energy axes differ.", "quantifier": "all pairs of matrices/vectors and all scalars", "why_tests_cant": "purity and law over all operands", "anchors": ["ompy/abstractarray.py:AbstractArray.__add__", "ompy/abstractarray.py:AbstractArray.__sub__", "ompy/abstractarray.py:AbstractArray.__rsub__", "ompy/abstractarray.py:AbstractArray.__truediv__", "ompy/matrix.py:Matrix.has_equal_binning", "ompy/vector.py:Vector.has_equal_binning"]}
{"id": "C15", "title": "Equality of arrays is an equivalence up to tolerance", "statement": "== on matrices/vectors is reflexive and symmetric and never raises for objects of the same class.", "quantifier": "all pairs of objects of one class", "why_tests_cant": "asymmetric relative tolerance only shows for values in a narrow band", "anchors": ["ompy/abstractarray.py:AbstractArray.__eq__"]}
{"id": "C16", "title": "Axis names resolve uniquely", "statement": "Each accepted axis name (any letter case) denotes exactly one of Eg, Ex or both, consistently for every method; anything else raises ValueError.", "quantifier": "all strings and integers", "why_tests_cant": "ranges over all strings", "anchors": ["ompy/abstractarray.py:to_plot_axis"]}
{"id": "C17", "title": "Matrix state is well defined by its name", "statement": "Assigning a state by name (any case) and by enum member agree, reading back gives the assigned member, unknown names raise and leave the state, and a != b is the negation of a == b for states.", "quantifier": "all strings, all states, all assignment histories", "why_tests_cant": "ranges over all strings and pairs of states of mixed types", "anchors": ["ompy/matrixstate.py:MatrixState", "ompy/matrix.py:Matrix.state"]}
{"id": "C18", "title": "Filling negatives conserves counts", "statement": "fill_negative_max terminates, keeps every row sum, never makes a non-negative bin negative or a negative bin more negative, and changes only bins within the window of a negative bin.", "quantifier": "all arrays and window sizes", "why_tests_cant": "while-loop over data-dependent argmax: termination and conservation for all rows", "anchors": ["ompy/library.py:fill_negative_max", "ompy/library.py:shuffle_counts"]}
{"id": "C19", "title": "Gaussian filling uses positive neighbours", "statement": "Matrix.fill_negative conserves every row sum, creates no new negative bin, and a negative bin is filled up as long as a bin with positive weight has counts left.", "quantifier": "all arrays, weights and window sizes", "why_tests_cant": "order of the weighted search matters only for specific sign patterns", "anchors": ["ompy/library.py:fill_negative_gauss", "ompy/matrix.py:Matrix.fill_negative"]}
{"id": "C20", "title": "Removing negatives clips at zero", "statement": "remove_negative sets exactly the negative entries to zero, keeps all others, is idempotent; fill_and_remove_negative yields a non-negative matrix.", "quantifier": "all matrices", "why_tests_cant": "universal law", "anchors": ["ompy/matrix.py:Matrix.remove_negative", "ompy/matrix.py:Matrix.fill_and_remove_negative"]}
{"id": "C21", "title": "div0 never yields a non-finite number", "statement": "div0(a,b) equals a/b wherever that is finite and 0 elsewhere, element-wise with broadcasting.", "quantifier": "all finite or non-finite operands", "why_tests_cant": "ranges over all operands including NaN and infinities", "anchors": ["ompy/library.py:div0"]}
{"id": "C22", "title": "Projections add up", "statement": "The projection on either axis over the full range sums to the total counts of the matrix; with limits it equals the sum over exactly the bins from the one nearest Emin to the one nearest Emax; normalised projections sum to 1, or are all 0 when the total is 0.", "quantifier": "all matrices, both axes, all limits", "why_tests_cant": "double-sum exchange for all shapes", "anchors": ["ompy/matrix.py:Matrix.projection"]}
{"id": "C23", "title": "fill adds counts to exactly one bin", "statement": "fill(Eg, Ex, n) adds n to the bin nearest to (Eg,Ex) and changes nothing else; the total grows by n; the final histogram does not depend on the order in which events are filled.", "quantifier": "all matrices, all sequences of events, all permutations", "why_tests_cant": "ranges over all event orders", "anchors": ["ompy/matrix.py:Matrix.fill"]}
{"id": "C24", "title": "Diagonal cuts only remove counts on one side of the line", "statement": "cut_diagonal sets to zero exactly the bins strictly below the line through the two points (in bin coordinates), keeps all others, is idempotent and leaves axes and (when not in place) the original alone.", "quantifier": "all matrices and all pairs of points with different Eg bins", "why_tests_cant": "all slopes and positions", "anchors": ["ompy/matrix.py:Matrix.cut_diagonal", "ompy/matrix.py:Matrix.line_mask", "ompy/library.py:make_mask"]}
{"id": "C25", "title": "Trapezoid cut removes everything beyond the diagonal", "statement": "After trapezoid(Ex_min,Ex_max,Eg_min,Eg_max) every non-zero entry lies inside [Ex_min,Ex_max]x[Eg_min,Eg_max] and strictly below the diagonal Eg = Ex + max(Eg_max-Ex_max rounded up to bins); entries inside keep their value; an all-zero top row is reported as ValueError.", "quantifier": "all matrices and all limits", "why_tests_cant": "interaction of two cuts, diagonal search and masking", "anchors": ["ompy/matrix.py:Matrix.trapezoid"]}
{"id": "C26", "title": "Diagonal elements are the last non-zero entries", "statement": "diagonal_elements yields, in row order, for each row with a non-zero entry exactly one pair (i, j) identifying the last non-zero entry, and nothing for zero rows.", "quantifier": "all matrices", "why_tests_cant": "universal over zero patterns", "anchors": ["ompy/library.py:diagonal_elements", "ompy/firstgeneration.py:FirstGeneration.row_normalized"]}
{"id": "C27", "title": "Cumulative sum", "statement": "cumulative() has as n-th value the factor times the sum of the first n+1 values; its last value is factor times the total; it is non-decreasing for non-negative values and factor; invalid factor strings raise.", "quantifier": "all vectors and factors", "why_tests_cant": "all lengths", "anchors": ["ompy/vector.py:Vector.cumulative"]}
{"id": "C28", "title": "closest maps every energy to its containing bin", "statement": "closest(E_new) assigns to each new energy the value of bin i with E[i] <= E_new < E[i+1] (side right; mirrored for left) and 0 outside the axis, for values and std alike; unsorted axes raise.", "quantifier": "all vectors, all new axes, both sides", "why_tests_cant": "boundaries and out-of-range wrap-around index -1 trick", "anchors": ["ompy/vector.py:Vector.closest"]}
{"id": "C29", "title": "Vector transform forms a group action", "statement": "transform(c,a) then transform(d,b) equals transform(c*d,a+b); the relative uncertainty std/values is unchanged; transform(1,0) is the identity.", "quantifier": "all vectors with non-zero values, all constants and slopes", "why_tests_cant": "law over all reals", "anchors": ["ompy/vector.py:Vector.transform"]}
{"id": "C30", "title": "chi-square of vectors", "statement": "error() is non-negative, zero exactly when the vectors agree on all bins with non-zero uncertainty, and adding the std argument never increases it.", "quantifier": "all vectors with equal binning, all std", "why_tests_cant": "law over all inputs", "anchors": ["ompy/vector.py:Vector.error"]}
{"id": "C31", "title": "Saving and loading is a round trip", "statement": "Saving a matrix/vector and loading it again (numpy, txt, tar, csv) restores values, axes and std exactly as saved, independent of what the loading object held before.", "quantifier": "all matrices/vectors, all file types, all previous states of the loading object", "why_tests_cant": "state of the receiving object and optional std interact with file type", "anchors": ["ompy/filehandling.py:save_numpy_2D", "ompy/filehandling.py:load_numpy_2D", "ompy/filehandling.py:save_tar", "ompy/filehandling.py:load_tar", "ompy/matrix.py:Matrix.save", "ompy/matrix.py:Matrix.load", "ompy/vector.py:Vector.save", "ompy/vector.py:Vector.load"]}
{"id": "C32", "title": "MaMa round trip keeps the calibration", "statement": "Writing an equidistant spectrum/matrix in MaMa format and reading it back restores shape, counts and both energy axes (up to the printed precision), with the Eg and Ex calibrations not interchanged and energies in keV.", "quantifier": "all equidistant matrices/vectors within MaMa's size limits, any units", "why_tests_cant": "axis swap and unit handling are data dependent", "anchors": ["ompy/filehandling.py:mama_read", "ompy/filehandling.py:mama_write1D", "ompy/filehandling.py:mama_write2D", "ompy/vector.py:Vector.save"]}
{"id": "C33", "title": "Saving touches only its own file", "statement": "Saving to path changes only path (and for tar leaves no temporary file behind); unrelated existing files are never modified or deleted, whatever point a crash occurs at leaves only that file incomplete.", "quantifier": "all initial directory contents, all paths, all crash points", "why_tests_cant": "collisions with arbitrary existing names and crash points", "anchors": ["ompy/filehandling.py:save_tar", "ompy/filehandling.py:load_tar"]}
{"id": "C34", "title": "First-generation result is a valid spectrum", "statement": "The first-generation method returns a non-negative matrix on the same axes as its (acted-on) input; it raises ValueError for negative Ex or counts and does not modify its input.", "quantifier": "all input matrices, numbers of iterations and settings", "why_tests_cant": "all inputs and iteration counts", "anchors": ["ompy/firstgeneration.py:FirstGeneration.apply"]}
{"id": "C35", "title": "Subtraction weights are proper probabilities", "statement": "In every iteration the weights of a row are non-negative, vanish on and above the diagonal, and sum to one or are all zero.", "quantifier": "all matrices, all iterations, any previous weights", "why_tests_cant": "inductive over iterations incl. the damping after iteration 5", "anchors": ["ompy/firstgeneration.py:FirstGeneration.step", "ompy/firstgeneration.py:normalize_rows"]}
{"id": "C36", "title": "Lower excitation energies never see higher ones", "statement": "Row i of the first-generation matrix depends only on rows 0..i of the input (and the axes); in particular the lowest row is returned unchanged.", "quantifier": "all pairs of matrices that agree up to row i, all iteration counts", "why_tests_cant": "non-interference relates two runs", "anchors": ["ompy/firstgeneration.py:FirstGeneration.step", "ompy/firstgeneration.py:FirstGeneration.apply"]}
{"id": "C37", "title": "Multiplicities are non-negative", "statement": "For non-negative excitation energies and counts and the documented parameter ranges, both multiplicity estimates are non-negative, so the internal 'contact developers' assertion can never fire.", "quantifier": "all matrices accepted by apply, all valid parameters, both methods", "why_tests_cant": "assertion reachability for all inputs", "anchors": ["ompy/firstgeneration.py:FirstGeneration.multiplicity_statistical", "ompy/firstgeneration.py:FirstGeneration.multiplicity_total", "ompy/firstgeneration.py:FirstGeneration.multiplicity_normalization"]}
{"id": "C38", "title": "First generation does not depend on earlier calls", "statement": "Calling the method on a matrix gives the same result regardless of which matrices the same object processed before.", "quantifier": "all histories of calls on one FirstGeneration object", "why_tests_cant": "state leak over histories", "anchors": ["ompy/firstgeneration.py:FirstGeneration.cut_valley_correction", "ompy/firstgeneration.py:FirstGeneration.apply"]}
{"id": "C39", "title": "All-generations construction follows its formula", "statement": "allgen_from_primary yields AG(Ex) = FG(Ex) scaled to the population plus the weighted AG of strictly lower Ex' < Ex only.", "quantifier": "all first-generation matrices and populations", "why_tests_cant": "recursion over rows for all matrices", "anchors": ["ompy/firstgeneration.py:FirstGeneration.allgen_from_primary"]}
{"id": "C40", "title": "Unfolding iteration contracts the folding residual", "statement": "After k iterations the difference between raw and refolded spectrum is r(I-R)^k(I-R) applied row-wise; a spectrum that folds exactly to the raw data is a fixed point; an identity response returns the raw spectrum; each row is unfolded independently.", "quantifier": "all raw spectra, all square responses, all iteration counts", "why_tests_cant": "induction over iterations", "anchors": ["ompy/unfolder.py:Unfolder.step", "ompy/unfolder.py:Unfolder.apply"]}
{"id": "C41", "title": "Unfolding iteration preserves counts", "statement": "If every response function sums to one, every iterate has exactly the counts of the raw spectrum in each row, and folding preserves counts.", "quantifier": "all raw spectra, all row-stochastic responses, all iterations", "why_tests_cant": "induction, all sizes", "anchors": ["ompy/unfolder.py:Unfolder.step", "ompy/unfolder.py:Unfolder.fold"]}
{"id": "C42", "title": "Unfolding selects a valid iteration", "statement": "For every positive number of iterations the selected iteration index of each row lies within the computed iterations and is not below the requested minimum (capped); the selected one is the best-scoring iteration or the minimum.", "quantifier": "all num_iter >= 1, all minimum_iterations, all scores", "why_tests_cant": "boundary num_iter <= minimum_iterations", "anchors": ["ompy/unfolder.py:Unfolder.score", "ompy/unfolder.py:Unfolder.apply"]}
{"id": "C43", "title": "Unfolded result is non-negative, shaped as raw, inputs validated", "statement": "apply returns a non-negative matrix with the raw axes; raises for non-square/mismatched response or negative counts; does not modify the raw matrix.", "quantifier": "all raw/response pairs", "why_tests_cant": "all inputs", "anchors": ["ompy/unfolder.py:Unfolder.apply", "ompy/unfolder.py:Unfolder.update_values"]}
{"id": "C44", "title": "Gaussian smoothing preserves counts", "statement": "gauss_smoothing of non-negative counts is non-negative, preserves the total for any non-negative FWHM array, and never divides by zero; length mismatches raise.", "quantifier": "all non-negative spectra, equidistant axes, FWHM arrays, truncations", "why_tests_cant": "truncation window at edges for all parameters", "anchors": ["ompy/gauss_smoothing.pyx:gauss_smoothing", "ompy/gauss_smoothing.pyx:gauss_smoothing_matrix_1D"]}
{"id": "C45", "title": "Energy shift moves counts", "statement": "shift by a whole number k of bins moves every count k bins (counts shifted off the axis are lost), any shift yields no more counts than given.", "quantifier": "all spectra and shifts", "why_tests_cant": "all phases", "anchors": ["ompy/unfolder.py:shift", "ompy/unfolder.py:shift_matrix"]}
{"id": "C46", "title": "Product of level density and transmission is a probability per row", "statement": "Each row of the product matrix is non-negative and sums to one (or is entirely undefined when nothing is allowed), is zero above the diagonal Ex+resolution, and equals rho(Ex-Eg)T(Eg) up to the row constant.", "quantifier": "all level densities, transmissions, axes", "why_tests_cant": "all inputs", "anchors": ["ompy/decomposition.pyx:nld_T_product", "ompy/decomposition.pyx:normalize"]}
{"id": "C47", "title": "Product does not depend on thread scheduling", "statement": "Any interleaving of the row computations of nld_T_product yields the sequential result.", "quantifier": "all schedules of the parallel loop", "why_tests_cant": "schedules cannot be enumerated by tests", "anchors": ["ompy/decomposition.pyx:nld_T_product"]}
{"id": "C48", "title": "Oslo degeneracy", "statement": "Multiplying the level density by A exp(aE) and the transmission by B exp(aE) leaves the product matrix unchanged when the level-density grid contains every Ex-Eg used.", "quantifier": "all A,B>0, all slopes, all aligned grids", "why_tests_cant": "three-parameter family of reals", "anchors": ["ompy/decomposition.pyx:nld_T_product", "ompy/vector.py:Vector.transform"]}
{"id": "C49", "title": "chi-square fit measure", "statement": "chisquare and chisquare_diagonal are non-negative, zero iff fit and data agree on all bins with non-zero std (below the diagonal), and the diagonal version compares exactly the bins the product fills.", "quantifier": "all matrices", "why_tests_cant": "all inputs", "anchors": ["ompy/decomposition.pyx:chisquare", "ompy/decomposition.pyx:chisquare_diagonal"]}
{"id": "C50", "title": "Ensemble generation is reproducible across process counts", "statement": "With a given seed the generated ensemble (members, order, std) is the same for any number of worker processes and any completion order.", "quantifier": "all schedules, all process counts, all ensemble sizes", "why_tests_cant": "schedules", "anchors": ["ompy/ensemble.py:Ensemble.generate", "ompy/ensemble.py:Ensemble.step"]}
{"id": "C51", "title": "Interrupted ensemble generation resumes to the same result", "statement": "If generation is interrupted at any point and run again with the same parameters without regenerate, the result equals that of an uninterrupted run.", "quantifier": "all crash points, with and without background", "why_tests_cant": "crash points", "anchors": ["ompy/ensemble.py:Ensemble.generate_perturbed", "ompy/ensemble.py:Ensemble.step", "ompy/ensemble.py:Ensemble.unfold", "ompy/ensemble.py:Ensemble.first_generation"]}
{"id": "C52", "title": "Cached ensemble belongs to the requested parameters", "statement": "generate(regenerate=False) returns an ensemble generated with the requested method, seed and number; regenerate=True always recomputes.", "quantifier": "all histories of generate calls in one directory", "why_tests_cant": "histories", "anchors": ["ompy/ensemble.py:Ensemble.generate", "ompy/ensemble.py:Ensemble.load_matrix"]}
{"id": "C53", "title": "Loaded ensemble members correspond to each other", "statement": "After load, member i of raw, unfolded and firstgen stem from the same perturbation, and size equals the number of members of the last generation.", "quantifier": "all directory listings orders and previous contents", "why_tests_cant": "directory order is environment dependent", "anchors": ["ompy/ensemble.py:Ensemble.load"]}
{"id": "C54", "title": "Perturbed and background-subtracted members are non-negative", "statement": "Every generated member matrix (gaussian, poisson, with or without background) has only non-negative entries and the original axes.", "quantifier": "all matrices and all random draws", "why_tests_cant": "all draws", "anchors": ["ompy/ensemble.py:Ensemble.generate_gaussian", "ompy/ensemble.py:Ensemble.generate_poisson", "ompy/ensemble.py:Ensemble.subtract_bg"]}
{"id": "C55", "title": "Extraction resumes to the same result", "statement": "Re-running an interrupted extraction without regenerate yields the same nld and gsf for every member as an uninterrupted run with the same seed.", "quantifier": "all crash points and subsets of cached members", "why_tests_cant": "crash points", "anchors": ["ompy/extractor.py:Extractor.extract_from"]}
{"id": "C56", "title": "Constrained bins and energy grid agree", "statement": "The nld energy grid used in the fit has exactly one bin for each diagonal of the matrix, and a bin is reported as unconstrained (nan) exactly when no matrix bin inside the resolution limit contributes to it.", "quantifier": "all matrices with equal Ex and Eg bin width", "why_tests_cant": "all shapes", "anchors": ["ompy/extractor.py:Extractor.decompose", "ompy/extractor.py:Extractor.constraining_counts"]}
{"id": "C57", "title": "Recorded actions replay faithfully", "statement": "act_on applies the recorded calls in order with their arguments, any number of times, giving what the direct calls would give; currying overrides exactly the given keyword arguments in every recorded call.", "quantifier": "all sequences of recorded calls, curry operations and targets", "why_tests_cant": "histories", "anchors": ["ompy/action.py:Action"]}
{"id": "C58", "title": "Level density and resonance spacing conversions are inverse", "statement": "D0 -> rho(Sn) -> D0 is the identity and rho decreases with D0.", "quantifier": "all spins, D0, spin-cut values, reductions", "why_tests_cant": "law over reals", "anchors": ["ompy/normalizer_nld.py:NormalizerNLD.nldSn_from_D0", "ompy/normalizer_nld.py:NormalizerNLD.D0_from_nldSn"]}
{"id": "C59", "title": "gSF normalisation reproduces the measured width", "statement": "Scaling the strength function by B = Gg_exp/Gg_calc makes the calculated average total radiative width equal to the experimental one.", "quantifier": "all strength functions, level densities and parameters with non-zero calculated width", "why_tests_cant": "linearity of the integral for all inputs", "anchors": ["ompy/normalizer_gsf.py:NormalizerGSF.normalize", "ompy/normalizer_gsf.py:NormalizerGSF.Gg_standard"]}
{"id": "C60", "title": "Spin sum follows dipole selection rules", "statement": "Spin sums include exactly the final spins reachable by a dipole transition from the resonance spins |Jt-1/2|, Jt+1/2 (0->0 excluded), each with its multiplicity; the cached variant returns the same value as the direct computation.", "quantifier": "all target spins, all argument histories", "why_tests_cant": "all spins and cache histories", "anchors": ["ompy/normalizer_gsf.py:NormalizerGSF.SpinSum", "ompy/normalizer_gsf.py:NormalizerGSF.SpinSum_save_reload"]}
{"id": "C61", "title": "Extrapolation commutes with normalisation", "statement": "Transforming data and extrapolation parameters by (A, alpha) gives the extrapolation of the transformed data: model_after(E) = A exp(alpha E) model_before(E).", "quantifier": "all parameters and energies", "why_tests_cant": "law over reals", "anchors": ["ompy/models.py:ExtrapolationModelLow", "ompy/models.py:ExtrapolationModelHigh", "ompy/models.py:AbstractExtrapolationModel.norm_to_shift_after"]}
{"id": "C62", "title": "Spin-cut interpolation stays between its endpoints", "statement": "The two-point spin-cut models are constant outside, linear inside, continuous and bounded by their end values, and keep the requested value whatever the type of the energy array.", "quantifier": "all parameters and energies", "why_tests_cant": "all reals", "anchors": ["ompy/spinfunctions.py:SpinFunctions.gDisc_and_EB05", "ompy/spinfunctions.py:SpinFunctions.gDisc_and_sigmaSn", "ompy/spinfunctions.py:SpinFunctions.gconst"]}
{"id": "C63", "title": "rhosigchi iteration keeps positivity and bounded steps", "statement": "Each rhosigchi iteration maps non-negative (rho, T) to non-negative (rho, T), keeps zeros zero and changes each entry at most by the allowed factor; nothing is ever divided by zero.", "quantifier": "all first-generation matrices, iterations and variation limits", "why_tests_cant": "induction over iterations", "anchors": ["ompy/pyrhosigchi.py:iterate_python", "ompy/rhosigchi.cpp:iterate"]}
{"id": "C64", "title": "Response functions are normalised probabilities", "statement": "Interpolated response rows are non-negative and sum to one (or are zero); structure probabilities sum to one (or are zero); splitting a peak on two channels keeps counts and centroid.", "quantifier": "all tabulated responses and energies", "why_tests_cant": "all energies", "anchors": ["ompy/response.py:Response.interpolate", "ompy/response.py:Response.get_probabilities", "ompy/response.py:two_channel_split"]}
{"id": "C65", "title": "Compton edge formula", "statement": "The Compton energy is non-negative, below the gamma energy, increasing in the scattering angle on [0,pi].", "quantifier": "all energies and angles", "why_tests_cant": "law over reals", "anchors": ["ompy/response.py:E_compton", "ompy/response.py:dE_dtheta"]}
{"id": "C66", "title": "Normaliser results are cached and restored consistently", "statement": "Saving a normaliser and loading it restores all results; normalize(regenerate=False) with an existing file returns the stored result; arguments given to normalize take effect otherwise.", "quantifier": "all histories of normalize/save/load", "why_tests_cant": "histories", "anchors": ["ompy/abstract_normalizer.py:AbstractNormalizer", "ompy/normalizer_nld.py:NormalizerNLD.normalize"]}
{"id": "C67", "title": "Model parameters are protected and restored", "statement": "After construction, setting an unknown attribute of a model raises; is_changed reports exactly whether a parameter is still at its default; saving and loading restores all parameters.", "quantifier": "all models and assignment histories", "why_tests_cant": "histories", "anchors": ["ompy/models.py:Model"]}
{"id": "C68", "title": "Ensemble normalisation equals member-wise normalisation", "statement": "Normalising an ensemble gives for member i the result of normalising member i alone, independent of the number of processes, and leaves the extractor's vectors unchanged.", "quantifier": "all ensembles and schedules", "why_tests_cant": "schedules", "anchors": ["ompy/ensembleNormalizer.py:EnsembleNormalizer.normalize", "ompy/ensembleNormalizer.py:EnsembleNormalizer.step"]}
{"id": "C69", "title": "Truncated normal quantile inverts the distribution", "statement": "truncnorm_ppf(p,a,b) is the point in [a,b] where the truncated normal distribution reaches p; it is increasing in p.", "quantifier": "all p in (0,1), a<b", "why_tests_cant": "law over reals", "anchors": ["src/stats.cpp:truncnorm_ppf"]}
{"id": "C70", "title": "Calibration arrays cover the requested range", "statement": "E_array_from_calibration returns equidistant energies a0 + a1*i with N elements, or with the last element within half a bin of E_max; giving both or neither of N and E_max raises.", "quantifier": "all calibrations", "why_tests_cant": "all parameters", "anchors": ["ompy/library.py:E_array_from_calibration"]}
{"id": "C71", "title": "Matrix construction validates and stores", "statement": "Matrix(values, Eg, Ex, std, state) succeeds exactly when the lengths of the axes and the shape of std fit the values (and the state is known); the result holds the given arrays, missing axes are 0.5, 1.5, ...", "quantifier": "all arrays and axes", "why_tests_cant": "all shapes", "anchors": ["ompy/matrix.py:Matrix.__init__", "ompy/matrix.py:Matrix.verify_integrity"]}
{"id": "C72", "title": "Integrity check decides consistency and equidistance", "statement": "verify_integrity passes exactly for matrices whose arrays fit; with check_equidistant every equidistant axis passes and an axis that passes is equidistant up to 1.5e-6 per bin relative to the bin width.", "quantifier": "all matrices, all axes", "why_tests_cant": "all axes", "anchors": ["ompy/matrix.py:Matrix.verify_integrity", "ompy/abstractarray.py:AbstractArray.verify_equdistant"]}
{"id": "C73", "title": "Counts subtracted follow the multiplicity", "statement": "The counts the first-generation method subtracts from a row are the number of cascades of the row (counts over multiplicity) times the weighted mean multiplicity of the rows below; for the total estimate multiplicity times mean gamma energy is the excitation energy.", "quantifier": "all matrices, weights and rows with counts", "why_tests_cant": "algebraic identity over all inputs", "anchors": ["ompy/firstgeneration.py:FirstGeneration.multiplicity_normalization", "ompy/firstgeneration.py:FirstGeneration.step", "ompy/firstgeneration.py:FirstGeneration.multiplicity_total"]}
{"id": "C74", "title": "Operations on one object never change another", "statement": "After any sequence of operations, objects that were not operated on keep their arrays: arrays are not shared between objects in a way that lets an in-place operation on one change another.", "quantifier": "all sequences of operations on several vectors and matrices", "why_tests_cant": "aliasing histories", "anchors": ["ompy/vector.py:Vector", "ompy/matrix.py:Matrix"]}
{"id": "C75", "title": "A saved ensemble loads back as generated", "statement": "Ensemble.load on a directory written by generate gives the members and standard deviations that generate computed.", "quantifier": "all parameters, actions and listing orders", "why_tests_cant": "all actions and directory orders", "anchors": ["ompy/ensemble.py:Ensemble.load", "ompy/ensemble.py:Ensemble.generate"]}
{"id": "C76", "title": "Rows enter the fit as probabilities with propagated errors", "statement": "Before the fit every row with counts is divided by its sum, so it sums to one and keeps its shape; rows without counts stay zero; the errors are those of Gaussian error propagation for x/sum(x), and rescaling counts and errors together changes nothing. It works for every non-negative matrix.", "quantifier": "all matrices and standard deviations", "why_tests_cant": "all inputs", "anchors": ["ompy/extractor.py:Extractor.decompose", "ompy/extractor.py:normalize"]}
{"id": "C77", "title": "Fitting leaves the caller's matrix unchanged", "statement": "decompose(matrix, std) returns the nld and gsf and leaves the matrix it was given unchanged; std is optional.", "quantifier": "all matrices and settings", "why_tests_cant": "all inputs", "anchors": ["ompy/extractor.py:Extractor.decompose"]}
{"id": "C78", "title": "The normalised level density does not depend on the input's arbitrary scale and slope", "statement": "Extracted functions are known only up to A exp(alpha E). Multiplying the input level density by c exp(bE) (and the strength function by d exp(bE)) changes the likelihood only by renaming the parameters, so the best fits correspond one to one and give the same normalised result, uncertainties included.", "quantifier": "all level densities, fit limits, models, parameters and c, d other than 0", "why_tests_cant": "all inputs and parameters", "anchors": ["ompy/normalizer_nld.py:NormalizerNLD.lnlike", "ompy/normalizer_nld.py:NormalizerNLD.initial_guess", "ompy/normalizer_simultan.py:NormalizerSimultan.lnlike", "ompy/vector.py:Vector.transform"]}
{"id": "C79", "title": "The fitted function is the log likelihood", "statement": "lnlike is, up to a constant irrelevant for the maximisation, the Gaussian log likelihood of the transformed low-energy data given the discrete levels, of the transformed high-energy data given the model, and of nld(Sn); it is defined for all data.", "quantifier": "all data, limits and parameters", "why_tests_cant": "all inputs and parameters", "anchors": ["ompy/normalizer_nld.py:NormalizerNLD.lnlike"]}
{"id": "C80", "title": "Discrete levels become a level density with the right number of levels", "statement": "Loading a file of level energies in keV on equidistant bins in MeV gives, bin by bin, the number of levels in the bin divided by its width; smoothing keeps the total number of levels within the range and stays non-negative and below the largest unsmoothed value. Every file with levels is accepted.", "quantifier": "all level files, bins and resolutions", "why_tests_cant": "all inputs", "anchors": ["ompy/filehandling.py:load_discrete", "ompy/normalizer_nld.py:load_levels_smooth", "ompy/normalizer_nld.py:load_levels_discrete"]}
{"id": "C81", "title": "Rebinning an ensemble rebins every member", "statement": "Ensemble.rebin(out, 'firstgen') gives every first generation member and the matrix firstgen the values Matrix.rebin gives on both axes, conserves their counts when the new bins cover the old ones, recomputes the standard deviation as the spread of the rebinned members, changes nothing else, does nothing if the binning is already there, and refuses other members. Loading the ensemble afterwards gives the rebinned one.", "quantifier": "all ensembles, bins and directories", "why_tests_cant": "all inputs and file contents", "anchors": ["ompy/ensemble.py:Ensemble.rebin", "ompy/ensemble.py:Ensemble.load"]}
{"id": "C82", "title": "Members are returned by their number", "statement": "get_raw, get_unfolded and get_firstgen return for a number the member with that number (negative numbers count from the end), for a list the members in the order of the list, with the axes of the ensemble and the right state; other numbers raise.", "quantifier": "all ensembles and indices", "why_tests_cant": "all indices", "anchors": ["ompy/ensemble.py:Ensemble.get_raw", "ompy/ensemble.py:Ensemble.get_unfolded", "ompy/ensemble.py:Ensemble.get_firstgen"]}
{"id": "C83", "title": "Median and percentiles of the samples", "statement": "At every energy the table of statistics gives the requested quantiles of the samples that have a value there: more than q(n-1) of the n values are not above the quantile and more than (1-q)(n-1) not below it; low <= median <= high; the result does not depend on the order of the samples or on samples without value, and follows changes of unit and sign; it is missing only where no sample has a value. Percentiles outside [0, 1] are refused.", "quantifier": "all sample sets, percentiles in [0,1]", "why_tests_cant": "all sample values, numbers of samples and patterns of missing values", "anchors": ["ompy/ensembleNormalizer.py:EnsembleNormalizer.stats_from_df", "ompy/ensembleNormalizer.py:EnsembleNormalizer.plot_vector_stats"]}
{"id": "C84", "title": "Samples on one energy grid", "statement": "samples_unify_E puts all vectors on one increasing energy grid without changing, moving or losing any value: every vector has its old value at its old energies and NaN at energies it did not cover.", "quantifier": "all columns of vectors with increasing energies", "why_tests_cant": "all numbers of vectors and energy grids", "anchors": ["ompy/ensembleNormalizer.py:EnsembleNormalizer.samples_unify_E", "ompy/ensembleNormalizer.py:vec_extend"]}
{"id": "C85", "title": "Samples of nld and gsf belong together", "statement": "tranform_nld_gsf and samples_from_res: in every row of the table the nld, the gsf and the listed parameters stem from one and the same posterior sample (and one ensemble member); no sample is used twice; at most 100 are drawn per member, all of them if there are no more; nld or gsf may be left out.", "quantifier": "all samples, vectors and random orders", "why_tests_cant": "all numbers of samples, parameters and shuffles", "anchors": ["ompy/ensembleNormalizer.py:tranform_nld_gsf", "ompy/ensembleNormalizer.py:EnsembleNormalizer.samples_from_res"]}
{"id": "C86", "title": "Extracted level density and strength are not negative", "statement": "A fit solution with a negative entry costs 1e20, whatever the data; hence a minimiser that does not end worse than it started, from start values cheaper than that, yields level densities and strength functions without negative entries.", "quantifier": "all first-generation matrices, start values and minimisers", "why_tests_cant": "all matrices and minimisers", "anchors": ["ompy/extractor.py:Extractor.decompose"]}
{"id": "C87", "title": "Finv turns a uniform random number into a normal one", "statement": "For every y0 in [0,1] the bisection in Finv ends, and of the standard normal distribution a fraction y0 lies below its result, up to the tolerance 1e-3 of the loop; 1-y0 gives the opposite value, and larger y0 give larger values.", "quantifier": "all y0 in [0,1]", "why_tests_cant": "the loop has no bound on its number of steps and its bracket is named the wrong way round; tests can only try some numbers", "anchors": ["ompy/rhosigchi.cpp:Finv", "ompy/pyrhosigchi.py:pyrhosigchi"]}
{"id": "C88", "title": "rhosigchi keeps every count at its energy and uses the bins that contain the given energies", "statement": "pyrhosigchi puts both matrices on axes with more bins of the same width below; every count stays at its energy and the totals are kept. The limits are the bins containing Ex_min, Ex_max and Eg_min, each row ends after its last bin with counts, and the results are reported at the energies they were fitted for.", "quantifier": "all matrices on an equidistant axis starting at or above zero, all limits on the extended axis, all extensions", "why_tests_cant": "needs arbitrary calibrations, the source itself says that it is not known why this works", "anchors": ["ompy/pyrhosigchi.py:pyrhosigchi"]}
{"id": "C89", "title": "The rhosigchi extraction of an ensemble handles every member", "statement": "Extractor.rhosigchi computes the level density and strength function of every member of the ensemble that has no saved results.", "quantifier": "all ensembles, all axes", "why_tests_cant": "depends on the state of an object shared between iterations; a test with one member passes", "anchors": ["ompy/extractor.py:Extractor.rhosigchi", "ompy/pyrhosigchi.py:pyrhosigchi"]}
{"id": "C90", "title": "find_limits selects exactly the requested rows; pad_matrix keeps every count", "statement": "The rows selected by find_limits are exactly those with Ex_min <= Ex <= Ex_max, the first column is the first not below Eg_min, and each row ends after its last positive entry. pad_matrix adds N empty rows and columns below and keeps every count at its energy.", "quantifier": "all square matrices on an equidistant axis, all limits, all N", "why_tests_cant": "needs limits between, on and outside bins; index arithmetic with ceil and floor", "anchors": ["ompy/pyrhosigchi.py:find_limits", "ompy/pyrhosigchi.py:pad_matrix"]}
{"id": "C91", "title": "The errors of rhosigchi are the root mean square deviations over independent draws", "statement": "The squares of the reported errors are, in every bin, the mean over all draws of the squared difference between the result of the perturbed matrix and the nominal result, each draw counting as if it were calculated alone; they do not depend on the order of the draws, are not negative, and vanish without uncertainties.", "quantifier": "all matrices, uncertainties, limits, numbers of iterations and lists of random numbers", "why_tests_cant": "all draws share one pair of arrays that is never cleared; leaks between draws show only for particular sequences", "anchors": ["ompy/pyrhosigchi.py:pyrhosigchi", "ompy/pyrhosigchi.py:normalize_array"]}
{"id": "C92", "title": "A loaded response has, on every line, the spectrum of that energy on the right energy axis", "statement": "Whether a response is loaded from a directory or from a zip archive, each line of the table of peak probabilities is paired with the simulated Compton spectrum of the same gamma energy, complete and padded with zeros; the energies returned for the channels are those of the calibration in the spectra; spectra with other calibrations, missing ones or ones longer than the last are refused; and the same data in both formats give the same response.", "quantifier": "for all tables, all sets of spectra with any calibrations and lengths, both formats", "why_tests_cant": "tests load the one response that ships with the package, whose table is sorted, whose energies are whole and whose calibration has no constant term", "anchors": ["ompy/response.py:52-86", "ompy/response.py:88-151", "ompy/response.py:153-233"]}
{"id": "C93", "title": "The two extraction algorithms are interchangeable", "statement": "extract_from runs either algorithm with the given or else the stored ensemble and action; rhosigchi takes its limits from the trapezoid cut of the action, its uncertainties are the standard deviations of the members, and both algorithms report the strength function in the same unit, nan where nothing is known.", "quantifier": "all settings, actions, ensembles, results and energies", "why_tests_cant": "needs all combinations of stored and passed arguments, of recorded calls, and the comparison of two algorithms that no test runs on the same data", "anchors": ["ompy/extractor.py:Extractor.extract_from", "ompy/extractor.py:Extractor.rhosigchi", "ompy/extractor.py:Extractor.standard"]}
{"id": "C94", "title": "The start values of the extraction are finite, positive and close to one", "statement": "guess_initial_values yields for every method a finite, positive level density with one value per energy, whatever the unit of the axis (keV or MeV); the default one is 1/0.7 in the middle, has equal values at a quarter and at the end, and stays close to one; randomised start values stay positive.", "quantifier": "all increasing energy axes", "why_tests_cant": "no test can cover all axes; bins just above the back-shift and short axes are rare", "anchors": ["ompy/extractor.py:Extractor.guess_initial_values", "ompy/extractor.py:Extractor.x0_BSFG", "ompy/extractor.py:Extractor.x0_CT", "ompy/extractor.py:Extractor.x0_parabola"]}
{"id": "C95", "title": "Text files keep every digit; mama files keep nine digits of a count and seven of an axis", "statement": "Saving numbers in the txt or csv format and loading them again gives back exactly the same doubles (the 19 printed digits identify each double; 18 would do). In the mama format a count comes back within 6e-9 of itself and saving what was read writes the same digits again, but not the same double. The axis of a mama file is rebuilt from seven digits of E[0] and of E[1]-E[0]: bin i is off by at most 5.4e-7 (|E[0]| + i |E[1]-E[0]|), so that an axis that starts at or above zero still has 'equal binning' with the original, and one that starts below zero may not.", "quantifier": "all doubles away from the subnormal range (txt: all), all tables, all axes, all bins", "why_tests_cant": "A statement about all doubles and their decimal expansions; tests compare a few round numbers with a tolerance.", "anchors": ["ompy/filehandling.py:62", "ompy/filehandling.py:113-117", "ompy/filehandling.py:133", "ompy/filehandling.py:164-171", "ompy/filehandling.py:303", "ompy/filehandling.py:373", "ompy/vector.py:108-116", "ompy/matrix.py:261-273", "ompy/matrix.py:888"]}
{"id": "C96", "title": "Interpolating a matrix reproduces it on its own axes, in either order of the axes", "statement": "interpolate_matrix_1D on the energies of the matrix itself returns the matrix, along either axis; interpolating first along one axis and then along the other gives the same result in both orders, the bilinear value inside each cell and zero outside the axes. interpolate_matrix_2D gives the same bilinear value strictly inside both axes; on its own axes it should return the matrix, but it sets the outermost rows and columns to zero. Shape mismatches, a wrong axis and unordered energies raise, nothing else does.", "quantifier": "all rectangular matrices, all strictly increasing axes of at least two points, all output energies", "why_tests_cant": "Holds for every matrix, axis and output grid; a test compares a handful of points and usually inside the borders only.", "anchors": ["ompy/library.py:233-259", "ompy/library.py:262-290"]}
{"id": "C97", "title": "The default of a None argument is the attribute of the same name", "statement": "self_if_none replaces an argument that is None by the attribute with the argument's name, which it reads off the source line of the call with a regular expression. For every call in the package the name found is the one of the argument, so None gives that attribute (ValueError if it is None too and that is not allowed, AttributeError if there is none) and any other value is kept. For an arbitrary line the name found is the word after the last opening parenthesis that is followed by a word and later by a closing one, so a comment after the call can change it; without such a parenthesis (a call spread over several lines) an AssertionError is raised even if the argument was given.", "quantifier": "all source lines, all attribute tables, all arguments", "why_tests_cant": "Depends on the text of the source around each call; a test covers the calls as they are formatted now.", "anchors": ["ompy/library.py:387-411", "ompy/library.py:414-433", "ompy/normalizer_nld.py:179-192", "ompy/normalizer_gsf.py:162-184", "ompy/normalizer_simultan.py:126-133"]}
{"id": "C98", "title": "Rebinning in double precision differs from exact rebinning by rounding only", "statement": "For axes whose first two centres are doubles at least 2^-60 apart, whose energies are bounded by M with M <= 2^29 times the bin width, the rebinning carried out in IEEE double precision (every subtraction, division, multiplication and addition of rebin_1D rounded) gives in every output bin the exact overlap sum up to 20 * 2^-53 * (M / width) times the sum of the absolute counts (plus a denormal term). In particular a bin boundary that is rounded across an integer, so that the truncated index range [jmin, jmax] is one too short, loses no more than that; the casts to int do not overflow; counts that are not negative give bins that are not negative; and if the new axis covers the old one the total is kept up to Nout times the same bound. The exact value is the one the exact model of rebin_1D returns.", "quantifier": "all counts, all axes satisfying the stated range conditions, all output bins", "why_tests_cant": "The index range comes from truncating a rounded quotient, which is discontinuous: whether a dropped or an added bin matters depends on the last bit of the axis values. Tests check a handful of axes with round numbers, for which every operation is exact.", "anchors": ["ompy/rebin.pyx:12-92"]}
{"id": "C99", "title": "The first-generation product and chi square in double precision, in any order of the additions", "statement": "decomposition.pyx is compiled with -ffast-math, so the order of the additions (and, for chi square, whether a term is divided, multiplied by a reciprocal or squared as a quotient) is up to the compiler; numpy's sum adds in blocks. Whatever the order: (a) a sum of n doubles is within 2(n-1) 2^-53 times the sum of the absolute values of the true sum, and a sum of non-negative numbers is at least each of them; (b) the rounded index search returns an energy that is closest up to rounding, and the closest one itself if the energy is within a third of the spacing of a grid energy; (c) if no gamma energy lies within rounding of the diagonal and final energies are near grid energies, every entry of the normalised product has a relative error of at most 4(n+1) 2^-53, lies in [0, 1], and each row sums to 1 within 4(n+1) 2^-53; the exact value is the one of the exact model; (d) chi square has a relative error of at most (3n+8) 2^-53 over all three ways of compiling a term. The guard std == 0 does not exclude a division by zero: the square of a non-zero std may underflow to zero.", "quantifier": "all arrays of doubles in the stated ranges, all orders of the additions, all three compilations of the term", "why_tests_cant": "Tests see the one binary that was built on the test machine; a different compiler, CPU or numpy block size chooses another order. A wrong comparison on the diagonal or a neighbouring grid energy would change a count completely and depends on the last bit.", "anchors": ["ompy/decomposition.pyx:15-216", "setup.py"]}
{"id": "C100", "title": "A MaMa file is read back character by character", "statement": "Let a matrix (or spectrum) of finite doubles be written by mama_write2D (mama_write1D) with any comment and time stamp that contain no line break: the ten header lines, every count with '%-17.8E', the calibration with '%12.6E', the footer with its additional empty line.  Then the characters written are determined by the numbers, they exist for every finite double, and mama_read, which counts header lines, splits on commas and white space and drops one footer line, finds exactly the three or six coefficients and the table of counts that was written, each rounded to nine (seven) digits and then to the nearest double.  Nothing in the comment (commas, #, tabs, the words of the header) changes this.", "quantifier": "For every number of rows and columns (at least one column), every finite double, every comment and time stamp without line feed and carriage return", "why_tests_cant": "A test writes one matrix with one comment and compares numbers; whether some other comment, some exponent width, some sign or some size shifts a header line, merges two fields or drops a row cannot be covered by examples.", "anchors": ["ompy/filehandling.py:11-189"]}
{"id": "C101", "title": "Text files of vectors and matrices give back every double, character by character", "statement": "Saving a vector of at least two bins (with or without errors) or a matrix of at least one bin as .txt and loading the file gives the same doubles for values, axes and errors, bit for bit up to the sign of zero: the '%.18e' digits of np.savetxt, the blanks between them, the header with its '# ' in front of every line and the line structure lose nothing.  This holds for every header, of one line, several lines or none.", "quantifier": "For every number of rows and columns, every finite double, every header text without carriage return", "why_tests_cant": "A test compares a few numbers with np.allclose; whether every one of the 2^64 doubles survives, and whether some header changes the table, cannot be tested.", "anchors": ["ompy/filehandling.py:262-285", "ompy/filehandling.py:335-356", "ompy/vector.py:161-262", "ompy/matrix.py:179-259"]}
{"id": "C102", "title": "Results saved as text keep every member of the ensemble apart", "statement": "save_results_txt writes three files with different names for every result.  EnsembleNormalizer.save_results_txt leaves, for every member, its level density, its strength function and its samples in files of its own: no member overwrites another one, no other file is touched.  The file of the samples is read back with one row for each parameter, in the order of the names in its first line.", "quantifier": "For every number of members, every directory content before the call, every suffix without point and slash, every set of samples of equal positive length", "why_tests_cant": "A test saves one result into an empty directory; collisions depend on the suffixes, stale and torn files on what was there before and on where an error is raised.", "anchors": ["ompy/abstract_normalizer.py:70-108", "ompy/ensembleNormalizer.py:629-643"]}
{"id": "C103", "title": "The Oslo transformation is the only freedom of the decomposition", "statement": "Two positive level densities and transmissions on the same equidistant, aligned grids that give the same normalised first-generation matrix differ by one transformation A*exp(alpha*E), B*exp(alpha*Eg) with a common slope, in every bin the matrix depends on; if every bin is used, the solutions are exactly the transformed ones. With one excitation-energy row this is not so.", "quantifier": "for all level densities, transmissions, resolutions and equidistant grids with at least two rows, of any size", "why_tests_cant": "a test can only try finitely many alternative solutions; uniqueness is a statement about all of them", "anchors": ["ompy/decomposition.pyx:17-77", "ompy/decomposition.pyx:80-221", "ompy/vector.py:264-297"]}
{"id": "C104", "title": "What the members of an ensemble are on average", "statement": "Poisson members without a background hold on average the measured counts in every bin (0 where counts are negative). Gaussian members hold on average at least the counts, and more as soon as a draw can be negative, because negative draws are set to 0. With a background the members hold on average at least prompt - ratio*background.", "quantifier": "for all matrices, backgrounds, ratios, finite distributions of seeds and generators that draw the given rates and locations on average", "why_tests_cant": "an average over seeds is not visible in single members, and the bias of the cut at zero is hidden by the statistical spread of a finite sample", "anchors": ["ompy/ensemble.py:423-459", "ompy/ensemble.py:271-328"]}
{"id": "C105", "title": "The library's diagonal cut keeps exactly the bins on or above the line through the two nearest bins", "statement": "cut_diagonal of the library takes two points (Ex, Eg), finds the nearest bin of each coordinate (the first one in case of ties) and sets every bin below the line through them to zero, leaving the others as they are, independent of the order of the points. A line of two points in the same Eg bin must not clear the matrix silently.", "quantifier": "all arrays, axes, pairs of points", "why_tests_cant": "Tests compare a few entries of one matrix; a wrong tie rule, a swapped axis or a slope of the wrong sign shows only for other axes and points.", "anchors": ["ompy/library.py:26-48", "ompy/library.py:218-235"]}
{"id": "C106", "title": "The simultaneous normalisation reports the curves whose likelihood it computed", "statement": "After the simultaneous fit, the stored gamma-ray strength function and the two extrapolations are the curves that enter the likelihood at the best-fit parameters: the transformed data and the models fitted to it, with the extrapolation shift stored as the shift after normalisation. Without set energy ranges the ranges come from the data. Without data there is no result.", "quantifier": "all data, parameters, extrapolation models, fit functions", "why_tests_cant": "The test suite runs the sampler for one nucleus and does not compare the reported curves with those of the likelihood.", "anchors": ["ompy/normalizer_simultan.py:150-184", "ompy/normalizer_simultan.py:360-385", "ompy/models.py:300-305", "ompy/models.py:355-360"]}
{"id": "C107", "title": "Refused inputs raise the stated exception and write or change nothing", "statement": "A save that raises has written nothing; which matrices can be saved in which format, and which exception every other one gives, is fixed by shape, format and presence of uncertainties. A load that fails leaves the object as it was and passes the error on: missing file or wrong format. Cutting an empty axis, unfolding with fewer than two gamma-ray bins and the first-generation method on an empty matrix raise as stated.", "quantifier": "all matrices, vectors, paths, formats, file systems", "why_tests_cant": "Tests with pytest.raises use one bad input per function.", "anchors": ["ompy/matrix.py:179-259", "ompy/vector.py:161-262", "ompy/filehandling.py:11-180", "ompy/unfolder.py:224-247", "ompy/firstgeneration.py:95-102", "ompy/matrixstate.py:1-40"]}
{"id": "C108", "title": "The rhosigchi update is the stationarity condition of chi square, and every entry moves downhill", "statement": "One iteration of rhosigchi replaces each entry of the level density and of the transmission coefficient by the value at which chi square would have no slope in that entry, limited to a change by the factor of the iteration. So each entry moves against the slope of chi square and stays exactly where the slope is zero, for every matrix, every set of uncertainties and every extension of the diagonal.", "quantifier": "all matrices, uncertainties, limits, level densities and transmission coefficients; C++ and Python version", "why_tests_cant": "Tests compare the output for one matrix with stored numbers; a wrong sum, a missing row or a wrong power changes the numbers of other matrices only.", "anchors": ["ompy/rhosigchi.cpp:184-280", "ompy/pyrhosigchi.py:98-200"]}
{"id": "C109", "title": "The first-generation method leaves the true primary spectra unchanged", "statement": "Let every excitation-energy bin decay in the same way whether it is populated directly or by a quantum from above, and let the matrix hold all quanta of pop(i) cascades from each bin i, both energy axes starting at 0. Then the total multiplicity is the true mean number of quanta per cascade, the true primary spectra are a fixed point of the first-generation iteration (in every iteration, also with the averaging of the weights after the fifth), and once they are reached the method returns them exactly. Otherwise the returned spectrum differs from the true one exactly by the errors of the weights times the spectra of the bins decayed into. allgen_from_primary builds such a matrix. For any data, a spectrum that an iteration reproduces holds one quantum for every cascade.", "quantifier": "for all numbers of bins, bin widths, primary spectra, populations and numbers of iterations", "why_tests_cant": "The true primary spectra of a measured matrix are not known, and a test can compare a few simulated cascades only within the error of a finite number of iterations.", "anchors": ["ompy/firstgeneration.py:112-160", "ompy/firstgeneration.py:163-320", "ompy/firstgeneration.py:322-368"]}
{"id": "C110", "title": "The normalised strength function does not depend on the input's arbitrary scale and slope", "statement": "The extracted level density and strength function are known only up to c exp(bE) and d exp(bE). Normalising first the level density and then, with the slope found, the strength function gives the same normalised level density, strength function, uncertainties and extrapolations for every choice of c, d and b; only the reported factor B changes, by 1/d.", "quantifier": "all data, factors c, d and slopes b; all level-density models, parameters and grids; both extrapolations fitted by least squares with or without uncertainties", "why_tests_cant": "the statement compares two complete runs on all rescaled inputs; a test compares one run with one stored result", "anchors": ["ompy/normalizer_gsf.py:191-251", "ompy/models.py:221-281", "ompy/normalizer_nld.py:481-523", "ompy/vector.py:264-297"]}
{"id": "C111", "title": "Normalising noise-free data gives back the true level density", "statement": "If the extracted level density, up to its arbitrary factor c exp(bE), is exactly the known levels in the low region and the model in the high region and at Sn, then the parameters that give back the true level density maximise the likelihood.", "quantifier": "all bins, values, uncertainties, temperatures and shifts, factors c and slopes b", "why_tests_cant": "a test on one data set cannot tell a small bias of the result from the accuracy of the optimiser", "anchors": ["ompy/normalizer_nld.py:481-523", "ompy/vector.py:264-333"]}
{"id": "C112", "title": "Unfolding a folded spectrum gives back the true spectrum", "statement": "If the raw spectra are true spectra folded with the response, the iterations converge to the true spectra, and the matrix returned by apply is close to them.", "quantifier": "all matrices, responses, numbers of iterations and scores", "why_tests_cant": "a test unfolds one spectrum with one response; convergence depends on the response and is a statement about arbitrarily many iterations", "anchors": ["ompy/unfolder.py:122-211", "ompy/unfolder.py:278-291"]}
{"id": "C113", "title": "From a perfectly fitted matrix to the true level density and strength function", "statement": "If the first-generation matrix is the product of a true level density and transmission coefficient and the extraction fits it perfectly, then a normalisation that hits the true level density at two energies gives the true level density at all energies, and the strength function normalised with that slope and the true radiative width is the true strength function. With a width that is k times too large it is k times too large, with the right shape.", "quantifier": "all level densities, transmission coefficients, equidistant aligned grids of any size, perfect fits, least-squares extrapolations, level-density models and spin sums", "why_tests_cant": "the statement is about every perfect fit the minimiser may end in, and needs the uniqueness of the decomposition together with the invariance of both normalisations", "anchors": ["ompy/decomposition.pyx:17-77", "ompy/extractor.py:408-431", "ompy/vector.py:264-297", "ompy/vector.py:430-438", "ompy/normalizer_gsf.py:191-251"]}
{"id": "C114", "title": "The bounds and priors of the optimisers do not depend on the scale and slope of the input", "statement": "Scale and slope of the extracted level density are arbitrary. The parameters that differential evolution may find, the warning about them and the priors MultiNest starts from apply to the parameter each is named after, and data multiplied by c exp(bE) lead to the same normalised level density. A guess without a warning about the scale has the best of all scales.", "quantifier": "all data, bounds, scales, slopes, guesses and points of the unit cube", "why_tests_cant": "the effect of a bound or prior shows only for scales and slopes a test does not use, and the optimisers hide it behind their tolerance", "anchors": ["ompy/normalizer_nld.py:116-117", "ompy/normalizer_nld.py:252", "ompy/normalizer_nld.py:274-287", "ompy/normalizer_nld.py:316-354"]}
{"id": "C115", "title": "Arrays made without values hold zeros of the requested shape and behave like explicit zeros", "statement": "ZerosMatrix, Matrix with a shape or with both axes, and Vector with energies only, hold zeros of the shape asked for on the given or default axes, refuse axes that do not fit, can be given uncertainties, and behave in every later operation like an array made from explicit zeros.", "quantifier": "all shapes, axes, states and types of the energies", "why_tests_cant": "tests use float energies, no uncertainties and a few shapes; the type of the entries shows only in later operations", "anchors": ["ompy/matrix.py:109-136", "ompy/matrix.py:910-942", "ompy/vector.py:63-70", "ompy/abstractarray.py:60-115"]}
{"id": "C116", "title": "The credibility bands of the extrapolations are the quantiles of the samples' own extrapolations", "statement": "At every energy the band drawn for an extrapolation has low <= median <= high, lies within the extrapolations of the individual samples, does not depend on the order of the samples, and follows the normalisation: samples d times as large give a band d times as large, and the curve of a sample is the extrapolation reported with it.", "quantifier": "all sample sets, models, energies, percentiles and normalisations", "why_tests_cant": "the bands are only drawn; tests compare neither them with the samples nor repeat them with other samples or another method", "anchors": ["ompy/ensembleNormalizer.py:541-634", "ompy/normalizer_gsf.py:226-251", "ompy/models.py:210-281"]}
{"id": "C117", "title": "The extrapolations are fitted to the intended bins of the strength function", "statement": "fit uses the bins from the one nearest to the lower end of the fit range to the one nearest to its upper end, with their values and uncertainties, in every unit. Without a given range the windows of the low and the high model lie near the two ends, do not overlap, hold at least two bins, leave out the first two bins and the last one, and belong to the strength function being fitted.", "quantifier": "all axes, units, fit ranges, and sequences of fits", "why_tests_cant": "tests fit one strength function in MeV with the default range; which bins are used is not visible in the result", "anchors": ["ompy/models.py:224-264", "ompy/models.py:307-319", "ompy/models.py:362-374"]}
{"id": "C118", "title": "Every finished sampling run is reported, parameter by parameter, with a precision that fits its uncertainty", "statement": "optimize returns for each parameter of the likelihood, under its name, the median and half the 1 sigma interval; the printed numbers differ from these by at most a twentieth of the uncertainty, which is never shown as zero. Every finished run is reported, no file of one ensemble member is a file of another, and whether a run can be started does not depend on the number of the member.", "quantifier": "all marginals, names, directories and member numbers", "why_tests_cant": "tests run one member in a short directory with a likelihood whose posterior has positive width", "anchors": ["ompy/normalizer_nld.py:290-402", "ompy/normalizer_simultan.py:216-345"]}
{"id": "C119", "title": "The simultaneous normalisation leaves no traces: neither one evaluation of its likelihood in the next, nor one call in the next", "statement": "NormalizerSimultan.lnlike overwrites D0, level density, strength function and extrapolation models of the normaliser it holds. Still every value MultiNest gets is a function of the point asked for; a call of normalize gives what a computation without state gives (parameters, samples, both vectors, both extrapolations, exceptions), puts D0 back and drops artificial standard deviations; the same call again gives the same result. The vectors of the object never change.", "quantifier": "all samplers (any adaptive sequence of evaluations), data, settings, models of either method, and states without left-over flags", "why_tests_cant": "MultiNest chooses the points; tests run one sampler once, and compare neither with a fresh object nor after a failure", "anchors": ["ompy/normalizer_simultan.py:88-184", "ompy/normalizer_simultan.py:186-383", "ompy/normalizer_gsf.py:157-245", "ompy/models.py:224-305"]}
{"id": "C120", "title": "The rhosigchi extraction reaches the solution from its starting point", "statement": "pyrhosigchi starts from a level density of 1 and changes every entry per iteration by at most 20 % (iterations 1-5), 10 % (6-12), 5 % (13-21), 2.5 % (22-30) and 1 % afterwards, or sets it to zero. With the default number of iterations a matrix that is an exact product of level density and transmission coefficient is reproduced by the result.", "quantifier": "all matrices of counts, uncertainties, limits and numbers of iterations", "why_tests_cant": "the limit on the total change is a product over all iterations and only shows for matrices whose level density varies strongly; tests compare one smooth spectrum", "anchors": ["ompy/pyrhosigchi.py:136-147", "ompy/pyrhosigchi.py:265-334", "ompy/rhosigchi.cpp:196-277"]}
{"id": "C121", "title": "A plot of a matrix shows each bin with its own content and leaves the matrix alone", "statement": "Matrix.plot draws every entry over the bin it belongs to (zero is white), the value under the pointer is the entry of the bin the pointer is in, the scale is logarithmic above 1000 counts or on request and refused where impossible, the ticks lie at centres of bins, and the picture made of letters (ascii_plot) has the shape asked for, with one shade per quarter of the distinct positive counts. The matrix is the same afterwards.", "quantifier": "all matrices, axes, scales, pointer positions, views and numbers of ticks", "why_tests_cant": "pictures are not compared by tests; the cell under a position, ticks after zooming and the treatment of unequal bins depend on all axes and positions", "anchors": ["ompy/matrix.py:275-374", "ompy/matrix.py:455-482", "ompy/matrix.py:851-863", "ompy/matrix.py:946-977"]}
{"id": "C122", "title": "Looking at a matrix does not move its bins", "statement": "Matrix.plot moves the axes to the lower edges of the bins and back (to_lower_bin, to_mid_bin). Afterwards the energies are, bit for bit, those of before, however often the matrix is plotted.", "quantifier": "all axes of double precision numbers and all numbers of plots", "why_tests_cant": "rounding errors depend on the energies; tests use whole numbers, for which nothing moves", "anchors": ["ompy/matrix.py:319-326", "ompy/matrix.py:851-863"]}
{"id": "C123", "title": "The picture of an ensemble of normalised samples shows what it says", "statement": "EnsembleNormalizer.plot draws n_plot different samples, each once in both panels with its own model curves; the extrapolations drawn, and those behind the credibility bands, are fits of each sample by itself in one common window; the legend names every kind of line once; n_plot=0 leaves no sample in the picture; the figure returned is the one with the axes; the bands of the extrapolations are computed on 20 equally spaced energies between the data and Sn.", "quantifier": "all tables of samples, numbers of plotted samples, models, windows, figures, fitting and random generators", "why_tests_cant": "tests only check that plotting does not raise; labels, line order, selections and the state of the fitted models depend on the whole sequence of calls", "anchors": ["ompy/ensembleNormalizer.py:207-310", "ompy/ensembleNormalizer.py:325-409", "ompy/normalizer_nld.py:402-482", "ompy/normalizer_gsf.py:226-251", "ompy/normalizer_gsf.py:443-508"]}
{"id": "C124", "title": "The version names the commit, every source tree builds, and the examples are found", "statement": "Importing ompy reports the version with the commit of the clone, or of the build when installed, and leaves the working directory alone; setup.py builds any source tree and the package built reports the version of the distribution; ompy_OpenMP switches OpenMP as documented; example_raw finds each listed example in any case of its letters beside the package, example_response its response; disjoint_rows makes the rows its documentation shows.", "quantifier": "all trees with or without .git and version file, all answers of git, working directories, values of ompy_OpenMP, names and install locations, all shapes", "why_tests_cant": "tests run in one clone with one git; trees without git, answers with warnings, and sequences of builds are never exercised", "anchors": ["ompy/version.py:10-69", "setup.py:23-107", "setup.py:110-141", "setup.py:180-184", "ompy/examples.py:6-57"]}
{"id": "C125", "title": "An Action records the calls made on it, and only those", "statement": "An Action for matrices or vectors records any method of the class by name, keeps its own methods, records a chain of calls in order without touching other Actions, and Actions derived from it or copied from it are independent of it.", "quantifier": "all bases and spellings, method names, heaps of Actions, chains of calls, arguments", "why_tests_cant": "which names are recorded depends on the class dictionaries, and closures decide into which object; tests record one or two fixed calls on one Action", "anchors": ["ompy/action.py:6-23", "ompy/action.py:45-57"]}
{"id": "C126", "title": "The pictures of standard deviations, vectors and projections show what they are asked for", "statement": "Ensemble.plot draws the three standard deviations with one set of colours on the axes given, scaled by the chosen matrices, with a colour bar that holds for all three and marks where entries are beyond its ends; Vector.plot draws each documented kind; Matrix.plot_projection draws the projection over its energies with the right label and scale.", "quantifier": "all matrices, vectors, limits, scales, axes and kinds", "why_tests_cant": "tests draw one ensemble and look at nothing; whether limits, scales and bar agree depends on the values of all three matrices", "anchors": ["ompy/ensemble.py:575-646", "ompy/vector.py:118-159", "ompy/matrix.py:375-415"]}
