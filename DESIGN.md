# Formal model of TurbuStat in Rocq: design and trusted base

## 1. What is modelled, and how

TurbuStat is a numerical Python library.  The model is a shallow embedding:
each function is a total Gallina function that follows the Python branch by
branch, with exceptions as values (`result` type, `Lib/PyBase.v`).

* **Numbers.**  A Python float is modelled by the type `fl` (`Lib/Fl.v`):
  a real number, `+inf`, `-inf` or `NaN`, with IEEE-style propagation of
  the special values.  Rounding, overflow to infinity, and the sign of zero are
  *not* modelled.  Where a function only ever sees finite numbers (its
  callers have removed blanks) plain `R` is used, and the comment on the
  definition says so.  A *blank* in the property text is a NaN.
* **Integers** (sizes, indices, shifts) are unbounded `nat`/`Z`.
* **Arrays** are lists (1D), lists of rows (2D) or of planes (3D) where the
  index manipulation is the subject, and functions of the indices with explicit
  extents where sums over the indices are the subject.
* **Python slices** `a[start:stop:step]` are interpreted by `Lib/PySlice.v`, a
  transcription of CPython's `slice.indices`.  Models therefore contain the
  literal slice bounds of the source.
* **numpy/scipy/astropy calls** (FFT, convolution, `label`, fitters, WCS,
  pickle) are either given by their mathematical definition (DFT as a
  finite sum; `np.roll`; `nansum`; `cumsum`; connected components by
  reachability) or are universally quantified oracles (least-squares solvers,
  random draws, schedulers).  Nothing is assumed about an oracle beyond what
  the theorem's hypotheses say.
* **Objects** with setters or caches are records with a step function.

Layout of `/verif/rocq/theories`:

| directory | content |
|---|---|
| `Lib/` | mathematics and Python semantics: finite sums, `fl`, slices, DFT |
| `Spec/` | the small specifications the properties are stated with |
| `Model/` | the model of the code, one file per source file, no proofs |
| `Proofs/` | lemmas |
| `Properties/` | only theorems closed by `exact`, with `Print Assumptions`, and the non-vacuity examples |

When the code violates a property the theorem is named `..._refuted` and
exhibits a witness; the part that does hold is proved as `..._partial`.
Section 4 collects these findings.

## 2. Plan per property

| id | model | proof |
|---|---|---|
| C01, C02 | `rfft_to_fft` on lists of rows/planes with the literal slices; `np.fft.rfftn` = textbook DFT restricted to half the last axis | Hermitian symmetry of the DFT of a real array; characterise each slice by `nth` |
| C03 | `np.roll` on lists, `int()` truncation | modular arithmetic, permutation |
| C04 | `_shifter` = inverse DFT of DFT times phase ramp with `fftfreq` | DFT inversion (geometric sums of roots of unity) |
| C05, C06 | `hellinger` over `fl` lists | l2 triangle inequality (Cauchy-Schwarz on lists) |
| C07 | four schemes over `fl` lists with `nanmean`, `nanstd`, `nanmin`, `nanmax` | algebra of finite sums |
| C08 | filter then pointwise sum | Gibbs inequality from `ln x <= x-1` |
| C09, C10, C11 | direct | direct |
| C12, C13 | `binned_statistic(mean)` over the list of pixels with digitised distances | partition of a list by bin index |
| C14, C15 | `compute_pspec` as axis sums of the squared C02 output | Parseval over one or two axes |
| C16-C19 | `compute_surface` over `fl` cubes, lag by lag | (a-b)^2 <= 2(a^2+b^2); re-indexing of cyclic sums; witness for C19 |
| C20 | weighted l2 | Minkowski inequality |
| C21, C22 | triple loop of `cramer_statistic` | re-indexing for C21; for C22 conditional negative definiteness of sqrt(euclid) |
| C23, C24 | `set_n_eigs`, normalised spectra | list induction, l2 inequalities |
| C25 | `noise_ACF` sum and division | witness (sign) |
| C26 | circular autocorrelation by the FFT expression in the source | DFT inversion, Cauchy-Schwarz |
| C27, C28 | walk-down loop, beam correction formula | induction over the loop; witness for C28 |
| C29, C30 | `_delvar`, NaN rule, normalised curve distance | Jensen / Cauchy-Schwarz |
| C31 | setters as step functions on object state | invariant over assignment histories |
| C32 | closed forms | algebra; radial integral by antiderivative |
| C33, C34 | threshold masks; connected components | reachability, graph symmetry |
| C35 | formula | witness |
| C36, C37 | `compute_moments` over `fl` | Cauchy-Schwarz; witness for C37 |
| C38 | pad + slice + mask | modular arithmetic |
| C39, C40 | histogram, cumsum; object state | list induction; witness for C40 |
| C41, C42 | both loop orders | sum exchange |
| C43-C46 | base class state machine; units as dimension tags with scale factors | case analysis, field algebra, histories by induction |
| C47, C48 | fit loop with the solver as oracle | measure on the loop |
| C49, C50 | direct | direct; witness |
| C51 | closed forms piecewise | trigonometric bounds |
| C52-C54 | closed forms | trigonometry, `ln`/`exp` |
| C55, C56 | slice assignments on a half-spectrum array | index algebra; witness for odd sizes |
| C57 | pool results as an arbitrary permutation of tagged results | permutation invariance |
| C58, C59 | loop over channels and cells | sums; `ceil` |
| C60, C61 | sums of complex samples; index formulas | triangle inequality; bounds |
| C62-C64 | lag differences, model, clipping | re-indexing; monotonicity; witness |
| C65-C75 | direct | direct; witnesses where the code violates the claim |

The properties appended later (C76 on), by properties file:

| properties | file | models | proof |
|---|---|---|---|
| C76 | `P_Pspec` | Psds, Apodize | Parseval, partition of pixels by bin |
| C77-C85, C214-C216 | `P_Pca` | Pca | list induction, DFT inversion; eigh is an oracle with the spectral theorem as its contract |
| C86-C89 | `P_DeltaVar` | DeltaVar | finite sums; antiderivatives of the kernels |
| C90 | `P_Base` | BaseStat, Units, InputData | histories of assignments by induction, field algebra, heap of objects |
| C91-C105, C233-C234 | `P_Fitting` | LmSeg, FitUtils, FitState, Distances, EllipPlaw | solvers as oracles; invariants over fit histories |
| C106-C115, C235 | `P_Fields` | GenField, Apodize, ThreeD | index algebra on half spectra, trigonometry |
| C116-C123 | `P_Genus` | Genus | reachability for connected components |
| C124-C134 | `P_Moments` | StatMoments, Pdf | finite sums over `fl`, histograms |
| C135-C142 | `P_MomentErrs` | MomentErrs, MakeMoments | sum exchange, error propagation, state of the object, file names as strings |
| C143-C152 | `P_MakeCube` | MakeCube, ThreeD | sums over cells and channels, ceilings, permutations of pool results |
| C153-C157 | `P_Bispec` | Bispec | triangle inequality for complex sums, index bounds, 16-bit counters |
| C158-C163 | `P_Tsallis` | Tsallis | re-indexing, monotonicity of the model function |
| C164-C172 | `P_Dendro` | Dendro | list induction; astrodendro is an argument |
| C164, C265-C266 | `P_DendroRun` | DendroRun, Dendro, Distances | an object as a record of optional attributes, every call returning the attributes it leaves and the exception; the solver as an oracle that minimises the squared residuals |
| C173-C178 | `P_Mvc` | Mvc, Beam | DFT convolution theorem, modulus algebra |
| C179-C187 | `P_Wavelet` | Wavelet | convolution sums re-indexed, permutations of pixels, bounds on pi and ln 2 |
| C188-C193 | `P_SliceThickness` | SliceThickness | floors and ceilings, blocks of a list |
| C194-C205 | `P_PcaFit` | PcaFit | DFT correlation theorem, walk along a symmetric peak, histories of fits by induction, monotone powers |
| C206-C213 | `P_Ellipse` | Ellipse, Mat3 | normal equations, signature of the constraint form (reverse Cauchy-Schwarz), quadratic forms, finite sums, permutations |
| C217-C222 | `P_Construct` | Construct, InputData | store of arrays, a frame logic for calls that raise, case analysis of inputs, histories of calls |
| C223-C227 | `P_ScfSpectrum` | ScfSpectrum, Psds, EllipPlaw | reduction of the spectrum to the annulus means, normal equations, comparison of two objects call by call, polar form of the ellipse |
| C228-C232 | `P_PspecFit` | PspecFit, Psds, EllipPlaw, FitState | permutation of pixels and modes, uniqueness of the least-squares line, orthogonality of the Fourier kernel, homogeneity of the annulus means, comparison of two objects call by call |
| C236-C240 | `P_Kwargs` | Kwargs, VcsFit | Python binding of keywords to signatures, a heap of dictionaries, traces of calls, frequency lists of odd and even length |
| C241-C243 | `P_CramerCubes` | CramerDistance, Formats, Cramer | the data matrices as lists of rows over floats with blanks, an abstract norm and an abstract generator of draws without replacement |
| C244-C247 | `P_PdfPairs` | PdfDistance, Pdf, StatsUtils | real lists with blanks, numpy histograms, the lognormal fit abstract, strings as objects with identity |
| C248-C251 | `P_ScfPairs` | ScfPairs, ScfSpectrum, Scf, Formats | the object as a record with its own size attribute, lags as real lists, the surfaces of Scf.v; strings as objects with identity |
| C252-C255 | `P_PcaRun` | PcaRun, PcaFit, Pca | a state machine over the attributes, invariant by induction over histories of calls, widths and fits abstract but for their numbers |
| C256-C258 | `P_DeltaVarRun` | DeltaVarRun, DeltaVar, FitState, Units | a state machine over the attributes, invariants by induction over histories of calls, unit conversion of the lags, the values of one map per lag abstract |
| C259-C260 | `P_RunOptions` | RunOptions, Kwargs | Python's binding of keyword arguments, a log of the steps called with their arguments, refinement of run to the documented tables of options |
| C261 | `P_PcaRanges` | PcaFit, FitUtils, EllipPlaw (percentile) | order statistics of a sorted sample, monotone maps |
| C262 | `P_Weights` | Construct, InputData | store of arrays, case analysis of inputs |
| C263-C264 | `P_ScfLags` | ScfLags, ScfPairs, ScfSpectrum, Scf, Units | the argument roll_lags as a sum type with units; compute_surface as a loop over (index, lag) pairs that returns the surface and the exception |
| C267 | `P_BreakFit` | BreakFit, LmSeg, PspecFit | the regressions as an oracle met by Gram-Schmidt; each turn of the fit is exact on a broken line |
| C268 | `P_BreakRun` | BreakFit, LmSeg, DeltaVarRun | as P_BreakFit, through a run of an object |
| C269-C271 | `P_BispecRun` | BispecRun, Bispec | an object through runs that may raise; slices of several radii reduced to those of one |
| C272-C273 | `P_GenusRun` | GenusRun, Genus | an object through runs that may raise and changes of radii; the distance from the images, with the counts of C116 |
| C274-C275 | `P_MomentsRun` | MomentsRun, StatMoments, StatsUtils | invariant of the object over histories of calls; weighted sums under a change of units; permutations of the maps of moved images; densities on common bins |
| C276-C277 | `P_WaveletRun` | WaveletRun, Wavelet, FitState, LmSeg, BreakFit | invariant of the object over histories of calls; least squares lines are unique, so a tilt of the points tilts the line; a star whose transform is a power law as the case |
| C278-C280 | `P_VcsRun` | VcsRun, VcsFit, Psds, LmSeg, BreakFit | what each step of a fit keeps, induction over histories of calls; the regression of an exact line or broken line is unique; cubes with a given spectrum by the inverse transform |
| C281 | `P_TsallisRun` | TsallisRun, Tsallis | object with its attributes and arbitrary contents of fresh memory; invariant by induction over calls, loops that stop at an exception as prefix and exception |
| C282-C283 | `P_PdfRun` | PdfRun, Pdf | object with its attributes, optimiser and sampler as arbitrary functions of the likelihood; case analysis of every call, any earlier history |
| C284 | `P_Asked` | BreakFit, LmSeg, PspecFit, DeltaVarRun, WaveletRun | the segmented fit of an exact line returns the line (its next break is 0/0), so every caller takes its branch without a break; reduction to the theorems on plain power laws |
| C285 | `P_MomentsObj` | MomentsObj (with MomentErrs in the example) | invariants by induction over histories of calls, with spectral-cube and the error functions as variables |
| C286 | `P_WidthMethods` | WidthMethods (with Pca) | minima of symmetric falling lists, sorting of falling knots, and uniqueness of best fits |
| C287-C288 | `P_WidthImages` | WidthImages.v: WidthEstimate2D with its four methods, the fitter, the spline and the contour finder oracles | the coefficients of a quadratic form at three pixels fix the width; counting the sorted values between knots; offsets of equal radius for circular images; strict convexity against a constant |
| C289-C290 | `P_Odr` | Odr, PcaFit, FitUtils, WidthMethods | the least misfit of a line over all displacements in closed form, so best lines are minima of a sum over the points; changes of units keep each term; exchange by the substitution 1/a and continuity at 0; probabilities by explicit lines |
| C291-C293 | `P_PlotStyle` | PlotStyle, Kwargs | heap of dictionaries with the shared defaults, an invariant of the defaults and a relation of a dictionary to its first contents by induction over the program |
| C294-C295 | `P_Wcs` | Wcs, StatsUtils | the matrix of the header as a function; rotations through cos and sin, the inequality between the columns and the rows of a nearly orthogonal matrix |
| C296-C298 | `P_Figures` | Figures | the stack of open figures of pyplot with what was drawn in them, and file names as lists of characters; cases over the statistics, lemmas on splitting at the last dot |
| C299 | `P_PlotFit` | PlotFit, LmSeg | what is drawn as lists of points; algebra of logarithms |
| C300-C302 | `P_PlotPanels` | PlotPanels, Dendro | what is drawn as lists; arithmetic of grids, uniform edges |
| C303-C304, C307 | `P_Orders` | Psds, Scf, Pca, VcsRun | sums and counts under permutations, Parseval on each spectrum, the eigenvalue equation of the renumbered matrix |
| C305-C306 | `P_Turned` | Psds, PspecFit, Scf, ScfSpectrum | the spectrum as one number per mode; negation and exchange of modes permute the points (frequency, power); the profile under permutations; pairs of pixels of mirrored cubes are the pairs of negated lags |
| C308 | `P_TurnedMoments` | StatMoments, MomentsRun | pixels and offsets of the turned picture come from pixels and offsets of the picture; disc, square and pixels permuted; sums, shares and histograms under permutations |
| C309 | `P_TurnedTsallis` | Tsallis, TsallisRun | the four neighbours of a pixel are permuted; standardisation and histograms under permutations |
| C310 | `P_TurnedDeltaVar` | DeltaVar | the pixels of the image seen are a permutation of those of the image; even kernels follow; weighted sums under permutations |
| C311 | `P_Masking` | Masking, MakeMoments | induction on the dilations: a box is convex in the largest-coordinate distance; a weighted mean does not exceed its largest value |
| C312 | `P_BispecTurned` | Bispec | modes of the turned image by reversing the double sum; a point source for the refutation |
| C313 | `P_DeltaVarFrame` | DeltaVar | the pixels of the larger image are a permutation of those of the image followed by the others; sums over the others vanish because they are blank after the cutoff; a row of three pixels computed for the refutation |
| C314 | `P_WaveletFrame` | Wavelet | the image continued by zeros is the same in every frame; coefficients of the surroundings are negative where the kernel is; permutation of the positive coefficients; one bright pixel computed for the refutation |
| C315 | `P_ScfFrame` | Scf | the pixels of the larger cube are split into those with a partner in the box, those without and those that are only partners; the lists are permutations by NoDup; the ratios with a blank are zero; counts of the pairs for the factor; two pixels computed for the refutation |
| C316 | `P_TsallisFrame` | Tsallis, TsallisRun | the differences outside the inner pixels are blank because one of the five is, with either boundary; the inner ones are a permutation of the list of the specification; the histogram and the standardization depend on the values that are not blank only; run as for C309 |
| C317 | `P_MomentsFrame` | StatMoments | windows compared pixel by pixel; the valid pixels of a window that is centred outside the image are counted; sums are rearranged |
| C318 | `P_VcsFrame` | Psds | Parseval over the sky; sums and counts over a part of the field |
| C319 | `P_PcaFrame` | Pca | the order of the pixels does not matter (C304), so the blanks may come last; deviations from a mean sum to zero |
| C320 | `P_PdfArranged` | PDF on images with the same valid pixels in other places | the constructor filters before everything else, and permutations commute with filtering; sorting, counting and summing do not depend on the order; blank surroundings and orientations are permutations of the valid pixels |
| C321 | `P_GenusFrame` | Genus objects of an image and of the image in another place or orientation | a simulation between the two objects: regions are transported along the map of the pixels, the values are a permutation after blanks are dropped, so minima, maxima, percentiles, means and deviations agree; induction over the calls and over the steps between the images |
| C322 | `P_CramerFrame` | Cramer distance of cubes in larger blank fields | the brightest pixels of a channel do not depend on blanks, their number does: longer rows start with the shorter ones; rows of zeros add nothing to the distances of rows; refuted by two cubes that differ in a pixel that is kept only in the larger field |
| C323 | `P_Bootstrap` | bootstrapped uncertainties of pspec, with the drawn indices as an oracle | the range bounds the deviation of every resample (about the middle of the range); sums over all draws by induction on their length, then the concavity of the square root |
| C324 | `P_PspecFrame` | power spectra of images and cubes in larger blank fields | the Fourier kernel depends on the index through its frequency alone; the sums over the field are sums over the image; an offset is a rotation of the cosine and sine sums |
| C325 | `P_MvcFrame` | MVC spectra of maps in larger blank fields | the transforms as in P_PspecFrame; the filled zeros leave the sum of the squares but count in the mean; refuted by one bright pixel in a field of two |
| C326 | `P_SonicUnits` | units of the sonic length and its bounds | cases of the conversions; the power of the unit in the bounds of a sampled fit is not one for any exponent |
| C327 | `P_PdfPairsArranged` | Model/Pdf, Model/PdfDistance | blank pixels are filtered out before anything else, so the distances are those of the valid pixels; these are a permutation of one another, for which C244 has the distances; blank surroundings and orientations as permutations of the pixels |


## 3. Trusted base

* Coq 8.16.1's kernel.
* Axioms: only those of Coq's standard library, as printed by `Print
  Assumptions` beneath each theorem (see section 5).
* The reading of the Python source: each definition in `Model/` cites the
  lines it models.

## 4. Findings

Properties the code does not have.  Each is proved as a `_refuted` theorem about the
model (a witness, or a general statement); the note says what does hold.

* **C06** Hellinger distance of two density histograms stays within [0,1] and does not depend on the bin width: bin_width multiplies the distance instead of entering under the root, so it scales with sqrt(bin_width) and can exceed 1. The partial theorem gives the exact law. (`C06_hellinger_bin_width_refuted`)
* **C08** Kullback-Leibler divergence is non-negative and zero on equal distributions: Non-negativity and the zero case hold. fails part: blanks are removed from each argument separately, so bins are mispaired unless both are blank in the same bins. (`C08_kl_blanks_refuted`)
* **C11** Padding helpers only overwrite the padding: fails for a zero right pad width: vector[-0:] is the whole vector, so everything is overwritten. Holds for pad_width[1] >= 1. (`C11_pad_zero_right_refuted`)
* **C13** Azimuthal constraint selects a point-symmetric sector pair: Kept within delta/2 of theta_0: all shapes. Opposite sector and point symmetry: odd shapes away from the middle 2x2 block. fails for even shapes (mask[::-1,::-1] reflects about the wrong point) and next to the middle (the block [n-1:n+1] is not centred). (`C13_point_symmetric_even_refuted`, `C13_point_symmetric_middle_refuted`)
* **C15** VCS spectrum is the sum of the spectra of the individual lines of sight: Full formula without blanks; with blanks it needs a positive value on every non-blank line. fails otherwise: a line whose only values are negative, next to blanks, is not counted (max of the zero-filled line is 0). (`C15_vcs_count_refuted`)
* **C19** SCF with boundary='cut' compares only real pixel pairs at the requested lag: with boundary='cut' the data are shifted by the lag and then sliced by the lag again, so a pixel is compared with its periodic partner at twice the lag. C19_cut_partial gives the exact pairs compared for every whole lag. (`C19_cut_refuted`)
* **C25** The noise autocorrelation is the mean autocorrelation of the noisiest components: the sum is divided by float(n_eigs), which is negative, so the result is minus the mean. For positive n_eigs it is the mean. (`C25_refuted`)
* **C27** The 1/e width lies where the autocorrelation crosses 1/e: Width fully proved. fails part: the caller's vector is normalised in place. (`C27_input_refuted`)
* **C28** Beam-deconvolved spatial widths below the beam are blank or zero: sqrt((y-t)^2+(x-t)^2) grows again below the beam contribution t. Monotone at and above t. (`C28_refuted`)
* **C31** Lags and scales are validated before anything is stored: fails for lags and scales: the whole part of the lag is compared with half the side, so 32.9 is accepted for a 64 pixel map. Exact for radii and smoothing radii; rejected assignments keep the old value in all five, for every history. (`C31_lags_refuted`)
* **C35** Genus beam area is the area of the Gaussian beam: the product of the two full widths is divided by sqrt(8 ln 2) instead of 8 ln 2, so the minimum size is 2.35 times the beam area. (`C35_beam_area_refuted`)
* **C36** Local moments obey the laws of moments: fails for constant images (skewness 0, kurtosis -3, since 0/0 is ignored by nansum). Everything else is proved. (`C36_pearson_refuted`)
* **C37** Blank pixels do not influence moments: default weights are 1 at blanks, so that the mean is scaled by the valid share. Proved when blanks have blank weights; the bias of the mean is proved exactly. (`C37_blanks_refuted`)
* **C39** PDF is normalised and ECDF is a distribution function: fails for the last clause: the ECDF is evaluated at bin centres. All other clauses are proved. (`C39_ecdf_ends_at_1_refuted`)
* **C40** Recomputing the PDF gives the same PDF: the bin centres are stored as bins and used as edges next time. Proved for explicit bins. (`C40_again_refuted`)
* **C41** Moment-error strategies agree: Zeroth moment: equal wherever a channel is included; first and second along the spectral axis: equal everywhere for a finite noise level or a noise cube. fails at pixels without an included channel (NaN slice-wise, 0 cube-wise), along spatial axes for centroids given in units of the spectral axis (cube-wise raises ValueError; for the centroids of spectral-cube, in angular units, both raise, C285), and for the line width when spectral-cube proposes rays (ValueError). (`C41_moment0_refuted`, `C41_spatial_axis_refuted`, `C41_linewidth_ray_refuted`)
* **C45** Saving never changes the object and loading restores the results: fails for MVC, whose override keeps _data. Proved for every other statistic (base class). load_results needs the name with .pkl. (`C45_mvc_refuted`)
* **C46** Input dispatch: fails for (array, header) pairs, which are returned uncopied with need_copy. Everything else is proved. (`C46_copy_refuted`)
* **C48** Segmented model is continuous and its slopes are the reported slopes: Slopes proved. Continuity the right line passes through the left one at the nearest given point, not at the break; they meet if the break is one of the points. (`C48_continuous_refuted`)
* **C49** Fit-range clipping keeps exactly the requested interval: clip_func proved. fails for a plain number as limit, which raises TypeError. (`C49_number_refuted`)
* **C50** Residual bootstrap draws from all residuals: np.random.choice(size - 1) never draws the last residual. (`C50_last_refuted`)
* **C56** Generated fields have the requested size and amplitude: fails for odd sizes: the last axis has N-1 points. Even sizes and the root mean square (|amp|, amp nonzero, N at least 4) are proved. (`C56_size_refuted`)
* **C59** Velocity channels cover the requested range: Proved: equal channels, minimality, ValueError cases. fails for a range of at most one channel with return_hdu=True (IndexError). (`C59_single_channel_refuted`)
* **C61** Bispectrum sampling stays inside the transform: Proved for exactly the shapes with ny//2+nx//2 <= min(ny,nx)+1, in particular square images. fails for all other shapes, e.g. 32x64: some draws raise IndexError. (`C61_rectangle_refuted`)
* **C64** Tsallis fit clipping is on the standardised difference: clip_to_sigma masks on the log-histogram values y, not on x; a point beyond 1 sigma is used with sigma_clip=1, and the default sigma_clip=5 drops nothing for images below 10^5 pixels. Proved: exactly the points with finite |y| < s are used. (`C64_clip_refuted`, `C64_default_refuted`)
* **C65** Spectral downsampling decisions: fails for downsampling: widths below the channel width return the cube unchanged, downsamp_function is ignored. The rest is proved. UnitsError is counted as UnitConversionError; spectral-cube's smoothing, interpolation and downsampling are external. (`C65_small_width_refuted`, `C65_function_refuted`)
* **C66** Modified velocity centroids ignore blank pixels: blanks are replaced only where all three maps are blank; a pixel blank in the centroid or moment 0 map alone blanks the whole spectrum. The exact rule is proved. (`C66_one_blank_refuted`)
* **C67** Multivariate ECDF rows are distribution functions: fails for rows padded with blanks (np.sum instead of np.nansum): the whole row is blank, as in every comparison whose numbers of bins differ. (`C67_padded_refuted`, `C67_comparison_refuted`)
* **C69** Brightest-pixel matrix: Rows proved. channels without signal are kept as rows of zeros; only a cube of maximum zero gives no rows. (`C69_dropped_refuted`)
* **C71** Slope distances: fails when both errors are zero (distance of a slope from itself is NaN); all other cases proved. (`C71_refuted`)
* **C73** Synthetic headers put the reference pixel at the centre of the right axis: CRPIX1 is taken from the first image axis. Holds for square images. (`C73_axes_refuted`)
* **C74** Dendrogram histogram and comparison cut-offs: make_hists drops the bins keyword after the first histogram, and the comparison fails when only the first min_delta qualifies. The comparison's own histograms do use the requested number of bins. (`C74_bins_refuted`, `C74_cutoff_refuted`)
* **C75** Reusing precomputed statistics in a distance: fails for DeltaVariance_Distance (mixed inputs raise; use_common_lags=False always raises UnboundLocalError) and SCF_Distance (object then cube raises AttributeError; cube then object with another number of lags compares different lags). The combinations that work are proved. Other Distance classes are not covered here. (`C75_deltavar_refuted`, `C75_no_common_lags_refuted`, `C75_scf_refuted`, `C75_scf_lags_refuted`)
* **C76** Azimuthal limits refer to the direction of the frequencies: the mask uses unflipped pixel offsets on row-flipped spectra, so the y axis is mirrored. The partial theorem gives the exact relation for odd shapes. (`C76_mask_angle_refuted`)
* **C78** PCA_Distance(n_eigs=-1) compares all components: slice(0, -1) drops the last eigenvalue. (`C78_refuted`)
* **C79** Precomputed PCA objects give the same distance as the cubes: fails at n_eigs = number of channels (ValueError, after n_eigs of the object was overwritten); equal for fewer components. (`C79_refuted`)
* **C80** Spatial analysis works for any number of components: a single eigenimage is two-dimensional and is iterated by rows, so n_eigs=1 always raises IndexError. Holds for two or more. (`C80_refuted`)
* **C82** Blank pixels do not bias the covariance matrix: blanks of the later channel are replaced by eps and counted. Holds for a channel without blanks against an earlier one. (`C82_refuted`)
* **C83** The autocorrelation does not depend on the position of the structure: subtracting the mean of the Fourier transform zeroes the first pixel of the image. Exact formula proved in C26_images. (`C83_refuted`)
* **C85** The spectra data format picks the brightest spectra: flat indices are divided by the number of rows instead of the row length; right for square maps. np.argpartition's choice is an oracle. (`C85_refuted`)
* **C86** Blank pixels do not bias the delta variance whatever their weight: blanks enter the convolution as zeros with full weight. Holds when the weights vanish on the blanks. (`C86_refuted`)
* **C87** The default common lags suit both maps: fails for different pixel sizes: the lags are scaled up past half the map, and the default fit ranges always differ so the curve distance is NaN. Holds on a common grid. (`C87_refuted`, `C87_blank_refuted`)
* **C88** Computed delta variances are recomputed at the common lags: run() is called without setting the lags, so the object keeps its own. (`C88_refuted`)
* **C89** GaussianAnnulus2D is centred where its parameters say: x_mean and y_mean are not used. (`C89_refuted`)
* **C90** Lags mean the same in any unit: fails for lags assigned to a DeltaVariance object: compute_deltavar uses lags.value whatever the unit. Holds for its constructor, for Wavelet and for Tsallis. (`C90_deltavar_refuted`)
* **C91** The segmented model is a function of the point: the offset uses the given point nearest to the break. (`C91_refuted`)
* **C92** A dropped break leaves a straight line: fails beyond the highest point: the break is used as change of slope. (`C92_refuted`)
* **C93** The error of the break does not depend on the units of y: the division by the slope change is missing, and the covariance has the wrong sign. (`C93_refuted`)
* **C94** The start of the break lies in the data: fails when x has a blank (comparisons with NaN are false). (`C94_refuted`)
* **C95** Blank points are dropped with their weights: the weights keep their length, so the solver raises ValueError. (`C95_refuted`)
* **C96** Every accepted start of the break can be fitted: fails for a start (or iterate) at the lowest point: IndexError. No other error occurs. (`C96_refuted`)
* **C97** Residual bootstrap resamples around the fit: residuals are added to the data. (`C97_refuted`)
* **C98** Break, break error and slopes of an object belong to the last fit: Slopes and break are consistent after any history. fails for the break error, which is stale or missing when a break was dropped. (`C98_stale_refuted`, `C98_missing_refuted`)
* **C99** Reported errors are errors of the reported values: fails for second slope (bootstrap and analytic) and break (bootstrap). (`C99_slope_refuted`, `C99_break_refuted`, `C99_analytic_refuted`)
* **C100** A fitted break is a scale in pixels: fails for Wavelet (unit 1/pix). Holds for DeltaVariance. (`C100_refuted`)
* **C101** The break search of VCS: fails when two or more starts fail, and with log_break=False. (`C101_refuted`)
* **C102** VCS distance: Symmetric. nansum drops a NaN distance. (`C102_refuted`)
* **C103** Genus distance: fails for different pixel sizes (a length ratio is used for areas, and on one map only). Holds on a common grid; the spline is an oracle. (`C103_symmetric_refuted`, `C103_area_refuted`)
* **C106** Errors of the 2D fit belong to the returned fit: both fits use the same fitter, so the errors are those of the second fit, or NaN when the second fit is kept. (`C106_errors_refuted`)
* **C107** 2D fit with fixed ellipticity: IndexError without bootstrap, NaN ellipticity error with it. (`C107_fixed_refuted`)
* **C109** Random phases have unit amplitude: sum(phases**2) is not the sum of squared moduli; all powers are too large by the same factor. (`C109_unit_refuted`)
* **C113** Residual bootstrap of the 2D fit: the residuals are added to the data instead of the model. (`C113_bootstrap_refuted`)
* **C114** Tapers vanish at the edge of the image: fails when the taper is narrower than a pixel; proved otherwise. (`C114_edge_refuted`)
* **C115** Fourier map of the generated cube: the half map of np.fft.rfftn is returned, unshifted. Hermitian symmetry is proved. (`C115_fft_refuted`)
* **C118** Genus thresholds: a percentile is ignored as soon as the matching value is given. The spacing, end points and precedence of explicit thresholds are proved. (`C118_percentile_overrides_refuted`)
* **C119** Genus_Distance uses numpts: numpts is accepted but not handed on, 100 thresholds are always used. (`C119_distance_numpts_refuted`)
* **C120** One genus table per smoothed image: every table is appended twice. (`C120_one_table_per_image_refuted`)
* **C121** Smoothing radii: fails part: the default is a single radius of one pixel. The acceptance rule is proved in full. (`C121_default_radii_refuted`)
* **C122** Regions are counted with eight-connectivity: the regions are counted with the connectivity given, so connectivity=1 splits diagonal neighbours. (`C122_counted_with_eight_connectivity_refuted`)
* **C124** min_frac counts the pixels of the circular region: the share is taken over the bounding square. Proved for blank-free squares; the exact rule is C38_window. (`C124_circular_share_refuted`)
* **C125** run uses min_frac: run does not hand on min_frac; 0.8 is always used. (`C125_run_min_frac_refuted`)
* **C126** Moment radius: the radius is rounded up (np.ceil). The acceptance rule is proved. (`C126_rounded_down_refuted`)
* **C129** Pre-computed StatMoments: fails for image1 with another radius and nbins=None: nbins becomes None and np.histogram raises. Exact condition proved. (`C129_precomputed_refuted`)
* **C134** Fixed parameters of the PDF fit: fails when both are fixed: UnboundLocalError. Proved for at most one fixed parameter at the starting point. (`C134_fit_refuted`)
* **C136** Moments without units: always AttributeError (_moment2); the line width keeps its units. (`C136_units_false_refuted`, `C136_units_false_state_refuted`)
* **C137** Noise level given to make_moment_errors: the given noise level is never used; without a level of the object no errors are set. Proved for the level of the object and for none. (`C137_given_scale_refuted`)
* **C138** Units in the headers of the moment maps: fails for the zeroth moment (header has the cube unit only). (`C138_header_units_refuted`)
* **C139** Accepted moment methods work: 'ray' is accepted, the errors raise ValueError. (`C139_ray_refuted`)
* **C140** Saved moments can be loaded again: Proved for .fits files, the directory being passed as moments_path. fails for a directory not passed again, for other extensions and for any mask (AttributeError). (`C140_directory_refuted`, `C140_extension_refuted`, `C140_mask_refuted`)
* **C145** Every cell emits: Proved: which cells count and what they add. cells exactly on a channel edge are dropped, so a uniform velocity field with the default channels gives an all-zero cube. (`C145_uniform_refuted`)
* **C146** Units of the velocity limits: Proved for one common unit. fails for mixed units: only .value of the upper limit and of the width is used. (`C146_limit_unit_refuted`, `C146_width_unit_refuted`)
* **C147** Negative line-of-sight axes: Proved for -3. fails for -1 and -2, which act as axes 1 and 0 on cubic fields and raise IndexError on others. (`C147_last_axis_refuted`, `C147_minus1_refuted`, `C147_minus2_refuted`, `C147_noncubic_refuted`)
* **C148** Reference pixel of synthetic headers: Proved for square images. CRPIX1 and CRPIX2 are swapped. (`C148_off_image_refuted`)
* **C153** Shifted images have the same bispectrum: Proved for cells whose truncated wave vectors satisfy k3=k1+k2. k3 is truncated after the sum, so the sampled triangles are not closed and the bicoherence of a shifted point source changes. (`C153_shift_refuted`)
* **C155** Tracker counts samples: Proved: per cell and wave vector each position is counted at most once. fails for two or more samples per cell: arr[idx] += 1 ignores repetitions. (`C155_total_refuted`)
* **C156** Slices through the bispectrum: Proved: averages over the selected pixels for the edges actually used. linspace(0, pi, floor(pi/bin_width)) gives bins wider than bin_width and those beyond 90 degrees are always blank. (`C156_azimuthal_refuted`)
* **C157** Bispectrum distance: Proved for surfaces without blanks. fails with mean_subtract=True: the cell (0,0) has no power and both distances are NaN (in exact arithmetic; rounding may leave a tiny power there). (`C157_mean_subtract_refuted`)
* **C160** Tsallis statistics ignore brightness scale and offset: Proved with periodic=True, and away from the border otherwise. fails for periodic=False: the image is padded with zeros, so an offset changes the pixels near the border. (`C160_border_refuted`)
* **C162** Tsallis parameters: Identifiability proved. log10 of the amplitude is -logA/(q-1), not logA. (`C162_amplitude_refuted`)
* **C163** Reduced chi-square of the Tsallis fit: Proved: non-negative, and zero exactly when the model meets all used points. exp is applied to log10 values and the sum is not divided by the degrees of freedom. (`C163_reduced_refuted`)
* **C164** Accepted min_deltas: a list becomes a 1 x n array (one threshold), a single number raises ValueError. (`C164_list_refuted`, `C164_number_refuted`)
* **C165** Automatic min_deltas: fails when min_value is not given: no thresholds can be made. (`C165_no_min_value_refuted`)
* **C166** Feature counts by pruning: fails for a second run on the same object, which run prunes in place. (`C166_same_object_refuted`)
* **C167** Thresholds used by a dendrogram comparison: the last qualifying threshold is left out; those used do qualify. (`C167_used_refuted`)
* **C168** Repeating the histogram distance: nbins was overwritten by an array, the second call raises. (`C168_again_refuted`)
* **C170** Common thresholds of a dendrogram comparison: a precomputed object is run again with its own thresholds; different lengths raise AttributeError. (`C170_object_refuted`, `C170_length_refuted`)
* **C171** Keyword dictionaries of a dendrogram comparison: dendro2_kwargs with make_hists or verbose raises TypeError, and the entries are removed from the caller's dictionary. (`C171_second_refuted`)
* **C172** Break and tail of the feature counts: windows have size-1 values and even sizes raise IndexError. The break, number and kind of the fitted points hold for the windows used. (`C172_window_refuted`, `C172_even_refuted`)
* **C173** Documented MVC spectrum: moduli are subtracted before squaring, and the mean includes the squared centroid. The computed value is proved. (`C173_documented_refuted`)
* **C174** Units of the MVC maps: fails for velocities: one term scales with v, the other with v^2. Proved for intensities. (`C174_velocity_unit_refuted`)
* **C176** Apodized MVC spectrum: fails (operator precedence): the squared centroid in the mean dispersion is tapered, the squared linewidth is not. (`C176_apodized_refuted`)
* **C177** Error weighting in MVC_Distance: fails for velocity errors and zero errors; proved for constant moment 0 errors. (`C177_constant_errors_refuted`, `C177_zero_error_refuted`)
* **C181** Uncertainty of wavelet values: fails for 2 x 2 pixel images; proved for sides of at least 3 pixels. (`C181_small_image_refuted`)
* **C184** Default wavelet scales: fails for a single row or column; below 4 pixels the scales decrease. (`C184_single_row_refuted`)
* **C186** Points around a break: only the points below the break are counted (the docstring promises both). (`C186_points_above_refuted`)
* **C187** Number of scales in Wavelet_Distance: num is never passed on. (`C187_num_refuted`)
* **C189** New spectral axis: fails above half of the spectral range: one channel at the low end, or none. Proved otherwise. (`C189_wide_channels_refuted`)
* **C190** Unit of the channel width: fails for downsampling: the quotient of units is dropped. Proved for regridding. (`C190_downsample_units_refuted`)
* **C191** The caller's cube: allow_huge_operations of the caller's cube is overwritten. (`C191_flag_refuted`)
* **C192** Flux of a downsampled cube: fails when the factor does not divide the number of channels (the last block is averaged over fewer channels). downsample_axis of spectral-cube is modelled from its documentation. (`C192_flux_refuted`)
* **C194** Autocorrelation spectra: subtracting the mean of the transform removes the first channel of the eigenvector. Proved for the vector without its first channel. (`C194_refuted`)
* **C195** Spectral widths: fails for one component, which always raises ValueError. Proved from two components on (with the first channel dropped). (`C195_refuted`)
* **C196** Negative numbers of autocorrelation spectra: UnboundLocalError for every negative number. Proved: positive numbers give the leading spectra. (`C196_refuted`)
* **C198** Refused fits: a refused call still changes the fit method and limits, so sonic_length raises AttributeError or mixes methods. Index, intercept and samples are proved to be those of the last successful call in every history. (`C198_refuted`)
* **C200** Range of the sonic length (ODR): bounds are swapped for a negative index, and the intercept error is divided by the intercept twice, which brings in the channel width. Proved: the range contains the value for a positive index. (`C200_order_refuted`, `C200_channels_refuted`)
* **C201** Range of the sonic length (MCMC): the slopes of the samples are never used. Proved: right when all samples share the fitted slope; bounds in order. (`C201_refuted`, `C201_blind_refuted`)
* **C202** Corrected index: fails for indices below -10/9, and the conversion is off by about 0.24 from the relations quoted. Proved: contained above -10/9. (`C202_refuted`, `C202_relation_refuted`)
* **C204** Model of the size-line width relation: the logarithm of a bound method is taken, TypeError for every x. (`C204_refuted`)
* **C206** Recovery of an ellipse: an ellipse with axes along the diagonals (equal coefficients of x^2 and y^2, non-zero xy) is returned with the wrong angle, because of the sign of the infinity in arctan(2b/(a-c)). Proved for all others, for points that determine the ellipse and an eigenvalue solver that returns a basis of eigenvectors. (`C206_refuted`)
* **C210** Major axis of the fitted ellipse: the order of the axes depends on the sign of the eigenvector, which no solver guarantees. Proved: rescaling the eigenvectors at most swaps the axes, so the combined width is unaffected. (`C210_refuted`)
* **C212** Residual bootstrap of the ellipse: the Dirichlet weights add up to 1, not their squares, so each displacement is shorter than the residual (by up to a factor 1/sqrt 2) unless a weight is 0. Proved: the bounds, and zero errors for points on an ellipse. (`C212_refuted`)
* **C213** Invalid alpha: fit_2D_ellipse catches the ValueError and all widths become NaN. Proved: estimate_stderrs raises. (`C213_refuted`)
* **C214** Eigenimages: two or more eigenimages are stacked along the last axis and the first and last axes are swapped, so each image is transposed (a single image is not). Holds up to that swap. (`C214_refuted`)
* **C217** Arguments left unchanged: PowerSpectrum sets the blank pixels of the caller's weights array to zero in place (pspec.py:56), also when it then raises IndexError because the weights have another shape. Proved: no other array is written by PowerSpectrum, the weights are unchanged if they have no blanks, and the other thirteen statistics change nothing. (`C217_refuted`)
* **C218** Blank pixels of the input: fails for MVC: only pixels blank in all three maps are zeroed, so a pixel blank in the centroid alone stays NaN and the whole spectrum becomes NaN (mvc.py:83-94). Proved for all other statistics, and the exact rule of MVC. (`C218_mvc_refuted`)
* **C221** Header of Genus: a Projection or Slice is an ndarray, so Genus takes it without its header (genus.py:80-83); smoothing radii in angular units are then refused. Holds for HDUs, cubes and (data, header) pairs. (`C221_refuted`)
* **C223** SCF spectrum: the lag axis is the pixel distance in the surface times the spacing of the first two lags. For lags -4, -1, 0, 1, 4 the four points at lag 1 are reported at a lag above 2 (skewed_refuted), and for lags 0, 1, 2 the zero lag is averaged in at a lag above 1 (one_sided_refuted). Proved for lags in equal steps around zero, any step, number of lags, number of bins and azimuthal limits (uniform_partial). Missing: min_bin and max_bin given. (`C223_skewed_refuted`, `C223_one_sided_refuted`)
* **C224** Repeated runs of SCF: the azimuthal mask of an earlier spectrum stays and is used by the 2D fit when use_azimmask is set and no theta_0 is given (stale_mask_refuted); theta_0=None written out raises ValueError, as compute_spectrum unpacks four values of three (theta_none_refuted). Proved: in all other cases the surface, spectrum, fit, 2D fit and exception are the same whatever the object held (run_again_partial). (`C224_stale_mask_refuted`, `C224_theta_none_refuted`)
* **C226** Limits of the 2D SCF fit: the distances are multiplied by the spacing of the lags of the 1D spectrum, i.e. the bin width, instead of the spacing of the lags. With five lags and limits 0.9 to 2 the lag 1 is left out and the lag sqrt 8 used (limits_refuted). Proved: the exact rule for an odd number of evenly spaced lags and default bins; the factor lies strictly between 0 and 1 (rule_partial). Missing: an even number of lags. (`C226_limits_refuted`)
* **C227** Angle of the 2D fits: fails for maps that are not square (the mask uses pixels, the fit frequencies) and for even sizes (one row apart). Proved for odd square maps, for the power spectra and the SCF. (`C227_rectangle_refuted`, `C227_even_refuted`)
* **C232** Repeated runs of a power spectrum: compute_radial_pspec keeps the azimuthal mask of an earlier call, which fit_2Dpspec with use_azimmask=True then applies to a spectrum without azimuthal limits; theta_0=None written out raises ValueError because three values are unpacked into four. What holds: all other results of a run are independent of the history of the object (the error of the break after a rejected break is C98). (`C232_stale_mask_refuted`, `C232_theta_none_refuted`)
* **C236** Options of run reach their step: fails for three options: fit_unbinned inside fit_kwargs is deleted from the caller's dictionary and ignored (PowerSpectrum, VCA) or raises TypeError (MVC); limits inside fit_2D_kwargs raise TypeError; threads never reaches pyfftw. All other options reach their step. (`C236_unbinned_refuted`, `C236_mvc_unbinned_refuted`, `C236_2D_limits_refuted`, `C236_threads_refuted`)
* **C237** Options of the spectral distances: a break given as one Quantity raises TypeError in all constructors; PSpec_Distance passes pspec_kwargs to run itself, so radial options in it raise TypeError; VCA_Distance uses the first dictionary for both cubes. Proved otherwise. (`C237_scalar_break_refuted`, `C237_pspec_radial_refuted`, `C237_vca_second_refuted`)
* **C238** Precomputed objects in distances: fails for the channel width, which is not compared. (`C238_width_refuted`)
* **C239** Options of VCS: breaks inside fit_kwargs of VCS_Distance raises TypeError, since breaks is always given too; misspelt options are accepted and ignored. All fit options reach the fit. (`C239_breaks_twice_refuted`, `C239_misspelt_refuted`)
* **C240** Points of the VCS fit: fails for the highest frequency, index n // 2, which is never fitted. All others within the limits are, and no more. The spline itself is not modelled. (`C240_highest_refuted`)
* **C241** What the Cramer distance of cubes depends on: with different numbers of pixels the rows of the larger cube are drawn one after the other by one stream of random numbers, so the order of its channels changes the distance (C241_channel_order_refuted). Proved: channel order for equal numbers of pixels and for the cube with fewer pixels, and all the rest of the claim. The norm and the draws are abstract. (`C241_channel_order_refuted`)
* **C242** Cramer distance without normalisation: _format_data never passes normalize to intensity_data, which always divides by the maximum of the cube, so a cube and a brighter copy are at distance 0 (C242_brighter_copy_refuted). (`C242_ranges_refuted`, `C242_brighter_copy_refuted`)
* **C243** Cramer distance of cubes of different sizes: fails for the random state: np.random.seed(13024) replaces the global random state of the caller whenever the sizes differ (C243_random_state_refuted). Sampling and reproducibility are proved. (`C243_random_state_refuted`)
* **C245** Units of the images in the PDF distances: fails for the standardisation announced in distance_metric: with the default normalization_type=None nothing is standardised and a much brighter copy of an image is at KS distance 1 (C245_standardized_refuted). Independence of units is proved. (`C245_standardized_refuted`)
* **C246** Choice of the PDF distance: fails for strings built at run time: the names are compared with 'is', so an equal string that is another object raises TypeError (C246_built_refuted). Proved for the interned literals. (`C246_built_refuted`)
* **C247** Number of bins of the PDF distances: nbins is the number of edges, so the PDFs have k - 1 bins (C247_bins_refuted). (`C247_bins_refuted`)
* **C248** Changing the lags of an SCF object: the size of the surface is fixed when the object is made. With fewer lags the new surface keeps the old size and is zero where there is no lag; with more lags compute_surface raises IndexError. Proved for as many lags as before. (`C248_fewer_refuted`, `C248_more_refuted`)
* **C249** Names given as strings: the names are compared with 'is'. A run-time string equal to 'cut' or 'continuous' passes the first test and then raises UnboundLocalError, so does an element of an array given to SCF_Distance; a run-time data_format raises NameError. Proved for literals and for unknown names. (`C249_boundary_refuted`, `C249_array_refuted`, `C249_format_refuted`)
* **C251** SCF objects in the distance: objects on one grid that have not been run fail with ValueError unless they have as many lags as the size argument; an object first and a cube second on one grid raises AttributeError; objects on different grids with another number of lags than the size argument are compared at different angles; a recomputed object keeps its old fits. Proved: objects that have been run on one grid give the distance of their cubes; with the asked number of lags different grids end with common angles. The same object given twice is not modelled. (`C251_unrun_refuted`, `C251_object_first_refuted`, `C251_other_grid_refuted`, `C251_stale_fit_refuted`)
* **C252** One decomposition through any history of a PCA object: compute_pca stores cov_matrix before it checks n_eigs, so a refused call (e.g. n_eigs=0) leaves the covariance matrix of the refused call beside the eigenvalues of the old one (C252_covariance_refuted); the setter of n_eigs, which PCA_Distance uses, leaves var_proportion at the old number of components (C252_proportion_refuted). Proved for every history: eigenvalues, eigenvectors, mean subtraction and total variance are of one decomposition, n_eigs >= 1 and the proportion is that of some number of components up to the number of channels (C252_one_decomposition_partial); every successful compute_pca leaves a consistent set and every refused one keeps it (C252_computed). (`C252_covariance_refuted`, `C252_proportion_refuted`)
* **C253** What a run of PCA leaves: a full run with one component always raises (eigimages returns a 2D array then), after the decomposition and with the widths and fit of an earlier run left (C253_single_refuted); run(decomp_only=True) replaces the decomposition and leaves the widths and the index of the earlier one (C253_stale_refuted). Proved: run's outcome and results do not depend on the history (C253_fresh); a successful full run has at least two components, as many widths as components, and the fit of exactly these widths (C253_widths). (`C253_single_refuted`, `C253_stale_refuted`)
* **C255** PCA objects in the distance: for objects whose eigenvalues were computed with another mean subtraction, mean_sub only chooses which eigenvalues are compared, so two cubes at distance sqrt(1/2) have objects at distance 0 (C255_mean_sub_refuted); n_eigs of the object is set before the check and stays when the call is refused, after which its widths cannot be found (C255_changed_refuted). Proved for objects decomposed with the same mean subtraction and fewer components than channels (C255_matching_partial). (`C255_mean_sub_refuted`, `C255_changed_refuted`)
* **C256** A DeltaVariance object through any history: setting lags keeps the curve of the old lags, and a fit pairs it with the new ones (C256_lags_refuted) or, for another number of lags, is refused after its range was recorded (C256_number_refuted); an unknown boundary is refused after the curve was replaced by uninitialised memory (C256_boundary_refuted); a break outside the limits is refused after the new fit_range was recorded beside the old slope (C256_range_refuted). Proved: a run does not depend on the history (C256_run); as long as lags are not set again and boundaries are known, the curve is that of the lags (C256_curve_partial). brk_err is the exception in C256_run when there is no break (C98). (`C256_lags_refuted`, `C256_number_refuted`, `C256_boundary_refuted`, `C256_range_refuted`)
* **C257** Kept convolved arrays of the delta variance: both properties read an attribute that no method sets, so they raise AttributeError after every history (C257_arrays_refuted). The private list has one array per lag after one call, but a second call appends to it (C257_kept_partial). (`C257_arrays_refuted`)
* **C258** Common lags have the same angular sizes: lags given as angles are multiplied by the ratio of the pixel sizes too, so the map with the smaller pixels is used at larger angles (C258_angles_refuted); a list of lags raises TypeError if the second map has the smaller pixels and is accepted if the first has (C258_list_refuted); limits in pixels select different angles of the two maps, so two maps with the same curve have a positive distance or ValueError (C258_limits_refuted). Proved for lags in pixels and the default lags (C258_pixels, C258_default); which values are compared, for positive curves (C258_limits_partial). With default limits on different grids the curve distance is blank (C87). (`C258_angles_refuted`, `C258_list_refuted`, `C258_limits_refuted`)
* **C259** Options of DeltaVariance.run and Wavelet.run reach their steps: Wavelet.run takes any name and does nothing with it (C259_swallowed_refuted); fit_kwargs of both takes any name, and no fit uses it when there is no break (C259_fit_option_refuted); with a break the covariance type is HC3 whatever fit_kwargs says (C259_cov_type_refuted); the segmented fit of Wavelet is verbose although verbose=False (C259_quiet_refuted); options of convolve_fft that Wavelet sets itself raise TypeError in convolve_kwargs (C259_convolve_refuted); threads and pyfftw_kwargs change nothing in the convolutions (C259_threads_refuted). Proved: all other options reach transform and fit (C259_reach_partial), documented calls are accepted and change no dictionary (C259_accepted_partial), the segmented fit is made exactly when a break is given, with its options (C259_break_partial), DeltaVariance.run refuses unknown names (C259_misspelt_partial). Errors that depend on the data are in C256-C258. (`C259_swallowed_refuted`, `C259_fit_option_refuted`, `C259_cov_type_refuted`, `C259_quiet_refuted`, `C259_convolve_refuted`, `C259_threads_refuted`)
* **C260** Options of DeltaVariance_Distance and Wavelet_Distance reach the data set they are for: a second object that has the common lags but no fit is run with delvar_kwargs instead of delvar2_kwargs (C260_second_refuted); an object and data cannot be mixed (C260_mixed_refuted); use_common_lags=False always raises UnboundLocalError (C260_own_lags_refuted). Proved otherwise, for both distances (C260_delta_partial, C260_wavelet_partial), with documented options accepted; limits given twice raise TypeError (C260_wavelet_limits_partial). (`C260_second_refuted`, `C260_mixed_refuted`, `C260_own_lags_refuted`)
* **C261** Error ranges of the size-line width fit: the sampler of bayes_linear has no probability outside angles of 0 to 90 degrees, so index and its range are never negative (C261_decreasing_refuted). The ranges themselves are proved (C261_odr, C261_bayes); what scipy.odr and emcee find is not modelled. (`C261_decreasing_refuted`)
* **C262** Weights of DeltaVariance and StatMoments: StatMoments takes weights of another size (C262_moments_size_refuted), which fail only when moments are computed. Proved otherwise. The size of an array stands for its shape. (`C262_moments_size_refuted`)
* **C263** Lags an SCF object is made with: of an even number of lags the last one is dropped, and the Warning is only constructed, never issued (scf.py:73-76; the same for an even size, as documented), so lags symmetric about zero become asymmetric; a list of lags raises AttributeError (roll_lags.size) before the TypeError meant for it is reached. Proved: the lags by size, and odd numbers of lags as arrays, Quantities and angles. (`C263_even_refuted`, `C263_list_refuted`)
* **C264** An SCF surface that cannot be computed: compute_surface assigns an array of zeros to the object before the loop (scf.py:168); when the loop raises (lags beyond the image with boundary='cut', or more lags than size) the surface stays behind and compute_spectrum takes it for computed. Proved: the loop as a whole equals the surface at all lags, it raises exactly when that is not defined, and a wrong boundary name leaves the object alone. (`C264_left_refuted`)
* **C265** A Dendrogram_Stats object through any history: a run that raises in fit_numfeat (too few points) leaves the tail slope and fitted points of the run before beside its own numbers of features, and the distance goes on using them; thresholds set after compute_dendro are paired with the old numbers if there are as many (IndexError else); make_hists=False keeps old histograms. Proved: runs that raise nothing are independent of the history. (`C265_failed_refuted`, `C265_thresholds_refuted`, `C265_hists_refuted`)
* **C267** A power spectrum that is a broken power law: Lm_Seg moves the break by twice the step (h_step is 2), which on an exact broken line mirrors it at the true break at every turn, so the fit returns the start or its mirror image B*B/B0 and never B itself (C267_break_refuted). Proved: the two slopes and the amplitude are right for binned (weighted or not) and unbinned fits when start and mirror image lie in the gap of the break, with statsmodels as any least squares solver (one is built and proved), and breaks given as log10 mean the same. Missing: starts in another gap. (`C267_break_refuted`)
* **C268** A delta variance that is a broken power law: as C267, the break returned is the start or its mirror image (C268_break_refuted). Proved: the slopes of a run without limits when the start and its mirror image lie in the gap of the break and three lags lie below. Missing: xlow and xhigh, starts in another gap. (`C268_break_refuted`)
* **C269** A Bispectrum object through any history: the bicoherence is set to zeros before the sampling loop, so a run that raises IndexError (rectangular images, C61) leaves a bicoherence of zeros beside the log amplitudes of the run before (C269_failed_refuted). Proved: a run that succeeds gives the sums over its own draws and forgets every earlier run. numpy's generator is an arbitrary function of seed, nsamples and the number of the cell. (`C269_failed_refuted`)
* **C270** Bispectrum distances of data and objects: an object whose run raised has a _bicoherence of zeros and is used without a word (C270_failed_refuted). Proved: the distances are the norm and the difference of means for finite surfaces, data and objects run with the same options give the same. (`C270_failed_refuted`)
* **C271** Bispectrum slices for several radii or angles: a list with one width for each radius is turned into a 2D array and refused (or taken as one width per column); the widths of a single radius are dropped after the first; a radius asked for twice keeps the later slice only; angles without a unit raise AttributeError instead of TypeError. Proved: slices of several radii or angles are those of each alone, in any angular unit, and wrong lengths and units are refused. Missing: slices of the complex bispectrum, return_masks. (`C271_list_refuted`, `C271_first_refuted`, `C271_twice_refuted`, `C271_plain_refuted`)
* **C272** Genus curves belong to the radii and data of the object through any history: smoothed_images of an earlier run stay when a later run keeps none, the curves stay when new radii are set (C272_images_refuted, C272_radii_refuted), and a run that raises leaves uninitialised memory as genus_stats and means (C272_failed_refuted). Proved: results after every run that returns (C272_curves_partial) and independence of the history (C272_history_partial). (`C272_images_refuted`, `C272_radii_refuted`, `C272_failed_refuted`)
* **C273** The genus distance compares the shapes of two images under the options given: the two Genus objects get no header, so angular radii, beams and areas always raise (C273_header_refuted); a list of radii, the documented type, is refused (C273_list_refuted); only the first radius counts (C273_radii_refuted). numpts is C119. Proved: the other sentences. Images without units; the spline and the convolution are arguments. (`C273_header_refuted`, `C273_list_refuted`, `C273_radii_refuted`)
* **C274** StatMoments objects through any history: compute_spatial_distrib allocates the maps with np.empty before it looks at the radius, so a refused radius leaves arbitrary memory as maps (C274_failed_refuted); new maps leave the histograms of the old ones in place (C274_stale_refuted); run does not hand its min_frac on (C274_run_partial, see C125). What holds is proved for all histories. (`C274_failed_refuted`, `C274_stale_refuted`)
* **C275** The moment distance of two images: an image without a valid region is at distance 0 from any image, and NaN in the other order (C275_order_refuted, C275_zero_refuted); an object whose maps were made with other boundaries, another share or a radius less than a pixel off is used as it is (C275_options_refuted). The bound of the Hellinger distance is the square root of the bin width, not one, because its bin width factor stands outside the root. Infinite moments do not occur: the hypotheses ask for pixels that are numbers or blank and for positive weights. (`C275_order_refuted`, `C275_zero_refuted`, `C275_options_refuted`)
* **C276** Wavelet objects through any history of calls: new scales leave the values of the old ones, and a fit then gives a slope of neither (C276_scales_refuted) or raises IndexError (C276_number_refuted); a refused break leaves the new range beside the old fit (C276_range_refuted); limits that leave a single scale raise after the break was set to None, beside the old slopes (C276_single_refuted). What a run gives is proved for all histories. (`C276_scales_refuted`, `C276_number_refuted`, `C276_range_refuted`, `C276_single_refuted`)
* **C277** The slope of the wavelet transform: the break of an exact broken power law is not found, a fit started beside it returns the start or its mirror image (C277_break_refuted, as in C267 and C268); its two slopes are found (C277_broken_partial, whose case is an object with given values). Everything else is proved for fits without a break. A distance of an image to itself is 0/0 = NaN when the errors of both slopes are zero. (`C277_break_refuted`)
* **C278** VCS objects through any history of calls: a fit that raises after the search over the breaks of the spline (none of two or more breaks good) has already replaced the fit and the limits, so brk, low_cut and high_cut are of another fit than slope (C278_failed_refuted; slopes and spectrum are kept: C278_failed_partial); with log_break=False and no breaks the breaks of the spline, which are logarithms already and negative, are logged once more, so every fit raises (C278_unlogged_refuted). Proved in full: what a fit that returns shows, after any history (C278_fit), and that a run forgets the history (C278_history). The spline (its knots), statsmodels and the bootstrap are arbitrary functions. (`C278_failed_refuted`, `C278_unlogged_refuted`)
* **C279** The VCS of a cube whose spectrum is an exact power law: the break of an exact broken power law is not found, the search ends at the start or at its mirror image (C279_break_refuted), and a plain power law is refused with ValueError when the spline has two breaks or more, although the code says it continues without a break (C279_search_refuted). Proved: the slopes of the broken law, and the slope of the plain one with a given break (in exact arithmetic, where the step of the break is 0/0 and the break is dropped). (`C279_break_refuted`, `C279_search_refuted`)
* **C280** Robust errors of segmented fits: fit_kwargs reach only the first straight fit of Lm_Seg.fit_model, of which only the residuals are used; the fits that give the errors are made by fit(), so the errors are the nonrobust ones whatever is asked. (`C280_robust_refuted`)
* **C281** What a Tsallis object holds after any calls: new lags do not clear the parameters, so the table shows the old fits beside the new lags (C281_stale_refuted); fit_tsallis after more lags were assigned returns with rows of uninitialised memory (C281_memory_refuted); a fit that raises at the first lag leaves a table of uninitialised memory in place of the earlier one (C281_failed_refuted). Proved: what a run leaves after any history (C281_run, C281_history, C281_lags, C281_fewer), and that without new lags and without exceptions every table belongs to the lags (C281_tables_partial). (`C281_stale_refuted`, `C281_memory_refuted`, `C281_failed_refuted`)
* **C282** PDF objects through any history of calls: make_pdf with new bins leaves the ECDF at the old bins (C282_ecdf_refuted), and refused bins are stored all the same, so that the bins no longer belong to the PDF and later calls without bins raise (C282_refused_refuted). Proved: percentiles after any history (C282_percentile), runs leave PDF, bins and ECDF that belong together (C282_run), and with given bins the past does not matter (C282_history). (`C282_ecdf_refuted`, `C282_refused_refuted`)
* **C283** The model that a fit of a PDF leaves: with loc and scale both fixed the fit raises UnboundLocalError (C283_both_refuted); a fit that raises has already replaced what is fixed, so the curve of the earlier fit is drawn with a shape as its location (C283_failed_refuted); over the ECDF of data that were not normalised the curve is drawn with loc=0 whatever was fitted (C283_ecdf_refuted); a chain stays after a later maximum likelihood fit and is what corner and trace plots show (C283_chain_refuted). Proved: what a fit that returns leaves (C283_fit) and that the curve over the PDF is the fitted model (C283_curve). (`C283_both_refuted`, `C283_failed_refuted`, `C283_ecdf_refuted`, `C283_chain_refuted`)
* **C285** The cube, maps and errors of a Moments object belong together: Proved: history independence, and which cube, level, axis and maps each shown value comes from. a mask applied between make_moments and make_moment_errors leaves unmasked maps beside masked errors and the masked cube; along a spatial axis make_moment_errors always raises UnitConversionError and leaves a new zeroth moment error beside old others; the line width is always that of the spectral axis. moment_masking (which reads an undefined name) is not modelled. (`C285_mask_refuted`, `C285_values_refuted`, `C285_sky_axis_refuted`)
* **C286** The methods for spectral widths agree: Proved for walk-down (all), for interpolate when the curve passes 1/e before the largest lag of an even number of channels, and for the fit of a sampled Gaussian with an even number of channels. with an odd number of channels interpolate and fit raise IndexError (no strict minimum); in the step to the largest lag interpolate takes that lag as negative and returns a width that is too small or negative. The fitter is any that returns best fits. (`C286_no_minimum_refuted`, `C286_largest_lag_refuted`, `C286_odd_refuted`)
* **C287** Spatial widths from a fitted Gaussian: fit_2D_gaussian holds the amplitude at the maximum of the image, so for a Gaussian on a positive constant no parameters reproduce the image. Proved: without a constant a best fit has the right width, for any angle; a fit without covariance matrix keeps its width and loses its error; brightness does not matter for interpolate and contour. (`C287_constant_refuted`)
* **C288** Spatial widths by interpolation: the knots are every dz-th of the sorted values with dz = number of pixels // 100, so images of less than 200 pixels are refused, and so are images with enough equal values, among them every circular Gaussian in a square of less than 30 pixels; the elliptical radius multiplies by the aspect ratio where it should divide. Rests on FITPACK's conditions on knots (at most as many coefficients as points, increasing interior knots), stated in Spec/WidthImages.v. Proved: for circular Gaussians both methods agree. (`C288_small_refuted`, `C288_ties_refuted`, `C288_circular_refuted`, `C288_ellipse_refuted`)
* **C289** A size-line width relation is found exactly: spectral widths measured with method='interpolate' and sizes measured with 'interpolate' or 'xinterpolate' have errors 0, so all weights of that axis are infinite (or blank) and no line has a finite misfit (C289_interpolate_refuted, C289_interpolated_sizes_refuted). Proved for positive errors: the exact law, units, a common factor of the errors, exchanged axes. scipy's regression is abstract: it finds a best line when some line passes through all points (finds_exact, with a witness); best lines are the minima of the weighted sum of squares over lines and displacements. (`C289_interpolate_refuted`, `C289_interpolated_sizes_refuted`)
* **C290** Both fits of the size-line width relation prefer the same lines: the probability has a further term for the errors across the line, so with unequal errors a line that misses all points can be more probable than the one through them (C290_exact_refuted), and the prior leaves out all falling lines (C290_falling_refuted). Proved: the common misfit term, and the same order of lines when all errors are equal. (`C290_exact_refuted`, `C290_falling_refuted`)
* **C291** Styles of the comparison plots: with the same dictionary for both keywords (even an empty one) both data sets are drawn blue with the label '1', because the defaults of the first are written into the dictionary before those of the second; and 'symbol' is not used by SCF_Distance and PDF_Distance, which look for 'marker'. Proved for every statistic and after every program of comparisons when the dictionaries differ (C291_styles_partial). (`C291_same_dictionary_refuted`, `C291_symbol_refuted`)
* **C292** Dictionaries of plot options are left unchanged: the defaults are written into the caller's dictionary, and all plots but those of SCF, moments and PDFs delete its 'xunit'. Proved unchanged: dictionaries that set everything the plot uses and no xunit, any dictionary when verbose is not set, and dictionaries that are not given to a plot, through any program. (`C292_filled_refuted`, `C292_xunit_refuted`)
* **C293** One dictionary of plot options for several statistics: SCF_Distance and PDF_Distance write 'marker' into the dictionary, after which plot_fit of the power spectra, VCS, delta variance and wavelets raises TypeError; a dictionary first used for data set 1 keeps its colour and label when used for data set 2. Proved for every other sequence of comparisons that uses the dictionary for the same data set. (`C293_marker_refuted`, `C293_other_side_refuted`)
* **C294** Angular size of a pixel: the size is taken from the first column of the whole header, so for a cube whose header has the spectral axis first it is the width of a channel (the test of square pixels looks at the celestial axes and accepts). Proved with the celestial axes first: square pixels at any angle give their side, every accepted header gives the area of the pixel to three parts in 100000, oblong pixels are refused, and common_scale is the ratio of the sides. (`C294_spectral_first_refuted`)
* **C295** Spectral axis of PCA: the data are squeezed before their first axis is counted, so for a cube of one channel the number of channels is its number of rows. Proved: the spectral size at every position and direction of the axis, the number of channels of all other cubes, and that PCA is never built without a velocity axis or from a refused header. (`C295_one_channel_refuted`)
* **C296** Saving the plot of a statistic: PowerSpectrum.run, VCA.run and MVC.run close a second figure after saving, which is one of the caller's (C296_second_close_refuted). plot_fit draws into the current figure, so a figure the caller has open is drawn over, appears in the file and is closed (C296_drawn_over_refuted); a plot that was shown appears in the next file where show() keeps figures (C296_shown_refuted); and if the open figure has one axes only the call raises UnboundLocalError (C296_one_axis_refuted). Proved: without open figures the file shows the plot and nothing else, and plots that make their own figure leave the others as they were. (`C296_second_close_refuted`, `C296_drawn_over_refuted`, `C296_shown_refuted`, `C296_one_axis_refuted`)
* **C297** Plots of a comparison: the comparisons of power spectra, VCA, MVC, wavelets and the delta-variance pick up the figure of the first plot after plt.show(); where show() leaves no figure open (windows that block, notebooks) they raise IndexError and save nothing (C297_closing_refuted), and VCS_Distance saves an empty figure (C297_empty_refuted). Proved: where figures stay, both data sets are in the file. (`C297_closing_refuted`, `C297_empty_refuted`)
* **C298** Files of the dendrogram comparison: a save_name without an extension, which every other plot accepts, raises ValueError from matplotlib because the empty extension is replaced (C298_bare_refuted). Proved: for all names with an extension matplotlib knows the two files are different, next to each other and in that format, and different names give different files. (`C298_bare_refuted`)
* **C299** Plots of fitted power laws: the power-spectrum plot evaluates the fit, made with frequencies per pixel, at frequencies in the unit of the axis, so that the line lies beside the data by slope times log10 of the factor (C299_line_refuted); the plot of a fit with a break raises ValueError since the two-column matrix does not fit its four parameters (C299_break_refuted); the residuals of the delta-variance are wrong in every unit but pixels (C299_delvar_refuted). Proved: the wavelet, SCF and VCS plots agree with the law in every unit, the delta-variance line and the power-spectrum residuals are right in every unit. Error bars and limits of axes are not modelled; straight laws, except for the wavelet transform. (`C299_delvar_refuted`, `C299_line_refuted`, `C299_break_refuted`)
* **C300** Plot of PCA: the bars are placed at 1..PCA.n_eigs but the heights are the first n_eigs of the argument, so any number other than the one in use raises ValueError, and n_eigs=1 repeats the first eigenvalue (C300_number_refuted). Proved: the widths, the line and the residuals in all units, and the bars without the argument. Widths that are blank are left out. (`C300_number_refuted`)
* **C301** Panels of Genus and Tsallis: for a single lag plt.subplots gives no array and Tsallis.plot_fit raises TypeError (C301_one_lag_refuted). Proved: all of Genus, and Tsallis for two or more lags. (`C301_one_lag_refuted`)
* **C302** Bars of the dendrogram histograms: a histogram with one bin, which one to three structures give, raises IndexError (C302_one_bin_refuted), and bins of different widths are drawn with the width of the first (C302_uneven_refuted). Proved: the default bins with at least four structures. (`C302_one_bin_refuted`, `C302_uneven_refuted`)
* **C303** The order of the channels does not matter to VCA, SCF and PCA: with blanks, PCA depends on the order, since var_cov_cube replaces blanks by finfo.eps in the first of two channels only, so the covariance of two channels depends on which comes first (C303_blanks_refuted). VCA and SCF are proved for every cube, PCA without blanks. (`C303_blanks_refuted`)
* **C311** The signal mask of a cube covers the surroundings of bright voxels and nothing else: the lines that define signal_id_flag are comments, so every call raises NameError (C311_masking_refuted). Proved for the body of the function with the name defined. (`C311_masking_refuted`)
* **C312** The bicoherence of an image turned by half: the third wave vector is truncated on its own and need not be the sum of the other two, so the position of the centre of the turn leaves a phase and the bicoherence of a turned point source drops below 1 (C312_half_turn_refuted). Proved for turns about the first pixel with joined edges (C312_about_first, all cells) and for cells of closed triangles. (`C312_half_turn_refuted`)
* **C313** Blank surroundings of an image in the delta variance: pixels outside the image at which both kernels still collect more weight than the cutoff receive a convolved value and count in the variance, so one pixel without weight next to the image changes the result (C313_near_refuted, kernels of three neighbouring pixels). Proved (C313_far_partial): where outside the image one of the two kernels collects no more than the cutoff, the surroundings have no effect whatever their values and size. (`C313_near_refuted`)
* **C314** Blank surroundings of an image in the wavelet transform: the value is the mean over all positive coefficients, those at the blank pixels around the image included, so a column of blank pixels beside a bright pixel changes it (C314_near_refuted). Proved: the coefficients at the pixels of the image are the same in every frame (C314_coefficients_partial), and so are the values if no pixel around has a positive coefficient (C314_value_partial), as for images without negative pixels whose positive ones are sqrt(2) scales away from the surroundings (C314_margin_partial). (`C314_near_refuted`)
* **C315** Blank surroundings of a cube in the spectral correlation function: a pair of a spectrum and a blank one has the difference 0 and the power of the one, so it counts as a pair of equal spectra and raises the correlation (C315_blank_refuted). Proved: the value is that of the cube's own pairs together with the pairs of each spectrum near the edge and a blank one (C315_pairs_partial), so the surface is the same in all surroundings with room for the lags (C315_surroundings_partial), never less than the value of the own pairs (C315_not_less_partial), for cubes without blanks by exactly the factor sqrt(m/(2N-m)) in the difference from 1, with m of N pixels having a partner (C315_factor_partial), and unchanged at lag zero (C315_zero_lag_partial). (`C315_blank_refuted`)
* **C317** Blank surroundings of an image in the moments: without weights blank pixels are given weight one, so the sums are divided by the number of all pixels and the moments shrink with the surroundings; with weights that are blank there as well, the moments of the whole, the maps and their histograms are those of the image alone (proved). (`C317_default_refuted`)
* **C318** Blank surroundings of a cube in the velocity coordinate spectrum: the transform also runs over the sky, whose sum of powers has one factor for every pixel of the field, but only the pixels with emission are divided out; the spectrum grows by the ratio of the areas at every frequency (exact law proved), so its shape is that of the cube alone (proved). (`C318_blank_refuted`)
* **C319** Blank surroundings of a cube in PCA: on the diagonal a blank pixel is one of the value eps and is counted, off the diagonal it is left out, so the variances are diluted against the covariances and the matrix can have a negative eigenvalue; covariances of different channels are those of the cube, and the dilution is given exactly (proved). (`C319_negative_refuted`)
* **C322** Blank surroundings of cubes in the Cramer distance: a fifth of all pixels of a channel is kept, and blank pixels count among all, so cubes with the same brightest fifth differ once both are placed in a larger blank field; the longer rows start with the shorter ones, and the distance stays where the number kept does not change or where all pixels above the noise are kept (proved). (`C322_blanks_refuted`, `C322_unseen_refuted`)
* **C325** Blank surroundings of the maps of modified velocity centroids: blank pixels of the maps are set to zero before the mean of the squared velocities is taken over all pixels, so this mean, and with it the spectrum, falls with the number of blank pixels around the emission. Proved: the transforms are those of the maps alone and the field enters only as the number of pixels of that mean. (`C325_refuted`)
* **C326** The sonic length in the unit that is asked for: after a fit with the sampler the bounds are computed from the sound speed with its unit, so their unit is a power of the pixel that depends on the exponent: in pixels they carry that unit, and in any angular or physical unit sonic_length raises UnitConversionError. Proved: after the fit by orthogonal distances the length and bounds are converted, and unknown units are refused. (`C326_sampled_refuted`, `C326_bounds_refuted`)

Partial for other reasons (the note says what is missing):


## 5. Axioms

`Print Assumptions` stands beneath every theorem in `Properties/`.  Its output, for all
theorems, uses these four axioms of Coq's standard library and no others:

```
ClassicalDedekindReals.sig_forall_dec : forall P : nat -> Prop,
    (forall n, {P n} + {~ P n}) -> {n | ~ P n} + {forall n, P n}
ClassicalDedekindReals.sig_not_dec : forall P : Prop, {~ ~ P} + {~ P}
FunctionalExtensionality.functional_extensionality_dep : forall A (B : A -> Type) (f g : forall x, B x),
    (forall x, f x = g x) -> f = g
Classical_Prop.classic : forall P : Prop, P \/ ~ P
```

The first three come with the real numbers of the standard library, `classic` with its
analysis (`exp`, `ln`, `PI`, derivatives).  Coquelicot is used (complex numbers and some
derivatives) and adds no axioms.  By theorem:

* **no axioms** (96 theorems): C02_rfft_other_dims, C03_pixel_shift_moves, C11_pad_only_padding_partial, C11_pad_zero_right_refuted, C24_auto_needs_min, C34_keeps_the_large_regions, C34_never_adds_pixels, C34_idempotent, C44_header, C44_data, C45_unchanged, C45_name, C45_restored_partial, C45_load_name_partial, C46_kinds, C46_returned, C46_copy_partial, C49_limits_partial, C74_cutoff_partial, C74_cutoff_refuted, C75_deltavar_refuted, C75_deltavar_partial, C75_no_common_lags_refuted, C75_scf_refuted, C85_refuted, C85_square_partial, C98_missing_refuted, C100_refuted, C120_tables_partial, C136_units_false_refuted, C136_units_false_state_refuted, C137_given_scale_refuted, C137_given_scale_ignored, C137_own_scale_partial, C137_no_scale_partial, C137_moments_first_partial, C138_header_units_refuted, C138_header_units_partial, C140_round_trip_partial, C140_directory_refuted, C140_extension_refuted, C140_mask_refuted, C141_no_overwrite, C141_other_files_kept, C141_errors_needed, C161_default_bins, C166_pruned, C166_nonincreasing, C167_used_refuted, C171_second_refuted, C171_shared_partial, C222_wrong_type, C263_list_refuted, C285_fresh, C285_errors, C285_raised_partial, C291_styles_partial, C291_symbol_refuted, C292_others_partial, C292_xunit_refuted, C293_marker_refuted, C296_own_figure_partial, C296_drawn_over_refuted, C296_one_axis_refuted, C297_own_partial, C297_empty_refuted, C298_format_partial, C298_bare_refuted, C300_number_refuted, C301_one_lag_refuted, C320_orientation, C204_refuted, C222_beam, C246_built_refuted, C249_format_refuted, C285_maps, C285_mask_refuted, C285_sky_axis_refuted, C291_same_dictionary_refuted, C292_complete_partial, C292_filled_refuted, C293_reuse_partial, C293_other_side_refuted, C296_saved_partial, C296_second_close_refuted, C296_shown_refuted, C297_both_partial, C297_closing_refuted, C298_names, C298_written_partial, C300_bars_partial, C320_surroundings, C327_surroundings, C327_surroundings_weighted, C327_orientation, C327_orientation_weighted
* `ClassicalDedekindReals.sig_forall_dec` (18 theorems): C44_rejected, C44_distance, C44_history, C45_mvc_refuted, C49_number_refuted, C50_draws_partial, C72_beam, C72_width, C97_about_partial, C100_deltavar_partial, C113_resample_partial, C120_one_table_per_image_refuted, C134_fit_refuted, C134_fit_partial, C134_fit_out_of_support_partial, C194_true_partial, C301_tsallis_partial, C323_draws
* `FunctionalExtensionality.functional_extensionality_dep`, `ClassicalDedekindReals.sig_forall_dec` (236 theorems): C03_pixel_shift_permutes, C03_pixel_shift_compose, C03_pixel_shift_float, C10_common_scale_laws, C10_common_scale_defined, C10_common_scale_value, C12_annuli_partition, C12_pixels_complete, C15_vcs_count_refuted, C24_value, C24_proportion, C24_methods, C24_auto, C24_count, C24_range, C29_inputs, C31_smoothing, C33_genus_odd, C33_curve_odd, C33_at_or_above_the_maximum, C33_at_or_below_the_minimum, C39_ecdf_at_the_maximum_partial, C43_spectral_roundtrip, C46_copy_refuted, C47_halvings, C48_slopes, C48_continuous_partial, C48_continuous_refuted, C49_clip, C62_sum_zero, C62_constant, C64_points_partial, C64_none, C65_downsample_partial, C67_rows_partial, C67_padded_refuted, C69_rows_partial, C69_dropped_refuted, C70_symmetric, C70_psd, C70_constants, C73_axes_refuted, C73_square_partial, C74_first_partial, C74_bins_refuted, C75_scf_lags_refuted, C75_scf_cubes_partial, C75_scf_cube_object_partial, C75_scf_objects_partial, C76_mask_angle_partial, C77_proportion, C81_symmetric, C81_formula, C81_positive, C81_scaled, C82_refuted, C82_earlier_partial, C84_rows, C84_zero, C84_shuffle, C88_refuted, C88_partial, C91_refuted, C91_break_partial, C92_refuted, C92_inside_partial, C94_range_partial, C94_refuted, C97_refuted, C113_bootstrap_refuted, C116_genus_counts_regions, C116_counts_exist, C116_curve, C117_transpose, C117_flip_rows, C117_flip_columns, C117_blank_border, C117_increasing_scale, C118_percentile_overrides_refuted, C118_thresholds_partial, C119_distance_numpts_refuted, C119_distance_numpts_partial, C121_default_radii_refuted, C121_default_radii_partial, C121_accepted_radii, C122_counted_with_eight_connectivity_refuted, C122_same_connectivity_partial, C128_common_angular_radius, C129_precomputed_refuted, C129_precomputed_partial, C130_moment_histograms, C130_works_with_blanks, C131_ks_is_the_supremum, C131_ks_range, C131_ks_symmetric, C131_ks_zero, C131_ks_separated, C131_ks_triangle, C131_ks_increasing_maps, C133_percentiles, C133_percentiles_out_of_range, C135_scale_history, C135_scale_rules, C135_rejected_keeps, C148_off_image_refuted, C148_square_partial, C158_values, C160_interior_partial, C160_border_refuted, C164_array_partial, C164_list_refuted, C164_number_refuted, C165_auto_partial, C165_no_min_value_refuted, C166_same_object_refuted, C170_data_partial, C170_object_refuted, C170_length_refuted, C186_points_below_partial, C186_points_above_refuted, C190_downsample_units_refuted, C192_flux_partial, C192_flux_refuted, C202_relation_refuted, C202_increasing_partial, C214_refuted, C214_single_partial, C215_zero_mean, C216_total, C217_pspec_partial, C218_blanks, C218_mvc_refuted, C218_pdf_weighted, C219_unweighted, C220_accepts, C221_refuted, C227_rectangle_refuted, C236_fit, C236_radial, C236_accepted, C236_unbinned_refuted, C236_2D_limits_refuted, C237_mvc, C237_vca_partial, C237_pspec_partial, C237_pspec_radial_refuted, C238_precomputed, C239_run, C239_distance, C239_misspelt_refuted, C240_all_points, C240_highest_refuted, C259_reach_partial, C259_break_partial, C259_swallowed_refuted, C259_cov_type_refuted, C259_delta_quiet_partial, C259_threads_refuted, C260_delta_accepted_partial, C260_mixed_refuted, C260_wavelet_partial, C260_wavelet_limits_partial, C262_delta_default, C262_given, C262_moments_size_refuted, C283_fit, C283_both_refuted, C283_ecdf_refuted, C295_channels_partial, C295_one_channel_refuted, C301_labels_partial, C302_one_bin_refuted, C303_pca_partial, C306_default, C316_differences, C319_pairs_partial, C319_diluted_partial, C320_likelihood, C320_at_percentile, C321_threshold, C202_refuted, C202_partial, C214_swapped_partial, C215_variance, C216_reconstruction, C217_others_partial, C217_refuted, C218_mvc_partial, C218_pdf, C219_weighted, C220_header, C221_header_partial, C227_even_refuted, C233_step, C236_spectrum, C236_2D, C236_misspelt, C236_mvc_unbinned_refuted, C236_threads_refuted, C237_mvc_accepts, C237_vca_accepts, C237_scalar_break_refuted, C237_vca_second_refuted, C238_width_refuted, C239_transform, C239_breaks_twice_refuted, C240_points, C240_start, C243_sampling, C252_covariance_refuted, C259_accepted_partial, C259_misspelt_partial, C259_fit_option_refuted, C259_quiet_refuted, C259_convolve_refuted, C260_delta_partial, C260_second_refuted, C260_own_lags_refuted, C260_wavelet_accepted_partial, C262_moments_default, C262_size_partial, C283_curve, C283_failed_refuted, C283_chain_refuted, C295_channel_partial, C295_velocity_partial, C301_genus_partial, C302_bars_partial, C302_uneven_refuted, C303_blanks_refuted, C304_pca, C309_array, C319_negative_refuted, C319_own_partial, C322_rows_partial, C164_default_partial
* `FunctionalExtensionality.functional_extensionality_dep`, `ClassicalDedekindReals.sig_forall_dec`, `ClassicalDedekindReals.sig_not_dec` (320 theorems): C01_rfft_to_fft_2d, C01_rfft_keep, C02_rfft_to_fft_3d, C04_fourier_shift_integer, C05_hellinger_symmetric, C05_hellinger_nonneg_zero_iff, C05_hellinger_triangle, C05_hellinger_triangle_blank_middle, C05_hellinger_ignores_blanks, C05_hellinger_le_1, C06_hellinger_bin_width_partial, C06_hellinger_bin_width_refuted, C07_center, C07_standardize, C07_normalize_by_mean, C07_normalize, C07_unknown_scheme, C12_pixel_frequency, C12_distance, C12_pixel_distance, C14_vca_channels, C14_vca_sum_of_pspec, C15_vcs_no_blanks, C15_vcs_blanks_partial, C16_surface_bounded, C16_zero_lag_one, C16_formula, C16_boundary_name, C17_point_symmetric, C18_calibration_invariant, C19_cut_refuted, C19_cut_partial, C19_cut_zero_lag_partial, C20_distance_formula, C20_distance_symmetric, C20_distance_nonneg, C20_distance_zero, C20_distance_triangle, C21_formula, C21_rejects, C21_symmetric, C21_identical, C21_row_order, C21_translation, C23_formula, C23_symmetric, C23_bounded, C23_triangle, C23_rescaled, C25_refuted, C25_negative_partial, C25_positive_partial, C26_symmetric_peak, C26_images, C27_input_refuted, C27_input_partial, C31_lags_partial, C31_lags_refuted, C31_radius, C31_history, C36_laws_of_moments_partial, C36_pearson_refuted, C36_affine, C36_are_the_weighted_moments, C37_blanks_refuted, C37_blanks_partial, C37_bias_partial, C38_window, C38_periodic_window, C39_accepted_data, C39_accepted_by_default, C39_weighted_data, C39_pdf_with_automatic_bins, C39_pdf_with_given_bins, C39_ecdf_partial, C39_ecdf_ends_at_1_refuted, C40_again_refuted, C40_loses_a_bin_partial, C40_given_bins_partial, C41_moment0_partial, C41_moment0_refuted, C41_moment1_partial, C41_moment2_partial, C41_spatial_axis_refuted, C41_noise_shape, C42_moment0_scales, C42_moment1_scales, C42_moment2_scales, C42_moment0_not_negative, C42_moment1_not_negative, C42_moment2_not_negative, C42_more_channels, C42_moment0_value, C42_moment1_value, C42_moment2_value, C43_angle, C43_physical, C43_roundtrip_angle, C43_roundtrip_physical, C43_frequency_angle, C43_frequency_physical, C43_frequency_roundtrip, C43_area_angle, C43_area_physical, C43_incompatible, C43_no_distance, C43_no_header, C47_stops, C47_outcome, C50_last_refuted, C50_errors, C51_range, C51_radial, C51_profile, C58_order, C66_one_blank_refuted, C66_blank_rule_partial, C66_common_blanks_partial, C71_symmetric, C71_value_partial, C71_nonnegative_partial, C71_refuted, C71_broken, C71_broken_zero, C71_tail, C71_tail_value, C78_refuted, C78_explicit_partial, C79_refuted, C79_fewer_partial, C80_refuted, C80_several_partial, C83_refuted, C83_zero_first_partial, C89_ignored_partial, C90_scales_partial, C90_deltavar_refuted, C93_refuted, C93_number_partial, C93_uncorrelated_partial, C95_refuted, C96_refuted, C96_only_partial, C99_analytic_refuted, C102_symmetric, C102_single_partial, C102_refuted, C103_common_partial, C103_symmetric_refuted, C103_area_refuted, C104_symmetric, C104_value, C104_zero, C104_shape, C110_total, C110_names, C111_theta, C114_edge_refuted, C114_edge_partial, C115_fft_refuted, C115_half_partial, C124_circular_share_refuted, C124_full_square_partial, C125_run_min_frac_refuted, C125_run_default_partial, C126_rounded_down_refuted, C126_rounded_up_partial, C127_shifted_maps, C132_hellinger_of_pdfs, C132_hellinger_scale, C139_ray_refuted, C142_kernel_positive, C142_kernel_sum, C142_kernel_symmetric, C150_bins, C151_cyclic_shift, C151_offset, C151_scale, C152_total_power, C157_value_partial, C157_metric_partial, C157_shapes_partial, C159_lags, C160_negative, C172_break_partial, C172_window_refuted, C172_even_refuted, C172_fit_points, C172_fit_possible, C173_value_partial, C173_documented_refuted, C174_intensity_unit_partial, C174_velocity_unit_partial, C174_velocity_unit_refuted, C175_moved, C175_symmetric, C176_apodized_partial, C176_kernel_of_ones_partial, C176_apodized_refuted, C177_moment0_error_partial, C177_constant_errors_refuted, C177_zero_error_refuted, C178_image, C178_cube, C178_mvc, C178_kernel_position, C178_no_beam, C179_superposition, C183_moved, C193_thick_slice, C41_linewidth_ray_refuted, C103_value_partial, C194_values_partial, C194_shape_partial, C196_positive_partial, C203_zero, C205_images, C205_widths, C212_distance_partial, C234_kept, C241_defined, C241_same, C241_pixel_order, C241_smaller_order_partial, C241_brightness_unit, C242_brighter_copy_refuted, C243_reproducible, C246_unknown, C248_fewer_refuted, C249_documented_partial, C263_odd_partial, C264_name_partial, C274_histograms, C274_refused, C274_stale_refuted, C280_robust_refuted, C282_run, C282_ecdf_refuted, C285_values_refuted, C286_minimum_partial, C288_ellipse_refuted, C294_square_partial, C294_oblong_partial, C294_spectral_first_refuted, C303_vca, C304_vcs, C306_surface, C307_rolled, C307_order, C311_mask_partial, C311_bright_partial, C315_blank_refuted, C315_surroundings_partial, C315_factor_partial, C317_default_refuted, C317_map_partial, C317_values_partial, C318_blank_refuted, C320_weighted, C322_unseen_refuted, C322_few_partial, C323_iterations, C323_range, C323_expected, C41_auto, C50_spread, C106_stored_partial, C194_refuted, C195_refuted, C196_refuted, C203_between, C205_noise, C212_refuted, C241_symmetric, C241_channel_order_partial, C241_channel_order_refuted, C242_ranges_refuted, C243_random_state_refuted, C248_same_number_partial, C248_more_refuted, C249_boundary_refuted, C263_size, C263_even_refuted, C264_whole, C272_accepted, C274_maps, C274_run_partial, C274_failed_refuted, C282_percentile, C282_history, C282_refused_refuted, C286_no_minimum_refuted, C286_odd_refuted, C286_fit_level, C294_area_partial, C294_common_scale_partial, C303_scf, C307_reversed, C308_run, C311_masking_refuted, C311_signal_partial, C314_coefficients_partial, C315_pairs_partial, C315_not_less_partial, C315_zero_lag_partial, C317_whole_partial, C317_outside_partial, C317_histograms_partial, C318_factor_partial, C320_data, C320_history, C320_percentile, C322_blanks_refuted, C322_sparse_partial, C323_no_iterations, C323_scaled, C324_field, C324_common, C324_multiples, C324_cube
* `Classical_Prop.classic`, `FunctionalExtensionality.functional_extensionality_dep`, `ClassicalDedekindReals.sig_forall_dec`, `ClassicalDedekindReals.sig_not_dec` (432 theorems): C08_kl_nonneg_zero_iff_partial, C08_kl_blanks_refuted, C08_kl_same_blanks_partial, C09_bins_linear, C09_bins_log, C09_bins_default, C09_bins_dims, C12_annulus_mean, C12_annulus_between, C12_edges, C13_sector_kept, C13_opposite_sector_odd_partial, C13_point_symmetric_odd_partial, C13_point_symmetric_even_refuted, C13_point_symmetric_middle_refuted, C22_nonnegative, C27_width, C28_refuted, C28_monotone_partial, C28_zero_partial, C28_needs_beam_partial, C29_stored, C29_expression, C29_background, C29_scaling, C30_formula, C30_symmetric, C30_zero, C30_amplitude, C30_triangle, C30_nonneg, C30_ranges, C32_unit, C32_shape, C35_beam_area_refuted, C35_beam_area_partial, C42_linewidth_scales, C42_linewidth_not_negative, C52_symmetries, C52_isotropic, C52_domain, C53_inverse, C53_increasing, C53_stderr, C54_same_form, C55_hermitian, C55_image, C56_size_refuted, C56_odd_partial, C56_even_partial, C57_schedule, C57_line_of_sight, C58_additive, C58_homogeneous, C58_nonnegative, C59_channels_partial, C59_default_limits_partial, C59_negative_density, C59_crossed_limits, C59_too_many_channels, C59_single_channel_refuted, C60_fitting_shapes, C61_shapes, C61_square_partial, C61_rectangle_refuted, C62_default_lags, C62_default_accepted, C63_even_peaked, C64_clip_refuted, C64_default_refuted, C65_regrid, C65_bad_calls, C65_small_width_refuted, C65_function_refuted, C67_comparison_refuted, C68_wavelet_value, C74_comparison_bins, C76_mask_angle_refuted, C86_refuted, C86_partial, C87_same_grid_partial, C87_refuted, C87_blank_refuted, C89_refuted, C90_constructor_partial, C98_slopes_partial, C98_stale_refuted, C98_pspec_partial, C99_slope_refuted, C99_break_refuted, C101_found_partial, C101_refuted, C105_likelihood, C105_prior, C106_errors_refuted, C106_errors_partial, C106_fixed_partial, C107_fixed_refuted, C107_index_error_partial, C107_bootstrap_partial, C108_power, C108_model, C109_unit_refuted, C109_factor_partial, C111_ellip, C112_lowest, C112_refuses, C113_nonneg_partial, C115_hermitian_partial, C123_gaussian_odd, C123_gaussian_sign, C123_gaussian_peak, C142_kernel_peak, C143_reversal, C144_galilean, C145_uniform_refuted, C145_cells_partial, C146_limit_unit_refuted, C146_width_unit_refuted, C146_common_unit_partial, C147_last_axis_refuted, C147_minus1_refuted, C147_minus2_refuted, C147_noncubic_refuted, C147_minus3_partial, C149_spectral_axis, C153_shift_refuted, C153_closed_partial, C154_factor, C154_offset, C155_total_refuted, C155_positions_partial, C156_azimuthal_refuted, C156_azimuthal_means_partial, C156_radial_partial, C157_mean_subtract_refuted, C160_affine, C161_standardised, C161_histogram, C162_identifiable, C162_peak_partial, C162_amplitude_refuted, C163_zero_partial, C163_reduced_refuted, C167_histograms_partial, C168_again_refuted, C169_histograms, C169_symmetric, C169_same, C169_scale_offset, C179_intensity_unit, C180_scale_normalization, C181_stddev_partial, C181_small_image_refuted, C182_transposed, C182_mirrored, C184_default_scales_partial, C184_single_row_refuted, C185_fit_limits, C187_num_refuted, C188_smoothing_width, C189_new_axis_partial, C189_wide_channels_refuted, C190_regrid_units_partial, C191_flag_refuted, C191_rest_partial, C28_contribution_partial, C60_bicoherence, C162_start, C195_partial, C197_method, C198_partial, C199_channels, C200_order_refuted, C200_partial, C201_blind_refuted, C201_ordered_partial, C206_refuted, C208_success, C209_order, C209_scale, C210_sign_partial, C211_none, C213_raises_partial, C223_skewed_refuted, C224_run_again_partial, C224_theta_none_refuted, C225_nothing_left, C226_rule_partial, C226_run, C227_scf_fit_partial, C228_unbinned, C229_unbinned, C230_unbinned, C231_background, C232_run_again_partial, C232_theta_none_refuted, C244_defined, C244_same, C245_common_units, C245_standardized_refuted, C247_bins_refuted, C249_array_refuted, C250_common_angles, C250_symmetric, C250_same_cube, C251_reused_partial, C251_unrun_refuted, C251_other_grid_partial, C251_stale_fit_refuted, C252_computed, C252_proportion_refuted, C253_widths, C253_stale_refuted, C254_unused, C255_matching_partial, C255_changed_refuted, C256_curve_partial, C256_number_refuted, C256_range_refuted, C257_arrays_refuted, C258_pixels, C258_angles_refuted, C258_limits_partial, C261_bayes, C265_run_again, C265_failed_refuted, C265_hists_refuted, C266_power_law, C267_unbinned_partial, C267_log_break, C268_break_refuted, C269_history_partial, C270_objects_partial, C270_failed_refuted, C271_angles_partial, C271_refused, C271_list_refuted, C271_twice_refuted, C272_curves_partial, C272_images_refuted, C272_failed_refuted, C272_kept, C273_brightness_partial, C273_options_partial, C273_flat, C273_list_refuted, C273_value_partial, C275_moved, C275_self, C275_order_refuted, C275_objects_partial, C276_run, C276_scales_refuted, C276_range_refuted, C277_power_law, C277_normalization, C277_distance, C277_break_refuted, C278_history, C278_failed_refuted, C279_broken_partial, C279_plain_partial, C281_history, C281_tables_partial, C281_memory_refuted, C281_failed_refuted, C284_binned, C284_delta_variance, C286_walk_down, C286_largest_lag_refuted, C286_fit_partial, C287_gaussian_partial, C287_no_covariance, C288_small_refuted, C288_circular_refuted, C289_size_unit, C289_error_unit, C289_interpolate_refuted, C290_same_misfit, C290_exact_refuted, C299_wavelet_partial, C299_delvar_refuted, C299_line_refuted, C300_relation_partial, C305_image, C305_mvc, C308_distance, C309_run, C310_sampled, C310_distance, C312_half_turn_refuted, C313_near_refuted, C314_near_refuted, C314_value_partial, C318_shape_partial, C101_log_partial, C197_fit, C198_refuted, C199_on_line, C199_temperature, C200_channels_refuted, C201_refuted, C201_same_slope_partial, C206_recovery_partial, C207_least_squares, C208_line, C209_position, C210_refuted, C211_gaussian, C212_exact_partial, C213_refuted, C223_uniform_partial, C223_one_sided_refuted, C224_stale_mask_refuted, C225_recovers, C225_wrong_type, C226_limits_refuted, C227_scf_partial, C227_pspec_partial, C228_fit_2D, C229_binned, C230_binned, C231_displaced, C232_stale_mask_refuted, C235_power, C240_order, C241_nonnegative, C244_symmetric, C244_pixel_order, C245_own_units, C246_choices, C250_defined, C250_calibration, C250_even_size, C251_as_cubes_partial, C251_object_first_refuted, C251_other_grid_refuted, C252_one_decomposition_partial, C253_fresh, C253_single_refuted, C254_refused, C254_header, C255_mean_sub_refuted, C256_run, C256_lags_refuted, C256_boundary_refuted, C256_limits, C257_kept_partial, C258_default, C258_list_refuted, C258_limits_refuted, C261_odr, C261_decreasing_refuted, C264_left_refuted, C265_counts, C265_thresholds_refuted, C266_units, C267_binned_partial, C267_break_refuted, C268_slopes_partial, C269_surfaces_partial, C269_failed_refuted, C270_value_partial, C271_radii_partial, C271_one_width, C271_surface, C271_first_refuted, C271_plain_refuted, C272_history_partial, C272_radii_refuted, C272_thresholds, C273_self_partial, C273_short_list, C273_header_refuted, C273_radii_refuted, C275_brightness, C275_range, C275_order_partial, C275_zero_refuted, C275_options_refuted, C276_values_partial, C276_number_refuted, C276_single_refuted, C277_brightness, C277_orientation, C277_broken_partial, C278_fit, C278_failed_partial, C278_unlogged_refuted, C279_break_refuted, C279_search_refuted, C281_run, C281_lags, C281_stale_refuted, C281_fewer, C284_unbinned, C284_wavelet, C286_agree_partial, C286_never_reached, C287_constant_refuted, C287_brightness, C288_ties_refuted, C288_same_partial, C289_exact_law, C289_width_unit, C289_exchanged, C289_interpolated_sizes_refuted, C290_common_error_partial, C290_falling_refuted, C299_agree_partial, C299_delvar_partial, C299_pspec_partial, C299_break_refuted, C305_cube, C305_half_turn, C306_run, C307_history, C310_image, C310_history, C312_about_first, C312_half_turn_partial, C313_far_partial, C314_margin_partial, C316_run, C321_object, C326_sampled_refuted, C326_bounds_refuted, C326_odr_partial, C326_unknown_partial, C327_distances, C327_zero
* added since this list was last generated (see the `Print Assumptions` beneath them): C140_slash_partial, C325_field_partial, C325_pixel_partial, C325_refuted

## 6. What is modelled and what is not

Every definition in `Model/` cites the lines it models.  By source file:

| source | modelled in | not modelled |
|---|---|---|
| `io/input_base.py` | InputData | reading of FITS files (astropy) |
| `io/sim_tools.py` | InputData, MakeCube | WCS projection keywords that are constants |
| `io/try_load_beamwidth.py` | InputData | |
| `moments/_moment_errs.py` | MomentErrs | units (all values in the unit of the cube) |
| `moments/make_moments.py` | MakeMoments, MomentErrs, MomentsObj, Masking | signal_id's `Noise` (oracle); the contents of the FITS headers beyond the unit |
| `simulator/gen_field.py` | GenField | the random number generator (angles are arguments) |
| `simulator/make_cube.py`, `spectrum.pyx` | MakeCube | the process pool beyond the order of its results |
| `simulator/threeD_pspec.py` | ThreeD | |
| `statistics/apodizing_kernels.py` | Apodize | |
| `statistics/base_pspec2.py` | Psds, Beam, Apodize, FitState, EllipPlaw, PspecFit, BreakFit, Kwargs | plotting; the least-squares solver (oracle) |
| `statistics/base_statistic.py` | BaseStat, Units, InputData, Construct, Wcs (astropy's proj_plane_pixel_scales and is_proj_plane_distorted are modelled from their documentation) | pickle (an object is its attributes) |
| `statistics/convolve_wrapper.py` | DeltaVar | the choice between the two FFT implementations |
| `statistics/cramer/cramer.py` | Cramer, CramerDistance, Formats | joblib |
| `statistics/delta_variance/*.py` | DeltaVar, DeltaVarRun, FitState, BreakFit, Distances, RunOptions | astropy's model class boilerplate, plotting |
| `statistics/dendrograms/*.py` | Dendro, DendroRun | astrodendro, plotting, reading of HDF5 files |
| `statistics/elliptical_powerlaw.py` | EllipPlaw | the Levenberg-Marquardt solver (oracle) |
| `statistics/fitting_utils.py` | FitUtils | the MCMC sampler and ODR |
| `statistics/genus/genus.py` | Genus, GenusRun | Gaussian smoothing (argument), plotting |
| `statistics/lm_seg.py` | LmSeg, BreakFit, VcsRun | statsmodels (oracle), plotting |
| `statistics/mvc/mvc.py` | Mvc, Beam, BaseStat, PspecFit, Kwargs | plotting |
| `statistics/pca/*.py` | Pca, PcaFit, PcaRun, SonicUnits, Ellipse, WidthMethods, WidthImages, Odr | LAPACK (oracle with its contract), the straight-line fitters and the sampler (oracles), contour finding, splines and the fits of Gaussians (oracles with their contracts) |
| `statistics/pdf/compare_pdf.py` | Pdf, PdfRun, PdfDistance | scipy's fits and the MCMC sampler |
| `statistics/psds.py` | Psds, Bootstrap | the default of `pspec` and its bootstrapped uncertainties are separate models; which draws the generator makes is any |
| `statistics/pspec_bispec/*.py` | Psds, Beam, PspecFit, Bispec, BispecRun, Distances, Kwargs | plotting |
| `statistics/rfft_to_fft.py` | RfftToFft | pyfftw |
| `statistics/scf/scf.py` | Scf, ScfSpectrum, ScfLags, ScfPairs, ScfDistance, EllipPlaw | plotting, saving |
| `statistics/stat_moments/highstatmoments.py` | StatMoments, MomentsRun | plotting |
| `statistics/stats_utils.py` | StatsUtils, InputData, Ellipse | scipy leastsq and LAPACK in `EllipseModel` (oracles with their contracts) |
| `statistics/threeD_to_twoD.py` | Formats, Pca | the memory-mapped variant |
| `statistics/tsallis/tsallis.py` | Tsallis, TsallisRun | scipy's `curve_fit` (oracle), plotting |
| `statistics/vca_vcs/*.py` | Psds, Beam, PspecFit, VcsFit, VcsRun, SliceThickness, Distances, Kwargs | spectral-cube, plotting |
| `statistics/wavelets/wavelet_transform.py` | Wavelet, WaveletRun, BaseStat, FitState, Distances, RunOptions | plotting |

The options of the comparison plots of all distances are modelled in PlotStyle (colours,
symbols and labels; not the axes or files).

Everywhere: floating-point rounding, overflow, the sign of zero, warnings, progress
bars, printing, plotting and execution time are not modelled.  Infinite pixel values are
only modelled where the definition's comment does not exclude them.

External routines given by their documentation rather than by their code, and so part of
the trusted reading: numpy (`fft`, `roll`, `linspace`, `histogram`, `digitize`, `nan*`
reductions, slicing), scipy (`binned_statistic`, `label`, splines as oracles), astropy
(`convolve_fft` as a linear convolution with zero fill, unit conversion as multiplication by
a factor, kernels by their formulas), spectral-cube (`downsample_axis`, `spectral_smooth`,
`spectral_interpolate` as named results), statsmodels, lmfit and emcee (oracles).

Of plotting these parts are modelled: the options handed to the plots (PlotStyle), the stack of open figures and the names of the files (Figures), and the points, fitted lines and residuals (PlotFit), and the panels and bars of PCA, Genus, Tsallis and the dendrograms (PlotPanels). What matplotlib makes of them is not.
