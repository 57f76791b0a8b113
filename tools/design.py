"""Write DESIGN.md from design_head.md, the manifest and the list of axioms."""
import json, os, re, glob
here = os.path.dirname(os.path.abspath(__file__))
root = os.path.join(here, "..")
J = lambda f: json.load(open(os.path.join(root, f)))
man = J("MANIFEST.json")["claims"]
ax = J("tools/assumptions.json")
props = {json.loads(l)["id"]: json.loads(l) for l in open(os.path.join(root, "properties.jsonl"))}
where = {}
for f in sorted(glob.glob(os.path.join(root, "rocq/theories/Properties/*.v"))):
    for t in re.findall(r"^Theorem (C\w+)", open(f).read(), re.M):
        where[t] = os.path.basename(f)[:-2]
num = lambda pid: int(pid[1:])

PLAN = {
 "P_Fourier": ("RfftToFft, StatsUtils (shifts)", "DFT sums, Hermitian symmetry, slices by `nth`"),
 "P_StatsUtils": ("StatsUtils", "finite sums, Cauchy-Schwarz, Gibbs inequality"),
 "P_Pspec": ("Psds, Apodize", "Parseval, partition of pixels by bin"),
 "P_Scf": ("Scf, ScfDistance", "re-indexing of cyclic sums, Minkowski"),
 "P_Cramer": ("Cramer, Formats", "conditional negative definiteness, permutations"),
 "P_Pca": ("Pca", "list induction, DFT inversion; eigh is an oracle with the spectral theorem as its contract"),
 "P_DeltaVar": ("DeltaVar", "finite sums; antiderivatives of the kernels"),
 "P_Base": ("BaseStat, Units, InputData", "histories of assignments by induction, field algebra, heap of objects"),
 "P_Fitting": ("LmSeg, FitUtils, FitState, Distances, EllipPlaw", "solvers as oracles; invariants over fit histories"),
 "P_Fields": ("GenField, Apodize, ThreeD", "index algebra on half spectra, trigonometry"),
 "P_Genus": ("Genus", "reachability for connected components"),
 "P_Moments": ("StatMoments, Pdf", "finite sums over `fl`, histograms"),
 "P_MomentErrs": ("MomentErrs, MakeMoments", "sum exchange, error propagation, state of the object, file names as strings"),
 "P_MakeCube": ("MakeCube, ThreeD", "sums over cells and channels, ceilings, permutations of pool results"),
 "P_Bispec": ("Bispec", "triangle inequality for complex sums, index bounds, 16-bit counters"),
 "P_Tsallis": ("Tsallis", "re-indexing, monotonicity of the model function"),
 "P_Dendro": ("Dendro", "list induction; astrodendro is an argument"),
 "P_Mvc": ("Mvc, Beam", "DFT convolution theorem, modulus algebra"),
 "P_Wavelet": ("Wavelet", "convolution sums re-indexed, permutations of pixels, bounds on pi and ln 2"),
 "P_Ellipse": ("Ellipse, Mat3", "normal equations, signature of the constraint form (reverse Cauchy-Schwarz), quadratic forms, finite sums, permutations"),
 "P_PcaFit": ("PcaFit", "DFT correlation theorem, walk along a symmetric peak, histories of fits by induction, monotone powers"),
 "P_ScfSpectrum": ("ScfSpectrum, Psds, EllipPlaw", "reduction of the spectrum to the annulus means, normal equations, comparison of two objects call by call, polar form of the ellipse"),
 "P_PspecFit": ("PspecFit, Psds, EllipPlaw, FitState", "permutation of pixels and modes, uniqueness of the least-squares line, orthogonality of the Fourier kernel, homogeneity of the annulus means, comparison of two objects call by call"),
 "P_Kwargs": ("Kwargs, VcsFit", "Python binding of keywords to signatures, a heap of dictionaries, traces of calls, frequency lists of odd and even length"),
 "P_CramerCubes": ("CramerDistance, Formats, Cramer", "the data matrices as lists of rows over floats with blanks, an abstract norm and an abstract generator of draws without replacement"),
 "P_PdfPairs": ("PdfDistance, Pdf, StatsUtils", "real lists with blanks, numpy histograms, the lognormal fit abstract, strings as objects with identity"),
 "P_ScfPairs": ("ScfPairs, ScfSpectrum, Scf, Formats", "the object as a record with its own size attribute, lags as real lists, the surfaces of Scf.v; strings as objects with identity"),
 "P_PcaRun": ("PcaRun, PcaFit, Pca", "a state machine over the attributes, invariant by induction over histories of calls, widths and fits abstract but for their numbers"),
 "P_DeltaVarRun": ("DeltaVarRun, DeltaVar, FitState, Units", "a state machine over the attributes, invariants by induction over histories of calls, unit conversion of the lags, the values of one map per lag abstract"),
 "P_RunOptions": ("RunOptions, Kwargs", "Python's binding of keyword arguments, a log of the steps called with their arguments, refinement of run to the documented tables of options"),
 "P_PcaRanges": ("PcaFit, FitUtils, EllipPlaw (percentile)", "order statistics of a sorted sample, monotone maps"),
 "P_Weights": ("Construct, InputData", "store of arrays, case analysis of inputs"),
 "P_ScfLags": ("ScfLags, ScfPairs, ScfSpectrum, Scf, Units", "the argument roll_lags as a sum type with units; compute_surface as a loop over (index, lag) pairs that returns the surface and the exception"),
 "P_DendroRun": ("DendroRun, Dendro, Distances", "an object as a record of optional attributes, every call returning the attributes it leaves and the exception; the solver as an oracle that minimises the squared residuals"),
 "P_BreakFit": ("BreakFit, LmSeg, PspecFit", "the regressions as an oracle met by Gram-Schmidt; each turn of the fit is exact on a broken line"),
 "P_BreakRun": ("BreakFit, LmSeg, DeltaVarRun", "as P_BreakFit, through a run of an object"),
 "P_BispecRun": ("BispecRun, Bispec", "an object through runs that may raise; slices of several radii reduced to those of one"),
 "P_GenusRun": ("GenusRun, Genus", "an object through runs that may raise and changes of radii; the distance from the images, with the counts of C116"),
 "P_MomentsRun": ("MomentsRun, StatMoments, StatsUtils", "invariant of the object over histories of calls; weighted sums under a change of units; permutations of the maps of moved images; densities on common bins"),
 "P_WaveletRun": ("WaveletRun, Wavelet, FitState, LmSeg, BreakFit", "invariant of the object over histories of calls; least squares lines are unique, so a tilt of the points tilts the line; a star whose transform is a power law as the case"),
 "P_VcsRun": ("VcsRun, VcsFit, Psds, LmSeg, BreakFit", "what each step of a fit keeps, induction over histories of calls; the regression of an exact line or broken line is unique; cubes with a given spectrum by the inverse transform"),
 "P_TsallisRun": ("TsallisRun, Tsallis", "object with its attributes and arbitrary contents of fresh memory; invariant by induction over calls, loops that stop at an exception as prefix and exception"),
 "P_PdfRun": ("PdfRun, Pdf", "object with its attributes, optimiser and sampler as arbitrary functions of the likelihood; case analysis of every call, any earlier history"),
 "P_Asked": ("BreakFit, LmSeg, PspecFit, DeltaVarRun, WaveletRun", "the segmented fit of an exact line returns the line (its next break is 0/0), so every caller takes its branch without a break; reduction to the theorems on plain power laws"),
 "P_MomentsObj": ("MomentsObj (with MomentErrs in the example)", "invariants by induction over histories of calls, with spectral-cube and the error functions as variables"),
 "P_WidthMethods": ("WidthMethods (with Pca)", "minima of symmetric falling lists, sorting of falling knots, and uniqueness of best fits"),
 "P_WidthImages": ("WidthImages.v: WidthEstimate2D with its four methods, the fitter, the spline and the contour finder oracles", "the coefficients of a quadratic form at three pixels fix the width; counting the sorted values between knots; offsets of equal radius for circular images; strict convexity against a constant"),
 "P_Odr": ("Odr, PcaFit, FitUtils, WidthMethods", "the least misfit of a line over all displacements in closed form, so best lines are minima of a sum over the points; changes of units keep each term; exchange by the substitution 1/a and continuity at 0; probabilities by explicit lines"),
 "P_PlotStyle": ("PlotStyle, Kwargs", "heap of dictionaries with the shared defaults, an invariant of the defaults and a relation of a dictionary to its first contents by induction over the program"),
 "P_Wcs": ("Wcs, StatsUtils", "the matrix of the header as a function; rotations through cos and sin, the inequality between the columns and the rows of a nearly orthogonal matrix"),
 "P_Figures": ("Figures", "the stack of open figures of pyplot with what was drawn in them, and file names as lists of characters; cases over the statistics, lemmas on splitting at the last dot"),
 "P_PlotFit": ("PlotFit, LmSeg", "what is drawn as lists of points; algebra of logarithms"),
 "P_PlotPanels": ("PlotPanels, Dendro", "what is drawn as lists; arithmetic of grids, uniform edges"),
 "P_Orders": ("Psds, Scf, Pca, VcsRun", "sums and counts under permutations, Parseval on each spectrum, the eigenvalue equation of the renumbered matrix"),
 "P_Turned": ("Psds, PspecFit, Scf, ScfSpectrum", "the spectrum as one number per mode; negation and exchange of modes permute the points (frequency, power); the profile under permutations; pairs of pixels of mirrored cubes are the pairs of negated lags"),
 "P_TurnedMoments": ("StatMoments, MomentsRun", "pixels and offsets of the turned picture come from pixels and offsets of the picture; disc, square and pixels permuted; sums, shares and histograms under permutations"),
 "P_TurnedTsallis": ("Tsallis, TsallisRun", "the four neighbours of a pixel are permuted; standardisation and histograms under permutations"),
 "P_TurnedDeltaVar": ("DeltaVar", "the pixels of the image seen are a permutation of those of the image; even kernels follow; weighted sums under permutations"),
 "P_Masking": ("Masking, MakeMoments", "induction on the dilations: a box is convex in the largest-coordinate distance; a weighted mean does not exceed its largest value"),
 "P_BispecTurned": ("Bispec", "modes of the turned image by reversing the double sum; a point source for the refutation"),
 "P_DeltaVarFrame": ("DeltaVar", "the pixels of the larger image are a permutation of those of the image followed by the others; sums over the others vanish because they are blank after the cutoff; a row of three pixels computed for the refutation"),
 "P_WaveletFrame": ("Wavelet", "the image continued by zeros is the same in every frame; coefficients of the surroundings are negative where the kernel is; permutation of the positive coefficients; one bright pixel computed for the refutation"),
 "P_ScfFrame": ("Scf", "the pixels of the larger cube are split into those with a partner in the box, those without and those that are only partners; the lists are permutations by NoDup; the ratios with a blank are zero; counts of the pairs for the factor; two pixels computed for the refutation"),
 "P_TsallisFrame": ("Tsallis, TsallisRun", "the differences outside the inner pixels are blank because one of the five is, with either boundary; the inner ones are a permutation of the list of the specification; the histogram and the standardization depend on the values that are not blank only; run as for C309"),
 "P_MomentsFrame": ("StatMoments", "windows compared pixel by pixel; the valid pixels of a window that is centred outside the image are counted; sums are rearranged"),
 "P_VcsFrame": ("Psds", "Parseval over the sky; sums and counts over a part of the field"),
 "P_PcaFrame": ("Pca", "the order of the pixels does not matter (C304), so the blanks may come last; deviations from a mean sum to zero"),
 "P_PdfArranged": ("PDF on images with the same valid pixels in other places", "the constructor filters before everything else, and permutations commute with filtering; sorting, counting and summing do not depend on the order; blank surroundings and orientations are permutations of the valid pixels"),
 "P_GenusFrame": ("Genus objects of an image and of the image in another place or orientation", "a simulation between the two objects: regions are transported along the map of the pixels, the values are a permutation after blanks are dropped, so minima, maxima, percentiles, means and deviations agree; induction over the calls and over the steps between the images"),
 "P_CramerFrame": ("Cramer distance of cubes in larger blank fields", "the brightest pixels of a channel do not depend on blanks, their number does: longer rows start with the shorter ones; rows of zeros add nothing to the distances of rows; refuted by two cubes that differ in a pixel that is kept only in the larger field"),
 "P_Bootstrap": ("bootstrapped uncertainties of pspec, with the drawn indices as an oracle", "the range bounds the deviation of every resample (about the middle of the range); sums over all draws by induction on their length, then the concavity of the square root"),
 "P_PspecFrame": ("power spectra of images and cubes in larger blank fields", "the Fourier kernel depends on the index through its frequency alone; the sums over the field are sums over the image; an offset is a rotation of the cosine and sine sums"),
 "P_MvcFrame": ("MVC spectra of maps in larger blank fields", "the transforms as in P_PspecFrame; the filled zeros leave the sum of the squares but count in the mean; refuted by one bright pixel in a field of two"),
 "P_SonicUnits": ("units of the sonic length and its bounds", "cases of the conversions; the power of the unit in the bounds of a sampled fit is not one for any exponent"),
 "P_PdfPairsArranged": ("Model/Pdf, Model/PdfDistance", "blank pixels are filtered out before anything else, so the distances are those of the valid pixels; these are a permutation of one another, for which C244 has the distances; blank surroundings and orientations as permutations of the pixels"),
 "P_Construct": ("Construct, InputData", "store of arrays, a frame logic for calls that raise, case analysis of inputs, histories of calls"),
 "P_SliceThickness": ("SliceThickness", "floors and ceilings, blocks of a list"),
}
rows = {}
for c in man:
    if num(c["property"]) < 76:
        continue
    for t in c["theorems"]:
        rows.setdefault(where[t], set()).add(num(c["property"]))
def ranges(s):
    out, s = [], sorted(s)
    i = 0
    while i < len(s):
        j = i
        while j + 1 < len(s) and s[j + 1] == s[j] + 1:
            j += 1
        out.append("C%d" % s[i] if i == j else "C%d-C%d" % (s[i], s[j]))
        i = j + 1
    return ", ".join(out)
plan = "| properties | file | models | proof |\n|---|---|---|---|\n"
for f in sorted(rows, key=lambda f: min(rows[f])):
    m, how = PLAN.get(f, ("", ""))
    plan += "| %s | `%s` | %s | %s |\n" % (ranges(rows[f]), f, m, how)

txt = open(os.path.join(here, "design_head.md")).read().replace("@@PLAN@@", plan)

txt += "## 4. Findings\n\nProperties the code does not have.  Each is proved as a `_refuted` theorem about the\nmodel (a witness, or a general statement); the note says what does hold.\n\n"
for c in man:
    r = [t for t in c["theorems"] if t.endswith("_refuted")]
    if r:
        txt += "* **%s** %s: %s (%s)\n" % (c["property"], props[c["property"]]["title"], c["note"].replace("REFUTED by the code: ", "").replace("REFUTED by the code ", "fails ").replace("REFUTED", "fails"),
                                     ", ".join("`%s`" % t for t in r))
txt += "\nPartial for other reasons (the note says what is missing):\n\n"
for c in man:
    if c["status"] == "partial" and not any(t.endswith("_refuted") for t in c["theorems"]):
        txt += "* **%s** %s: %s\n" % (c["property"], props[c["property"]]["title"], c["note"])

LONG = {"sig_forall_dec": "ClassicalDedekindReals.sig_forall_dec", "sig_not_dec": "ClassicalDedekindReals.sig_not_dec",
        "functional_extensionality_dep": "FunctionalExtensionality.functional_extensionality_dep", "Classical_Prop.classic": "Classical_Prop.classic"}
txt += """
## 5. Axioms

`Print Assumptions` stands beneath every theorem in `Properties/`.  Its output, for all
theorems, uses these four axioms of Coq's standard library and no others:

```
ClassicalDedekindReals.sig_forall_dec : forall P : nat -> Prop,
    (forall n, {P n} + {~ P n}) -> {n | ~ P n} + {forall n, P n}
ClassicalDedekindReals.sig_not_dec : forall P : Prop, {~ ~ P} + {~ P}
FunctionalExtensionality.functional_extensionality_dep : forall A (B : A -> Type) (f g : forall x, B x),
    (forall x, f x = g x) -> f = g
Classical_Prop.classic : forall P : Prop, P \\/ ~ P
```

The first three come with the real numbers of the standard library, `classic` with its
analysis (`exp`, `ln`, `PI`, derivatives).  Coquelicot is used (complex numbers and some
derivatives) and adds no axioms.  By theorem:

"""
for k in sorted(ax, key=lambda k: k.count("|") if k else -1):
    names = [LONG[x] for x in k.split("|")] if k else []
    txt += "* %s (%d theorems): %s\n" % (", ".join("`%s`" % n for n in names) if names else "**no axioms**", len(ax[k]), ", ".join(ax[k]))
have = set(t for v in ax.values() for t in v)
new = [t for t in where if t not in have]
if new:
    txt += "* added since this list was last generated (see the `Print Assumptions` beneath them): %s\n" % ", ".join(sorted(new))

txt += "\n" + open(os.path.join(here, "design_scope.md")).read()
open(os.path.join(root, "DESIGN.md"), "w").write(txt)
missing = [f for f in rows if f not in PLAN]
if missing:
    print("no plan row for", missing)
