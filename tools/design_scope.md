## 6. What is modelled and what is not

Every definition in `Model/` cites the lines it models.  By source file:

| source | modelled in | not modelled |
|---|---|---|
| `io/input_base.py` | InputData | reading of FITS files (astropy) |
| `io/sim_tools.py` | InputData, MakeCube | WCS projection keywords that are constants |
| `io/try_load_beamwidth.py` | InputData | |
| `moments/_moment_errs.py` | MomentErrs | units (all values in the unit of the cube) |
| `moments/make_moments.py` | MakeMoments, MomentErrs, MomentsObj, Masking | signal_id's `Noise` (oracle); the contents of the FITS headers beyond the unit |
| `simulator/gen_field.py` | GenField | the random number generator (angles are arguments) |
| `simulator/make_cube.py`, `spectrum.pyx` | MakeCube | the process pool beyond the order of its results |
| `simulator/threeD_pspec.py` | ThreeD | |
| `statistics/apodizing_kernels.py` | Apodize | |
| `statistics/base_pspec2.py` | Psds, Beam, Apodize, FitState, EllipPlaw, PspecFit, BreakFit, Kwargs | plotting; the least-squares solver (oracle) |
| `statistics/base_statistic.py` | BaseStat, Units, InputData, Construct, Wcs (astropy's proj_plane_pixel_scales and is_proj_plane_distorted are modelled from their documentation) | pickle (an object is its attributes) |
| `statistics/convolve_wrapper.py` | DeltaVar | the choice between the two FFT implementations |
| `statistics/cramer/cramer.py` | Cramer, CramerDistance, Formats | joblib |
| `statistics/delta_variance/*.py` | DeltaVar, DeltaVarRun, FitState, BreakFit, Distances, RunOptions | astropy's model class boilerplate, plotting |
| `statistics/dendrograms/*.py` | Dendro, DendroRun | astrodendro, plotting, reading of HDF5 files |
| `statistics/elliptical_powerlaw.py` | EllipPlaw | the Levenberg-Marquardt solver (oracle) |
| `statistics/fitting_utils.py` | FitUtils | the MCMC sampler and ODR |
| `statistics/genus/genus.py` | Genus, GenusRun | Gaussian smoothing (argument), plotting |
| `statistics/lm_seg.py` | LmSeg, BreakFit, VcsRun | statsmodels (oracle), plotting |
| `statistics/mvc/mvc.py` | Mvc, Beam, BaseStat, PspecFit, Kwargs | plotting |
| `statistics/pca/*.py` | Pca, PcaFit, PcaRun, SonicUnits, Ellipse, WidthMethods, WidthImages, Odr | LAPACK (oracle with its contract), the straight-line fitters and the sampler (oracles), contour finding, splines and the fits of Gaussians (oracles with their contracts) |
| `statistics/pdf/compare_pdf.py` | Pdf, PdfRun, PdfDistance | scipy's fits and the MCMC sampler |
| `statistics/psds.py` | Psds, Bootstrap | the default of `pspec` and its bootstrapped uncertainties are separate models; which draws the generator makes is any |
| `statistics/pspec_bispec/*.py` | Psds, Beam, PspecFit, Bispec, BispecRun, Distances, Kwargs | plotting |
| `statistics/rfft_to_fft.py` | RfftToFft | pyfftw |
| `statistics/scf/scf.py` | Scf, ScfSpectrum, ScfLags, ScfPairs, ScfDistance, EllipPlaw | plotting, saving |
| `statistics/stat_moments/highstatmoments.py` | StatMoments, MomentsRun | plotting |
| `statistics/stats_utils.py` | StatsUtils, InputData, Ellipse | scipy leastsq and LAPACK in `EllipseModel` (oracles with their contracts) |
| `statistics/threeD_to_twoD.py` | Formats, Pca | the memory-mapped variant |
| `statistics/tsallis/tsallis.py` | Tsallis, TsallisRun | scipy's `curve_fit` (oracle), plotting |
| `statistics/vca_vcs/*.py` | Psds, Beam, PspecFit, VcsFit, VcsRun, SliceThickness, Distances, Kwargs | spectral-cube, plotting |
| `statistics/wavelets/wavelet_transform.py` | Wavelet, WaveletRun, BaseStat, FitState, Distances, RunOptions | plotting |

The options of the comparison plots of all distances are modelled in PlotStyle (colours,
symbols and labels; not the axes or files).

Everywhere: floating-point rounding, overflow, the sign of zero, warnings, progress
bars, printing, plotting and execution time are not modelled.  Infinite pixel values are
only modelled where the definition's comment does not exclude them.

External routines given by their documentation rather than by their code, and so part of
the trusted reading: numpy (`fft`, `roll`, `linspace`, `histogram`, `digitize`, `nan*`
reductions, slicing), scipy (`binned_statistic`, `label`, splines as oracles), astropy
(`convolve_fft` as a linear convolution with zero fill, unit conversion as multiplication by
a factor, kernels by their formulas), spectral-cube (`downsample_axis`, `spectral_smooth`,
`spectral_interpolate` as named results), statsmodels, lmfit and emcee (oracles).

Of plotting these parts are modelled: the options handed to the plots (PlotStyle), the stack of open figures and the names of the files (Figures), and the points, fitted lines and residuals (PlotFit), and the panels and bars of PCA, Genus, Tsallis and the dendrograms (PlotPanels). What matplotlib makes of them is not.
