# Properties added while the model grew.
P = []
def p(i, title, st, q, why, *anchors):
    P.append(dict(id=i, title=title, statement=st, quantifier=q, why_tests_cant=why, anchors=list(anchors)))

S = "turbustat/statistics/"

p("C76", "Azimuthal limits refer to the direction of the frequencies",
  "theta_0 of the azimuthal constraint is measured in the same plane as the fitted position angle theta2D: a pixel is kept when the direction atan2(fy, fx) of its frequency (modulo pi) is within delta/2 of theta_0.",
  "all shapes, all theta_0 and delta_theta",
  "a test with theta_0 = 0 or pi/2, or a symmetric spectrum, cannot distinguish a mirrored axis",
  S+"psds.py: pspec, make_radial_arrays, make_radial_freq_arrays", S+"base_pspec2.py: ps2D, fit_2Dpspec")
p("C77", "The proportion of variance explained is a proportion",
  "PCA.var_proportion lies in [0, 1], does not decrease when more components are kept, and is 1 when all are kept.",
  "all non-negative eigenvalue lists with positive sum, any number of components",
  "must hold for every spectrum and every cut",
  S+"pca/pca.py: PCA.compute_pca, PCA.var_proportion, PCA.total_variance")
p("C78", "PCA_Distance(n_eigs=-1) compares all components",
  "With n_eigs=-1 the distance is the one obtained by passing the number of channels explicitly.",
  "all pairs of cubes with the same number of channels",
  "a test with a negligible last eigenvalue does not notice a dropped one",
  S+"pca/pca.py: PCA_Distance.distance_metric")
p("C79", "Precomputed PCA objects give the same distance as the cubes",
  "Passing PCA objects whose decomposition is computed gives the same PCA distance as passing the cubes, for every admissible n_eigs, and leaves the objects unchanged.",
  "all pairs of cubes, all n_eigs between 1 and the number of channels",
  "the boundary n_eigs = number of channels",
  S+"pca/pca.py: PCA_Distance.__init__")
p("C80", "Spatial analysis works for any number of components",
  "PCA.autocorr_images(n_eigs=n) returns n autocorrelation images for every n from 1 to the number of channels.",
  "all cubes, all n",
  "the smallest n is a special shape",
  S+"pca/pca.py: PCA.autocorr_images, PCA.eigimages")
p("C81", "The covariance matrix is a covariance matrix",
  "The channel covariance matrix is symmetric; for cubes without blanks its entries are the sample covariances, it is positive semi-definite and scales with the square of the data.",
  "all cubes, with and without mean subtraction",
  "positive semi-definiteness quantifies over all weightings",
  S+"threeD_to_twoD.py: var_cov_cube")
p("C82", "Blank pixels do not bias the covariance matrix",
  "Every entry of the covariance matrix is computed from the pixels that are valid in both channels.",
  "all cubes with blanks anywhere",
  "bias of order of the blank fraction, for any placement",
  S+"threeD_to_twoD.py: var_cov_cube")
p("C83", "The autocorrelation does not depend on the position of the structure",
  "Shifting an eigenimage cyclically does not change its autocorrelation image.",
  "all images and shifts",
  "the dependence only shows for structure on the first pixel",
  S+"pca/pca.py: PCA.autocorr_images")
p("C84", "The intensity data matrix holds the brightest values of each channel",
  "Each row holds the vec_length largest non-blank values of its channel above the noise limit, in descending order, padded with zeros and divided by the maximum of the cube; the arrangement of pixels in a channel does not matter.",
  "all cubes with blanks, all limits and lengths",
  "all orders and ties",
  S+"threeD_to_twoD.py: intensity_data")
p("C85", "The spectra data format picks the brightest spectra",
  "With data_format='spectra' the columns of the data matrix are the spectra at the pixels with the largest integrated intensity.",
  "all map shapes, all choices of pixels",
  "square maps hide a wrong row length",
  S+"threeD_to_twoD.py: _format_data")
p("C86", "Blank pixels do not bias the delta variance whatever their weight",
  "With user weights, blank pixels are ignored: adding a constant to the image does not change the delta variance.",
  "all images with blanks, all non-negative weight maps",
  "depends on where blanks and weights coincide",
  S+"delta_variance/delta_variance.py: DeltaVariance.compute_deltavar")
p("C87", "The default common lags suit both maps",
  "Without given lags, DeltaVariance_Distance chooses lags that are accepted for both maps and, with default limits, yields a curve distance, also when the pixel sizes differ.",
  "all map sizes and pixel-size ratios",
  "all ratios and sizes",
  S+"delta_variance/delta_variance.py: DeltaVariance_Distance.__init__, DeltaVariance_Distance.distance_metric")
p("C88", "Computed delta variances are recomputed at the common lags",
  "A DeltaVariance object given to DeltaVariance_Distance whose lags differ from the common lags is recomputed at the common lags.",
  "all stored and common lags",
  "state left by an earlier run",
  S+"delta_variance/delta_variance.py: DeltaVariance_Distance.__init__")
p("C89", "GaussianAnnulus2D is centred where its parameters say",
  "The annulus model vanishes at (x_mean, y_mean) and depends only on the distance from there.",
  "all parameters",
  "the library itself only uses the origin",
  S+"delta_variance/kernels.py: GaussianAnnulus2D.evaluate")

p("C90", "Lags mean the same in any unit",
  "Lags or scales given in angular units are used as the equivalent number of pixels by DeltaVariance, Wavelet and Tsallis, whether passed to the constructor or assigned later.",
  "all values, units and pixel sizes",
  "tests assign lags in pixels",
  S+"delta_variance/delta_variance.py: lags, compute_deltavar", S+"wavelets/wavelet_transform.py: scales", S+"tsallis/tsallis.py: lags")
p("C91", "The segmented model is a function of the point",
  "The value Lm_Seg.model gives at a point does not depend on which other points are asked for.",
  "all parameters, points and sets of points",
  "tests evaluate on the fitted points only",
  S+"lm_seg.py: Lm_Seg.model")
p("C92", "A dropped break leaves a straight line",
  "When the break is dropped, Lm_Seg.model is the fitted straight line at all points.",
  "all parameters and points",
  "shows only beyond the data",
  S+"lm_seg.py: Lm_Seg.model, Lm_Seg.fit_model")
p("C93", "The error of the break does not depend on the units of y",
  "Rescaling y leaves the break and its error unchanged; the error is the standard error of the ratio of the fitted terms.",
  "all fits",
  "needs a relation between two fits",
  S+"lm_seg.py: Lm_Seg.brk_errs")
p("C94", "The start of the break lies in the data",
  "Lm_Seg raises ValueError when the start of the break is outside the range of the finite x.",
  "all data with blanks",
  "depends on where the blanks are",
  S+"lm_seg.py: Lm_Seg.__init__")
p("C95", "Blank points are dropped with their weights",
  "A weighted segmented fit with blank points fits the remaining points with their weights.",
  "all data and weights",
  "depends on where the blanks are",
  S+"lm_seg.py: Lm_Seg.__init__, Lm_Seg.fit_model")
p("C96", "Every accepted start of the break can be fitted",
  "If the constructor accepts the start of the break, fit_model does not raise.",
  "all data, all behaviours of the solver",
  "boundary starts",
  S+"lm_seg.py: Lm_Seg.fit_model")
p("C97", "Residual bootstrap resamples around the fit",
  "The resampled data are the fitted values plus resampled residuals.",
  "all fits and draws",
  "random draws",
  S+"fitting_utils.py: residual_bootstrap")
p("C98", "Break, break error and slopes of an object belong to the last fit",
  "After any sequence of fits an object has one slope and neither break nor break error, or two slopes and a break with its error.",
  "all histories of fits",
  "histories",
  S+"base_pspec2.py: fit_pspec", S+"delta_variance/delta_variance.py: fit_plaw", S+"wavelets/wavelet_transform.py: fit_transform")
p("C99", "Reported errors are errors of the reported values",
  "slope_err and brk_err of a fit with a break are standard errors of the slopes and of the break reported.",
  "all fits",
  "numbers look plausible",
  S+"base_pspec2.py: fit_pspec", S+"lm_seg.py: Lm_Seg.get_slopes")
p("C100", "A fitted break is a scale in pixels",
  "The break of a fit can be converted to pixels and used as the break of another fit.",
  "all objects and values",
  "unit handling",
  S+"wavelets/wavelet_transform.py: Wavelet.fit_transform", S+"delta_variance/delta_variance.py: fit_plaw")
p("C101", "The break search of VCS",
  "VCS.fit_pspec starts from a break of the spline that works, and falls back to a fit without a break when none does.",
  "all sets of breaks, all behaviours of the fits",
  "depends on which starts fail",
  S+"vca_vcs/vcs.py: VCS.fit_pspec")
p("C102", "VCS distance",
  "The VCS distance is symmetric and zero only for equal slopes.",
  "all slopes and errors, with blanks",
  "all values",
  S+"vca_vcs/vcs.py: VCS_Distance.distance_metric")
p("C103", "Genus distance",
  "The genus distance is symmetric and compares the genus per sky area: it is zero for equal curves of the same area.",
  "all curves, sizes and pixel scales",
  "all scales",
  S+"genus/genus.py: Genus_Distance.distance_metric")
p("C104", "Bispectrum distances",
  "Surface and mean distance are symmetric, and zero iff the bicoherences are equal; maps of different shape have no surface distance.",
  "all arrays",
  "all values",
  S+"pspec_bispec/bispec.py: Bispectrum_Distance.distance_metric")
p("C105", "Likelihood of the Bayesian line fit",
  "bayes_linear samples the likelihood of a straight line y = tan(theta) x + b with independent normal errors in both coordinates.",
  "all data and parameters",
  "an identity",
  S+"fitting_utils.py: bayes_linear")
p("C106", "Errors of the 2D fit belong to the returned fit",
  "Without the bootstrap, the standard errors returned by fit_elliptical_powerlaw are the square roots of the diagonal of the covariance found together with the returned parameters.",
  "all data and solver outcomes",
  "the solver's outcomes cannot be enumerated",
  S+"elliptical_powerlaw.py: fit_elliptical_powerlaw")
p("C107", "2D fit with fixed ellipticity",
  "fit_2Dpspec with fix_ellip_params=True stores a slope, angle and ellipticity with their errors, with and without bootstrap.",
  "all data and solver outcomes",
  "the solver's outcomes cannot be enumerated",
  S+"elliptical_powerlaw.py: fit_elliptical_powerlaw", S+"base_pspec2.py: StatisticBase_PSpec2D.fit_2Dpspec")
p("C108", "Generated images have the spectrum that was asked for",
  "The power of a generated image follows the elliptical power-law surface of the 2D fit with the same index, ellipticity and angle, at every frequency off the Nyquist lines.",
  "all even sizes, phases, indices, ellipticities, angles and frequencies",
  "an identity for all sizes and random phases",
  "turbustat/simulator/gen_field.py: make_extended", S+"elliptical_powerlaw.py: LogEllipticalPowerLaw2D.evaluate")
p("C109", "Random phases have unit amplitude",
  "The phases of make_extended are rescaled to an amplitude of unity, so that the power of the isotropic image at frequency k is k^-powerlaw.",
  "all even sizes and phases",
  "all random phases",
  "turbustat/simulator/gen_field.py: make_extended")
p("C110", "Choice of the apodizing kernel",
  "apodizing_kernel returns the window with the given name and parameters, with the shape of the image or of a channel of the cube, and refuses other names.",
  "all shapes, names and parameters",
  "all shapes and names",
  S+"base_pspec2.py: StatisticBase_PSpec2D.apodizing_kernel")
p("C111", "Ranges of the stored 2D fit",
  "theta2D lies in [0, pi) and equals the fitted angle modulo pi; ellip2D lies in (0, 1) and its error is the fitted error carried through the transformation.",
  "all fitted parameters",
  "all real parameters",
  S+"base_pspec2.py: StatisticBase_PSpec2D.fit_2Dpspec")
p("C112", "The better of two fits is kept",
  "fit_elliptical_powerlaw fits from two perpendicular starting angles and returns the parameters with the smaller sum of absolute residuals; non-finite data and unknown methods are refused.",
  "all data and solver outcomes",
  "the solver's outcomes cannot be enumerated",
  S+"elliptical_powerlaw.py: fit_elliptical_powerlaw")
p("C113", "Residual bootstrap of the 2D fit",
  "Each bootstrap sample is the fitted model plus the residuals in random order, and the errors are not negative.",
  "all data, models and permutations",
  "all permutations",
  S+"elliptical_powerlaw.py: fit_elliptical_powerlaw")
p("C114", "Tapers vanish at the edge of the image",
  "The Tukey and Hanning windows are zero at the edge of the image, so that apodized data are periodic.",
  "all image sizes and taper widths",
  "all sizes and widths",
  S+"apodizing_kernels.py: TukeyWindow, HanningWindow")
p("C115", "Fourier map of the generated cube",
  "make_3dfield(return_fft=True) returns the full Fourier map, with the negative frequencies and the zero frequency at the centre; the map is Hermitian.",
  "all sizes and phases",
  "all sizes and random phases",
  "turbustat/simulator/gen_field.py: make_3dfield")
G = S + "genus/genus.py: "
p("C116", "The genus is the difference of two region counts",
  "With thresholds t and minimum size m, each entry of genus_stats is the number of connected regions above t with at least m pixels minus the number of those below t; without small-object removal all regions count.",
  "all images with blanks and infinities, thresholds, sizes and connectivities",
  "all topologies of regions", G + "Genus.make_genus_curve", G + "remove_small_objects")
p("C117", "Invariances of the genus",
  "Without smoothing the genus does not change when the image is transposed or mirrored, when a border of blank pixels is added, or when image and thresholds pass through the same increasing function.",
  "all images, borders and increasing functions", "all images and functions", G + "Genus.make_genus_curve")
p("C118", "Genus thresholds",
  "Thresholds are numpts equally spaced values between min_value and max_value (defaults: the extrema); a percentile above min_value (below max_value) overrides it; explicit thresholds override all.",
  "all data and settings", "all combinations of settings", G + "Genus.__init__")
p("C119", "Genus_Distance uses numpts", "Genus_Distance computes both curves at numpts thresholds.",
  "all data and numpts", "all settings", G + "Genus_Distance.__init__")
p("C120", "One genus table per smoothed image", "make_genus_stats_table returns one table per smoothing radius, holding that radius' curve, mean, standard deviation and radius.",
  "all curves and radii", "all numbers of radii", G + "Genus.make_genus_stats_table")
p("C121", "Smoothing radii", "Radii are accepted exactly when all lie between one pixel and half of the smaller image axis; by default five radii from one pixel to a tenth of the smaller axis are used.",
  "all image shapes and radii", "all shapes and radii", G + "Genus.smoothing_radii", G + "Genus.__init__")
p("C122", "Regions are counted with eight-connectivity", "connectivity only chooses the neighbourhood used to remove small regions; the regions are counted with eight-connectivity.",
  "all images, thresholds and connectivities", "all topologies", G + "Genus.make_genus_curve")
p("C123", "Gaussian genus curve", "model_gaussian_genus is odd, has the sign of its argument and its largest value at one standard deviation.",
  "all arguments and positive amplitudes", "all reals", G + "model_gaussian_genus")
M = S + "stat_moments/highstatmoments.py: "
D = S + "pdf/compare_pdf.py: "
p("C124", "min_frac counts the pixels of the circular region", "A pixel gets moments when at least the share min_frac of the pixels of its circular region is finite in image and weights.",
  "all images, blanks, radii, boundary modes and positions", "all blank patterns", M + "StatMoments.compute_spatial_distrib")
p("C125", "run uses min_frac", "StatMoments.run(min_frac=f) computes the maps with the minimum share f.",
  "all settings", "all settings", M + "StatMoments.run")
p("C126", "Moment radius", "The radius is accepted exactly when it lies between two pixels and half of the smaller axis, and is rounded down to whole pixels.",
  "all radii, units and shapes", "all real radii", M + "StatMoments.radius", M + "StatMoments.compute_spatial_distrib")
p("C127", "Moment maps move with the image", "With periodic=True, cyclically shifting image and weights shifts the moment maps by the same amount.",
  "all images, shifts and radii", "all shifts", M + "StatMoments.compute_spatial_distrib")
p("C128", "Common angular radius", "StatMoments_Distance with a radius in pixels uses the same angular radius in both images; the image with the coarser grid keeps the given radius.",
  "all pixel sizes and radii", "all real pixel sizes", M + "StatMoments_Distance.__init__")
p("C129", "Pre-computed StatMoments", "StatMoments_Distance accepts a StatMoments for either image, whatever its radius and nbins, and its histograms can be computed.",
  "all settings of the two objects", "all combinations", M + "StatMoments_Distance.__init__", M + "StatMoments_Distance.create_common_histograms")
p("C130", "Histograms of the moment maps", "Each histogram of a moment map is a density with integral 1 over nbins bins covering all non-blank values; blanks are ignored.",
  "all maps and numbers of bins", "all data", M + "StatMoments.make_spatial_histograms")
p("C131", "KS distance of PDFs", "The KS distance is the largest difference of the two distribution functions; it is symmetric, lies in [0,1], satisfies the triangle inequality, is 0 for the same values, 1 for separated ones, and does not change under a common increasing function.",
  "all data sets and increasing functions", "all data", D + "PDF_Distance.compute_ks_distance")
p("C132", "Hellinger distance of PDFs", "The Hellinger distance of two PDFs is symmetric, lies in [0,1], vanishes exactly for equal normalised PDFs and does not depend on their normalisation.",
  "all non-negative PDFs", "all data", D + "PDF_Distance.compute_hellinger_distance")
p("C133", "Percentiles of the PDF", "find_at_percentile is non-decreasing, returns the minimum at 0 and the maximum at 100, and refuses percentiles outside [0,100].",
  "all data and percentiles", "all data", D + "PDF.find_at_percentile")
p("C134", "Fixed parameters of the PDF fit", "fit_pdf can fix loc, scale or both; the likelihood uses the fixed values and the remaining parameters in order.",
  "all models, parameters and settings", "all models", D + "PDF.fit_pdf")
E = "turbustat/moments/make_moments.py: "
p("C135", "Noise level of Moments", "The noise level of a Moments object is None or a non-negative quantity with the unit of the cube, after any history of assignments; others raise TypeError, UnitsError or ValueError and keep the previous level.",
  "all histories of assignments", "all histories", E + "Moments.scale")
p("C136", "Moments without units", "make_moments(units=False) computes the three maps and returns them without units.",
  "all cubes", "all cubes", E + "Moments.make_moments")
p("C137", "Noise level given to make_moment_errors", "make_moment_errors(scale=s) computes the errors for the noise s; without any noise level they are 0; it needs make_moments first.",
  "all states of the object and noise levels", "all states", E + "Moments.make_moment_errors")
p("C138", "Units in the headers of the moment maps", "The headers of the maps written by to_fits carry the units of the maps: cube unit times spectral unit for the zeroth moment, spectral unit for centroid and line width.",
  "all cube and spectral units", "all units", E + "Moments.get_prop_hdrs", E + "Moments.to_fits")
p("C139", "Accepted moment methods work", "Every moment_method accepted by Moments can be used for the moments and for their errors.",
  "all methods, cubes and noise levels", "all states", E + "Moments.__init__", E + "Moments.make_moment_errors", "turbustat/moments/_moment_errs.py: moment0_error")
p("C140", "Saved moments can be loaded again", "After Moments(file).to_fits(), Moments.from_fits(file) returns the saved maps and errors, with or without a mask.",
  "all file names, directories and maps", "all file names", E + "Moments.to_fits", E + "Moments.from_fits")
p("C141", "to_fits and existing files", "to_fits raises when one of its three files exists, unless overwrite is set, changes no other file, and needs the errors to be computed.",
  "all states of the file system and of the object", "all states", E + "Moments.to_fits")
p("C142", "Gaussian smoothing kernel", "gauss_kern is positive, has sum 1, is symmetric and largest at the centre.",
  "all positive sizes", "all sizes", E + "gauss_kern")
Q = "turbustat/simulator/make_cube.py: "
p("C143", "Reversed line of sight", "Reversing the velocity and density fields along the line of sight leaves the synthetic cube and its axis unchanged.",
  "all fields, axes and settings", "all fields", Q + "make_ppv", "turbustat/simulator/spectrum.pyx: generate_spectrum")
p("C144", "Galilean shift of synthetic cubes", "Adding a constant to the velocity field, and to the limits when given, shifts the velocity axis by that constant and leaves the cube unchanged.",
  "all fields, shifts and settings", "all real shifts", Q + "make_ppv")
p("C145", "Every cell emits", "Each cell of the fields contributes its density times its thermal line to the spectrum of its pixel; a uniform velocity field gives the thermal line itself.",
  "all fields and settings", "cells on channel edges are a measure-zero set", "turbustat/simulator/spectrum.pyx: generate_spectrum")
p("C146", "Units of the velocity limits", "The cube does not depend on the velocity units in which limits and channel width are given.",
  "all units, limits and widths", "all units", Q + "make_ppv")
p("C147", "Negative line-of-sight axes", "A negative los_axis -k means axis 3-k, as everywhere in numpy.",
  "all fields and settings", "all fields", Q + "make_ppv, field_slice")
p("C148", "Reference pixel of synthetic headers", "The reference pixel in the headers of synthetic cubes and images is at the centre of the image.",
  "all image shapes", "all shapes", "turbustat/io/sim_tools.py: create_cube_header, create_image_header", "turbustat/simulator/make_cube.py: make_ppv")
p("C149", "Spectral axis of synthetic headers", "The spectral axis in the header of the returned HDU gives the velocity of every channel of the cube.",
  "all fields and settings", "all channel numbers", Q + "make_ppv", "turbustat/io/sim_tools.py: create_cube_header")
T = "turbustat/simulator/threeD_pspec.py: "
p("C150", "Bins of the 3D power spectrum", "threeD_pspec returns one finite mean and standard deviation per bin of the mode frequency, over exactly the modes in the bin, each bin being non-empty.",
  "all shapes and fields", "all shapes", T + "threeD_pspec")
p("C151", "Invariances of the 3D power spectrum", "threeD_pspec is unchanged by cyclic shifts and added constants and scales with the square of a factor.",
  "all fields, shifts, offsets and factors", "all fields", T + "threeD_pspec")
p("C152", "Total power of the 3D power spectrum", "The bin means weighted with the number of modes add up to the number of cells times the sum of squares minus the squared sum of the field.",
  "all fields and shapes with a side of at least 3", "all fields", T + "threeD_pspec")
B = "turbustat/statistics/pspec_bispec/bispec.py: "
p("C153", "Shifted images have the same bispectrum", "A cyclic shift of the image changes neither bispectrum nor bicoherence for the same seed.",
  "all images, shifts and draws", "all draws", B + "Bispectrum.compute_bispectrum")
p("C154", "Factors and offsets in the bispectrum", "Multiplying the image with c multiplies the bispectrum with c^3 and keeps the bicoherence; with mean_subtract an added constant changes nothing.",
  "all images, factors, offsets and draws", "all real factors", B + "Bispectrum.compute_bispectrum")
p("C155", "Tracker counts samples", "The tracker holds the number of samples taken at each position of the Fourier plane.",
  "all images, shapes and draws", "all draws", B + "Bispectrum.compute_bispectrum", B + "Bispectrum.tracker")
p("C156", "Slices through the bispectrum", "azimuthal_slice and radial_slice average the finite values in the ring or wedge over bins of the requested width that cover the plane.",
  "all surfaces, rings, wedges and bin widths", "all surfaces", B + "Bispectrum.azimuthal_slice", B + "Bispectrum.radial_slice")
p("C157", "Bispectrum distance", "The surface distance is the L2 norm of the difference of the bicoherences and the mean distance the difference of their means; both are metrics-like and vanish for equal images.",
  "all pairs of images", "all pairs", B + "Bispectrum_Distance.distance_metric")
TS = "turbustat/statistics/tsallis/tsallis.py: "
p("C158", "Values of Tsallis lag differences", "The lag difference is the mean of the four pixels at that distance minus the pixel; beyond the border the image is repeated (periodic=True) or zero; it is blank exactly where one of the five is.",
  "all images, lags, positions and blank patterns", "all blank patterns", TS + "Tsallis.make_tsallis")
p("C159", "Tsallis lag validation", "Lags are accepted exactly when each is at least one pixel and its whole part at most half of the smaller side; other lags raise ValueError.",
  "all lags in all units, all shapes", "all real lags", TS + "Tsallis.lags")
p("C160", "Tsallis statistics ignore brightness scale and offset", "Multiplying the image with a positive factor and adding a constant changes neither lag arrays nor distributions; a negative factor flips the sign of the arrays.",
  "all images, factors and offsets, both boundary modes", "all real factors", TS + "Tsallis.make_tsallis")
p("C161", "Tsallis distributions", "Lag arrays have mean 0 and variance 1, and the distribution holds log10 of the share of values in equal bins covering them (minus infinity for empty bins); by default the number of bins is the rounded-up root of the number of finite pixels.",
  "all images, lags and bin numbers", "all data", TS + "Tsallis.make_tsallis")
p("C162", "Tsallis parameters", "Different parameters give different functions, logA is the log10 of the amplitude of the distribution, and the fit starts from a curve as high as the distribution.",
  "all parameters with q>1", "continuum", TS + "tsallis_function")
p("C163", "Reduced chi-square of the Tsallis fit", "tsallis_chisq is the reduced chi-square of the fit to the histogram.",
  "all histograms and fits", "all data", TS + "Tsallis.fit_tsallis", TS + "Tsallis.tsallis_chisq")
DN = "turbustat/statistics/dendrograms/dendro_stats.py: "
p("C164", "Accepted min_deltas", "min_deltas may be an array, a list or a single number; increasing values are kept, one threshold per value, and other values raise ValueError. None stands for the min_delta of dendro_params, one threshold.",
  "all arrays, lists and numbers", "all lengths and orders", DN + "Dendrogram_Stats.min_deltas")
p("C165", "Automatic min_deltas", "min_deltas='auto' gives num_deltas equally spaced thresholds from min_delta to below the peak above min_value, also when parameters are left to their defaults.",
  "all data and parameters", "all data", DN + "Dendrogram_Stats.autoset_min_deltas")
p("C166", "Feature counts by pruning", "numfeatures and values hold the counts and peaks after pruning to each min_delta in turn, counts never grow, and running again with the same dendrogram object gives the same counts.",
  "all dendrograms and increasing thresholds", "all histories of runs", DN + "Dendrogram_Stats.compute_dendro")
p("C167", "Thresholds used by a dendrogram comparison", "The histogram distance uses every min_delta at which both dendrograms have more than min_features features, and no others.",
  "all feature counts", "all counts", DN + "Dendrogram_Distance.__init__", DN + "Dendrogram_Distance.histogram_stat")
p("C168", "Repeating the histogram distance", "Calling histogram_stat or distance_metric again on the same object gives the same distance.",
  "all histories", "histories", DN + "Dendrogram_Distance.histogram_stat")
p("C169", "Dendrogram histogram distance", "The distance is the mean Hellinger distance of the shares of standardized peaks in common bins: between 0 and 1, symmetric, zero for equal data, and unchanged by brightness scale and offset.",
  "all pairs of dendrograms with varied peaks", "all data", DN + "Dendrogram_Distance.histogram_stat", DN + "hellinger_stat")
p("C170", "Common thresholds of a dendrogram comparison", "Both dendrograms of a comparison are computed with the min_deltas of the comparison.",
  "all datasets and precomputed objects", "all thresholds", DN + "Dendrogram_Distance.__init__")
p("C171", "Keyword dictionaries of a dendrogram comparison", "make_hists and verbose may be given in dendro_kwargs and dendro2_kwargs (they are overridden), and the dictionaries of the caller are not changed.",
  "all keyword dictionaries", "all combinations", DN + "Dendrogram_Distance.__init__")
p("C172", "Break and tail of the feature counts", "std_window returns the centre of the first window of the given size with the largest standard deviation, and fit_numfeat fits the points from there on, at least two, all with more than one feature.",
  "all counts and window sizes", "all sizes", DN + "std_window", DN + "Dendrogram_Stats.fit_numfeat")
MV = "turbustat/statistics/mvc/mvc.py: "
BP = "turbustat/statistics/base_pspec2.py: "
p("C173", "Documented MVC spectrum", "The MVC power spectrum at every frequency is |F(M0 M1)|^2 - <M2> |F(M0)|^2, as documented.",
  "all maps without blanks, all frequencies", "all maps and shapes", MV + "MVC.compute_pspec", MV + "MVC.__init__")
p("C174", "Units of the MVC maps", "Changing the intensity or the velocity unit of the maps multiplies the MVC spectrum by one constant, so its slope does not change.",
  "all maps and unit factors", "all maps and factors", MV + "MVC.compute_pspec")
p("C175", "Symmetries of the MVC spectrum", "Moving the three maps together cyclically leaves the spectrum unchanged, and opposite frequencies have equal values.",
  "all maps and shifts", "all shifts and shapes", MV + "MVC.compute_pspec")
p("C176", "Apodized MVC spectrum", "Apodizing tapers the intensities: it gives the spectrum of the maps with moment 0 multiplied by the kernel.",
  "all maps and kernels", "all kernels", MV + "MVC.compute_pspec")
p("C177", "Error weighting in MVC_Distance", "Weighting by errors that are the same everywhere only changes the spectrum by a constant factor, and a single pixel without a usable error does not blank it.",
  "all maps and errors", "all maps", MV + "MVC_Distance.__init__")
p("C178", "Beam correction", "With beam_correct, the power spectrum of an image or cube convolved with the beam is that of the image or cube, blank where the beam has no power; without a beam AttributeError is raised.",
  "all images, cubes and beams", "all shapes and beams", BP + "StatisticBase_PSpec2D.compute_beam_pspec", "turbustat/statistics/pspec_bispec/pspec.py: PowerSpectrum.compute_pspec", "turbustat/statistics/vca_vcs/vca.py: VCA.compute_pspec", MV + "MVC.compute_pspec")
W = "turbustat/statistics/wavelets/wavelet_transform.py: "
p("C179", "Linearity of the wavelet transform", "Multiplying the image by a positive number multiplies the wavelet values and their uncertainties by it; the coefficient maps of a sum of images add up.",
  "all images, scales and factors", "all factors and images", W + "Wavelet.compute_transform")
p("C180", "Scale normalization", "Without scale normalization each value and uncertainty is multiplied by the square of its scale in pixels.",
  "all images and scales", "all scales", W + "Wavelet.compute_transform")
p("C181", "Uncertainty of wavelet values", "The uncertainty is the standard deviation of the positive coefficients divided by the square root of the number of whole kernel areas in the image; it is a finite number whenever a coefficient is positive and the scale was accepted.",
  "all images and accepted scales", "all shapes and scales", W + "Wavelet.compute_transform", W + "Wavelet.scales")
p("C182", "Orientation of the image", "Transposing or mirroring the image changes no wavelet value and no uncertainty.",
  "all images", "all shapes", W + "Wavelet.compute_transform")
p("C183", "Position of the emission", "Moving the emission within the field moves the coefficient maps by the same amount; blanks and the outside count as zero.",
  "all images and shifts", "all shifts", W + "Wavelet.__init__", W + "Wavelet.compute_transform")
p("C184", "Default wavelet scales", "The default scales are num increasing scales from 1.667 pixels to half of the smaller side, and are accepted for every image.",
  "all shapes and num", "all shapes", W + "Wavelet.__init__", W + "Wavelet.scales")
p("C185", "Range of the wavelet fit", "The fit uses exactly the scales within xlow and xhigh, both included; a break outside the limits raises ValueError.",
  "all scales and limits", "all limits", W + "Wavelet.fit_transform")
p("C186", "Points around a break", "A fitted break is kept only if at least min_fits_pts points lie below it and at least as many above it.",
  "all points, breaks and minima", "all break positions", W + "Wavelet.fit_transform", "turbustat/statistics/base_pspec2.py: StatisticBase_PSpec2D.fit_pspec", "turbustat/statistics/delta_variance/delta_variance.py: DeltaVariance.fit_plaw")
p("C187", "Number of scales in Wavelet_Distance", "Wavelet_Distance compares transforms at num scales.",
  "all images and num", "all num", W + "Wavelet_Distance.__init__")
SL = "turbustat/statistics/vca_vcs/slice_thickness.py: "
p("C188", "Smoothing before regridding", "The Gaussian smoothing applied before regridding and the old channel width add up in quadrature to the requested width.",
  "all cubes and widths", "all ratios", SL + "spectral_regrid_cube")
p("C189", "New spectral axis", "A regridded cube covers the same spectral range in the same direction with uniform channels at least as wide as requested.",
  "all uniform spectral axes and widths", "all axes and widths", SL + "spectral_regrid_cube")
p("C190", "Unit of the channel width", "The result depends on the channel width, not on the unit it is expressed in.",
  "all widths and spectral units", "all units", SL + "spectral_regrid_cube")
p("C191", "The caller's cube", "Changing the slice thickness leaves the cube passed in as it was.",
  "all calls", "all calls, including failing ones", SL + "spectral_regrid_cube")
p("C192", "Flux of a downsampled cube", "Downsampling averages consecutive channels and keeps the integrated intensity of every spectrum.",
  "all spectra and factors", "all lengths and factors", SL + "spectral_regrid_cube")
p("C193", "VCA of one thick slice", "VCA with a channel width of the whole cube is the power spectrum of the mean image.",
  "all cubes", "all shapes", SL + "spectral_regrid_cube", "turbustat/statistics/vca_vcs/vca.py: VCA.__init__", "turbustat/statistics/vca_vcs/vca.py: VCA.compute_pspec")
PC = S + "pca/pca.py: "
p("C194", "Autocorrelation spectra", "Every spectrum returned by autocorr_spec is the circular autocorrelation of its eigenvector.",
  "all eigenvectors, numbers of components and lags", "all vectors", PC + "PCA.autocorr_spec")
p("C195", "Spectral widths", "find_spectral_widths gives one width per retained component: the first lag at which the interpolated autocorrelation spectrum is 1/e of its peak; NaN only when that level is never reached.",
  "all eigenvectors and numbers of components", "all vectors and numbers of components, including one", PC + "PCA.find_spectral_widths", PC + "PCA.autocorr_spec", S + "pca/width_estimate.py: WidthEstimate1D")
p("C196", "Negative numbers of autocorrelation spectra", "autocorr_spec(n_eigs=-k) returns the last k autocorrelation spectra, as documented.",
  "all eigenvectors and numbers", "all numbers", PC + "PCA.autocorr_spec")
p("C197", "Components used in the size-line width fit", "fit_plaw fits exactly the components with finite widths and errors whose size is between xlow and xhigh, whatever the unit of the limits; fewer than two raise and leave the last fit.",
  "all widths, limits, units and earlier fits", "all combinations of limits, units and blanks", PC + "PCA.fit_plaw")
p("C198", "Refused fits", "A call of fit_plaw that raises leaves the results of the last successful fit, including its sonic length.",
  "all sequences of fits", "all histories of successful and failing calls", PC + "PCA.fit_plaw", PC + "PCA.sonic_length")
p("C199", "Sonic length", "At the sonic length the fitted line width equals the sound speed; the sonic length does not depend on the channel width and grows with the temperature.",
  "all fits, temperatures, mean molecular weights and channel widths", "all parameters", PC + "PCA.sonic_length")
p("C200", "Range of the sonic length (ODR)", "The range contains the sonic length and does not depend on the channel width.",
  "all fits, temperatures and channel widths", "all parameters", PC + "PCA.sonic_length")
p("C201", "Range of the sonic length (MCMC)", "The range holds the 15th to 85th percentile of the sonic lengths of the samples.",
  "all samples of slope and intercept", "all samples", PC + "PCA.sonic_length")
p("C202", "Corrected index", "gamma follows from the documented relations and lies in gamma_error_range.",
  "all indices and error ranges", "all indices", PC + "PCA.gamma", PC + "PCA.gamma_error_range", PC + "brunt_index_correct")
p("C203", "Error of the spatial width", "The error of the combined spatial width lies between the errors along the two axes.",
  "all widths, errors and beams", "all widths", S + "pca/width_estimate.py: WidthEstimate2D")
p("C204", "Model of the size-line width relation", "PCA.model(x) returns the fitted line at x.",
  "all fits and x", "all fits", PC + "PCA.model")
p("C205", "Sign of the eigenvectors", "Autocorrelation images, noise autocorrelation, autocorrelation spectra and spectral widths do not depend on the signs of the eigenvectors.",
  "all cubes, eigenvectors, signs and numbers of components", "a test sees the sign one LAPACK build returns", PC + "PCA.autocorr_images", PC + "PCA.autocorr_spec", PC + "PCA.noise_ACF")
EL = S + "stats_utils.py: EllipseModel."
WE = S + "pca/width_estimate.py: "
p("C206", "Recovery of an ellipse", "Fitting points of one ellipse gives that ellipse: predict_xy over all angles runs over the points of the ellipse and no others.",
  "all ellipses and all sets of points that determine one", "all ellipses, orientations and point sets", EL + "estimate", EL + "predict_xy")
p("C207", "Least-squares fit of an ellipse", "When the fit succeeds, the fitted ellipse has the least algebraic distance to the points among all conics of the same discriminant.",
  "all sets of points, all competing conics", "all point sets against all other conics", EL + "estimate")
p("C208", "Success of the ellipse fit", "The fit succeeds for all points that are not on a line nor on one conic; for points on a line it fails and gives NaN widths.",
  "all sets of points", "all point sets", EL + "estimate", WE + "fit_2D_ellipse")
p("C209", "Placement of the points of an ellipse", "The fit does not depend on the order of the points; shifting or scaling the points shifts or scales the centre and the axes and nothing else.",
  "all sets of points, shifts and factors", "all point sets, shifts and factors", EL + "estimate")
p("C210", "Major axis of the fitted ellipse", "The fitted angle is that of the major axis: the first axis is never shorter than the second.",
  "all ellipses and all correct answers of the eigenvalue solver", "depends on the sign an eigenvalue solver happens to give", EL + "estimate")
p("C211", "Width of a Gaussian contour", "The spatial width from the 1/e contour of a Gaussian autocorrelation image is the root of the sum of its squared standard deviations, with zero error; contours without the origin are ignored, and if there is no other the width is NaN.",
  "all Gaussians along the axes, all determining contour points, all random draws, all other contours", "all draws and contours", WE + "WidthEstimate2D", WE + "fit_2D_ellipse", EL + "estimate_stderrs")
p("C212", "Residual bootstrap of the ellipse", "Bootstrap samples move each point by one of the residuals, preserving that distance; the errors are zero for points on an ellipse.",
  "all points, residuals and random draws", "all random draws", EL + "estimate_stderrs")
p("C213", "Invalid alpha", "An alpha outside [0, 1) given to find_spatial_widths raises ValueError.",
  "all contours and alpha", "all alpha", EL + "estimate_stderrs", WE + "fit_2D_ellipse", WE + "WidthEstimate2D")
p("C214", "Eigenimages", "PCA.eigimages(n) gives n maps; pixel (y, x) of each is the projection of the (mean-subtracted) spectrum of that pixel on the eigenvector, blank values counting zero.",
  "all cubes with or without blanks, all numbers of components, positive and negative", "all cubes and eigenvectors", PC + "PCA.eigimages")
p("C215", "Variance of the eigenimages", "The sum of squares of an eigenimage is its eigenvalue times the divisor of the covariances; images of orthogonal eigenvectors are uncorrelated; with mean_sub every image sums to zero.",
  "all cubes without blanks, all eigenvectors", "all cubes and eigenvectors", PC + "PCA.eigimages", PC + "PCA.compute_pca", S + "threeD_to_twoD.py: var_cov_cube")
p("C216", "Reconstruction from all components", "The eigenimages of all components, weighted with the eigenvectors, give back the cube less the channel means, and the eigenvalues sum to the total variance of the channels.",
  "all cubes without blanks, all orthonormal sets of eigenvectors", "all cubes and eigenvectors", PC + "PCA.eigimages", PC + "PCA.compute_pca", S + "threeD_to_twoD.py: var_cov_cube")
BS = S + "base_statistic.py: BaseStatisticMixIn."
p("C217", "Arguments left unchanged", "Constructing a statistic changes no array of the caller, whether it succeeds or raises.",
  "all statistics, all arrays, headers, weights and kinds of input", "all inputs, and aliasing between arguments and the arrays the statistic keeps", BS + "input_data_header", S + "pspec_bispec/pspec.py: PowerSpectrum", S + "mvc/mvc.py: MVC", S + "vca_vcs/vca.py: VCA", "turbustat/io/input_base.py: input_data")
p("C218", "Blank pixels of the input", "The Fourier statistics take blank (NaN) pixels as zeros and all other pixels as given; the other statistics keep the data as given.",
  "all statistics and all inputs", "all patterns of blanks", BS + "input_data_header", S + "pspec_bispec/pspec.py: PowerSpectrum", S + "pspec_bispec/bispec.py: Bispectrum", S + "mvc/mvc.py: MVC", S + "wavelets/wavelet_transform.py: Wavelet")
p("C219", "Weighted image of PowerSpectrum", "The image whose power spectrum is taken is the image times the weights, zero where one of them is blank; without weights it is the image; weights of another size raise IndexError.",
  "all images and weights", "all images, weights and patterns of blanks", S + "pspec_bispec/pspec.py: PowerSpectrum")
p("C220", "Header of a statistic", "A given header is used, and must be a FITS header; without one the data must carry theirs, and a plain array raises ValueError; data of another kind raise TypeError.",
  "all kinds of data and headers, all statistics that take a header", "all combinations of data and header", BS + "input_data_header", "turbustat/io/input_base.py: input_data")
p("C221", "Header of Genus", "Genus keeps the header of data that carry one.",
  "all kinds of data", "all kinds of data", S + "genus/genus.py: Genus")
p("C222", "Beam of a statistic", "The beam is the last one given to load_beam or found in the header by it; an argument of another type raises TypeError and changes nothing.",
  "all histories of calls", "all histories of calls", BS + "load_beam")
SC = S + "scf/scf.py: SCF."
p("C223", "SCF spectrum", "Each value of the SCF spectrum is the mean of the SCF surface over the lags whose length lies in the bin (its uncertainty the standard deviation, with the small-sample factor), and SCF.lags holds the centre of that bin.",
  "all cubes, lags, bins and azimuthal limits", "all surfaces and lags", SC + "compute_spectrum", S + "psds.py: pspec")
p("C224", "Repeated runs of SCF", "What SCF.run computes depends on the cube, the lags and its arguments only, not on earlier calls on the object; writing out a default argument changes nothing.",
  "all earlier histories of the object and all arguments", "all histories of calls", SC + "run", SC + "compute_surface", SC + "compute_spectrum", SC + "fit_plaw", SC + "fit_2Dplaw")
p("C225", "Fit of the SCF spectrum", "A spectrum that follows a power law within the limits is fitted with exactly that power law, whatever lies outside the limits, is blank, or the uncertainties are; the limits are inclusive; limits that leave no lag raise ValueError, limits that are no quantities TypeError.",
  "all spectra, limits, uncertainties and correct solvers", "all spectra and limits", SC + "fit_plaw", SC + "fitted_model")
p("C226", "Limits of the 2D SCF fit", "fit_2Dplaw uses the lags of the surface longer than xlow and not longer than xhigh.",
  "all lags and limits", "all lags and limits", SC + "fit_2Dplaw")
p("C227", "Angle of the 2D fits", "The position angle theta2D of the elliptical fits and theta_0 of the azimuthal limits are measured in the same way: at radius r and mask angle phi the model is A r^gamma (q^2 cos^2(phi - theta) + sin^2(phi - theta))^(gamma/2).",
  "all pixels of all maps and all parameters", "all map shapes", SC + "fit_2Dplaw", BP + "StatisticBase_PSpec2D.fit_2Dpspec", S + "psds.py: pspec", S + "elliptical_powerlaw.py: LogEllipticalPowerLaw2D")
p("C228", "Modes of the power-spectrum fit", "The unbinned fit of a power spectrum uses every Fourier mode of the image whose frequency is above low_cut and not above high_cut, once, as log10 of frequency and power, all with the same weight; by default low_cut is 2 / max(shape) and high_cut the highest frequency. The 2D fit uses the modes in its limits in the same way, at their frequencies along x and y, and starts from the 1D fit.",
  "all images, shapes and limits", "all image shapes, odd and even, and all limits", BP + "StatisticBase_PSpec2D.fit_pspec", BP + "StatisticBase_PSpec2D.fit_2Dpspec", S + "psds.py: make_radial_freq_arrays")
p("C229", "Recovery of a power-law spectrum", "If the power in the fitted modes (or bins) is A f^s, the fit without a break gives slope s and amplitude A, whatever lies outside the limits; bins without a value, and in a weighted fit those without an uncertainty, are left out.",
  "all images and spectra, limits, weights and correct least-squares solvers", "all spectra and limits", BP + "StatisticBase_PSpec2D.fit_pspec")
p("C230", "Brightness scale", "Multiplying the image by a constant other than zero changes neither the slope nor the frequencies; the power and its uncertainty are multiplied by the square of the constant.",
  "all images, factors, bins, limits and weights", "all images and factors", BP + "StatisticBase_PSpec2D.fit_pspec", BP + "StatisticBase_PSpec2D.compute_radial_pspec", S + "pspec_bispec/pspec.py: PowerSpectrum.run")
p("C231", "Background and position of the image", "Adding a constant to the image, or displacing it around the edges of its frame, changes no result of run (1D spectrum, errors, limits, 1D and 2D fits) as long as the bins start above half the lowest frequency, as they do by default.",
  "all images, constants, displacements and arguments of run", "all images and constants", S + "pspec_bispec/pspec.py: PowerSpectrum.run", BP + "StatisticBase_PSpec2D.fit_pspec", BP + "StatisticBase_PSpec2D.fit_2Dpspec", S + "psds.py: pspec")
p("C232", "Repeated runs of a power spectrum", "What run of PowerSpectrum, VCA or MVC computes depends on the data and its arguments only, not on earlier calls on the object; writing out a default argument changes nothing.",
  "all earlier histories of the object and all arguments", "all histories of calls", S + "pspec_bispec/pspec.py: PowerSpectrum.run", S + "vca_vcs/vca.py: VCA.run", S + "mvc/mvc.py: MVC.run", BP + "StatisticBase_PSpec2D.compute_radial_pspec", BP + "StatisticBase_PSpec2D.fit_2Dpspec")
p("C233", "How the break moves", "One turn of the break-point search of Lm_Seg moves the break by step*gamma/beta, with the step halved only as often as it takes for points to lie on both sides of the new break; if five halvings do not suffice the break stays and the search fails; the halved step carries over to the next turn.",
  "all data, weights, solvers, iteration limits and states of the search", "all data and all states of the search", S + "lm_seg.py: Lm_Seg.fit_model")
p("C234", "A break is kept only if it improves the fit", "fit_model reports a break only if the last broken fit has a smaller residual sum of squares than the straight line; it drops a break only if it has not, or if no halving of the step left points on both sides.",
  "all data, weights, solvers, tolerances, steps and iteration limits", "all data and all paths of the search", S + "lm_seg.py: Lm_Seg.fit_model")
p("C235", "Generated cubes have the requested power law", "The power of a cube of even size made by make_3dfield is proportional to k^-powerlaw at every mode that is not its own opposite.",
  "all even sizes from 4, indices, amplitudes and random phases", "all sizes, phases and modes", "turbustat/simulator/gen_field.py: make_3dfield")
p("C236", "Options of run reach their step", "Every option given to run of PowerSpectrum, VCA or MVC, and every option in its dictionaries for the radial spectrum and the 1D and 2D fits, is used by the step it is documented for, and an option left out has its documented default; documented options are accepted and the caller's dictionaries stay as they were; a misspelt option raises TypeError.",
  "all sets of options, all statistics, with and without pyfftw", "all combinations of options", S + "pspec_bispec/pspec.py: PowerSpectrum.run", S + "vca_vcs/vca.py: VCA.run", S + "mvc/mvc.py: MVC.run", BP + "StatisticBase_PSpec2D.compute_radial_pspec", BP + "StatisticBase_PSpec2D.fit_pspec", S + "rfft_to_fft.py: rfft_to_fft")
p("C237", "Options of the spectral distances", "PSpec_Distance, VCA_Distance and MVC_Distance fit each data set once, without the 2D fit, with the limits and the break given for it and with the radial options of its dictionary (the first one when the second is None); all documented forms of limits and breaks are accepted.",
  "all data (raw, objects with or without fit), limits, breaks and dictionaries", "all combinations of options", S + "pspec_bispec/pspec.py: PSpec_Distance", S + "vca_vcs/vca.py: VCA_Distance", S + "mvc/mvc.py: MVC_Distance")
p("C238", "Precomputed objects in distances", "A distance between two objects that were already fitted recomputes nothing and touches no dictionary; VCA_Distance raises ValueError if the channel width of an object differs from the one asked for.",
  "all options and objects", "all combinations of options", S + "pspec_bispec/pspec.py: PSpec_Distance", S + "vca_vcs/vca.py: VCA_Distance", S + "mvc/mvc.py: MVC_Distance", S + "vca_vcs/vcs.py: VCS_Distance")
p("C239", "Options of VCS", "Every option given to VCS.run, and every option in the dictionaries of VCS_Distance, reaches the fit, with the documented default when left out; misspelt options raise TypeError.",
  "all sets of options and data", "all combinations of options", S + "vca_vcs/vcs.py: VCS.run", S + "vca_vcs/vcs.py: VCS.fit_pspec", S + "vca_vcs/vcs.py: VCS_Distance")
p("C240", "Points of the VCS fit", "The VCS fit uses every positive spectral frequency within its limits (by default all), each with its own power, in increasing order; breaks tried by default lie strictly inside the fitted range.",
  "all spectra, numbers of channels, limits and splines", "all numbers of channels and limits", S + "vca_vcs/vcs.py: VCS.fit_pspec")
CR = S + "cramer/cramer.py: Cramer_Distance."
p("C241", "What the Cramer distance of cubes depends on", "Cramer_Distance.distance_metric gives a distance for any two cubes that each have a positive pixel above their noise level; it is the same for the cubes swapped, 0 for a cube and itself, never negative, and does not depend on the order of the pixels in the channels, on the order of the channels, or (normalised, with the noise level in the same unit) on the unit of brightness of either cube.",
  "all cubes, noise levels, orders and factors", "all cubes and all permutations of pixels and channels", CR + "distance_metric", CR + "format_data", CR + "cramer_statistic", S + "threeD_to_twoD.py: _format_data")
p("C242", "Cramer distance without normalisation", "With normalize=False the Cramer distance takes the different ranges of intensities of the two cubes into account: a cube and a brighter copy of it are not at distance 0.",
  "all cubes and factors", "all cubes and factors", CR + "format_data", CR + "distance_metric", S + "threeD_to_twoD.py: _format_data", S + "threeD_to_twoD.py: intensity_data")
p("C243", "Cramer distance of cubes of different sizes", "When the cubes have different numbers of pixels, the rows of the larger data matrix are drawn without replacement down to the size of the smaller one, which is kept; the distance does not depend on the random state of the caller, and the call leaves that state alone.",
  "all cubes, sizes, seeds and states of the random generator", "all sizes and random states", CR + "format_data", CR + "distance_metric")
PD = S + "pdf/compare_pdf.py: PDF_Distance."
p("C244", "Laws of the PDF distances", "PDF_Distance gives Hellinger and KS distances in [0,1] for any two images with valid values that are not all equal; all its distances are the same for the images swapped, 0 for an image and itself, and do not depend on the order of the pixels (with their weights).",
  "all images, weights, lower limits, normalisations and numbers of bins", "all images and all permutations", PD + "__init__", PD + "distance_metric", S + "pdf/compare_pdf.py: PDF.run")
p("C245", "Units of the images in the PDF distances", "PDF distances do not depend on the unit common to both images; with a normalisation they do not depend on the unit of each image (factor and zero point for 'standardize' and 'normalize', factor for 'normalize_by_mean', zero point for 'center'); distance_metric standardises the data before comparing them.",
  "all images, factors, zero points and options", "all images and all changes of units", PD + "__init__", PD + "distance_metric", S + "stats_utils.py: data_normalization", S + "stats_utils.py: common_histogram_bins")
p("C246", "Choice of the PDF distance", "distance_metric computes the distance named by statistic, 'all' computes them all with the same values, an unknown name raises TypeError; any string that reads as one of the documented names is accepted.",
  "all PDF_Distance objects and all strings", "all strings, also those built at run time", PD + "distance_metric", PD + "compute_hellinger_distance", PD + "compute_ks_distance", PD + "compute_lognormal_distance")
p("C247", "Number of bins of the PDF distances", "With nbins=k the two PDFs of a PDF_Distance have k bins.",
  "all images and numbers of bins", "all images and numbers of bins", PD + "__init__", S + "stats_utils.py: common_histogram_bins")
SD = S + "scf/scf.py: SCF_Distance."
p("C248", "Changing the lags of an SCF object", "After roll_lags of an SCF object is set, compute_surface gives the surface of the new lags, whatever their number.",
  "all cubes, old and new lags and boundaries", "all numbers of lags", SC + "roll_lags", SC + "compute_surface")
p("C249", "Names given as strings", "Arguments that choose a method by name (boundary of the SCF and SCF_Distance, data_format of the 2D rearrangement) are read by value: an equal string works however it was made, also as an element of a list or array, and an unknown one raises the documented error.",
  "all strings, also those built at run time, all cubes and lags", "all strings and their origin", SC + "compute_surface", SD + "__init__", S + "threeD_to_twoD.py: _format_data")
p("C250", "SCF distance of two cubes", "SCF_Distance of two cubes samples both surfaces at the same angles, whole pixels on the coarser grid; its distance is the weighted rms difference of the surfaces, a number in [0, sqrt 2] for cubes with signal, the same for the cubes swapped, 0 for a cube and itself, unchanged by the calibration of either cube, and an even size means the odd one below it.",
  "all cubes with blanks, pixel sizes, sizes, boundaries and weightings", "all cubes, grids and factors", SD + "__init__", SD + "distance_metric")
p("C251", "SCF objects in the distance", "SCF objects given to SCF_Distance give the distance of their cubes; objects that have been run with matching lags are used as they are; if the lags do not match in angle, or an object has not been run, it is computed with common lags.",
  "all objects, their grids, lags and history, all sizes and boundaries", "all combinations of grids, lags and histories", SD + "__init__", SD + "distance_metric")
p("C252", "One decomposition through any history of a PCA object", "After any sequence of calls on a PCA object (decompositions, widths, fits, runs, setting n_eigs, use in PCA_Distance; some of which raise), its covariance matrix, eigenvalues, eigenvectors, mean subtraction, total variance and proportion of variance belong to one and the same decomposition of its cube, and the proportion is that of the current n_eigs.",
  "all cubes and all histories of calls", "all histories, also with calls that raise", PC + "PCA.compute_pca", PC + "PCA.n_eigs", PC + "PCA.run", PC + "PCA_Distance.__init__")
p("C253", "What a run of PCA leaves", "PCA.run gives the same results on a fresh object and on one used before; after it, the widths are those of the components of the current decomposition (as many as n_eigs) and the index is the fit of those widths, for every number of components; no results of an earlier run remain.",
  "all cubes, objects, histories and arguments", "all histories and numbers of components", PC + "PCA.run", PC + "PCA.find_spatial_widths", PC + "PCA.find_spectral_widths", PC + "PCA.fit_plaw")
p("C254", "The beam in a run of PCA", "A run that corrects for the beam uses the beam given, else that of the header, and if there is neither raises ValueError and leaves the object as it was; otherwise the beam of the header has no influence.",
  "all objects, headers and arguments", "all combinations of headers and arguments", PC + "PCA.run", PC + "PCA.find_spatial_widths")
p("C255", "PCA objects in the distance", "PCA_Distance of two PCA objects whose decompositions were computed gives the same distance as of their cubes with the same n_eigs and mean_sub, and a call that is refused leaves the objects unchanged.",
  "all cubes, objects, numbers of components and mean subtractions", "all objects and their histories", PC + "PCA_Distance.__init__", PC + "PCA_Distance.distance_metric")
DV = S + "delta_variance/delta_variance.py: DeltaVariance."
DD = S + "delta_variance/delta_variance.py: DeltaVariance_Distance."
p("C256", "A DeltaVariance object through any history", "After any sequence of calls on a DeltaVariance object (setting lags, computing, fitting, running; some of which raise), its curve is the delta variance at its lags, and fit_range and slope belong to one fit; a run gives the same results as on a fresh object with the same lags.",
  "all images, lags, options and histories of calls", "all histories, also with calls that raise", DV + "compute_deltavar", DV + "fit_plaw", DV + "run", DV + "lags")
p("C257", "Kept convolved arrays of the delta variance", "With keep_convolve_arrays=True, convolve_arrays and convolve_weights hold one array per lag, in the order of the lags.",
  "all images, lags and histories of calls", "all histories of calls", DV + "compute_deltavar", DV + "convolve_arrays", DV + "convolve_weights")
p("C258", "Common lags have the same angular sizes", "DeltaVariance_Distance of maps with different pixel sizes compares the delta variances at lags of the same angular sizes, whatever the form and unit of the lags given, within the fit limits given.",
  "all pixel sizes, lags in pixels or angles, limits", "all pixel sizes, units and limits", DD + "__init__", DD + "distance_metric")
p("C259", "Options of DeltaVariance.run and Wavelet.run reach their steps", "Every option of run goes, with its value or its documented default, to the step it is documented for (transform, convolution, fit, segmented fit), the options of fit_kwargs to the fit, and a name that is no option is refused; no dictionary of the caller changes.",
  "all options, dictionaries and states before the call", "all combinations of options and dictionaries", DV + "run", DV + "fit_plaw", DV + "compute_deltavar", W + "Wavelet.run", W + "Wavelet.fit_transform", W + "Wavelet.compute_transform", S + "convolve_wrapper.py: convolution_wrapper")
p("C260", "Options of DeltaVariance_Distance and Wavelet_Distance reach the data set they are for", "Each data set is run once with the limits and the options of its own dictionary (the first one when the second is None); an object that was fitted, at the common lags, is used as it is; data and objects can be mixed; without common lags each data set uses its own lags.",
  "all data sets, objects, limits, dictionaries", "all combinations of data sets, objects and dictionaries", DD + "__init__", W + "Wavelet_Distance.__init__")
p("C261", "Error ranges of the size-line width fit", "index_error_range and intercept_error_range contain index and intercept: with 'odr' they are one standard error to either side (of the logarithm, for the intercept), with 'bayes' the value is the median of the samples and the range runs between the percentiles of conf_interval; relations of either sign are found.",
  "all fits, samples and confidence intervals", "random samples and real parameters", PC + "PCA.fit_plaw", PC + "PCA.index_error_range", PC + "PCA.intercept_error_range", S + "fitting_utils.py: bayes_linear")
p("C262", "Weights of DeltaVariance and StatMoments", "Without weights DeltaVariance gives finite pixels the weight one and others zero, and StatMoments gives every pixel the weight one; weights that are given are used as given, and must have the size of the image.",
  "all images, weights and forms of input", "all patterns of blanks and all forms of input", DV + "__init__", S + "stat_moments/highstatmoments.py: StatMoments")
p("C263", "Lags an SCF object is made with", "The SCF surface is computed at the lags asked for: by size, the whole numbers of pixels from -k to k; as an array, that many pixels; as a Quantity, the same angles or lengths in pixels. Anything else is refused with TypeError.",
  "all sizes, all lags and units, all pixel sizes, cubes and boundaries", "all numbers of lags, even ones too", SC + "__init__", SC + "roll_lags")
p("C264", "An SCF surface that cannot be computed", "compute_surface either computes the surface at all lags or raises; after it has raised, no spectrum is computed from the values it did not reach.",
  "all objects, lags and boundaries, all points at which a call raises", "every point of failure in the loop over the lags", SC + "compute_surface", SC + "compute_spectrum")
p("C265", "A Dendrogram_Stats object through any history", "The numbers of features, the fitted points, the tail slope and the histograms of an object belong to its last run and to its thresholds, whatever was called before, also after a call that raised.",
  "all data, thresholds, dendrograms and histories of calls", "all histories, also with calls that raise", DN + "Dendrogram_Stats.run", DN + "Dendrogram_Stats.compute_dendro", DN + "Dendrogram_Stats.fit_numfeat", DN + "Dendrogram_Stats.make_hists", DN + "Dendrogram_Stats.min_deltas")
p("C266", "The tail slope of the numbers of features", "Numbers of features that follow a power law of min_delta give its exponent as tail_slope, and measuring the thresholds in another unit of brightness changes neither the success of the fit nor the slope.",
  "all thresholds, numbers of features, window sizes and factors", "real thresholds and all numbers of features", DN + "Dendrogram_Stats.fit_numfeat", DN + "Dendrogram_Stats.tail_slope")
p("C267", "A power spectrum that is a broken power law", "A power spectrum that is exactly a broken power law gives back its two slopes, its amplitude and its break, and a break given as a frequency or as its log10 means the same.",
  "all spectra, ranges of frequencies, amplitudes, slopes, breaks and starts of the break", "all broken power laws and starts over the reals", BP + "StatisticBase_PSpec2D.fit_pspec", S+"lm_seg.py: Lm_Seg.fit_model")
p("C268", "A delta variance that is a broken power law", "A run of the delta variance on an image whose curve is exactly a broken power law gives back its two slopes and its break.",
  "all lags, errors, amplitudes, slopes, breaks and starts of the break", "all broken power laws and starts over the reals", DV + "fit_plaw", DV + "run", S+"lm_seg.py: Lm_Seg.fit_model")
p("C269", "A Bispectrum object through any history", "The bispectrum and the bicoherence of an object are those of its last run, whatever was run before and whether runs raised, and a run that raises leaves no surface that looks like a result.",
  "all images, seeds, numbers of samples, random draws and histories of runs", "all histories, also with runs that raise", S+"pspec_bispec/bispec.py: Bispectrum.compute_bispectrum", S+"pspec_bispec/bispec.py: Bispectrum.run")
p("C270", "Bispectrum distances of data and objects", "Bispectrum_Distance gives the norm of the difference of the bicoherence surfaces and the difference of their means for the images as run with stat_kwargs; an object run with the same options gives the same distances as its data; an object whose run failed is refused.",
  "all pairs of images and objects, options and random draws", "all images, draws and histories", S+"pspec_bispec/bispec.py: Bispectrum_Distance.__init__", S+"pspec_bispec/bispec.py: Bispectrum_Distance.distance_metric")
p("C271", "Bispectrum slices for several radii or angles", "A call with several radii (or angles) and widths returns for each the slice that a call with it alone returns, keyed by the value given; angles count in the unit given; a number of widths that does not match is refused with ValueError, missing or other units with TypeError; the slices are those of the surface named by value, and a surface not computed is an AttributeError, an unknown name a TypeError.",
  "all surfaces, radii, angles, widths, units and bin widths", "real radii and angles, any number of them", S+"pspec_bispec/bispec.py: Bispectrum.azimuthal_slice", S+"pspec_bispec/bispec.py: Bispectrum.radial_slice")
p("C272", "Genus curves belong to the radii and data of the object through any history",
  "After a Genus run that returns, whatever runs, failures and changes of smoothing_radii came before, genus_stats has one curve for each smoothing radius, whose value at every threshold is the number of regions above it minus the number below it in the image smoothed with that radius, and the smoothed means and standard deviations (and images, if kept) are those of that image; a failed run or new radii never leave curves or images of something else in place; radii between 1 pixel and half the shorter side are accepted, others refused with ValueError; the thresholds are those given or numpts equal steps from the smallest to the largest value (or between min_value and max_value).",
  "every image, header, thresholds, radii, options of the run, convolution, and every history of runs and assignments to smoothing_radii",
  "Tests run a fresh object once with one set of radii.",
  G + "Genus.make_genus_curve", G + "Genus.smoothing_radii", G + "Genus.smoothed_images", G + "Genus.genus_stats")
p("C273", "The genus distance compares the shapes of two images under the options given",
  "Genus_Distance does not depend on a positive factor or an offset of the brightness of either image; an image is at distance 0 from itself; two-element lists of min_value, max_value, lowdens_percent and highdens_percent give their first item to img1 and their second to img2, and genus2_kwargs defaults to genus_kwargs; lists that are too short and images without contrast are refused; radii, beams and sizes are accepted as for Genus; the distance is the root of the summed squared differences of the splines of the two curves per pixel area over the shared thresholds.",
  "every pair of images, header grids, options, spline and convolution",
  "Tests compare one pair of images with default options.",
  G + "Genus_Distance.__init__", G + "Genus_Distance.distance_metric")
p("C274", "StatMoments objects through any history",
  "Whatever calls came before, compute_spatial_distrib that returns leaves the maps of the moments around every pixel for the last acceptable radius, make_spatial_histograms leaves the histograms of the maps in place, and run leaves moments, maps and histograms that belong together under the options given; an unacceptable radius or share raises and leaves the object as it was; histograms never describe other maps than those in place.",
  "every image, header, weights, number of bins and every history of assignments, maps, histograms and runs, also ones that raise",
  "Tests run a fresh object once.",
  M + "StatMoments.compute_spatial_distrib", M + "StatMoments.make_spatial_histograms", M + "StatMoments.run", M + "StatMoments.radius")
p("C275", "The moment distance of two images",
  "StatMoments_Distance compares regions of the same angle; it does not depend on a positive factor of the brightness of either image, on an offset where no pixel is blank, or on a shift of periodic images; it is between zero and the square root of the bin width, zero from an image to itself, and the same in both orders; an object gives what its image gives under the options of the call; a distance of zero means that the histograms agree.",
  "every pair of images or objects, headers, weights, radii, options and numbers of bins",
  "Tests compare one pair of images with default options.",
  M + "StatMoments_Distance.__init__", M + "StatMoments_Distance.create_common_histograms", M + "StatMoments_Distance.distance_metric")
p("C276", "Wavelet objects through any history of calls",
  "A Wavelet run gives the same values, slope, break, range of the fit and fitted model whatever was called on the object before, as long as its scales are the same; the values of an object always are the transform at its scales, and slope, break and range always belong to one fit of them: a call that raises leaves the results as they were.",
  "every image, header, scales and every history of assignments to scales, compute_transform, fit_transform and run, also ones that raise",
  "Tests run a fresh object once with valid arguments.",
  W + "Wavelet.scales", W + "Wavelet.compute_transform", W + "Wavelet.fit_transform", W + "Wavelet.run", W + "Wavelet.fitted_model")
p("C277", "The slope of the wavelet transform",
  "A transform that is a power law of the scale gives its exponent as the slope and itself as the fitted model; the slope does not depend on a positive factor of the brightness (which is the factor of the fitted model) or on the orientation of the image, is larger by 2 without the normalization by the scale, and a broken power law gives its two slopes and its break; Wavelet_Distance is zero from an image to itself made brighter.",
  "every image, scales, limits and weights with which a fit has two usable points, and any solver of least squares",
  "Tests compare the slope of one image with stored numbers.",
  W + "Wavelet.fit_transform", W + "Wavelet.run", W + "Wavelet.fitted_model", W + "Wavelet_Distance.distance_metric")
p("C278", "VCS objects through any history of calls",
  "After any calls of compute_pspec, fit_pspec and run, also ones that raise, a fit or run that returns leaves slope, slope_err, brk, brk_err, low_cut and high_cut that belong to one segmented fit of the spectrum of the cube, of every frequency k/n below the Nyquist half within the limits of that call, from the break of that call or one found by the spline (taken for its logarithm unless log_break=False); a run gives what it gives on a fresh object; a fit that raises leaves the results as they were; log_break only changes how given breaks are read.",
  "every cube, limits, breaks, spline, solver and every history of calls, also ones that raise",
  "Tests run a fresh object once with valid arguments.",
  S + "vca_vcs/vcs.py: VCS.compute_pspec", S + "vca_vcs/vcs.py: VCS.fit_pspec", S + "vca_vcs/vcs.py: VCS.run", S + "vca_vcs/vcs.py: VCS.brk")
p("C279", "The VCS of a cube whose spectrum is an exact power law",
  "A VCS run on a spectrum that is a broken power law gives the two slopes and the break of the law, from a break given between the same channels or the first one the spline finds; on a plain power law it gives the one slope of the law, with or without a break to start from.",
  "every cube whose spectrum follows the law within the limits, every amplitude, slopes and break with two frequencies on either side, any history, limits, spline and least squares solver",
  "Tests compare the slopes of one cube with stored numbers.",
  S + "vca_vcs/vcs.py: VCS.fit_pspec", S + "vca_vcs/vcs.py: VCS.run", S + "lm_seg.py: Lm_Seg.fit_model")
p("C280", "Robust errors of segmented fits",
  "The errors of the slopes of a segmented fit are of the kind asked for: the statistics ask for cov_type='HC3', so they are robust to unequal scatter of the points.",
  "every set of points, start of the break, weights and solver whose kinds of errors share parameters and residuals",
  "Tests compare errors of one image with stored numbers, which cannot tell which kind they are.",
  S + "lm_seg.py: Lm_Seg.fit_model", S + "vca_vcs/vcs.py: VCS.fit_pspec", S + "base_pspec2.py: StatisticBase_PSpec2D.fit_pspec", S + "delta_variance/delta_variance.py: DeltaVariance.fit_plaw")
p("C281", "What a Tsallis object holds after any calls", "Whatever lags were assigned and whatever make_tsallis, fit_tsallis and run calls were made on a Tsallis object before, failed or not, the lags stay accepted ones, and a run that returns leaves a table with every lag of the object, in the unit it was given in, beside the fit of the histogram of the differences of the image at that lag; two objects with the same lags end alike. Between runs the table should belong to the lags and hold fitted values only.", "every header, image, list of lags in any unit, curve-fit routine, content of fresh memory and history of assignments, make_tsallis, fit_tsallis and run calls that may raise", "tests call run once on a fresh object with default lags; new lags, fits between and failed fits only show in histories", TS+"Tsallis.run", TS+"Tsallis.fit_tsallis", TS+"Tsallis.make_tsallis", TS+"Tsallis.lags", TS+"Tsallis.tsallis_table")
p("C282", "PDF objects through any history of calls",
  "After any calls of make_pdf, make_ecdf, find_percentile, fit_pdf and run on a PDF object, failed ones included, a percentile that is returned is the share of the data not above the value; after a run the PDF, its bins and the ECDF belong together, and with given bins they and the fit do not depend on the past. New bins should move the ECDF along, and refused bins should leave the object as it was.",
  "every non-empty finite data, bins, fits and history of calls, any optimiser and sampler",
  "Tests make one run on a fresh object.",
  S + "pdf/compare_pdf.py: PDF.make_pdf", S + "pdf/compare_pdf.py: PDF.make_ecdf", S + "pdf/compare_pdf.py: PDF.find_percentile", S + "pdf/compare_pdf.py: PDF.run")
p("C283", "The model that a fit of a PDF leaves",
  "A fit of a PDF that returns leaves model_params and model_stderrs of this very fit, by maximum likelihood from scipy's fit with the same fixed values or as mean and 15th and 85th percentiles of a chain; the curves drawn over PDF and ECDF are the model with the fixed values and the shapes whose likelihood was fitted; a fit with loc and scale fixed works; a fit that raises leaves the earlier model, and plots of a chain show the chain of the last fit.",
  "every distribution of scipy, data, fixed or free loc and scale, kind of fit, optimiser, sampler and earlier calls",
  "Tests fit one log-normal sample with the default keywords and do not look at the curves.",
  S + "pdf/compare_pdf.py: PDF.fit_pdf", S + "pdf/compare_pdf.py: PDF.plot_distrib", S + "pdf/compare_pdf.py: PDF.model_params", S + "pdf/compare_pdf.py: PDF.model_stderrs", S + "pdf/compare_pdf.py: PDF.corner_plot")
p("C284", "A break asked for where there is none",
  "If a power spectrum (binned or not), a delta variance curve or a wavelet transform is a plain power law within the limits of the fit, asking for a break with two different frequencies, lags or scales on either side changes nothing: the break is dropped and slope, error, amplitude and limits are those of the fit without it; for delta variance and wavelet the whole object is the same, for a power spectrum all but the error of the break, which stays that of the fit before.",
  "every amplitude, exponent, start of the break with two points on either side, weights, limits, earlier state and solver of least squares (in exact arithmetic)",
  "Tests ask for a break in one image that has one.",
  BP + "StatisticBase_PSpec2D.fit_pspec", DV + "fit_plaw", W + "Wavelet.fit_transform", S + "lm_seg.py: Lm_Seg.fit_model")
p("C285", "The cube, maps and errors of a Moments object belong together",
  "Whatever masks, noise levels, moments and errors (along any axis, with failures) came before, make_moments followed by make_moment_errors along the same axis leaves what a new object for the masked cube and the current noise level leaves; the maps, errors and cube returned by to_dict, all_moments and all_moment_errs always belong to one cube, axis and noise level, and a call that raises changes nothing.",
  "every history of apply_mask, scale assignments, make_moments and make_moment_errors, every axis, cube and noise level",
  "Tests build the object once and call both methods in order along the spectral axis.",
  E + "Moments.apply_mask", E + "Moments.make_moments", E + "Moments.make_moment_errors", E + "Moments.to_dict", "turbustat/moments/_moment_errs.py: moment1_error")
p("C286", "The methods for spectral widths agree",
  "WidthEstimate1D returns, for every normalised autocorrelation curve that falls from zero lag to the largest lag, the lag at which it passes 1/e: walk-down and interpolate give the same point, between the two samples on either side, and the fit gives the 1/e width of a Gaussian; a curve that stays above 1/e gives NaN.",
  "every number of channels, every symmetric falling curve and every lag at which it passes 1/e (in exact arithmetic)",
  "The test uses one Gaussian with an even number of channels.",
  WE + "WidthEstimate1D")

p("C287", "Spatial widths from a fitted Gaussian",
  "WidthEstimate2D with method='fit' returns, for every Gaussian image about the centre, whatever its two standard deviations, its angle and its amplitude, and whatever noise autocorrelation was added and given, the root of the sum of the two squared standard deviations. A constant under the Gaussian, which the fitted model has, should not matter. A failed error estimate leaves the width without an error. With 'interpolate' and 'contour' the brightness of the images does not matter.",
  "all image shapes of at least 2 by 2 pixels (4 by 4 for the constant), amplitudes, standard deviations, angles, noise images, lists of images, and fitters that find a best fit",
  "the fitter stops at one of many equivalent parameter sets (swapped axes, signs, angles), and a test compares a few widths within tolerances",
  WE + "WidthEstimate2D", WE + "fit_2D_gaussian")
p("C288", "Spatial widths by interpolation",
  "WidthEstimate2D with 'interpolate' and 'xinterpolate' returns the radius at which an image falls to 1/e. For circular images both are the same; for elliptical ones 'xinterpolate' uses an elliptical radius on which the brightness depends alone.",
  "all images, radii, shapes and numbers of images; splines that refuse what FITPACK refuses",
  "the size of the image at which the knots coincide or outnumber the points, and the side on which the aspect ratio belongs, show up in particular images only",
  WE + "WidthEstimate2D", WE + "fit_2D_gaussian")
p("C289", "A size-line width relation is found exactly",
  "PCA.fit_plaw with fit_method='odr' returns the index and intercept of a power law that the widths of the components follow, whatever their errors and however the widths were measured. The best law follows changes of the units of sizes and line widths, does not depend on a common factor of all errors, and with sizes and line widths exchanged is the same law solved for the size.",
  "all sets of components, laws, errors, fit limits and units", "ranges over all real widths, errors and factors; the fit is an optimum over all lines and all displacements",
  "turbustat/statistics/fitting_utils.py: leastsq_linear", PC + "PCA.fit_plaw", WE + "WidthEstimate1D")
p("C290", "Both fits of the size-line width relation prefer the same lines",
  "Of two lines, the one that is closer to the points in the sense of fit_method='odr' is the more probable one in fit_method='bayes'; a line through all points is the most probable one, and a falling relation can be found by both.",
  "all points, errors and pairs of lines", "compares two optima over all lines and all real data",
  "turbustat/statistics/fitting_utils.py: bayes_linear", "turbustat/statistics/fitting_utils.py: leastsq_linear", PC + "PCA.fit_plaw")
p("C291", "Styles of the comparison plots",
  "distance_metric(verbose=True) draws each data set in the colour, with the symbol and with the label that its dictionary plot_kwargs1 or plot_kwargs2 gives, and otherwise in the documented style (blue diamonds '1', green circles '2'), whatever was plotted before, so that the two data sets can be told apart.",
  "all statistics with such plots, all programs of comparisons before, all dictionaries", "the defaults are shared by all calls and changed by them, so it depends on the whole history of the program",
  "turbustat/statistics/pspec_bispec/pspec.py: PSpec_Distance.distance_metric", PC + "PCA_Distance.distance_metric", SD + "distance_metric", "turbustat/statistics/dendrograms/dendro_stats.py: Dendrogram_Distance.distance_metric")
p("C292", "Dictionaries of plot options are left unchanged",
  "A dictionary given to distance_metric as plot_kwargs1 or plot_kwargs2 has the same keys and values after the call.",
  "all statistics with such plots, all programs of comparisons, all dictionaries", "a changed dictionary shows only in what the program does with it later",
  "turbustat/statistics/pspec_bispec/pspec.py: PSpec_Distance.distance_metric", "turbustat/statistics/wavelets/wavelet_transform.py: Wavelet_Distance.distance_metric", "turbustat/statistics/stat_moments/highstatmoments.py: StatMoments_Distance.distance_metric")
p("C293", "One dictionary of plot options for several statistics",
  "A dictionary of plot options can be used for one statistic after another: each plot is the one it would be with a new dictionary of the same contents.",
  "all sequences of statistics, all dictionaries, either data set", "ranges over all sequences of comparisons; most pairs of statistics work",
  SD + "distance_metric", "turbustat/statistics/pdf/compare_pdf.py: PDF_Distance.distance_metric", "turbustat/statistics/base_pspec2.py: StatisticBase_PSpec2D.plot_fit")
p("C294", "Angular size of a pixel",
  "For every header of an image or a cube whose pixels are square on the sky, at any position angle and mirrored or not, conversions between pixels and angles use the side of the pixels. Headers with oblong pixels are refused. Two images compared with common_scale are brought to one scale by the ratio of their sides, whatever the angles.",
  "all headers: sides, angles, mirroring, orders of the axes, tolerances", "ranges over all linear transformations of a header; tests use unrotated headers with the celestial axes first",
  BS + "_ang_size", BS + "_wcs", "turbustat/statistics/stats_utils.py: common_scale")
p("C295", "Spectral axis of PCA",
  "The spectral size is the width of a channel for every position and direction of the spectral axis. PCA is built only from cubes with a velocity axis and square pixels, and its number of channels is that of the cube.",
  "all headers and shapes of cubes", "ranges over all headers and shapes",
  BS + "_spectral_size", BS + "_has_spectral", PC + "PCA.__init__")
p("C296", "Saving the plot of a statistic",
  "Plotting a statistic with save_name writes a file that shows that plot and nothing else, and leaves the other open figures of the caller as they were.",
  "all statistics, all stacks of open figures and their contents, all backends", "ranges over all states of pyplot before the call; tests start without figures and do not look at the files",
  "turbustat/statistics/base_pspec2.py: StatisticBase_PSpec2D.plot_fit", "turbustat/statistics/pspec_bispec/pspec.py: PowerSpectrum.run", PC + "PCA.plot_fit", SC + "plot_fit")
p("C297", "Plots of a comparison",
  "A comparison of two data sets with verbose=True draws both data sets, in one figure, and with save_name writes that figure, on every matplotlib backend.",
  "all comparisons, open figures and backends", "ranges over all backends; tests use one that does not close figures",
  "turbustat/statistics/pspec_bispec/pspec.py: PSpec_Distance.distance_metric", "turbustat/statistics/vca_vcs/vcs.py: VCS_Distance.distance_metric", DD + "distance_metric")
p("C298", "Files of the dendrogram comparison",
  "For every save_name the two plots of the dendrogram comparison go to two different files next to each other, in the format of the name, and different names give different files.",
  "all file names", "ranges over all strings, with several dots, directories or no extension; tests do not save",
  "turbustat/statistics/dendrograms/dendro_stats.py: Dendrogram_Distance.distance_metric")
p("C299", "Plots of fitted power laws",
  "In every unit of the axis, the plots of data with a fitted power law show the data, a line on the fitted law, and as residuals the differences of the points from that law.",
  "all data, fitted laws and units", "ranges over all data and conversion factors; tests do not look at what is drawn, and pixels hide the factor",
  "turbustat/statistics/base_pspec2.py: StatisticBase_PSpec2D.plot_fit", DV + "plot_fit", SC + "plot_fit", SC + "fitted_model", "turbustat/statistics/vca_vcs/vcs.py: VCS.plot_fit", W + "Wavelet.plot_transform")
p("C300", "Plot of PCA",
  "In all units of size and of line width the plot of PCA shows the widths, a line on the fitted relation and the residuals from it, and the bars of as many eigenvalues as are asked for.",
  "all widths, fits, units and numbers of eigenvalues", "ranges over all fits, conversion factors and numbers; tests do not look at what is drawn",
  PC + "PCA.plot_fit")
p("C301", "Panels of Genus and Tsallis",
  "The plots of Genus and Tsallis show for each smoothing radius or lag its own curve, in a panel of its own, whatever their number.",
  "all numbers of radii and lags, curves and fits", "ranges over all numbers of panels; tests use one number and do not look at the plot",
  G + "Genus.plot_fit", TS + "Tsallis.plot_fit")
p("C302", "Bars of the dendrogram histograms",
  "The bars in the plot of a dendrogram are the bins of its histograms: side by side between the edges, as high as the counts.",
  "all values, numbers of structures and bins", "ranges over all values and bins; tests do not look at what is drawn",
  DN + "Dendrogram_Stats.plot_fit", DN + "Dendrogram_Stats.make_hists")
p("C303", "The order of the channels does not matter to VCA, SCF and PCA",
  "Taking the channels of a cube in another order leaves the power spectrum of VCA and the surface of SCF exactly as they were, and renumbers the covariance matrix of PCA, so that its eigenvalues stay and its eigenvectors are renumbered.",
  "every cube, every permutation of its channels, every list of lags and boundary of SCF",
  "There are n! orders of the channels for each cube; tests use the channels of one cube in one order.",
  S + "vca_vcs/vca.py: VCA.compute_pspec", SC + "compute_surface", S + "threeD_to_twoD.py: var_cov_cube", PC + "PCA.compute_pca")
p("C304", "The arrangement of the spectra on the sky does not matter to VCS and PCA",
  "Moving the spectra of a cube to other positions, blank values with them, leaves the power spectrum of VCS and the covariance matrix of PCA exactly as they were.",
  "every cube, blanks included, and every permutation of its positions",
  "There are (ny*nx)! arrangements of each cube; tests use one.",
  S + "vca_vcs/vcs.py: VCS.compute_pspec", S + "threeD_to_twoD.py: var_cov_cube")
p("C305", "Orientation of the image in a power spectrum",
  "Mirroring an image or a cube on the sky, exchanging its axes or turning it by a quarter leaves the one-dimensional power spectrum of PowerSpectrum, VCA and (without apodization and beam) MVC, its uncertainties and the fit to them exactly as they were when no directions are selected; half a turn changes nothing under any options.",
  "all images and cubes of all shapes, odd and even, all binnings, limits, breaks and fitters",
  "the frequencies of even and odd axes are laid out differently, so the law has to be settled for every shape; tests use one image in one orientation",
  S + "pspec_bispec/pspec.py: PowerSpectrum.run", S + "vca_vcs/vca.py: VCA.run", S + "mvc/mvc.py: MVC.run", S + "psds.py: pspec")
p("C306", "The orientation of a cube does not change its spectral correlation function",
  "With whole-pixel lags, as many in one direction as in the other (the lags built from size are such), the correlation surface of a cube mirrored left to right or up to down is the mirrored surface, and that of a transposed cube the transposed surface, with either boundary (with 'cut' for lags no longer than the map). SCF.run on the mirrored, transposed or turned cube has the same lags, spectrum, standard deviations and fit as on the cube itself, or raises the same exception, when no directions are selected and no 2D fit is made.",
  "every cube with blanks anywhere, every number and size of lags, every choice of bins and limits, every weighted-line solver",
  "the surfaces of two orientations are computed from different pairs of shifted arrays; a test compares a few cubes, often square ones",
  S + "scf/scf.py: SCF.compute_surface", S + "scf/scf.py: SCF.compute_spectrum", S + "scf/scf.py: SCF.run")
p("C307", "Direction and origin of the spectral axis in VCS",
  "Reversing the spectral axis of a cube (as conversions between frequency and velocity do) or beginning it at another channel, with the channels before it moved to the end, changes nothing in the velocity coordinate spectrum: the one-dimensional power spectrum is exactly the same, and so is everything a VCS object holds after any calls of compute_pspec, fit_pspec and run. Other orders of the channels can change it.",
  "all cubes with blanks anywhere, all numbers of channels, every starting channel, every history of calls, every fitter",
  "the transform stores frequencies in an order that differs between odd and even numbers of channels; a test checks one cube in one direction",
  S + "vca_vcs/vcs.py: VCS.compute_pspec", S + "vca_vcs/vcs.py: VCS.fit_pspec", S + "vca_vcs/vcs.py: VCS.run")
p("C308", "The orientation of an image does not change its moments",
  "Mirroring an image left to right or up to down, transposing it or turning it by a quarter (its weights with it) mirrors, transposes or turns the maps of the local moments; the moments of the whole image and the four histograms of StatMoments.run are the same, or the same exception is raised, with wrapped boundaries or not. The distance of two images is the same from whatever side each of them is seen.",
  "every image with blanks anywhere, of any shape, with any weights, radius, bins and options",
  "the maps are built from padded arrays and a disc mask; whether these treat the two axes and both directions alike has to hold for every shape and radius; a test compares a few images",
  S + "stat_moments/highstatmoments.py: StatMoments.run", S + "stat_moments/highstatmoments.py: StatMoments.compute_spatial_distrib", S + "stat_moments/highstatmoments.py: StatMoments_Distance.distance_metric")
p("C309", "The orientation of an image does not change its Tsallis statistics",
  "Mirroring an image left to right or up to down, transposing it or turning it by a quarter mirrors, transposes or turns the arrays Tsallis computes at every accepted lag, with periodic boundaries or not. A run on such an image has the same distributions, fit parameters and chi-squares as on the image itself, or raises the same exception.",
  "every image with blanks or infinities anywhere, of any shape; all accepted lags, numbers of bins and clippings; every curve fitter; whatever was done with the objects before",
  "the arrays are sums of four rolled copies of a padded image; that the padding and cropping treat the axes alike has to hold for every shape and lag; a test compares one image",
  TS + "Tsallis.make_tsallis", TS + "Tsallis.run")
p("C310", "The orientation of an image does not change its delta variance",
  "Mirroring an image and its weight map left to right or up to down, transposing them or turning them by a quarter leaves the delta variance at every lag and its error unchanged, for the Gaussian core and annulus of the lag sampled at the pixels, and for every pair of kernels that have no left or right, up or down (so also with periodic boundaries). So do all results of an object after any calls, and the distance of two images.",
  "every image with blanks anywhere and every weight map, of any shape; every lag, diameter ratio, weight threshold and preserve_nan",
  "the value is a weighted mean of squares of a difference of two normalised convolutions with low weights cut; a test compares one image and one lag",
  DV + "compute_deltavar", DV + "do_convolutions", S + "delta_variance/kernels.py: core_kernel, annulus_kernel")
p("C311", "The signal mask of a cube covers the surroundings of bright voxels and nothing else",
  "moment_masking returns a mask that holds exactly the voxels no further (along each axis) than the given number of dilations from a voxel whose value, smoothed with the Gaussian kernel, is above clip times the noise; so a voxel is only in the mask if the cube itself has a value above that threshold within kernel_size plus the dilations. With 0 dilations the mask grows until it covers everything as soon as one voxel is above.",
  "every cube with blanks anywhere, of any shape; every kernel size above 0, clip, noise estimate and number of dilations",
  "the mask is an iterated dilation of a thresholded convolution with blanks left out; a test fixes one cube and one number of dilations",
  E + "moment_masking", E + "gauss_kern")
p("C312", "The bicoherence of an image turned by half",
  "Turning an image by half (stored with both axes reversed) replaces its bispectrum by the complex conjugate and leaves bicoherence and amplitude as they are, for the same seed.",
  "every image with blanks anywhere, of every shape whose sampling stays inside; with and without mean subtraction; every draw of angles and every cell",
  "which wave vectors a cell samples depends on the seed and on rounding; a test compares one image and one seed",
  B + "Bispectrum.compute_bispectrum")
p("C313", "Blank surroundings of an image in the delta variance",
  "Placing an image inside a larger one whose other pixels have no weight (as blank pixels have by default) leaves the delta variance and its error at every lag as they are, with zeros assumed beyond the edges.",
  "every image and weights of every shape, every place inside every larger image, every value around it, every pair of kernels, every cutoff and lag",
  "how many of the surrounding pixels count depends on the kernels, the cutoff and the shape; a test compares one frame",
  DV + "compute_deltavar")
p("C314", "Blank surroundings of an image in the wavelet transform",
  "Placing an image inside a larger one whose other pixels are blank leaves the wavelet coefficients at its pixels and the wavelet value at every scale as they are.",
  "every image of every shape, every place inside every larger image, every list of scales and kernel sizes, with and without the normalization by the scale",
  "whether the surroundings count depends on the sign of the coefficients there, for each scale and frame; a test compares one frame",
  S + "wavelets/wavelet_transform.py: Wavelet.compute_transform")
p("C315", "Blank surroundings of a cube in the spectral correlation function",
  "With the continuous boundary, a cube surrounded by at least as many blank pixels as the lag has at that lag the correlation of its own pairs of spectra: no pair wraps around, and the blank spectra do not count.",
  "every cube with blanks anywhere, every place inside every larger cube with room for the lags, every whole-pixel lag",
  "which pixels meet a blank one depends on the lag, the shape and the place; a test compares one frame",
  S + "scf/scf.py: SCF.compute_surface")
p("C316", "Blank surroundings of an image in the Tsallis statistics",
  "In an image surrounded by at least as many blank pixels as the lag, the Tsallis statistics use exactly the differences of the pixels of the image that are at least the lag away from its border: nothing wraps around, no zero is assumed beyond the border, and the distributions, parameters and chi-squares of a run are the same in all such surroundings and with either boundary.",
  "every image with blanks anywhere, every place inside every larger image with room for the lags, every list of lags, both boundaries, every number of bins and clipping, every curve fit",
  "which pixels meet the surroundings depends on the lag, the shape, the place and the boundary; a test compares one frame",
  TS + "Tsallis.make_tsallis", TS + "Tsallis.run")
p("C317", "Blank surroundings of an image in the moments",
  "The mean, variance, skewness and kurtosis of an image, of the neighbourhoods of its pixels and their histograms do not depend on how many blank pixels surround the image: a pixel of the surroundings gets no moments in a run, and wrapped boundaries act like blank ones as soon as the surroundings are as wide as the radius.",
  "every image with blanks anywhere, every place inside every larger image, every radius, every required share of valid pixels from one half on (for the maps at the pixels of the image: every share), every weights, both boundaries, all bins",
  "which windows meet the surroundings, and how many of their pixels are valid, depends on the radius, the shape and the place; a test compares one frame",
  M + "StatMoments.array_moments", M + "StatMoments.compute_spatial_distrib", M + "StatMoments.make_spatial_histograms", M + "compute_moments")
p("C318", "Blank surroundings of a cube in the velocity coordinate spectrum",
  "The velocity coordinate spectrum of a cube does not depend on how many blank spectra surround it: blank spectra carry no power and are not counted among the pixels the power is averaged over.",
  "every cube with blanks in it or with emission in each spectrum, every place inside every larger field, every frequency",
  "the powers of all spectra are mixed by a transform over the sky and divided by a count; a test compares one cube in one field",
  S + "vca_vcs/vcs.py: VCS.__init__", S + "vca_vcs/vcs.py: VCS.compute_pspec")
p("C319", "Blank surroundings of a cube in PCA",
  "The covariance matrix, and so the eigenvalues, of a cube do not depend on how many blank pixels surround it; no eigenvalue is negative.",
  "every cube, every number of blank pixels anywhere in the field, with and without subtracted means",
  "blanks are replaced in one of the two channels only, and counted differently on and off the diagonal; a test compares one cube in one field",
  S+"threeD_to_twoD.py: var_cov_cube", S+"pca/pca.py: PCA.compute_pca")
p("C320", "Arrangement of the pixels in a PDF",
  "A PDF depends on the valid pixels (and their weights) only, not on where they are in the image nor on how many blank pixels there are: blank surroundings, mirroring and transposing the image change neither the data, the PDF, the ECDF, percentiles nor the likelihood of a fit.",
  "every image, with and without weights, lower limit and normalization, every arrangement of its valid pixels, every sequence of calls",
  "a test compares a few arrangements of one image",
  S+"pdf/compare_pdf.py: PDF.__init__, PDF.make_pdf, PDF.make_ecdf, PDF.find_percentile, PDF.find_at_percentile, PDF.fit_pdf")
p("C321", "Orientation and blank surroundings in Genus",
  "Without smoothing, a Genus object shows the same thresholds, genus curves, means and standard deviations, and raises the same exceptions, for an image and for the image placed in a larger blank field, mirrored, transposed or turned.",
  "every image with blank pixels anywhere, every size and offset of the field, every sequence of such changes, every options, connectivity and minimum size, every history of runs and assignments",
  "a test compares a few placements of one image",
  S+"genus/genus.py: Genus.__init__, Genus.make_genus_curve, Genus.run, Genus.smoothing_radii, remove_small_objects")
p("C322", "Blank surroundings of cubes in the Cramer distance",
  "The Cramer distance of two cubes does not depend on how many blank pixels surround both of them.",
  "every pair of cubes with blank pixels anywhere, every number of further blank pixels, every noise level, with and without normalization",
  "the part of the pixels that is kept is a part of all pixels, blank ones included; a test compares one pair of cubes in one field",
  S+"cramer/cramer.py: Cramer_Distance.format_data, Cramer_Distance.distance_metric", S+"threeD_to_twoD.py: intensity_data, _format_data")
p("C323", "Bootstrapped uncertainties of a radial profile",
  "With boot_iter, the uncertainties of a radial profile exist for every number of iterations from one, and fewer raise a ValueError where a bin holds a value. Whatever is drawn, a bin with fewer than two values has no uncertainty (NaN), and that of another bin is, before the factor for its number of values, at least zero and at most half the range of its values; it scales with the values. Over all equally likely draws its mean is at most (n - 1) / n of the standard deviation that is used without boot_iter.",
  "every set of values and radii, every bin edges in increasing order, every number of iterations, every outcome of the random draws, every value of the t distribution",
  "the draws are random: a test sees a few of the n to the n draws of a bin",
  S+"psds.py: pspec")
p("C324", "Blank surroundings of images in power spectra",
  "The power of an image at a spatial frequency does not depend on the blank pixels around it, on the size of the field or on the place of the image in it: a pixel of the two-dimensional power spectrum of the field holds the power of the image in the wave of that pixel's frequency. Spectra of the image and of a larger field agree at the frequencies they have in common, which are all frequencies of the image where the size of the field is a multiple of that of the image. The same holds for the channels of a cube in VCA.",
  "every image with blank pixels anywhere, every size of the field and every offset, every pixel of the spectrum; no apodizing and no beam correction",
  "a test compares one image in one field",
  S+"pspec_bispec/pspec.py: PowerSpectrum.compute_pspec", S+"vca_vcs/vca.py: VCA.compute_pspec", S+"rfft_to_fft.py: rfft_to_fft")
p("C325", "Blank surroundings of the maps of modified velocity centroids",
  "The MVC spectrum at a spatial frequency does not depend on how many blank pixels surround the emission in the three maps.",
  "every three maps with blank pixels in common, every size of the field and every offset, every frequency; no apodizing and no beam correction",
  "the mean of the squared velocities is taken after blank pixels became zero; a test compares one set of maps in one field",
  S+"mvc/mvc.py: MVC.__init__, MVC.compute_pspec")
p("C326", "The sonic length in the unit that is asked for",
  "Once the size-line width relation is fitted, sonic_length returns the sonic length and its bounds in any unit in which the size of a pixel is known, angular or physical, and they are those in pixels times the size of a pixel; in other units it raises.",
  "every fit of both methods, every temperature, with and without the correction of the exponent, every pixel size, distance and unit",
  "the unit of the bounds depends on the fitted exponent; the tests read values without their units",
  S+"pca/pca.py: PCA.sonic_length", S+"base_statistic.py: _spatial_unit_conversion, _to_angular, _to_physical")
p("C327", "Arrangement of the pixels in the PDF distances",
  "PDF_Distance compares the values of the valid pixels and nothing else: images with the same valid pixels (with weights: the same pairs of a valid pixel and a valid weight) have the same Hellinger, KS and lognormal distances, or are refused both times. Two images with the same valid pixels, such as an image and a copy that is turned, mirrored or placed in blank surroundings, are at the distance 0.",
  "every pair of images and every arrangement of their valid pixels among any number of blank ones, with or without weights; every normalisation, lower limit, choice of bins and statistic; every fit that depends on the values and not on their order",
  "Tests compare images of the same shape without blanks; the claim ranges over every arrangement of valid and blank pixels.",
  S+"pdf/compare_pdf.py:PDF_Distance", S+"pdf/compare_pdf.py:PDF.__init__", S+"stats_utils.py:common_histogram_bins")
