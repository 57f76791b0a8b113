# One entry per property: (id, title, statement, quantifier, why_tests_cant, anchors)
P = []
def p(i, title, st, q, why, *anchors):
    P.append(dict(id=i, title=title, statement=st, quantifier=q, why_tests_cant=why, anchors=list(anchors)))

S = "turbustat/statistics/"

p("C01", "2D half-spectrum expansion equals the full FFT modulus",
  "rfft_to_fft(image) for a real 2D image returns an array with the shape of the image whose entry (ky,kx) is the modulus of the two-dimensional discrete Fourier transform of the image at (ky,kx); with keep_rfft=True it returns exactly the first nx//2+1 columns of it.",
  "every ny>=1, nx>=1 (even and odd), every real image",
  "the index arithmetic differs by parity of both axes and by degenerate sizes; a test fixes a handful of shapes",
  S+"rfft_to_fft.py: rfft_to_fft")
p("C02", "3D half-spectrum expansion equals the full FFT modulus",
  "rfft_to_fft(cube) for a real 3D cube returns, at (kz,ky,kx), the modulus of the three-dimensional discrete Fourier transform of the cube; any other number of dimensions raises TypeError.",
  "every shape with axes >=1 and every real cube",
  "needs all parities of three axes and all data",
  S+"rfft_to_fft.py: rfft_to_fft")
p("C03", "Integer pixel shift is an exact cyclic shift",
  "pixel_shift(x, s) moves element i to (i+trunc(s)) mod n: nothing is lost or duplicated, shifts compose additively, shifting back restores the input, and a float shift is truncated toward zero.",
  "every array, every integer or float shift, of either sign and of magnitude above the length",
  "all shifts, signs and lengths; wrap-around and negative remainders are easy to sample past",
  S+"stats_utils.py: pixel_shift")
p("C04", "Fourier shift by a whole number of pixels agrees with the pixel shift",
  "fourier_shift(x, s) with integer-valued s returns exactly pixel_shift(x, s), including where the blank (non-finite) pixels end up.",
  "every length n>=1, every real array with blanks anywhere, every integer s",
  "equality of an FFT phase-ramp and a roll over all lengths and shifts, including the Nyquist frequency of even lengths",
  S+"stats_utils.py: fourier_shift, _shifter, pixel_shift")
p("C05", "Hellinger distance is a metric bounded by one",
  "hellinger(p,q) is symmetric, non-negative, zero exactly when the two non-negative histograms agree, satisfies the triangle inequality whenever the middle histogram is blank only where an outer one is, ignores bins that are blank in either argument, and is at most 1 when each histogram sums to 1 and the bin width is 1.",
  "every pair/triple of equal-length arrays of non-negative finite numbers or blanks",
  "a metric axiom quantifies over all triples",
  S+"stats_utils.py: hellinger")
p("C06", "Hellinger distance of two density histograms stays within [0,1] and does not depend on the bin width",
  "For two probability densities tabulated on common bins of width w (each sums to 1/w) hellinger(p,q,bin_width=w) lies in [0,1] and equals the distance of the corresponding bin probabilities.",
  "every bin width w>0 and every pair of non-negative density histograms",
  "the scaling law must hold for all widths",
  S+"stats_utils.py: hellinger", S+"stat_moments/highstatmoments.py: StatMoments_Distance.distance_metric", S+"pdf/compare_pdf.py: PDF_Distance.compute_hellinger_distance")
p("C07", "Normalisation schemes deliver what they promise",
  "data_normalization returns data with mean 0 (center, standardize), standard deviation 1 (standardize), mean 1 (normalize_by_mean), minimum 0 and maximum 1 (normalize), leaves blanks exactly where they were, and raises ValueError for any other scheme name.",
  "every array with at least one finite value and non-degenerate spread (non-zero mean), every scheme string",
  "all arrays with all blank patterns",
  S+"stats_utils.py: data_normalization, standardize, center, normalize, normalize_by_mean")
p("C08", "Kullback-Leibler divergence is non-negative and zero on equal distributions",
  "kl_divergence(P,Q) >= 0 for probability vectors with positive entries, = 0 iff P = Q; blanks in either argument remove the corresponding bin from both.",
  "all positive probability vectors of equal length; all blank patterns",
  "Gibbs' inequality over all distributions; blank patterns are combinatorial",
  S+"stats_utils.py: kl_divergence")
p("C09", "Common histogram bins cover both data sets",
  "common_histogram_bins returns exactly nbins edges (floor(sqrt(mean size)) by default), in increasing order and equally spaced (equal ratios for logscale), whose first and last edge are the smaller minimum and the larger maximum of the two data sets clipped to min_val/max_val; 2D inputs raise ValueError; centres lie midway between edges.",
  "all pairs of 1D data sets with blanks, all nbins, min_val, max_val",
  "all data, all optional-argument combinations",
  S+"stats_utils.py: common_histogram_bins")
p("C10", "Common pixel scale is consistent between two images",
  "common_scale(a,b)*common_scale(b,a)=1, common_scale(a,a)=1, common_scale(a,c)=common_scale(a,b)*common_scale(b,c); distorted or non-square (beyond tol) grids raise and nothing else does.",
  "all pixel-scale pairs and tolerances",
  "all grids; the error conditions must be exact",
  S+"stats_utils.py: common_scale")
p("C11", "Padding helpers only overwrite the padding",
  "padwithzeros/padwithnans set exactly the first pad_width[0] and last pad_width[1] entries and leave the interior unchanged.",
  "all vectors and all pad widths including zero",
  "asymmetric and zero pad widths",
  S+"stats_utils.py: padwithzeros, padwithnans")
p("C12", "Radial power spectrum bins partition the plane",
  "Each value of the 1D spectrum is the mean of the 2D power over exactly the pixels whose frequency distance falls in that annulus; every pixel inside the binned range is used in exactly one annulus; the value lies between the smallest and largest power in it; an annulus with at most one pixel has an undefined standard deviation; annuli without pixels are blank.",
  "every 2D power array, all shapes and bin edges",
  "all shapes, all bin sizes, empty annuli",
  S+"psds.py: pspec")
p("C13", "Azimuthal constraint selects a point-symmetric sector pair",
  "Restricting the spectrum to an azimuthal range keeps, with each frequency, its opposite frequency, and keeps every pixel within delta/2 of theta_0 modulo pi.",
  "all theta_0, delta_theta, all array shapes",
  "angle wrap-around and even/odd centre conventions",
  S+"psds.py: pspec, make_radial_arrays, make_radial_freq_arrays")
p("C14", "VCA spectrum is the sum of the channel maps' spectra",
  "The 2D power spectrum computed by VCA at (ky,kx) equals the number of channels times the sum over channels of the squared modulus of each channel map's 2D Fourier transform.",
  "every cube shape and every real cube",
  "an identity between a 3D and many 2D transforms over all data",
  S+"vca_vcs/vca.py: VCA.compute_pspec", S+"rfft_to_fft.py: rfft_to_fft")
p("C15", "VCS spectrum is the sum of the spectra of the individual lines of sight",
  "The 1D spectrum computed by VCS at kz equals (number of pixels / number of non-blank pixels) times the sum over lines of sight of the squared modulus of each spectrum's 1D Fourier transform; lines of sight that are blank do not contribute.",
  "every cube shape and every real cube",
  "identity over all data (Parseval over the spatial axes)",
  S+"vca_vcs/vcs.py: VCS.compute_pspec")
p("C16", "SCF values are bounded and one at zero lag",
  "With the continuous boundary every SCF surface value v satisfies 1-sqrt(2) <= v <= 1, equals 1 at zero lag when the cube has a non-zero value, and the internal 'above 1' error can never fire.",
  "every cube with blanks, every integer lag",
  "a bound over all data",
  S+"scf/scf.py: SCF.compute_surface")
p("C17", "SCF surface is point-symmetric about the origin",
  "With the continuous boundary, the SCF value at lag (dx,dy) equals the value at (-dx,-dy).",
  "every cube, every integer lag",
  "holds only because sums over wrapped indices are re-indexed; all data, all lags",
  S+"scf/scf.py: SCF.compute_surface")
p("C18", "SCF is invariant to intensity calibration",
  "Multiplying the cube by any non-zero constant leaves the whole SCF surface unchanged.",
  "every cube, every constant c<>0, every lag",
  "for all scalings and data",
  S+"scf/scf.py: SCF.compute_surface")
p("C19", "SCF with boundary='cut' compares only real pixel pairs at the requested lag",
  "With boundary='cut' the SCF at lag (dx,dy) is computed only from pairs of pixels separated by (dx,dy) that are both inside the cube; no wrapped pixel contributes.",
  "every cube, every lag",
  "slicing offset conventions for every sign of the lag",
  S+"scf/scf.py: SCF.compute_surface")
p("C20", "SCF distance is a metric on surfaces",
  "The SCF distance of two surfaces of equal size is symmetric, non-negative, zero exactly for surfaces equal at every lag with non-zero weight, and satisfies the triangle inequality; with weighting the weight of a lag is 1/r, and 1 at the centre.",
  "all surfaces of equal size, weighted or not",
  "metric axioms quantify over all triples",
  S+"scf/scf.py: SCF_Distance.distance_metric")
p("C21", "Cramer statistic does not depend on the order of its arguments",
  "Swapping the two data matrices (also of different sizes) gives the same Cramer distance; identical matrices give 0; permuting the rows of either, or adding the same vector to all rows of both, changes nothing.",
  "all data matrices with any number of rows >=1",
  "the code swaps roles by size; all sizes and data",
  S+"cramer/cramer.py: Cramer_Distance.cramer_statistic")
p("C22", "Cramer statistic is non-negative",
  "The Cramer distance of two data matrices is never negative.",
  "all data matrices with any number of rows >=1 and any number of columns",
  "a conditional negative-definiteness statement over all point sets",
  S+"cramer/cramer.py: Cramer_Distance.cramer_statistic")
p("C23", "PCA distance compares normalised eigenvalue spectra",
  "The PCA distance is symmetric, non-negative, unchanged when either cube is rescaled, obeys the triangle inequality, and never exceeds sqrt(2); it is zero exactly when the normalised spectra agree.",
  "all non-negative eigenvalue lists with positive sum",
  "all spectra",
  S+"pca/pca.py: PCA_Distance.distance_metric")
p("C24", "Automatic number of principal components follows the documented rule",
  "With method 'value' exactly the eigenvalues at least min_eigval are kept; with 'proportion' the kept components are the longest leading run whose cumulative proportion does not exceed min_eigval, but never fewer than one; other method names raise ValueError; the number never exceeds the number of channels.",
  "all non-increasing eigenvalue lists and thresholds",
  "cut-off position for all spectra",
  S+"pca/pca.py: PCA.set_n_eigs, PCA.compute_pca")
p("C25", "The noise autocorrelation is the mean autocorrelation of the noisiest components",
  "PCA.noise_ACF(n_eigs=-10) returns the average of the autocorrelation images of the last ten eigenimages.",
  "all sets of eigenimages",
  "sign and normalisation of an average for all data",
  S+"pca/pca.py: PCA.noise_ACF, PCA.autocorr_images")
p("C26", "Autocorrelation images peak at zero lag and are point-symmetric",
  "Each autocorrelation image is point-symmetric about zero lag and its largest absolute value is at zero lag.",
  "all images of any shape",
  "Cauchy-Schwarz over all data",
  S+"pca/pca.py: PCA.autocorr_images")
p("C27", "The 1/e width lies where the autocorrelation crosses 1/e",
  "The 'walk-down' width of an eigenvector is the linear interpolation of the first crossing below 1/e: it lies between the last sample not below and the first sample below, and is blank if the level is never crossed; the input is not modified.",
  "all autocorrelation vectors with their maximum at zero lag",
  "all vectors, crossing anywhere",
  S+"pca/width_estimate.py: WidthEstimate1D")
p("C28", "Beam-deconvolved spatial widths below the beam are blank or zero",
  "WidthEstimate2D with beam correction never reports a larger width for a structure that is smaller than the beam contribution than for one exactly equal to it.",
  "all measured widths and beam sizes",
  "monotonicity over all pairs",
  S+"pca/width_estimate.py: WidthEstimate2D")
p("C29", "Delta-variance values and errors are well defined",
  "At every lag the delta variance is either blank together with its error or both are positive; the variance expression and the radicand of its error are non-negative for non-negative weights; adding a constant to the image does not change the expression, scaling by c multiplies it by c^2.",
  "all convolved images, non-negative weights, blanks anywhere",
  "inequalities over all data",
  S+"delta_variance/delta_variance.py: _delvar, DeltaVariance.compute_deltavar")
p("C30", "Delta-variance curve distance ignores overall amplitude and is a metric",
  "The delta-variance curve distance is symmetric, non-negative, zero for proportional curves, obeys the triangle inequality on a common set of valid lags, and only uses lags valid in both curves.",
  "all pairs of positive curves with blanks",
  "metric axioms; blank alignment",
  S+"delta_variance/delta_variance.py: DeltaVariance_Distance.distance_metric")
p("C31", "Lags and scales are validated before anything is stored",
  "Assigning lags (delta-variance), scales (wavelets), radii (higher moments), smoothing radii (genus) or lags (Tsallis) is rejected exactly when a value is below the lower limit or above half the smaller image side or (except for genus, which takes plain numbers of pixels) not a quantity convertible to pixels, and a rejected assignment leaves the previous values in place.",
  "all assignment histories",
  "every sequence of valid and invalid assignments",
  S+"delta_variance/delta_variance.py: DeltaVariance.lags", S+"wavelets/wavelet_transform.py: Wavelet.scales", S+"stat_moments/highstatmoments.py: StatMoments.radius", S+"genus/genus.py: Genus.smoothing_radii", S+"tsallis/tsallis.py: Tsallis.lags")
p("C32", "Annulus and core kernels of the delta variance",
  "The annulus kernel is non-negative, zero at the centre, depends only on the distance from the centre, and core and annulus have equal integral one so that their difference ignores a constant background.",
  "all sigma>0 and diameter ratios <> 1",
  "an identity over a continuum of parameters",
  S+"delta_variance/kernels.py: core_kernel, annulus_kernel, GaussianAnnulus2D")
p("C33", "Genus is odd under negation of the image and threshold",
  "The genus of the negated image at the negated threshold is minus the genus of the image; at thresholds at or above the maximum there are no high regions.",
  "all images with blanks, all thresholds",
  "all images",
  S+"genus/genus.py: Genus.make_genus_curve")
p("C34", "Small-object removal keeps exactly the large connected components",
  "remove_small_objects keeps a pixel exactly when its connected component (given connectivity) has at least min_size pixels; applying it twice changes nothing more.",
  "all masks, both connectivities, all min_size",
  "all topologies of connected components",
  S+"genus/genus.py: remove_small_objects")
p("C35", "Genus beam area is the area of the Gaussian beam",
  "With use_beam the minimum region size equals the beam's Gaussian solid angle 2*pi*major*minor/(8 ln 2) in pixels.",
  "all beams",
  "dimensional constant for all beams",
  S+"genus/genus.py: Genus.make_genus_curve")
p("C36", "Local moments obey the laws of moments",
  "For an image without blanks and non-negative weights of positive sum, the weighted mean lies between the extreme values, the variance is non-negative, kurtosis+3 >= skewness^2+1, and under x->a*x+b mean, variance, skewness and kurtosis change as a*m+b, a^2*v, sign(a)*s, k.",
  "all images, weights, a<>0, b",
  "inequalities over all data",
  S+"stat_moments/highstatmoments.py: compute_moments")
p("C37", "Blank pixels do not influence moments",
  "The mean, variance, skewness and kurtosis of an image with blank pixels equal those of the remaining pixels.",
  "all images and all blank patterns",
  "all blank patterns",
  S+"stat_moments/highstatmoments.py: compute_moments, StatMoments.array_moments")
p("C38", "Moment windows see exactly the circular neighbourhood",
  "With periodic=True the window around (y,x) contains exactly the pixels at offsets (dy,dx) with dy^2+dx^2 < radius^2, wrapped around the edges; with periodic=False pixels outside the image count as blank.",
  "all image shapes, radii and positions including corners",
  "index arithmetic at all edges",
  S+"stat_moments/highstatmoments.py: StatMoments.compute_spatial_distrib, circular_region")
p("C39", "PDF is normalised and ECDF is a distribution function",
  "The PDF times the bin widths sums to 1 and is non-negative; the ECDF is non-decreasing, within [0,1] and ends at 1; only finite data above min_val (with weights applied) enter.",
  "all data sets with at least one accepted value inside the bins",
  "all data and bins",
  S+"pdf/compare_pdf.py: PDF.make_pdf, PDF.make_ecdf, PDF.__init__")
p("C40", "Recomputing the PDF gives the same PDF",
  "Calling make_pdf() again on the same object without arguments returns the same bins and PDF.",
  "all data and histories of calls",
  "histories of calls",
  S+"pdf/compare_pdf.py: PDF.make_pdf")
p("C41", "Moment-error strategies agree",
  "For moments 0, 1 and 2 the slice-wise and the cube-wise strategies return the same error at every pixel; how='auto' is one of the two, whatever spectral-cube proposes.",
  "all cubes, masks, axes, scales",
  "two loop structures agree on all data",
  "turbustat/moments/_moment_errs.py: moment0_error, moment1_error, moment2_error, _slice0, _cube0, _slice1, _cube1, _slice2, _cube2")
p("C42", "Moment errors are non-negative and proportional to the noise",
  "Multiplying the noise level by c>=0 multiplies every moment error by c; errors are non-negative; more masked-in channels never reduce the zeroth-moment error.",
  "all cubes, masks, c>=0",
  "law over all data",
  "turbustat/moments/_moment_errs.py: _slice0, _cube0, _slice1, _cube1, _slice2, _cube2")
p("C43", "Spatial unit conversions round-trip",
  "Converting a length from pixels to angular or physical units and back returns the value; frequencies convert by the reciprocal of the length and areas by the square; conversion of a length with an incompatible unit raises; converting to physical units without a distance raises.",
  "all values, pixel sizes, distances and unit types",
  "all magnitudes and unit combinations",
  S+"base_statistic.py: BaseStatisticMixIn._to_pixel, _to_angular, _to_physical, _to_pixel_freq, _to_pixel_area, _spatial_unit_conversion, _spatial_freq_unit_conversion")
p("C44", "Rejected distances, headers and data leave the object unchanged",
  "Setting distance to a non-quantity, non-length or non-scalar raises and keeps the previous distance; setting header or data to a wrong type raises TypeError and keeps the previous value.",
  "all histories of assignments",
  "histories of assignments",
  S+"base_statistic.py: BaseStatisticMixIn.distance, header, data")
p("C45", "Saving never changes the object and loading restores the results",
  "save_results leaves the object as it was, writes to a name ending in .pkl exactly once, and load_results of that name returns an object with the same state, without the data unless keep_data.",
  "all names, all object states, all histories of saves",
  "histories of save/load, every file name",
  S+"base_statistic.py: BaseStatisticMixIn.save_results, load_results")
p("C46", "Input dispatch",
  "input_data accepts exactly the supported input kinds, returns data and header of the input (data only with no_header), and raises TypeError/ValueError otherwise; with need_copy the returned data can be modified without changing the input.",
  "all input kinds and flags",
  "all kinds times flags times aliasing",
  "turbustat/io/input_base.py: input_data")
p("C47", "Segmented fit stops",
  "The break-point search of Lm_Seg performs at most iter_max+1 outer iterations with at most 5 step halvings each, whatever the data, and ends either with converged break or with the failed state that has no break.",
  "all data, all behaviours of the least squares solver",
  "termination for every run of the numerical solver",
  S+"lm_seg.py: Lm_Seg.fit_model")
p("C48", "Segmented model is continuous and its slopes are the reported slopes",
  "At convergence the fitted broken line has slope slopes[0] left of the break and slopes[1] right of it; the two lines meet at the break up to the fitted offset term.",
  "all parameters, all x",
  "identity over all parameters",
  S+"lm_seg.py: Lm_Seg.model, Lm_Seg.get_slopes")
p("C49", "Fit-range clipping keeps exactly the requested interval",
  "clip_func(values, low, high) is true exactly for values in (low, high]; no limits keep everything; limit lists that do not have two entries raise ValueError.",
  "all values and limits",
  "boundary cases",
  S+"fitting_utils.py: clip_func, check_fit_limits")
p("C50", "Residual bootstrap draws from all residuals",
  "residual_bootstrap can draw every residual, and only residuals of the fit.",
  "all residual vectors and all random draws",
  "an existence statement over random draws",
  S+"fitting_utils.py: residual_bootstrap")
p("C51", "Apodizing kernels are tapers",
  "Every apodizing kernel value lies in [0,1], depends only on distance from the centre, is 1 in the untapered interior and 0 outside the taper, and does not increase outwards.",
  "all shapes and alpha/beta parameters",
  "a continuum of parameters and all shapes",
  S+"apodizing_kernels.py: TukeyWindow, HanningWindow, SplitCosineBellWindow, CosineBellWindow")
p("C52", "Elliptical power-law model symmetries",
  "The 2D elliptical power law is unchanged by theta->theta+pi and by (x,y)->(-x,-y), reduces to the isotropic power law for ellipticity 1, its argument is positive away from the origin, and at the origin the value is 0.",
  "all parameters and positions",
  "continuum of parameters",
  S+"elliptical_powerlaw.py: LogEllipticalPowerLaw2D.evaluate")
p("C53", "Interval transforms are inverse to each other",
  "interval_transform and inverse_interval_transform are inverse bijections between (a,b) and the real line, increasing, and the standard-error helpers multiply by the absolute derivative.",
  "all a<b, all x in (a,b), all real y",
  "continuum",
  S+"elliptical_powerlaw.py: interval_transform, inverse_interval_transform, interval_transform_stderr, inverse_interval_transform_stderr")
p("C54", "Generated fields have the anisotropy that the 2D fit measures",
  "The elliptical frequency radius used by make_extended(ellip, theta) is the same quadratic form as in the elliptical power-law fit with the same ellipticity and angle, so the generated power is constant on the model's contours.",
  "all frequencies, ellipticities in (0,1], angles",
  "continuum",
  "turbustat/simulator/gen_field.py: make_extended", S+"elliptical_powerlaw.py: LogEllipticalPowerLaw2D.evaluate")
p("C55", "Generated Fourier maps are Hermitian so the field is real",
  "The Fourier map built by make_extended for an even image size satisfies F(-k)=conj(F(k)) for all k, so no information is lost when returning the real field.",
  "all even sizes, all random phases",
  "index identity for all sizes and phases",
  "turbustat/simulator/gen_field.py: make_extended")
p("C56", "Generated fields have the requested size and amplitude",
  "make_extended/make_3dfield return arrays of the requested size; make_3dfield's root-mean-square equals amp.",
  "all sizes (even and odd), all phases, all amp",
  "odd and even sizes",
  "turbustat/simulator/gen_field.py: make_extended, make_3dfield")
p("C57", "Synthetic cubes do not depend on the number of processes or their order",
  "make_ppv assembles the same cube whatever the number of processes and the order in which the lines of sight complete, and every pixel gets the spectrum of its own line of sight along los_axis.",
  "all schedules, all field shapes, los_axis 0,1,2",
  "schedules",
  "turbustat/simulator/make_cube.py: make_ppv, field_slice", "turbustat/simulator/spectrum.pyx: generate_spectrum")
p("C58", "Synthetic spectra are linear in density and non-negative",
  "For a fixed velocity field the optically thin spectrum is additive and homogeneous in the density, non-negative for non-negative density, and unchanged by reordering the cells along the line of sight.",
  "all fields",
  "all data",
  "turbustat/simulator/spectrum.pyx: generate_spectrum")
p("C59", "Velocity channels cover the requested range",
  "make_ppv's channel edges start at the minimum, end at the maximum, are equally spaced with width at most chan_width, and there are at most max_chan channels; inconsistent limits or negative densities raise ValueError.",
  "all ranges and widths",
  "all real ranges",
  "turbustat/simulator/make_cube.py: make_ppv")
p("C60", "Bicoherence lies between 0 and 1",
  "Every bicoherence value is either blank (no power) or in [0,1].",
  "all images, all random samples",
  "triangle inequality over all data and random draws",
  S+"pspec_bispec/bispec.py: Bispectrum.compute_bispectrum")
p("C61", "Bispectrum sampling stays inside the transform",
  "Every frequency index sampled is a valid index of the Fourier transform.",
  "all image shapes, all angles",
  "all shapes and random angles",
  S+"pspec_bispec/bispec.py: Bispectrum.compute_bispectrum")
p("C62", "Tsallis lag differences",
  "Default lags are the powers of two not above half the smaller side; with periodic=True the difference image at a lag sums to zero and does not change when a constant is added to the image.",
  "all images, all lags",
  "all data and sizes",
  S+"tsallis/tsallis.py: Tsallis.lags, Tsallis.make_tsallis")
p("C63", "Tsallis model is even and peaked at zero",
  "The Tsallis function is even in its argument and largest at zero for q>1.",
  "all parameters with q>1, all x",
  "continuum",
  S+"tsallis/tsallis.py: tsallis_function")
p("C64", "Tsallis fit clipping is on the standardised difference",
  "Fitting with sigma_clip=s uses exactly the histogram points with |x| < s.",
  "all histograms and s",
  "all data",
  S+"tsallis/tsallis.py: clip_to_sigma")
p("C65", "Spectral downsampling decisions",
  "change_slice_thickness raises for a channel width below the cube's, returns the cube unchanged for an equal width, and otherwise produces floor(range/width) channels or averages ceil(width) channels with the requested function; unknown methods raise ValueError.",
  "all widths and cubes",
  "all widths",
  S+"vca_vcs/slice_thickness.py: spectral_regrid_cube")
p("C66", "Modified velocity centroids ignore blank pixels",
  "A pixel blank in the centroid, moment-0 or linewidth map does not make the MVC spectrum blank.",
  "all maps and blank patterns",
  "blank patterns",
  S+"mvc/mvc.py: MVC.__init__, MVC.compute_pspec")
p("C67", "Multivariate ECDF rows are distribution functions",
  "Each row of mecdf is non-decreasing and ends at 1 for non-negative histogram rows with a positive sum, also when rows are padded with blanks.",
  "all histograms",
  "all data, padding",
  S+"dendrograms/mecdf.py: mecdf", S+"dendrograms/dendro_stats.py: Dendrogram_Distance.histogram_stat")
p("C68", "Wavelet transform values are positive or blank",
  "Each wavelet value is the mean of the positive coefficients at that scale: positive, at most the maximum, blank when there is none.",
  "all images, all scales",
  "all data",
  S+"wavelets/wavelet_transform.py: Wavelet.compute_transform, Wavelet.values")
p("C69", "Brightest-pixel matrix",
  "intensity_data returns for each kept channel the brightest values in ascending/descending order, padded to equal length, and channels without signal are dropped.",
  "all cubes and noise limits",
  "all data",
  S+"threeD_to_twoD.py: intensity_data")
p("C70", "Channel covariance is symmetric and positive semi-definite",
  "var_cov_cube returns a symmetric positive semi-definite matrix for cubes without blanks, unchanged by adding a constant per channel when mean_sub is set.",
  "all cubes",
  "all data",
  S+"threeD_to_twoD.py: var_cov_cube")
p("C71", "Slope distances",
  "The spectral-slope distances (power spectrum, VCA, MVC, wavelet, delta-variance slope) are symmetric, non-negative, zero iff slopes agree, and unchanged when both errors are swapped.",
  "all slopes and errors",
  "all reals",
  S+"pspec_bispec/pspec.py: PSpec_Distance.distance_metric", S+"wavelets/wavelet_transform.py: Wavelet_Distance.distance_metric", S+"delta_variance/delta_variance.py: DeltaVariance_Distance.distance_metric", S+"vca_vcs/vca.py: VCA_Distance.distance_metric", S+"mvc/mvc.py: MVC_Distance.distance_metric")
p("C72", "Beam headers",
  "find_beam_properties requires BMAJ, defaults BMIN to BMAJ and BPA to 0, and otherwise returns the header's values.",
  "all headers",
  "all key combinations",
  "turbustat/io/try_load_beamwidth.py: find_beam_properties")
p("C73", "Synthetic headers put the reference pixel at the centre of the right axis",
  "create_image_header and create_cube_header place CRPIXi at half the length of FITS axis i (numpy axis -i).",
  "all shapes including non-square",
  "non-square shapes",
  "turbustat/io/sim_tools.py: create_image_header, create_cube_header")
p("C74", "Dendrogram histogram and comparison cut-offs",
  "All histograms of Dendrogram_Stats.make_hists and of Dendrogram_Distance use the requested bins, and a dendrogram comparison succeeds whenever at least one common min_delta qualifies.",
  "all min_delta lists",
  "all list lengths",
  S+"dendrograms/dendro_stats.py: Dendrogram_Stats.make_hists, Dendrogram_Distance.__init__")
p("C75", "Reusing precomputed statistics in a distance",
  "A Distance class given any mix of raw data and already computed statistic objects produces a distance (it never treats one kind as the other).",
  "all four combinations of raw/computed inputs",
  "combinations",
  S+"delta_variance/delta_variance.py: DeltaVariance_Distance.__init__", S+"scf/scf.py: SCF_Distance.__init__")
