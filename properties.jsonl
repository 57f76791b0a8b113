{"id": "C01", "title": "2D half-spectrum expansion equals the full FFT modulus", "statement": "rfft_to_fft(image) for a real 2D image returns an array with the shape of the image whose entry (ky,kx) is the modulus of the two-dimensional discrete Fourier transform of the image at (ky,kx); with keep_rfft=True it returns exactly the first nx//2+1 columns of it.", "quantifier": "every ny>=1, nx>=1 (even and odd), every real image", "why_tests_cant": "the index arithmetic differs by parity of both axes and by degenerate sizes; a test fixes a handful of shapes", "anchors": ["turbustat/statistics/rfft_to_fft.py: rfft_to_fft"]}
{"id": "C02", "title": "3D half-spectrum expansion equals the full FFT modulus", "statement": "rfft_to_fft(cube) for a real 3D cube returns, at (kz,ky,kx), the modulus of the three-dimensional discrete Fourier transform of the cube; any other number of dimensions raises TypeError.", "quantifier": "every shape with axes >=1 and every real cube", "why_tests_cant": "needs all parities of three axes and all data", "anchors": ["turbustat/statistics/rfft_to_fft.py: rfft_to_fft"]}
{"id": "C03", "title": "Integer pixel shift is an exact cyclic shift", "statement": "pixel_shift(x, s) moves element i to (i+trunc(s)) mod n: nothing is lost or duplicated, shifts compose additively, shifting back restores the input, and a float shift is truncated toward zero.", "quantifier": "every array, every integer or float shift, of either sign and of magnitude above the length", "why_tests_cant": "all shifts, signs and lengths; wrap-around and negative remainders are easy to sample past", "anchors": ["turbustat/statistics/stats_utils.py: pixel_shift"]}
{"id": "C04", "title": "Fourier shift by a whole number of pixels agrees with the pixel shift", "statement": "fourier_shift(x, s) with integer-valued s returns exactly pixel_shift(x, s), including where the blank (non-finite) pixels end up.", "quantifier": "every length n>=1, every real array with blanks anywhere, every integer s", "why_tests_cant": "equality of an FFT phase-ramp and a roll over all lengths and shifts, including the Nyquist frequency of even lengths", "anchors": ["turbustat/statistics/stats_utils.py: fourier_shift, _shifter, pixel_shift"]}
{"id": "C05", "title": "Hellinger distance is a metric bounded by one", "statement": "hellinger(p,q) is symmetric, non-negative, zero exactly when the two non-negative histograms agree, satisfies the triangle inequality whenever the middle histogram is blank only where an outer one is, ignores bins that are blank in either argument, and is at most 1 when each histogram sums to 1 and the bin width is 1.", "quantifier": "every pair/triple of equal-length arrays of non-negative finite numbers or blanks", "why_tests_cant": "a metric axiom quantifies over all triples", "anchors": ["turbustat/statistics/stats_utils.py: hellinger"]}
{"id": "C06", "title": "Hellinger distance of two density histograms stays within [0,1] and does not depend on the bin width", "statement": "For two probability densities tabulated on common bins of width w (each sums to 1/w) hellinger(p,q,bin_width=w) lies in [0,1] and equals the distance of the corresponding bin probabilities.", "quantifier": "every bin width w>0 and every pair of non-negative density histograms", "why_tests_cant": "the scaling law must hold for all widths", "anchors": ["turbustat/statistics/stats_utils.py: hellinger", "turbustat/statistics/stat_moments/highstatmoments.py: StatMoments_Distance.distance_metric", "turbustat/statistics/pdf/compare_pdf.py: PDF_Distance.compute_hellinger_distance"]}
{"id": "C07", "title": "Normalisation schemes deliver what they promise", "statement": "data_normalization returns data with mean 0 (center, standardize), standard deviation 1 (standardize), mean 1 (normalize_by_mean), minimum 0 and maximum 1 (normalize), leaves blanks exactly where they were, and raises ValueError for any other scheme name.", "quantifier": "every array with at least one finite value and non-degenerate spread (non-zero mean), every scheme string", "why_tests_cant": "all arrays with all blank patterns", "anchors": ["turbustat/statistics/stats_utils.py: data_normalization, standardize, center, normalize, normalize_by_mean"]}
{"id": "C08", "title": "Kullback-Leibler divergence is non-negative and zero on equal distributions", "statement": "kl_divergence(P,Q) >= 0 for probability vectors with positive entries, = 0 iff P = Q; blanks in either argument remove the corresponding bin from both.", "quantifier": "all positive probability vectors of equal length; all blank patterns", "why_tests_cant": "Gibbs' inequality over all distributions; blank patterns are combinatorial", "anchors": ["turbustat/statistics/stats_utils.py: kl_divergence"]}
{"id": "C09", "title": "Common histogram bins cover both data sets", "statement": "common_histogram_bins returns exactly nbins edges (floor(sqrt(mean size)) by default), in increasing order and equally spaced (equal ratios for logscale), whose first and last edge are the smaller minimum and the larger maximum of the two data sets clipped to min_val/max_val; 2D inputs raise ValueError; centres lie midway between edges.", "quantifier": "all pairs of 1D data sets with blanks, all nbins, min_val, max_val", "why_tests_cant": "all data, all optional-argument combinations", "anchors": ["turbustat/statistics/stats_utils.py: common_histogram_bins"]}
{"id": "C10", "title": "Common pixel scale is consistent between two images", "statement": "common_scale(a,b)*common_scale(b,a)=1, common_scale(a,a)=1, common_scale(a,c)=common_scale(a,b)*common_scale(b,c); distorted or non-square (beyond tol) grids raise and nothing else does.", "quantifier": "all pixel-scale pairs and tolerances", "why_tests_cant": "all grids; the error conditions must be exact", "anchors": ["turbustat/statistics/stats_utils.py: common_scale"]}
{"id": "C11", "title": "Padding helpers only overwrite the padding", "statement": "padwithzeros/padwithnans set exactly the first pad_width[0] and last pad_width[1] entries and leave the interior unchanged.", "quantifier": "all vectors and all pad widths including zero", "why_tests_cant": "asymmetric and zero pad widths", "anchors": ["turbustat/statistics/stats_utils.py: padwithzeros, padwithnans"]}
{"id": "C12", "title": "Radial power spectrum bins partition the plane", "statement": "Each value of the 1D spectrum is the mean of the 2D power over exactly the pixels whose frequency distance falls in that annulus; every pixel inside the binned range is used in exactly one annulus; the value lies between the smallest and largest power in it; an annulus with at most one pixel has an undefined standard deviation; annuli without pixels are blank.", "quantifier": "every 2D power array, all shapes and bin edges", "why_tests_cant": "all shapes, all bin sizes, empty annuli", "anchors": ["turbustat/statistics/psds.py: pspec"]}
{"id": "C13", "title": "Azimuthal constraint selects a point-symmetric sector pair", "statement": "Restricting the spectrum to an azimuthal range keeps, with each frequency, its opposite frequency, and keeps every pixel within delta/2 of theta_0 modulo pi.", "quantifier": "all theta_0, delta_theta, all array shapes", "why_tests_cant": "angle wrap-around and even/odd centre conventions", "anchors": ["turbustat/statistics/psds.py: pspec, make_radial_arrays, make_radial_freq_arrays"]}
{"id": "C14", "title": "VCA spectrum is the sum of the channel maps' spectra", "statement": "The 2D power spectrum computed by VCA at (ky,kx) equals the number of channels times the sum over channels of the squared modulus of each channel map's 2D Fourier transform.", "quantifier": "every cube shape and every real cube", "why_tests_cant": "an identity between a 3D and many 2D transforms over all data", "anchors": ["turbustat/statistics/vca_vcs/vca.py: VCA.compute_pspec", "turbustat/statistics/rfft_to_fft.py: rfft_to_fft"]}
{"id": "C15", "title": "VCS spectrum is the sum of the spectra of the individual lines of sight", "statement": "The 1D spectrum computed by VCS at kz equals (number of pixels / number of non-blank pixels) times the sum over lines of sight of the squared modulus of each spectrum's 1D Fourier transform; lines of sight that are blank do not contribute.", "quantifier": "every cube shape and every real cube", "why_tests_cant": "identity over all data (Parseval over the spatial axes)", "anchors": ["turbustat/statistics/vca_vcs/vcs.py: VCS.compute_pspec"]}
{"id": "C16", "title": "SCF values are bounded and one at zero lag", "statement": "With the continuous boundary every SCF surface value v satisfies 1-sqrt(2) <= v <= 1, equals 1 at zero lag when the cube has a non-zero value, and the internal 'above 1' error can never fire.", "quantifier": "every cube with blanks, every integer lag", "why_tests_cant": "a bound over all data", "anchors": ["turbustat/statistics/scf/scf.py: SCF.compute_surface"]}
{"id": "C17", "title": "SCF surface is point-symmetric about the origin", "statement": "With the continuous boundary, the SCF value at lag (dx,dy) equals the value at (-dx,-dy).", "quantifier": "every cube, every integer lag", "why_tests_cant": "holds only because sums over wrapped indices are re-indexed; all data, all lags", "anchors": ["turbustat/statistics/scf/scf.py: SCF.compute_surface"]}
{"id": "C18", "title": "SCF is invariant to intensity calibration", "statement": "Multiplying the cube by any non-zero constant leaves the whole SCF surface unchanged.", "quantifier": "every cube, every constant c<>0, every lag", "why_tests_cant": "for all scalings and data", "anchors": ["turbustat/statistics/scf/scf.py: SCF.compute_surface"]}
{"id": "C19", "title": "SCF with boundary='cut' compares only real pixel pairs at the requested lag", "statement": "With boundary='cut' the SCF at lag (dx,dy) is computed only from pairs of pixels separated by (dx,dy) that are both inside the cube; no wrapped pixel contributes.", "quantifier": "every cube, every lag", "why_tests_cant": "slicing offset conventions for every sign of the lag", "anchors": ["turbustat/statistics/scf/scf.py: SCF.compute_surface"]}
{"id": "C20", "title": "SCF distance is a metric on surfaces", "statement": "The SCF distance of two surfaces of equal size is symmetric, non-negative, zero exactly for surfaces equal at every lag with non-zero weight, and satisfies the triangle inequality; with weighting the weight of a lag is 1/r, and 1 at the centre.", "quantifier": "all surfaces of equal size, weighted or not", "why_tests_cant": "metric axioms quantify over all triples", "anchors": ["turbustat/statistics/scf/scf.py: SCF_Distance.distance_metric"]}
{"id": "C21", "title": "Cramer statistic does not depend on the order of its arguments", "statement": "Swapping the two data matrices (also of different sizes) gives the same Cramer distance; identical matrices give 0; permuting the rows of either, or adding the same vector to all rows of both, changes nothing.", "quantifier": "all data matrices with any number of rows >=1", "why_tests_cant": "the code swaps roles by size; all sizes and data", "anchors": ["turbustat/statistics/cramer/cramer.py: Cramer_Distance.cramer_statistic"]}
{"id": "C22", "title": "Cramer statistic is non-negative", "statement": "The Cramer distance of two data matrices is never negative.", "quantifier": "all data matrices with any number of rows >=1 and any number of columns", "why_tests_cant": "a conditional negative-definiteness statement over all point sets", "anchors": ["turbustat/statistics/cramer/cramer.py: Cramer_Distance.cramer_statistic"]}
{"id": "C23", "title": "PCA distance compares normalised eigenvalue spectra", "statement": "The PCA distance is symmetric, non-negative, unchanged when either cube is rescaled, obeys the triangle inequality, and never exceeds sqrt(2); it is zero exactly when the normalised spectra agree.", "quantifier": "all non-negative eigenvalue lists with positive sum", "why_tests_cant": "all spectra", "anchors": ["turbustat/statistics/pca/pca.py: PCA_Distance.distance_metric"]}
{"id": "C24", "title": "Automatic number of principal components follows the documented rule", "statement": "With method 'value' exactly the eigenvalues at least min_eigval are kept; with 'proportion' the kept components are the longest leading run whose cumulative proportion does not exceed min_eigval, but never fewer than one; other method names raise ValueError; the number never exceeds the number of channels.", "quantifier": "all non-increasing eigenvalue lists and thresholds", "why_tests_cant": "cut-off position for all spectra", "anchors": ["turbustat/statistics/pca/pca.py: PCA.set_n_eigs, PCA.compute_pca"]}
{"id": "C25", "title": "The noise autocorrelation is the mean autocorrelation of the noisiest components", "statement": "PCA.noise_ACF(n_eigs=-10) returns the average of the autocorrelation images of the last ten eigenimages.", "quantifier": "all sets of eigenimages", "why_tests_cant": "sign and normalisation of an average for all data", "anchors": ["turbustat/statistics/pca/pca.py: PCA.noise_ACF, PCA.autocorr_images"]}
{"id": "C26", "title": "Autocorrelation images peak at zero lag and are point-symmetric", "statement": "Each autocorrelation image is point-symmetric about zero lag and its largest absolute value is at zero lag.", "quantifier": "all images of any shape", "why_tests_cant": "Cauchy-Schwarz over all data", "anchors": ["turbustat/statistics/pca/pca.py: PCA.autocorr_images"]}
{"id": "C27", "title": "The 1/e width lies where the autocorrelation crosses 1/e", "statement": "The 'walk-down' width of an eigenvector is the linear interpolation of the first crossing below 1/e: it lies between the last sample not below and the first sample below, and is blank if the level is never crossed; the input is not modified.", "quantifier": "all autocorrelation vectors with their maximum at zero lag", "why_tests_cant": "all vectors, crossing anywhere", "anchors": ["turbustat/statistics/pca/width_estimate.py: WidthEstimate1D"]}
{"id": "C28", "title": "Beam-deconvolved spatial widths below the beam are blank or zero", "statement": "WidthEstimate2D with beam correction never reports a larger width for a structure that is smaller than the beam contribution than for one exactly equal to it.", "quantifier": "all measured widths and beam sizes", "why_tests_cant": "monotonicity over all pairs", "anchors": ["turbustat/statistics/pca/width_estimate.py: WidthEstimate2D"]}
{"id": "C29", "title": "Delta-variance values and errors are well defined", "statement": "At every lag the delta variance is either blank together with its error or both are positive; the variance expression and the radicand of its error are non-negative for non-negative weights; adding a constant to the image does not change the expression, scaling by c multiplies it by c^2.", "quantifier": "all convolved images, non-negative weights, blanks anywhere", "why_tests_cant": "inequalities over all data", "anchors": ["turbustat/statistics/delta_variance/delta_variance.py: _delvar, DeltaVariance.compute_deltavar"]}
{"id": "C30", "title": "Delta-variance curve distance ignores overall amplitude and is a metric", "statement": "The delta-variance curve distance is symmetric, non-negative, zero for proportional curves, obeys the triangle inequality on a common set of valid lags, and only uses lags valid in both curves.", "quantifier": "all pairs of positive curves with blanks", "why_tests_cant": "metric axioms; blank alignment", "anchors": ["turbustat/statistics/delta_variance/delta_variance.py: DeltaVariance_Distance.distance_metric"]}
{"id": "C31", "title": "Lags and scales are validated before anything is stored", "statement": "Assigning lags (delta-variance), scales (wavelets), radii (higher moments), smoothing radii (genus) or lags (Tsallis) is rejected exactly when a value is below the lower limit or above half the smaller image side or (except for genus, which takes plain numbers of pixels) not a quantity convertible to pixels, and a rejected assignment leaves the previous values in place.", "quantifier": "all assignment histories", "why_tests_cant": "every sequence of valid and invalid assignments", "anchors": ["turbustat/statistics/delta_variance/delta_variance.py: DeltaVariance.lags", "turbustat/statistics/wavelets/wavelet_transform.py: Wavelet.scales", "turbustat/statistics/stat_moments/highstatmoments.py: StatMoments.radius", "turbustat/statistics/genus/genus.py: Genus.smoothing_radii", "turbustat/statistics/tsallis/tsallis.py: Tsallis.lags"]}
{"id": "C32", "title": "Annulus and core kernels of the delta variance", "statement": "The annulus kernel is non-negative, zero at the centre, depends only on the distance from the centre, and core and annulus have equal integral one so that their difference ignores a constant background.", "quantifier": "all sigma>0 and diameter ratios <> 1", "why_tests_cant": "an identity over a continuum of parameters", "anchors": ["turbustat/statistics/delta_variance/kernels.py: core_kernel, annulus_kernel, GaussianAnnulus2D"]}
{"id": "C33", "title": "Genus is odd under negation of the image and threshold", "statement": "The genus of the negated image at the negated threshold is minus the genus of the image; at thresholds at or above the maximum there are no high regions.", "quantifier": "all images with blanks, all thresholds", "why_tests_cant": "all images", "anchors": ["turbustat/statistics/genus/genus.py: Genus.make_genus_curve"]}
{"id": "C34", "title": "Small-object removal keeps exactly the large connected components", "statement": "remove_small_objects keeps a pixel exactly when its connected component (given connectivity) has at least min_size pixels; applying it twice changes nothing more.", "quantifier": "all masks, both connectivities, all min_size", "why_tests_cant": "all topologies of connected components", "anchors": ["turbustat/statistics/genus/genus.py: remove_small_objects"]}
{"id": "C35", "title": "Genus beam area is the area of the Gaussian beam", "statement": "With use_beam the minimum region size equals the beam's Gaussian solid angle 2*pi*major*minor/(8 ln 2) in pixels.", "quantifier": "all beams", "why_tests_cant": "dimensional constant for all beams", "anchors": ["turbustat/statistics/genus/genus.py: Genus.make_genus_curve"]}
{"id": "C36", "title": "Local moments obey the laws of moments", "statement": "For an image without blanks and non-negative weights of positive sum, the weighted mean lies between the extreme values, the variance is non-negative, kurtosis+3 >= skewness^2+1, and under x->a*x+b mean, variance, skewness and kurtosis change as a*m+b, a^2*v, sign(a)*s, k.", "quantifier": "all images, weights, a<>0, b", "why_tests_cant": "inequalities over all data", "anchors": ["turbustat/statistics/stat_moments/highstatmoments.py: compute_moments"]}
{"id": "C37", "title": "Blank pixels do not influence moments", "statement": "The mean, variance, skewness and kurtosis of an image with blank pixels equal those of the remaining pixels.", "quantifier": "all images and all blank patterns", "why_tests_cant": "all blank patterns", "anchors": ["turbustat/statistics/stat_moments/highstatmoments.py: compute_moments, StatMoments.array_moments"]}
{"id": "C38", "title": "Moment windows see exactly the circular neighbourhood", "statement": "With periodic=True the window around (y,x) contains exactly the pixels at offsets (dy,dx) with dy^2+dx^2 < radius^2, wrapped around the edges; with periodic=False pixels outside the image count as blank.", "quantifier": "all image shapes, radii and positions including corners", "why_tests_cant": "index arithmetic at all edges", "anchors": ["turbustat/statistics/stat_moments/highstatmoments.py: StatMoments.compute_spatial_distrib, circular_region"]}
{"id": "C39", "title": "PDF is normalised and ECDF is a distribution function", "statement": "The PDF times the bin widths sums to 1 and is non-negative; the ECDF is non-decreasing, within [0,1] and ends at 1; only finite data above min_val (with weights applied) enter.", "quantifier": "all data sets with at least one accepted value inside the bins", "why_tests_cant": "all data and bins", "anchors": ["turbustat/statistics/pdf/compare_pdf.py: PDF.make_pdf, PDF.make_ecdf, PDF.__init__"]}
{"id": "C40", "title": "Recomputing the PDF gives the same PDF", "statement": "Calling make_pdf() again on the same object without arguments returns the same bins and PDF.", "quantifier": "all data and histories of calls", "why_tests_cant": "histories of calls", "anchors": ["turbustat/statistics/pdf/compare_pdf.py: PDF.make_pdf"]}
{"id": "C41", "title": "Moment-error strategies agree", "statement": "For moments 0, 1 and 2 the slice-wise and the cube-wise strategies return the same error at every pixel; how='auto' is one of the two, whatever spectral-cube proposes.", "quantifier": "all cubes, masks, axes, scales", "why_tests_cant": "two loop structures agree on all data", "anchors": ["turbustat/moments/_moment_errs.py: moment0_error, moment1_error, moment2_error, _slice0, _cube0, _slice1, _cube1, _slice2, _cube2"]}
{"id": "C42", "title": "Moment errors are non-negative and proportional to the noise", "statement": "Multiplying the noise level by c>=0 multiplies every moment error by c; errors are non-negative; more masked-in channels never reduce the zeroth-moment error.", "quantifier": "all cubes, masks, c>=0", "why_tests_cant": "law over all data", "anchors": ["turbustat/moments/_moment_errs.py: _slice0, _cube0, _slice1, _cube1, _slice2, _cube2"]}
{"id": "C43", "title": "Spatial unit conversions round-trip", "statement": "Converting a length from pixels to angular or physical units and back returns the value; frequencies convert by the reciprocal of the length and areas by the square; conversion of a length with an incompatible unit raises; converting to physical units without a distance raises.", "quantifier": "all values, pixel sizes, distances and unit types", "why_tests_cant": "all magnitudes and unit combinations", "anchors": ["turbustat/statistics/base_statistic.py: BaseStatisticMixIn._to_pixel, _to_angular, _to_physical, _to_pixel_freq, _to_pixel_area, _spatial_unit_conversion, _spatial_freq_unit_conversion"]}
{"id": "C44", "title": "Rejected distances, headers and data leave the object unchanged", "statement": "Setting distance to a non-quantity, non-length or non-scalar raises and keeps the previous distance; setting header or data to a wrong type raises TypeError and keeps the previous value.", "quantifier": "all histories of assignments", "why_tests_cant": "histories of assignments", "anchors": ["turbustat/statistics/base_statistic.py: BaseStatisticMixIn.distance, header, data"]}
{"id": "C45", "title": "Saving never changes the object and loading restores the results", "statement": "save_results leaves the object as it was, writes to a name ending in .pkl exactly once, and load_results of that name returns an object with the same state, without the data unless keep_data.", "quantifier": "all names, all object states, all histories of saves", "why_tests_cant": "histories of save/load, every file name", "anchors": ["turbustat/statistics/base_statistic.py: BaseStatisticMixIn.save_results, load_results"]}
{"id": "C46", "title": "Input dispatch", "statement": "input_data accepts exactly the supported input kinds, returns data and header of the input (data only with no_header), and raises TypeError/ValueError otherwise; with need_copy the returned data can be modified without changing the input.", "quantifier": "all input kinds and flags", "why_tests_cant": "all kinds times flags times aliasing", "anchors": ["turbustat/io/input_base.py: input_data"]}
{"id": "C47", "title": "Segmented fit stops", "statement": "The break-point search of Lm_Seg performs at most iter_max+1 outer iterations with at most 5 step halvings each, whatever the data, and ends either with converged break or with the failed state that has no break.", "quantifier": "all data, all behaviours of the least squares solver", "why_tests_cant": "termination for every run of the numerical solver", "anchors": ["turbustat/statistics/lm_seg.py: Lm_Seg.fit_model"]}
{"id": "C48", "title": "Segmented model is continuous and its slopes are the reported slopes", "statement": "At convergence the fitted broken line has slope slopes[0] left of the break and slopes[1] right of it; the two lines meet at the break up to the fitted offset term.", "quantifier": "all parameters, all x", "why_tests_cant": "identity over all parameters", "anchors": ["turbustat/statistics/lm_seg.py: Lm_Seg.model, Lm_Seg.get_slopes"]}
{"id": "C49", "title": "Fit-range clipping keeps exactly the requested interval", "statement": "clip_func(values, low, high) is true exactly for values in (low, high]; no limits keep everything; limit lists that do not have two entries raise ValueError.", "quantifier": "all values and limits", "why_tests_cant": "boundary cases", "anchors": ["turbustat/statistics/fitting_utils.py: clip_func, check_fit_limits"]}
{"id": "C50", "title": "Residual bootstrap draws from all residuals", "statement": "residual_bootstrap can draw every residual, and only residuals of the fit.", "quantifier": "all residual vectors and all random draws", "why_tests_cant": "an existence statement over random draws", "anchors": ["turbustat/statistics/fitting_utils.py: residual_bootstrap"]}
{"id": "C51", "title": "Apodizing kernels are tapers", "statement": "Every apodizing kernel value lies in [0,1], depends only on distance from the centre, is 1 in the untapered interior and 0 outside the taper, and does not increase outwards.", "quantifier": "all shapes and alpha/beta parameters", "why_tests_cant": "a continuum of parameters and all shapes", "anchors": ["turbustat/statistics/apodizing_kernels.py: TukeyWindow, HanningWindow, SplitCosineBellWindow, CosineBellWindow"]}
{"id": "C52", "title": "Elliptical power-law model symmetries", "statement": "The 2D elliptical power law is unchanged by theta->theta+pi and by (x,y)->(-x,-y), reduces to the isotropic power law for ellipticity 1, its argument is positive away from the origin, and at the origin the value is 0.", "quantifier": "all parameters and positions", "why_tests_cant": "continuum of parameters", "anchors": ["turbustat/statistics/elliptical_powerlaw.py: LogEllipticalPowerLaw2D.evaluate"]}
{"id": "C53", "title": "Interval transforms are inverse to each other", "statement": "interval_transform and inverse_interval_transform are inverse bijections between (a,b) and the real line, increasing, and the standard-error helpers multiply by the absolute derivative.", "quantifier": "all a<b, all x in (a,b), all real y", "why_tests_cant": "continuum", "anchors": ["turbustat/statistics/elliptical_powerlaw.py: interval_transform, inverse_interval_transform, interval_transform_stderr, inverse_interval_transform_stderr"]}
{"id": "C54", "title": "Generated fields have the anisotropy that the 2D fit measures", "statement": "The elliptical frequency radius used by make_extended(ellip, theta) is the same quadratic form as in the elliptical power-law fit with the same ellipticity and angle, so the generated power is constant on the model's contours.", "quantifier": "all frequencies, ellipticities in (0,1], angles", "why_tests_cant": "continuum", "anchors": ["turbustat/simulator/gen_field.py: make_extended", "turbustat/statistics/elliptical_powerlaw.py: LogEllipticalPowerLaw2D.evaluate"]}
{"id": "C55", "title": "Generated Fourier maps are Hermitian so the field is real", "statement": "The Fourier map built by make_extended for an even image size satisfies F(-k)=conj(F(k)) for all k, so no information is lost when returning the real field.", "quantifier": "all even sizes, all random phases", "why_tests_cant": "index identity for all sizes and phases", "anchors": ["turbustat/simulator/gen_field.py: make_extended"]}
{"id": "C56", "title": "Generated fields have the requested size and amplitude", "statement": "make_extended/make_3dfield return arrays of the requested size; make_3dfield's root-mean-square equals amp.", "quantifier": "all sizes (even and odd), all phases, all amp", "why_tests_cant": "odd and even sizes", "anchors": ["turbustat/simulator/gen_field.py: make_extended, make_3dfield"]}
{"id": "C57", "title": "Synthetic cubes do not depend on the number of processes or their order", "statement": "make_ppv assembles the same cube whatever the number of processes and the order in which the lines of sight complete, and every pixel gets the spectrum of its own line of sight along los_axis.", "quantifier": "all schedules, all field shapes, los_axis 0,1,2", "why_tests_cant": "schedules", "anchors": ["turbustat/simulator/make_cube.py: make_ppv, field_slice", "turbustat/simulator/spectrum.pyx: generate_spectrum"]}
{"id": "C58", "title": "Synthetic spectra are linear in density and non-negative", "statement": "For a fixed velocity field the optically thin spectrum is additive and homogeneous in the density, non-negative for non-negative density, and unchanged by reordering the cells along the line of sight.", "quantifier": "all fields", "why_tests_cant": "all data", "anchors": ["turbustat/simulator/spectrum.pyx: generate_spectrum"]}
{"id": "C59", "title": "Velocity channels cover the requested range", "statement": "make_ppv's channel edges start at the minimum, end at the maximum, are equally spaced with width at most chan_width, and there are at most max_chan channels; inconsistent limits or negative densities raise ValueError.", "quantifier": "all ranges and widths", "why_tests_cant": "all real ranges", "anchors": ["turbustat/simulator/make_cube.py: make_ppv"]}
{"id": "C60", "title": "Bicoherence lies between 0 and 1", "statement": "Every bicoherence value is either blank (no power) or in [0,1].", "quantifier": "all images, all random samples", "why_tests_cant": "triangle inequality over all data and random draws", "anchors": ["turbustat/statistics/pspec_bispec/bispec.py: Bispectrum.compute_bispectrum"]}
{"id": "C61", "title": "Bispectrum sampling stays inside the transform", "statement": "Every frequency index sampled is a valid index of the Fourier transform.", "quantifier": "all image shapes, all angles", "why_tests_cant": "all shapes and random angles", "anchors": ["turbustat/statistics/pspec_bispec/bispec.py: Bispectrum.compute_bispectrum"]}
{"id": "C62", "title": "Tsallis lag differences", "statement": "Default lags are the powers of two not above half the smaller side; with periodic=True the difference image at a lag sums to zero and does not change when a constant is added to the image.", "quantifier": "all images, all lags", "why_tests_cant": "all data and sizes", "anchors": ["turbustat/statistics/tsallis/tsallis.py: Tsallis.lags, Tsallis.make_tsallis"]}
{"id": "C63", "title": "Tsallis model is even and peaked at zero", "statement": "The Tsallis function is even in its argument and largest at zero for q>1.", "quantifier": "all parameters with q>1, all x", "why_tests_cant": "continuum", "anchors": ["turbustat/statistics/tsallis/tsallis.py: tsallis_function"]}
{"id": "C64", "title": "Tsallis fit clipping is on the standardised difference", "statement": "Fitting with sigma_clip=s uses exactly the histogram points with |x| < s.", "quantifier": "all histograms and s", "why_tests_cant": "all data", "anchors": ["turbustat/statistics/tsallis/tsallis.py: clip_to_sigma"]}
{"id": "C65", "title": "Spectral downsampling decisions", "statement": "change_slice_thickness raises for a channel width below the cube's, returns the cube unchanged for an equal width, and otherwise produces floor(range/width) channels or averages ceil(width) channels with the requested function; unknown methods raise ValueError.", "quantifier": "all widths and cubes", "why_tests_cant": "all widths", "anchors": ["turbustat/statistics/vca_vcs/slice_thickness.py: spectral_regrid_cube"]}
{"id": "C66", "title": "Modified velocity centroids ignore blank pixels", "statement": "A pixel blank in the centroid, moment-0 or linewidth map does not make the MVC spectrum blank.", "quantifier": "all maps and blank patterns", "why_tests_cant": "blank patterns", "anchors": ["turbustat/statistics/mvc/mvc.py: MVC.__init__, MVC.compute_pspec"]}
{"id": "C67", "title": "Multivariate ECDF rows are distribution functions", "statement": "Each row of mecdf is non-decreasing and ends at 1 for non-negative histogram rows with a positive sum, also when rows are padded with blanks.", "quantifier": "all histograms", "why_tests_cant": "all data, padding", "anchors": ["turbustat/statistics/dendrograms/mecdf.py: mecdf", "turbustat/statistics/dendrograms/dendro_stats.py: Dendrogram_Distance.histogram_stat"]}
{"id": "C68", "title": "Wavelet transform values are positive or blank", "statement": "Each wavelet value is the mean of the positive coefficients at that scale: positive, at most the maximum, blank when there is none.", "quantifier": "all images, all scales", "why_tests_cant": "all data", "anchors": ["turbustat/statistics/wavelets/wavelet_transform.py: Wavelet.compute_transform, Wavelet.values"]}
{"id": "C69", "title": "Brightest-pixel matrix", "statement": "intensity_data returns for each kept channel the brightest values in ascending/descending order, padded to equal length, and channels without signal are dropped.", "quantifier": "all cubes and noise limits", "why_tests_cant": "all data", "anchors": ["turbustat/statistics/threeD_to_twoD.py: intensity_data"]}
{"id": "C70", "title": "Channel covariance is symmetric and positive semi-definite", "statement": "var_cov_cube returns a symmetric positive semi-definite matrix for cubes without blanks, unchanged by adding a constant per channel when mean_sub is set.", "quantifier": "all cubes", "why_tests_cant": "all data", "anchors": ["turbustat/statistics/threeD_to_twoD.py: var_cov_cube"]}
{"id": "C71", "title": "Slope distances", "statement": "The spectral-slope distances (power spectrum, VCA, MVC, wavelet, delta-variance slope) are symmetric, non-negative, zero iff slopes agree, and unchanged when both errors are swapped.", "quantifier": "all slopes and errors", "why_tests_cant": "all reals", "anchors": ["turbustat/statistics/pspec_bispec/pspec.py: PSpec_Distance.distance_metric", "turbustat/statistics/wavelets/wavelet_transform.py: Wavelet_Distance.distance_metric", "turbustat/statistics/delta_variance/delta_variance.py: DeltaVariance_Distance.distance_metric", "turbustat/statistics/vca_vcs/vca.py: VCA_Distance.distance_metric", "turbustat/statistics/mvc/mvc.py: MVC_Distance.distance_metric"]}
{"id": "C72", "title": "Beam headers", "statement": "find_beam_properties requires BMAJ, defaults BMIN to BMAJ and BPA to 0, and otherwise returns the header's values.", "quantifier": "all headers", "why_tests_cant": "all key combinations", "anchors": ["turbustat/io/try_load_beamwidth.py: find_beam_properties"]}
{"id": "C73", "title": "Synthetic headers put the reference pixel at the centre of the right axis", "statement": "create_image_header and create_cube_header place CRPIXi at half the length of FITS axis i (numpy axis -i).", "quantifier": "all shapes including non-square", "why_tests_cant": "non-square shapes", "anchors": ["turbustat/io/sim_tools.py: create_image_header, create_cube_header"]}
{"id": "C74", "title": "Dendrogram histogram and comparison cut-offs", "statement": "All histograms of Dendrogram_Stats.make_hists and of Dendrogram_Distance use the requested bins, and a dendrogram comparison succeeds whenever at least one common min_delta qualifies.", "quantifier": "all min_delta lists", "why_tests_cant": "all list lengths", "anchors": ["turbustat/statistics/dendrograms/dendro_stats.py: Dendrogram_Stats.make_hists, Dendrogram_Distance.__init__"]}
{"id": "C75", "title": "Reusing precomputed statistics in a distance", "statement": "A Distance class given any mix of raw data and already computed statistic objects produces a distance (it never treats one kind as the other).", "quantifier": "all four combinations of raw/computed inputs", "why_tests_cant": "combinations", "anchors": ["turbustat/statistics/delta_variance/delta_variance.py: DeltaVariance_Distance.__init__", "turbustat/statistics/scf/scf.py: SCF_Distance.__init__"]}
{"id": "C76", "title": "Azimuthal limits refer to the direction of the frequencies", "statement": "theta_0 of the azimuthal constraint is measured in the same plane as the fitted position angle theta2D: a pixel is kept when the direction atan2(fy, fx) of its frequency (modulo pi) is within delta/2 of theta_0.", "quantifier": "all shapes, all theta_0 and delta_theta", "why_tests_cant": "a test with theta_0 = 0 or pi/2, or a symmetric spectrum, cannot distinguish a mirrored axis", "anchors": ["turbustat/statistics/psds.py: pspec, make_radial_arrays, make_radial_freq_arrays", "turbustat/statistics/base_pspec2.py: ps2D, fit_2Dpspec"]}
{"id": "C77", "title": "The proportion of variance explained is a proportion", "statement": "PCA.var_proportion lies in [0, 1], does not decrease when more components are kept, and is 1 when all are kept.", "quantifier": "all non-negative eigenvalue lists with positive sum, any number of components", "why_tests_cant": "must hold for every spectrum and every cut", "anchors": ["turbustat/statistics/pca/pca.py: PCA.compute_pca, PCA.var_proportion, PCA.total_variance"]}
{"id": "C78", "title": "PCA_Distance(n_eigs=-1) compares all components", "statement": "With n_eigs=-1 the distance is the one obtained by passing the number of channels explicitly.", "quantifier": "all pairs of cubes with the same number of channels", "why_tests_cant": "a test with a negligible last eigenvalue does not notice a dropped one", "anchors": ["turbustat/statistics/pca/pca.py: PCA_Distance.distance_metric"]}
{"id": "C79", "title": "Precomputed PCA objects give the same distance as the cubes", "statement": "Passing PCA objects whose decomposition is computed gives the same PCA distance as passing the cubes, for every admissible n_eigs, and leaves the objects unchanged.", "quantifier": "all pairs of cubes, all n_eigs between 1 and the number of channels", "why_tests_cant": "the boundary n_eigs = number of channels", "anchors": ["turbustat/statistics/pca/pca.py: PCA_Distance.__init__"]}
{"id": "C80", "title": "Spatial analysis works for any number of components", "statement": "PCA.autocorr_images(n_eigs=n) returns n autocorrelation images for every n from 1 to the number of channels.", "quantifier": "all cubes, all n", "why_tests_cant": "the smallest n is a special shape", "anchors": ["turbustat/statistics/pca/pca.py: PCA.autocorr_images, PCA.eigimages"]}
{"id": "C81", "title": "The covariance matrix is a covariance matrix", "statement": "The channel covariance matrix is symmetric; for cubes without blanks its entries are the sample covariances, it is positive semi-definite and scales with the square of the data.", "quantifier": "all cubes, with and without mean subtraction", "why_tests_cant": "positive semi-definiteness quantifies over all weightings", "anchors": ["turbustat/statistics/threeD_to_twoD.py: var_cov_cube"]}
{"id": "C82", "title": "Blank pixels do not bias the covariance matrix", "statement": "Every entry of the covariance matrix is computed from the pixels that are valid in both channels.", "quantifier": "all cubes with blanks anywhere", "why_tests_cant": "bias of order of the blank fraction, for any placement", "anchors": ["turbustat/statistics/threeD_to_twoD.py: var_cov_cube"]}
{"id": "C83", "title": "The autocorrelation does not depend on the position of the structure", "statement": "Shifting an eigenimage cyclically does not change its autocorrelation image.", "quantifier": "all images and shifts", "why_tests_cant": "the dependence only shows for structure on the first pixel", "anchors": ["turbustat/statistics/pca/pca.py: PCA.autocorr_images"]}
{"id": "C84", "title": "The intensity data matrix holds the brightest values of each channel", "statement": "Each row holds the vec_length largest non-blank values of its channel above the noise limit, in descending order, padded with zeros and divided by the maximum of the cube; the arrangement of pixels in a channel does not matter.", "quantifier": "all cubes with blanks, all limits and lengths", "why_tests_cant": "all orders and ties", "anchors": ["turbustat/statistics/threeD_to_twoD.py: intensity_data"]}
{"id": "C85", "title": "The spectra data format picks the brightest spectra", "statement": "With data_format='spectra' the columns of the data matrix are the spectra at the pixels with the largest integrated intensity.", "quantifier": "all map shapes, all choices of pixels", "why_tests_cant": "square maps hide a wrong row length", "anchors": ["turbustat/statistics/threeD_to_twoD.py: _format_data"]}
{"id": "C86", "title": "Blank pixels do not bias the delta variance whatever their weight", "statement": "With user weights, blank pixels are ignored: adding a constant to the image does not change the delta variance.", "quantifier": "all images with blanks, all non-negative weight maps", "why_tests_cant": "depends on where blanks and weights coincide", "anchors": ["turbustat/statistics/delta_variance/delta_variance.py: DeltaVariance.compute_deltavar"]}
{"id": "C87", "title": "The default common lags suit both maps", "statement": "Without given lags, DeltaVariance_Distance chooses lags that are accepted for both maps and, with default limits, yields a curve distance, also when the pixel sizes differ.", "quantifier": "all map sizes and pixel-size ratios", "why_tests_cant": "all ratios and sizes", "anchors": ["turbustat/statistics/delta_variance/delta_variance.py: DeltaVariance_Distance.__init__, DeltaVariance_Distance.distance_metric"]}
{"id": "C88", "title": "Computed delta variances are recomputed at the common lags", "statement": "A DeltaVariance object given to DeltaVariance_Distance whose lags differ from the common lags is recomputed at the common lags.", "quantifier": "all stored and common lags", "why_tests_cant": "state left by an earlier run", "anchors": ["turbustat/statistics/delta_variance/delta_variance.py: DeltaVariance_Distance.__init__"]}
{"id": "C89", "title": "GaussianAnnulus2D is centred where its parameters say", "statement": "The annulus model vanishes at (x_mean, y_mean) and depends only on the distance from there.", "quantifier": "all parameters", "why_tests_cant": "the library itself only uses the origin", "anchors": ["turbustat/statistics/delta_variance/kernels.py: GaussianAnnulus2D.evaluate"]}
{"id": "C90", "title": "Lags mean the same in any unit", "statement": "Lags or scales given in angular units are used as the equivalent number of pixels by DeltaVariance, Wavelet and Tsallis, whether passed to the constructor or assigned later.", "quantifier": "all values, units and pixel sizes", "why_tests_cant": "tests assign lags in pixels", "anchors": ["turbustat/statistics/delta_variance/delta_variance.py: lags, compute_deltavar", "turbustat/statistics/wavelets/wavelet_transform.py: scales", "turbustat/statistics/tsallis/tsallis.py: lags"]}
{"id": "C91", "title": "The segmented model is a function of the point", "statement": "The value Lm_Seg.model gives at a point does not depend on which other points are asked for.", "quantifier": "all parameters, points and sets of points", "why_tests_cant": "tests evaluate on the fitted points only", "anchors": ["turbustat/statistics/lm_seg.py: Lm_Seg.model"]}
{"id": "C92", "title": "A dropped break leaves a straight line", "statement": "When the break is dropped, Lm_Seg.model is the fitted straight line at all points.", "quantifier": "all parameters and points", "why_tests_cant": "shows only beyond the data", "anchors": ["turbustat/statistics/lm_seg.py: Lm_Seg.model, Lm_Seg.fit_model"]}
{"id": "C93", "title": "The error of the break does not depend on the units of y", "statement": "Rescaling y leaves the break and its error unchanged; the error is the standard error of the ratio of the fitted terms.", "quantifier": "all fits", "why_tests_cant": "needs a relation between two fits", "anchors": ["turbustat/statistics/lm_seg.py: Lm_Seg.brk_errs"]}
{"id": "C94", "title": "The start of the break lies in the data", "statement": "Lm_Seg raises ValueError when the start of the break is outside the range of the finite x.", "quantifier": "all data with blanks", "why_tests_cant": "depends on where the blanks are", "anchors": ["turbustat/statistics/lm_seg.py: Lm_Seg.__init__"]}
{"id": "C95", "title": "Blank points are dropped with their weights", "statement": "A weighted segmented fit with blank points fits the remaining points with their weights.", "quantifier": "all data and weights", "why_tests_cant": "depends on where the blanks are", "anchors": ["turbustat/statistics/lm_seg.py: Lm_Seg.__init__, Lm_Seg.fit_model"]}
{"id": "C96", "title": "Every accepted start of the break can be fitted", "statement": "If the constructor accepts the start of the break, fit_model does not raise.", "quantifier": "all data, all behaviours of the solver", "why_tests_cant": "boundary starts", "anchors": ["turbustat/statistics/lm_seg.py: Lm_Seg.fit_model"]}
{"id": "C97", "title": "Residual bootstrap resamples around the fit", "statement": "The resampled data are the fitted values plus resampled residuals.", "quantifier": "all fits and draws", "why_tests_cant": "random draws", "anchors": ["turbustat/statistics/fitting_utils.py: residual_bootstrap"]}
{"id": "C98", "title": "Break, break error and slopes of an object belong to the last fit", "statement": "After any sequence of fits an object has one slope and neither break nor break error, or two slopes and a break with its error.", "quantifier": "all histories of fits", "why_tests_cant": "histories", "anchors": ["turbustat/statistics/base_pspec2.py: fit_pspec", "turbustat/statistics/delta_variance/delta_variance.py: fit_plaw", "turbustat/statistics/wavelets/wavelet_transform.py: fit_transform"]}
{"id": "C99", "title": "Reported errors are errors of the reported values", "statement": "slope_err and brk_err of a fit with a break are standard errors of the slopes and of the break reported.", "quantifier": "all fits", "why_tests_cant": "numbers look plausible", "anchors": ["turbustat/statistics/base_pspec2.py: fit_pspec", "turbustat/statistics/lm_seg.py: Lm_Seg.get_slopes"]}
{"id": "C100", "title": "A fitted break is a scale in pixels", "statement": "The break of a fit can be converted to pixels and used as the break of another fit.", "quantifier": "all objects and values", "why_tests_cant": "unit handling", "anchors": ["turbustat/statistics/wavelets/wavelet_transform.py: Wavelet.fit_transform", "turbustat/statistics/delta_variance/delta_variance.py: fit_plaw"]}
{"id": "C101", "title": "The break search of VCS", "statement": "VCS.fit_pspec starts from a break of the spline that works, and falls back to a fit without a break when none does.", "quantifier": "all sets of breaks, all behaviours of the fits", "why_tests_cant": "depends on which starts fail", "anchors": ["turbustat/statistics/vca_vcs/vcs.py: VCS.fit_pspec"]}
{"id": "C102", "title": "VCS distance", "statement": "The VCS distance is symmetric and zero only for equal slopes.", "quantifier": "all slopes and errors, with blanks", "why_tests_cant": "all values", "anchors": ["turbustat/statistics/vca_vcs/vcs.py: VCS_Distance.distance_metric"]}
{"id": "C103", "title": "Genus distance", "statement": "The genus distance is symmetric and compares the genus per sky area: it is zero for equal curves of the same area.", "quantifier": "all curves, sizes and pixel scales", "why_tests_cant": "all scales", "anchors": ["turbustat/statistics/genus/genus.py: Genus_Distance.distance_metric"]}
{"id": "C104", "title": "Bispectrum distances", "statement": "Surface and mean distance are symmetric, and zero iff the bicoherences are equal; maps of different shape have no surface distance.", "quantifier": "all arrays", "why_tests_cant": "all values", "anchors": ["turbustat/statistics/pspec_bispec/bispec.py: Bispectrum_Distance.distance_metric"]}
{"id": "C105", "title": "Likelihood of the Bayesian line fit", "statement": "bayes_linear samples the likelihood of a straight line y = tan(theta) x + b with independent normal errors in both coordinates.", "quantifier": "all data and parameters", "why_tests_cant": "an identity", "anchors": ["turbustat/statistics/fitting_utils.py: bayes_linear"]}
{"id": "C106", "title": "Errors of the 2D fit belong to the returned fit", "statement": "Without the bootstrap, the standard errors returned by fit_elliptical_powerlaw are the square roots of the diagonal of the covariance found together with the returned parameters.", "quantifier": "all data and solver outcomes", "why_tests_cant": "the solver's outcomes cannot be enumerated", "anchors": ["turbustat/statistics/elliptical_powerlaw.py: fit_elliptical_powerlaw"]}
{"id": "C107", "title": "2D fit with fixed ellipticity", "statement": "fit_2Dpspec with fix_ellip_params=True stores a slope, angle and ellipticity with their errors, with and without bootstrap.", "quantifier": "all data and solver outcomes", "why_tests_cant": "the solver's outcomes cannot be enumerated", "anchors": ["turbustat/statistics/elliptical_powerlaw.py: fit_elliptical_powerlaw", "turbustat/statistics/base_pspec2.py: StatisticBase_PSpec2D.fit_2Dpspec"]}
{"id": "C108", "title": "Generated images have the spectrum that was asked for", "statement": "The power of a generated image follows the elliptical power-law surface of the 2D fit with the same index, ellipticity and angle, at every frequency off the Nyquist lines.", "quantifier": "all even sizes, phases, indices, ellipticities, angles and frequencies", "why_tests_cant": "an identity for all sizes and random phases", "anchors": ["turbustat/simulator/gen_field.py: make_extended", "turbustat/statistics/elliptical_powerlaw.py: LogEllipticalPowerLaw2D.evaluate"]}
{"id": "C109", "title": "Random phases have unit amplitude", "statement": "The phases of make_extended are rescaled to an amplitude of unity, so that the power of the isotropic image at frequency k is k^-powerlaw.", "quantifier": "all even sizes and phases", "why_tests_cant": "all random phases", "anchors": ["turbustat/simulator/gen_field.py: make_extended"]}
{"id": "C110", "title": "Choice of the apodizing kernel", "statement": "apodizing_kernel returns the window with the given name and parameters, with the shape of the image or of a channel of the cube, and refuses other names.", "quantifier": "all shapes, names and parameters", "why_tests_cant": "all shapes and names", "anchors": ["turbustat/statistics/base_pspec2.py: StatisticBase_PSpec2D.apodizing_kernel"]}
{"id": "C111", "title": "Ranges of the stored 2D fit", "statement": "theta2D lies in [0, pi) and equals the fitted angle modulo pi; ellip2D lies in (0, 1) and its error is the fitted error carried through the transformation.", "quantifier": "all fitted parameters", "why_tests_cant": "all real parameters", "anchors": ["turbustat/statistics/base_pspec2.py: StatisticBase_PSpec2D.fit_2Dpspec"]}
{"id": "C112", "title": "The better of two fits is kept", "statement": "fit_elliptical_powerlaw fits from two perpendicular starting angles and returns the parameters with the smaller sum of absolute residuals; non-finite data and unknown methods are refused.", "quantifier": "all data and solver outcomes", "why_tests_cant": "the solver's outcomes cannot be enumerated", "anchors": ["turbustat/statistics/elliptical_powerlaw.py: fit_elliptical_powerlaw"]}
{"id": "C113", "title": "Residual bootstrap of the 2D fit", "statement": "Each bootstrap sample is the fitted model plus the residuals in random order, and the errors are not negative.", "quantifier": "all data, models and permutations", "why_tests_cant": "all permutations", "anchors": ["turbustat/statistics/elliptical_powerlaw.py: fit_elliptical_powerlaw"]}
{"id": "C114", "title": "Tapers vanish at the edge of the image", "statement": "The Tukey and Hanning windows are zero at the edge of the image, so that apodized data are periodic.", "quantifier": "all image sizes and taper widths", "why_tests_cant": "all sizes and widths", "anchors": ["turbustat/statistics/apodizing_kernels.py: TukeyWindow, HanningWindow"]}
{"id": "C115", "title": "Fourier map of the generated cube", "statement": "make_3dfield(return_fft=True) returns the full Fourier map, with the negative frequencies and the zero frequency at the centre; the map is Hermitian.", "quantifier": "all sizes and phases", "why_tests_cant": "all sizes and random phases", "anchors": ["turbustat/simulator/gen_field.py: make_3dfield"]}
{"id": "C116", "title": "The genus is the difference of two region counts", "statement": "With thresholds t and minimum size m, each entry of genus_stats is the number of connected regions above t with at least m pixels minus the number of those below t; without small-object removal all regions count.", "quantifier": "all images with blanks and infinities, thresholds, sizes and connectivities", "why_tests_cant": "all topologies of regions", "anchors": ["turbustat/statistics/genus/genus.py: Genus.make_genus_curve", "turbustat/statistics/genus/genus.py: remove_small_objects"]}
{"id": "C117", "title": "Invariances of the genus", "statement": "Without smoothing the genus does not change when the image is transposed or mirrored, when a border of blank pixels is added, or when image and thresholds pass through the same increasing function.", "quantifier": "all images, borders and increasing functions", "why_tests_cant": "all images and functions", "anchors": ["turbustat/statistics/genus/genus.py: Genus.make_genus_curve"]}
{"id": "C118", "title": "Genus thresholds", "statement": "Thresholds are numpts equally spaced values between min_value and max_value (defaults: the extrema); a percentile above min_value (below max_value) overrides it; explicit thresholds override all.", "quantifier": "all data and settings", "why_tests_cant": "all combinations of settings", "anchors": ["turbustat/statistics/genus/genus.py: Genus.__init__"]}
{"id": "C119", "title": "Genus_Distance uses numpts", "statement": "Genus_Distance computes both curves at numpts thresholds.", "quantifier": "all data and numpts", "why_tests_cant": "all settings", "anchors": ["turbustat/statistics/genus/genus.py: Genus_Distance.__init__"]}
{"id": "C120", "title": "One genus table per smoothed image", "statement": "make_genus_stats_table returns one table per smoothing radius, holding that radius' curve, mean, standard deviation and radius.", "quantifier": "all curves and radii", "why_tests_cant": "all numbers of radii", "anchors": ["turbustat/statistics/genus/genus.py: Genus.make_genus_stats_table"]}
{"id": "C121", "title": "Smoothing radii", "statement": "Radii are accepted exactly when all lie between one pixel and half of the smaller image axis; by default five radii from one pixel to a tenth of the smaller axis are used.", "quantifier": "all image shapes and radii", "why_tests_cant": "all shapes and radii", "anchors": ["turbustat/statistics/genus/genus.py: Genus.smoothing_radii", "turbustat/statistics/genus/genus.py: Genus.__init__"]}
{"id": "C122", "title": "Regions are counted with eight-connectivity", "statement": "connectivity only chooses the neighbourhood used to remove small regions; the regions are counted with eight-connectivity.", "quantifier": "all images, thresholds and connectivities", "why_tests_cant": "all topologies", "anchors": ["turbustat/statistics/genus/genus.py: Genus.make_genus_curve"]}
{"id": "C123", "title": "Gaussian genus curve", "statement": "model_gaussian_genus is odd, has the sign of its argument and its largest value at one standard deviation.", "quantifier": "all arguments and positive amplitudes", "why_tests_cant": "all reals", "anchors": ["turbustat/statistics/genus/genus.py: model_gaussian_genus"]}
{"id": "C124", "title": "min_frac counts the pixels of the circular region", "statement": "A pixel gets moments when at least the share min_frac of the pixels of its circular region is finite in image and weights.", "quantifier": "all images, blanks, radii, boundary modes and positions", "why_tests_cant": "all blank patterns", "anchors": ["turbustat/statistics/stat_moments/highstatmoments.py: StatMoments.compute_spatial_distrib"]}
{"id": "C125", "title": "run uses min_frac", "statement": "StatMoments.run(min_frac=f) computes the maps with the minimum share f.", "quantifier": "all settings", "why_tests_cant": "all settings", "anchors": ["turbustat/statistics/stat_moments/highstatmoments.py: StatMoments.run"]}
{"id": "C126", "title": "Moment radius", "statement": "The radius is accepted exactly when it lies between two pixels and half of the smaller axis, and is rounded down to whole pixels.", "quantifier": "all radii, units and shapes", "why_tests_cant": "all real radii", "anchors": ["turbustat/statistics/stat_moments/highstatmoments.py: StatMoments.radius", "turbustat/statistics/stat_moments/highstatmoments.py: StatMoments.compute_spatial_distrib"]}
{"id": "C127", "title": "Moment maps move with the image", "statement": "With periodic=True, cyclically shifting image and weights shifts the moment maps by the same amount.", "quantifier": "all images, shifts and radii", "why_tests_cant": "all shifts", "anchors": ["turbustat/statistics/stat_moments/highstatmoments.py: StatMoments.compute_spatial_distrib"]}
{"id": "C128", "title": "Common angular radius", "statement": "StatMoments_Distance with a radius in pixels uses the same angular radius in both images; the image with the coarser grid keeps the given radius.", "quantifier": "all pixel sizes and radii", "why_tests_cant": "all real pixel sizes", "anchors": ["turbustat/statistics/stat_moments/highstatmoments.py: StatMoments_Distance.__init__"]}
{"id": "C129", "title": "Pre-computed StatMoments", "statement": "StatMoments_Distance accepts a StatMoments for either image, whatever its radius and nbins, and its histograms can be computed.", "quantifier": "all settings of the two objects", "why_tests_cant": "all combinations", "anchors": ["turbustat/statistics/stat_moments/highstatmoments.py: StatMoments_Distance.__init__", "turbustat/statistics/stat_moments/highstatmoments.py: StatMoments_Distance.create_common_histograms"]}
{"id": "C130", "title": "Histograms of the moment maps", "statement": "Each histogram of a moment map is a density with integral 1 over nbins bins covering all non-blank values; blanks are ignored.", "quantifier": "all maps and numbers of bins", "why_tests_cant": "all data", "anchors": ["turbustat/statistics/stat_moments/highstatmoments.py: StatMoments.make_spatial_histograms"]}
{"id": "C131", "title": "KS distance of PDFs", "statement": "The KS distance is the largest difference of the two distribution functions; it is symmetric, lies in [0,1], satisfies the triangle inequality, is 0 for the same values, 1 for separated ones, and does not change under a common increasing function.", "quantifier": "all data sets and increasing functions", "why_tests_cant": "all data", "anchors": ["turbustat/statistics/pdf/compare_pdf.py: PDF_Distance.compute_ks_distance"]}
{"id": "C132", "title": "Hellinger distance of PDFs", "statement": "The Hellinger distance of two PDFs is symmetric, lies in [0,1], vanishes exactly for equal normalised PDFs and does not depend on their normalisation.", "quantifier": "all non-negative PDFs", "why_tests_cant": "all data", "anchors": ["turbustat/statistics/pdf/compare_pdf.py: PDF_Distance.compute_hellinger_distance"]}
{"id": "C133", "title": "Percentiles of the PDF", "statement": "find_at_percentile is non-decreasing, returns the minimum at 0 and the maximum at 100, and refuses percentiles outside [0,100].", "quantifier": "all data and percentiles", "why_tests_cant": "all data", "anchors": ["turbustat/statistics/pdf/compare_pdf.py: PDF.find_at_percentile"]}
{"id": "C134", "title": "Fixed parameters of the PDF fit", "statement": "fit_pdf can fix loc, scale or both; the likelihood uses the fixed values and the remaining parameters in order.", "quantifier": "all models, parameters and settings", "why_tests_cant": "all models", "anchors": ["turbustat/statistics/pdf/compare_pdf.py: PDF.fit_pdf"]}
{"id": "C135", "title": "Noise level of Moments", "statement": "The noise level of a Moments object is None or a non-negative quantity with the unit of the cube, after any history of assignments; others raise TypeError, UnitsError or ValueError and keep the previous level.", "quantifier": "all histories of assignments", "why_tests_cant": "all histories", "anchors": ["turbustat/moments/make_moments.py: Moments.scale"]}
{"id": "C136", "title": "Moments without units", "statement": "make_moments(units=False) computes the three maps and returns them without units.", "quantifier": "all cubes", "why_tests_cant": "all cubes", "anchors": ["turbustat/moments/make_moments.py: Moments.make_moments"]}
{"id": "C137", "title": "Noise level given to make_moment_errors", "statement": "make_moment_errors(scale=s) computes the errors for the noise s; without any noise level they are 0; it needs make_moments first.", "quantifier": "all states of the object and noise levels", "why_tests_cant": "all states", "anchors": ["turbustat/moments/make_moments.py: Moments.make_moment_errors"]}
{"id": "C138", "title": "Units in the headers of the moment maps", "statement": "The headers of the maps written by to_fits carry the units of the maps: cube unit times spectral unit for the zeroth moment, spectral unit for centroid and line width.", "quantifier": "all cube and spectral units", "why_tests_cant": "all units", "anchors": ["turbustat/moments/make_moments.py: Moments.get_prop_hdrs", "turbustat/moments/make_moments.py: Moments.to_fits"]}
{"id": "C139", "title": "Accepted moment methods work", "statement": "Every moment_method accepted by Moments can be used for the moments and for their errors.", "quantifier": "all methods, cubes and noise levels", "why_tests_cant": "all states", "anchors": ["turbustat/moments/make_moments.py: Moments.__init__", "turbustat/moments/make_moments.py: Moments.make_moment_errors", "turbustat/moments/_moment_errs.py: moment0_error"]}
{"id": "C140", "title": "Saved moments can be loaded again", "statement": "After Moments(file).to_fits(), Moments.from_fits(file) returns the saved maps and errors, with or without a mask.", "quantifier": "all file names, directories and maps", "why_tests_cant": "all file names", "anchors": ["turbustat/moments/make_moments.py: Moments.to_fits", "turbustat/moments/make_moments.py: Moments.from_fits"]}
{"id": "C141", "title": "to_fits and existing files", "statement": "to_fits raises when one of its three files exists, unless overwrite is set, changes no other file, and needs the errors to be computed.", "quantifier": "all states of the file system and of the object", "why_tests_cant": "all states", "anchors": ["turbustat/moments/make_moments.py: Moments.to_fits"]}
{"id": "C142", "title": "Gaussian smoothing kernel", "statement": "gauss_kern is positive, has sum 1, is symmetric and largest at the centre.", "quantifier": "all positive sizes", "why_tests_cant": "all sizes", "anchors": ["turbustat/moments/make_moments.py: gauss_kern"]}
{"id": "C143", "title": "Reversed line of sight", "statement": "Reversing the velocity and density fields along the line of sight leaves the synthetic cube and its axis unchanged.", "quantifier": "all fields, axes and settings", "why_tests_cant": "all fields", "anchors": ["turbustat/simulator/make_cube.py: make_ppv", "turbustat/simulator/spectrum.pyx: generate_spectrum"]}
{"id": "C144", "title": "Galilean shift of synthetic cubes", "statement": "Adding a constant to the velocity field, and to the limits when given, shifts the velocity axis by that constant and leaves the cube unchanged.", "quantifier": "all fields, shifts and settings", "why_tests_cant": "all real shifts", "anchors": ["turbustat/simulator/make_cube.py: make_ppv"]}
{"id": "C145", "title": "Every cell emits", "statement": "Each cell of the fields contributes its density times its thermal line to the spectrum of its pixel; a uniform velocity field gives the thermal line itself.", "quantifier": "all fields and settings", "why_tests_cant": "cells on channel edges are a measure-zero set", "anchors": ["turbustat/simulator/spectrum.pyx: generate_spectrum"]}
{"id": "C146", "title": "Units of the velocity limits", "statement": "The cube does not depend on the velocity units in which limits and channel width are given.", "quantifier": "all units, limits and widths", "why_tests_cant": "all units", "anchors": ["turbustat/simulator/make_cube.py: make_ppv"]}
{"id": "C147", "title": "Negative line-of-sight axes", "statement": "A negative los_axis -k means axis 3-k, as everywhere in numpy.", "quantifier": "all fields and settings", "why_tests_cant": "all fields", "anchors": ["turbustat/simulator/make_cube.py: make_ppv, field_slice"]}
{"id": "C148", "title": "Reference pixel of synthetic headers", "statement": "The reference pixel in the headers of synthetic cubes and images is at the centre of the image.", "quantifier": "all image shapes", "why_tests_cant": "all shapes", "anchors": ["turbustat/io/sim_tools.py: create_cube_header, create_image_header", "turbustat/simulator/make_cube.py: make_ppv"]}
{"id": "C149", "title": "Spectral axis of synthetic headers", "statement": "The spectral axis in the header of the returned HDU gives the velocity of every channel of the cube.", "quantifier": "all fields and settings", "why_tests_cant": "all channel numbers", "anchors": ["turbustat/simulator/make_cube.py: make_ppv", "turbustat/io/sim_tools.py: create_cube_header"]}
{"id": "C150", "title": "Bins of the 3D power spectrum", "statement": "threeD_pspec returns one finite mean and standard deviation per bin of the mode frequency, over exactly the modes in the bin, each bin being non-empty.", "quantifier": "all shapes and fields", "why_tests_cant": "all shapes", "anchors": ["turbustat/simulator/threeD_pspec.py: threeD_pspec"]}
{"id": "C151", "title": "Invariances of the 3D power spectrum", "statement": "threeD_pspec is unchanged by cyclic shifts and added constants and scales with the square of a factor.", "quantifier": "all fields, shifts, offsets and factors", "why_tests_cant": "all fields", "anchors": ["turbustat/simulator/threeD_pspec.py: threeD_pspec"]}
{"id": "C152", "title": "Total power of the 3D power spectrum", "statement": "The bin means weighted with the number of modes add up to the number of cells times the sum of squares minus the squared sum of the field.", "quantifier": "all fields and shapes with a side of at least 3", "why_tests_cant": "all fields", "anchors": ["turbustat/simulator/threeD_pspec.py: threeD_pspec"]}
{"id": "C153", "title": "Shifted images have the same bispectrum", "statement": "A cyclic shift of the image changes neither bispectrum nor bicoherence for the same seed.", "quantifier": "all images, shifts and draws", "why_tests_cant": "all draws", "anchors": ["turbustat/statistics/pspec_bispec/bispec.py: Bispectrum.compute_bispectrum"]}
{"id": "C154", "title": "Factors and offsets in the bispectrum", "statement": "Multiplying the image with c multiplies the bispectrum with c^3 and keeps the bicoherence; with mean_subtract an added constant changes nothing.", "quantifier": "all images, factors, offsets and draws", "why_tests_cant": "all real factors", "anchors": ["turbustat/statistics/pspec_bispec/bispec.py: Bispectrum.compute_bispectrum"]}
{"id": "C155", "title": "Tracker counts samples", "statement": "The tracker holds the number of samples taken at each position of the Fourier plane.", "quantifier": "all images, shapes and draws", "why_tests_cant": "all draws", "anchors": ["turbustat/statistics/pspec_bispec/bispec.py: Bispectrum.compute_bispectrum", "turbustat/statistics/pspec_bispec/bispec.py: Bispectrum.tracker"]}
{"id": "C156", "title": "Slices through the bispectrum", "statement": "azimuthal_slice and radial_slice average the finite values in the ring or wedge over bins of the requested width that cover the plane.", "quantifier": "all surfaces, rings, wedges and bin widths", "why_tests_cant": "all surfaces", "anchors": ["turbustat/statistics/pspec_bispec/bispec.py: Bispectrum.azimuthal_slice", "turbustat/statistics/pspec_bispec/bispec.py: Bispectrum.radial_slice"]}
{"id": "C157", "title": "Bispectrum distance", "statement": "The surface distance is the L2 norm of the difference of the bicoherences and the mean distance the difference of their means; both are metrics-like and vanish for equal images.", "quantifier": "all pairs of images", "why_tests_cant": "all pairs", "anchors": ["turbustat/statistics/pspec_bispec/bispec.py: Bispectrum_Distance.distance_metric"]}
{"id": "C158", "title": "Values of Tsallis lag differences", "statement": "The lag difference is the mean of the four pixels at that distance minus the pixel; beyond the border the image is repeated (periodic=True) or zero; it is blank exactly where one of the five is.", "quantifier": "all images, lags, positions and blank patterns", "why_tests_cant": "all blank patterns", "anchors": ["turbustat/statistics/tsallis/tsallis.py: Tsallis.make_tsallis"]}
{"id": "C159", "title": "Tsallis lag validation", "statement": "Lags are accepted exactly when each is at least one pixel and its whole part at most half of the smaller side; other lags raise ValueError.", "quantifier": "all lags in all units, all shapes", "why_tests_cant": "all real lags", "anchors": ["turbustat/statistics/tsallis/tsallis.py: Tsallis.lags"]}
{"id": "C160", "title": "Tsallis statistics ignore brightness scale and offset", "statement": "Multiplying the image with a positive factor and adding a constant changes neither lag arrays nor distributions; a negative factor flips the sign of the arrays.", "quantifier": "all images, factors and offsets, both boundary modes", "why_tests_cant": "all real factors", "anchors": ["turbustat/statistics/tsallis/tsallis.py: Tsallis.make_tsallis"]}
{"id": "C161", "title": "Tsallis distributions", "statement": "Lag arrays have mean 0 and variance 1, and the distribution holds log10 of the share of values in equal bins covering them (minus infinity for empty bins); by default the number of bins is the rounded-up root of the number of finite pixels.", "quantifier": "all images, lags and bin numbers", "why_tests_cant": "all data", "anchors": ["turbustat/statistics/tsallis/tsallis.py: Tsallis.make_tsallis"]}
{"id": "C162", "title": "Tsallis parameters", "statement": "Different parameters give different functions, logA is the log10 of the amplitude of the distribution, and the fit starts from a curve as high as the distribution.", "quantifier": "all parameters with q>1", "why_tests_cant": "continuum", "anchors": ["turbustat/statistics/tsallis/tsallis.py: tsallis_function"]}
{"id": "C163", "title": "Reduced chi-square of the Tsallis fit", "statement": "tsallis_chisq is the reduced chi-square of the fit to the histogram.", "quantifier": "all histograms and fits", "why_tests_cant": "all data", "anchors": ["turbustat/statistics/tsallis/tsallis.py: Tsallis.fit_tsallis", "turbustat/statistics/tsallis/tsallis.py: Tsallis.tsallis_chisq"]}
{"id": "C164", "title": "Accepted min_deltas", "statement": "min_deltas may be an array, a list or a single number; increasing values are kept, one threshold per value, and other values raise ValueError. None stands for the min_delta of dendro_params, one threshold.", "quantifier": "all arrays, lists and numbers", "why_tests_cant": "all lengths and orders", "anchors": ["turbustat/statistics/dendrograms/dendro_stats.py: Dendrogram_Stats.min_deltas"]}
{"id": "C165", "title": "Automatic min_deltas", "statement": "min_deltas='auto' gives num_deltas equally spaced thresholds from min_delta to below the peak above min_value, also when parameters are left to their defaults.", "quantifier": "all data and parameters", "why_tests_cant": "all data", "anchors": ["turbustat/statistics/dendrograms/dendro_stats.py: Dendrogram_Stats.autoset_min_deltas"]}
{"id": "C166", "title": "Feature counts by pruning", "statement": "numfeatures and values hold the counts and peaks after pruning to each min_delta in turn, counts never grow, and running again with the same dendrogram object gives the same counts.", "quantifier": "all dendrograms and increasing thresholds", "why_tests_cant": "all histories of runs", "anchors": ["turbustat/statistics/dendrograms/dendro_stats.py: Dendrogram_Stats.compute_dendro"]}
{"id": "C167", "title": "Thresholds used by a dendrogram comparison", "statement": "The histogram distance uses every min_delta at which both dendrograms have more than min_features features, and no others.", "quantifier": "all feature counts", "why_tests_cant": "all counts", "anchors": ["turbustat/statistics/dendrograms/dendro_stats.py: Dendrogram_Distance.__init__", "turbustat/statistics/dendrograms/dendro_stats.py: Dendrogram_Distance.histogram_stat"]}
{"id": "C168", "title": "Repeating the histogram distance", "statement": "Calling histogram_stat or distance_metric again on the same object gives the same distance.", "quantifier": "all histories", "why_tests_cant": "histories", "anchors": ["turbustat/statistics/dendrograms/dendro_stats.py: Dendrogram_Distance.histogram_stat"]}
{"id": "C169", "title": "Dendrogram histogram distance", "statement": "The distance is the mean Hellinger distance of the shares of standardized peaks in common bins: between 0 and 1, symmetric, zero for equal data, and unchanged by brightness scale and offset.", "quantifier": "all pairs of dendrograms with varied peaks", "why_tests_cant": "all data", "anchors": ["turbustat/statistics/dendrograms/dendro_stats.py: Dendrogram_Distance.histogram_stat", "turbustat/statistics/dendrograms/dendro_stats.py: hellinger_stat"]}
{"id": "C170", "title": "Common thresholds of a dendrogram comparison", "statement": "Both dendrograms of a comparison are computed with the min_deltas of the comparison.", "quantifier": "all datasets and precomputed objects", "why_tests_cant": "all thresholds", "anchors": ["turbustat/statistics/dendrograms/dendro_stats.py: Dendrogram_Distance.__init__"]}
{"id": "C171", "title": "Keyword dictionaries of a dendrogram comparison", "statement": "make_hists and verbose may be given in dendro_kwargs and dendro2_kwargs (they are overridden), and the dictionaries of the caller are not changed.", "quantifier": "all keyword dictionaries", "why_tests_cant": "all combinations", "anchors": ["turbustat/statistics/dendrograms/dendro_stats.py: Dendrogram_Distance.__init__"]}
{"id": "C172", "title": "Break and tail of the feature counts", "statement": "std_window returns the centre of the first window of the given size with the largest standard deviation, and fit_numfeat fits the points from there on, at least two, all with more than one feature.", "quantifier": "all counts and window sizes", "why_tests_cant": "all sizes", "anchors": ["turbustat/statistics/dendrograms/dendro_stats.py: std_window", "turbustat/statistics/dendrograms/dendro_stats.py: Dendrogram_Stats.fit_numfeat"]}
{"id": "C173", "title": "Documented MVC spectrum", "statement": "The MVC power spectrum at every frequency is |F(M0 M1)|^2 - <M2> |F(M0)|^2, as documented.", "quantifier": "all maps without blanks, all frequencies", "why_tests_cant": "all maps and shapes", "anchors": ["turbustat/statistics/mvc/mvc.py: MVC.compute_pspec", "turbustat/statistics/mvc/mvc.py: MVC.__init__"]}
{"id": "C174", "title": "Units of the MVC maps", "statement": "Changing the intensity or the velocity unit of the maps multiplies the MVC spectrum by one constant, so its slope does not change.", "quantifier": "all maps and unit factors", "why_tests_cant": "all maps and factors", "anchors": ["turbustat/statistics/mvc/mvc.py: MVC.compute_pspec"]}
{"id": "C175", "title": "Symmetries of the MVC spectrum", "statement": "Moving the three maps together cyclically leaves the spectrum unchanged, and opposite frequencies have equal values.", "quantifier": "all maps and shifts", "why_tests_cant": "all shifts and shapes", "anchors": ["turbustat/statistics/mvc/mvc.py: MVC.compute_pspec"]}
{"id": "C176", "title": "Apodized MVC spectrum", "statement": "Apodizing tapers the intensities: it gives the spectrum of the maps with moment 0 multiplied by the kernel.", "quantifier": "all maps and kernels", "why_tests_cant": "all kernels", "anchors": ["turbustat/statistics/mvc/mvc.py: MVC.compute_pspec"]}
{"id": "C177", "title": "Error weighting in MVC_Distance", "statement": "Weighting by errors that are the same everywhere only changes the spectrum by a constant factor, and a single pixel without a usable error does not blank it.", "quantifier": "all maps and errors", "why_tests_cant": "all maps", "anchors": ["turbustat/statistics/mvc/mvc.py: MVC_Distance.__init__"]}
{"id": "C178", "title": "Beam correction", "statement": "With beam_correct, the power spectrum of an image or cube convolved with the beam is that of the image or cube, blank where the beam has no power; without a beam AttributeError is raised.", "quantifier": "all images, cubes and beams", "why_tests_cant": "all shapes and beams", "anchors": ["turbustat/statistics/base_pspec2.py: StatisticBase_PSpec2D.compute_beam_pspec", "turbustat/statistics/pspec_bispec/pspec.py: PowerSpectrum.compute_pspec", "turbustat/statistics/vca_vcs/vca.py: VCA.compute_pspec", "turbustat/statistics/mvc/mvc.py: MVC.compute_pspec"]}
{"id": "C179", "title": "Linearity of the wavelet transform", "statement": "Multiplying the image by a positive number multiplies the wavelet values and their uncertainties by it; the coefficient maps of a sum of images add up.", "quantifier": "all images, scales and factors", "why_tests_cant": "all factors and images", "anchors": ["turbustat/statistics/wavelets/wavelet_transform.py: Wavelet.compute_transform"]}
{"id": "C180", "title": "Scale normalization", "statement": "Without scale normalization each value and uncertainty is multiplied by the square of its scale in pixels.", "quantifier": "all images and scales", "why_tests_cant": "all scales", "anchors": ["turbustat/statistics/wavelets/wavelet_transform.py: Wavelet.compute_transform"]}
{"id": "C181", "title": "Uncertainty of wavelet values", "statement": "The uncertainty is the standard deviation of the positive coefficients divided by the square root of the number of whole kernel areas in the image; it is a finite number whenever a coefficient is positive and the scale was accepted.", "quantifier": "all images and accepted scales", "why_tests_cant": "all shapes and scales", "anchors": ["turbustat/statistics/wavelets/wavelet_transform.py: Wavelet.compute_transform", "turbustat/statistics/wavelets/wavelet_transform.py: Wavelet.scales"]}
{"id": "C182", "title": "Orientation of the image", "statement": "Transposing or mirroring the image changes no wavelet value and no uncertainty.", "quantifier": "all images", "why_tests_cant": "all shapes", "anchors": ["turbustat/statistics/wavelets/wavelet_transform.py: Wavelet.compute_transform"]}
{"id": "C183", "title": "Position of the emission", "statement": "Moving the emission within the field moves the coefficient maps by the same amount; blanks and the outside count as zero.", "quantifier": "all images and shifts", "why_tests_cant": "all shifts", "anchors": ["turbustat/statistics/wavelets/wavelet_transform.py: Wavelet.__init__", "turbustat/statistics/wavelets/wavelet_transform.py: Wavelet.compute_transform"]}
{"id": "C184", "title": "Default wavelet scales", "statement": "The default scales are num increasing scales from 1.667 pixels to half of the smaller side, and are accepted for every image.", "quantifier": "all shapes and num", "why_tests_cant": "all shapes", "anchors": ["turbustat/statistics/wavelets/wavelet_transform.py: Wavelet.__init__", "turbustat/statistics/wavelets/wavelet_transform.py: Wavelet.scales"]}
{"id": "C185", "title": "Range of the wavelet fit", "statement": "The fit uses exactly the scales within xlow and xhigh, both included; a break outside the limits raises ValueError.", "quantifier": "all scales and limits", "why_tests_cant": "all limits", "anchors": ["turbustat/statistics/wavelets/wavelet_transform.py: Wavelet.fit_transform"]}
{"id": "C186", "title": "Points around a break", "statement": "A fitted break is kept only if at least min_fits_pts points lie below it and at least as many above it.", "quantifier": "all points, breaks and minima", "why_tests_cant": "all break positions", "anchors": ["turbustat/statistics/wavelets/wavelet_transform.py: Wavelet.fit_transform", "turbustat/statistics/base_pspec2.py: StatisticBase_PSpec2D.fit_pspec", "turbustat/statistics/delta_variance/delta_variance.py: DeltaVariance.fit_plaw"]}
{"id": "C187", "title": "Number of scales in Wavelet_Distance", "statement": "Wavelet_Distance compares transforms at num scales.", "quantifier": "all images and num", "why_tests_cant": "all num", "anchors": ["turbustat/statistics/wavelets/wavelet_transform.py: Wavelet_Distance.__init__"]}
{"id": "C188", "title": "Smoothing before regridding", "statement": "The Gaussian smoothing applied before regridding and the old channel width add up in quadrature to the requested width.", "quantifier": "all cubes and widths", "why_tests_cant": "all ratios", "anchors": ["turbustat/statistics/vca_vcs/slice_thickness.py: spectral_regrid_cube"]}
{"id": "C189", "title": "New spectral axis", "statement": "A regridded cube covers the same spectral range in the same direction with uniform channels at least as wide as requested.", "quantifier": "all uniform spectral axes and widths", "why_tests_cant": "all axes and widths", "anchors": ["turbustat/statistics/vca_vcs/slice_thickness.py: spectral_regrid_cube"]}
{"id": "C190", "title": "Unit of the channel width", "statement": "The result depends on the channel width, not on the unit it is expressed in.", "quantifier": "all widths and spectral units", "why_tests_cant": "all units", "anchors": ["turbustat/statistics/vca_vcs/slice_thickness.py: spectral_regrid_cube"]}
{"id": "C191", "title": "The caller's cube", "statement": "Changing the slice thickness leaves the cube passed in as it was.", "quantifier": "all calls", "why_tests_cant": "all calls, including failing ones", "anchors": ["turbustat/statistics/vca_vcs/slice_thickness.py: spectral_regrid_cube"]}
{"id": "C192", "title": "Flux of a downsampled cube", "statement": "Downsampling averages consecutive channels and keeps the integrated intensity of every spectrum.", "quantifier": "all spectra and factors", "why_tests_cant": "all lengths and factors", "anchors": ["turbustat/statistics/vca_vcs/slice_thickness.py: spectral_regrid_cube"]}
{"id": "C193", "title": "VCA of one thick slice", "statement": "VCA with a channel width of the whole cube is the power spectrum of the mean image.", "quantifier": "all cubes", "why_tests_cant": "all shapes", "anchors": ["turbustat/statistics/vca_vcs/slice_thickness.py: spectral_regrid_cube", "turbustat/statistics/vca_vcs/vca.py: VCA.__init__", "turbustat/statistics/vca_vcs/vca.py: VCA.compute_pspec"]}
{"id": "C194", "title": "Autocorrelation spectra", "statement": "Every spectrum returned by autocorr_spec is the circular autocorrelation of its eigenvector.", "quantifier": "all eigenvectors, numbers of components and lags", "why_tests_cant": "all vectors", "anchors": ["turbustat/statistics/pca/pca.py: PCA.autocorr_spec"]}
{"id": "C195", "title": "Spectral widths", "statement": "find_spectral_widths gives one width per retained component: the first lag at which the interpolated autocorrelation spectrum is 1/e of its peak; NaN only when that level is never reached.", "quantifier": "all eigenvectors and numbers of components", "why_tests_cant": "all vectors and numbers of components, including one", "anchors": ["turbustat/statistics/pca/pca.py: PCA.find_spectral_widths", "turbustat/statistics/pca/pca.py: PCA.autocorr_spec", "turbustat/statistics/pca/width_estimate.py: WidthEstimate1D"]}
{"id": "C196", "title": "Negative numbers of autocorrelation spectra", "statement": "autocorr_spec(n_eigs=-k) returns the last k autocorrelation spectra, as documented.", "quantifier": "all eigenvectors and numbers", "why_tests_cant": "all numbers", "anchors": ["turbustat/statistics/pca/pca.py: PCA.autocorr_spec"]}
{"id": "C197", "title": "Components used in the size-line width fit", "statement": "fit_plaw fits exactly the components with finite widths and errors whose size is between xlow and xhigh, whatever the unit of the limits; fewer than two raise and leave the last fit.", "quantifier": "all widths, limits, units and earlier fits", "why_tests_cant": "all combinations of limits, units and blanks", "anchors": ["turbustat/statistics/pca/pca.py: PCA.fit_plaw"]}
{"id": "C198", "title": "Refused fits", "statement": "A call of fit_plaw that raises leaves the results of the last successful fit, including its sonic length.", "quantifier": "all sequences of fits", "why_tests_cant": "all histories of successful and failing calls", "anchors": ["turbustat/statistics/pca/pca.py: PCA.fit_plaw", "turbustat/statistics/pca/pca.py: PCA.sonic_length"]}
{"id": "C199", "title": "Sonic length", "statement": "At the sonic length the fitted line width equals the sound speed; the sonic length does not depend on the channel width and grows with the temperature.", "quantifier": "all fits, temperatures, mean molecular weights and channel widths", "why_tests_cant": "all parameters", "anchors": ["turbustat/statistics/pca/pca.py: PCA.sonic_length"]}
{"id": "C200", "title": "Range of the sonic length (ODR)", "statement": "The range contains the sonic length and does not depend on the channel width.", "quantifier": "all fits, temperatures and channel widths", "why_tests_cant": "all parameters", "anchors": ["turbustat/statistics/pca/pca.py: PCA.sonic_length"]}
{"id": "C201", "title": "Range of the sonic length (MCMC)", "statement": "The range holds the 15th to 85th percentile of the sonic lengths of the samples.", "quantifier": "all samples of slope and intercept", "why_tests_cant": "all samples", "anchors": ["turbustat/statistics/pca/pca.py: PCA.sonic_length"]}
{"id": "C202", "title": "Corrected index", "statement": "gamma follows from the documented relations and lies in gamma_error_range.", "quantifier": "all indices and error ranges", "why_tests_cant": "all indices", "anchors": ["turbustat/statistics/pca/pca.py: PCA.gamma", "turbustat/statistics/pca/pca.py: PCA.gamma_error_range", "turbustat/statistics/pca/pca.py: brunt_index_correct"]}
{"id": "C203", "title": "Error of the spatial width", "statement": "The error of the combined spatial width lies between the errors along the two axes.", "quantifier": "all widths, errors and beams", "why_tests_cant": "all widths", "anchors": ["turbustat/statistics/pca/width_estimate.py: WidthEstimate2D"]}
{"id": "C204", "title": "Model of the size-line width relation", "statement": "PCA.model(x) returns the fitted line at x.", "quantifier": "all fits and x", "why_tests_cant": "all fits", "anchors": ["turbustat/statistics/pca/pca.py: PCA.model"]}
{"id": "C205", "title": "Sign of the eigenvectors", "statement": "Autocorrelation images, noise autocorrelation, autocorrelation spectra and spectral widths do not depend on the signs of the eigenvectors.", "quantifier": "all cubes, eigenvectors, signs and numbers of components", "why_tests_cant": "a test sees the sign one LAPACK build returns", "anchors": ["turbustat/statistics/pca/pca.py: PCA.autocorr_images", "turbustat/statistics/pca/pca.py: PCA.autocorr_spec", "turbustat/statistics/pca/pca.py: PCA.noise_ACF"]}
{"id": "C206", "title": "Recovery of an ellipse", "statement": "Fitting points of one ellipse gives that ellipse: predict_xy over all angles runs over the points of the ellipse and no others.", "quantifier": "all ellipses and all sets of points that determine one", "why_tests_cant": "all ellipses, orientations and point sets", "anchors": ["turbustat/statistics/stats_utils.py: EllipseModel.estimate", "turbustat/statistics/stats_utils.py: EllipseModel.predict_xy"]}
{"id": "C207", "title": "Least-squares fit of an ellipse", "statement": "When the fit succeeds, the fitted ellipse has the least algebraic distance to the points among all conics of the same discriminant.", "quantifier": "all sets of points, all competing conics", "why_tests_cant": "all point sets against all other conics", "anchors": ["turbustat/statistics/stats_utils.py: EllipseModel.estimate"]}
{"id": "C208", "title": "Success of the ellipse fit", "statement": "The fit succeeds for all points that are not on a line nor on one conic; for points on a line it fails and gives NaN widths.", "quantifier": "all sets of points", "why_tests_cant": "all point sets", "anchors": ["turbustat/statistics/stats_utils.py: EllipseModel.estimate", "turbustat/statistics/pca/width_estimate.py: fit_2D_ellipse"]}
{"id": "C209", "title": "Placement of the points of an ellipse", "statement": "The fit does not depend on the order of the points; shifting or scaling the points shifts or scales the centre and the axes and nothing else.", "quantifier": "all sets of points, shifts and factors", "why_tests_cant": "all point sets, shifts and factors", "anchors": ["turbustat/statistics/stats_utils.py: EllipseModel.estimate"]}
{"id": "C210", "title": "Major axis of the fitted ellipse", "statement": "The fitted angle is that of the major axis: the first axis is never shorter than the second.", "quantifier": "all ellipses and all correct answers of the eigenvalue solver", "why_tests_cant": "depends on the sign an eigenvalue solver happens to give", "anchors": ["turbustat/statistics/stats_utils.py: EllipseModel.estimate"]}
{"id": "C211", "title": "Width of a Gaussian contour", "statement": "The spatial width from the 1/e contour of a Gaussian autocorrelation image is the root of the sum of its squared standard deviations, with zero error; contours without the origin are ignored, and if there is no other the width is NaN.", "quantifier": "all Gaussians along the axes, all determining contour points, all random draws, all other contours", "why_tests_cant": "all draws and contours", "anchors": ["turbustat/statistics/pca/width_estimate.py: WidthEstimate2D", "turbustat/statistics/pca/width_estimate.py: fit_2D_ellipse", "turbustat/statistics/stats_utils.py: EllipseModel.estimate_stderrs"]}
{"id": "C212", "title": "Residual bootstrap of the ellipse", "statement": "Bootstrap samples move each point by one of the residuals, preserving that distance; the errors are zero for points on an ellipse.", "quantifier": "all points, residuals and random draws", "why_tests_cant": "all random draws", "anchors": ["turbustat/statistics/stats_utils.py: EllipseModel.estimate_stderrs"]}
{"id": "C213", "title": "Invalid alpha", "statement": "An alpha outside [0, 1) given to find_spatial_widths raises ValueError.", "quantifier": "all contours and alpha", "why_tests_cant": "all alpha", "anchors": ["turbustat/statistics/stats_utils.py: EllipseModel.estimate_stderrs", "turbustat/statistics/pca/width_estimate.py: fit_2D_ellipse", "turbustat/statistics/pca/width_estimate.py: WidthEstimate2D"]}
{"id": "C214", "title": "Eigenimages", "statement": "PCA.eigimages(n) gives n maps; pixel (y, x) of each is the projection of the (mean-subtracted) spectrum of that pixel on the eigenvector, blank values counting zero.", "quantifier": "all cubes with or without blanks, all numbers of components, positive and negative", "why_tests_cant": "all cubes and eigenvectors", "anchors": ["turbustat/statistics/pca/pca.py: PCA.eigimages"]}
{"id": "C215", "title": "Variance of the eigenimages", "statement": "The sum of squares of an eigenimage is its eigenvalue times the divisor of the covariances; images of orthogonal eigenvectors are uncorrelated; with mean_sub every image sums to zero.", "quantifier": "all cubes without blanks, all eigenvectors", "why_tests_cant": "all cubes and eigenvectors", "anchors": ["turbustat/statistics/pca/pca.py: PCA.eigimages", "turbustat/statistics/pca/pca.py: PCA.compute_pca", "turbustat/statistics/threeD_to_twoD.py: var_cov_cube"]}
{"id": "C216", "title": "Reconstruction from all components", "statement": "The eigenimages of all components, weighted with the eigenvectors, give back the cube less the channel means, and the eigenvalues sum to the total variance of the channels.", "quantifier": "all cubes without blanks, all orthonormal sets of eigenvectors", "why_tests_cant": "all cubes and eigenvectors", "anchors": ["turbustat/statistics/pca/pca.py: PCA.eigimages", "turbustat/statistics/pca/pca.py: PCA.compute_pca", "turbustat/statistics/threeD_to_twoD.py: var_cov_cube"]}
{"id": "C217", "title": "Arguments left unchanged", "statement": "Constructing a statistic changes no array of the caller, whether it succeeds or raises.", "quantifier": "all statistics, all arrays, headers, weights and kinds of input", "why_tests_cant": "all inputs, and aliasing between arguments and the arrays the statistic keeps", "anchors": ["turbustat/statistics/base_statistic.py: BaseStatisticMixIn.input_data_header", "turbustat/statistics/pspec_bispec/pspec.py: PowerSpectrum", "turbustat/statistics/mvc/mvc.py: MVC", "turbustat/statistics/vca_vcs/vca.py: VCA", "turbustat/io/input_base.py: input_data"]}
{"id": "C218", "title": "Blank pixels of the input", "statement": "The Fourier statistics take blank (NaN) pixels as zeros and all other pixels as given; the other statistics keep the data as given.", "quantifier": "all statistics and all inputs", "why_tests_cant": "all patterns of blanks", "anchors": ["turbustat/statistics/base_statistic.py: BaseStatisticMixIn.input_data_header", "turbustat/statistics/pspec_bispec/pspec.py: PowerSpectrum", "turbustat/statistics/pspec_bispec/bispec.py: Bispectrum", "turbustat/statistics/mvc/mvc.py: MVC", "turbustat/statistics/wavelets/wavelet_transform.py: Wavelet"]}
{"id": "C219", "title": "Weighted image of PowerSpectrum", "statement": "The image whose power spectrum is taken is the image times the weights, zero where one of them is blank; without weights it is the image; weights of another size raise IndexError.", "quantifier": "all images and weights", "why_tests_cant": "all images, weights and patterns of blanks", "anchors": ["turbustat/statistics/pspec_bispec/pspec.py: PowerSpectrum"]}
{"id": "C220", "title": "Header of a statistic", "statement": "A given header is used, and must be a FITS header; without one the data must carry theirs, and a plain array raises ValueError; data of another kind raise TypeError.", "quantifier": "all kinds of data and headers, all statistics that take a header", "why_tests_cant": "all combinations of data and header", "anchors": ["turbustat/statistics/base_statistic.py: BaseStatisticMixIn.input_data_header", "turbustat/io/input_base.py: input_data"]}
{"id": "C221", "title": "Header of Genus", "statement": "Genus keeps the header of data that carry one.", "quantifier": "all kinds of data", "why_tests_cant": "all kinds of data", "anchors": ["turbustat/statistics/genus/genus.py: Genus"]}
{"id": "C222", "title": "Beam of a statistic", "statement": "The beam is the last one given to load_beam or found in the header by it; an argument of another type raises TypeError and changes nothing.", "quantifier": "all histories of calls", "why_tests_cant": "all histories of calls", "anchors": ["turbustat/statistics/base_statistic.py: BaseStatisticMixIn.load_beam"]}
{"id": "C223", "title": "SCF spectrum", "statement": "Each value of the SCF spectrum is the mean of the SCF surface over the lags whose length lies in the bin (its uncertainty the standard deviation, with the small-sample factor), and SCF.lags holds the centre of that bin.", "quantifier": "all cubes, lags, bins and azimuthal limits", "why_tests_cant": "all surfaces and lags", "anchors": ["turbustat/statistics/scf/scf.py: SCF.compute_spectrum", "turbustat/statistics/psds.py: pspec"]}
{"id": "C224", "title": "Repeated runs of SCF", "statement": "What SCF.run computes depends on the cube, the lags and its arguments only, not on earlier calls on the object; writing out a default argument changes nothing.", "quantifier": "all earlier histories of the object and all arguments", "why_tests_cant": "all histories of calls", "anchors": ["turbustat/statistics/scf/scf.py: SCF.run", "turbustat/statistics/scf/scf.py: SCF.compute_surface", "turbustat/statistics/scf/scf.py: SCF.compute_spectrum", "turbustat/statistics/scf/scf.py: SCF.fit_plaw", "turbustat/statistics/scf/scf.py: SCF.fit_2Dplaw"]}
{"id": "C225", "title": "Fit of the SCF spectrum", "statement": "A spectrum that follows a power law within the limits is fitted with exactly that power law, whatever lies outside the limits, is blank, or the uncertainties are; the limits are inclusive; limits that leave no lag raise ValueError, limits that are no quantities TypeError.", "quantifier": "all spectra, limits, uncertainties and correct solvers", "why_tests_cant": "all spectra and limits", "anchors": ["turbustat/statistics/scf/scf.py: SCF.fit_plaw", "turbustat/statistics/scf/scf.py: SCF.fitted_model"]}
{"id": "C226", "title": "Limits of the 2D SCF fit", "statement": "fit_2Dplaw uses the lags of the surface longer than xlow and not longer than xhigh.", "quantifier": "all lags and limits", "why_tests_cant": "all lags and limits", "anchors": ["turbustat/statistics/scf/scf.py: SCF.fit_2Dplaw"]}
{"id": "C227", "title": "Angle of the 2D fits", "statement": "The position angle theta2D of the elliptical fits and theta_0 of the azimuthal limits are measured in the same way: at radius r and mask angle phi the model is A r^gamma (q^2 cos^2(phi - theta) + sin^2(phi - theta))^(gamma/2).", "quantifier": "all pixels of all maps and all parameters", "why_tests_cant": "all map shapes", "anchors": ["turbustat/statistics/scf/scf.py: SCF.fit_2Dplaw", "turbustat/statistics/base_pspec2.py: StatisticBase_PSpec2D.fit_2Dpspec", "turbustat/statistics/psds.py: pspec", "turbustat/statistics/elliptical_powerlaw.py: LogEllipticalPowerLaw2D"]}
{"id": "C228", "title": "Modes of the power-spectrum fit", "statement": "The unbinned fit of a power spectrum uses every Fourier mode of the image whose frequency is above low_cut and not above high_cut, once, as log10 of frequency and power, all with the same weight; by default low_cut is 2 / max(shape) and high_cut the highest frequency. The 2D fit uses the modes in its limits in the same way, at their frequencies along x and y, and starts from the 1D fit.", "quantifier": "all images, shapes and limits", "why_tests_cant": "all image shapes, odd and even, and all limits", "anchors": ["turbustat/statistics/base_pspec2.py: StatisticBase_PSpec2D.fit_pspec", "turbustat/statistics/base_pspec2.py: StatisticBase_PSpec2D.fit_2Dpspec", "turbustat/statistics/psds.py: make_radial_freq_arrays"]}
{"id": "C229", "title": "Recovery of a power-law spectrum", "statement": "If the power in the fitted modes (or bins) is A f^s, the fit without a break gives slope s and amplitude A, whatever lies outside the limits; bins without a value, and in a weighted fit those without an uncertainty, are left out.", "quantifier": "all images and spectra, limits, weights and correct least-squares solvers", "why_tests_cant": "all spectra and limits", "anchors": ["turbustat/statistics/base_pspec2.py: StatisticBase_PSpec2D.fit_pspec"]}
{"id": "C230", "title": "Brightness scale", "statement": "Multiplying the image by a constant other than zero changes neither the slope nor the frequencies; the power and its uncertainty are multiplied by the square of the constant.", "quantifier": "all images, factors, bins, limits and weights", "why_tests_cant": "all images and factors", "anchors": ["turbustat/statistics/base_pspec2.py: StatisticBase_PSpec2D.fit_pspec", "turbustat/statistics/base_pspec2.py: StatisticBase_PSpec2D.compute_radial_pspec", "turbustat/statistics/pspec_bispec/pspec.py: PowerSpectrum.run"]}
{"id": "C231", "title": "Background and position of the image", "statement": "Adding a constant to the image, or displacing it around the edges of its frame, changes no result of run (1D spectrum, errors, limits, 1D and 2D fits) as long as the bins start above half the lowest frequency, as they do by default.", "quantifier": "all images, constants, displacements and arguments of run", "why_tests_cant": "all images and constants", "anchors": ["turbustat/statistics/pspec_bispec/pspec.py: PowerSpectrum.run", "turbustat/statistics/base_pspec2.py: StatisticBase_PSpec2D.fit_pspec", "turbustat/statistics/base_pspec2.py: StatisticBase_PSpec2D.fit_2Dpspec", "turbustat/statistics/psds.py: pspec"]}
{"id": "C232", "title": "Repeated runs of a power spectrum", "statement": "What run of PowerSpectrum, VCA or MVC computes depends on the data and its arguments only, not on earlier calls on the object; writing out a default argument changes nothing.", "quantifier": "all earlier histories of the object and all arguments", "why_tests_cant": "all histories of calls", "anchors": ["turbustat/statistics/pspec_bispec/pspec.py: PowerSpectrum.run", "turbustat/statistics/vca_vcs/vca.py: VCA.run", "turbustat/statistics/mvc/mvc.py: MVC.run", "turbustat/statistics/base_pspec2.py: StatisticBase_PSpec2D.compute_radial_pspec", "turbustat/statistics/base_pspec2.py: StatisticBase_PSpec2D.fit_2Dpspec"]}
{"id": "C233", "title": "How the break moves", "statement": "One turn of the break-point search of Lm_Seg moves the break by step*gamma/beta, with the step halved only as often as it takes for points to lie on both sides of the new break; if five halvings do not suffice the break stays and the search fails; the halved step carries over to the next turn.", "quantifier": "all data, weights, solvers, iteration limits and states of the search", "why_tests_cant": "all data and all states of the search", "anchors": ["turbustat/statistics/lm_seg.py: Lm_Seg.fit_model"]}
{"id": "C234", "title": "A break is kept only if it improves the fit", "statement": "fit_model reports a break only if the last broken fit has a smaller residual sum of squares than the straight line; it drops a break only if it has not, or if no halving of the step left points on both sides.", "quantifier": "all data, weights, solvers, tolerances, steps and iteration limits", "why_tests_cant": "all data and all paths of the search", "anchors": ["turbustat/statistics/lm_seg.py: Lm_Seg.fit_model"]}
{"id": "C235", "title": "Generated cubes have the requested power law", "statement": "The power of a cube of even size made by make_3dfield is proportional to k^-powerlaw at every mode that is not its own opposite.", "quantifier": "all even sizes from 4, indices, amplitudes and random phases", "why_tests_cant": "all sizes, phases and modes", "anchors": ["turbustat/simulator/gen_field.py: make_3dfield"]}
{"id": "C236", "title": "Options of run reach their step", "statement": "Every option given to run of PowerSpectrum, VCA or MVC, and every option in its dictionaries for the radial spectrum and the 1D and 2D fits, is used by the step it is documented for, and an option left out has its documented default; documented options are accepted and the caller's dictionaries stay as they were; a misspelt option raises TypeError.", "quantifier": "all sets of options, all statistics, with and without pyfftw", "why_tests_cant": "all combinations of options", "anchors": ["turbustat/statistics/pspec_bispec/pspec.py: PowerSpectrum.run", "turbustat/statistics/vca_vcs/vca.py: VCA.run", "turbustat/statistics/mvc/mvc.py: MVC.run", "turbustat/statistics/base_pspec2.py: StatisticBase_PSpec2D.compute_radial_pspec", "turbustat/statistics/base_pspec2.py: StatisticBase_PSpec2D.fit_pspec", "turbustat/statistics/rfft_to_fft.py: rfft_to_fft"]}
{"id": "C237", "title": "Options of the spectral distances", "statement": "PSpec_Distance, VCA_Distance and MVC_Distance fit each data set once, without the 2D fit, with the limits and the break given for it and with the radial options of its dictionary (the first one when the second is None); all documented forms of limits and breaks are accepted.", "quantifier": "all data (raw, objects with or without fit), limits, breaks and dictionaries", "why_tests_cant": "all combinations of options", "anchors": ["turbustat/statistics/pspec_bispec/pspec.py: PSpec_Distance", "turbustat/statistics/vca_vcs/vca.py: VCA_Distance", "turbustat/statistics/mvc/mvc.py: MVC_Distance"]}
{"id": "C238", "title": "Precomputed objects in distances", "statement": "A distance between two objects that were already fitted recomputes nothing and touches no dictionary; VCA_Distance raises ValueError if the channel width of an object differs from the one asked for.", "quantifier": "all options and objects", "why_tests_cant": "all combinations of options", "anchors": ["turbustat/statistics/pspec_bispec/pspec.py: PSpec_Distance", "turbustat/statistics/vca_vcs/vca.py: VCA_Distance", "turbustat/statistics/mvc/mvc.py: MVC_Distance", "turbustat/statistics/vca_vcs/vcs.py: VCS_Distance"]}
{"id": "C239", "title": "Options of VCS", "statement": "Every option given to VCS.run, and every option in the dictionaries of VCS_Distance, reaches the fit, with the documented default when left out; misspelt options raise TypeError.", "quantifier": "all sets of options and data", "why_tests_cant": "all combinations of options", "anchors": ["turbustat/statistics/vca_vcs/vcs.py: VCS.run", "turbustat/statistics/vca_vcs/vcs.py: VCS.fit_pspec", "turbustat/statistics/vca_vcs/vcs.py: VCS_Distance"]}
{"id": "C240", "title": "Points of the VCS fit", "statement": "The VCS fit uses every positive spectral frequency within its limits (by default all), each with its own power, in increasing order; breaks tried by default lie strictly inside the fitted range.", "quantifier": "all spectra, numbers of channels, limits and splines", "why_tests_cant": "all numbers of channels and limits", "anchors": ["turbustat/statistics/vca_vcs/vcs.py: VCS.fit_pspec"]}
{"id": "C241", "title": "What the Cramer distance of cubes depends on", "statement": "Cramer_Distance.distance_metric gives a distance for any two cubes that each have a positive pixel above their noise level; it is the same for the cubes swapped, 0 for a cube and itself, never negative, and does not depend on the order of the pixels in the channels, on the order of the channels, or (normalised, with the noise level in the same unit) on the unit of brightness of either cube.", "quantifier": "all cubes, noise levels, orders and factors", "why_tests_cant": "all cubes and all permutations of pixels and channels", "anchors": ["turbustat/statistics/cramer/cramer.py: Cramer_Distance.distance_metric", "turbustat/statistics/cramer/cramer.py: Cramer_Distance.format_data", "turbustat/statistics/cramer/cramer.py: Cramer_Distance.cramer_statistic", "turbustat/statistics/threeD_to_twoD.py: _format_data"]}
{"id": "C242", "title": "Cramer distance without normalisation", "statement": "With normalize=False the Cramer distance takes the different ranges of intensities of the two cubes into account: a cube and a brighter copy of it are not at distance 0.", "quantifier": "all cubes and factors", "why_tests_cant": "all cubes and factors", "anchors": ["turbustat/statistics/cramer/cramer.py: Cramer_Distance.format_data", "turbustat/statistics/cramer/cramer.py: Cramer_Distance.distance_metric", "turbustat/statistics/threeD_to_twoD.py: _format_data", "turbustat/statistics/threeD_to_twoD.py: intensity_data"]}
{"id": "C243", "title": "Cramer distance of cubes of different sizes", "statement": "When the cubes have different numbers of pixels, the rows of the larger data matrix are drawn without replacement down to the size of the smaller one, which is kept; the distance does not depend on the random state of the caller, and the call leaves that state alone.", "quantifier": "all cubes, sizes, seeds and states of the random generator", "why_tests_cant": "all sizes and random states", "anchors": ["turbustat/statistics/cramer/cramer.py: Cramer_Distance.format_data", "turbustat/statistics/cramer/cramer.py: Cramer_Distance.distance_metric"]}
{"id": "C244", "title": "Laws of the PDF distances", "statement": "PDF_Distance gives Hellinger and KS distances in [0,1] for any two images with valid values that are not all equal; all its distances are the same for the images swapped, 0 for an image and itself, and do not depend on the order of the pixels (with their weights).", "quantifier": "all images, weights, lower limits, normalisations and numbers of bins", "why_tests_cant": "all images and all permutations", "anchors": ["turbustat/statistics/pdf/compare_pdf.py: PDF_Distance.__init__", "turbustat/statistics/pdf/compare_pdf.py: PDF_Distance.distance_metric", "turbustat/statistics/pdf/compare_pdf.py: PDF.run"]}
{"id": "C245", "title": "Units of the images in the PDF distances", "statement": "PDF distances do not depend on the unit common to both images; with a normalisation they do not depend on the unit of each image (factor and zero point for 'standardize' and 'normalize', factor for 'normalize_by_mean', zero point for 'center'); distance_metric standardises the data before comparing them.", "quantifier": "all images, factors, zero points and options", "why_tests_cant": "all images and all changes of units", "anchors": ["turbustat/statistics/pdf/compare_pdf.py: PDF_Distance.__init__", "turbustat/statistics/pdf/compare_pdf.py: PDF_Distance.distance_metric", "turbustat/statistics/stats_utils.py: data_normalization", "turbustat/statistics/stats_utils.py: common_histogram_bins"]}
{"id": "C246", "title": "Choice of the PDF distance", "statement": "distance_metric computes the distance named by statistic, 'all' computes them all with the same values, an unknown name raises TypeError; any string that reads as one of the documented names is accepted.", "quantifier": "all PDF_Distance objects and all strings", "why_tests_cant": "all strings, also those built at run time", "anchors": ["turbustat/statistics/pdf/compare_pdf.py: PDF_Distance.distance_metric", "turbustat/statistics/pdf/compare_pdf.py: PDF_Distance.compute_hellinger_distance", "turbustat/statistics/pdf/compare_pdf.py: PDF_Distance.compute_ks_distance", "turbustat/statistics/pdf/compare_pdf.py: PDF_Distance.compute_lognormal_distance"]}
{"id": "C247", "title": "Number of bins of the PDF distances", "statement": "With nbins=k the two PDFs of a PDF_Distance have k bins.", "quantifier": "all images and numbers of bins", "why_tests_cant": "all images and numbers of bins", "anchors": ["turbustat/statistics/pdf/compare_pdf.py: PDF_Distance.__init__", "turbustat/statistics/stats_utils.py: common_histogram_bins"]}
{"id": "C248", "title": "Changing the lags of an SCF object", "statement": "After roll_lags of an SCF object is set, compute_surface gives the surface of the new lags, whatever their number.", "quantifier": "all cubes, old and new lags and boundaries", "why_tests_cant": "all numbers of lags", "anchors": ["turbustat/statistics/scf/scf.py: SCF.roll_lags", "turbustat/statistics/scf/scf.py: SCF.compute_surface"]}
{"id": "C249", "title": "Names given as strings", "statement": "Arguments that choose a method by name (boundary of the SCF and SCF_Distance, data_format of the 2D rearrangement) are read by value: an equal string works however it was made, also as an element of a list or array, and an unknown one raises the documented error.", "quantifier": "all strings, also those built at run time, all cubes and lags", "why_tests_cant": "all strings and their origin", "anchors": ["turbustat/statistics/scf/scf.py: SCF.compute_surface", "turbustat/statistics/scf/scf.py: SCF_Distance.__init__", "turbustat/statistics/threeD_to_twoD.py: _format_data"]}
{"id": "C250", "title": "SCF distance of two cubes", "statement": "SCF_Distance of two cubes samples both surfaces at the same angles, whole pixels on the coarser grid; its distance is the weighted rms difference of the surfaces, a number in [0, sqrt 2] for cubes with signal, the same for the cubes swapped, 0 for a cube and itself, unchanged by the calibration of either cube, and an even size means the odd one below it.", "quantifier": "all cubes with blanks, pixel sizes, sizes, boundaries and weightings", "why_tests_cant": "all cubes, grids and factors", "anchors": ["turbustat/statistics/scf/scf.py: SCF_Distance.__init__", "turbustat/statistics/scf/scf.py: SCF_Distance.distance_metric"]}
{"id": "C251", "title": "SCF objects in the distance", "statement": "SCF objects given to SCF_Distance give the distance of their cubes; objects that have been run with matching lags are used as they are; if the lags do not match in angle, or an object has not been run, it is computed with common lags.", "quantifier": "all objects, their grids, lags and history, all sizes and boundaries", "why_tests_cant": "all combinations of grids, lags and histories", "anchors": ["turbustat/statistics/scf/scf.py: SCF_Distance.__init__", "turbustat/statistics/scf/scf.py: SCF_Distance.distance_metric"]}
{"id": "C252", "title": "One decomposition through any history of a PCA object", "statement": "After any sequence of calls on a PCA object (decompositions, widths, fits, runs, setting n_eigs, use in PCA_Distance; some of which raise), its covariance matrix, eigenvalues, eigenvectors, mean subtraction, total variance and proportion of variance belong to one and the same decomposition of its cube, and the proportion is that of the current n_eigs.", "quantifier": "all cubes and all histories of calls", "why_tests_cant": "all histories, also with calls that raise", "anchors": ["turbustat/statistics/pca/pca.py: PCA.compute_pca", "turbustat/statistics/pca/pca.py: PCA.n_eigs", "turbustat/statistics/pca/pca.py: PCA.run", "turbustat/statistics/pca/pca.py: PCA_Distance.__init__"]}
{"id": "C253", "title": "What a run of PCA leaves", "statement": "PCA.run gives the same results on a fresh object and on one used before; after it, the widths are those of the components of the current decomposition (as many as n_eigs) and the index is the fit of those widths, for every number of components; no results of an earlier run remain.", "quantifier": "all cubes, objects, histories and arguments", "why_tests_cant": "all histories and numbers of components", "anchors": ["turbustat/statistics/pca/pca.py: PCA.run", "turbustat/statistics/pca/pca.py: PCA.find_spatial_widths", "turbustat/statistics/pca/pca.py: PCA.find_spectral_widths", "turbustat/statistics/pca/pca.py: PCA.fit_plaw"]}
{"id": "C254", "title": "The beam in a run of PCA", "statement": "A run that corrects for the beam uses the beam given, else that of the header, and if there is neither raises ValueError and leaves the object as it was; otherwise the beam of the header has no influence.", "quantifier": "all objects, headers and arguments", "why_tests_cant": "all combinations of headers and arguments", "anchors": ["turbustat/statistics/pca/pca.py: PCA.run", "turbustat/statistics/pca/pca.py: PCA.find_spatial_widths"]}
{"id": "C255", "title": "PCA objects in the distance", "statement": "PCA_Distance of two PCA objects whose decompositions were computed gives the same distance as of their cubes with the same n_eigs and mean_sub, and a call that is refused leaves the objects unchanged.", "quantifier": "all cubes, objects, numbers of components and mean subtractions", "why_tests_cant": "all objects and their histories", "anchors": ["turbustat/statistics/pca/pca.py: PCA_Distance.__init__", "turbustat/statistics/pca/pca.py: PCA_Distance.distance_metric"]}
{"id": "C256", "title": "A DeltaVariance object through any history", "statement": "After any sequence of calls on a DeltaVariance object (setting lags, computing, fitting, running; some of which raise), its curve is the delta variance at its lags, and fit_range and slope belong to one fit; a run gives the same results as on a fresh object with the same lags.", "quantifier": "all images, lags, options and histories of calls", "why_tests_cant": "all histories, also with calls that raise", "anchors": ["turbustat/statistics/delta_variance/delta_variance.py: DeltaVariance.compute_deltavar", "turbustat/statistics/delta_variance/delta_variance.py: DeltaVariance.fit_plaw", "turbustat/statistics/delta_variance/delta_variance.py: DeltaVariance.run", "turbustat/statistics/delta_variance/delta_variance.py: DeltaVariance.lags"]}
{"id": "C257", "title": "Kept convolved arrays of the delta variance", "statement": "With keep_convolve_arrays=True, convolve_arrays and convolve_weights hold one array per lag, in the order of the lags.", "quantifier": "all images, lags and histories of calls", "why_tests_cant": "all histories of calls", "anchors": ["turbustat/statistics/delta_variance/delta_variance.py: DeltaVariance.compute_deltavar", "turbustat/statistics/delta_variance/delta_variance.py: DeltaVariance.convolve_arrays", "turbustat/statistics/delta_variance/delta_variance.py: DeltaVariance.convolve_weights"]}
{"id": "C258", "title": "Common lags have the same angular sizes", "statement": "DeltaVariance_Distance of maps with different pixel sizes compares the delta variances at lags of the same angular sizes, whatever the form and unit of the lags given, within the fit limits given.", "quantifier": "all pixel sizes, lags in pixels or angles, limits", "why_tests_cant": "all pixel sizes, units and limits", "anchors": ["turbustat/statistics/delta_variance/delta_variance.py: DeltaVariance_Distance.__init__", "turbustat/statistics/delta_variance/delta_variance.py: DeltaVariance_Distance.distance_metric"]}
{"id": "C259", "title": "Options of DeltaVariance.run and Wavelet.run reach their steps", "statement": "Every option of run goes, with its value or its documented default, to the step it is documented for (transform, convolution, fit, segmented fit), the options of fit_kwargs to the fit, and a name that is no option is refused; no dictionary of the caller changes.", "quantifier": "all options, dictionaries and states before the call", "why_tests_cant": "all combinations of options and dictionaries", "anchors": ["turbustat/statistics/delta_variance/delta_variance.py: DeltaVariance.run", "turbustat/statistics/delta_variance/delta_variance.py: DeltaVariance.fit_plaw", "turbustat/statistics/delta_variance/delta_variance.py: DeltaVariance.compute_deltavar", "turbustat/statistics/wavelets/wavelet_transform.py: Wavelet.run", "turbustat/statistics/wavelets/wavelet_transform.py: Wavelet.fit_transform", "turbustat/statistics/wavelets/wavelet_transform.py: Wavelet.compute_transform", "turbustat/statistics/convolve_wrapper.py: convolution_wrapper"]}
{"id": "C260", "title": "Options of DeltaVariance_Distance and Wavelet_Distance reach the data set they are for", "statement": "Each data set is run once with the limits and the options of its own dictionary (the first one when the second is None); an object that was fitted, at the common lags, is used as it is; data and objects can be mixed; without common lags each data set uses its own lags.", "quantifier": "all data sets, objects, limits, dictionaries", "why_tests_cant": "all combinations of data sets, objects and dictionaries", "anchors": ["turbustat/statistics/delta_variance/delta_variance.py: DeltaVariance_Distance.__init__", "turbustat/statistics/wavelets/wavelet_transform.py: Wavelet_Distance.__init__"]}
{"id": "C261", "title": "Error ranges of the size-line width fit", "statement": "index_error_range and intercept_error_range contain index and intercept: with 'odr' they are one standard error to either side (of the logarithm, for the intercept), with 'bayes' the value is the median of the samples and the range runs between the percentiles of conf_interval; relations of either sign are found.", "quantifier": "all fits, samples and confidence intervals", "why_tests_cant": "random samples and real parameters", "anchors": ["turbustat/statistics/pca/pca.py: PCA.fit_plaw", "turbustat/statistics/pca/pca.py: PCA.index_error_range", "turbustat/statistics/pca/pca.py: PCA.intercept_error_range", "turbustat/statistics/fitting_utils.py: bayes_linear"]}
{"id": "C262", "title": "Weights of DeltaVariance and StatMoments", "statement": "Without weights DeltaVariance gives finite pixels the weight one and others zero, and StatMoments gives every pixel the weight one; weights that are given are used as given, and must have the size of the image.", "quantifier": "all images, weights and forms of input", "why_tests_cant": "all patterns of blanks and all forms of input", "anchors": ["turbustat/statistics/delta_variance/delta_variance.py: DeltaVariance.__init__", "turbustat/statistics/stat_moments/highstatmoments.py: StatMoments"]}
{"id": "C263", "title": "Lags an SCF object is made with", "statement": "The SCF surface is computed at the lags asked for: by size, the whole numbers of pixels from -k to k; as an array, that many pixels; as a Quantity, the same angles or lengths in pixels. Anything else is refused with TypeError.", "quantifier": "all sizes, all lags and units, all pixel sizes, cubes and boundaries", "why_tests_cant": "all numbers of lags, even ones too", "anchors": ["turbustat/statistics/scf/scf.py: SCF.__init__", "turbustat/statistics/scf/scf.py: SCF.roll_lags"]}
{"id": "C264", "title": "An SCF surface that cannot be computed", "statement": "compute_surface either computes the surface at all lags or raises; after it has raised, no spectrum is computed from the values it did not reach.", "quantifier": "all objects, lags and boundaries, all points at which a call raises", "why_tests_cant": "every point of failure in the loop over the lags", "anchors": ["turbustat/statistics/scf/scf.py: SCF.compute_surface", "turbustat/statistics/scf/scf.py: SCF.compute_spectrum"]}
{"id": "C265", "title": "A Dendrogram_Stats object through any history", "statement": "The numbers of features, the fitted points, the tail slope and the histograms of an object belong to its last run and to its thresholds, whatever was called before, also after a call that raised.", "quantifier": "all data, thresholds, dendrograms and histories of calls", "why_tests_cant": "all histories, also with calls that raise", "anchors": ["turbustat/statistics/dendrograms/dendro_stats.py: Dendrogram_Stats.run", "turbustat/statistics/dendrograms/dendro_stats.py: Dendrogram_Stats.compute_dendro", "turbustat/statistics/dendrograms/dendro_stats.py: Dendrogram_Stats.fit_numfeat", "turbustat/statistics/dendrograms/dendro_stats.py: Dendrogram_Stats.make_hists", "turbustat/statistics/dendrograms/dendro_stats.py: Dendrogram_Stats.min_deltas"]}
{"id": "C266", "title": "The tail slope of the numbers of features", "statement": "Numbers of features that follow a power law of min_delta give its exponent as tail_slope, and measuring the thresholds in another unit of brightness changes neither the success of the fit nor the slope.", "quantifier": "all thresholds, numbers of features, window sizes and factors", "why_tests_cant": "real thresholds and all numbers of features", "anchors": ["turbustat/statistics/dendrograms/dendro_stats.py: Dendrogram_Stats.fit_numfeat", "turbustat/statistics/dendrograms/dendro_stats.py: Dendrogram_Stats.tail_slope"]}
{"id": "C267", "title": "A power spectrum that is a broken power law", "statement": "A power spectrum that is exactly a broken power law gives back its two slopes, its amplitude and its break, and a break given as a frequency or as its log10 means the same.", "quantifier": "all spectra, ranges of frequencies, amplitudes, slopes, breaks and starts of the break", "why_tests_cant": "all broken power laws and starts over the reals", "anchors": ["turbustat/statistics/base_pspec2.py: StatisticBase_PSpec2D.fit_pspec", "turbustat/statistics/lm_seg.py: Lm_Seg.fit_model"]}
{"id": "C268", "title": "A delta variance that is a broken power law", "statement": "A run of the delta variance on an image whose curve is exactly a broken power law gives back its two slopes and its break.", "quantifier": "all lags, errors, amplitudes, slopes, breaks and starts of the break", "why_tests_cant": "all broken power laws and starts over the reals", "anchors": ["turbustat/statistics/delta_variance/delta_variance.py: DeltaVariance.fit_plaw", "turbustat/statistics/delta_variance/delta_variance.py: DeltaVariance.run", "turbustat/statistics/lm_seg.py: Lm_Seg.fit_model"]}
{"id": "C269", "title": "A Bispectrum object through any history", "statement": "The bispectrum and the bicoherence of an object are those of its last run, whatever was run before and whether runs raised, and a run that raises leaves no surface that looks like a result.", "quantifier": "all images, seeds, numbers of samples, random draws and histories of runs", "why_tests_cant": "all histories, also with runs that raise", "anchors": ["turbustat/statistics/pspec_bispec/bispec.py: Bispectrum.compute_bispectrum", "turbustat/statistics/pspec_bispec/bispec.py: Bispectrum.run"]}
{"id": "C270", "title": "Bispectrum distances of data and objects", "statement": "Bispectrum_Distance gives the norm of the difference of the bicoherence surfaces and the difference of their means for the images as run with stat_kwargs; an object run with the same options gives the same distances as its data; an object whose run failed is refused.", "quantifier": "all pairs of images and objects, options and random draws", "why_tests_cant": "all images, draws and histories", "anchors": ["turbustat/statistics/pspec_bispec/bispec.py: Bispectrum_Distance.__init__", "turbustat/statistics/pspec_bispec/bispec.py: Bispectrum_Distance.distance_metric"]}
{"id": "C271", "title": "Bispectrum slices for several radii or angles", "statement": "A call with several radii (or angles) and widths returns for each the slice that a call with it alone returns, keyed by the value given; angles count in the unit given; a number of widths that does not match is refused with ValueError, missing or other units with TypeError; the slices are those of the surface named by value, and a surface not computed is an AttributeError, an unknown name a TypeError.", "quantifier": "all surfaces, radii, angles, widths, units and bin widths", "why_tests_cant": "real radii and angles, any number of them", "anchors": ["turbustat/statistics/pspec_bispec/bispec.py: Bispectrum.azimuthal_slice", "turbustat/statistics/pspec_bispec/bispec.py: Bispectrum.radial_slice"]}
{"id": "C272", "title": "Genus curves belong to the radii and data of the object through any history", "statement": "After a Genus run that returns, whatever runs, failures and changes of smoothing_radii came before, genus_stats has one curve for each smoothing radius, whose value at every threshold is the number of regions above it minus the number below it in the image smoothed with that radius, and the smoothed means and standard deviations (and images, if kept) are those of that image; a failed run or new radii never leave curves or images of something else in place; radii between 1 pixel and half the shorter side are accepted, others refused with ValueError; the thresholds are those given or numpts equal steps from the smallest to the largest value (or between min_value and max_value).", "quantifier": "every image, header, thresholds, radii, options of the run, convolution, and every history of runs and assignments to smoothing_radii", "why_tests_cant": "Tests run a fresh object once with one set of radii.", "anchors": ["turbustat/statistics/genus/genus.py: Genus.make_genus_curve", "turbustat/statistics/genus/genus.py: Genus.smoothing_radii", "turbustat/statistics/genus/genus.py: Genus.smoothed_images", "turbustat/statistics/genus/genus.py: Genus.genus_stats"]}
{"id": "C273", "title": "The genus distance compares the shapes of two images under the options given", "statement": "Genus_Distance does not depend on a positive factor or an offset of the brightness of either image; an image is at distance 0 from itself; two-element lists of min_value, max_value, lowdens_percent and highdens_percent give their first item to img1 and their second to img2, and genus2_kwargs defaults to genus_kwargs; lists that are too short and images without contrast are refused; radii, beams and sizes are accepted as for Genus; the distance is the root of the summed squared differences of the splines of the two curves per pixel area over the shared thresholds.", "quantifier": "every pair of images, header grids, options, spline and convolution", "why_tests_cant": "Tests compare one pair of images with default options.", "anchors": ["turbustat/statistics/genus/genus.py: Genus_Distance.__init__", "turbustat/statistics/genus/genus.py: Genus_Distance.distance_metric"]}
{"id": "C274", "title": "StatMoments objects through any history", "statement": "Whatever calls came before, compute_spatial_distrib that returns leaves the maps of the moments around every pixel for the last acceptable radius, make_spatial_histograms leaves the histograms of the maps in place, and run leaves moments, maps and histograms that belong together under the options given; an unacceptable radius or share raises and leaves the object as it was; histograms never describe other maps than those in place.", "quantifier": "every image, header, weights, number of bins and every history of assignments, maps, histograms and runs, also ones that raise", "why_tests_cant": "Tests run a fresh object once.", "anchors": ["turbustat/statistics/stat_moments/highstatmoments.py: StatMoments.compute_spatial_distrib", "turbustat/statistics/stat_moments/highstatmoments.py: StatMoments.make_spatial_histograms", "turbustat/statistics/stat_moments/highstatmoments.py: StatMoments.run", "turbustat/statistics/stat_moments/highstatmoments.py: StatMoments.radius"]}
{"id": "C275", "title": "The moment distance of two images", "statement": "StatMoments_Distance compares regions of the same angle; it does not depend on a positive factor of the brightness of either image, on an offset where no pixel is blank, or on a shift of periodic images; it is between zero and the square root of the bin width, zero from an image to itself, and the same in both orders; an object gives what its image gives under the options of the call; a distance of zero means that the histograms agree.", "quantifier": "every pair of images or objects, headers, weights, radii, options and numbers of bins", "why_tests_cant": "Tests compare one pair of images with default options.", "anchors": ["turbustat/statistics/stat_moments/highstatmoments.py: StatMoments_Distance.__init__", "turbustat/statistics/stat_moments/highstatmoments.py: StatMoments_Distance.create_common_histograms", "turbustat/statistics/stat_moments/highstatmoments.py: StatMoments_Distance.distance_metric"]}
{"id": "C276", "title": "Wavelet objects through any history of calls", "statement": "A Wavelet run gives the same values, slope, break, range of the fit and fitted model whatever was called on the object before, as long as its scales are the same; the values of an object always are the transform at its scales, and slope, break and range always belong to one fit of them: a call that raises leaves the results as they were.", "quantifier": "every image, header, scales and every history of assignments to scales, compute_transform, fit_transform and run, also ones that raise", "why_tests_cant": "Tests run a fresh object once with valid arguments.", "anchors": ["turbustat/statistics/wavelets/wavelet_transform.py: Wavelet.scales", "turbustat/statistics/wavelets/wavelet_transform.py: Wavelet.compute_transform", "turbustat/statistics/wavelets/wavelet_transform.py: Wavelet.fit_transform", "turbustat/statistics/wavelets/wavelet_transform.py: Wavelet.run", "turbustat/statistics/wavelets/wavelet_transform.py: Wavelet.fitted_model"]}
{"id": "C277", "title": "The slope of the wavelet transform", "statement": "A transform that is a power law of the scale gives its exponent as the slope and itself as the fitted model; the slope does not depend on a positive factor of the brightness (which is the factor of the fitted model) or on the orientation of the image, is larger by 2 without the normalization by the scale, and a broken power law gives its two slopes and its break; Wavelet_Distance is zero from an image to itself made brighter.", "quantifier": "every image, scales, limits and weights with which a fit has two usable points, and any solver of least squares", "why_tests_cant": "Tests compare the slope of one image with stored numbers.", "anchors": ["turbustat/statistics/wavelets/wavelet_transform.py: Wavelet.fit_transform", "turbustat/statistics/wavelets/wavelet_transform.py: Wavelet.run", "turbustat/statistics/wavelets/wavelet_transform.py: Wavelet.fitted_model", "turbustat/statistics/wavelets/wavelet_transform.py: Wavelet_Distance.distance_metric"]}
{"id": "C278", "title": "VCS objects through any history of calls", "statement": "After any calls of compute_pspec, fit_pspec and run, also ones that raise, a fit or run that returns leaves slope, slope_err, brk, brk_err, low_cut and high_cut that belong to one segmented fit of the spectrum of the cube, of every frequency k/n below the Nyquist half within the limits of that call, from the break of that call or one found by the spline (taken for its logarithm unless log_break=False); a run gives what it gives on a fresh object; a fit that raises leaves the results as they were; log_break only changes how given breaks are read.", "quantifier": "every cube, limits, breaks, spline, solver and every history of calls, also ones that raise", "why_tests_cant": "Tests run a fresh object once with valid arguments.", "anchors": ["turbustat/statistics/vca_vcs/vcs.py: VCS.compute_pspec", "turbustat/statistics/vca_vcs/vcs.py: VCS.fit_pspec", "turbustat/statistics/vca_vcs/vcs.py: VCS.run", "turbustat/statistics/vca_vcs/vcs.py: VCS.brk"]}
{"id": "C279", "title": "The VCS of a cube whose spectrum is an exact power law", "statement": "A VCS run on a spectrum that is a broken power law gives the two slopes and the break of the law, from a break given between the same channels or the first one the spline finds; on a plain power law it gives the one slope of the law, with or without a break to start from.", "quantifier": "every cube whose spectrum follows the law within the limits, every amplitude, slopes and break with two frequencies on either side, any history, limits, spline and least squares solver", "why_tests_cant": "Tests compare the slopes of one cube with stored numbers.", "anchors": ["turbustat/statistics/vca_vcs/vcs.py: VCS.fit_pspec", "turbustat/statistics/vca_vcs/vcs.py: VCS.run", "turbustat/statistics/lm_seg.py: Lm_Seg.fit_model"]}
{"id": "C280", "title": "Robust errors of segmented fits", "statement": "The errors of the slopes of a segmented fit are of the kind asked for: the statistics ask for cov_type='HC3', so they are robust to unequal scatter of the points.", "quantifier": "every set of points, start of the break, weights and solver whose kinds of errors share parameters and residuals", "why_tests_cant": "Tests compare errors of one image with stored numbers, which cannot tell which kind they are.", "anchors": ["turbustat/statistics/lm_seg.py: Lm_Seg.fit_model", "turbustat/statistics/vca_vcs/vcs.py: VCS.fit_pspec", "turbustat/statistics/base_pspec2.py: StatisticBase_PSpec2D.fit_pspec", "turbustat/statistics/delta_variance/delta_variance.py: DeltaVariance.fit_plaw"]}
{"id": "C281", "title": "What a Tsallis object holds after any calls", "statement": "Whatever lags were assigned and whatever make_tsallis, fit_tsallis and run calls were made on a Tsallis object before, failed or not, the lags stay accepted ones, and a run that returns leaves a table with every lag of the object, in the unit it was given in, beside the fit of the histogram of the differences of the image at that lag; two objects with the same lags end alike. Between runs the table should belong to the lags and hold fitted values only.", "quantifier": "every header, image, list of lags in any unit, curve-fit routine, content of fresh memory and history of assignments, make_tsallis, fit_tsallis and run calls that may raise", "why_tests_cant": "tests call run once on a fresh object with default lags; new lags, fits between and failed fits only show in histories", "anchors": ["turbustat/statistics/tsallis/tsallis.py: Tsallis.run", "turbustat/statistics/tsallis/tsallis.py: Tsallis.fit_tsallis", "turbustat/statistics/tsallis/tsallis.py: Tsallis.make_tsallis", "turbustat/statistics/tsallis/tsallis.py: Tsallis.lags", "turbustat/statistics/tsallis/tsallis.py: Tsallis.tsallis_table"]}
{"id": "C282", "title": "PDF objects through any history of calls", "statement": "After any calls of make_pdf, make_ecdf, find_percentile, fit_pdf and run on a PDF object, failed ones included, a percentile that is returned is the share of the data not above the value; after a run the PDF, its bins and the ECDF belong together, and with given bins they and the fit do not depend on the past. New bins should move the ECDF along, and refused bins should leave the object as it was.", "quantifier": "every non-empty finite data, bins, fits and history of calls, any optimiser and sampler", "why_tests_cant": "Tests make one run on a fresh object.", "anchors": ["turbustat/statistics/pdf/compare_pdf.py: PDF.make_pdf", "turbustat/statistics/pdf/compare_pdf.py: PDF.make_ecdf", "turbustat/statistics/pdf/compare_pdf.py: PDF.find_percentile", "turbustat/statistics/pdf/compare_pdf.py: PDF.run"]}
{"id": "C283", "title": "The model that a fit of a PDF leaves", "statement": "A fit of a PDF that returns leaves model_params and model_stderrs of this very fit, by maximum likelihood from scipy's fit with the same fixed values or as mean and 15th and 85th percentiles of a chain; the curves drawn over PDF and ECDF are the model with the fixed values and the shapes whose likelihood was fitted; a fit with loc and scale fixed works; a fit that raises leaves the earlier model, and plots of a chain show the chain of the last fit.", "quantifier": "every distribution of scipy, data, fixed or free loc and scale, kind of fit, optimiser, sampler and earlier calls", "why_tests_cant": "Tests fit one log-normal sample with the default keywords and do not look at the curves.", "anchors": ["turbustat/statistics/pdf/compare_pdf.py: PDF.fit_pdf", "turbustat/statistics/pdf/compare_pdf.py: PDF.plot_distrib", "turbustat/statistics/pdf/compare_pdf.py: PDF.model_params", "turbustat/statistics/pdf/compare_pdf.py: PDF.model_stderrs", "turbustat/statistics/pdf/compare_pdf.py: PDF.corner_plot"]}
{"id": "C284", "title": "A break asked for where there is none", "statement": "If a power spectrum (binned or not), a delta variance curve or a wavelet transform is a plain power law within the limits of the fit, asking for a break with two different frequencies, lags or scales on either side changes nothing: the break is dropped and slope, error, amplitude and limits are those of the fit without it; for delta variance and wavelet the whole object is the same, for a power spectrum all but the error of the break, which stays that of the fit before.", "quantifier": "every amplitude, exponent, start of the break with two points on either side, weights, limits, earlier state and solver of least squares (in exact arithmetic)", "why_tests_cant": "Tests ask for a break in one image that has one.", "anchors": ["turbustat/statistics/base_pspec2.py: StatisticBase_PSpec2D.fit_pspec", "turbustat/statistics/delta_variance/delta_variance.py: DeltaVariance.fit_plaw", "turbustat/statistics/wavelets/wavelet_transform.py: Wavelet.fit_transform", "turbustat/statistics/lm_seg.py: Lm_Seg.fit_model"]}
{"id": "C285", "title": "The cube, maps and errors of a Moments object belong together", "statement": "Whatever masks, noise levels, moments and errors (along any axis, with failures) came before, make_moments followed by make_moment_errors along the same axis leaves what a new object for the masked cube and the current noise level leaves; the maps, errors and cube returned by to_dict, all_moments and all_moment_errs always belong to one cube, axis and noise level, and a call that raises changes nothing.", "quantifier": "every history of apply_mask, scale assignments, make_moments and make_moment_errors, every axis, cube and noise level", "why_tests_cant": "Tests build the object once and call both methods in order along the spectral axis.", "anchors": ["turbustat/moments/make_moments.py: Moments.apply_mask", "turbustat/moments/make_moments.py: Moments.make_moments", "turbustat/moments/make_moments.py: Moments.make_moment_errors", "turbustat/moments/make_moments.py: Moments.to_dict", "turbustat/moments/_moment_errs.py: moment1_error"]}
{"id": "C286", "title": "The methods for spectral widths agree", "statement": "WidthEstimate1D returns, for every normalised autocorrelation curve that falls from zero lag to the largest lag, the lag at which it passes 1/e: walk-down and interpolate give the same point, between the two samples on either side, and the fit gives the 1/e width of a Gaussian; a curve that stays above 1/e gives NaN.", "quantifier": "every number of channels, every symmetric falling curve and every lag at which it passes 1/e (in exact arithmetic)", "why_tests_cant": "The test uses one Gaussian with an even number of channels.", "anchors": ["turbustat/statistics/pca/width_estimate.py: WidthEstimate1D"]}
{"id": "C287", "title": "Spatial widths from a fitted Gaussian", "statement": "WidthEstimate2D with method='fit' returns, for every Gaussian image about the centre, whatever its two standard deviations, its angle and its amplitude, and whatever noise autocorrelation was added and given, the root of the sum of the two squared standard deviations. A constant under the Gaussian, which the fitted model has, should not matter. A failed error estimate leaves the width without an error. With 'interpolate' and 'contour' the brightness of the images does not matter.", "quantifier": "all image shapes of at least 2 by 2 pixels (4 by 4 for the constant), amplitudes, standard deviations, angles, noise images, lists of images, and fitters that find a best fit", "why_tests_cant": "the fitter stops at one of many equivalent parameter sets (swapped axes, signs, angles), and a test compares a few widths within tolerances", "anchors": ["turbustat/statistics/pca/width_estimate.py: WidthEstimate2D", "turbustat/statistics/pca/width_estimate.py: fit_2D_gaussian"]}
{"id": "C288", "title": "Spatial widths by interpolation", "statement": "WidthEstimate2D with 'interpolate' and 'xinterpolate' returns the radius at which an image falls to 1/e. For circular images both are the same; for elliptical ones 'xinterpolate' uses an elliptical radius on which the brightness depends alone.", "quantifier": "all images, radii, shapes and numbers of images; splines that refuse what FITPACK refuses", "why_tests_cant": "the size of the image at which the knots coincide or outnumber the points, and the side on which the aspect ratio belongs, show up in particular images only", "anchors": ["turbustat/statistics/pca/width_estimate.py: WidthEstimate2D", "turbustat/statistics/pca/width_estimate.py: fit_2D_gaussian"]}
{"id": "C289", "title": "A size-line width relation is found exactly", "statement": "PCA.fit_plaw with fit_method='odr' returns the index and intercept of a power law that the widths of the components follow, whatever their errors and however the widths were measured. The best law follows changes of the units of sizes and line widths, does not depend on a common factor of all errors, and with sizes and line widths exchanged is the same law solved for the size.", "quantifier": "all sets of components, laws, errors, fit limits and units", "why_tests_cant": "ranges over all real widths, errors and factors; the fit is an optimum over all lines and all displacements", "anchors": ["turbustat/statistics/fitting_utils.py: leastsq_linear", "turbustat/statistics/pca/pca.py: PCA.fit_plaw", "turbustat/statistics/pca/width_estimate.py: WidthEstimate1D"]}
{"id": "C290", "title": "Both fits of the size-line width relation prefer the same lines", "statement": "Of two lines, the one that is closer to the points in the sense of fit_method='odr' is the more probable one in fit_method='bayes'; a line through all points is the most probable one, and a falling relation can be found by both.", "quantifier": "all points, errors and pairs of lines", "why_tests_cant": "compares two optima over all lines and all real data", "anchors": ["turbustat/statistics/fitting_utils.py: bayes_linear", "turbustat/statistics/fitting_utils.py: leastsq_linear", "turbustat/statistics/pca/pca.py: PCA.fit_plaw"]}
{"id": "C291", "title": "Styles of the comparison plots", "statement": "distance_metric(verbose=True) draws each data set in the colour, with the symbol and with the label that its dictionary plot_kwargs1 or plot_kwargs2 gives, and otherwise in the documented style (blue diamonds '1', green circles '2'), whatever was plotted before, so that the two data sets can be told apart.", "quantifier": "all statistics with such plots, all programs of comparisons before, all dictionaries", "why_tests_cant": "the defaults are shared by all calls and changed by them, so it depends on the whole history of the program", "anchors": ["turbustat/statistics/pspec_bispec/pspec.py: PSpec_Distance.distance_metric", "turbustat/statistics/pca/pca.py: PCA_Distance.distance_metric", "turbustat/statistics/scf/scf.py: SCF_Distance.distance_metric", "turbustat/statistics/dendrograms/dendro_stats.py: Dendrogram_Distance.distance_metric"]}
{"id": "C292", "title": "Dictionaries of plot options are left unchanged", "statement": "A dictionary given to distance_metric as plot_kwargs1 or plot_kwargs2 has the same keys and values after the call.", "quantifier": "all statistics with such plots, all programs of comparisons, all dictionaries", "why_tests_cant": "a changed dictionary shows only in what the program does with it later", "anchors": ["turbustat/statistics/pspec_bispec/pspec.py: PSpec_Distance.distance_metric", "turbustat/statistics/wavelets/wavelet_transform.py: Wavelet_Distance.distance_metric", "turbustat/statistics/stat_moments/highstatmoments.py: StatMoments_Distance.distance_metric"]}
{"id": "C293", "title": "One dictionary of plot options for several statistics", "statement": "A dictionary of plot options can be used for one statistic after another: each plot is the one it would be with a new dictionary of the same contents.", "quantifier": "all sequences of statistics, all dictionaries, either data set", "why_tests_cant": "ranges over all sequences of comparisons; most pairs of statistics work", "anchors": ["turbustat/statistics/scf/scf.py: SCF_Distance.distance_metric", "turbustat/statistics/pdf/compare_pdf.py: PDF_Distance.distance_metric", "turbustat/statistics/base_pspec2.py: StatisticBase_PSpec2D.plot_fit"]}
{"id": "C294", "title": "Angular size of a pixel", "statement": "For every header of an image or a cube whose pixels are square on the sky, at any position angle and mirrored or not, conversions between pixels and angles use the side of the pixels. Headers with oblong pixels are refused. Two images compared with common_scale are brought to one scale by the ratio of their sides, whatever the angles.", "quantifier": "all headers: sides, angles, mirroring, orders of the axes, tolerances", "why_tests_cant": "ranges over all linear transformations of a header; tests use unrotated headers with the celestial axes first", "anchors": ["turbustat/statistics/base_statistic.py: BaseStatisticMixIn._ang_size", "turbustat/statistics/base_statistic.py: BaseStatisticMixIn._wcs", "turbustat/statistics/stats_utils.py: common_scale"]}
{"id": "C295", "title": "Spectral axis of PCA", "statement": "The spectral size is the width of a channel for every position and direction of the spectral axis. PCA is built only from cubes with a velocity axis and square pixels, and its number of channels is that of the cube.", "quantifier": "all headers and shapes of cubes", "why_tests_cant": "ranges over all headers and shapes", "anchors": ["turbustat/statistics/base_statistic.py: BaseStatisticMixIn._spectral_size", "turbustat/statistics/base_statistic.py: BaseStatisticMixIn._has_spectral", "turbustat/statistics/pca/pca.py: PCA.__init__"]}
{"id": "C296", "title": "Saving the plot of a statistic", "statement": "Plotting a statistic with save_name writes a file that shows that plot and nothing else, and leaves the other open figures of the caller as they were.", "quantifier": "all statistics, all stacks of open figures and their contents, all backends", "why_tests_cant": "ranges over all states of pyplot before the call; tests start without figures and do not look at the files", "anchors": ["turbustat/statistics/base_pspec2.py: StatisticBase_PSpec2D.plot_fit", "turbustat/statistics/pspec_bispec/pspec.py: PowerSpectrum.run", "turbustat/statistics/pca/pca.py: PCA.plot_fit", "turbustat/statistics/scf/scf.py: SCF.plot_fit"]}
{"id": "C297", "title": "Plots of a comparison", "statement": "A comparison of two data sets with verbose=True draws both data sets, in one figure, and with save_name writes that figure, on every matplotlib backend.", "quantifier": "all comparisons, open figures and backends", "why_tests_cant": "ranges over all backends; tests use one that does not close figures", "anchors": ["turbustat/statistics/pspec_bispec/pspec.py: PSpec_Distance.distance_metric", "turbustat/statistics/vca_vcs/vcs.py: VCS_Distance.distance_metric", "turbustat/statistics/delta_variance/delta_variance.py: DeltaVariance_Distance.distance_metric"]}
{"id": "C298", "title": "Files of the dendrogram comparison", "statement": "For every save_name the two plots of the dendrogram comparison go to two different files next to each other, in the format of the name, and different names give different files.", "quantifier": "all file names", "why_tests_cant": "ranges over all strings, with several dots, directories or no extension; tests do not save", "anchors": ["turbustat/statistics/dendrograms/dendro_stats.py: Dendrogram_Distance.distance_metric"]}
{"id": "C299", "title": "Plots of fitted power laws", "statement": "In every unit of the axis, the plots of data with a fitted power law show the data, a line on the fitted law, and as residuals the differences of the points from that law.", "quantifier": "all data, fitted laws and units", "why_tests_cant": "ranges over all data and conversion factors; tests do not look at what is drawn, and pixels hide the factor", "anchors": ["turbustat/statistics/base_pspec2.py: StatisticBase_PSpec2D.plot_fit", "turbustat/statistics/delta_variance/delta_variance.py: DeltaVariance.plot_fit", "turbustat/statistics/scf/scf.py: SCF.plot_fit", "turbustat/statistics/scf/scf.py: SCF.fitted_model", "turbustat/statistics/vca_vcs/vcs.py: VCS.plot_fit", "turbustat/statistics/wavelets/wavelet_transform.py: Wavelet.plot_transform"]}
{"id": "C300", "title": "Plot of PCA", "statement": "In all units of size and of line width the plot of PCA shows the widths, a line on the fitted relation and the residuals from it, and the bars of as many eigenvalues as are asked for.", "quantifier": "all widths, fits, units and numbers of eigenvalues", "why_tests_cant": "ranges over all fits, conversion factors and numbers; tests do not look at what is drawn", "anchors": ["turbustat/statistics/pca/pca.py: PCA.plot_fit"]}
{"id": "C301", "title": "Panels of Genus and Tsallis", "statement": "The plots of Genus and Tsallis show for each smoothing radius or lag its own curve, in a panel of its own, whatever their number.", "quantifier": "all numbers of radii and lags, curves and fits", "why_tests_cant": "ranges over all numbers of panels; tests use one number and do not look at the plot", "anchors": ["turbustat/statistics/genus/genus.py: Genus.plot_fit", "turbustat/statistics/tsallis/tsallis.py: Tsallis.plot_fit"]}
{"id": "C302", "title": "Bars of the dendrogram histograms", "statement": "The bars in the plot of a dendrogram are the bins of its histograms: side by side between the edges, as high as the counts.", "quantifier": "all values, numbers of structures and bins", "why_tests_cant": "ranges over all values and bins; tests do not look at what is drawn", "anchors": ["turbustat/statistics/dendrograms/dendro_stats.py: Dendrogram_Stats.plot_fit", "turbustat/statistics/dendrograms/dendro_stats.py: Dendrogram_Stats.make_hists"]}
{"id": "C303", "title": "The order of the channels does not matter to VCA, SCF and PCA", "statement": "Taking the channels of a cube in another order leaves the power spectrum of VCA and the surface of SCF exactly as they were, and renumbers the covariance matrix of PCA, so that its eigenvalues stay and its eigenvectors are renumbered.", "quantifier": "every cube, every permutation of its channels, every list of lags and boundary of SCF", "why_tests_cant": "There are n! orders of the channels for each cube; tests use the channels of one cube in one order.", "anchors": ["turbustat/statistics/vca_vcs/vca.py: VCA.compute_pspec", "turbustat/statistics/scf/scf.py: SCF.compute_surface", "turbustat/statistics/threeD_to_twoD.py: var_cov_cube", "turbustat/statistics/pca/pca.py: PCA.compute_pca"]}
{"id": "C304", "title": "The arrangement of the spectra on the sky does not matter to VCS and PCA", "statement": "Moving the spectra of a cube to other positions, blank values with them, leaves the power spectrum of VCS and the covariance matrix of PCA exactly as they were.", "quantifier": "every cube, blanks included, and every permutation of its positions", "why_tests_cant": "There are (ny*nx)! arrangements of each cube; tests use one.", "anchors": ["turbustat/statistics/vca_vcs/vcs.py: VCS.compute_pspec", "turbustat/statistics/threeD_to_twoD.py: var_cov_cube"]}
{"id": "C305", "title": "Orientation of the image in a power spectrum", "statement": "Mirroring an image or a cube on the sky, exchanging its axes or turning it by a quarter leaves the one-dimensional power spectrum of PowerSpectrum, VCA and (without apodization and beam) MVC, its uncertainties and the fit to them exactly as they were when no directions are selected; half a turn changes nothing under any options.", "quantifier": "all images and cubes of all shapes, odd and even, all binnings, limits, breaks and fitters", "why_tests_cant": "the frequencies of even and odd axes are laid out differently, so the law has to be settled for every shape; tests use one image in one orientation", "anchors": ["turbustat/statistics/pspec_bispec/pspec.py: PowerSpectrum.run", "turbustat/statistics/vca_vcs/vca.py: VCA.run", "turbustat/statistics/mvc/mvc.py: MVC.run", "turbustat/statistics/psds.py: pspec"]}
{"id": "C306", "title": "The orientation of a cube does not change its spectral correlation function", "statement": "With whole-pixel lags, as many in one direction as in the other (the lags built from size are such), the correlation surface of a cube mirrored left to right or up to down is the mirrored surface, and that of a transposed cube the transposed surface, with either boundary (with 'cut' for lags no longer than the map). SCF.run on the mirrored, transposed or turned cube has the same lags, spectrum, standard deviations and fit as on the cube itself, or raises the same exception, when no directions are selected and no 2D fit is made.", "quantifier": "every cube with blanks anywhere, every number and size of lags, every choice of bins and limits, every weighted-line solver", "why_tests_cant": "the surfaces of two orientations are computed from different pairs of shifted arrays; a test compares a few cubes, often square ones", "anchors": ["turbustat/statistics/scf/scf.py: SCF.compute_surface", "turbustat/statistics/scf/scf.py: SCF.compute_spectrum", "turbustat/statistics/scf/scf.py: SCF.run"]}
{"id": "C307", "title": "Direction and origin of the spectral axis in VCS", "statement": "Reversing the spectral axis of a cube (as conversions between frequency and velocity do) or beginning it at another channel, with the channels before it moved to the end, changes nothing in the velocity coordinate spectrum: the one-dimensional power spectrum is exactly the same, and so is everything a VCS object holds after any calls of compute_pspec, fit_pspec and run. Other orders of the channels can change it.", "quantifier": "all cubes with blanks anywhere, all numbers of channels, every starting channel, every history of calls, every fitter", "why_tests_cant": "the transform stores frequencies in an order that differs between odd and even numbers of channels; a test checks one cube in one direction", "anchors": ["turbustat/statistics/vca_vcs/vcs.py: VCS.compute_pspec", "turbustat/statistics/vca_vcs/vcs.py: VCS.fit_pspec", "turbustat/statistics/vca_vcs/vcs.py: VCS.run"]}
{"id": "C308", "title": "The orientation of an image does not change its moments", "statement": "Mirroring an image left to right or up to down, transposing it or turning it by a quarter (its weights with it) mirrors, transposes or turns the maps of the local moments; the moments of the whole image and the four histograms of StatMoments.run are the same, or the same exception is raised, with wrapped boundaries or not. The distance of two images is the same from whatever side each of them is seen.", "quantifier": "every image with blanks anywhere, of any shape, with any weights, radius, bins and options", "why_tests_cant": "the maps are built from padded arrays and a disc mask; whether these treat the two axes and both directions alike has to hold for every shape and radius; a test compares a few images", "anchors": ["turbustat/statistics/stat_moments/highstatmoments.py: StatMoments.run", "turbustat/statistics/stat_moments/highstatmoments.py: StatMoments.compute_spatial_distrib", "turbustat/statistics/stat_moments/highstatmoments.py: StatMoments_Distance.distance_metric"]}
{"id": "C309", "title": "The orientation of an image does not change its Tsallis statistics", "statement": "Mirroring an image left to right or up to down, transposing it or turning it by a quarter mirrors, transposes or turns the arrays Tsallis computes at every accepted lag, with periodic boundaries or not. A run on such an image has the same distributions, fit parameters and chi-squares as on the image itself, or raises the same exception.", "quantifier": "every image with blanks or infinities anywhere, of any shape; all accepted lags, numbers of bins and clippings; every curve fitter; whatever was done with the objects before", "why_tests_cant": "the arrays are sums of four rolled copies of a padded image; that the padding and cropping treat the axes alike has to hold for every shape and lag; a test compares one image", "anchors": ["turbustat/statistics/tsallis/tsallis.py: Tsallis.make_tsallis", "turbustat/statistics/tsallis/tsallis.py: Tsallis.run"]}
{"id": "C310", "title": "The orientation of an image does not change its delta variance", "statement": "Mirroring an image and its weight map left to right or up to down, transposing them or turning them by a quarter leaves the delta variance at every lag and its error unchanged, for the Gaussian core and annulus of the lag sampled at the pixels, and for every pair of kernels that have no left or right, up or down (so also with periodic boundaries). So do all results of an object after any calls, and the distance of two images.", "quantifier": "every image with blanks anywhere and every weight map, of any shape; every lag, diameter ratio, weight threshold and preserve_nan", "why_tests_cant": "the value is a weighted mean of squares of a difference of two normalised convolutions with low weights cut; a test compares one image and one lag", "anchors": ["turbustat/statistics/delta_variance/delta_variance.py: DeltaVariance.compute_deltavar", "turbustat/statistics/delta_variance/delta_variance.py: DeltaVariance.do_convolutions", "turbustat/statistics/delta_variance/kernels.py: core_kernel, annulus_kernel"]}
{"id": "C311", "title": "The signal mask of a cube covers the surroundings of bright voxels and nothing else", "statement": "moment_masking returns a mask that holds exactly the voxels no further (along each axis) than the given number of dilations from a voxel whose value, smoothed with the Gaussian kernel, is above clip times the noise; so a voxel is only in the mask if the cube itself has a value above that threshold within kernel_size plus the dilations. With 0 dilations the mask grows until it covers everything as soon as one voxel is above.", "quantifier": "every cube with blanks anywhere, of any shape; every kernel size above 0, clip, noise estimate and number of dilations", "why_tests_cant": "the mask is an iterated dilation of a thresholded convolution with blanks left out; a test fixes one cube and one number of dilations", "anchors": ["turbustat/moments/make_moments.py: moment_masking", "turbustat/moments/make_moments.py: gauss_kern"]}
{"id": "C312", "title": "The bicoherence of an image turned by half", "statement": "Turning an image by half (stored with both axes reversed) replaces its bispectrum by the complex conjugate and leaves bicoherence and amplitude as they are, for the same seed.", "quantifier": "every image with blanks anywhere, of every shape whose sampling stays inside; with and without mean subtraction; every draw of angles and every cell", "why_tests_cant": "which wave vectors a cell samples depends on the seed and on rounding; a test compares one image and one seed", "anchors": ["turbustat/statistics/pspec_bispec/bispec.py: Bispectrum.compute_bispectrum"]}
{"id": "C313", "title": "Blank surroundings of an image in the delta variance", "statement": "Placing an image inside a larger one whose other pixels have no weight (as blank pixels have by default) leaves the delta variance and its error at every lag as they are, with zeros assumed beyond the edges.", "quantifier": "every image and weights of every shape, every place inside every larger image, every value around it, every pair of kernels, every cutoff and lag", "why_tests_cant": "how many of the surrounding pixels count depends on the kernels, the cutoff and the shape; a test compares one frame", "anchors": ["turbustat/statistics/delta_variance/delta_variance.py: DeltaVariance.compute_deltavar"]}
{"id": "C314", "title": "Blank surroundings of an image in the wavelet transform", "statement": "Placing an image inside a larger one whose other pixels are blank leaves the wavelet coefficients at its pixels and the wavelet value at every scale as they are.", "quantifier": "every image of every shape, every place inside every larger image, every list of scales and kernel sizes, with and without the normalization by the scale", "why_tests_cant": "whether the surroundings count depends on the sign of the coefficients there, for each scale and frame; a test compares one frame", "anchors": ["turbustat/statistics/wavelets/wavelet_transform.py: Wavelet.compute_transform"]}
{"id": "C315", "title": "Blank surroundings of a cube in the spectral correlation function", "statement": "With the continuous boundary, a cube surrounded by at least as many blank pixels as the lag has at that lag the correlation of its own pairs of spectra: no pair wraps around, and the blank spectra do not count.", "quantifier": "every cube with blanks anywhere, every place inside every larger cube with room for the lags, every whole-pixel lag", "why_tests_cant": "which pixels meet a blank one depends on the lag, the shape and the place; a test compares one frame", "anchors": ["turbustat/statistics/scf/scf.py: SCF.compute_surface"]}
{"id": "C316", "title": "Blank surroundings of an image in the Tsallis statistics", "statement": "In an image surrounded by at least as many blank pixels as the lag, the Tsallis statistics use exactly the differences of the pixels of the image that are at least the lag away from its border: nothing wraps around, no zero is assumed beyond the border, and the distributions, parameters and chi-squares of a run are the same in all such surroundings and with either boundary.", "quantifier": "every image with blanks anywhere, every place inside every larger image with room for the lags, every list of lags, both boundaries, every number of bins and clipping, every curve fit", "why_tests_cant": "which pixels meet the surroundings depends on the lag, the shape, the place and the boundary; a test compares one frame", "anchors": ["turbustat/statistics/tsallis/tsallis.py: Tsallis.make_tsallis", "turbustat/statistics/tsallis/tsallis.py: Tsallis.run"]}
{"id": "C317", "title": "Blank surroundings of an image in the moments", "statement": "The mean, variance, skewness and kurtosis of an image, of the neighbourhoods of its pixels and their histograms do not depend on how many blank pixels surround the image: a pixel of the surroundings gets no moments in a run, and wrapped boundaries act like blank ones as soon as the surroundings are as wide as the radius.", "quantifier": "every image with blanks anywhere, every place inside every larger image, every radius, every required share of valid pixels from one half on (for the maps at the pixels of the image: every share), every weights, both boundaries, all bins", "why_tests_cant": "which windows meet the surroundings, and how many of their pixels are valid, depends on the radius, the shape and the place; a test compares one frame", "anchors": ["turbustat/statistics/stat_moments/highstatmoments.py: StatMoments.array_moments", "turbustat/statistics/stat_moments/highstatmoments.py: StatMoments.compute_spatial_distrib", "turbustat/statistics/stat_moments/highstatmoments.py: StatMoments.make_spatial_histograms", "turbustat/statistics/stat_moments/highstatmoments.py: compute_moments"]}
{"id": "C318", "title": "Blank surroundings of a cube in the velocity coordinate spectrum", "statement": "The velocity coordinate spectrum of a cube does not depend on how many blank spectra surround it: blank spectra carry no power and are not counted among the pixels the power is averaged over.", "quantifier": "every cube with blanks in it or with emission in each spectrum, every place inside every larger field, every frequency", "why_tests_cant": "the powers of all spectra are mixed by a transform over the sky and divided by a count; a test compares one cube in one field", "anchors": ["turbustat/statistics/vca_vcs/vcs.py: VCS.__init__", "turbustat/statistics/vca_vcs/vcs.py: VCS.compute_pspec"]}
{"id": "C319", "title": "Blank surroundings of a cube in PCA", "statement": "The covariance matrix, and so the eigenvalues, of a cube do not depend on how many blank pixels surround it; no eigenvalue is negative.", "quantifier": "every cube, every number of blank pixels anywhere in the field, with and without subtracted means", "why_tests_cant": "blanks are replaced in one of the two channels only, and counted differently on and off the diagonal; a test compares one cube in one field", "anchors": ["turbustat/statistics/threeD_to_twoD.py: var_cov_cube", "turbustat/statistics/pca/pca.py: PCA.compute_pca"]}
{"id": "C320", "title": "Arrangement of the pixels in a PDF", "statement": "A PDF depends on the valid pixels (and their weights) only, not on where they are in the image nor on how many blank pixels there are: blank surroundings, mirroring and transposing the image change neither the data, the PDF, the ECDF, percentiles nor the likelihood of a fit.", "quantifier": "every image, with and without weights, lower limit and normalization, every arrangement of its valid pixels, every sequence of calls", "why_tests_cant": "a test compares a few arrangements of one image", "anchors": ["turbustat/statistics/pdf/compare_pdf.py: PDF.__init__, PDF.make_pdf, PDF.make_ecdf, PDF.find_percentile, PDF.find_at_percentile, PDF.fit_pdf"]}
{"id": "C321", "title": "Orientation and blank surroundings in Genus", "statement": "Without smoothing, a Genus object shows the same thresholds, genus curves, means and standard deviations, and raises the same exceptions, for an image and for the image placed in a larger blank field, mirrored, transposed or turned.", "quantifier": "every image with blank pixels anywhere, every size and offset of the field, every sequence of such changes, every options, connectivity and minimum size, every history of runs and assignments", "why_tests_cant": "a test compares a few placements of one image", "anchors": ["turbustat/statistics/genus/genus.py: Genus.__init__, Genus.make_genus_curve, Genus.run, Genus.smoothing_radii, remove_small_objects"]}
{"id": "C322", "title": "Blank surroundings of cubes in the Cramer distance", "statement": "The Cramer distance of two cubes does not depend on how many blank pixels surround both of them.", "quantifier": "every pair of cubes with blank pixels anywhere, every number of further blank pixels, every noise level, with and without normalization", "why_tests_cant": "the part of the pixels that is kept is a part of all pixels, blank ones included; a test compares one pair of cubes in one field", "anchors": ["turbustat/statistics/cramer/cramer.py: Cramer_Distance.format_data, Cramer_Distance.distance_metric", "turbustat/statistics/threeD_to_twoD.py: intensity_data, _format_data"]}
{"id": "C323", "title": "Bootstrapped uncertainties of a radial profile", "statement": "With boot_iter, the uncertainties of a radial profile exist for every number of iterations from one, and fewer raise a ValueError where a bin holds a value. Whatever is drawn, a bin with fewer than two values has no uncertainty (NaN), and that of another bin is, before the factor for its number of values, at least zero and at most half the range of its values; it scales with the values. Over all equally likely draws its mean is at most (n - 1) / n of the standard deviation that is used without boot_iter.", "quantifier": "every set of values and radii, every bin edges in increasing order, every number of iterations, every outcome of the random draws, every value of the t distribution", "why_tests_cant": "the draws are random: a test sees a few of the n to the n draws of a bin", "anchors": ["turbustat/statistics/psds.py: pspec"]}
{"id": "C324", "title": "Blank surroundings of images in power spectra", "statement": "The power of an image at a spatial frequency does not depend on the blank pixels around it, on the size of the field or on the place of the image in it: a pixel of the two-dimensional power spectrum of the field holds the power of the image in the wave of that pixel's frequency. Spectra of the image and of a larger field agree at the frequencies they have in common, which are all frequencies of the image where the size of the field is a multiple of that of the image. The same holds for the channels of a cube in VCA.", "quantifier": "every image with blank pixels anywhere, every size of the field and every offset, every pixel of the spectrum; no apodizing and no beam correction", "why_tests_cant": "a test compares one image in one field", "anchors": ["turbustat/statistics/pspec_bispec/pspec.py: PowerSpectrum.compute_pspec", "turbustat/statistics/vca_vcs/vca.py: VCA.compute_pspec", "turbustat/statistics/rfft_to_fft.py: rfft_to_fft"]}
{"id": "C325", "title": "Blank surroundings of the maps of modified velocity centroids", "statement": "The MVC spectrum at a spatial frequency does not depend on how many blank pixels surround the emission in the three maps.", "quantifier": "every three maps with blank pixels in common, every size of the field and every offset, every frequency; no apodizing and no beam correction", "why_tests_cant": "the mean of the squared velocities is taken after blank pixels became zero; a test compares one set of maps in one field", "anchors": ["turbustat/statistics/mvc/mvc.py: MVC.__init__, MVC.compute_pspec"]}
{"id": "C326", "title": "The sonic length in the unit that is asked for", "statement": "Once the size-line width relation is fitted, sonic_length returns the sonic length and its bounds in any unit in which the size of a pixel is known, angular or physical, and they are those in pixels times the size of a pixel; in other units it raises.", "quantifier": "every fit of both methods, every temperature, with and without the correction of the exponent, every pixel size, distance and unit", "why_tests_cant": "the unit of the bounds depends on the fitted exponent; the tests read values without their units", "anchors": ["turbustat/statistics/pca/pca.py: PCA.sonic_length", "turbustat/statistics/base_statistic.py: _spatial_unit_conversion, _to_angular, _to_physical"]}
{"id": "C327", "title": "Arrangement of the pixels in the PDF distances", "statement": "PDF_Distance compares the values of the valid pixels and nothing else: images with the same valid pixels (with weights: the same pairs of a valid pixel and a valid weight) have the same Hellinger, KS and lognormal distances, or are refused both times. Two images with the same valid pixels, such as an image and a copy that is turned, mirrored or placed in blank surroundings, are at the distance 0.", "quantifier": "every pair of images and every arrangement of their valid pixels among any number of blank ones, with or without weights; every normalisation, lower limit, choice of bins and statistic; every fit that depends on the values and not on their order", "why_tests_cant": "Tests compare images of the same shape without blanks; the claim ranges over every arrangement of valid and blank pixels.", "anchors": ["turbustat/statistics/pdf/compare_pdf.py:PDF_Distance", "turbustat/statistics/pdf/compare_pdf.py:PDF.__init__", "turbustat/statistics/stats_utils.py:common_histogram_bins"]}
