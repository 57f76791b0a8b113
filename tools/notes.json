{
 "C04": "Non-finite input pixels come out as NaN.",
 "C05": "The triangle inequality needs the middle histogram to be blank only where an outer one is; C05_hellinger_triangle_blank_middle shows why.",
 "C06": "REFUTED by the code: bin_width multiplies the distance instead of entering under the root, so it scales with sqrt(bin_width) and can exceed 1. The partial theorem gives the exact law.",
 "C08": "Non-negativity and the zero case hold. REFUTED part: blanks are removed from each argument separately, so bins are mispaired unless both are blank in the same bins.",
 "C100": "REFUTED by the code for Wavelet (unit 1/pix). Holds for DeltaVariance.",
 "C101": "REFUTED by the code when two or more starts fail, and with log_break=False.",
 "C102": "Symmetric. REFUTED by the code: nansum drops a NaN distance.",
 "C103": "REFUTED by the code for different pixel sizes (a length ratio is used for areas, and on one map only). Holds on a common grid; the spline is an oracle.",
 "C106": "REFUTED by the code: both fits use the same fitter, so the errors are those of the second fit, or NaN when the second fit is kept.",
 "C107": "REFUTED by the code: IndexError without bootstrap, NaN ellipticity error with it.",
 "C108": "Whenever the mean square of the phases is not zero (if it is, the image is zero).",
 "C109": "REFUTED by the code: sum(phases**2) is not the sum of squared moduli; all powers are too large by the same factor.",
 "C11": "REFUTED by the code for a zero right pad width: vector[-0:] is the whole vector, so everything is overwritten. Holds for pad_width[1] >= 1.",
 "C110": "Full.",
 "C111": "Full.",
 "C112": "Full; the solver is any function.",
 "C113": "REFUTED by the code: the residuals are added to the data instead of the model.",
 "C114": "REFUTED by the code when the taper is narrower than a pixel; proved otherwise.",
 "C115": "REFUTED by the code: the half map of np.fft.rfftn is returned, unshifted. Hermitian symmetry is proved.",
 "C118": "REFUTED by the code: a percentile is ignored as soon as the matching value is given. The spacing, end points and precedence of explicit thresholds are proved.",
 "C119": "REFUTED by the code: numpts is accepted but not handed on, 100 thresholds are always used.",
 "C120": "REFUTED by the code: every table is appended twice.",
 "C121": "REFUTED part: the default is a single radius of one pixel. The acceptance rule is proved in full.",
 "C122": "REFUTED by the code: the regions are counted with the connectivity given, so connectivity=1 splits diagonal neighbours.",
 "C124": "REFUTED by the code: the share is taken over the bounding square. Proved for blank-free squares; the exact rule is C38_window.",
 "C125": "REFUTED by the code: run does not hand on min_frac; 0.8 is always used.",
 "C126": "REFUTED by the code: the radius is rounded up (np.ceil). The acceptance rule is proved.",
 "C129": "REFUTED by the code for image1 with another radius and nbins=None: nbins becomes None and np.histogram raises. Exact condition proved.",
 "C13": "Kept within delta/2 of theta_0: all shapes. Opposite sector and point symmetry: odd shapes away from the middle 2x2 block. REFUTED by the code for even shapes (mask[::-1,::-1] reflects about the wrong point) and next to the middle (the block [n-1:n+1] is not centred).",
 "C134": "REFUTED by the code when both are fixed: UnboundLocalError. Proved for at most one fixed parameter at the starting point.",
 "C136": "REFUTED by the code: always AttributeError (_moment2); the line width keeps its units.",
 "C137": "REFUTED by the code: the given noise level is never used; without a level of the object no errors are set. Proved for the level of the object and for none.",
 "C138": "REFUTED by the code for the zeroth moment (header has the cube unit only).",
 "C139": "REFUTED by the code: 'ray' is accepted, the errors raise ValueError.",
 "C140": "Proved for .fits files, the directory being passed as moments_path. REFUTED by the code for a directory not passed again, for other extensions and for any mask (AttributeError).",
 "C145": "Proved: which cells count and what they add. REFUTED by the code: cells exactly on a channel edge are dropped, so a uniform velocity field with the default channels gives an all-zero cube.",
 "C146": "Proved for one common unit. REFUTED by the code for mixed units: only .value of the upper limit and of the width is used.",
 "C147": "Proved for -3. REFUTED by the code for -1 and -2, which act as axes 1 and 0 on cubic fields and raise IndexError on others.",
 "C148": "Proved for square images. REFUTED by the code: CRPIX1 and CRPIX2 are swapped.",
 "C15": "Full formula without blanks; with blanks it needs a positive value on every non-blank line. REFUTED otherwise: a line whose only values are negative, next to blanks, is not counted (max of the zero-filled line is 0).",
 "C153": "Proved for cells whose truncated wave vectors satisfy k3=k1+k2. REFUTED by the code: k3 is truncated after the sum, so the sampled triangles are not closed and the bicoherence of a shifted point source changes.",
 "C155": "Proved: per cell and wave vector each position is counted at most once. REFUTED by the code for two or more samples per cell: arr[idx] += 1 ignores repetitions.",
 "C156": "Proved: averages over the selected pixels for the edges actually used. REFUTED by the code: linspace(0, pi, floor(pi/bin_width)) gives bins wider than bin_width and those beyond 90 degrees are always blank.",
 "C157": "Proved for surfaces without blanks. REFUTED by the code with mean_subtract=True: the cell (0,0) has no power and both distances are NaN (in exact arithmetic; rounding may leave a tiny power there).",
 "C16": "Proved for whole and fractional lags; entries are blank when no pair of spectra has power (all-zero or all-blank cube), zero lag is 1 for any cube with a non-zero value.",
 "C160": "Proved with periodic=True, and away from the border otherwise. REFUTED by the code for periodic=False: the image is padded with zeros, so an offset changes the pixels near the border.",
 "C162": "Identifiability proved. REFUTED by the code: log10 of the amplitude is -logA/(q-1), not logA.",
 "C163": "Proved: non-negative, and zero exactly when the model meets all used points. REFUTED by the code: exp is applied to log10 values and the sum is not divided by the degrees of freedom.",
 "C164": "REFUTED by the code: a list becomes a 1 x n array (one threshold), a single number raises ValueError.",
 "C165": "REFUTED by the code when min_value is not given: no thresholds can be made.",
 "C166": "REFUTED by the code for a second run on the same object, which run prunes in place.",
 "C167": "REFUTED by the code: the last qualifying threshold is left out; those used do qualify.",
 "C168": "REFUTED by the code: nbins was overwritten by an array, the second call raises.",
 "C17": "Whole-pixel lags, as the property states; at fractional lags the surface is not symmetric in general.",
 "C170": "REFUTED by the code: a precomputed object is run again with its own thresholds; different lengths raise AttributeError.",
 "C171": "REFUTED by the code: dendro2_kwargs with make_hists or verbose raises TypeError, and the entries are removed from the caller's dictionary.",
 "C172": "REFUTED by the code: windows have size-1 values and even sizes raise IndexError. The break, number and kind of the fitted points hold for the windows used.",
 "C173": "REFUTED by the code: moduli are subtracted before squaring, and the mean includes the squared centroid. The computed value is proved.",
 "C174": "REFUTED by the code for velocities: one term scales with v, the other with v^2. Proved for intensities.",
 "C176": "REFUTED by the code (operator precedence): the squared centroid in the mean dispersion is tapered, the squared linewidth is not.",
 "C177": "REFUTED by the code for velocity errors and zero errors; proved for constant moment 0 errors.",
 "C178": "The beam kernel (radio_beam) is any array of the shape of the image; convolution is cyclic.",
 "C181": "REFUTED by the code for 2 x 2 pixel images; proved for sides of at least 3 pixels.",
 "C184": "REFUTED by the code for a single row or column; below 4 pixels the scales decrease.",
 "C186": "REFUTED by the code: only the points below the break are counted (the docstring promises both).",
 "C187": "REFUTED by the code: num is never passed on.",
 "C189": "REFUTED by the code above half of the spectral range: one channel at the low end, or none. Proved otherwise.",
 "C19": "REFUTED by the code: with boundary='cut' the data are shifted by the lag and then sliced by the lag again, so a pixel is compared with its periodic partner at twice the lag. C19_cut_partial gives the exact pairs compared for every whole lag.",
 "C190": "REFUTED by the code for downsampling: the quotient of units is dropped. Proved for regridding.",
 "C191": "REFUTED by the code: allow_huge_operations of the caller's cube is overwritten.",
 "C192": "REFUTED when the factor does not divide the number of channels (the last block is averaged over fewer channels). downsample_axis of spectral-cube is modelled from its documentation.",
 "C194": "REFUTED by the code: subtracting the mean of the transform removes the first channel of the eigenvector. Proved for the vector without its first channel.",
 "C195": "REFUTED by the code for one component, which always raises ValueError. Proved from two components on (with the first channel dropped).",
 "C196": "REFUTED by the code: UnboundLocalError for every negative number. Proved: positive numbers give the leading spectra.",
 "C198": "REFUTED by the code: a refused call still changes the fit method and limits, so sonic_length raises AttributeError or mixes methods. Index, intercept and samples are proved to be those of the last successful call in every history.",
 "C200": "REFUTED by the code: bounds are swapped for a negative index, and the intercept error is divided by the intercept twice, which brings in the channel width. Proved: the range contains the value for a positive index.",
 "C201": "REFUTED by the code: the slopes of the samples are never used. Proved: right when all samples share the fitted slope; bounds in order.",
 "C202": "REFUTED by the code for indices below -10/9, and the conversion is off by about 0.24 from the relations quoted. Proved: contained above -10/9.",
 "C204": "REFUTED by the code: the logarithm of a bound method is taken, TypeError for every x.",
 "C206": "REFUTED by the code: an ellipse with axes along the diagonals (equal coefficients of x^2 and y^2, non-zero xy) is returned with the wrong angle, because of the sign of the infinity in arctan(2b/(a-c)). Proved for all others, for points that determine the ellipse and an eigenvalue solver that returns a basis of eigenvectors.",
 "C207": "np.linalg.eig is an oracle whose columns are eigenvectors.",
 "C208": "np.linalg.eig is an oracle that returns a basis of real eigenvectors.",
 "C209": "Scaling: for a solver whose eigenvectors do not change when the matrix is multiplied by a positive number.",
 "C21": "cramer_statistic on given data matrices; format_data/_format_data (how the matrices are built from cubes) is modelled separately. Euclidean pairwise distances of scikit-learn taken as exact.",
 "C210": "REFUTED by the code: the order of the axes depends on the sign of the eigenvector, which no solver guarantees. Proved: rescaling the eigenvectors at most swaps the axes, so the combined width is unaffected.",
 "C211": "Without beam correction. Contour finding and scipy's leastsq are oracles: the contour points lie on the contour and determine it; leastsq finds points that are on the ellipse.",
 "C212": "REFUTED by the code: the Dirichlet weights add up to 1, not their squares, so each displacement is shorter than the residual (by up to a factor 1/sqrt 2) unless a weight is 0. Proved: the bounds, and zero errors for points on an ellipse.",
 "C213": "REFUTED by the code: fit_2D_ellipse catches the ValueError and all widths become NaN. Proved: estimate_stderrs raises.",
 "C214": "REFUTED by the code: two or more eigenimages are stacked along the last axis and the first and last axes are swapped, so each image is transposed (a single image is not). Holds up to that swap.",
 "C217": "REFUTED by the code: PowerSpectrum sets the blank pixels of the caller's weights array to zero in place (pspec.py:56), also when it then raises IndexError because the weights have another shape. Proved: no other array is written by PowerSpectrum, the weights are unchanged if they have no blanks, and the other thirteen statistics change nothing.",
 "C218": "REFUTED by the code for MVC: only pixels blank in all three maps are zeroed, so a pixel blank in the centroid alone stays NaN and the whole spectrum becomes NaN (mvc.py:83-94). Proved for all other statistics, and the exact rule of MVC.",
 "C22": "Proved for all sizes through the conditional negative definiteness of the root distance (limits of Gram kernels).",
 "C221": "REFUTED by the code: a Projection or Slice is an ndarray, so Genus takes it without its header (genus.py:80-83); smoothing radii in angular units are then refused. Holds for HDUs, cubes and (data, header) pairs.",
 "C223": "REFUTED by the code: the lag axis is the pixel distance in the surface times the spacing of the first two lags. For lags -4, -1, 0, 1, 4 the four points at lag 1 are reported at a lag above 2 (skewed_refuted), and for lags 0, 1, 2 the zero lag is averaged in at a lag above 1 (one_sided_refuted). Proved for lags in equal steps around zero, any step, number of lags, number of bins and azimuthal limits (uniform_partial). Missing: min_bin and max_bin given.",
 "C224": "REFUTED by the code: the azimuthal mask of an earlier spectrum stays and is used by the 2D fit when use_azimmask is set and no theta_0 is given (stale_mask_refuted); theta_0=None written out raises ValueError, as compute_spectrum unpacks four values of three (theta_none_refuted). Proved: in all other cases the surface, spectrum, fit, 2D fit and exception are the same whatever the object held (run_again_partial).",
 "C225": "The weighted least-squares solver is universally quantified over those that return a best line for positive weights; solver_exists shows one.",
 "C226": "REFUTED by the code: the distances are multiplied by the spacing of the lags of the 1D spectrum, i.e. the bin width, instead of the spacing of the lags. With five lags and limits 0.9 to 2 the lag 1 is left out and the lag sqrt 8 used (limits_refuted). Proved: the exact rule for an odd number of evenly spaced lags and default bins; the factor lies strictly between 0 and 1 (rule_partial). Missing: an even number of lags.",
 "C227": "REFUTED by the code for maps that are not square (the mask uses pixels, the fit frequencies) and for even sizes (one row apart). Proved for odd square maps, for the power spectra and the SCF.",
 "C228": "image without beam correction or apodization (the arrays of the beam division are C58's); NaN in the image are zeros by C218",
 "C229": "fits without a break; a fit with a break is C47-C50, C91-C97",
 "C23": "Eigenvalues are taken as given (np.linalg.eigh is an oracle).",
 "C230": "fits without a break; the 2D fit of the scaled image depends on the solver and is not covered",
 "C232": "REFUTED by the code: compute_radial_pspec keeps the azimuthal mask of an earlier call, which fit_2Dpspec with use_azimmask=True then applies to a spectrum without azimuthal limits; theta_0=None written out raises ValueError because three values are unpacked into four. What holds: all other results of a run are independent of the history of the object (the error of the break after a rejected break is C98).",
 "C236": "REFUTED by the code for three options: fit_unbinned inside fit_kwargs is deleted from the caller's dictionary and ignored (PowerSpectrum, VCA) or raises TypeError (MVC); limits inside fit_2D_kwargs raise TypeError; threads never reaches pyfftw. All other options reach their step.",
 "C237": "REFUTED by the code: a break given as one Quantity raises TypeError in all constructors; PSpec_Distance passes pspec_kwargs to run itself, so radial options in it raise TypeError; VCA_Distance uses the first dictionary for both cubes. Proved otherwise.",
 "C238": "REFUTED by the code for the channel width, which is not compared.",
 "C239": "REFUTED by the code: breaks inside fit_kwargs of VCS_Distance raises TypeError, since breaks is always given too; misspelt options are accepted and ignored. All fit options reach the fit.",
 "C240": "REFUTED by the code for the highest frequency, index n // 2, which is never fitted. All others within the limits are, and no more. The spline itself is not modelled.",
 "C241": "REFUTED by the code: with different numbers of pixels the rows of the larger cube are drawn one after the other by one stream of random numbers, so the order of its channels changes the distance (C241_channel_order_refuted). Proved: channel order for equal numbers of pixels and for the cube with fewer pixels, and all the rest of the claim. The norm and the draws are abstract.",
 "C242": "REFUTED by the code: _format_data never passes normalize to intensity_data, which always divides by the maximum of the cube, so a cube and a brighter copy are at distance 0 (C242_brighter_copy_refuted).",
 "C243": "REFUTED by the code for the random state: np.random.seed(13024) replaces the global random state of the caller whenever the sizes differ (C243_random_state_refuted). Sampling and reproducibility are proved.",
 "C244": "Definedness is stated without normalisation, weights and fit; the other laws for all options. The lognormal fit is an abstract function of the data.",
 "C245": "REFUTED by the code for the standardisation announced in distance_metric: with the default normalization_type=None nothing is standardised and a much brighter copy of an image is at KS distance 1 (C245_standardized_refuted). Independence of units is proved.",
 "C246": "REFUTED by the code for strings built at run time: the names are compared with 'is', so an equal string that is another object raises TypeError (C246_built_refuted). Proved for the interned literals.",
 "C247": "REFUTED by the code: nbins is the number of edges, so the PDFs have k - 1 bins (C247_bins_refuted).",
 "C248": "REFUTED by the code: the size of the surface is fixed when the object is made. With fewer lags the new surface keeps the old size and is zero where there is no lag; with more lags compute_surface raises IndexError. Proved for as many lags as before.",
 "C249": "REFUTED by the code: the names are compared with 'is'. A run-time string equal to 'cut' or 'continuous' passes the first test and then raises UnboundLocalError, so does an element of an array given to SCF_Distance; a run-time data_format raises NameError. Proved for literals and for unknown names.",
 "C25": "REFUTED by the code: the sum is divided by float(n_eigs), which is negative, so the result is minus the mean. For positive n_eigs it is the mean.",
 "C250": "",
 "C251": "REFUTED by the code: objects on one grid that have not been run fail with ValueError unless they have as many lags as the size argument; an object first and a cube second on one grid raises AttributeError; objects on different grids with another number of lags than the size argument are compared at different angles; a recomputed object keeps its old fits. Proved: objects that have been run on one grid give the distance of their cubes; with the asked number of lags different grids end with common angles. The same object given twice is not modelled.",
 "C252": "REFUTED by the code: compute_pca stores cov_matrix before it checks n_eigs, so a refused call (e.g. n_eigs=0) leaves the covariance matrix of the refused call beside the eigenvalues of the old one (C252_covariance_refuted); the setter of n_eigs, which PCA_Distance uses, leaves var_proportion at the old number of components (C252_proportion_refuted). Proved for every history: eigenvalues, eigenvectors, mean subtraction and total variance are of one decomposition, n_eigs >= 1 and the proportion is that of some number of components up to the number of channels (C252_one_decomposition_partial); every successful compute_pca leaves a consistent set and every refused one keeps it (C252_computed).",
 "C253": "REFUTED by the code: a full run with one component always raises (eigimages returns a 2D array then), after the decomposition and with the widths and fit of an earlier run left (C253_single_refuted); run(decomp_only=True) replaces the decomposition and leaves the widths and the index of the earlier one (C253_stale_refuted). Proved: run's outcome and results do not depend on the history (C253_fresh); a successful full run has at least two components, as many widths as components, and the fit of exactly these widths (C253_widths).",
 "C254": "The width estimates that use the beam are oracles here; C21-C28 and C203 are about them.",
 "C255": "REFUTED by the code: for objects whose eigenvalues were computed with another mean subtraction, mean_sub only chooses which eigenvalues are compared, so two cubes at distance sqrt(1/2) have objects at distance 0 (C255_mean_sub_refuted); n_eigs of the object is set before the check and stays when the call is refused, after which its widths cannot be found (C255_changed_refuted). Proved for objects decomposed with the same mean subtraction and fewer components than channels (C255_matching_partial).",
 "C256": "REFUTED by the code: setting lags keeps the curve of the old lags, and a fit pairs it with the new ones (C256_lags_refuted) or, for another number of lags, is refused after its range was recorded (C256_number_refuted); an unknown boundary is refused after the curve was replaced by uninitialised memory (C256_boundary_refuted); a break outside the limits is refused after the new fit_range was recorded beside the old slope (C256_range_refuted). Proved: a run does not depend on the history (C256_run); as long as lags are not set again and boundaries are known, the curve is that of the lags (C256_curve_partial). brk_err is the exception in C256_run when there is no break (C98).",
 "C257": "REFUTED by the code: both properties read an attribute that no method sets, so they raise AttributeError after every history (C257_arrays_refuted). The private list has one array per lag after one call, but a second call appends to it (C257_kept_partial).",
 "C258": "REFUTED by the code: lags given as angles are multiplied by the ratio of the pixel sizes too, so the map with the smaller pixels is used at larger angles (C258_angles_refuted); a list of lags raises TypeError if the second map has the smaller pixels and is accepted if the first has (C258_list_refuted); limits in pixels select different angles of the two maps, so two maps with the same curve have a positive distance or ValueError (C258_limits_refuted). Proved for lags in pixels and the default lags (C258_pixels, C258_default); which values are compared, for positive curves (C258_limits_partial). With default limits on different grids the curve distance is blank (C87).",
 "C259": "REFUTED by the code: Wavelet.run takes any name and does nothing with it (C259_swallowed_refuted); fit_kwargs of both takes any name, and no fit uses it when there is no break (C259_fit_option_refuted); with a break the covariance type is HC3 whatever fit_kwargs says (C259_cov_type_refuted); the segmented fit of Wavelet is verbose although verbose=False (C259_quiet_refuted); options of convolve_fft that Wavelet sets itself raise TypeError in convolve_kwargs (C259_convolve_refuted); threads and pyfftw_kwargs change nothing in the convolutions (C259_threads_refuted). Proved: all other options reach transform and fit (C259_reach_partial), documented calls are accepted and change no dictionary (C259_accepted_partial), the segmented fit is made exactly when a break is given, with its options (C259_break_partial), DeltaVariance.run refuses unknown names (C259_misspelt_partial). Errors that depend on the data are in C256-C258.",
 "C260": "REFUTED by the code: a second object that has the common lags but no fit is run with delvar_kwargs instead of delvar2_kwargs (C260_second_refuted); an object and data cannot be mixed (C260_mixed_refuted); use_common_lags=False always raises UnboundLocalError (C260_own_lags_refuted). Proved otherwise, for both distances (C260_delta_partial, C260_wavelet_partial), with documented options accepted; limits given twice raise TypeError (C260_wavelet_limits_partial).",
 "C261": "REFUTED by the code: the sampler of bayes_linear has no probability outside angles of 0 to 90 degrees, so index and its range are never negative (C261_decreasing_refuted). The ranges themselves are proved (C261_odr, C261_bayes); what scipy.odr and emcee find is not modelled.",
 "C262": "REFUTED by the code: StatMoments takes weights of another size (C262_moments_size_refuted), which fail only when moments are computed. Proved otherwise. The size of an array stands for its shape.",
 "C263": "REFUTED by the code: of an even number of lags the last one is dropped, and the Warning is only constructed, never issued (scf.py:73-76; the same for an even size, as documented), so lags symmetric about zero become asymmetric; a list of lags raises AttributeError (roll_lags.size) before the TypeError meant for it is reached. Proved: the lags by size, and odd numbers of lags as arrays, Quantities and angles.",
 "C264": "REFUTED by the code: compute_surface assigns an array of zeros to the object before the loop (scf.py:168); when the loop raises (lags beyond the image with boundary='cut', or more lags than size) the surface stays behind and compute_spectrum takes it for computed. Proved: the loop as a whole equals the surface at all lags, it raises exactly when that is not defined, and a wrong boundary name leaves the object alone.",
 "C265": "REFUTED by the code: a run that raises in fit_numfeat (too few points) leaves the tail slope and fitted points of the run before beside its own numbers of features, and the distance goes on using them; thresholds set after compute_dendro are paired with the old numbers if there are as many (IndexError else); make_hists=False keeps old histograms. Proved: runs that raise nothing are independent of the history.",
 "C266": "Proved for positive, distinct thresholds and any least-squares solver (no overdetermination assumed beyond the two points the code asks for); the error of the slope is not constrained.",
 "C267": "REFUTED by the code: Lm_Seg moves the break by twice the step (h_step is 2), which on an exact broken line mirrors it at the true break at every turn, so the fit returns the start or its mirror image B*B/B0 and never B itself (C267_break_refuted). Proved: the two slopes and the amplitude are right for binned (weighted or not) and unbinned fits when start and mirror image lie in the gap of the break, with statsmodels as any least squares solver (one is built and proved), and breaks given as log10 mean the same. Missing: starts in another gap.",
 "C268": "REFUTED by the code: as C267, the break returned is the start or its mirror image (C268_break_refuted). Proved: the slopes of a run without limits when the start and its mirror image lie in the gap of the break and three lags lie below. Missing: xlow and xhigh, starts in another gap.",
 "C269": "REFUTED by the code: the bicoherence is set to zeros before the sampling loop, so a run that raises IndexError (rectangular images, C61) leaves a bicoherence of zeros beside the log amplitudes of the run before (C269_failed_refuted). Proved: a run that succeeds gives the sums over its own draws and forgets every earlier run. numpy's generator is an arbitrary function of seed, nsamples and the number of the cell.",
 "C27": "Width fully proved. REFUTED part: the caller's vector is normalised in place.",
 "C270": "REFUTED by the code: an object whose run raised has a _bicoherence of zeros and is used without a word (C270_failed_refuted). Proved: the distances are the norm and the difference of means for finite surfaces, data and objects run with the same options give the same.",
 "C271": "REFUTED by the code: a list with one width for each radius is turned into a 2D array and refused (or taken as one width per column); the widths of a single radius are dropped after the first; a radius asked for twice keeps the later slice only; angles without a unit raise AttributeError instead of TypeError. Proved: slices of several radii or angles are those of each alone, in any angular unit, and wrong lengths and units are refused. Missing: slices of the complex bispectrum, return_masks.",
 "C272": "REFUTED by the code: smoothed_images of an earlier run stay when a later run keeps none, the curves stay when new radii are set (C272_images_refuted, C272_radii_refuted), and a run that raises leaves uninitialised memory as genus_stats and means (C272_failed_refuted). Proved: results after every run that returns (C272_curves_partial) and independence of the history (C272_history_partial).",
 "C273": "REFUTED by the code: the two Genus objects get no header, so angular radii, beams and areas always raise (C273_header_refuted); a list of radii, the documented type, is refused (C273_list_refuted); only the first radius counts (C273_radii_refuted). numpts is C119. Proved: the other sentences. Images without units; the spline and the convolution are arguments.",
 "C274": "REFUTED by the code: compute_spatial_distrib allocates the maps with np.empty before it looks at the radius, so a refused radius leaves arbitrary memory as maps (C274_failed_refuted); new maps leave the histograms of the old ones in place (C274_stale_refuted); run does not hand its min_frac on (C274_run_partial, see C125). What holds is proved for all histories.",
 "C275": "REFUTED by the code: an image without a valid region is at distance 0 from any image, and NaN in the other order (C275_order_refuted, C275_zero_refuted); an object whose maps were made with other boundaries, another share or a radius less than a pixel off is used as it is (C275_options_refuted). The bound of the Hellinger distance is the square root of the bin width, not one, because its bin width factor stands outside the root. Infinite moments do not occur: the hypotheses ask for pixels that are numbers or blank and for positive weights.",
 "C276": "REFUTED by the code: new scales leave the values of the old ones, and a fit then gives a slope of neither (C276_scales_refuted) or raises IndexError (C276_number_refuted); a refused break leaves the new range beside the old fit (C276_range_refuted); limits that leave a single scale raise after the break was set to None, beside the old slopes (C276_single_refuted). What a run gives is proved for all histories.",
 "C277": "REFUTED by the code: the break of an exact broken power law is not found, a fit started beside it returns the start or its mirror image (C277_break_refuted, as in C267 and C268); its two slopes are found (C277_broken_partial, whose case is an object with given values). Everything else is proved for fits without a break. A distance of an image to itself is 0/0 = NaN when the errors of both slopes are zero.",
 "C278": "REFUTED by the code: a fit that raises after the search over the breaks of the spline (none of two or more breaks good) has already replaced the fit and the limits, so brk, low_cut and high_cut are of another fit than slope (C278_failed_refuted; slopes and spectrum are kept: C278_failed_partial); with log_break=False and no breaks the breaks of the spline, which are logarithms already and negative, are logged once more, so every fit raises (C278_unlogged_refuted). Proved in full: what a fit that returns shows, after any history (C278_fit), and that a run forgets the history (C278_history). The spline (its knots), statsmodels and the bootstrap are arbitrary functions.",
 "C279": "REFUTED by the code: the break of an exact broken power law is not found, the search ends at the start or at its mirror image (C279_break_refuted), and a plain power law is refused with ValueError when the spline has two breaks or more, although the code says it continues without a break (C279_search_refuted). Proved: the slopes of the broken law, and the slope of the plain one with a given break (in exact arithmetic, where the step of the break is 0/0 and the break is dropped).",
 "C28": "REFUTED by the code: sqrt((y-t)^2+(x-t)^2) grows again below the beam contribution t. Monotone at and above t.",
 "C280": "REFUTED by the code: fit_kwargs reach only the first straight fit of Lm_Seg.fit_model, of which only the residuals are used; the fits that give the errors are made by fit(), so the errors are the nonrobust ones whatever is asked.",
 "C281": "REFUTED by the code: new lags do not clear the parameters, so the table shows the old fits beside the new lags (C281_stale_refuted); fit_tsallis after more lags were assigned returns with rows of uninitialised memory (C281_memory_refuted); a fit that raises at the first lag leaves a table of uninitialised memory in place of the earlier one (C281_failed_refuted). Proved: what a run leaves after any history (C281_run, C281_history, C281_lags, C281_fewer), and that without new lags and without exceptions every table belongs to the lags (C281_tables_partial).",
 "C282": "REFUTED by the code: make_pdf with new bins leaves the ECDF at the old bins (C282_ecdf_refuted), and refused bins are stored all the same, so that the bins no longer belong to the PDF and later calls without bins raise (C282_refused_refuted). Proved: percentiles after any history (C282_percentile), runs leave PDF, bins and ECDF that belong together (C282_run), and with given bins the past does not matter (C282_history).",
 "C283": "REFUTED by the code: with loc and scale both fixed the fit raises UnboundLocalError (C283_both_refuted); a fit that raises has already replaced what is fixed, so the curve of the earlier fit is drawn with a shape as its location (C283_failed_refuted); over the ECDF of data that were not normalised the curve is drawn with loc=0 whatever was fitted (C283_ecdf_refuted); a chain stays after a later maximum likelihood fit and is what corner and trace plots show (C283_chain_refuted). Proved: what a fit that returns leaves (C283_fit) and that the curve over the PDF is the fitted model (C283_curve).",
 "C285": "Proved: history independence, and which cube, level, axis and maps each shown value comes from. REFUTED by the code: a mask applied between make_moments and make_moment_errors leaves unmasked maps beside masked errors and the masked cube; along a spatial axis make_moment_errors always raises UnitConversionError and leaves a new zeroth moment error beside old others; the line width is always that of the spectral axis. moment_masking (which reads an undefined name) is not modelled.",
 "C286": "Proved for walk-down (all), for interpolate when the curve passes 1/e before the largest lag of an even number of channels, and for the fit of a sampled Gaussian with an even number of channels. REFUTED by the code: with an odd number of channels interpolate and fit raise IndexError (no strict minimum); in the step to the largest lag interpolate takes that lag as negative and returns a width that is too small or negative. The fitter is any that returns best fits.",
 "C287": "REFUTED by the code: fit_2D_gaussian holds the amplitude at the maximum of the image, so for a Gaussian on a positive constant no parameters reproduce the image. Proved: without a constant a best fit has the right width, for any angle; a fit without covariance matrix keeps its width and loses its error; brightness does not matter for interpolate and contour.",
 "C288": "REFUTED by the code: the knots are every dz-th of the sorted values with dz = number of pixels // 100, so images of less than 200 pixels are refused, and so are images with enough equal values, among them every circular Gaussian in a square of less than 30 pixels; the elliptical radius multiplies by the aspect ratio where it should divide. Rests on FITPACK's conditions on knots (at most as many coefficients as points, increasing interior knots), stated in Spec/WidthImages.v. Proved: for circular Gaussians both methods agree.",
 "C289": "REFUTED by the code: spectral widths measured with method='interpolate' and sizes measured with 'interpolate' or 'xinterpolate' have errors 0, so all weights of that axis are infinite (or blank) and no line has a finite misfit (C289_interpolate_refuted, C289_interpolated_sizes_refuted). Proved for positive errors: the exact law, units, a common factor of the errors, exchanged axes. scipy's regression is abstract: it finds a best line when some line passes through all points (finds_exact, with a witness); best lines are the minima of the weighted sum of squares over lines and displacements.",
 "C29": "The convolution (astropy convolve_fft) is an arbitrary linear operator given by its kernel matrices. Background invariance is for the default weights, see C86.",
 "C290": "REFUTED by the code: the probability has a further term for the errors across the line, so with unequal errors a line that misses all points can be more probable than the one through them (C290_exact_refuted), and the prior leaves out all falling lines (C290_falling_refuted). Proved: the common misfit term, and the same order of lines when all errors are equal.",
 "C291": "REFUTED by the code: with the same dictionary for both keywords (even an empty one) both data sets are drawn blue with the label '1', because the defaults of the first are written into the dictionary before those of the second; and 'symbol' is not used by SCF_Distance and PDF_Distance, which look for 'marker'. Proved for every statistic and after every program of comparisons when the dictionaries differ (C291_styles_partial).",
 "C292": "REFUTED by the code: the defaults are written into the caller's dictionary, and all plots but those of SCF, moments and PDFs delete its 'xunit'. Proved unchanged: dictionaries that set everything the plot uses and no xunit, any dictionary when verbose is not set, and dictionaries that are not given to a plot, through any program.",
 "C293": "REFUTED by the code: SCF_Distance and PDF_Distance write 'marker' into the dictionary, after which plot_fit of the power spectra, VCS, delta variance and wavelets raises TypeError; a dictionary first used for data set 1 keeps its colour and label when used for data set 2. Proved for every other sequence of comparisons that uses the dictionary for the same data set.",
 "C294": "REFUTED by the code: the size is taken from the first column of the whole header, so for a cube whose header has the spectral axis first it is the width of a channel (the test of square pixels looks at the celestial axes and accepts). Proved with the celestial axes first: square pixels at any angle give their side, every accepted header gives the area of the pixel to three parts in 100000, oblong pixels are refused, and common_scale is the ratio of the sides.",
 "C295": "REFUTED by the code: the data are squeezed before their first axis is counted, so for a cube of one channel the number of channels is its number of rows. Proved: the spectral size at every position and direction of the axis, the number of channels of all other cubes, and that PCA is never built without a velocity axis or from a refused header.",
 "C296": "REFUTED by the code: PowerSpectrum.run, VCA.run and MVC.run close a second figure after saving, which is one of the caller's (C296_second_close_refuted). plot_fit draws into the current figure, so a figure the caller has open is drawn over, appears in the file and is closed (C296_drawn_over_refuted); a plot that was shown appears in the next file where show() keeps figures (C296_shown_refuted); and if the open figure has one axes only the call raises UnboundLocalError (C296_one_axis_refuted). Proved: without open figures the file shows the plot and nothing else, and plots that make their own figure leave the others as they were.",
 "C297": "REFUTED by the code: the comparisons of power spectra, VCA, MVC, wavelets and the delta-variance pick up the figure of the first plot after plt.show(); where show() leaves no figure open (windows that block, notebooks) they raise IndexError and save nothing (C297_closing_refuted), and VCS_Distance saves an empty figure (C297_empty_refuted). Proved: where figures stay, both data sets are in the file.",
 "C298": "REFUTED by the code: a save_name without an extension, which every other plot accepts, raises ValueError from matplotlib because the empty extension is replaced (C298_bare_refuted). Proved: for all names with an extension matplotlib knows the two files are different, next to each other and in that format, and different names give different files.",
 "C299": "REFUTED by the code: the power-spectrum plot evaluates the fit, made with frequencies per pixel, at frequencies in the unit of the axis, so that the line lies beside the data by slope times log10 of the factor (C299_line_refuted); the plot of a fit with a break raises ValueError since the two-column matrix does not fit its four parameters (C299_break_refuted); the residuals of the delta-variance are wrong in every unit but pixels (C299_delvar_refuted). Proved: the wavelet, SCF and VCS plots agree with the law in every unit, the delta-variance line and the power-spectrum residuals are right in every unit. Error bars and limits of axes are not modelled; straight laws, except for the wavelet transform.",
 "C30": "Curves at the same lags and fit range; curves holding infinite values are excluded.",
 "C300": "REFUTED by the code: the bars are placed at 1..PCA.n_eigs but the heights are the first n_eigs of the argument, so any number other than the one in use raises ValueError, and n_eigs=1 repeats the first eigenvalue (C300_number_refuted). Proved: the widths, the line and the residuals in all units, and the bars without the argument. Widths that are blank are left out.",
 "C301": "REFUTED by the code: for a single lag plt.subplots gives no array and Tsallis.plot_fit raises TypeError (C301_one_lag_refuted). Proved: all of Genus, and Tsallis for two or more lags.",
 "C302": "REFUTED by the code: a histogram with one bin, which one to three structures give, raises IndexError (C302_one_bin_refuted), and bins of different widths are drawn with the width of the first (C302_uneven_refuted). Proved: the default bins with at least four structures.",
 "C303": "REFUTED by the code: with blanks, PCA depends on the order, since var_cov_cube replaces blanks by finfo.eps in the first of two channels only, so the covariance of two channels depends on which comes first (C303_blanks_refuted). VCA and SCF are proved for every cube, PCA without blanks.",
 "C304": "VCS over its whole 1D power spectrum, including the count of good spectra; PCA over the covariance matrix that is decomposed.",
 "C305": "Binned spectra without azimuthal limits; the unbinned and two-dimensional fits see the points in another order or direction and are not part of the claim.",
 "C31": "REFUTED by the code for lags and scales: the whole part of the lag is compared with half the side, so 32.9 is accepted for a 64 pixel map. Exact for radii and smoothing radii; rejected assignments keep the old value in all five, for every history.",
 "C311": "REFUTED by the code: the lines that define signal_id_flag are comments, so every call raises NameError (C311_masking_refuted). Proved for the body of the function with the name defined.",
 "C312": "REFUTED by the code: the third wave vector is truncated on its own and need not be the sum of the other two, so the position of the centre of the turn leaves a phase and the bicoherence of a turned point source drops below 1 (C312_half_turn_refuted). Proved for turns about the first pixel with joined edges (C312_about_first, all cells) and for cells of closed triangles.",
 "C313": "REFUTED by the code: pixels outside the image at which both kernels still collect more weight than the cutoff receive a convolved value and count in the variance, so one pixel without weight next to the image changes the result (C313_near_refuted, kernels of three neighbouring pixels). Proved (C313_far_partial): where outside the image one of the two kernels collects no more than the cutoff, the surroundings have no effect whatever their values and size.",
 "C314": "REFUTED by the code: the value is the mean over all positive coefficients, those at the blank pixels around the image included, so a column of blank pixels beside a bright pixel changes it (C314_near_refuted). Proved: the coefficients at the pixels of the image are the same in every frame (C314_coefficients_partial), and so are the values if no pixel around has a positive coefficient (C314_value_partial), as for images without negative pixels whose positive ones are sqrt(2) scales away from the surroundings (C314_margin_partial).",
 "C315": "REFUTED by the code: a pair of a spectrum and a blank one has the difference 0 and the power of the one, so it counts as a pair of equal spectra and raises the correlation (C315_blank_refuted). Proved: the value is that of the cube's own pairs together with the pairs of each spectrum near the edge and a blank one (C315_pairs_partial), so the surface is the same in all surroundings with room for the lags (C315_surroundings_partial), never less than the value of the own pairs (C315_not_less_partial), for cubes without blanks by exactly the factor sqrt(m/(2N-m)) in the difference from 1, with m of N pixels having a partner (C315_factor_partial), and unchanged at lag zero (C315_zero_lag_partial).",
 "C317": "REFUTED by the code: without weights blank pixels are given weight one, so the sums are divided by the number of all pixels and the moments shrink with the surroundings; with weights that are blank there as well, the moments of the whole, the maps and their histograms are those of the image alone (proved).",
 "C318": "REFUTED by the code: the transform also runs over the sky, whose sum of powers has one factor for every pixel of the field, but only the pixels with emission are divided out; the spectrum grows by the ratio of the areas at every frequency (exact law proved), so its shape is that of the cube alone (proved).",
 "C319": "REFUTED by the code: on the diagonal a blank pixel is one of the value eps and is counted, off the diagonal it is left out, so the variances are diluted against the covariances and the matrix can have a negative eigenvalue; covariances of different channels are those of the cube, and the dilution is given exactly (proved).",
 "C32": "For the continuous kernels, before astropy samples and normalises them on pixels; the plane integral is taken in polar coordinates.",
 "C322": "REFUTED by the code: a fifth of all pixels of a channel is kept, and blank pixels count among all, so cubes with the same brightest fifth differ once both are placed in a larger blank field; the longer rows start with the shorter ones, and the distance stays where the number kept does not change or where all pixels above the noise are kept (proved).",
 "C325": "REFUTED by the code: blank pixels of the maps are set to zero before the mean of the squared velocities is taken over all pixels, so this mean, and with it the spectrum, falls with the number of blank pixels around the emission. Proved: the transforms are those of the maps alone and the field enters only as the number of pixels of that mean.",
 "C326": "REFUTED by the code: after a fit with the sampler the bounds are computed from the sound speed with its unit, so their unit is a power of the pixel that depends on the exponent: in pixels they carry that unit, and in any angular or physical unit sonic_length raises UnitConversionError. Proved: after the fit by orthogonal distances the length and bounds are converted, and unknown units are refused.",
 "C33": "With smoothing the theorem assumes that the smoothing commutes with the sign of the image, as any linear convolution does.",
 "C35": "REFUTED by the code: the product of the two full widths is divided by sqrt(8 ln 2) instead of 8 ln 2, so the minimum size is 2.35 times the beam area.",
 "C36": "REFUTED by the code for constant images (skewness 0, kurtosis -3, since 0/0 is ignored by nansum). Everything else is proved.",
 "C37": "REFUTED by the code: default weights are 1 at blanks, so that the mean is scaled by the valid share. Proved when blanks have blank weights; the bias of the mean is proved exactly.",
 "C39": "REFUTED by the code for the last clause: the ECDF is evaluated at bin centres. All other clauses are proved.",
 "C40": "REFUTED by the code: the bin centres are stored as bins and used as edges next time. Proved for explicit bins.",
 "C41": "Zeroth moment: equal wherever a channel is included; first and second along the spectral axis: equal everywhere for a finite noise level or a noise cube. REFUTED by the code at pixels without an included channel (NaN slice-wise, 0 cube-wise), along spatial axes for centroids given in units of the spectral axis (cube-wise raises ValueError; for the centroids of spectral-cube, in angular units, both raise, C285), and for the line width when spectral-cube proposes rays (ValueError).",
 "C42": "Units are not modelled.",
 "C45": "REFUTED by the code for MVC, whose override keeps _data. Proved for every other statistic (base class). load_results needs the name with .pkl.",
 "C46": "REFUTED by the code for (array, header) pairs, which are returned uncopied with need_copy. Everything else is proved.",
 "C47": "Stopping, halvings and outcome proved for every solver; the classification of the outcome assumes the solver returns as many values as columns.",
 "C48": "Slopes proved. Continuity REFUTED by the code: the right line passes through the left one at the nearest given point, not at the break; they meet if the break is one of the points.",
 "C49": "clip_func proved. REFUTED by the code for a plain number as limit, which raises TypeError.",
 "C50": "REFUTED by the code: np.random.choice(size - 1) never draws the last residual.",
 "C51": "All windows of the file (any alpha, beta); window_at is the value at one pixel.",
 "C52": "Model value as a float; ellipticity 1 is the infinite transformed parameter that fix_ellip_params uses.",
 "C53": "Full.",
 "C54": "Full.",
 "C55": "Hermitian for even and odd sizes; the image is the inverse transform for even sizes.",
 "C56": "REFUTED by the code for odd sizes: the last axis has N-1 points. Even sizes and the root mean square (|amp|, amp nonzero, N at least 4) are proved.",
 "C59": "Proved: equal channels, minimality, ValueError cases. REFUTED by the code for a range of at most one channel with return_hdu=True (IndexError).",
 "C60": "Proved for every shape and every draw for which a result is returned; C60_fitting_shapes says when it always is, C61 treats the other shapes.",
 "C61": "Proved for exactly the shapes with ny//2+nx//2 <= min(ny,nx)+1, in particular square images. REFUTED by the code for all other shapes, e.g. 32x64: some draws raise IndexError.",
 "C63": "For w^2 > 0; strictly decreasing in |x|.",
 "C64": "REFUTED by the code: clip_to_sigma masks on the log-histogram values y, not on x; a point beyond 1 sigma is used with sigma_clip=1, and the default sigma_clip=5 drops nothing for images below 10^5 pixels. Proved: exactly the points with finite |y| < s are used.",
 "C65": "REFUTED by the code for downsampling: widths below the channel width return the cube unchanged, downsamp_function is ignored. The rest is proved. UnitsError is counted as UnitConversionError; spectral-cube's smoothing, interpolation and downsampling are external.",
 "C66": "REFUTED by the code: blanks are replaced only where all three maps are blank; a pixel blank in the centroid or moment 0 map alone blanks the whole spectrum. The exact rule is proved.",
 "C67": "REFUTED by the code for rows padded with blanks (np.sum instead of np.nansum): the whole row is blank, as in every comparison whose numbers of bins differ.",
 "C68": "The kernel half-size chosen by astropy is any function of the scale.",
 "C69": "Rows proved. REFUTED by the code: channels without signal are kept as rows of zeros; only a cube of maximum zero gives no rows.",
 "C71": "REFUTED by the code when both errors are zero (distance of a slope from itself is NaN); all other cases proved.",
 "C72": "The branch without radio_beam.",
 "C73": "REFUTED by the code: CRPIX1 is taken from the first image axis. Holds for square images.",
 "C74": "REFUTED by the code: make_hists drops the bins keyword after the first histogram, and the comparison fails when only the first min_delta qualifies. The comparison's own histograms do use the requested number of bins.",
 "C75": "REFUTED by the code for DeltaVariance_Distance (mixed inputs raise; use_common_lags=False always raises UnboundLocalError) and SCF_Distance (object then cube raises AttributeError; cube then object with another number of lags compares different lags). The combinations that work are proved. Other Distance classes are not covered here.",
 "C76": "REFUTED by the code: the mask uses unflipped pixel offsets on row-flipped spectra, so the y axis is mirrored. The partial theorem gives the exact relation for odd shapes.",
 "C78": "REFUTED by the code: slice(0, -1) drops the last eigenvalue.",
 "C79": "REFUTED by the code at n_eigs = number of channels (ValueError, after n_eigs of the object was overwritten); equal for fewer components.",
 "C80": "REFUTED by the code: a single eigenimage is two-dimensional and is iterated by rows, so n_eigs=1 always raises IndexError. Holds for two or more.",
 "C82": "REFUTED by the code: blanks of the later channel are replaced by eps and counted. Holds for a channel without blanks against an earlier one.",
 "C83": "REFUTED by the code: subtracting the mean of the Fourier transform zeroes the first pixel of the image. Exact formula proved in C26_images.",
 "C85": "REFUTED by the code: flat indices are divided by the number of rows instead of the row length; right for square maps. np.argpartition's choice is an oracle.",
 "C86": "REFUTED by the code: blanks enter the convolution as zeros with full weight. Holds when the weights vanish on the blanks.",
 "C87": "REFUTED by the code for different pixel sizes: the lags are scaled up past half the map, and the default fit ranges always differ so the curve distance is NaN. Holds on a common grid.",
 "C88": "REFUTED by the code: run() is called without setting the lags, so the object keeps its own.",
 "C89": "REFUTED by the code: x_mean and y_mean are not used.",
 "C90": "REFUTED by the code for lags assigned to a DeltaVariance object: compute_deltavar uses lags.value whatever the unit. Holds for its constructor, for Wavelet and for Tsallis.",
 "C91": "REFUTED by the code: the offset uses the given point nearest to the break.",
 "C92": "REFUTED by the code beyond the highest point: the break is used as change of slope.",
 "C93": "REFUTED by the code: the division by the slope change is missing, and the covariance has the wrong sign.",
 "C94": "REFUTED by the code when x has a blank (comparisons with NaN are false).",
 "C95": "REFUTED by the code: the weights keep their length, so the solver raises ValueError.",
 "C96": "REFUTED by the code for a start (or iterate) at the lowest point: IndexError. No other error occurs.",
 "C97": "REFUTED by the code: residuals are added to the data.",
 "C98": "Slopes and break are consistent after any history. REFUTED by the code for the break error, which is stale or missing when a break was dropped.",
 "C99": "REFUTED by the code for second slope (bootstrap and analytic) and break (bootstrap)."
}
