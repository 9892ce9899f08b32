{
"C01": [
"proved",
"Exact arithmetic for all N >= 1; in double precision for all N up to 2^52, refuted at 2^52+1."
],
"C02": [
"proved",
"Over the reals; the array form and the double precision form beyond 2^53 are refuted."
],
"C03": [
"proved",
"Scalar and array form, all reals; the docstring example with a range raises."
],
"C04": [
"proved",
"Integer arrays; also the complex branch, which returns residues in 0..N-1 or raises."
],
"C05": [
"proved",
"All arithmetic progressions, all decimals >= 0."
],
"C06": [
"proved",
"All sizes; 1-d input always raises IndexError."
],
"C07": [
"proved",
"Settled: holds for every even n_fbins, refuted for odd n_fbins (axis one entry short); the exact odd axis is proved."
],
"C08": [
"proved",
""
],
"C09": [
"proved",
""
],
"C10": [
"proved",
""
],
"C100": [
"proved",
"All chirps, rows and columns; kernel in closed form with its maximum."
],
"C101": [
"proved",
""
],
"C102": [
"proved",
""
],
"C103": [
"proved",
""
],
"C104": [
"proved",
"Settled: refuted as titled; zero set and both closed forms proved."
],
"C105": [
"proved",
""
],
"C106": [
"proved",
""
],
"C107": [
"proved",
"Settled: refuted at the last sample (C107_last, C107_last_refuted); proved everywhere else."
],
"C108": [
"proved",
""
],
"C109": [
"proved",
"Strip characterisation for all images; unique peak for full rows"
],
"C11": [
"proved",
"Every window: the plain formula for 2*lh < n_fbins, the reduced window otherwise; the plain formula refuted for longer windows."
],
"C110": [
"proved",
"Settled: refuted as titled; exact characterisation of equal distributions"
],
"C111": [
"proved",
"Forward and inverse identity, delays and modulations"
],
"C112": [
"proved",
"Windows of any length; C112_smoothing is the special case of windows that are used whole"
],
"C113": [
"proved",
"All eight functions; hermitian symmetry of the DFT of a real column."
],
"C114": [
"proved",
"Settled: refuted as titled; exact criterion, safe cases and a complete failing run proved."
],
"C115": [
"proved",
"Proved below 2^53; refuted beyond."
],
"C116": [
"proved",
"Settled: refuted as titled at multiples of 0.05; exact elsewhere, with the largest possible deviation."
],
"C117": [
"proved",
"Proved; the Wigner-Ville bound is attained by an impulse."
],
"C118": [
"proved",
"Proved."
],
"C119": [
"proved",
"Proved; additivity refuted."
],
"C12": [
"proved",
"Every window."
],
"C120": [
"proved",
"Settled: proved for three representations, refuted for three."
],
"C121": [
"proved",
"Settled: refuted as titled; which arrays each call writes is characterised for all histories, the overwritten values for STFT, Spectrogram (also after plot) and Wigner-Ville, and what runs that raise leave behind."
],
"C122": [
"proved",
"Settled: proved for Wigner-Ville, pseudo Wigner-Ville, STFT, Spectrogram and narrow_band; refuted for Margenau-Hill (exact difference proved) and Page."
],
"C123": [
"proved",
"Settled: refuted as titled for fmpar and fmpower; exact condition of the warning proved for all three."
],
"C124": [
"proved",
"Settled: refuted for loctime; exact outcome for every shape."
],
"C125": [
"proved",
"Spline routine abstract but assumed linear in the ordinates."
],
"C126": [
"proved",
"Settled: refuted as titled; what every entry of the returned array becomes, what is drawn and what is raised are proved for all inputs. What matplotlib's contour does with complex numbers is left open."
],
"C127": [
"proved",
"Settled: refuted as titled for the unilateral kind and for klauder, with the exact condition for the former; proved for the bilateral kind. The model has the range of double precision but no rounding inside it."
],
"C128": [
"proved",
"Settled: modulation proved for all but Page, delay for all but Spectrogram (edges) and Margenau-Hill; the three exceptions refuted with the exact values"
],
"C129": [
"proved",
""
],
"C13": [
"proved",
"Holds for every window, colliding lags included."
],
"C130": [
"proved",
"c130_wvd, c130_determined, c130_pwvd; np.angle is any function with is_angle."
],
"C131": [
"proved",
"Settled: the programs with plot_ names return as stated; those of noplot/ are refuted. Drawing itself is modelled only as far as in C99."
],
"C132": [
"proved",
"All sizes and parameters; the volume test and the two known failures settled as false in general, with the exact condition for the volume."
],
"C133": [
"proved",
""
],
"C134": [
"proved",
"Covariances of locfreq, inst_freq and group_delay; wrap of locfreq refuted."
],
"C135": [
"proved",
"Settled: levels without show_tf refuted as an option; every other option specified."
],
"C136": [
"proved",
"Settled: ax refuted as titled; the keywords and figures of every plot method specified."
],
"C137": [
"proved",
"Scaling theorems hold for every outcome of the call; a negative factor is refuted."
],
"C138": [
"proved",
"c138_count bounds the length; c138_doc and c138_half_open_refuted settle the documented grid, c138_gallery the gallery grid."
],
"C139": [
"proved",
"Exact real arithmetic; the derivative window is the centred difference of derive_window. Columns whose window is cut by the ends of the signal are covered by C36 only."
],
"C14": [
"proved",
"Every window."
],
"C140": [
"proved",
"Exact reals. The program of (e) raises at its first call (C131); the claim is about its lines taken on their own."
],
"C141": [
"proved",
"Roots and grid counts are exact real numbers, the spline is any function that keeps the length; the affine classes on an ordered band are those of C69-C71, C89 (c141_same)."
],
"C142": [
"proved",
"Sines and transforms in real numbers, window lengths and pulse positions in double precision (b64). The claim int(w * 0.001 * 8000 + 1) = 8 w + 1 for every w is settled: refuted (C142_window_refuted), true for the powers of two of the program."
],
"C143": [
"proved",
"Settled: refuted as titled (variance 1, mean 0); exact values proved."
],
"C144": [
"proved",
"The clause about fmconst off the bins is refuted by C144_off_bin_refuted, as the statement says."
],
"C145": [
"proved",
"Theorems in Props_rchirp.v"
],
"C146": [
"proved",
"Theorems in Props_rect.v"
],
"C147": [
"proved",
"Theorems in Props_midw.v"
],
"C148": [
"proved",
"Theorems in Props_ambat.v"
],
"C149": [
"proved",
"Theorems in Props_tonesc.v"
],
"C15": [
"proved",
"Settled: refuted as titled; exact condition for STFT and pseudo Margenau-Hill, refutation for all WVD/PWVD runs, exact second results for Margenau-Hill, Page and Spectrogram with short signals or windows."
],
"C150": [
"proved",
"Settled: refuted as titled; the exact relation is proved in Props_pwag.v"
],
"C151": [
"proved",
""
],
"C152": [
"proved",
""
],
"C153": [
"proved",
"All parts; the chirp and tone cases under the hypotheses of C145 and C139."
],
"C154": [
"proved",
"All parts; samples of the sum that are 0 are the case of C51_silence."
],
"C155": [
"proved",
"Settled: refuted as titled for Page and, by the sample it leaves out, for Margenau-Hill; the exact entries are proved."
],
"C156": [
"proved",
"Settled: refuted as titled (nu = 1/4); the exact entries for all nu are proved."
],
"C157": [
"proved",
"Settled: refuted as titled; the exact column, its support and its sign are proved."
],
"C158": [
"proved",
"Settled: the peak is where the property says; the values are refuted as titled and given exactly."
],
"C159": [
"proved",
"Settled: all laws proved; modulation refuted as titled, with the exact value."
],
"C16": [
"proved",
"Settled: refuted in part; idempotence for WVD and Spectrogram, destruction for STFT, MH, Page. Complex STFT plot with sqmod=False and matplotlib drawing not modelled."
],
"C160": [
"proved",
"Settled: all laws proved; the marginal refuted as titled, with the exact value."
],
"C161": [
"proved",
""
],
"C162": [
"proved",
"Settled: refuted as titled for degrees >= 0; the exact outcome for all degrees and points is proved."
],
"C163": [
"proved",
"The statement with its correction: c163_delay, c163_before, c163_modulation (with the extra phase), c163_modulus, c163_turned (when the phase shows), c163_conj, c163_real; c163_example has the law fail for 1, 1."
],
"C164": [
"proved",
"The statement with its correction: c164_one (all timestamps), c164_zero, c164_negative, c164_irregular, c164_agrees (with the model of C92 from two bins on)."
],
"C165": [
"proved",
"The statement with its correction: c165_nan and c165_raises (exact outcome), c165_quarter, c165_irregular."
],
"C166": [
"proved",
"The statement with its correction: c166_products (inversion), c166_unique, c166_default, c166_covered, c166_refuted (the counterexample), c166_stable."
],
"C167": [
"proved",
"exact complex arithmetic; products, uniqueness in two forms, converse and an example; windows longer than the stated bound are covered by C28 only"
],
"C168": [
"proved",
"exact complex arithmetic; the last sentence is refuted (C168_refuted)"
],
"C169": [
"proved",
"exact complex arithmetic; products, uniqueness in two forms and with the defaults, converse and an example"
],
"C17": [
"proved",
"Settled: never raises for integer timestamps; a zero truncated window gives NaN columns (C17_nan_refuted), float timestamps raise IndexError."
],
"C18": [
"proved",
"Weighted-mean, bounds and unimodular forms proved; total energy conservation is refuted (C18_energy_refuted)."
],
"C19": [
"proved",
""
],
"C20": [
"proved",
"Settled: proved with the part of the window that the spectrogram uses; refuted with the whole of a window longer than the bins."
],
"C21": [
"proved",
"Settled: refuted as titled; the exact success condition is proved for all lengths and bin counts."
],
"C22": [
"proved",
""
],
"C23": [
"proved",
"n_fbins >= 2; the one-bin run returns 0 (C23_one_bin_refuted)."
],
"C24": [
"proved",
"Proved for every n_fbins >= 2 for which run returns."
],
"C25": [
"proved",
""
],
"C26": [
"proved",
"Proved for every n_fbins >= 2 for which run returns."
],
"C27": [
"proved",
""
],
"C28": [
"proved",
"Every window."
],
"C29": [
"proved",
""
],
"C30": [
"proved",
"Settled: refuted as titled at t=0 (column sums to 0); exact column sums proved for every timestamp."
],
"C31": [
"proved",
"Settled: both claims refuted; the exact closed form and column sum are proved."
],
"C32": [
"proved",
"Closed form for every call that returns."
],
"C33": [
"proved",
""
],
"C34": [
"proved",
""
],
"C35": [
"proved",
""
],
"C36": [
"proved",
""
],
"C37": [
"proved",
"Settled: refuted as titled; the exact destination is proved."
],
"C38": [
"proved",
"Settled: true above the window half-length, refuted at the left edge."
],
"C39": [
"proved",
""
],
"C40": [
"proved",
"Settled: refuted as titled; each function raises for every input whatever follows the failing line."
],
"C41": [
"proved",
"Entry formula, vote totals; one row, no row, refused sizes; rho axis label refuted"
],
"C42": [
"proved",
"Scale invariance including effects; flat distributions"
],
"C43": [
"proved",
"Settled: refuted as titled; exact effects, when nothing changes, second call"
],
"C44": [
"proved",
"Marks, labels; NaN handling shown wrong"
],
"C45": [
"proved",
"Exact density; positivity, NaN case"
],
"C46": [
"proved",
"Settled: refuted as titled; exact result"
],
"C47": [
"proved",
"Exact formula for every matrix; trapezoidal identity for uniform x, refutation otherwise"
],
"C48": [
"proved",
"Every entry for every length >= 2"
],
"C49": [
"proved",
"formula, bounds, zero spread, scale, shift"
],
"C50": [
"proved",
"Settled: refuted as titled; exact outcome and formula for every length"
],
"C51": [
"proved",
"outcome, range and exact recovery for every angle function np.angle may return"
],
"C52": [
"proved",
"formula, range, impulse, scale; NaN refutation"
],
"C53": [
"proved",
"Settled: true with two exceptions proved as refutations: amgauss(1) misses its centre (1-based time axis) and spread 0 gives NaN"
],
"C54": [
"proved",
"with the fractional t0 case refuted"
],
"C55": [
"proved",
""
],
"C56": [
"proved",
"Settled: column laws escape the range check and t0=len raises IndexError (refutations)"
],
"C57": [
"proved",
"Settled: true for fmhyp, fmpower, fmsin; refuted for fmpar"
],
"C58": [
"proved",
"Settled: ASK/BPSK true for n_points>=2; refutations: anafsk length, anaqpsk default block length"
],
"C59": [
"proved",
""
],
"C60": [
"proved",
"Settled: refuted as titled for n_points<=2 and for dopnoise length; outcome characterised"
],
"C61": [
"proved",
""
],
"C62": [
"proved",
"Settled: refuted as titled; the exception raised is characterised for every input (control-flow model of lines 46-75)"
],
"C63": [
"proved",
""
],
"C64": [
"proved",
"Settled: klauder has n samples for even n >= 2, n-1 for odd n; altes exactly characterised for all positive bounds in either order and all alpha other than 1"
],
"C65": [
"proved",
""
],
"C66": [
"proved",
"Settled: holds for n >= 3; NaN for n = 1, 2"
],
"C67": [
"proved",
""
],
"C68": [
"proved",
""
],
"C69": [
"proved",
""
],
"C70": [
"proved",
"Settled: refuted as titled; outcome of the constructors characterised"
],
"C71": [
"proved",
""
],
"C72": [
"proved",
"Settled: refuted as titled; the outcome of every call is characterised (C72_outcome), and which default calls return (C72_default)."
],
"C73": [
"proved",
"Settled: refuted as titled; the mislabelling is proved for every signal of even length."
],
"C74": [
"proved",
"Settled: refuted as titled by a concrete run; C74_one_sample_window gives the exact (offset) lag law for every signal and frequency window."
],
"C75": [
"proved",
""
],
"C76": [
"proved",
"Settled: refuted as titled; exact behaviour of the loop proved. The transform computation before the loop is not modelled."
],
"C77": [
"proved",
"Settled: refuted as titled; outcome characterised for every sample count"
],
"C78": [
"proved",
"Settled: refuted as titled; exact law proved"
],
"C79": [
"proved",
"Settled: refuted as titled; exact sweep proved"
],
"C80": [
"proved",
""
],
"C81": [
"proved",
"Settled: value at 0 refuted except bertrand"
],
"C82": [
"proved",
"Settled: refuted as titled; outcomes characterised"
],
"C83": [
"proved",
""
],
"C84": [
"proved",
"Settled: refuted as titled for the unit-scale label (c84_theta_refuted); shapes, axes, default N and raises proved."
],
"C85": [
"proved",
"Settled: refuted as titled for the origin (c85_origin_refuted); entry formula, reference cell, homogeneity, peak at delay 0 proved."
],
"C86": [
"proved",
"Settled: refuted as titled; the band actually computed is characterised."
],
"C87": [
"proved",
"Exact formula of the band from the spectral bins; bracketing; silent signals; degenerate bands shown."
],
"C88": [
"proved",
"Spline left abstract; root finders exact; binary64 rounding not modelled."
],
"C89": [
"proved",
"Settled: refuted as titled; exact condition for TypeError proved."
],
"C90": [
"proved",
"Reconstruction, analysis formula and duality; the small-denominator exception is C90_tiny_refuted."
],
"C91": [
"proved",
"Settled: refuted as titled; default calls never return (c91_default_refuted, c91_float_refuted); outcome of every explicit call, closed form, separability and non-negativity proved."
],
"C92": [
"proved",
"Settled: outcome of every call, closed form, mirror and scaling laws proved; the impulse height refuted (c92_peak_refuted) with the exact height in C92_impulse."
],
"C93": [
"proved",
"Settled: refuted as titled for the halving classes; outcome of every kind and size"
],
"C94": [
"proved",
"Settled: refuted for pseudo Wigner-Ville images and contours; exact positions"
],
"C95": [
"proved",
"Settled: refuted for the row labels; outcome, effect on the array and exact positions"
],
"C96": [
"proved",
"Settled: refuted for the row labels; artists in full"
],
"C97": [
"proved",
"Settled: refuted for the affine classes; values in full"
],
"C98": [
"proved",
"In full"
],
"C99": [
"proved",
"Settled: refuted as titled for plots without show_tf (scale is ignored); exact outcome and exact levels proved; default WVD of N >= 3 samples always drawn."
]
}