{"id": "C01", "title": "divider returns the most balanced factor pair", "statement": "divider(N) returns two positive integers whose product is N, and no other factorisation of N is closer to a square (|a-b| is minimal over all factor pairs of N). With IEEE-754 double precision square roots this must still hold. (In double precision this is true for 1 <= N <= 2**52 and false beyond: divider(2**52+1) returns (2**26, 2**26).)", "quantifier": "every positive integer N", "why_tests_cant": "Ranges over all integers, including ones where the rounded square root is integral although N is not a square.", "anchors": ["tftb/utils.py:divider"]}
{"id": "C02", "title": "nextpow2 gives the least exponent", "statement": "nextpow2(n) returns the least integer k with n <= 2**k, and raises ValueError for n <= 0. (Two limits: the docstring's array argument raises TypeError, and integers above 2**53 are rounded to a double first, so nextpow2(2**53+1) returns 53.)  In double precision (math.log2 correctly rounded) it is exact for every integer 1 <= n <= 2**49, and nextpow2(2**49+1) = 49 is the first wrong value.", "quantifier": "every real n", "why_tests_cant": "All reals; powers of two are boundaries for every k.", "anchors": ["tftb/utils.py:nextpow2"]}
{"id": "C03", "title": "nearest_odd returns an odd integer at distance at most one", "statement": "nearest_odd(x) returns an odd integer r with |r-x| <= 1 (hence a nearest odd integer), and the array form agrees elementwise with the scalar form. (The docstring's own example, nearest_odd(range(1, 11)), raises TypeError.)", "quantifier": "every real x, every array of reals", "why_tests_cant": "All reals, including negative and integral boundary values.", "anchors": ["tftb/utils.py:nearest_odd"]}
{"id": "C04", "title": "modulo is the residue in 1..N", "statement": "modulo(x, N) returns, for each integer element, the unique integer in 1..N congruent to it modulo N, so (modulo(x,N)-1) is always a valid index into an array of length N.", "quantifier": "every integer array x and every N >= 1", "why_tests_cant": "All integers of both signs and all moduli.", "anchors": ["tftb/utils.py:modulo", "tftb/processing/linear.py:gabor"]}
{"id": "C05", "title": "is_linear accepts every arithmetic progression and bounds what it accepts", "statement": "is_linear(x) is True for every arithmetic progression with at least two samples; when it is True any two consecutive differences are within 10**-decimals of each other; for arrays of fewer than two samples it is False.", "quantifier": "every real array and every number of decimals", "why_tests_cant": "All arrays and all rounding boundaries.", "anchors": ["tftb/utils.py:is_linear"]}
{"id": "C06", "title": "izak inverts the discrete Zak transform", "statement": "Applying izak to the Zak matrix that gabor builds from a signal (FFT of the transposed Fortran-order reshape divided by sqrt(m)) returns the signal, and izak preserves energy (sum of squared moduli). (The branch for a 1-d argument always raises IndexError.)", "quantifier": "every complex signal of length nb*m, every nb, m >= 1", "why_tests_cant": "An identity over all complex-valued signals: a test can only compare a few floating-point instances within a tolerance.", "anchors": ["tftb/utils.py:izak", "tftb/processing/linear.py:gabor"]}
{"id": "C07", "title": "Frequency axis matches the number of frequency bins", "statement": "The freqs attribute/returned axis of a representation has one entry per row of tfr, entry k being k/n for the first half and (k-n)/n for the second half. (True for even n_fbins; for odd n_fbins the axis is one entry short and every second-half label is shifted.)", "quantifier": "every n_fbins >= 1", "why_tests_cant": "Parity-dependent behaviour over all sizes.", "anchors": ["tftb/processing/base.py:BaseTFRepresentation.__init__"]}
{"id": "C08", "title": "Default windows are odd-length, symmetric, positive and have unit centre", "statement": "When no window is given, the Hamming window built by a representation has odd length, is symmetric, every entry lies in [0.08, 1] and its centre sample is 1, so it is accepted by every routine that demands odd length.", "quantifier": "every n_fbins >= 1", "why_tests_cant": "All sizes; lengths are rounded to odd by parity tricks.", "anchors": ["tftb/processing/base.py:BaseTFRepresentation._make_window", "tftb/processing/cohen.py:PseudoMargenauHillDistribution._make_window"]}
{"id": "C09", "title": "ShortTimeFourierTransform.run never fails and has the documented shape", "statement": "On a fresh object run() returns without exception a matrix with n_fbins rows and one column per timestamp, whatever the signal, window, number of bins and number of timestamps.", "quantifier": "every signal, non-empty window, n_fbins >= 1, timestamp array of any length (even longer than the signal)", "why_tests_cant": "Index arithmetic (negative wrap-around, modulo, edges) must be in range for all sizes at once.", "anchors": ["tftb/processing/linear.py:ShortTimeFourierTransform.run"]}
{"id": "C10", "title": "STFT is linear in the signal", "statement": "STFT(a*x + b*y) = a*STFT(x) + b*STFT(y) entrywise, for signals of equal length, same window and same bins.", "quantifier": "all signals, all complex a, b, all windows and sizes", "why_tests_cant": "An identity over all complex-valued signals: a test can only compare a few floating-point instances within a tolerance.", "anchors": ["tftb/processing/linear.py:ShortTimeFourierTransform.run"]}
{"id": "C11", "title": "STFT closed form and its time origin", "statement": "Entry (f, c) of the STFT equals sum_k x[k]*conj(w[lh+k-(c-1)])*exp(-2i*pi*f*(k-(c-1))/n): column c is the windowed spectrum around sample c-1 (one sample before the column's own index); in particular column 0 never sees tau=0. (A window longer than the number of bins is cut at half that number, and where two lags of a column fall in the same bin only the later one counts; the formula with the window so reduced holds for every window.)", "quantifier": "all signals, all windows, all rows and columns", "why_tests_cant": "An identity over all complex-valued signals: a test can only compare a few floating-point instances within a tolerance.", "anchors": ["tftb/processing/linear.py:ShortTimeFourierTransform.run"]}
{"id": "C12", "title": "STFT columns obey Parseval and are invertible", "statement": "For every column the sum of |tfr|**2 over frequency equals n_fbins times the energy of the windowed segment, and the mean over frequency of column c is x[c-1]*conj(w[lh]); so every sample except the last can be recovered from the default-timestamp STFT.", "quantifier": "all signals, all windows (with the reduced window of C11), all columns", "why_tests_cant": "An identity over all complex-valued signals: a test can only compare a few floating-point instances within a tolerance.", "anchors": ["tftb/processing/linear.py:ShortTimeFourierTransform.run"]}
{"id": "C13", "title": "STFT modulation covariance", "statement": "Multiplying the signal by exp(2i*pi*m*k/n_fbins) cyclically shifts the rows of the STFT by m, up to a unit phase factor per column (hence shifts |STFT|**2 exactly).", "quantifier": "all signals, windows, n_fbins, integer m", "why_tests_cant": "An identity over all complex-valued signals: a test can only compare a few floating-point instances within a tolerance.", "anchors": ["tftb/processing/linear.py:ShortTimeFourierTransform.run"]}
{"id": "C14", "title": "STFT time-shift covariance", "statement": "Delaying a signal by s samples (prepending s zeros) delays the columns of the STFT by s: column c+s of the delayed signal's STFT equals column c of the original.", "quantifier": "all signals, all windows, all s, all columns", "why_tests_cant": "An identity over all complex-valued signals: a test can only compare a few floating-point instances within a tolerance.", "anchors": ["tftb/processing/linear.py:ShortTimeFourierTransform.run"]}
{"id": "C15", "title": "Calling run() again returns the same representation", "statement": "For a representation object, a second call of run() on the same object returns the same matrix as the first. (False. STFT: the second run always succeeds, and returns the same matrix exactly when the first result is 0 in every bin that is not the residue of a lag of its column, which fails for instance for every one-sample window, two or more bins and a signal with x[0] != 0. WVD and PWVD: whenever the first run succeeds with n >= 2 bins and x[0] != 0 (and, for PWVD, a window with non-zero centre) the second run succeeds and returns a different matrix; column 0 of the WVD goes from the constant |x[0]|^2 to (n|x[0]|^2, 0, ..., 0).) (Pseudo Margenau-Hill: the same criterion as for the STFT; with a one-sample window column c >= 1 goes from the constant w x[c] conj(x[c-1]) to n times it at bin 0 and 0 elsewhere. Margenau-Hill and Page keep a real matrix, into which the second run writes real parts: for two samples the column at timestamp 1 goes from the constant |x[1]|^2 to (n|x[1]|^2, 0, ..., 0); Page of one sample with two bins from (|x|^2, -|x|^2) to (2|x|^2, 0).) (Spectrogram with a one-sample window: the column of a sample x goes from the constant e = |x|^2 to (u + (n-1)e)^2 at bin 0 and (u - e)^2 elsewhere, u being the real part of the sample in the phase of the window; the two agree only if e = 4/n^2 and u = -2(n-2)/n^2.)", "quantifier": "all objects, all histories of run() calls", "why_tests_cant": "A property of call histories: state left in the object by the first call leaks into the second.", "anchors": ["tftb/processing/linear.py:ShortTimeFourierTransform.run", "tftb/processing/cohen.py:WignerVilleDistribution.run"]}
{"id": "C16", "title": "plot() does not destroy the representation", "statement": "After plot() the object's tfr/freqs still describe the computed representation and run() can be called again; plotting twice displays the same data as plotting once. (False in part. STFT.plot keeps half the rows and the squared modulus, so running again raises IndexError for n >= 2, windows of >= 3 samples and >= 3 instants, and a second plot shows the squares of what the first one showed. MargenauHill.plot halves the remaining rows on every call and raises ValueError once none are left. Page.plot always raises TypeError. WVD.plot and Spectrogram.plot are idempotent; WVD.plot loses the signs in the stored matrix; Spectrogram.plot with a positive threshold writes into the array that run() returned, with the default threshold 0 it leaves it as it was.)", "quantifier": "all histories mixing run() and plot()", "why_tests_cant": "A property of call histories, not of single calls.", "anchors": ["tftb/processing/linear.py:ShortTimeFourierTransform.plot", "tftb/processing/cohen.py:WignerVilleDistribution.plot", "tftb/processing/cohen.py:PageRepresentation.plot"]}
{"id": "C17", "title": "Spectrogram is real, non-negative and of the documented shape", "statement": "Spectrogram.run() on a fresh object never raises; every entry is a non-negative real.", "quantifier": "all signals, windows, integer timestamps, n_fbins >= 1", "why_tests_cant": "Infinitely many inputs; a test fixes one length/signal, while the failure modes sit at particular residues, boundaries or coincidences of sizes.", "anchors": ["tftb/processing/cohen.py:Spectrogram.run"]}
{"id": "C18", "title": "Spectrogram columns are weighted energy averages", "statement": "For each timestamp t whose truncated window is not identically zero, the mean over frequency of the spectrogram column is the |w|^2-weighted average of |x|^2 around sample t-1, hence lies between the minimum and the maximum of |x|^2 there; for unimodular signals it is 1. (Total energy conservation for arbitrary signals is false.)", "quantifier": "all signals, windows, timestamps", "why_tests_cant": "An identity over all complex-valued signals: a test can only compare a few floating-point instances within a tolerance.", "anchors": ["tftb/processing/cohen.py:Spectrogram.run"]}
{"id": "C19", "title": "Spectrogram scales quadratically and ignores global phase", "statement": "Spectrogram(c*x) = |c|**2 * Spectrogram(x) for every complex c.", "quantifier": "all signals and complex constants", "why_tests_cant": "An identity over all complex-valued signals: a test can only compare a few floating-point instances within a tolerance.", "anchors": ["tftb/processing/cohen.py:Spectrogram.run"]}
{"id": "C20", "title": "Spectrogram is the squared STFT normalised by the window energy", "statement": "With the same window (half-length at most n_fbins/2-1) and default timestamps, every column of the Spectrogram times the energy of the truncated window equals the squared modulus of the same STFT column. For a window of any length this holds with the STFT taken with the middle of the window, the lags up to min(round(n_fbins/2)-1, (len(w)-1)//2). (False with the whole of a longer window: x = [1,1,1], w = [1,1,1], n_fbins = 2, column 2.)", "quantifier": "all signals and windows", "why_tests_cant": "An identity over all complex-valued signals: a test can only compare a few floating-point instances within a tolerance.", "anchors": ["tftb/processing/cohen.py:Spectrogram.run", "tftb/processing/linear.py:ShortTimeFourierTransform.run"]}
{"id": "C21", "title": "WignerVilleDistribution.run succeeds on every signal", "statement": "run() on a fresh object returns a matrix for every 1-D signal with default parameters. (False: it raises IndexError exactly when some column index lies between round(n/2)+1 and N-round(n/2), in particular for every N = 1 mod 4 with N >= 5, and for all n_fbins < N-1.)", "quantifier": "all signal lengths N, all n_fbins", "why_tests_cant": "Fails only for one residue class modulo 4 (banker's rounding); the test-suite uses N=128.", "anchors": ["tftb/processing/cohen.py:WignerVilleDistribution.run"]}
{"id": "C22", "title": "Wigner-Ville values are intrinsically real", "statement": "The complex matrix before np.real has zero imaginary part, so taking the real part loses nothing.", "quantifier": "all signals, all n_fbins for which run() returns", "why_tests_cant": "An identity over all complex-valued signals: a test can only compare a few floating-point instances within a tolerance.", "anchors": ["tftb/processing/cohen.py:WignerVilleDistribution.run"]}
{"id": "C23", "title": "Wigner-Ville time marginal and energy", "statement": "Summing the distribution over frequency gives n_fbins*|x[t]|**2 for every t; summing everything gives n_fbins times the signal energy.", "quantifier": "all signals, all n_fbins for which run() returns", "why_tests_cant": "An identity over all complex-valued signals: a test can only compare a few floating-point instances within a tolerance.", "anchors": ["tftb/processing/cohen.py:WignerVilleDistribution.run"]}
{"id": "C24", "title": "Wigner-Ville frequency marginal", "statement": "With default n_fbins, summing row k over time gives (|X(k/2n)|^2+|X(k/2n+1/2)|^2)/2 with X the discrete-time Fourier transform: the row labelled freqs[k]=k/(2n) carries the signal spectrum at that frequency plus its half-band alias.", "quantifier": "all signals, all rows", "why_tests_cant": "An identity over all complex-valued signals: a test can only compare a few floating-point instances within a tolerance.", "anchors": ["tftb/processing/cohen.py:WignerVilleDistribution.run"]}
{"id": "C25", "title": "Wigner-Ville preserves time support", "statement": "If the signal vanishes before (after) sample a then so does the distribution.", "quantifier": "all signals and all support bounds", "why_tests_cant": "An identity over all complex-valued signals: a test can only compare a few floating-point instances within a tolerance.", "anchors": ["tftb/processing/cohen.py:WignerVilleDistribution.run"]}
{"id": "C26", "title": "Wigner-Ville Moyal formula", "statement": "With default n_fbins, the inner product of the distributions of x and y equals n_fbins times (|<x,y>_even|^2+|<x,y>_odd|^2), inner products over even- and odd-indexed samples.", "quantifier": "all pairs of signals of equal length", "why_tests_cant": "An identity over all complex-valued signals: a test can only compare a few floating-point instances within a tolerance.", "anchors": ["tftb/processing/cohen.py:WignerVilleDistribution.run"]}
{"id": "C27", "title": "Wigner-Ville covariances", "statement": "Multiplying the signal by exp(i*pi*m*k/n) shifts the rows cyclically by m; multiplying by a constant c scales by |c|^2; W(x+y)+W(x-y)=2W(x)+2W(y). Delaying the signal by s samples (zeros prepended) delays the distribution by s columns.", "quantifier": "all signals and integer m", "why_tests_cant": "An identity over all complex-valued signals: a test can only compare a few floating-point instances within a tolerance.", "anchors": ["tftb/processing/cohen.py:WignerVilleDistribution.run"]}
{"id": "C28", "title": "Pseudo Wigner-Ville: returns, is real, and has a windowed time marginal", "statement": "With a window whose half-length is below round(n_fbins/2), run() never raises and the sum over frequency of column t is n_fbins*w[lh]*|x[t]|^2; with a real symmetric window the FFT is intrinsically real. With longer windows run() raises IndexError as soon as some column satisfies round(n/2)+1 <= t <= N-round(n/2).", "quantifier": "all signals, windows, n_fbins", "why_tests_cant": "Infinitely many inputs; a test fixes one length/signal, while the failure modes sit at particular residues, boundaries or coincidences of sizes.", "anchors": ["tftb/processing/cohen.py:PseudoWignerVilleDistribution.run"]}
{"id": "C29", "title": "Smoothed pseudo Wigner-Ville time marginal", "statement": "For timestamps in 1..N, mean over frequency of each column is the g-weighted average of |x|^2 around sample t-1 (g normalised to sum 1); even-length windows raise ValueError. A column is NaN exactly when, at some lag in use, points lie under the time window and their weights sum to zero.", "quantifier": "all signals, windows, timestamps", "why_tests_cant": "An identity over all complex-valued signals: a test can only compare a few floating-point instances within a tolerance.", "anchors": ["tftb/processing/cohen.py:smoothed_pseudo_wigner_ville"]}
{"id": "C30", "title": "Margenau-Hill marginals", "statement": "Sum over frequency of the Margenau-Hill column at time t is n_fbins*|x[t]|^2 for every t. (True for t >= 1, false for t=0 where the code never writes lag 0; sample 0 is never used as the conjugated factor.) Floating-point timestamps raise IndexError. In general the column of timestamp t (negative ones index from the end) sums to n*Re(x[t] conj(x[t mod n])) when 1 <= t mod n < N, and to 0 otherwise, so the marginal also fails for timestamps not below n_fbins.", "quantifier": "all signals and timestamps", "why_tests_cant": "An identity over all complex-valued signals: a test can only compare a few floating-point instances within a tolerance.", "anchors": ["tftb/processing/cohen.py:MargenauHillDistribution.run"]}
{"id": "C31", "title": "Page representation is causal and has the energy marginal", "statement": "The Page representation at time t only depends on samples up to t, and its column sums to n_fbins*|x[t]|^2. (Both false of the code: it pairs x[t] with every sample and is offset by one lag.) Floating-point timestamps raise IndexError. In general the column of timestamp t sums to n*Re(x[t] conj(x[(t-1) mod n])) when (t-1) mod n < N, and to 0 otherwise.", "quantifier": "all signals and timestamps", "why_tests_cant": "An identity over all complex-valued signals: a test can only compare a few floating-point instances within a tolerance.", "anchors": ["tftb/processing/cohen.py:PageRepresentation.run"]}
{"id": "C32", "title": "Pseudo Margenau-Hill and pseudo Page are usable", "statement": "PseudoMargenauHillDistribution returns a matrix exactly when no lag bound degenerates to a float; PseudoPageRepresentation always raises IndexError, whatever the input. With an empty list of timestamps PseudoPageRepresentation.run returns an empty real matrix.", "quantifier": "all signals, windows, n_fbins", "why_tests_cant": "A claim about every input; the dtype of an index depends on which argument of min() wins.", "anchors": ["tftb/processing/cohen.py:PseudoMargenauHillDistribution", "tftb/processing/cohen.py:PseudoPageRepresentation"]}
{"id": "C33", "title": "Narrow-band ambiguity function: range and value at the origin", "statement": "narrow_band never raises for n_fbins >= N with default lags; its value at zero lag and zero Doppler is the signal energy, and it is the entry of largest modulus.", "quantifier": "all signals", "why_tests_cant": "An identity over all complex-valued signals: a test can only compare a few floating-point instances within a tolerance.", "anchors": ["tftb/processing/ambiguity.py:narrow_band"]}
{"id": "C34", "title": "Narrow-band ambiguity function Hermitian symmetry", "statement": "A(-xi,-tau) = conj(A(xi,tau)).", "quantifier": "all signals, lags, Doppler bins (cyclically)", "why_tests_cant": "An identity over all complex-valued signals: a test can only compare a few floating-point instances within a tolerance.", "anchors": ["tftb/processing/ambiguity.py:narrow_band"]}
{"id": "C35", "title": "Narrow-band ambiguity volume", "statement": "The sum of |A|^2 over all bins and default lags is n_fbins*(Ee^2+Eo^2), Ee and Eo the energies of the even- and odd-indexed samples.", "quantifier": "all signals", "why_tests_cant": "An identity over all complex-valued signals: a test can only compare a few floating-point instances within a tolerance.", "anchors": ["tftb/processing/ambiguity.py:narrow_band"]}
{"id": "C36", "title": "Reassigned spectrogram conserves mass", "statement": "The reassigned spectrogram has the same total as the spectrogram it is computed from, all entries are non-negative and reassignment never indexes out of range. It raises ValueError for an even window, irregular or empty timestamps or a non-positive number of bins, IndexError exactly when an instant lies outside 1-N..N, and otherwise returns whenever the window has at least 3 samples; the values are NaN exactly when the used part of the window is zero at some instant.", "quantifier": "all signals, windows, timestamps for which the call returns, and any reassignment field", "why_tests_cant": "An identity over all complex-valued signals: a test can only compare a few floating-point instances within a tolerance.", "anchors": ["tftb/processing/reassigned.py:spectrogram"]}
{"id": "C37", "title": "Reassignment leaves undisplaced energy in place", "statement": "A time-frequency cell whose computed displacement is zero keeps its energy at the same cell. (False: it moves to row j-1 and column i-1.)", "quantifier": "all cells of all inputs", "why_tests_cant": "Universal statement about every cell.", "anchors": ["tftb/processing/reassigned.py:spectrogram", "tftb/processing/reassigned.py:pseudo_wigner_ville"]}
{"id": "C38", "title": "reassigned.spectrogram agrees with Spectrogram", "statement": "The first output of reassigned.spectrogram equals Spectrogram(...).run() with the same window, bins and timestamps. (True for timestamps above the window half-length; false near the left edge where index -1 wraps to the last sample.)", "quantifier": "all signals, windows, timestamps", "why_tests_cant": "Infinitely many inputs; a test fixes one length/signal, while the failure modes sit at particular residues, boundaries or coincidences of sizes.", "anchors": ["tftb/processing/reassigned.py:spectrogram", "tftb/processing/cohen.py:Spectrogram.run"]}
{"id": "C39", "title": "Reassigned pseudo Wigner-Ville conserves each column's mass", "statement": "For every timestamp the reassigned column has the same sum as the original column; the first output equals n*|x[t-1]|^2 when summed over frequency. The call raises IndexError exactly at instants where round(n/2)-1 is below both distances to the signal ends and not above the window half-length, ValueError for an even window or no instant, and otherwise returns for windows of at least 3 samples. A cell is moved exactly when its absolute value exceeds a millionth of the mean power of the samples numbered from the least to the greatest timestamp; a moved cell goes to row (j - 1 - q) mod n where q is the integer nearest to the displacement n Im(S)/(2 pi tfr), the even one in a tie.", "quantifier": "all signals, windows, timestamps for which the call returns", "why_tests_cant": "An identity over all complex-valued signals: a test can only compare a few floating-point instances within a tolerance.", "anchors": ["tftb/processing/reassigned.py:pseudo_wigner_ville"]}
{"id": "C40", "title": "Other reassigned representations return", "statement": "reassigned.pseudo_margenau_hill, pseudo_page and smoothed_pseudo_wigner_ville return a representation for some input. (False: they raise on every input.)  Exactly: pseudo_margenau_hill and pseudo_page raise TypeError without a window, ValueError for an even window and IndexError for an odd one; smoothed_pseudo_wigner_ville likewise (both windows), IndexError when everything is given as documented.", "quantifier": "every input", "why_tests_cant": "Universal negative: no test can cover every input.", "anchors": ["tftb/processing/reassigned.py:pseudo_margenau_hill", "tftb/processing/reassigned.py:pseudo_page", "tftb/processing/reassigned.py:smoothed_pseudo_wigner_ville"]}
{"id": "C41", "title": "Hough transform is index-safe and conserves votes", "statement": "hough_transform(image,m,n) never indexes outside its accumulator, and the accumulator's total is the sum over above-threshold pixels of value times the number of angles with 0<=rho<=rhomax. The rho axis has as many entries as the accumulator has rows. (Last part false when m differs from n.) With one row every vote lands in it; with no row the first vote raises IndexError, and an image without votes returns an empty accumulator; no angle (n=0) raises ZeroDivisionError and a negative size ValueError.", "quantifier": "all images, m>=2, n>=1", "why_tests_cant": "Infinitely many inputs; a test fixes one length/signal, while the failure modes sit at particular residues, boundaries or coincidences of sizes.", "anchors": ["tftb/processing/postprocessing.py:hough_transform"]}
{"id": "C42", "title": "Renyi information is invariant to scaling of the distribution", "statement": "renyi_information(c*tfr) = renyi_information(tfr) for every c>0.", "quantifier": "all matrices with non-zero integral, all alpha, all positive c", "why_tests_cant": "An identity over all complex-valued signals: a test can only compare a few floating-point instances within a tolerance.", "anchors": ["tftb/processing/postprocessing.py:renyi_information"]}
{"id": "C43", "title": "renyi_information does not modify its arguments", "statement": "After the call, the caller's timestamps and freq arrays are unchanged. (False: freq is sorted in place, timestamps equal to 0..n-1 are incremented in place, which also shifts the timestamps of the representation object they came from.)", "quantifier": "all arrays, all histories of calls sharing arrays", "why_tests_cant": "Aliasing between caller, object and function: a property of histories.", "anchors": ["tftb/processing/postprocessing.py:renyi_information", "tftb/processing/base.py:BaseTFRepresentation.__init__"]}
{"id": "C44", "title": "ideal_tfr marks exactly the instantaneous frequencies", "statement": "For laws with values in [0,0.5], ideal_tfr never raises, each column contains 1 exactly at the rows round(2f(n-1)) of the laws and 0 elsewhere, and the returned frequency label of the marked row is within 3/(4n) of f.", "quantifier": "all laws, all n_fbins>=1", "why_tests_cant": "Infinitely many inputs; a test fixes one length/signal, while the failure modes sit at particular residues, boundaries or coincidences of sizes.", "anchors": ["tftb/processing/postprocessing.py:ideal_tfr"]}
{"id": "C45", "title": "friedman_density is a probability distribution", "statement": "When at least one cell exceeds the threshold all entries are non-negative and sum to 1.", "quantifier": "all matrices", "why_tests_cant": "Infinitely many inputs; a test fixes one length/signal, while the failure modes sit at particular residues, boundaries or coincidences of sizes.", "anchors": ["tftb/processing/postprocessing.py:friedman_density"]}
{"id": "C46", "title": "ridges returns every above-threshold fixed point of the reassignment", "statement": "ridges returns the points of all columns whose reassignment field is a fixed point and whose energy exceeds the threshold. (False: only the last such column survives, and for 'rsp'/'rspwv' the threshold is ignored; with no ridge it raises UnboundLocalError.)", "quantifier": "all matrices and fields", "why_tests_cant": "Infinitely many inputs; a test fixes one length/signal, while the failure modes sit at particular residues, boundaries or coincidences of sizes.", "anchors": ["tftb/processing/postprocessing.py:ridges"]}
{"id": "C47", "title": "integrate_2d is the two-dimensional trapezoidal rule", "statement": "integrate_2d(mat,x,y) is the trapezoidal integral for uniformly spaced x and arbitrary y; it is linear in mat and non-negative for non-negative mat and sorted axes. (Outside the claim: for non-uniform x only the first step x[1]-x[0] is used, so the trapezoidal identity is false there; a single column raises IndexError with the default axis.)", "quantifier": "all matrices with at least two columns, all axes", "why_tests_cant": "An identity over all complex-valued signals: a test can only compare a few floating-point instances within a tolerance.", "anchors": ["tftb/processing/utils.py:integrate_2d"]}
{"id": "C48", "title": "derive_window is the centred difference and is odd on even windows", "statement": "Interior entries are (w[i+1]-w[i-1])/2; for a symmetric window the result is antisymmetric, sums to zero and vanishes at the centre. The end entries are (w[0]+w[1]+r)/2 and (r-w[-2]-w[-1])/2 with r=(w[0]-w[-1])/(len-1), and all entries add up to r; a window of one sample gives NaN and an empty one IndexError.", "quantifier": "all real windows of length >= 2", "why_tests_cant": "An identity over all complex-valued signals: a test can only compare a few floating-point instances within a tolerance.", "anchors": ["tftb/processing/utils.py:derive_window"]}
{"id": "C49", "title": "loctime localisation", "statement": "For a signal with non-zero energy the time centre lies in [0,n-1], is the energy-weighted mean of the sample index, is shift covariant and scale invariant; the spread is non-negative, and zero exactly for signals supported on one sample.", "quantifier": "all signals of non-zero energy", "why_tests_cant": "An identity over all complex-valued signals: a test can only compare a few floating-point instances within a tolerance.", "anchors": ["tftb/processing/time_domain.py:loctime"]}
{"id": "C50", "title": "locfreq works for every length", "statement": "locfreq returns for every signal of non-zero energy a centre in [-1/2,1/2] and a non-negative spread. (False for lengths 1 mod 4, n>=5, where it raises ValueError.) (Also false for n=3 mod 4, where the centre may be below -1/2: -2/3 is reachable for n=3; a one-sample signal has centre NaN. In the remaining cases the centre is the energy-weighted mean of the frequency labels.) An empty signal raises ValueError.", "quantifier": "all signals of non-zero energy", "why_tests_cant": "Fails on one residue class of the length.", "anchors": ["tftb/processing/freq_domain.py:locfreq"]}
{"id": "C51", "title": "inst_freq recovers the frequency law", "statement": "For x = a[t]*exp(i*phi[t]) with a>0 the instantaneous frequency at t is (phi[t]-phi[t-2])/(4*pi) whenever that lies in (0,1/2]; hence inst_freq(fmconst(n,f)) is constantly f and inst_freq(fmlin(...)) is exactly the linear law; the result always lies in (0,1/2]. (At the boundary, when phi[t]-phi[t-2] is a multiple of 2*pi, the value is 0 or 1/2 depending on the sign of a floating-point zero. Instants 0 and 1 silently compare with the end of the signal.) Where one of the two samples used is zero the value is 0, 1/4 or 1/2 according to the signs of the zeros, and each of the three occurs.", "quantifier": "all positive envelopes, phases, all f in (0,1/2]", "why_tests_cant": "An identity over all complex-valued signals: a test can only compare a few floating-point instances within a tolerance.", "anchors": ["tftb/processing/freq_domain.py:inst_freq", "tftb/generators/frequency_modulated.py:fmconst", "tftb/generators/frequency_modulated.py:fmlin"]}
{"id": "C52", "title": "group_delay of an impulse and range", "statement": "group_delay of an impulse at sample k is k+1 at every frequency; every value is 0 or lies in [1,len(x)+3]. (Where the spectrum of the signal vanishes the value is NaN.)", "quantifier": "all signals, positions, frequencies", "why_tests_cant": "An identity over all complex-valued signals: a test can only compare a few floating-point instances within a tolerance.", "anchors": ["tftb/processing/freq_domain.py:group_delay"]}
{"id": "C53", "title": "Amplitude modulators are bounded, peaked and symmetric", "statement": "amgauss, amexpos, amrect, amtriang return n_points values in [0,1], equal to 1 at the centre, symmetric and non-increasing away from it; n_points<=0 raises TypeError. (With default spread a negative n_points raises ValueError instead.)  (amexpos of kind unilateral with spread 0: the values strictly after the centre are 0 and the others NaN.) Spreads that are not positive: amgauss does not depend on the sign; amexpos with a negative spread is the reciprocal of the positive one (at least 1, growing away from the centre); amrect is all False and amtriang all 0 for a negative spread; with spread 0 amgauss is 0 with NaN at its centre, amrect one sample, amtriang all NaN.", "quantifier": "all n_points, centres and positive spreads", "why_tests_cant": "Infinitely many inputs; a test fixes one length/signal, while the failure modes sit at particular residues, boundaries or coincidences of sizes.", "anchors": ["tftb/generators/amplitude_modulated.py"]}
{"id": "C54", "title": "fmconst is a unit-modulus tone with phase zero at t0", "statement": "For integer 0<=t0<n_points the signal has modulus 1, value 1 at t0 and constant phase increment 2*pi*fnorm. |fnorm|>1/2 or n_points<=0 raises TypeError; t0>=n_points raises IndexError.", "quantifier": "all n_points, fnorm, t0", "why_tests_cant": "An identity over all complex-valued signals: a test can only compare a few floating-point instances within a tolerance.", "anchors": ["tftb/generators/frequency_modulated.py:fmconst"]}
{"id": "C55", "title": "fmlin is a unit-modulus linear chirp", "statement": "Modulus 1, value 1 at sample t0-1, iflaw is linear from fnormi to fnormf, and the phase increment over two samples is 4*pi*iflaw at the middle sample.", "quantifier": "all n_points>=2 and normalised frequencies", "why_tests_cant": "An identity over all complex-valued signals: a test can only compare a few floating-point instances within a tolerance.", "anchors": ["tftb/generators/frequency_modulated.py:fmlin"]}
{"id": "C56", "title": "fmodany follows an arbitrary law", "statement": "Modulus 1, value 1 at index t0, phase increment from k-1 to k is 2*pi*iflaw[k]; laws beyond 1/2 in modulus raise TypeError. (Column-vector laws escape the range check; t0=len(iflaw) raises IndexError instead of TypeError.)", "quantifier": "all laws and t0", "why_tests_cant": "An identity over all complex-valued signals: a test can only compare a few floating-point instances within a tolerance.", "anchors": ["tftb/generators/frequency_modulated.py:fmodany"]}
{"id": "C57", "title": "Frequency laws are the derivative of the phase", "statement": "For fmhyp, fmpower and fmsin the returned iflaw is the derivative of the phase divided by 2*pi, and passes through the requested points. For fmpar this is false.", "quantifier": "all parameters and times", "why_tests_cant": "An identity over all complex-valued signals: a test can only compare a few floating-point instances within a tolerance.", "anchors": ["tftb/generators/frequency_modulated.py:fmhyp", "tftb/generators/frequency_modulated.py:fmpower", "tftb/generators/frequency_modulated.py:fmsin", "tftb/generators/frequency_modulated.py:fmpar"]}
{"id": "C58", "title": "Keyed signals have the requested length and alphabet", "statement": "anaask/anabpsk return n_points samples with |y|=|am|, am constant on blocks of n_comp and (BPSK) equal to +-1. anafsk returns ceil(n/n_comp)*n_comp samples (not n_points) with frequencies in (1/8,3/8); anaqpsk raises ValueError unless n_comp divides n_points. Negative n_comp: anaask and anabpsk always raise (TypeError for n_points=0, IndexError for n_points=1 and n_comp<-1, else ValueError); anafsk returns empty arrays for 0 <= n_points < -n_comp and anaqpsk for n_points in {0,1}, n_points < -n_comp, else ValueError. anaqpsk of one sample returns n_comp samples, of -n_comp < n_points <= 0 none.  A float n_comp never works: all four generators raise (TypeError, from np.repeat; ZeroDivisionError for 0.0; ValueError when n_points/n_comp <= -1), so the docstring examples anaqpsk(512, 64.0, 0.05) and anafsk(512, 54.0, 5.0) raise TypeError.  In double precision floor(Nbf*u) for a double 0 <= u < 1 and 1 <= Nbf <= 2**53 is one of 0..Nbf-1, so rounding never leaves the alphabet and line 142 (jumps == 4) never fires.", "quantifier": "all outcomes of the random generator, all sizes", "why_tests_cant": "Randomised: must hold for every outcome.", "anchors": ["tftb/generators/analytic_signals.py:anaask", "tftb/generators/analytic_signals.py:anabpsk", "tftb/generators/analytic_signals.py:anafsk", "tftb/generators/analytic_signals.py:anaqpsk"]}
{"id": "C59", "title": "Analytic impulse and step keep their real part", "statement": "Real parts of anapulse and anastep are the impulse/step, and their spectrum vanishes at negative frequencies.", "quantifier": "all n_points and positions", "why_tests_cant": "An identity over all complex-valued signals: a test can only compare a few floating-point instances within a tolerance.", "anchors": ["tftb/generators/analytic_signals.py:anapulse", "tftb/generators/analytic_signals.py:anastep"]}
{"id": "C60", "title": "Noise generators return n_points samples", "statement": "noisecu and noisecg return a 1-D array of n_points samples. (False for n<=2: noisecg raises TypeError and noisecu returns an (n,1) array.) dopnoise returns n_points samples of unit energy. (It returns n_points-1.)  With zero s_freq or zero c, or with zero distance and a sample 2 <= i < 2n at which v_target*(i+1-time_center-n) = 0, the n-1 samples of dopnoise are all NaN, and the entries of its law that are not finite are those where one of these zeros is met; in every other case it is the finite result. n_points <= 1 raises ValueError.", "quantifier": "all n_points, all random outcomes", "why_tests_cant": "Randomised and size dependent.", "anchors": ["tftb/generators/noise.py"]}
{"id": "C61", "title": "sigmerge achieves the requested energy ratio", "statement": "The ratio of the mean energies of x1 and of the added component is exactly 10**(ratio/10). (An array of one sample is broadcast; the component must have energy, else the result is NaN.)", "quantifier": "all signals of non-zero energy, all ratios", "why_tests_cant": "An identity over all complex-valued signals: a test can only compare a few floating-point instances within a tolerance.", "anchors": ["tftb/generators/utils.py:sigmerge"]}
{"id": "C62", "title": "scale returns", "statement": "generators.scale returns for some input. (False: raises on every input.) Exactly: ValueError for an empty signal, ZeroDivisionError if fmin = 0, N = 1 or (fmax = 0 and N < 1), TypeError for 128 samples and N = 128, ValueError otherwise.", "quantifier": "every input", "why_tests_cant": "Universal negative.", "anchors": ["tftb/generators/utils.py:scale"]}
{"id": "C63", "title": "doppler signal", "statement": "Frequency modulator has modulus 1, iflaw is non-increasing, equals f0/s_freq at t0 and is the derivative of the phase; invalid parameters raise TypeError. With s_freq = 0 (which forces f0 = 0) all samples and the whole law are NaN and the amplitude is the number 0; with v_wave = 0 all samples are NaN and the law is +infinity before t0, -infinity after it and NaN at t0 (NaN everywhere when f0 or v_target is 0).", "quantifier": "all valid parameters", "why_tests_cant": "An identity over all complex-valued signals: a test can only compare a few floating-point instances within a tolerance.", "anchors": ["tftb/generators/misc.py:doppler"]}
{"id": "C64", "title": "klauder and altes wavelets have unit energy", "statement": "klauder(n) is real of unit energy and has n samples. (n-1 samples for odd n.) altes(n) has n samples and unit energy. altes does not depend on the order of fmin and fmax; with 0 < alpha < 1 its envelope is largest at the edges.  For all Python numbers (finite arithmetic exact and in range): altes with fmin = 0 raises ZeroDivisionError; otherwise n_points < -1 raises ValueError, n_points in {-1, 0} gives the empty array, and for n_points >= 1 the n entries are all NaN when fmax/fmin <= 0, fmax = fmin, alpha <= 0 or alpha = 1; in every other case, both bounds negative included, it is the waveform described above for |fmin| and |fmax|.", "quantifier": "all valid parameters", "why_tests_cant": "An identity over all complex-valued signals: a test can only compare a few floating-point instances within a tolerance.", "anchors": ["tftb/generators/misc.py:klauder", "tftb/generators/misc.py:altes"]}
{"id": "C65", "title": "mexhat wavelet is symmetric with its maximum at the centre", "statement": "Odd length 2*ceil(1.5/nu)+1, symmetric, all values at most the centre value nu*sqrt(pi)/2.", "quantifier": "all nu in (0,1/2]", "why_tests_cant": "An identity over all complex-valued signals: a test can only compare a few floating-point instances within a tolerance.", "anchors": ["tftb/generators/misc.py:mexhat"]}
{"id": "C66", "title": "gdpower has zero mean and unit energy", "statement": "For degree != 1 and rate != 0 the signal has zero mean and unit energy; rate=0 raises TypeError; degree=1 raises TypeError.  For every integer n_points: with at least one point the calls with rate=0 or degree=1 raise TypeError and the others return; n_points<-3 raises ValueError whatever the rate; -3<=n_points<=0 raises TypeError for rate=0; for another rate n_points<0 raises ValueError, and n_points=0 raises ZeroDivisionError when degree<1 and degree*rate<0, else ValueError.", "quantifier": "all parameters", "why_tests_cant": "An identity over all complex-valued signals: a test can only compare a few floating-point instances within a tolerance.", "anchors": ["tftb/generators/misc.py:gdpower"]}
{"id": "C67", "title": "atoms accepts every time centre", "statement": "atoms(n, coordinates) clamps time centres to 1..n and returns the sum of Gaussian atoms, additive in the list of atoms. (False for centres that clamp to n: IndexError.)  One-dimensional coordinates: a negative n_points raises ValueError, an empty list gives zeros, any other list raises IndexError.", "quantifier": "all coordinates", "why_tests_cant": "Infinitely many inputs; a test fixes one length/signal, while the failure modes sit at particular residues, boundaries or coincidences of sizes.", "anchors": ["tftb/generators/misc.py:atoms"]}
{"id": "C68", "title": "Affine distributions are normalised", "statement": "Scalogram (Morlet/Mexican hat), Bertrand, D-Flandrin and Unterberger outputs integrate (integrate_2d over the returned axes) to the in-band analytic energy divided by n_voices, provided the unnormalised integral is non-zero. The bins counted are those from round(fmin*(len-2)) to round(fmax*(len-2)) for the three distributions and one bin higher for the scalogram.", "quantifier": "all signals and parameters for which run returns", "why_tests_cant": "An identity over all complex-valued signals: a test can only compare a few floating-point instances within a tolerance.", "anchors": ["tftb/processing/affine.py:AffineDistribution._get_interpolated_tf", "tftb/processing/affine.py:Scalogram.run"]}
{"id": "C69", "title": "Affine geometric frequency grid", "statement": "The frequency axis has n_voices entries, starts at fmin, ends at fmax and has constant ratio.", "quantifier": "all 0<fmin<fmax, n_voices>=2", "why_tests_cant": "An identity over all complex-valued signals: a test can only compare a few floating-point instances within a tolerance.", "anchors": ["tftb/processing/affine.py:AffineDistribution._geometric_sample"]}
{"id": "C70", "title": "Affine constructors succeed for every band", "statement": "Constructing Bertrand/D-Flandrin/Unterberger with explicit fmin<fmax and default n_voices succeeds. (False: when fmax*umax is small the attribute T is never set and AttributeError is raised.) Two-column (cross) input raises IndexError.", "quantifier": "all bands", "why_tests_cant": "Infinitely many inputs; a test fixes one length/signal, while the failure modes sit at particular residues, boundaries or coincidences of sizes.", "anchors": ["tftb/processing/affine.py"]}
{"id": "C71", "title": "umaxdfla_solve solves the D-Flandrin equation", "statement": "umaxdfla_solve(r) returns u in (0,4) with ((1+u/4)/(1-u/4))**2 = r.", "quantifier": "all r>1", "why_tests_cant": "An identity over all complex-valued signals: a test can only compare a few floating-point instances within a tolerance.", "anchors": ["tftb/processing/affine.py:umaxdfla_solve"]}
{"id": "C72", "title": "gabor accepts its own defaults", "statement": "gabor(signal) with default n_coeff and q_oversample succeeds. (It raises ValueError unless the sizes satisfy len*q = n_coeff**2 or a broadcasting coincidence.) The outcome depends on the sizes only: see gabor_refuses. With n_coeff dividing the length and a window that fits, the call returns exactly when n_coeff**2 = q_oversample*len or q_oversample = n_coeff, and otherwise raises ValueError. With the defaults it returns exactly when n_coeff <= 2, or when the length is n_coeff**2 and q_oversample = 1.", "quantifier": "all lengths", "why_tests_cant": "Infinitely many inputs; a test fixes one length/signal, while the failure modes sit at particular residues, boundaries or coincidences of sizes.", "anchors": ["tftb/processing/linear.py:gabor"]}
{"id": "C73", "title": "PWVD rows are labelled with the frequencies they carry", "statement": "Row k of PseudoWignerVilleDistribution is labelled by freqs[k] with the frequency it carries, k/(2n) as for WignerVilleDistribution. (False: with a rectangular window of length N-1 the PWVD equals the WVD, but row k<n/2 is labelled k/n, twice the frequency.)", "quantifier": "all signals of even length", "why_tests_cant": "An identity over all complex-valued signals.", "anchors": ["tftb/processing/cohen.py:PseudoWignerVilleDistribution.run", "tftb/processing/base.py:BaseTFRepresentation"]}
{"id": "C74", "title": "Smoothed pseudo Wigner-Ville reduces to pseudo Wigner-Ville", "statement": "With a one-sample time window, smoothed_pseudo_wigner_ville at timestamp t equals the pseudo Wigner-Ville distribution around sample t-1. (False: lag tau is stored at lag tau+1 and the mirrored lag uses the window at 1-tau instead of -tau-1; with a one-sample time window every column is given exactly by that law.)", "quantifier": "all signals, frequency windows, timestamps", "why_tests_cant": "An identity over all complex-valued signals.", "anchors": ["tftb/processing/cohen.py:smoothed_pseudo_wigner_ville"]}
{"id": "C75", "title": "get_spectrum is the centred power spectrum and its total is N times the energy", "statement": "get_spectrum(x) has len(x) entries; entry k is the squared modulus of DFT bin (k - len(x)//2) mod len(x); the entries add up to len(x) times the signal energy.", "quantifier": "all complex signals, even and odd lengths", "why_tests_cant": "Parseval and the shift index must hold for every signal and length; tests compare few floating-point instances.", "anchors": ["tftb/processing/utils.py:get_spectrum"]}
{"id": "C76", "title": "reassigned.morlet_scalogram reassigns energy", "statement": "The reassignment loop of morlet_scalogram moves cells above the threshold. (False: the destination row is a float index, so the loop raises IndexError exactly when some cell exceeds the threshold, and otherwise returns a copy of the input.)", "quantifier": "all matrices, sizes and thresholds", "why_tests_cant": "Universal statement over all matrices entering the loop.", "anchors": ["tftb/processing/reassigned.py:morlet_scalogram"]}
{"id": "C77", "title": "anasing returns n_points non-negative samples", "statement": "anasing(n_points, t0, h) returns n_points samples whose real part is non-negative and touches 0, for every n_points. (False for h<=0: the number of frequency samples int(end/start) is computed in binary64 and is one short for some lengths, e.g. n_points=40, which raises ValueError; in exact arithmetic every length works, in binary64 powers of two do.) For h<=0, even n_points>=4 and n_points/2-1 frequencies, the real part is (g - min g)/max g with g[s] the sum over k of (k/n)**(-1-h) * cos(2*pi*k*(s-t0+1)/n).  For n_points<=0 it raises ZeroDivisionError when n_points=0 and h<=0, ValueError otherwise (exact and binary64 counts).  Without a time the singularity is at n_points/2; for h>0 and an even number of points the real part is then symmetric about that sample and largest there.", "quantifier": "all n_points>0, all real t0 and h, exact and binary64 sample counts", "why_tests_cant": "the rounding failure depends on the length alone and only affects sparse lengths such as 40, 104, 122", "anchors": ["tftb/generators/analytic_signals.py:anasing"]}
{"id": "C78", "title": "gdpower group delay is linear in rate", "statement": "With the constant offset removed, the group delay returned by gdpower(n, degree, rate), and the one its spectrum has, is proportional to rate. (True for degree 0 and degree > 1. False for any other degree below 1: the coefficient is n**(degree*rate), which is positive for both signs of rate.)", "quantifier": "all parameters", "why_tests_cant": "Rate enters an exponent by operator precedence; tests with rate 1 cannot see the difference.", "anchors": ["tftb/generators/misc.py:gdpower"]}
{"id": "C79", "title": "altes sweeps the requested frequency band", "statement": "The instantaneous frequency of altes(n, fmin, fmax, alpha) goes from fmax at the first sample to fmin at the end of the window. (False: it goes from g*fmax to g*fmin with g = exp(ln(fmax/fmin)^2/(8 ln alpha)) > 1; with the default band the start is above 1/2, so it aliases.)", "quantifier": "all n >= 1, 0 < fmin < fmax, alpha > 1", "why_tests_cant": "A statement on the derivative of a phase function over a continuous parameter range; samples only show aliased values.", "anchors": ["tftb/generators/misc.py:altes"]}
{"id": "C80", "title": "Default number of voices of the affine distributions", "statement": "_get_nvoices, with T set and a band 0<fmin<fmax, gives the least power of two that is at least the even part of ceil(fmax*T*log(fmax/fmin)), a value >= 2; when that even part is zero it raises ValueError, and when T was never set AttributeError.", "quantifier": "all bands 0<fmin<fmax and all T>=1", "why_tests_cant": "Rounding to an even number and then to a power of two fails at isolated bands; tests fix one band.", "anchors": ["tftb/processing/affine.py:AffineDistribution._get_nvoices"]}
{"id": "C81", "title": "lambdak dilation functions", "statement": "For u<>0 lambdak(u, k) is positive and equals u/(1-e^-u), e^(u/2), 4/(1+e^(-u/2))^2 and 2/(1+e^-u) for bertrand, unterberger, d_flandrin and aspwv; lambda(u) = e^u lambda(-u), and lambdak(0, .) = 1 for every k. (Last part false: only bertrand special-cases u=0, the others give 0/0.)", "quantifier": "all real u and all four kernels", "why_tests_cant": "Identities over a continuous parameter, with one exceptional point.", "anchors": ["tftb/processing/affine.py:lambdak"]}
{"id": "C82", "title": "Options of the scalogram", "statement": "Scalogram accepts timestamps, any n_voices and any wavelet parameter. (False: the returned instants are 0..N-1 whatever timestamps are passed; n_voices > N raises IndexError and 2 <= n_voices < N raises ValueError (except 2 of 3); an array wavelet raises ValueError; a wavelet half-length in (0, 1/2] raises IndexError; a negative one yields a matrix of NaN.) Defaults: wavelet half-length sqrt(N), N voices. A negative n_voices raises ValueError; with 0 or 1 voice the call raises ValueError for three samples or more and returns a matrix of NaN for two; 2 voices of 3 samples return a correctly normalised matrix that has a third row of zeros.", "quantifier": "all signals of at least two samples, all bands 0<fmin<fmax", "why_tests_cant": "Failures sit at coincidences of sizes; a test with n_voices = N passes.", "anchors": ["tftb/processing/affine.py:Scalogram"]}
{"id": "C83", "title": "What the scalogram computes", "statement": "With default n_voices = N, row i of the scalogram is a constant (when the unnormalised integral is non-zero) times |c_i(t)|^2/a_i, where c_i is the correlation of the analytic demeaned signal with the Morlet wavelet truncated to |t| <= round(waveparams*a_i) at scale a_i = (fmax/fmin)^(1-i/(N-1)) and frequency fmin*(fmax/fmin)^(i/(N-1)); the returned wt has the Morlet correlation delayed by the half-length, and the Mexican hat rows (waveparams = 0) are one sample early.", "quantifier": "all signals of at least two samples, all bands, waveparams > 1/2 or = 0 (with fmax <= 1/2)", "why_tests_cant": "The alignment of each row depends on the scale; a test sees one signal.", "anchors": ["tftb/processing/affine.py:Scalogram.run"]}
{"id": "C84", "title": "wide_band outcomes and axes", "statement": "For a signal of at least two samples, 0 < fmin < fmax <= 1/2 and N >= 2 the result of wide_band (when it is not NaN) is an N by len(signal) matrix, tau = arange(len) - round(len/2), and theta runs linearly from -ln(fmax/fmin) to ln(fmax/fmin) in N points. With N omitted, N is the least power of two not below the even part of ceil(fmax*(len-1)*ln(fmax/fmin)), and ValueError if that even part is 0. Empty signals and N <= 0 raise ValueError, N = 1 and fmin = fmax raise ZeroDivisionError. theta contains the logarithm 0 of the unit scale. (False for even N, hence for every default N: the unit-scale row N/2 is labelled ln(fmax/fmin)/(N-1).)", "quantifier": "all signals, all bands, all N", "why_tests_cant": "The labelling offset is half a grid step and invisible in a plot.", "anchors": ["tftb/processing/ambiguity.py:wide_band"]}
{"id": "C85", "title": "wide_band entries and normalisation", "statement": "With M_d(p) the Mellin coefficients (2N-point inverse transform of the zero-padded geometrically sampled spectrum of the analytic signal delayed by d, weighted by q^(k/2)), the entry at scale index j and delay d is proportional to the sum over the negative half p in [-N,0) of M_0(p) conj(M_d(p)) e^(2 pi i p j/N), and the factor makes one reference cell equal to (band energy)/N. It depends on Re(signal) only, scales with the square of a real factor, and at delay 0 no scale exceeds the unit scale. The reference cell is the origin (unit scale, delay 0). (False: it is the cell at delay -1 and, for even N, one scale step below the unit scale, so the value at the origin differs from (band energy)/N and need not be real.)", "quantifier": "all signals of at least two samples, all bands 0 < fmin < fmax <= 1/2, all N >= 2", "why_tests_cant": "The reference cell only matters through one complex factor common to the whole matrix.", "anchors": ["tftb/processing/ambiguity.py:wide_band"]}
{"id": "C86", "title": "wide_band default band", "statement": "When fmin and fmax are omitted the band brackets the bins whose spectral power exceeds one hundredth of the maximum. (False: the code never transforms the signal. The band brackets the samples of the envelope of the analytic signal, rotated by ceil(len/2), that exceed a hundredth of the maximum, sample k being read as frequency k/(2 round(len/2)); a pure real tone of any frequency gets the band 0.01 to 0.05*ceil(10(m-1)/m), m = round(len/2).) If those samples are all zero, ValueError. When the upper bound found is 0, which is so for every two-sample signal, no entry of the result is a number. Equal bounds: when the two default bounds coincide (one loud bin at a multiple of 0.05, as for the real signal 0,1,0,1) the call with default N raises ValueError; with fmax given equal to the default fmin it raises ZeroDivisionError whatever N is when that bound is the floor 0.01, and ValueError otherwise.", "quantifier": "all signals of at least two samples; all tones k/n with 0 < 2k < n", "why_tests_cant": "A wide default band still gives a plausible picture.", "anchors": ["tftb/processing/ambiguity.py:wide_band"]}
{"id": "C87", "title": "Affine default band", "statement": "When fmin or fmax is omitted, the affine distributions take the band from the bins of the power spectrum of the real part of the signal (between the first and last timestamp) that exceed one hundredth of the maximum over the lower half: fmin is max(0.01, 0.05*floor(10 k/m)), fmax is 0.05*ceil(10 l/m), with k and l the first and last such bin and m = round(len/2). Every bin above the threshold lies inside the band when the first is not below 0.01. A signal whose lower half spectrum vanishes raises ValueError. Degenerate bands happen: a quarter-rate tone gets 0.25 to 0.25, a constant signal 0.01 to 0. Time instants select the samples as a Python slice does: negative ones count from the end, instants out of range are clipped, and an empty selection (such as one whose last instant is -1) raises ValueError.", "quantifier": "all signals, all timestamps inside the signal", "why_tests_cant": "Degenerate default bands need particular tones.", "anchors": ["tftb/processing/affine.py:AffineDistribution.__init__"]}
{"id": "C88", "title": "What the affine distributions compute", "statement": "With an explicit band, each row of the Bertrand, D-Flandrin and Unterberger (active form) distributions is a common constant times the spline through points (gamma_j, A_i(j)), |gamma_j| <= f_i(N-1)/2, evaluated at (t - (N-1)/2) f_i ((t - (N-1)/2 - 1) f_i for Unterberger), where A_i(j) is f_i/(2 m1) times the real part of the discrete Fourier sum over u of weight(u) * S(lambda(-u) f_i) conj S(lambda(u) f_i), the spectrum S being dilated by band-limited interpolation on the zero padded voice axis. A dilation by a whole number of voices is an exact shift, the kernel at -u is the conjugate of the kernel at u, and summing A_i over its instants gives f_i |S(f_i)|^2.", "quantifier": "all signals, bands, numbers of voices and timestamps for which the run returns", "why_tests_cant": "Any of the three weights, an index shift or a wrong conjugate still yields a plausible picture.", "anchors": ["tftb/processing/affine.py:UnterbergerDistribution.run", "tftb/processing/affine.py:DFlandrinDistribution.run", "tftb/processing/affine.py:BertrandDistribution.run", "tftb/processing/affine.py:AffineDistribution._get_interpolated_tf"]}
{"id": "C89", "title": "The affine distributions return for every band", "statement": "An affine distribution built with an explicit band fmin < fmax, two or more voices and timestamps, returns from run. (False: the spline of the lowest voice needs four points, and run raises TypeError exactly when 2 m1 - 1 < 3 fmax/fmin, e.g. two samples with the band 0.1-0.4; N - 1 >= 3 fmax/fmin is always enough. Forms of the Unterberger distribution other than A always raise IndexError.)", "quantifier": "all signals of two or more samples, bands, voices, timestamps", "why_tests_cant": "Short signals with wide bands are not tried, nor the passive form.", "anchors": ["tftb/processing/affine.py:UnterbergerDistribution.run", "tftb/processing/affine.py:AffineDistribution._get_interpolated_tf"]}
{"id": "C90", "title": "gabor reconstructs the signal and returns a dual window", "statement": "For len(signal) = q*a**2, n_coeff = q*a, q_oversample = q and an odd window no longer than the signal that fits: dgr[k, n] is the sum over t of signal[t] * gam[(t + ceil(N/2) - n*a) mod N] * exp(-2i pi k t / M). If every value of the frame operator on the Zak side is at least 2**-52, gam is dual to the laid window (Wexler-Raz relations with constant 1/M) and signal[t] is exactly the double sum of dgr[k, n] * h[(t + ceil(N/2) - n*a) mod N] * exp(2i pi k t / M). (Below 2**-52 the denominator is replaced by 1 and reconstruction fails although a dual exists.) The window used when none is given has an odd number of samples (M or M+1), unit energy, and is a Gaussian whose two ends are 0.005 times its centre.", "quantifier": "all a, q >= 1, all signals, all admissible windows", "why_tests_cant": "Exact identity over real and complex inputs of every size; a test checks one signal to a tolerance.", "anchors": ["tftb/processing/linear.py:gabor", "tftb/utils.py:izak"]}
{"id": "C91", "title": "smoothed_pseudo_wigner (affine): when it returns, and what", "statement": "Without both fmin and fmax the call raises (TypeError on the plain call). Without nh0, or with a float nh0, it never returns. For 0 < fmin < fmax, nh0 > 1/2 and n_voices >= 2 given (not 2 voices on 3 samples): n_voices below the length raises ValueError, above it IndexError; timestamps of another length ValueError; a float nh0 or 2*fmax*log(fmax/fmin) < 1 TypeError; nh0 different from the length ValueError; otherwise it returns (NaN everywhere if K is not bertrand). What is returned for bertrand is tfr[v, i] = c * E[i] * f[v]: E[i] >= 0 is the energy of the dilated Mellin transform of the wavelet column i weighted by the Gaussian window, the integral of tfr is the band energy of the analytic signal over n_voices, all entries are nonnegative, and each column is the frequency axis times a number. (The title's promise of a time-frequency distribution fails: no frequency content is resolved.) Without n_voices the number of voices is the power of two next above the even part of ceil(fmax*(2*nh0-1)*ln(fmax/fmin)), and ValueError is raised when that is zero. With the default number of voices and any half length of the window (integer or not, in a wide or a narrow band) the call behaves as with the power of two computed from the rounded half length.", "quantifier": "all signals of length >= 2, all timestamps, all bands, window lengths and numbers of voices", "why_tests_cant": "The outcome depends on every combination of sizes and bands; the value statement is exact and over reals.", "anchors": ["tftb/processing/affine.py:smoothed_pseudo_wigner", "tftb/processing/affine.py:lambdak"]}
{"id": "C92", "title": "reassigned.morlet_scalogram: when it returns, and its energies", "statement": "For tbp > 0, n_fbins >= 2 and a non-empty signal of N samples: timestamps that are not at least two equally spaced instants raise ValueError; an instant below 1-N or at least max(2, N) raises IndexError; otherwise the call raises IndexError if some energy exceeds 1e-6 times the mean power and returns (tfr, a copy of it) if none does. The energies are given by a closed formula; for real signals row n_fbins-m equals row m; scaling the signal by c scales them by |c|**2 and changes no outcome; a unit impulse at its own instant has energy m/(tbp*n_fbins) in row m. (Last part false: it is m/(tbp*n_fbins)*exp(-((m-1)/(n_fbins*tbp))**2). Unit impulses raise.)", "quantifier": "all complex signals, timestamps, n_fbins >= 2, tbp > 0", "why_tests_cant": "Closed form over all real and complex inputs, and outcome of all combinations of sizes.", "anchors": ["tftb/processing/reassigned.py:morlet_scalogram"]}
{"id": "C93", "title": "Which plots of STFT, Spectrogram, Margenau-Hill and Wigner-Ville objects are drawn", "statement": "After a run with n_fbins rows and t columns on N samples, plot(kind, show_tf) of the STFT, Spectrogram and MargenauHill classes draws the first n_fbins//2 rows, that of WignerVille and PseudoWignerVille all of them. An image (kind='cmap') is drawn in every case except n_fbins = 1 for the halving classes (ValueError). kind='contour' with show_tf=True needs as many rows drawn as samples, otherwise TypeError; surf and wireframe (show_tf=False) need sizes that broadcast, otherwise ValueError; contours need two rows and columns, otherwise TypeError. A default WignerVille object (N >= 2) can be plotted with every kind. (False for the halving classes: a default object with N >= 4 raises for kind='contour', show_tf=True and for surf and wireframe.)", "quantifier": "all signals, sizes, thresholds, kinds", "why_tests_cant": "The outcome depends on every combination of four sizes and five kinds.", "anchors": ["tftb/processing/base.py:BaseTFRepresentation.plot", "tftb/processing/linear.py:ShortTimeFourierTransform.plot", "tftb/processing/cohen.py:MargenauHillDistribution.plot", "tftb/processing/cohen.py:WignerVilleDistribution.plot"]}
{"id": "C94", "title": "A plot shows each row at its frequency", "statement": "In an image (kind='cmap') of an STFT with n bins the centre of row k is less than half a bin (1/(2n)) from k/n; of a WignerVille object with n bins it is less than 1/(4n) from k/(2n). The same holds for PseudoWignerVille and for contours. (Last part false: the rows of a pseudo Wigner-Ville image are spread over [-1/2, 1/2], every one is drawn too low and row 0 below -1/4. Contours draw row k of m at k/(2(m-1)): the top row always at 1/2.)", "quantifier": "all objects with n_fbins rows, any number of instants, thresholds", "why_tests_cant": "Exact positions for all sizes.", "anchors": ["tftb/processing/base.py:BaseTFRepresentation.plot", "tftb/processing/base.py:BaseTFRepresentation._plot_tfr"]}
{"id": "C95", "title": "plot of the affine distributions after run", "statement": "With n_voices rows and t instants on N >= 2 samples and 0 <= threshold < 1: plot() (contour, show_tf=True) raises TypeError if n_voices or t is below 2; ValueError if no entry is positive or all entries are equal, or if n_voices < N//2; and draws otherwise. Other kinds with show_tf=True draw iff N//2 <= n_voices. The array returned by run is changed: entries not above threshold*max become 0, others are kept; plotting again gives the same picture. Row k is drawn at its frequency. (Last part false: with fmin < fmax every row but the first and the last is drawn strictly too high, because the axis is linear and the rows are geometrically spaced.)", "quantifier": "all Bertrand, D-Flandrin, Unterberger objects and matrices", "why_tests_cant": "All sizes, thresholds and real matrices.", "anchors": ["tftb/processing/affine.py:AffineDistribution.plot", "tftb/processing/base.py:BaseTFRepresentation._plot_tfr"]}
{"id": "C96", "title": "Scalogram.plot", "statement": "A scalogram of N >= 2 samples (N rows and columns) is drawn for every kind and threshold, with the exact list of artists given; row k, of frequency fmin*(fmax/fmin)**(k/(N-1)), is drawn at that frequency. (Last part false: contours draw it at k/(2(N-1)), the first row at 0 and the last at 1/2; the image draws the first row at a negative frequency.)", "quantifier": "all signals with N >= 2, thresholds, 0 < fmin < fmax", "why_tests_cant": "All sizes and real matrices.", "anchors": ["tftb/processing/affine.py:AffineDistribution.plot", "tftb/processing/affine.py:Scalogram"]}
{"id": "C97", "title": "The spectrum drawn beside a plot", "statement": "With show_tf=True the line beside the picture of an STFT or Cohen class object has N//2 points; point i is the power |X|**2 of the signal at bin (N-1)//2 - i, and its height in the (reversed) axis grows with the frequency; bin 0 is included iff N is even. For the affine classes the height of the power at a frequency also grows with the frequency. (Last part false: upside down for the affine distributions, point i being bin n_voices-1-i of 2*n_voices at relative height i/(N//2-1); for the scalogram all points lie in the top part fmax/(N//2-1) of the axis.)  The span of the time axis used is the least and the greatest timestamp.", "quantifier": "all signals, objects, thresholds and kinds", "why_tests_cant": "Exact values for all signals.", "anchors": ["tftb/processing/base.py:BaseTFRepresentation._plot_spectrum", "tftb/processing/base.py:BaseTFRepresentation._get_spectrum"]}
{"id": "C98", "title": "plotifl: outcome and visible range", "statement": "plotifl(t, law, signal) raises ValueError iff law has no entry other than NaN or the lengths of t, law and the signal (if given) differ. Otherwise the ordinate runs from 0 to 1/2 if no entry is negative, else from -1/2 to 1/2; all entries are visible iff none exceeds 1/2 in absolute value.", "quantifier": "all 1-D arrays", "why_tests_cant": "All real laws with NaNs.", "anchors": ["tftb/processing/plotifl.py:plotifl"]}
{"id": "C99", "title": "WignerVilleDistribution.plot(scale='log')", "statement": "After run on N >= 3 samples, not all zero, plot(kind, scale='log', threshold in (0,1)) draws for every kind; with kind='contour' the contour levels are the 65 values a*(M/a)**(i/64), M the largest value of the distribution and a = max(smallest value, M*threshold). (False on the last part unless show_tf=True: without it, and for the other kinds, scale='log' changes nothing in the picture. A flat distribution, e.g. of two samples of equal modulus, raises ValueError with scale='log', kind='contour', show_tf=True, though it draws on the linear scale.)", "quantifier": "all signals, thresholds, kinds", "why_tests_cant": "All real signals; exact levels.", "anchors": ["tftb/processing/cohen.py:WignerVilleDistribution.plot", "tftb/processing/base.py:BaseTFRepresentation._plot_tfr"]}
{"id": "C100", "title": "Wigner-Ville distribution of a linear chirp peaks on its frequency law", "statement": "For y, law = fmlin(n, f0, f1, t0) and the default WignerVilleDistribution(y).run(): entry (f, t) equals sin((2m+1)*pi*d)/sin(pi*d) (2m+1 when d is an integer) with d = 2*law[t] - f/n and m = min(t, n-1-t). In each column other than the first and last, the rows of largest modulus are exactly those whose f/n is nearest to 2*law[t] modulo 1, so their frequency label is within 1/(4n) of law[t] modulo 1/2; the modulus never exceeds 2m+1 and attains it exactly where f/n = 2*law[t] modulo 1. The first and last columns equal 1 in all rows.", "quantifier": "all lengths, start and end frequencies, centres, rows and columns", "why_tests_cant": "All real frequency pairs and lengths; a statement on all rows of every column.", "anchors": ["tftb/generators/frequency_modulated.py:fmlin", "tftb/processing/cohen.py:WignerVilleDistribution.run"]}
{"id": "C101", "title": "Interference of two parallel chirps in the Wigner-Ville distribution", "statement": "For two fmlin chirps of the same length and the same f1 - f0, and complex ca, cb, the default Wigner-Ville distribution of ca*x1 + cb*x2 at (f, t) is |ca|^2 times that of x1 plus |cb|^2 times that of x2 plus 2*Re(ca*conj(cb)*x1[t]*conj(x2[t])) times the kernel of C100 at d = law1[t] + law2[t] - f/n: the interference is centred on the mean of the two laws, where the kernel reaches its largest value 2m+1, and oscillates in time with frequency the difference of the two start frequencies.", "quantifier": "all chirps, coefficients, rows and columns", "why_tests_cant": "All real parameters; exact identity.", "anchors": ["tftb/generators/frequency_modulated.py:fmlin", "tftb/processing/cohen.py:WignerVilleDistribution.run"]}
{"id": "C102", "title": "The ambiguity function of a linear chirp is concentrated on a line", "statement": "For y, law = fmlin(n, f0, f1, t0), s = (f1-f0)/(n-1) and narrow_band(y, lag, nf): the modulus at Doppler xi and lag tau (2|tau| <= n) is |sum over k < L of exp(2*pi*i*k*(2*s*tau - xi))| with L = n - 2|tau|. For 2 <= L <= nf the rows of largest modulus of the column are exactly those whose xi is nearest to 2*s*tau modulo 1, hence within 1/(2*nf) of it; for L >= 2 the modulus never exceeds L, and equals L exactly when xi = 2*s*tau modulo 1.", "quantifier": "all lengths, frequencies, lags and numbers of Doppler bins", "why_tests_cant": "All real frequencies, all rows of every column.", "anchors": ["tftb/generators/frequency_modulated.py:fmlin", "tftb/processing/ambiguity.py:narrow_band"]}
{"id": "C103", "title": "Short-time Fourier transform of a tone: resolution in frequency and in time", "statement": "For y = fmconst(N, f0, c0)[0], a number of bins n larger than 2*((len(w)-1)//2) and window w: the modulus of every entry of column c is at most the sum of the moduli of the window values (centred at sample c-1) that fall on the signal, with equality when the window is non-negative and f/n = f0 modulo 1. For a rectangular window of 2h+1 <= n samples of which at least two fall on the signal, the rows of largest modulus are exactly those with f/n nearest to f0 modulo 1, hence within 1/(2n). With the window [1] every row of column c has modulus |x[c-1]| for every signal x (0 if outside): perfect time localisation, none in frequency. For windows longer than the number of bins the bound holds with the window values that the code keeps.", "quantifier": "all lengths, frequencies, windows, numbers of bins, rows and columns", "why_tests_cant": "All real frequencies and windows.", "anchors": ["tftb/generators/frequency_modulated.py:fmconst", "tftb/processing/linear.py:ShortTimeFourierTransform.run"]}
{"id": "C104", "title": "Time-bandwidth product", "statement": "If loctime(x) = (tm, T) and locfreq(x) = (fm, B) then T*B >= 1, as the gallery's Heisenberg-Gabor example states. (False: T*B >= 0, with T*B = 0 exactly when x has a single nonzero sample or is a single tone c*exp(2*pi*i*m*k/n) on a bin. For len(x) = n >= 2, n mod 4 != 1: a single sample has T = 0 and B = 2*sqrt(pi*(n^2-1)/(12*n^2)); a tone on a bin has B = 0 and T = 2*sqrt(pi*(n^2-1)/12); T and B are never both 0.)", "quantifier": "all signals of length n >= 2, n mod 4 != 1", "why_tests_cant": "All signals; an exact characterisation of the zero set.", "anchors": ["tftb/processing/time_domain.py:loctime", "tftb/processing/freq_domain.py:locfreq", "doc/_gallery/plot_2_2_2_heisenberg_gabor_inequality.py"]}
{"id": "C105", "title": "Renyi information counts components and is largest for a flat distribution", "statement": "For an integer order k >= 2, renyi_information integrates with the trapezoidal rule over timestamps and frequencies. (a) If the distribution is the sum of G distributions of which at most one is nonzero at each point, all with the integral and the integral of the k-th power of the first, whose information is R, then the information R' of the sum satisfies 2^((1-k)R') - eps = (2^((1-k)R) - eps)/G^(k-1), and R' <= R + log2(G): equal, disjoint components are counted (up to the eps = 2^-52 the code adds before the logarithm). (b) A non-negative distribution has at most the information of the constant one, which is below log2 of the area of the grid. (c) With the defaults the timestamps are 0..N-1 and the frequencies the row numbers; the timestamps' offset does not matter.  (d) For a negative order -k the integrand is the k-th power of the reciprocal. Order 1 gives minus the double integral of p log2(p + eps), always a number, for non-negative distributions of positive integral.", "quantifier": "all orders k >= 2, all grids, all distributions with finite information", "why_tests_cant": "Inequalities over all distributions and all orders.", "anchors": ["tftb/processing/postprocessing.py:renyi_information", "doc/_gallery/noplot/noplot_5_3_renyi_information.py"]}
{"id": "C106", "title": "Components further apart than the window do not interfere", "statement": "Let x and y have equal length and let every nonzero sample of x be more than 2h samples from every nonzero sample of y, where h = (len(w)-1)//2 is the half-length of the window (for the spectrogram, the largest lag used). Then for a*x + b*y the squared modulus of ShortTimeFourierTransform, the Spectrogram and the PseudoWignerVilleDistribution are each |a|^2 times that of x plus |b|^2 times that of y, entry by entry, with NaN columns of the spectrogram at the same places. The WignerVilleDistribution is different: unit impulses 2d samples apart give 2*cos(2*pi*f*d/n) in row f half way between them, where each alone gives 0, whatever d. The STFT and the pseudo Wigner-Ville parts hold for windows of any length compared with the number of bins.", "quantifier": "all pairs of signals, coefficients, windows, numbers of bins, timestamps", "why_tests_cant": "All pairs of separated signals and windows.", "anchors": ["tftb/processing/linear.py:ShortTimeFourierTransform.run", "tftb/processing/cohen.py:Spectrogram.run", "tftb/processing/cohen.py:PseudoWignerVilleDistribution.run", "tftb/processing/cohen.py:WignerVilleDistribution.run"]}
{"id": "C107", "title": "Reassigned spectrogram of an impulse", "statement": "Let x be zero except for x[k] = a, with default timestamps, and let the window be real with at least 3 samples. The reassigned spectrogram moves every cell above the threshold |a|^2/(10^6*len(x)) to column k (and from row j to row (j-1) mod n), so every cell outside column k ends up 0 or keeps a value at most the threshold; row r of column k is the sum of the above-threshold cells of row r (plus its own). (False for k = len(x)-1: index -1 is read at the left edge, and cells of the first columns, which are at least the window's length from the impulse, are sent to column 0. True for k < len(x)-1.)", "quantifier": "all positions and amplitudes, all real windows, all numbers of bins", "why_tests_cant": "All signals of the family with all windows; a bound on every cell.", "anchors": ["tftb/processing/reassigned.py:spectrogram"]}
{"id": "C108", "title": "What a plot shows", "statement": "In every picture drawn by plot() of an object with n_fbins = n rows, the matrix handed to matplotlib (image, contour, surface or wireframe, with or without show_tf) has, for the STFT, Margenau-Hill and pseudo Margenau-Hill classes, n//2 rows whose entry is the squared modulus of the object's entry; for the Spectrogram n//2 rows with the entries themselves; for the Wigner-Ville and pseudo Wigner-Ville classes all n rows with the modulus (sqmod=False) or the squared modulus (sqmod=True); and in each case the entries not above threshold times the largest one among the drawn rows are 0.", "quantifier": "all objects, kinds of picture and thresholds", "why_tests_cant": "All matrices and thresholds; matplotlib's output is not compared by tests.", "anchors": ["tftb/processing/base.py:BaseTFRepresentation.plot", "tftb/processing/linear.py:ShortTimeFourierTransform.plot", "tftb/processing/cohen.py:MargenauHillDistribution.plot", "tftb/processing/cohen.py:WignerVilleDistribution.plot", "tftb/processing/cohen.py:Spectrogram.plot"]}
{"id": "C109", "title": "The Hough transform finds lines", "statement": "For an image with non-negative pixels, every entry of hough_transform(image) lies between 0 and the total brightness of the pixels above 5% of the maximum, and equals that total exactly when all those bright pixels fall in the entry's strip (angle theta, distance nearest to rho). Bright pixels all in row a put the full total in the entry of angle 0 (row at or above the centre) or pi (below, even number of angles); bright pixels in one column at 3pi/2 or pi/2 (number of angles divisible by 4). For an N x N image (N >= 3) with default sizes whose bright pixels lie in one row strictly above the centre including both ends, the maximum of the transform is attained in exactly one entry: angle 0 and row round(x(N-1)sqrt(2)/N), x the row's distance from the centre.", "quantifier": "all images, sizes and positions of the line", "why_tests_cant": "All images and sizes: the uniqueness of the peak depends on the spacing of the grid against the sine of the smallest angle.", "anchors": ["tftb/processing/postprocessing.py:hough_transform", "doc/_gallery/plot_5_4_2_hough_noisy_chirp.py"]}
{"id": "C110", "title": "The Wigner-Ville distribution determines the signal up to a phase", "statement": "Two signals of the same length whose WignerVilleDistribution (n >= 2 bins) agree differ only by a constant factor of modulus 1. (False: they agree exactly when the samples of even index agree up to one phase and those of odd index up to another, e.g. [1, 1] and [1, -1]. Every product x[a] conj(x[b]) with a - b even is recovered by an inverse transform of column (a+b)/2.)", "quantifier": "all signals, all numbers of bins for which the run returns", "why_tests_cant": "A statement about all pairs of signals.", "anchors": ["tftb/processing/cohen.py:WignerVilleDistribution.run"]}
{"id": "C111", "title": "The ambiguity function is the two-dimensional Fourier transform of the Wigner-Ville distribution", "statement": "For n >= 2 bins, the entry of narrow_band at Doppler k/n and lag tau (2|tau| <= n) is (1/n) times the sum over times t and bins f of the Wigner-Ville entry times exp(2 i pi (f tau - k t)/n), and with the default lags and n at least the length of the signal the Wigner-Ville entry is the inverse sum. Delaying the signal by s samples (no truncation) multiplies the ambiguity function by exp(-2 i pi k s/n), modulating it by exp(2 i pi m t/n) multiplies it by exp(4 i pi m tau/n): its modulus is unchanged.", "quantifier": "all signals, lags, numbers of bins, delays and modulations", "why_tests_cant": "Identity between two independently implemented functions, for all signals.", "anchors": ["tftb/processing/ambiguity.py:narrow_band", "tftb/processing/cohen.py:WignerVilleDistribution.run", "doc/_gallery/plot_4_1_3_chirps_ambifunb.py"]}
{"id": "C112", "title": "The pseudo Wigner-Ville distribution is the Wigner-Ville distribution smoothed in frequency", "statement": "Where the Wigner-Ville distribution with n >= 2 bins exists, each column of PseudoWignerVilleDistribution.run with a window of any length is (the real part of, or for Hermitian windows equal to) the circular convolution of the same column of the Wigner-Ville distribution with the transform of the middle part of the window, lags below round(n/2), divided by n.", "quantifier": "all signals, windows, timestamps, columns and bins", "why_tests_cant": "Identity between two independently implemented classes, for all signals and windows.", "anchors": ["tftb/processing/cohen.py:PseudoWignerVilleDistribution.run", "doc/_gallery/plot_4_1_2_sin_gauss_pwv.py"]}
{"id": "C113", "title": "Representations of a real signal are symmetric in frequency", "statement": "For a signal whose samples are all real (and, where there is one, a real window), every representation that ends in an FFT over lags carries each value twice. ShortTimeFourierTransform and PseudoMargenauHillDistribution return row n-f equal to the complex conjugate of row f; Spectrogram, WignerVilleDistribution, PseudoWignerVilleDistribution, MargenauHillDistribution and PageRepresentation return equal rows f and n-f; narrow_band returns conjugate values at opposite Doppler shifts. On the Wigner-Ville axis, where row f stands for the frequency f/(2n), this says a real tone shows at its frequency and again mirrored about 1/4.", "quantifier": "every real signal, real window, number of rows n, row 1 <= f < n and column of a successful call", "why_tests_cant": "Tests compare a few pictures of particular signals; the mirror images of a real signal (doc/_gallery/plot_4_1_1_wv_real_signal.py) are a property of all signals, windows and sizes, even and odd.", "anchors": ["tftb/processing/linear.py", "tftb/processing/cohen.py", "tftb/processing/ambiguity.py"]}
{"id": "C114", "title": "The dilation grid of the affine distributions has 2*m1 points in double precision", "statement": "np.arange(-umax, umax, umax/m1) of the Bertrand, Unterberger and D-Flandrin classes has 2*m1 points, the number the loop over the grid reads. (False: the point count is ceil(2 umax / fl(umax/m1)) with a rounded quotient, and when the rounded step exceeds umax/m1 by more than the quotient absorbs the grid is one point short, so run raises IndexError. Example: D-Flandrin on 102 samples with the band [0.05, 0.45], for which umax is 2 and m1 is 93.) The grid never has any other length than 2*m1 or 2*m1 - 1; an exact criterion on the rounded step decides; it is 2*m1 whenever the step rounds down and whenever m1 is a power of two. When the grid has all its points, its entry i is within 2^-53 umax / m1 of umax (i - m1) / m1, its first entry is -umax and entry m1 is 0.", "quantifier": "every positive double umax and every 1 <= m1 <= 2^50", "why_tests_cant": "Only particular pairs (umax, m1), about four in a hundred, lose a point; a test with one signal length sees none of it.", "anchors": ["tftb/processing/affine.py:BertrandDistribution.run", "tftb/processing/affine.py:UnterbergerDistribution.run", "tftb/processing/affine.py:DFlandrinDistribution.run"]}
{"id": "C115", "title": "Sizes computed through floating-point division are the integer quotients", "statement": "int(a / b), np.ceil(a / b) and np.round(a / 2.0), np.round(a / 5.0), as gabor, anabpsk, anaask, anafsk, anaqpsk and the affine class use them for sizes, equal the exact floor, ceiling and nearest integer for sizes below 2^53 (2^52 for the fifth). Beyond 2^53 they do not.", "quantifier": "all integers 0 <= a < 2^53, 0 < b < 2^53", "why_tests_cant": "Quotients just below an integer are where truncation would go wrong; the proof covers all 2^106 pairs.", "anchors": ["tftb/processing/linear.py:gabor", "tftb/generators/analytic_signals.py", "tftb/processing/affine.py:AffineDistribution.__init__"]}
{"id": "C116", "title": "The default band of the affine distributions and of wide_band, in double precision", "statement": "With fmin or fmax omitted, the band ends are 0.05 * floor(f / 0.05) and 0.05 * ceil(f / 0.05) for the lowest and highest loud frequency f = k/(2m). Computed in double precision they are those of exact arithmetic up to 2^-50 unless m divides 10 k. (False when it does: the lower end may fall and the upper end may rise by a whole 0.05. With 20 samples and highest loud bin 3 the upper end is 0.2, not 0.15; a quarter-rate tone of 196 samples gets the band [0.2, 0.25], not [0.25, 0.25].) The rounded band always contains the exact one, and exceeds it by at most one cell at each end; for m a power of two the quarter-rate frequency is exact.", "quantifier": "all 1 <= m <= 2^40 and all bins 0 <= k < m", "why_tests_cant": "The deviation occurs only at the bins that are multiples of 0.05, for some lengths and not others.", "anchors": ["tftb/processing/affine.py:AffineDistribution.__init__", "tftb/processing/ambiguity.py:wide_band"]}
{"id": "C117", "title": "Representations are bounded by the energy of the signal and stable under perturbation", "statement": "No entry of WignerVilleDistribution or narrow_band exceeds the energy E(x) of the signal in modulus, no entry of PseudoWignerVilleDistribution exceeds max|w| E(x), of ShortTimeFourierTransform |w||x|, of Spectrogram E(x), of MargenauHillDistribution and PageRepresentation |x[t]| sqrt(N) |x|. If two signals differ by d in the Euclidean norm, Wigner-Ville and ambiguity function differ in every entry by at most d (|x| + |y|), pseudo Wigner-Ville by max|w| times that, the short-time Fourier transform by |w| d and the square root of the spectrogram by d. The bounds with a window hold for windows of any length compared with the number of bins.", "quantifier": "all signals, windows, timestamps, bins and columns of successful calls", "why_tests_cant": "Extremal statements over all signals; no finite set of signals shows that noise of small energy can nowhere be amplified.", "anchors": ["tftb/processing/cohen.py", "tftb/processing/linear.py:ShortTimeFourierTransform", "tftb/processing/ambiguity.py:narrow_band"]}
{"id": "C118", "title": "Uncertainty: how few cells a signal can occupy", "statement": "A non-zero signal has (number of non-zero samples) times (number of non-zero bins of get_spectrum) at least its length; a column of the short-time Fourier transform that is not zero has (non-zero rows) times (non-zero samples under the window) at least n; a Wigner-Ville distribution with n bins has at least n/2 non-zero cells. This is the form of the uncertainty principle that does hold in discrete time (the one on loctime and locfreq does not, see C104). This includes windows longer than the number of bins, with the non-zero samples under the part of the window used.", "quantifier": "all non-zero signals, windows, numbers of bins", "why_tests_cant": "A statement about the sparsest possible signal.", "anchors": ["tftb/processing/cohen.py:WignerVilleDistribution.run", "tftb/processing/linear.py:ShortTimeFourierTransform.run", "tftb/processing/utils.py:get_spectrum"]}
{"id": "C119", "title": "Quadratic superposition", "statement": "PseudoWignerVilleDistribution, narrow_band, MargenauHillDistribution, PageRepresentation and Spectrogram satisfy the parallelogram law: the representation of x+y plus that of x-y is twice that of x plus twice that of y, entry by entry (for WignerVilleDistribution see C27). None is additive. Windows may be longer than the number of bins.", "quantifier": "all pairs of signals of the same length, windows, timestamps, bins", "why_tests_cant": "Identity between four runs for all signals.", "anchors": ["tftb/processing/cohen.py", "tftb/processing/ambiguity.py:narrow_band"]}
{"id": "C120", "title": "Which representations of the Cohen class are functions of the Wigner-Ville distribution", "statement": "Two signals with the same WignerVilleDistribution have the same PseudoWignerVilleDistribution, the same smoothed_pseudo_wigner_ville and the same narrow_band, for every choice of windows and sizes. (In theory every member of the Cohen class is a smoothing of the Wigner-Ville distribution; in this discretisation that is false for MargenauHillDistribution, PageRepresentation and Spectrogram: [1, 1, 0] and [1, -1, 0] have the same Wigner-Ville distribution and different ones of these.) Windows may be longer than the number of bins.", "quantifier": "all pairs of signals with equal Wigner-Ville distributions, all windows and numbers of bins", "why_tests_cant": "Needs all signals sharing a distribution; the exceptional pairs differ by a sign on odd samples.", "anchors": ["tftb/processing/cohen.py"]}
{"id": "C121", "title": "A result returned by run() is not changed by later calls", "statement": "Whatever calls of run() and plot() follow, in any order and whether or not they raise: the arrays the caller passed in (signal, timestamps, window) are never written; a matrix returned by run() is final once a later run() has returned, and, for every class but Spectrogram and Page, once plot() has been called. Until then it is the object's own array. (False for the call in between: a second run() directly after the first writes its lag table into the matrix the first one returned. STFT: row t mod n of column c becomes the windowed sample of lag t; Spectrogram with a window without zeros: the real part of the windowed sample divided by the norm of the window section; Wigner-Ville: the real part of x[c+t] conj(x[c-t]); the other rows stay. For three ones the middle entry of row 0 goes from 3 to 1.) (Calls that raise write too: a Wigner-Ville or pseudo Wigner-Ville run that raises leaves the lag products of the columns up to the failing one in the object's matrix. After Spectrogram.plot a run works on the first n/2 rows of the matrix already returned: it raises IndexError at the first timestamp with a lag whose row lies beyond them and otherwise returns n/2 rows, and in both cases the windowed samples of the timestamps handled are left in the returned matrix.)", "quantifier": "all classes of representation (STFT, Spectrogram, Wigner-Ville, pseudo Wigner-Ville, Margenau-Hill, Page, pseudo Margenau-Hill), all histories of calls", "why_tests_cant": "Aliasing between returned arrays and object state over arbitrary call histories.", "anchors": ["tftb/processing/linear.py:ShortTimeFourierTransform.run", "tftb/processing/cohen.py:WignerVilleDistribution.run", "tftb/processing/cohen.py:Spectrogram.run", "tftb/processing/cohen.py:Spectrogram.plot"]}
{"id": "C122", "title": "A signal played backwards, or conjugated, has the mirrored representation", "statement": "Reversing a signal of N samples reverses the WignerVilleDistribution in time and negates its frequencies: row -f mod n, column N-1-t carries what row f, column t carried. Conjugating it negates the frequencies only, so the reversed conjugate has the same picture read from right to left. The same holds for PseudoWignerVilleDistribution with a symmetric window. For ShortTimeFourierTransform and Spectrogram with a symmetric window the columns are labelled one sample late, so reversal exchanges the instants t and N+1-t (the spectrogram is NaN at matching columns). narrow_band of the reversed signal is a unit phase times the conjugate. (False for MargenauHillDistribution, where the exact difference is the term of sample 0 less the term of sample N-1, because the code leaves sample 0 out: an impulse at sample 0 gives 0 and its reversal gives 1. False for PageRepresentation.) For real windows the pseudo Wigner-Ville part needs neither symmetry nor a short window, and the conjugation part for the STFT needs no short window; the reversal part for the STFT is false for windows longer than the number of bins.", "quantifier": "all signals, windows of the stated kind, numbers of bins, timestamps, rows and columns", "why_tests_cant": "A mirror identity relates every entry of two outputs for every signal; the tests compare single fixed arrays.", "anchors": ["tftb/processing/cohen.py", "tftb/processing/linear.py", "tftb/processing/ambiguity.py"]}
{"id": "C123", "title": "When the generators warn about aliasing", "statement": "fmhyp, fmpar and fmpower issue a UserWarning exactly when the frequency law they return has an entry below 0 or above 1/2. For fmhyp with both given points inside [0, 1/2] and times that surround the signal there is no warning. (False for fmpar: the law tested is not the frequency of the signal returned, so an aliased signal can be silent, and a law with both ends in range can warn. False for fmpower: a positive degree with a non-zero coefficient makes the law infinite at sample 0, so the warning is issued on every call, the docstring's own call included.)", "quantifier": "every length, every real coefficient, every degree except 1", "why_tests_cant": "whether the warning fires depends on real inequalities over the whole law; a test looks at a few laws", "anchors": ["tftb/generators/frequency_modulated.py:fmhyp", "tftb/generators/frequency_modulated.py:fmpar", "tftb/generators/frequency_modulated.py:fmpower"]}
{"id": "C124", "title": "Rows, columns and matrices as signals", "statement": "A signal given as an array of shape (1, n) or (n, 1) gives the same result as the vector in locfreq, inst_freq (times included), group_delay, wide_band and the linear and Cohen classes. A matrix without a dimension of length 1 raises TypeError in locfreq, inst_freq and group_delay, ValueError in wide_band, AssertionError in sigmerge, IndexError in the affine constructors, and is silently flattened row by row by the other classes. (False for loctime: its test lets two-dimensional arrays through. A column of n samples always gives (n-1)/2 and the spread of n equal samples, a row always gives (0, 0), a square matrix gives the centre of the energy of its columns, any other matrix raises ValueError. sigmerge and the affine constructors reject rows and columns; narrow_band rejects every two-dimensional array with more than one sample.)", "quantifier": "every array: one dimension, two dimensions of any size, or more", "why_tests_cant": "the outcome depends on the shape through broadcasting rules; a test tries a few shapes", "anchors": ["tftb/processing/time_domain.py:loctime", "tftb/processing/freq_domain.py:locfreq", "tftb/processing/freq_domain.py:inst_freq", "tftb/processing/freq_domain.py:group_delay", "tftb/processing/ambiguity.py:wide_band", "tftb/processing/ambiguity.py:narrow_band", "tftb/processing/affine.py:AffineDistribution.__init__", "tftb/processing/base.py:BaseTFRepresentation.__init__", "tftb/generators/utils.py:sigmerge"]}
{"id": "C125", "title": "What the affine representations see of the signal", "statement": "The scalogram and the Bertrand, D-Flandrin and Unterberger distributions depend on the real part of the signal only. Multiplying the signal by a real number a <> 0 multiplies the matrix by a**2 (and the wavelet coefficients by a) and changes neither the axes, the default band nor the exception raised. With an explicit band, adding a constant to the signal changes nothing in the scalogram.", "quantifier": "all signals, all real factors and offsets, all arguments; the spline fit is any map linear in the values", "why_tests_cant": "A test compares one signal and one factor; that the default band, the number of voices and every exception are unchanged needs all of them.", "anchors": ["tftb/processing/affine.py:Scalogram", "tftb/processing/affine.py:AffineDistribution"]}
{"id": "C126", "title": "plot(sqmod=False) leaves the matrix returned by run() alone and keeps its loud entries", "statement": "After run(), ShortTimeFourierTransform.plot(sqmod=False, threshold=th) and the same call of (Pseudo)MargenauHillDistribution draw the entries above th times the largest and do not change the array that run() returned. (False on both counts. The first n/2 rows of the array run() returned are overwritten: entries not above th times the largest become 0, the other rows stay. The comparison is numpy's order of complex numbers, real part first: with 0 <= th < 1 every entry with a negative real part is erased, however large its modulus, so a -5 goes and a 1 stays. For the two classes with complex matrices the default kind then raises TypeError, after the damage; surf and wireframe draw the moduli of what is left. With one bin or no columns: ValueError, the array is untouched but self.tfr is already cut. Spectrogram and Page refuse the keyword with TypeError and change nothing; for the Wigner-Ville classes sqmod=False is the default and allocates a new array.)  STFT.plot(sqmod=False) also cuts freqs to the rows kept; the Margenau-Hill classes keep all.", "quantifier": "all signals, timestamps, bins, windows, thresholds and kinds of drawing, right after a first run()", "why_tests_cant": "A test sees a picture or an exception, not that the caller's array was rewritten, and only for one matrix.", "anchors": ["tftb/processing/linear.py:ShortTimeFourierTransform.plot", "tftb/processing/cohen.py:MargenauHillDistribution.plot", "tftb/processing/cohen.py:Spectrogram.plot", "tftb/processing/base.py:BaseTFRepresentation.plot"]}
{"id": "C127", "title": "Exponential envelopes and Klauder wavelets consist of finite numbers", "statement": "For every positive spread amexpos returns finite numbers and for every attenuation klauder does, in double precision. (True for kind='bilateral'. False for kind='unilateral': before the centre exp is computed and then multiplied by False, so a sample k < t0 is NaN as soon as exp(sqrt(pi)*(t0-k)/spread) overflows, for instance when t0-k >= 500*spread; the other samples before the centre are 0 and those from the centre on follow the formula or underflow to 0. False for klauder: when 2*pi*attenuation*f0 - 1/2 >= 538 the norm underflows to 0 and every sample is infinite or NaN, whatever n_points; at f0 = 0.2 this is an attenuation of 429.)  The limits are those of double precision: a number rounds to infinity (to zero) exactly when it lies beyond them. With spread 0 every sample of amexpos is 0 or NaN; with a negative spread the envelope overflows to infinity, never to NaN.", "quantifier": "all sizes, centres, spreads, attenuations and centre frequencies", "why_tests_cant": "Tests use moderate spreads and attenuations; the failure is a NaN or an infinity that appears only far from the default parameters.", "anchors": ["tftb/generators/amplitude_modulated.py:amexpos", "tftb/generators/misc.py:klauder"]}
{"id": "C128", "title": "Modulating or delaying the signal moves its spectrogram, pseudo Wigner-Ville, Margenau-Hill and Page representations", "statement": "Multiplying the signal by exp(2i*pi*m*k/n) turns the rows of Spectrogram, MargenauHillDistribution and PageRepresentation by m and multiplies the turned PseudoMargenauHillDistribution by a unit number; exp(i*pi*m*k/n) turns those of PseudoWignerVilleDistribution. Delaying the signal by s samples (zeros prepended) delays each of them by s columns. (False for PageRepresentation under modulation, where only the real part of a rotated number is kept; for Spectrogram under delay near the left edge, where the window gains samples to be normalised by; and for MargenauHillDistribution under delay, which gains the products with the first sample. The exact values are given in each case; narrow_band is C111, the other two C13, C14, C27.)", "quantifier": "all signals, windows, timestamps, bins, integer m and s >= 0", "why_tests_cant": "Exact covariance over all inputs; the failures sit at edges and in single terms that smooth test signals hide", "anchors": ["tftb/processing/cohen.py:Spectrogram.run", "tftb/processing/cohen.py:PseudoWignerVilleDistribution.run", "tftb/processing/cohen.py:MargenauHillDistribution.run", "tftb/processing/cohen.py:PageRepresentation.run", "tftb/processing/cohen.py:PseudoMargenauHillDistribution.run"]}
{"id": "C129", "title": "A number of frequency bins that is not a positive integer raises", "statement": "With a negative n_fbins every representation of linear.py and cohen.py (and smoothed_pseudo_wigner_ville) raises ValueError, so does an empty signal with default arguments (pseudo Page: IndexError). With n_fbins = 0: Spectrogram raises ValueError; the STFT IndexError for at least two timestamps, a signal and a window, else ValueError; Wigner-Ville IndexError for at least two samples and as many timestamps, else ValueError; pseudo Wigner-Ville IndexError as soon as there is a column, a sample and a window; Margenau-Hill and Page IndexError exactly when a timestamp lies outside -N..N-1; pseudo Margenau-Hill, pseudo Page and the smoothed one IndexError when there is a timestamp. A floating-point n_fbins raises TypeError, ValueError if it is negative and no window is given.", "quantifier": "all signals, timestamps, windows; n_fbins <= 0 or of float type", "why_tests_cant": "The exception depends on the class, the signs and the emptiness of four arguments; a test picks a few combinations.", "anchors": ["tftb/processing/base.py:BaseTFRepresentation.__init__", "tftb/processing/cohen.py", "tftb/processing/linear.py"]}
{"id": "C130", "title": "The circular mean frequency of a Wigner-Ville column is the instantaneous frequency", "statement": "For a WignerVilleDistribution of a signal x with n >= 2 bins that returns, and an interior instant t, the sum over the rows j of tfr[j,t]*exp(4*pi*i*freqs[j]) is n*|x[t+1]|*|x[t-1]|*exp(4*pi*i*f), f being what inst_freq reports for the instant t+1. So where the two samples do not vanish and 0 < f < 1/2 the column determines what inst_freq returns, also for another signal with the same column. PseudoWignerVilleDistribution with a Hermitian window shorter than the number of bins gives the same sum multiplied by the window at lag one. For Margenau-Hill the moment of order m of column t is n/2 times x[t] conj(x[t-m]) + conj(x[t]) x[t+m] (for Page the same with t-1-m and t-1+m in place of t-m and t+m), so for three samples of equal modulus the square of the first moment points in the direction of twice the instantaneous frequency.", "quantifier": "all signals, all numbers of bins n >= 2 for which the run returns, all interior instants, all windows, every function np.angle may be", "why_tests_cant": "tests look at single signals; this ties two modules (cohen and freq_domain) together for all of them", "anchors": ["tftb/processing/cohen.py:260-330", "tftb/processing/freq_domain.py:65-77"]}
{"id": "C131", "title": "The programs of the documentation gallery run", "statement": "The programs of doc/_gallery, as functions of their sizes and frequencies (n points, frequencies in -1/2..1/2). Chirps, noisy and simultaneous chirps: n samples; WignerVilleDistribution and the Hough transform of it return unless n = 1 mod 4 (then IndexError); noisy ones need 2^p >= 4 points and draws that are not constant (with constant draws the signal is NaN). Chirp with a Gaussian envelope: loctime and locfreq return a positive duration and a mean frequency in -2/3..1/2, group_delay returns for every grid, inst_freq returns the law of the chirp one sample later. Sums of chirps: spectrogram, STFT, inst_freq and group delay of the expected shapes for every window. Transient in noise, tone plus packet, two packets (Wigner-Ville and narrow band ambiguity), doppler sound, two or four Gaussian atoms, analytic impulse: the pictures, in logarithmic scale too, are drawn. Gabor programs return matrices of shape 16 x 16 and 32 x 32. The affine programs return on the geometric grid for every number of voices >= 2, the wide band ambiguity of the altes signal has n columns of N delays over -ln(fmax/fmin)..ln(fmax/fmin). The Friedman density is a probability (non-negative, sum 1). The hybrid programs: spectrogram, reassigned spectrogram and ideal_tfr with every law value marked. (False for the programs of noplot/: PseudoPageRepresentation(sig).run() raises IndexError, reassigned pseudo_page, pseudo_margenau_hill and smoothed pseudo Wigner-Ville without windows raise TypeError, 256 voices of 64 samples raise IndexError.)", "quantifier": "all numbers of points, frequencies in the ranges given, ratios, envelopes of positive width, all random draws", "why_tests_cant": "the gallery programs fix one size and one pair of frequencies, nothing checks their results, and those in noplot/ are never run", "anchors": ["doc/_gallery/plot_1_3_1_chirp_wv.py", "doc/_gallery/plot_1_3_1_noisy_chirp.py", "doc/_gallery/plot_1_3_3_transient.py", "doc/_gallery/plot_2_2_1_time_freq_localization.py", "doc/_gallery/plot_2_3_instantaneous_frequency.py", "doc/_gallery/plot_2_4_grp_delay_inst_freq_comprison.py", "doc/_gallery/plot_2_7_multicomp_nonstat_stft.py", "doc/_gallery/plot_3_1_4_atoms_hamming_stft.py", "doc/_gallery/plot_3_3_2_biorthonormal_window_gabor.py", "doc/_gallery/plot_3_4_2_morlet_scalogram_dirac_impulse.py", "doc/_gallery/plot_4_1_1_doppler_wigner_ville.py", "doc/_gallery/plot_4_1_1_wv_atoms.py", "doc/_gallery/plot_4_1_3_chirps_ambifunb.py", "doc/_gallery/plot_4_2_2_bertrand_hyperbolic_gd.py", "doc/_gallery/plot_4_2_3_wideband_ambiguity.py", "doc/_gallery/plot_4_3_2_reassigned_spectrogram.py", "doc/_gallery/plot_4_3_6_friedman_instfreq_density.py", "doc/_gallery/plot_5_4_2_hough_noisy_chirp.py", "doc/_gallery/plot_5_4_2_hough_simultaneous_chirp.py", "doc/_gallery/noplot/noplot_4_3_5_page_margenau_hill.py", "doc/_gallery/noplot/noplot_5_5_scalogram_singularity.py"]}
{"id": "C132", "title": "What the library's own tests assert, for all parameters", "statement": "The assertions of the test suite, with the numbers in them made arbitrary. Spectrogram: a column depends on the samples under its window only, so that the columns of np.roll(x, s) are the rolled columns of x wherever the window fits on both sides (test_spectrogram_time_invariance); for a signal of constant modulus it sums to n_fbins times the energy, when the window reaches a neighbouring sample, in particular with the default window from 8 bins on (test_spectrogram_energy_conservation). The pseudo Wigner-Ville distribution sums to n_fbins times the centre of the window times the energy. Narrow band ambiguity function: |A(0,0)|^2 <= volume / (n_fbins / 2), with equality (what test_volume_invariance asserts) exactly when the even and the odd samples hold the same energy. (False in general: one sample.) derive_window of a symmetric non-negative window that does not decrease up to its centre is >= 0 before, 0 at and <= 0 after the centre. amgauss: convex before floor(b - c) - 1, concave from there to floor(b + c), convex after, c = spread / sqrt(2 pi). mexhat: exactly one sample above both neighbours, the centre; when 2 (pi nu)^2 >= 3 the samples next to it are the only ones below both. loctime of a Gaussian centred on sample t is t - 1 when n = 2t - 1 and more than that for longer signals. inst_freq of fmlin inside (0, 1/2) is linear, starting and ending one step inside the law. The two tests of the STFT skipped as known failures (conjugation against reversal, translation as a phase) are false: a signal of two samples.", "quantifier": "all signals, windows, sizes, rolls, centres, spreads and frequencies", "why_tests_cant": "The tests check one signal and one window each, with tolerances; that the volume test only passes because the even and odd samples of its signal have nearly equal energy cannot be seen from it.", "anchors": ["tftb/processing/tests/test_cohen.py:29-64", "tftb/processing/tests/test_cohen.py:123-131", "tftb/processing/tests/test_ambiguity.py:57-65", "tftb/processing/tests/test_utils.py:20-27", "tftb/processing/tests/test_linear.py:32-60", "tftb/generators/tests/test_amplitude_modulations.py:11-39", "tftb/generators/tests/test_misc.py:51-66", "tftb/processing/tests/test_time_domain.py:21-26", "tftb/processing/tests/test_freq_domain.py:23-29"]}
{"id": "C133", "title": "What the docstring programs show", "statement": "The programs of doc/docstring_plots with arbitrary sizes and parameters. inst_freq(fmsin(n,fmin,fmax,period)[0]) with 0 <= fmin < fmax <= 1/2: n-2 values strictly between fmin and fmax, each equal to mid + (law[k+1]-mid)*sin(a)/a with a = 2*pi/period and mid the middle of the band (so with period 2 the modulation is not seen at all). fmodany of the laws of fmlin(n) and fmsin(m) appended: n+m samples of modulus 1 following the joint law, equal to 1 at index 1. amgauss(n,c,s)*fmconst(n,f,c)[0]: the phase is zero at sample c, one after the maximum of the envelope, where the value is exp(-2*pi*i*f); with fmlin the value at the maximum is 1. inst_freq of dopnoise at instants a..b-1: values in [0,1/2] when 2 <= a and b <= n-1, IndexError when b > n-1. ShortTimeFourierTransform of two tones of n samples one after the other: 2n rows and columns; a column c whose window about sample c-1 lies in one half shows in row f the modulus of the Hamming window's transform at the offset between that half's frequency and f/(2n), at most the sum of the window and equal to it at offset 0.", "quantifier": "all sizes, frequencies, periods, spreads, random draws and angle conventions", "why_tests_cant": "the programs fix one set of numbers and only draw a picture", "anchors": ["doc/docstring_plots/processing/freq_domain/inst_freq.py", "doc/docstring_plots/generators/frequency_modulated/fmodany.py", "doc/docstring_plots/generators/frequency_modulated/fmconst.py", "doc/docstring_plots/generators/frequency_modulated/fmlin.py", "doc/docstring_plots/generators/noise/dopnoise.py", "doc/docstring_plots/processing/stft.py"]}
{"id": "C134", "title": "Frequency-domain estimators follow scaling, delay, modulation and conjugation", "statement": "locfreq(x) is unchanged by a non-zero complex factor and by a circular delay (including the calls that raise or give NaN); multiplying by exp(2 pi i m k/n) adds m/n to the mean and keeps the bandwidth when no component passes the end of the axis (otherwise the mean wraps: refuted in general). inst_freq at instants 2..n-1: a non-zero factor and a multiplication by exp(2 pi i f0 k) add f0 to each estimate modulo 1/2 where both samples are non-zero; conjugation turns f into 1/2 - f (or leaves it at an end of the range). group_delay with given frequencies: a non-zero factor and a multiplication by exp(2 pi i f0 k) read the estimates at f - f0, conjugation at -f; prepending s zeros adds s to every non-zero estimate and keeps NaNs.", "quantifier": "all signals, factors, delays, frequencies, instants and angle conventions", "why_tests_cant": "the tests check single tones and impulses", "anchors": ["tftb/processing/freq_domain.py:locfreq", "tftb/processing/freq_domain.py:inst_freq", "tftb/processing/freq_domain.py:group_delay"]}
{"id": "C135", "title": "The keyword arguments of plot", "statement": "BaseTFRepresentation.plot with extent, contour_x, contour_y, levels, freq_x, freq_y given or not. Without show_tf only kind and extent count: contour_x, contour_y, levels, freq_x and freq_y are accepted and have no effect (levels that do not increase raise nothing and matplotlib's own levels are used: levels are refuted as an option of the plain contour plot). A call without extent raises ValueError when there are no instants or no frequencies; a given extent is the image's extent. With show_tf the side line has freq_x against freq_y: different lengths raise ValueError, both empty raise IndexError for an affine class, otherwise the picture is the image (nothing for surf and wireframe), the signal and that line; contours on given grids and levels raise TypeError unless the grids have the matrix's sizes, at least 2, and ValueError unless the levels increase, before the side line is looked at.", "quantifier": "all options, matrices, signals, axes and both kinds of class", "why_tests_cant": "no test passes these options", "anchors": ["tftb/processing/base.py:plot", "tftb/processing/base.py:_plot_tfr", "tftb/processing/base.py:_plot_spectrum"]}
{"id": "C136", "title": "plot: which keywords reach the drawing, and on which figure it is made", "statement": "For any keyword arguments d: ShortTimeFourierTransform.plot passes on everything but sqmod, with defaults for ax, kind, threshold; Spectrogram.plot(sqmod=...) and MargenauHillDistribution.plot(extent=...) raise TypeError, otherwise the former passes everything on (threshold 0 by default) and the latter everything but threshold and sqmod; WignerVilleDistribution.plot passes on everything but sqmod and scale, and with scale='log' replaces the levels that were given; PseudoWignerVilleDistribution.plot the same with kind='contour' by default; the affine classes drop threshold and default to contours beside signal and spectrum. Without show_tf an image receives every keyword plot does not know, and aspect or origin raise TypeError. ax is the axes the plot is drawn on. (False: whatever ax is, plot draws on new figures only and leaves the existing ones as they were, also when it raises; one new figure, two with an empty one for kind='surf', none when it cannot compute the extent. The panels of doc/misc_plots/uncertainty_stft.py stay empty.) When the spectrum cannot be drawn beside a picture the new figure keeps the picture and the signal, with an empty line in the third axes for IndexError and nothing there otherwise.", "quantifier": "all keyword dictionaries, options, representations and existing figures", "why_tests_cant": "the tests never plot", "anchors": ["tftb/processing/base.py:plot", "tftb/processing/linear.py:plot", "tftb/processing/cohen.py:plot", "tftb/processing/affine.py:plot", "doc/misc_plots/uncertainty_stft.py"]}
{"id": "C137", "title": "Post-processing follows its input", "statement": "hough_transform of c times an image (c > 0) is c times the transform with the same axes, for every image, size and outcome (same exception when it raises); for c < 0 this is false. friedman_density and ridges of c times a distribution (c > 0) return exactly what they return for the distribution. Turning an image with odd sides by half a turn rolls the accumulator by n/2 angles (n even) and keeps both axes; transposing any image reflects the angles, k -> 3n/4 - k mod n (n a multiple of 4). The image of ideal_tfr of a constant frequency f whose row lies past the centre has one largest Hough cell, N votes at angle 0 and at the distance of that row. friedman_density of a field that moves nothing is uniform on the cells above half the mean.", "quantifier": "all c > 0, all images and distributions, all accumulator sizes with the stated divisibility, all frequencies in [0, 1/2] and all N >= 3", "why_tests_cant": "The claims relate pairs of runs over real factors, arbitrary images and all sizes.", "anchors": ["tftb/processing/postprocessing.py:hough_transform", "tftb/processing/postprocessing.py:friedman_density", "tftb/processing/postprocessing.py:ridges", "tftb/processing/postprocessing.py:ideal_tfr"]}
{"id": "C138", "title": "Frequency grids made with np.arange", "statement": "np.arange(start, stop, step) in double precision has ceil(q) entries for a q within 3 units 2^-53 (relative) of (stop - start)/step. For start 0, step 2^j and stop k 2^j with k < 2^53 the grid is exactly 0, 2^j, ..., (k-1) 2^j. The grid np.arange(0.1, 0.38, step=0.04) of the group_delay docstring and test has 8 entries, and the last one equals the stop value 0.38, so group_delay returns 8 delays there where exact arithmetic gives 7; hence the stop value is not always excluded. The grid np.arange(0.51, step=0.01) of the gallery has 51 entries, entry k within 2e-16 of k/100, and group_delay returns 51 delays.", "quantifier": "all start <= stop and step > 0; all dyadic steps and counts; all signals for the two programs", "why_tests_cant": "The count sits on a rounding tie: whether the last point is included depends on exact 53-bit arithmetic.", "anchors": ["tftb/processing/freq_domain.py:group_delay", "tftb/processing/tests/test_freq_domain.py:test_group_delay"]}
{"id": "C139", "title": "The reassigned spectrogram of a tone", "statement": "Let x[m] = a exp(2 i pi f m), let the window be real and symmetric, and let the column's window lie inside the signal. Then reassigned.spectrogram gives tfr[j,i] = |a|^2 gain(t)^2 / (energy of the window), with t = 2 pi (j/n - f) and gain(t) the sum of w[k] cos(k t). A cell with tfr > |a|^2/10^6 is moved to row (j - round(n/(2 pi) (sin t + w_L (sin Lt - sin (L+1)t)/gain)) - 1) mod n and column max(0, i-1); other cells stay. If the window is zero at its ends the destination row is p - 1 with |p - n f| <= 1/2 + 2 pi^2 |d|^3/(3 n^2), d the distance of the cell from the tone in bins. If moreover the tone is on bin k0, every such cell at most D bins away, 4 pi^2 D^3 < 3 n^2, goes to row k0 - 1 (mod n), one row and one column before the tone, so this one cell of rtfr holds at least the energy of these 2D+1 cells less (2D+1)|a|^2/10^6.", "quantifier": "all tones, frequencies, real symmetric odd windows, frequency bins, instants at which the window fits, all cells", "why_tests_cant": "The destination depends on a rounded quotient of two Fourier transforms; a test sees single windows and frequencies and cannot separate the one-cell offset and the sine law from numerical noise.", "anchors": ["tftb/processing/reassigned.py:spectrogram", "tftb/processing/utils.py:derive_window"]}
{"id": "C140", "title": "The thresholds of the gallery programs", "statement": "The programs of doc/_gallery set small entries to zero before drawing. (a) np.amax(np.abs(tfr)) * c, np.abs(tfr) <= threshold: raises ValueError exactly for an empty matrix; else keeps the entries above c times the greatest modulus g unchanged and zeroes the others, keeps the greatest modulus, follows scaling by a complex number, and loses at most (g c)^2 of energy per entry; thresholding at c and then at d is thresholding at max(c, d). (b) The same with np.abs(tfr) ** 2 at c equals (a) at sqrt c. (c) The real form np.amax(tfr) * c leaves no negative entry. (d) noplot_4_1_2_sin_gauss_spwv.py compares each entry with 5% of itself, which removes nothing. (e) The fourth picture of noplot_4_3_5_page_margenau_hill.py does not depend on the reassigned matrix: it is the square of the third one cut at sqrt c.", "quantifier": "all complex and real matrices, all factors c in [0, 1)", "why_tests_cant": "A picture is looked at, not asserted; an ineffective threshold and a picture of the wrong matrix raise no error.", "anchors": ["doc/_gallery/noplot/noplot_4_1_2_sin_gauss_spwv.py", "doc/_gallery/plot_2_7_multicomp_nonstat_stft.py", "doc/_gallery/noplot/noplot_4_3_5_page_margenau_hill.py", "tftb/processing/linear.py:ShortTimeFourierTransform.plot"]}
{"id": "C141", "title": "The affine distributions with the band given backwards", "statement": "Nothing checks that fmin < fmax. With 0 < fmax < fmin: (a) BertrandDistribution always raises ValueError in the constructor. (b) DFlandrinDistribution without n_voices always raises in the constructor, ValueError when the padded length T is set and AttributeError otherwise; with n_voices given it is constructed with the root of the band the right way round, and for n_voices >= 2, three samples or more and two instants or more run returns, with freqs going down from fmin to fmax in a constant ratio. (c) UnterbergerDistribution gets a negative umax; the padded half length m1 is within 1/2 of 1 - 2 m fmax |umax|; without n_voices and with m1 >= 1 the constructor raises ValueError; whenever an object is constructed, run raises: ZeroDivisionError for one voice, IndexError when m1 = 0 and there are two voices or more, ValueError otherwise. (d) When (fmin - fmax) (n - 2) > 1, n the number of instants, every matrix of numbers that DFlandrinDistribution or Scalogram returns is zero throughout: the matrix is scaled by the energy of an empty slice of the spectrum.", "quantifier": "all signals, all 0 < fmax < fmin, all n_voices, every interpolating spline", "why_tests_cant": "The tests give bands in order; the outcome depends on the class, on whether n_voices is given, and on the sign of a rounded length.", "anchors": ["tftb/processing/affine.py:AffineDistribution._get_nvoices", "tftb/processing/affine.py:AffineDistribution._mellin_transform", "tftb/processing/affine.py:UnterbergerDistribution.__init__", "tftb/processing/affine.py:UnterbergerDistribution.run", "tftb/processing/affine.py:DFlandrinDistribution.__init__", "tftb/processing/affine.py:DFlandrinDistribution.run", "tftb/processing/affine.py:BertrandDistribution.__init__", "tftb/processing/affine.py:AffineDistribution._normalize", "tftb/processing/affine.py:Scalogram.run"]}
{"id": "C142", "title": "The programs of doc/misc_plots", "statement": "(a) touchtone.py, touchtone_mean_convolve.py and stationary_phase_plot.py sample with np.linspace(0, 1, fs): the period of the integer frequencies is fs - 1 samples, the last sample repeats the first (0), the samples are odd about the middle, their sum is 0. (b) The spectrum drawn is half the sum of those of the two sines; with a = 2 pi f / (fs - 1), b = 2 pi k / fs, bin k of one sine times 2 (cos b - cos a) is sin a (1 - exp(i b)), and cos b is never cos a; so bin 0 is 0 and, for 0 < f < fs - 1 and 2 f <> fs - 1, all the other bins are not zero. (c) uncertainty_stft.py: int(w * 0.001 * 8000 + 1) in double precision is 8 w + 1 when w is a power of two, as in the program, but not for every w (4007 gives 8 w); the pulses fall on samples 1535 and 1567. (d) Adding v to sample p changes the columns c with |p - (c - 1)| <= h of the transform with a rectangular window of 2 h + 1 samples, each bin by modulus |v|, and no other column; (e) the columns that see both pulses are 0, 1, 33 and 97 for the four windows of the program.", "quantifier": "all sampling rates fs >= 2, all integer frequencies and bins, all window half lengths h, all signals, positions and heights; for (c) all powers of two up to 2^48", "why_tests_cant": "The programs only draw; a spectrum with energy in every bin looks like two peaks.", "anchors": ["doc/misc_plots/touchtone.py", "doc/misc_plots/touchtone_mean_convolve.py", "doc/misc_plots/stationary_phase_plot.py", "doc/misc_plots/uncertainty_stft.py", "doc/misc_plots/uncertainty_example_plot.py", "tftb/processing/linear.py:ShortTimeFourierTransform.run"]}
{"id": "C143", "title": "Mean and variance of the noise generators", "statement": "For n_points = 2**p >= 4 and draws x (x - 1/2 for noisecu) that are not constant, let m be their mean, s their standard deviation and t the mean of x[0], -x[1], x[2], ... The array z returned by noisecg and noisecu has z.mean() = m/(s*sqrt(2)), (z**2).mean() = (m**2 + t**2)/(2 s**2), z.std()**2 = 1 - t**2/(2 s**2), and real and imaginary parts whose products have mean 0. The variance is 1 and the mean 0, as the docstrings say. (False: the variance lies in [1/2, 1] and is 1 exactly when t = 0, the mean is 0 exactly when m = 0 and (z**2).mean() exactly when both vanish; with the draws 1, -1, 1, -1 the variance is 1/2.) For every real signal, the imaginary part of scipy.signal.hilbert(x) has mean 0, is uncorrelated with x and has mean square mean(x**2) - m**2 (- t**2 for an even length).", "quantifier": "all p >= 2, all draws that are not constant; all real signals", "why_tests_cant": "The tests look at one draw and at two printed digits.", "anchors": ["tftb/generators/noise.py:noisecu", "tftb/generators/noise.py:noisecg", "doc/docstring_plots/generators/noise/noisecg.py", "doc/docstring_plots/generators/noise/noisecu.py"]}
{"id": "C144", "title": "Closed form of the analytic signals", "statement": "Write a = pi d/n and e(d) = 1 or -1 for even or odd d. anapulse(n, k)[j] with d = j - k is 1 for d = 0 and else i (1 - e(d)) cos a/(n sin a) for even n, i (cos a - e(d))/(n sin a) for odd n; its energy is 2 - 2/n for even n, 2 - 1/n for odd n. anastep(n, t) is the sum of the impulses after t. scipy.signal.hilbert(x), used by six generators, is the circular convolution of x with the analytic impulse; it is linear over the reals and commutes with circular delays. The real part of c exp(2 i pi f k/n), 0 < f < n/2 an integer, gives back c exp(2 i pi f k/n), so fmconst(n, f/n) is the analytic signal of its real part. (False off the bins: for n = 2 and frequency 1/4 it is not.)", "quantifier": "all n, positions, real signals, coefficients, delays, bins", "why_tests_cant": "The tests check the sign of the spectrum of two signals; the closed forms hold for every length and position.", "anchors": ["tftb/generators/analytic_signals.py:anapulse", "tftb/generators/analytic_signals.py:anastep", "tftb/generators/frequency_modulated.py:fmconst", "doc/docstring_plots/generators/analytic_signals/anapulse.py", "doc/docstring_plots/generators/analytic_signals/anastep.py"]}
{"id": "C145", "title": "Reassigned pseudo Wigner-Ville distribution of a linear chirp", "statement": "Let x have constant power A and a frequency that changes linearly (exp of a quadratic phase, in particular a tone; every signal of fmlin, along the law it returns), let the window be real and symmetric with at least 3 samples and let the instant ti keep the window inside the signal; write f for the frequency at sample ti-1. Then reassigned.pseudo_wigner_ville gives tfr[j,i] = A gain(t)/w[centre], t = 2 pi (j/n - 2f), gain(t) the sum of w[k] cos(k t). With non-negative instants, a cell with |tfr| > A/10^6 is moved to row (j - round(n/(2 pi) (sin t + w_L (sin Lt - sin (L+1)t)/gain(t))) - 1) mod n of its column; the others stay. If the window is zero at its ends the destination row is p - 1 with |p - 2nf| <= 1/2 + 2 pi^2 |d|^3/(3 n^2), d the distance of the cell from the ridge in bins. If moreover 2nf is an integer k0, all moved cells at most D bins away, 4 pi^2 D^3 < 3 n^2, meet in row k0 - 1 (mod n), one row before the ridge, and rtfr there differs from the sum of these 2D+1 cells by at most (2D+1)A/10^6 plus the sum of |tfr| over the other cells of the column.", "quantifier": "every signal of linear frequency, real symmetric window, number of bins, list of instants", "why_tests_cant": "There are no tests of reassigned.py; the property concerns all chirps, windows and sizes and rounding of the displacement.", "anchors": ["tftb/processing/reassigned.py:pseudo_wigner_ville", "tftb/processing/utils.py:derive_window", "tftb/generators/frequency_modulated.py:fmlin"]}
{"id": "C146", "title": "Supports and interference of the Margenau-Hill and Page representations", "statement": "Entry (f,t) of MargenauHillDistribution is Re(x[t] conj(X(f)) exp(-2 i pi f t/n)), X(f) the spectrum of the samples 1..min(n,N)-1; PageRepresentation has t-1 in the phase and the samples from 0 on. So columns at instants where the signal is 0 and rows where that spectrum is 0 vanish. For a sum x + y the interference at (f,t) is Re(x[t] conj(Y(f)) e) + Re(y[t] conj(X(f)) e): none unless t is an instant of one signal and f a bin of the other (diagonally opposite to the signals, as the documentation says), and there, with y[t] = 0 and X(f) = 0, it is all there is. In the column of an instant t with y[t] = 0 the squares of the interference sum over f to n/2 |x[t]|^2 times the energy of y (samples from 1 on), however far apart x and y are, unless two samples of y lie symmetrically about t modulo n.", "quantifier": "all signals, instants (negative ones too), numbers of bins", "why_tests_cant": "Tests look at one signal; the property separates the contributions of arbitrary components in every cell.", "anchors": ["tftb/processing/cohen.py:MargenauHillDistribution.run", "tftb/processing/cohen.py:PageRepresentation.run", "doc/_gallery/plot_4_1_4_margenau_hill.py"]}
{"id": "C147", "title": "Interference of two atoms in the Wigner-Ville distribution", "statement": "Let x and y be c1 and c2 times one atom g of finite length, delayed by a and b samples and modulated at f1 and f2, both wholly inside the signal. With W(nu, s) the distribution of g at s half samples and nu half bins, WignerVilleDistribution of x is |c1|^2 W(k - 2 n f1, 2(t - a)); of x + y it is that, plus the same for y, plus 2 Re(c1 conj(c2) exp(2 i pi ((f1 - f2) t + (f1 + f2 - k/n)(a - b)/2))) W(k - n(f1 + f2), 2t - a - b): the interference is the same shape again, at the mean instant and the mean frequency of the two, oscillating. W is real and at most the energy of g, which it reaches for symmetric g at the centre and frequency 0. So for symmetric g and atoms that do not overlap, the value at the mean instant and frequency, where neither has anything, is 2 Re(c1 conj(c2) exp(2 i pi (f1 - f2) t)) times the energy of g, up to twice the atoms' own maxima for c1 = c2, whatever the distance.", "quantifier": "all atoms, delays, real frequencies, factors, numbers of bins for which the call returns", "why_tests_cant": "A test computes one pair of atoms; the location and size of the interference are claims about every pair.", "anchors": ["tftb/processing/cohen.py:WignerVilleDistribution.run", "doc/_gallery/plot_4_1_1_wv_atoms.py"]}
{"id": "C148", "title": "Ambiguity function of two atoms: interference away from the origin", "statement": "For a signal that is c1 times an atom g of finite length delayed by a samples and modulated at f1, narrow_band has at lag tau and Doppler bin k the modulus |c1|^2 |A(k, 2 tau)|, A the ambiguity function of g: the same wherever the atom is. A is zero for lags of len(g) or more, at most the energy of g, and equal to it at the origin. For the sum of two such atoms the entry is the two terms of the atoms, both centred at the origin, plus two interference terms centred at lag (a-b)/2 and Doppler f1-f2 and at the opposite point, with the phases given. Atoms at least 2 len(g) apart: the terms share no lag; the entries up to lag (a-b-len(g))/2 are at most (|c1|^2+|c2|^2)|A|, those from lag len(g)/2 are |c1 c2| times the moved |A|, those in between are zero, and at the centre of the interference the modulus is |c1 c2| times the energy.", "quantifier": "all atoms, delays, real frequencies, factors, lags and numbers of bins for which the call returns", "why_tests_cant": "A test computes one pair of atoms; that interference lies away from the origin (the claim of the gallery) is about every pair.", "anchors": ["tftb/processing/ambiguity.py:narrow_band", "doc/_gallery/plot_4_1_3_chirps_ambifunb.py"]}
{"id": "C149", "title": "Morlet scalogram of a tone", "statement": "x real part c exp(2 i pi f k/N), 0 < f < N/2, c not 0; band 0 < fmin < fmax <= 1/2, waveparams > 1/2, one voice per sample. Voice i has frequency h_i, scale a_i and half-length K_i = round(waveparams a_i). If f lies between 1 + round(fmin (N-2)) and 1 + round(fmax (N-2)), then for K_i <= t < N - K_i the entry (i, t) of Scalogram.run is k S_i(h_i - f/N)^2 / a_i with one positive k: constant in time, S_i(d) the Fourier transform at d of the truncated Gaussian envelope, which is largest at d = 0 and at least 1 there. Otherwise the whole matrix is 0, whatever the voices contain. There is a result (not NaN) as soon as one voice with 2 K_i < N has S_i not 0. The fourth result, the wavelet coefficients, is late by K_i samples in row i: for 2 K_i <= t < N it is c exp(2 i pi f (t - K_i)/N) S_i / sqrt(a_i).", "quantifier": "all lengths, bins, complex amplitudes, bands and real waveparams > 1/2", "why_tests_cant": "A test looks at one tone in one band; constancy in time, the zero matrix outside the counted bins and the delay of the coefficients hold for every tone.", "anchors": ["tftb/processing/affine.py:Scalogram.run", "doc/_gallery/plot_3_4_2_morlet_scalogram_complex_sinusoids.py"]}
{"id": "C150", "title": "The two pseudo Wigner-Ville distributions agree", "statement": "reassigned.pseudo_wigner_ville(x, ...)[0] and PseudoWignerVilleDistribution(x, ...).run()[0] with the same window and number of bins are the same matrix. (False: the column of the former for the instant t is the column t-1 of the latter divided by the centre of the window, for windows of half-length below round(n/2) and real centre; with default instants the former is one column late, its column 0 is zero and the last sample has no column. With half-length below round(n/2)-1 both return; at round(n/2)-1 the class returns and the reassigned module raises IndexError if the signal has an instant c with round(n/2) < c <= len(x) - round(n/2).)", "quantifier": "all signals, instants, numbers of bins and odd windows", "why_tests_cant": "Tests of one implementation do not see the other; the offset shows only when both are compared on the same signal.", "anchors": ["tftb/processing/reassigned.py:pseudo_wigner_ville", "tftb/processing/cohen.py:PseudoWignerVilleDistribution.run"]}
{"id": "C151", "title": "Reassigning the pseudo Wigner-Ville distribution of an impulse changes nothing", "statement": "For a signal that is zero except for the value a at sample k and a real window, reassigned.pseudo_wigner_ville returns two equal arrays: |a|^2 in every row of the columns whose timestamp is k + 1, and 0 elsewhere. With the default timestamps that is column k + 1, one late, and an impulse at the last sample leaves both arrays zero. The cells of that column do all move, each to the row before its own, circularly.", "quantifier": "every length, position and value of the impulse, number of bins, real odd window with non-zero centre, and list of timestamps for which the call returns; the last two sentences for the default timestamps", "why_tests_cant": "Tests of the reassigned module compare with stored arrays for chirps; none checks an impulse, and the displacement of the cells is invisible in the reassigned array.", "anchors": ["tftb/processing/reassigned.py:pseudo_wigner_ville"]}
{"id": "C152", "title": "Amplitude modulation leaves the Wigner-Ville ridge of a chirp in place", "statement": "Let x be a signal of fmlin multiplied, sample by sample, by an amplitude A >= 0. Entry (f, t) of the default WignerVilleDistribution(x).run() is the sum over |u| <= min(t, n-1-t) of A[t+u]*A[t-u]*cos(2*pi*u*d) with d = 2*law[t] - f/n. No entry of column t exceeds the sum of A[t+u]*A[t-u] in modulus; an entry reaches it when its row is on the frequency law (d an integer) and, in an inner column with A[t-1], A[t+1] > 0, only then. For a Gaussian amplitude the entry is A[t]^2 times a factor that depends on d, the width and the number of lags only. The signals of the programs, fmlin(n, f1, f2)[0]*amgauss(n, c, s), are of this kind: modulus at most 1, and 1 only at the centre, where the phase plot of nonstationary_phase_plot.py passes through 1.", "quantifier": "every length >= 2, pair of frequencies and centre accepted by fmlin, every non-negative amplitude, every row and column; every centre and positive width of the Gaussian", "why_tests_cant": "Tests use a few chirps; that the ridge does not depend on the amplitude is a statement about all amplitude laws.", "anchors": ["tftb/processing/cohen.py:WignerVilleDistribution.run", "tftb/generators/frequency_modulated.py:fmlin", "tftb/generators/amplitude_modulated.py:amgauss", "doc/misc_plots/nonstationary_phase_plot.py", "doc/_gallery/plot_2_6_monocomp_nonstat_linfreq_gaussamp.py"]}
{"id": "C153", "title": "What friedman_density and ridges make of the reassignment fields of the library", "statement": "Let tfr, rtfr, hat be the outputs of reassigned.pseudo_wigner_ville with n bins. In friedman_density(tfr, hat) each cell above the threshold is counted once, in row min(r + 1, n - 1) where r is the row its energy is moved to, or in row n - 1 if it is not moved; row 0 of the density is empty (n >= 2). ridges(tfr, hat, method='rpwv') returns cell (j, i) exactly when j >= 1, tfr[j, i] exceeds the threshold, the cell is moved and its energy goes to row j - 1, that is when its displacement rounds to a multiple of n; it returns no cell of row 0. With the outputs of reassigned.spectrogram and method='rsp' a cell is returned exactly when its energy goes to (j, i - 1): a cell with zero frequency displacement never is (n >= 2). So the ridge of a chirp on bin k0 is found in the pseudo Wigner-Ville case, that of a tone in the spectrogram case is found on bin k0 - 1, and that of an impulse is its whole line but row 0.", "quantifier": "all signals, timestamps, numbers of bins, windows and thresholds for which the representation returns; all bins and amplitudes of the chirp, tone and impulse", "why_tests_cant": "The fields of the two functions use different conventions (1-based rows in one, 0-based rows and 1-based columns in the other) and the consumers a third; the offsets cancel in one case and not in the other, and no test feeds the output of one to the other.", "anchors": ["tftb/processing/postprocessing.py:friedman_density", "tftb/processing/postprocessing.py:ridges", "tftb/processing/reassigned.py:pseudo_wigner_ville", "tftb/processing/reassigned.py:spectrogram", "doc/_gallery/plot_4_3_6_friedman_instfreq_density.py"]}
{"id": "C154", "title": "inst_freq and group_delay report two equally strong components as one in between", "statement": "Let a signal be the sum of two components which at sample k have the same modulus and over the next two samples have frequencies F and G, with mean M in (0, 1/2). Entry k of inst_freq is M when the product x[k+2]*conj(x[k]) has the phase 4*pi*M, and M + 1/4 or M - 1/4 (the one in [0, 1/2]) when it has the opposite one; there is no third case unless a sample is 0. For fmlin(n, 0, .2) + fmlin(n, .3, .5), the signal of the gallery, no entry is nearer than 1/10 to either frequency law. If x is its own conjugate mirror image about sample K/2 up to a factor (two impulses of the same modulus at p and q, with K = p + q; a windowed tone), group_delay(x, [f]) is K/2 + 1 for every f at which the Fourier transform of x is not 0.", "quantifier": "all signals of this form, all frequencies, all n, every possible result of np.angle on the negative axis", "why_tests_cant": "The tests take the two estimators of one component; that they answer with a value belonging to neither is a statement about all instants and all phases.", "anchors": ["tftb/processing/freq_domain.py:inst_freq", "tftb/processing/freq_domain.py:group_delay", "tftb/generators/frequency_modulated.py:fmlin", "doc/_gallery/plot_2_7_multicomp_nonstat_instfreq_grpdlay.py"]}
{"id": "C155", "title": "Margenau-Hill and Page representations of a tone and of an impulse", "statement": "MargenauHillDistribution and PageRepresentation, n <= len(x) frequency bins, of a tone of amplitude a on bin k0: the row of the tone holds n*|a|^2 and every other row 0. (False: in Margenau-Hill the row of the tone holds (n-1)*|a|^2 and row f holds -|a|^2*cos(2*pi*(k0-f)*t/n) at instant t; in Page the other rows are 0 but the row of the tone holds n*|a|^2*cos(2*pi*k0/n): negative between a quarter and three quarters of the sampling frequency, and 0 there, so that the whole representation of a tone at a quarter of the sampling frequency is 0.) The column of an impulse at sample k < n holds |a|^2 in every row and the other columns 0. (True of Margenau-Hill for k >= 1; an impulse at sample 0 is lost; in Page row f holds |a|^2*cos(2*pi*f/n).)", "quantifier": "all amplitudes, bins, lengths, timestamps within the signal", "why_tests_cant": "The tests compare energies of the library's own output; the closed form over all bins and instants is needed to see that a tone vanishes.", "anchors": ["tftb/processing/cohen.py:MargenauHillDistribution.run", "tftb/processing/cohen.py:PageRepresentation.run"]}
{"id": "C156", "title": "smoothed_pseudo_wigner_ville of a tone peaks on the row of the tone", "statement": "For a tone a*exp(2*pi*i*nu*m), odd windows (the frequency window real, non-negative), timestamps 1..N and n <= N bins, the largest entry of each column of smoothed_pseudo_wigner_ville is on the row f with f/n = 2*nu modulo 1. (False: in a column that is not NaN, whatever the time window, entry f is |a|^2*(1 + sum over t = 1..m of (w[t] + w[2-t])*cos(2*pi*(t*(2*nu - f/n) - 2*nu))), w centred, m the number of lags used; the row of the tone holds |a|^2*(1 + cos(4*pi*nu)*S) with S the sum of the weights: the largest entry for nu = 0 and 1/2, but the smallest one of the column for nu = 1/4.)", "quantifier": "all amplitudes, frequencies, windows, lengths, timestamps, numbers of bins up to the length", "why_tests_cant": "A test on one low-frequency tone passes; that the peak fades with the frequency of the tone and turns into a trough at a quarter of the sampling frequency is seen from the closed form over all rows.", "anchors": ["tftb/processing/cohen.py:smoothed_pseudo_wigner_ville"]}
{"id": "C157", "title": "smoothed_pseudo_wigner_ville of an impulse is the same on all rows", "statement": "For a signal that is a at sample k and 0 elsewhere, odd windows and any timestamps, every column of smoothed_pseudo_wigner_ville that is not NaN is the same on all rows: |a|^2 times the share the time window gives sample k. (False: entry f is |a|^2*Re(share*(1 + 2*w[1]*cos(2*pi*f/n))), w the centred frequency window, as soon as one lag is used; with real windows, a positive share and w[1] > 1/2 the entry of row n/2 is negative. Columns further from k than half the time window are 0 on all rows.)", "quantifier": "all impulses, windows, lengths, timestamps, numbers of bins", "why_tests_cant": "A test of an impulse with a one-point frequency window, or one that looks at the time marginal only, passes; the cosine over the rows is seen from the closed form over all windows.", "anchors": ["tftb/processing/cohen.py:smoothed_pseudo_wigner_ville"]}
{"id": "C158", "title": "PseudoMargenauHillDistribution of a tone and of an impulse", "statement": "PseudoMargenauHillDistribution of a tone a*exp(2*pi*i*nu*m) holds, in the columns where the window fits, the real number |a|^2*sum(w) on the row f/n = nu, where the modulus is largest when the window is non-negative; of an impulse at sample k it holds |a|^2*w[0] on all rows of column k and 0 elsewhere. (The place of the peak is right, the values are not: the lag is one off, so entry f of the tone is |a|^2*exp(2*pi*i*nu)*W(nu - f/n), with W the transform of the centred window, purely imaginary on the row of a tone at a quarter of the sampling frequency; the column of an impulse is |a|^2*w[-1]*exp(2*pi*i*f/n), whose rows sum to 0, and which a window of one point loses altogether.)", "quantifier": "all amplitudes, frequencies, impulses, windows, lengths, numbers of bins for which the run returns", "why_tests_cant": "A test that looks at the modulus of one tone passes; the phase, the lost marginal and the lost impulse are seen from the closed form over all windows.", "anchors": ["tftb/processing/cohen.py:PseudoMargenauHillDistribution.run"]}
{"id": "C159", "title": "smoothed_pseudo_wigner_ville follows scaling, superposition, delay and modulation of the signal", "statement": "With odd windows, whether smoothed_pseudo_wigner_ville returns and which columns are NaN depends on the length of the signal only. In the other columns: scaling the signal by c scales the entries by |c|^2; the parallelogram law holds; a real signal with real windows gives equal rows f and n-f; with a real non-negative time window no entry exceeds M^2*(1 + sum over the lags used of |w[t]| + |w[2-t]|), M the largest modulus of a sample; delaying the signal by s samples (zeros prepended) delays by s every column whose time window, moved over the lags used, does not reach the first sample. Modulating by exp(i*pi*m*k/n) turns the rows by m. (The last is false: the rows are turned, but the terms of positive lags are also multiplied by exp(-2*i*pi*m/n) and those of negative lags by exp(2*i*pi*m/n); the exact value is given.)", "quantifier": "all signals, windows, lengths, timestamps, numbers of bins, factors, delays and modulations", "why_tests_cant": "A test compares two signals; the laws hold for all pairs and all windows, and the extra phase of a modulation vanishes for the modulations a test would pick first.", "anchors": ["tftb/processing/cohen.py:smoothed_pseudo_wigner_ville"]}
{"id": "C160", "title": "PseudoMargenauHillDistribution follows scaling and superposition, is local in time, and its rows add up to the power", "statement": "Whether PseudoMargenauHillDistribution.run returns depends on the lengths of its arguments only. Scaling the signal by z scales the entries by |z|^2; the parallelogram law holds; column c depends on sample c and on the samples within half a window of c-1 only; no entry exceeds |x[c]|*M*sum|w|, M the largest modulus of a sample. The rows of column c add up to n*w[0]*|x[c]|^2. (The last is false: they add up to n*w[0]*x[c]*conj(x[c-1]), and to 0 in column 0.)", "quantifier": "all signals, windows, numbers of bins, columns for which the run returns", "why_tests_cant": "A constant signal satisfies the false marginal; the laws are about all pairs of signals.", "anchors": ["tftb/processing/cohen.py:PseudoMargenauHillDistribution.run"]}
{"id": "C161", "title": "A signal played backwards, or conjugated, has the mirrored smoothed_pseudo_wigner_ville distribution", "statement": "With odd, real windows, conjugating the signal exchanges rows f and -f mod n of smoothed_pseudo_wigner_ville in every column that is not NaN. With a symmetric time window too, playing a signal of N samples backwards exchanges the instants t and N+1-t and the rows f and -f mod n. Doing both, with any odd frequency window and a symmetric time window, exchanges the instants only.", "quantifier": "all signals, windows, lengths, timestamps, numbers of bins", "why_tests_cant": "A relation between the results on two arbitrary signals, for all windows.", "anchors": ["tftb/processing/cohen.py:smoothed_pseudo_wigner_ville"]}
{"id": "C162", "title": "fmpower through two points, with the documented integer degree", "statement": "fmpower(n, k, (t1, f1, t2, f2)) with an integer degree k, n >= 1 and any real instants returns a unit-modulus signal of n samples and a law f0 + c*t**(-k) through (t1, f1) and (t2, f2). (False for every k >= 0: 0 raises ZeroDivisionError, so does 1, 2 and more raise ValueError or ZeroDivisionError. For k < 0 it returns exactly when no instant is 0 and t1**k differs from t2**k, ZeroDivisionError otherwise; the law then passes through instants that are samples. An instant -m is met at sample m for even k; for odd k the law there is f1 + 2*c*m**(-k).) For k < 0 the law is the derivative of the phase divided by 2*pi, whatever the coefficients.", "quantifier": "all degrees, instants, frequencies, numbers of points", "why_tests_cant": "Each degree behaves in its own way; the docstring example uses a fractional degree, which is fine.", "anchors": ["tftb/generators/frequency_modulated.py:fmpower"]}
{"id": "C163", "title": "PseudoMargenauHillDistribution follows delays, modulation and conjugation", "statement": "Zeros put in front of the signal move the columns of PseudoMargenauHillDistribution.run and leave zero columns in front. Modulating the signal by m bins, x[k]*exp(2*pi*i*m*k/n), moves the rows by m. (False for every entry that is not 0, unless n divides m: the rows move, and each entry is multiplied by exp(2*pi*i*m/n) too, because the lag in run is taken from sample c-1 and not from c; the modulus is as expected.) With a real window, conjugating the signal exchanges rows f and -f mod n and conjugates the entries; so rows f and -f mod n of a real signal are conjugates.", "quantifier": "all signals, windows, delays, shifts, numbers of bins, rows and columns for which the run returns", "why_tests_cant": "Plots show the modulus, which hides the phase; the laws relate results on two arbitrary signals.", "anchors": ["tftb/processing/cohen.py:PseudoMargenauHillDistribution.run"]}
{"id": "C164", "title": "morlet_scalogram with one frequency bin, with none, or with tbp=0", "statement": "morlet_scalogram(signal, timestamps, n_fbins, tbp) with n_fbins=1 returns a distribution whose single row is the energy seen by the wavelet. (False: for every signal the row, and the reassigned row, are zeros, because line 312 rounds 1/2 to m=0 and weighs the row with sqrt(0); it raises IndexError at timestamps before 1-N or from max(2, N) on, N the length.) With n_fbins=0, or with tbp=0 and any n_fbins>=0, it raises ZeroDivisionError; with a negative n_fbins, or timestamps that are not regular, ValueError.", "quantifier": "all signals, regular and irregular timestamps, n_fbins, tbp >= 0", "why_tests_cant": "Edge cases with no error message of their own; a zero matrix looks like a quiet signal.", "anchors": ["tftb/processing/reassigned.py:morlet_scalogram"]}
{"id": "C165", "title": "morlet_scalogram with a negative time-bandwidth product", "statement": "morlet_scalogram rejects a negative tbp. (False for n_fbins>=2 and regular timestamps: let M=ceil(tbp*n_fbins*sqrt(2*log(1000))), which is 0 or negative, and r=round(n_fbins/2). It raises IndexError exactly when M>-r and some timestamp t<=N has t<1-N or M<-1, N the length of the signal. Otherwise it returns, for every signal, NaN on the rows 1..n//2-1, their mirrors n-1..n-n//2+1 and r, and 0 on the others, in both arrays; so always for tbp<=-1/4.) Timestamps that are not regular raise ValueError.", "quantifier": "all signals, timestamps, n_fbins >= 2, tbp < 0", "why_tests_cant": "The NaN come without an error; which calls raise depends on a rounded real number.", "anchors": ["tftb/processing/reassigned.py:morlet_scalogram"]}
{"id": "C166", "title": "PseudoMargenauHillDistribution determines the signal up to a phase", "statement": "Two signals of N samples with the same PseudoMargenauHillDistribution (N columns, the same window and number of bins) differ by a constant factor of modulus 1. (False in general: 1, 0, 0, 1 and 1, 0, 0, -1 with the window 1, 1, 1 and 8 bins. True when neither w[-1] nor w[0] is 0 and the first signal has no zero sample, in particular with all arguments left out and N >= 8; and for every signal when the window vanishes at no lag from -N to N-2.) Whenever run returns, the inverse transform of column c at a lag c-1-k under the window gives w[c-1-k]*x[c]*conj(x[k]). Two signals whose samples are at most M in modulus and differ by at most D have entries that differ by at most 2*M*D*sum|w|.", "quantifier": "all signals, windows, numbers of bins for which the run returns", "why_tests_cant": "Injectivity is a statement about all pairs of signals.", "anchors": ["tftb/processing/cohen.py:PseudoMargenauHillDistribution.run"]}
{"id": "C167", "title": "PseudoWignerVilleDistribution keeps the signal up to one phase for the even and one for the odd samples", "statement": "Let x and y be signals of the same length, analysed by PseudoWignerVilleDistribution with the same n_fbins, a time-stamp vector as long as the signal, and the same window whose half length is below round(n_fbins/2) and which is its own conjugate mirror. The inverse transform of column t gives n_fbins times the window at tau times x[t+tau] conj(x[t-tau]) for every tau under the window that stays in the signal. If the window is non-zero at lags 0 and 1 and x has no zero sample, or the window is non-zero at every lag that fits and x is anything, then run() returns the same matrix for x and y only when y is x with its even samples turned by one phase and its odd samples by another. Conversely two such signals always give the same matrix, so [1, 1] and [1, -1] cannot be told apart. With every argument left out and at least 8 samples, none zero, the same holds. If the samples of x and y differ by at most D and none exceeds M in modulus, every entry of the two matrices differs by at most 2 M D times the sum of the moduli of the window.", "quantifier": "all signals, all time-stamp vectors of the signal's length, all n_fbins >= 1, all windows under the stated conditions", "why_tests_cant": "A test compares the matrices of a few signals; that no other signal shares a matrix is a statement about all signals.", "anchors": ["tftb/processing/cohen.py:PseudoWignerVilleDistribution.run"]}
{"id": "C168", "title": "MargenauHillDistribution and PageRepresentation determine the signal up to a phase when there are enough frequency bins", "statement": "For a signal of N samples and integer time stamps: with n_fbins >= 2N-1, the inverse transform of the column of MargenauHillDistribution.run at time N-1 gives n_fbins/2 times x[N-1] conj(x[k]) at lag N-1-k for 1 <= k < N-1, and the column at time 0 gives n_fbins/2 times x[0] conj(x[k]) at lag -k for 1 <= k < N; so two signals with N >= 2 whose columns at times 0 and N-1 are equal differ only by a factor of modulus 1, if x[N-1] is not zero. With n_fbins >= 2N+1 the column of PageRepresentation.run at time 0 gives n_fbins/2 times x[0] conj(x[k]) for every k, so that column alone determines the signal up to a phase if x[0] is not zero. With the default number of frequency bins MargenauHillDistribution determines the signal up to a phase. (False: [1, 1j] and [2, 1j] have the same Margenau-Hill distribution.)", "quantifier": "all signals, all integer time-stamp vectors that contain the named instants, all n_fbins at or above the stated bounds", "why_tests_cant": "A test compares a few matrices; that no other signal shares a column is a statement about all signals.", "anchors": ["tftb/processing/cohen.py:MargenauHillDistribution.run", "tftb/processing/cohen.py:PageRepresentation.run"]}
{"id": "C169", "title": "narrow_band keeps the signal up to one phase for the even and one for the odd samples", "statement": "Whenever narrow_band(x, lag, n_fbins) returns, the inverse transform of the column of lag tau over the Doppler axis gives n_fbins times x[t+tau] conj(x[t-tau]) for every t at which both samples exist. So if x and y have the same length and the same ambiguity function, on lags that include every tau with 2|tau| < len(x) (as the default lags do), or on lags that include 0 and 1 when x has no zero sample, then y is x with its even samples turned by one phase and its odd samples by another. Conversely two such signals always have the same ambiguity function, so [1, 1, 1] and [1, -1, 1] cannot be told apart.", "quantifier": "all signals, all lag vectors under the stated conditions, all n_fbins with which the call returns, and the defaults", "why_tests_cant": "A test compares the ambiguity functions of a few signals; that no other signal shares one is a statement about all signals.", "anchors": ["tftb/processing/ambiguity.py:narrow_band"]}
