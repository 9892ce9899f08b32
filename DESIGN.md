# Machine-checked model of scikit-signal/tftb

Everything here is a hand-written Gallina model of the Python code in `/repo`
(read as text; never built or run) plus proofs about it.

## Trusted base

* The Coq 8.16.1 kernel (and `coqchk`).
* The axioms `Print Assumptions` lists for each property theorem.  The command
  follows every theorem in `rocq/theories/Props_*.v`; `ASSUMPTIONS.md` gives the
  result theorem by theorem.  Only four axioms occur, all of the standard
  library: `ClassicalDedekindReals.sig_forall_dec`,
  `ClassicalDedekindReals.sig_not_dec`,
  `FunctionalExtensionality.functional_extensionality_dep` (these three come with
  the classical reals) and `Classical_Prop.classic` (through Coquelicot/Flocq
  lemmas).  No axiom is added here; no kernel check is switched off.
* The reading of the Python source: the model functions follow the source
  function by function, each definition cites the lines it models.
* The reading of numpy/scipy primitives given by their definitions in `Py.v`,
  `DFT.v`, `M_*.v`: Python index wrap-around, slices, fancy indexing, `np.arange`,
  `np.linspace`, `np.round` (half to even), `np.fft.fft`/`ifft` (the defining
  sums), `fftshift`, `scipy.signal.hilbert`, `np.hamming`, `np.convolve`, ...

## Simplifications common to all models

* Floating point numbers are exact reals/complex numbers, except in the
  statements about `divider`, `nextpow2`, `anasing`, and (`M_fp`) the sizes obtained by
  division, the dilation grid and the default band of the affine class, which have a rounded
  (53 bit) version.  So "equals" means equal in exact arithmetic.
* The distinction integer dtype / float dtype of values used as indices is
  modelled, because it decides whether numpy raises `IndexError`.
* Exceptions are values (`Raise IndexError`, ...); messages are dropped.
  Warnings are not modelled.  Which exception numpy raises is taken from the
  documented behaviour of current numpy (1.2x) and Python 3.
* NaN and infinities are not numbers of the model: an array that would contain
  them is `None` (of an option type), or the entry is.
* 2-D arrays are lists of columns (all FFTs in the Cohen class are along axis 0)
  or, where the header says so, lists of rows.
* Memory/time limits and numpy's integer overflow are not modelled.
* Random draws are arguments of the model; theorems hold for all draws (with the
  stated length and range).
* A picture is the list of artists (image, contour, mesh, line) handed to
  matplotlib; labels, ticks, colours are dropped.  What matplotlib refuses is part
  of the trusted base: `contour` raises TypeError for coordinates that do not match
  the matrix or for fewer than two rows or columns, and ValueError for levels that
  do not increase; `plot` raises ValueError for lines of unequal coordinates;
  `plot_surface`/`plot_wireframe` raise ValueError for shapes that do not broadcast.
  `imshow` with an extent puts the centre of row k of h at (k+1/2)/h of it, and raises
  TypeError for complex matrices.

## What is modelled, file by file

| file | modelled | model | restrictions |
|------|----------|-------|--------------|
| `utils.py` | all six functions | `M_utils` | `modulo` on integer arrays and its complex branch; rounding without overflow/subnormals |
| `processing/base.py` | `__init__`, `_get_spectrum`, `_make_window`, frequency axis, `plot`, `_plot_*` | `M_base`, `M_plot`, keywords and figures in `M_kw` | pictures as lists of artists; annotations dropped |
| `processing/linear.py` | `ShortTimeFourierTransform` (`__init__`, `run`, effect of `plot`), `gabor` | `M_stft`, `M_state`, `M_heap`, `M_plot2`, `M_gabor` | `gabor`: integer `n_coeff`, `q_oversample` >= 1, real window; `k - n*m/q` is an exact fraction |
| `processing/cohen.py` | all classes (`run`, effect of `plot`) and `smoothed_pseudo_wigner_ville` | `M_cohen`, `M_state`, `M_heap`, `M_plot2` | integer timestamps (float timestamps where they decide the outcome) |
| `processing/ambiguity.py` | `narrow_band`, `wide_band` | `M_amb`, `M_wb` | integer lags; 1-D signals, positive frequencies |
| `processing/reassigned.py` | `spectrogram`, `pseudo_wigner_ville` in full; `morlet_scalogram` in full; the failing prefix of the others | `M_reas`, `M_mor`, `M_mor1`, `M_morn` | integer timestamps; `int(np.complex128)` keeps the real part; `morlet_scalogram` without tbp < 0 at n_fbins < 2 and without the field tf2 (it never reaches a result other than inf) |
| `processing/postprocessing.py` | all five functions | `M_post` | the method string is an enumeration; `hough_transform` with `m=1`: numpy's infinite quotient and Coq's x/0 = 0 give the same row (C41) |
| `processing/utils.py` | all three functions | `M_putils` | |
| `processing/time_domain.py`, `freq_domain.py` | all four functions | `M_dom` | 1-D arrays; `np.angle` is a relation (signed zeros) |
| `processing/affine.py` | everything | `M_aff`, `M_spw`, `M_plot`; rounded grid and band in `M_fp` | 1-D signals; exact roots for `newton`, `brenth`, `np.roots`; the spline `splrep`/`splev` is an argument (any function of knots, values and abscissae); 0 < fmin < fmax for the constructors |
| `processing/plotifl.py` | outcome and ordinate limits | `M_plot` | one law (1-D) |
| `generators/amplitude_modulated.py`, `frequency_modulated.py` | all functions | `M_gen1`, `M_over`, `M_fmp` | integer `n_points`; `fmpower` for positive points, with integer degrees for all points (`M_fmp`) |
| `generators/analytic_signals.py`, `noise.py`, `utils.py` | all functions | `M_gen2`, `M_dopx` | integer `n_comp` (float `n_comp` in `M_docs`); `dopnoise` with non-zero `s_freq`, distance, wave speed in `M_gen2`, all three in `M_dopx`; `scale` control flow only (it always raises) |
| `generators/misc.py` | all functions | `M_gen3`, `M_over`, `M_ext`, `M_alt` | `altes` in `M_gen3` for 0 < fmin <> fmax, 0 < alpha <> 1, for all numbers in `M_alt`; `doppler` with a zero `s_freq` or wave speed in `M_ext` |

Not modelled: annotations of pictures, the `__main__` blocks and tests, two-column input of the affine
class beyond the exception it raises, and everything in numpy, scipy and matplotlib
beyond the definitions above.

Not expressible here: statistical quality of the random generators, the look of
plots, floating-point error bounds of FFT based routines.

## Layout

* `Py.v` exceptions, Python indexing; `Scalars.v`, `CSum.v`, `DFT.v` numerics;
  `Spec.v` specifications that do not mention the models.
* `M_*.v` models; `P_*.v`, `T_*.v` proofs (lemmas `cNN_*` are the property
  theorems, definitions above them are their specifications);
  `Props_*.v` (generated by `tools/genprops.py`) restate each as
  `Theorem CNN_*` with `Print Assumptions`, and `Example`s showing that the
  hypotheses are met by concrete non-trivial cases.
* `tools/`: `genprops.py`, `mkproject.py`, `mkmanifest.py` (MANIFEST.json from
  `status.json`), `mkassum.py`.
* `seeded/LOG.jsonl`: wrong programs tried against the theorems.

## Findings policy

When a property is false of the faithful model the theorem is called
`*_refuted` and exhibits a witness; next to it stands the strongest true version.
A property counts as proved when its statement (with the "False: ..." part) is
settled exactly.

## Per property: model and method

| id | model | method |
|----|-------|------|
| C01 | `divider` with exact sqrt and with 53-bit sqrt | induction on the downward search; rounding lemmas of Flocq, refuted at 2^52+1 |
| C02 | `nextpow2` on R with ceil(log2) | monotonicity of ln |
| C03 | `nearest_odd` with Zfloor/Zceil | cases on parity |
| C04 | `modulo` on Z and C | Z.mod lemmas |
| C05 | `is_linear` on lists of R | list induction |
| C06 | Zak matrix, `izak` | DFT inversion + index bijection |
| C07 | `freqs` construction | list lemmas, parity; refuted for odd |
| C08 | `_make_window` + hamming | trig bounds |
| C09-C14 | `STFT.run`, imperative column loop | scatter lemma, DFT lemmas |
| C15, C16 | object state machine run/plot | invariants over histories; refutations |
| C17-C20 | `Spectrogram.run` | Parseval, scatter lemma |
| C21-C27 | `WignerVilleDistribution.run` | exact raise condition, DFT lemmas |
| C28, C29, C73, C74 | pseudo / smoothed pseudo WV | same |
| C30-C32 | MH, Page, PMH, PPage | same; refutations |
| C33-C35 | `narrow_band` | Cauchy-Schwarz, Parseval, reindexing |
| C36-C40, C76 | `reassigned.*` | loop invariant: mass |
| C41-C46 | postprocessing | loop invariants, effects on shared arrays |
| C47, C48, C75 | processing.utils | linear algebra over lists |
| C49-C52 | time_domain, freq_domain | weighted means, arguments of complex numbers |
| C53-C67, C77-C79 | generators | real analysis, list lemmas; random draws universally quantified |
| C68-C71, C80-C83, C87-C89 | affine | geometric grid, Mellin transform as band-limited interpolation, normalisation; DFT orthogonality for the marginal; counting of spline knots |
| C72, C90 | gabor | size arithmetic; window placement by scatter lemmas; Zak transform, Parseval and root orthogonality for duality |
| C91 | affine.smoothed_pseudo_wigner | case analysis of every call with an explicit band, on top of the scalogram results (C82, C83); Mellin transform as a sum; positivity of a sum of squares |
| C92 | reassigned.morlet_scalogram | index ranges of every gather, then the loop result C76; single-term sums for impulses; conjugation for real signals |
| C93-C99 | `plot`, `plotifl` | case analysis over kinds and sizes; minima and maxima of the axes; convexity of exp for the affine labels |
| C100-C103 | end to end: `fmlin`/`fmconst` into the Wigner-Ville distribution, ambiguity function and STFT | closed forms of the kernels; the Dirichlet kernel decreases up to its first zero and stays below afterwards (`Dirichlet.v`, `Kernel.v`) |
| C104 | `loctime`, `locfreq` together | variance of a flat weight; zero variance |
| C105 | `renyi_information` | linearity of the trapezoidal rule; tangent of t^k (Jensen) |
| C106 | STFT, spectrogram, pseudo Wigner-Ville of separated components | the window meets at most one of the two supports |
| C107 | `reassigned.spectrogram` of an impulse | each transform has one term; the ratios are the lag and a real number |
| C108 | matrices drawn by `plot` | the maximum and the cut, entry by entry |
| C109 | `hough_transform` finds lines | each entry is a sum of bright pixels of its strip; the sine of the smallest angle of the grid is at least 2/n (Jordan), so a full row leaves the strip at every other angle |
| C110 | equal Wigner-Ville distributions | orthogonality of the roots over f recovers the lag products; one reference sample per parity fixes the phase |
| C111 | ambiguity function = 2-D DFT of the Wigner-Ville distribution | exchange of sums, orthogonality over f or over the Doppler bins |
| C112 | PWVD = WVD convolved in frequency | the same inversion under the window's sum; longer windows are cut to the lags below round(n/2) |
| C113 | mirror symmetry of real signals | DFT of a real column is Hermitian, for each of the eight tables |
| C114 | point count of the dilation grid in double precision | relative error of the rounded step against the spacing of doubles around 2 m1 |
| C115 | sizes by floating-point division | a quotient of integers below 2^53 is at distance 1/b from the next integer |
| C116 | default band in double precision | four roundings, relative error 8 u; 10 k / m is an integer or 1/m away from one |
| C117 | energy bounds, stability | each entry is a quadratic form visiting every sample at most once; Cauchy-Schwarz |
| C118 | uncertainty by counting cells | C117 against Moyal / Parseval; Cauchy-Schwarz on the support |
| C119 | parallelogram law | closed forms |
| C120 | functions of the Wigner-Ville distribution | lag products with even difference are recovered from it (C110) |
| C121 | arrays as addresses: `M_heap` | every call writes at most into the object's own array; induction over histories; scatter lemmas for the overwritten rows |
| C122 | closed forms of each class | re-index the sum by k -> N-1-k or tau -> -tau; wincut symmetric for the spectrogram |
| C123 | `M_warn`: the value returned with a flag for the warning | monotonicity of the hyperbolic law between its two points; the entry at sample 0 of fmpower |
| C124 | `M_nd`: arrays with their shape | reduction to the 1-D models; broadcasting sums for loctime |
| C125 | `M_aff`: scalogram and the three affine runs | every stage commutes with multiplication by a real number (`csc`, `rsc`), integrate_2d is linear without shape assumptions |
| C127 | `M_over`: `amexpos` and `klauder` with the range of doubles (infinity from 2^1024-2^970 on, zero up to 2^-1075), exact inside it | exp of the exponent against the bounds of the range; the inverse transform of a non-negative spectrum is largest at 0, so all squares underflow together |
| C128 | modulation and delay of Spectrogram, PWVD, MH, Page, PMH | closed forms of C20, C28, C30–C32 under the shifted sum |
| C129 | `M_bins`: n_fbins <= 0 or a float, for all classes and `smoothed_pseudo_wigner_ville` | columns of zero rows, which index is used first; the models of M_stft/M_cohen are about n_fbins >= 1, c129_positive ties them |
| C130 | circular mean of a Wigner-Ville column and `inst_freq` | inverse transform of the column at lag one; the angle in `inst_freq` is that of minus the same product |
| C131 | the programs of `doc/_gallery` | compositions of the models in `M_gallery.v`; each program's outcome from the theorems of its parts |
| C132 | the assertions of the test suite with arbitrary numbers | locality of the spectrogram (`spec_out` of two signals agree), column means of C18, volume of C35, formula of C48, mean value theorem for the Gaussian and the Mexican hat |
| C133 | the programs of `doc/docstring_plots` | compositions in `M_docs.v`; sine addition formulas for `inst_freq` of `fmsin`; support of the window for the STFT of two tones |
| C134 | covariances of `locfreq`, `inst_freq`, `group_delay` | sums reindexed by the shift; angles compared through `cis a = cis b`; factorised numerator and denominator of the delay |
| C135 | the options of `plot` | case analysis over option records; `increasing` against the pointwise order |
| C136 | keywords of the plot methods as association lists, figures as lists of axes (`M_kw.v`) | lookups through `drop` and `++`; case analysis |
| C137 | the model of postprocessing.py (`M_post.v`) | simulation of the two folds for scaling; entry formula of C41 with reindexed sums; C44 composed with C109 |
| C138 | `M_grid.v`: np.arange with a float step, rounding as in `b64` (numpy's fill rule start + i*delta, no fused multiply-add) | relative error of two roundings; the five constants evaluated as 53-bit significands |
| C139 | the model of reassigned.spectrogram (`M_reas.v`, as in C36) | cell and vector formulas for a tone by parity of the lag sums; sine cubic bound; reindexed sum over the cells near the tone |
| C140 | `M_thr.v`: the thresholding lines of the gallery programs | entrywise case analysis with the greatest modulus named; composition of cuts |
| C141 | `M_bwd.v`: run for any signs of umax and m1, with the checks in the order of the source | sign of the grid count; the last voice is the lowest, so every point of the gamma axis is kept |
| C142 | `M_mplt.v`: the programs of doc/misc_plots, their constants as parameters; int(...) of floats through `b64` | telescoping sum for a sine at a frequency off the bins; 53-bit significands; closed form of C11 for a pulse |
| C143 | no new model: `noisecg`, `noisecu`, `hilbert` of `M_gen2.v` | the sum of the squares of an analytic signal is read off its spectrum: only frequency 0 and half the sampling frequency meet their mirror image |
| C144 | no new model: `anapulse`, `anastep`, `hilbert` of `M_gen2.v` | the one-sided spectrum is twice a geometric sum, corrected at its two ends; multiply by 1 - w and compare real and imaginary parts |
| C145 | no new model: `rpwv` of `M_reas.v` | the product of samples at equal distances from an instant is a tone of twice the frequency there; the lemmas of C139 on the transform of the window and of its difference apply |
| C146 | no new model: `mh`, `page` of `M_cohen.v` | the sum over lags factors into the sample times the conjugate spectrum; expand both factors for x + y; the strength of the interference is Parseval plus the sum of squares, which orthogonality reduces to pairs of samples symmetric about t |
| C147 | no new model: `wvd` of `M_cohen.v` | substitute p = t + tau - a in the cross term: the phases collect into one factor and the distribution of the atom at 2t - a - b; that is real by p -> s - p |
| C148 | no new model: `narrow_band` of `M_amb.v` | substitute p = t + tau - a: every term is the ambiguity function of the atom at lag 2 tau minus the difference of the delays, times a phase |
| C149 | no new model: `scalogram` of `M_aff.v` | C144 gives the analytic signal; inside, the convolution is the tone times the transform of an even envelope; the spectrum of the tone is one bin, so the normalisation keeps or kills it; the trapezoidal integral of non-negative rows is positive unless they vanish |
| C150 | no new model: `rpwv` of `M_reas.v`, `pwvd` of `M_cohen.v` | both entries (C28, C39) are the same windowed sum at neighbouring samples |
| C151 | no new model: `rpwv` of `M_reas.v` | only the lag 0 at the instant k + 1 has a non-zero product; the difference of a real window is real, so the displacement is 0 and the row index still drops by one |
| C152 | no new model: `wvd`, `fmlin`, `amgauss`, `gauss_chirp` (`M_gallery.v`) | the lag product of the chirp is that of C100, the amplitudes are an even real weight; a sum of weighted cosines reaches the sum of the weights only if the cosine of lag 1 is 1 |
| C153 | no new model: `friedman`, `ridge_idx` (`M_post.v`) on `rpwv`, `rspec` (`M_reas.v`); `hat_z`, `hat_rc` (`T_pipe.v`) are the third outputs as complex numbers | C45 and C46 say which cells are counted and returned, C37 and C39 what the fields hold; the rest is the bookkeeping of the offsets, with C139, C145 and C151 for the tone, the chirp and the impulse |
| C154 | no new model: `inst_freq`, `group_delay` (`M_dom.v`), `chirp_sum` (`M_gallery2.v`) | the product of two neighbouring samples is a real number times the factor of the mean frequency, its sign decides; for the delay the mirror turns numerator N and denominator D into c*conj((K+2)D - N) and c*conj(D) |
| C155 | no new model: `mh`, `page` (`M_cohen.v`) | the closed forms of C146 with the spectrum of a tone (orthogonality of the roots of unity) and of an impulse |
| C156 | no new model: `spwv` (`M_cohen.v`) | the average of a lag product of a tone is the product itself whatever the weights (C29 says when they do not cancel); the lag that is one off (C74) leaves the phase 4 pi nu |
| C157 | no new model: `spwv` (`M_cohen.v`) | the lag products of an impulse vanish except at lag 0, which the code uses twice more at the first nonzero lag (C74) |
| C158 | no new model: `pmh` (`M_cohen.v`) | the closed form of C32 on a tone and on an impulse; triangle inequality for the peak, orthogonality of the roots of unity for the lost marginal |
| C159 | no new model: `spwv` (`M_cohen.v`) | a column is linear in the averages of the lag products (`from_lags`), and each law is one of those averages |
| C160 | no new model: `pmh` (`M_cohen.v`) | the closed form of C32; orthogonality of the roots of unity, with the return condition excluding lags of n or more |
| C161 | no new model: `spwv` (`M_cohen.v`) | reversal and conjugation reflect the averages of the lag products, and a reflected average with real windows is the conjugate |
| C162 | `M_fmp`: `fmpower` with an integer degree and points of any sign | case analysis; laws of integer powers; agreement with the model of C57 for positive points |
| C163 | no new model: `pmh` (`M_cohen.v`) | the closed form of C32; the lag counted from sample c - 1 leaves a factor exp(2 i pi m / n) after a modulation |
| C164 | `M_mor1`: `morlet_scalogram` for every n_fbins and tbp >= 0 | case analysis; with one bin the weight of the only row is 0, so only the indices matter |
| C165 | `M_morn`: `morlet_scalogram` for tbp < 0, n_fbins >= 2; `None` is NaN | the reach is at most 0, so the sums have one term or none and only the indices matter; bounds of exp for the default |
| C166 | no new model: `pmh` (`M_cohen.v`) | inverse transform of a column of the closed form of C32; the return condition excludes aliased lags; induction along the samples |
| C167 | no new model: `pwvd` (`M_cohen.v`) | inverse transform of a column of the closed form of C28; lags below half the rows do not alias; induction along the samples two at a time |
| C168 | no new model: `mh`, `page` (`M_cohen.v`) | inverse transform of the real part of a column: a lag and its opposite are added; at the first and the last sample one of the two is empty |
| C169 | no new model: `narrow_band` (`M_amb.v`) | inverse transform over the Doppler axis; the condition under which the call returns rules out aliasing |
| C126 | `M_plot2`: the `sqmod` keyword over the arrays of `M_heap` | numpy's order of complex numbers is total, so np.amax finds a largest entry; the cut is computed entry by entry through the view |
| C84-C86 | `wide_band` | DFT lemmas, envelope of a tone |

## Findings

Places where the code does not do what its documentation or name says, each
backed by a theorem (`*_refuted` or an exact outcome) of the property named.

* C01 `divider` returns a wrong pair from 2^52+1 on, because `sqrt` rounds.
* C03, C06, C50 `nearest_odd(range)`, `izak` of a 1-D array, `locfreq([])` raise.
* C07 odd `n_fbins`: the frequency axis is one entry short.
* C127 `amexpos(kind='unilateral')` gives NaN far before its centre when the spread is
  small (inf * 0); `klauder` gives no finite sample for large attenuations.
* C129 With `n_fbins=0` (also the default of an empty signal) every class raises, some IndexError and some
  ValueError depending on the number of columns; a negative number raises ValueError, a float TypeError.
* C128 `PageRepresentation` is not covariant under modulation (its lags are off by one, so a
  phase enters under the real part), `Spectrogram` under delay at the left edge (columns are
  divided by the energy of the part of the window that meets the signal), nor
  `MargenauHillDistribution` under delay (sample 0 is never the conjugated factor).
* C126 `plot(sqmod=False)` of a complex representation hands complex numbers to
  matplotlib, and the rows it keeps are chosen by the lexicographic order of complex
  numbers.
* C20 the spectrogram is the squared STFT only with the part of the window it uses:
  for windows longer than the bins the two differ by more than the normalisation.
* C15, C16 a second `run` differs (STFT after a change of dtype, WVD, PWVD);
  `plot` overwrites the representation of STFT, MH and Page.
* C17, C18 a truncated window of zeros gives NaN columns; energy is not conserved.
* C21 `WignerVilleDistribution` raises IndexError for many lengths/bin counts.
* C30, C31 column 0 of Margenau-Hill is 0; Page is neither causal nor has the
  energy marginal.
* C37, C38, C40, C76 reassignment: an offset row; edges differ from
  `Spectrogram`; three functions always raise (float index); `morlet_scalogram`
  puts everything in one place.
* C41, C43, C44, C46 Hough rho label; `renyi_information` changes its argument;
  `ideal_tfr` on NaN; `ridges` misses points.
* C47, C52 `integrate_2d` on non-uniform x; `group_delay` NaN.
* C53 `amgauss` counts from 1 (peak at sample t0-1) while the other modulators
  count from 0; `amgauss(1)` misses its own centre; spread 0 gives NaN.
* C54-C57 `fmconst` with fractional t0 has modulus 1/|cos|, negative t0 wraps;
  `fmlin(1)` ZeroDivisionError; `fmodany` does not range-check column laws,
  t0=len IndexError, t0=0 refused; `fmpower` with positive integer degree always
  raises and iflaw[0]=inf; `fmsin` f0 outside the band is NaN; the law returned by
  `fmpar` is the phase derivative only for a1 in {0,2}, a2 in {0,3,-3}.
* C58-C60, C77 `anapulse` off the grid is zero; `anasing(40, h<=0)` raises by
  rounding; `anaask`/`anabpsk` n=1 IndexError, tiny n ZeroDivisionError;
  `anafsk` returns ceil(n/nc)*nc samples; `anaqpsk` fails unless nc divides n (the
  default n=128 fails); `noisecg` n<=2 TypeError, `noisecu` n<=2 a column;
  `dopnoise` returns n-1 samples.
* C61, C62 `sigmerge` NaN when x2 has no energy; `scale` always raises.
* C63-C67, C78, C79 `klauder` odd n gives n-1 samples; `mexhat(0)`
  ZeroDivisionError; `atoms` centre rounding to n IndexError, envelope peak at
  t0-1 but phase zero at t0; `altes` returns only NaN for equal bounds, bounds of opposite
  signs, fmax = 0, alpha <= 0 or alpha = 1, and divides by zero for fmin = 0; `doppler` amplitude scalar 0 when f0 < 2^-52; `altes`
  sweeps downwards from g*fmax and aliases by default; `gdpower` computes
  n**(degree*rate) (precedence), degree 1 TypeError, n=1,2 NaN, bin f holds
  frequency (f+1)/n, delay offset n+1 for negative rate.
* C68-C71, C80-C83 affine: two-column input IndexError; default number of voices
  AttributeError when fmax*umax is small (band 0.1-0.3); Bertrand ratio > e^4
  ValueError; Unterberger very wide bands ValueError; one voice
  ZeroDivisionError; `lambdak(0)` NaN except bertrand; the scalogram ignores
  timestamps, raises when n_voices differs from N (negative, 0 and 1 included; 2 of 3 samples
  returns with an extra row of zeros, 0 or 1 of 2 samples returns NaN), `wt` rows are delayed, Mexican
  hat rows are one sample off, and it normalises over bins k0+1..k1+1 where the
  others use k0..k1; the normalisation uses the number of timestamps, not the
  signal length.
* C72, C90 `gabor` with defaults raises ValueError unless n_coeff <= 2 or the length is
  the square of an n_coeff with oversampling 1 (256 samples: ValueError); a weak
  window (denominator below 2^-52) is not inverted, so the synthesis does not
  return the signal.
* C73, C74 PWVD labels rows with twice their frequency step; the smoothed version
  does not reduce to it (lag offset).
* C84-C86 `wide_band`: the scale axis is half a step off for even N, the reference
  cell is at delay -1/scale -1, the default band is read from the envelope instead
  of the spectrum, N=1 ZeroDivisionError; a default band of width zero raises ValueError.
* C87-C89 affine default band of width zero (quarter-rate tone) or reversed
  (constant); the zero of the interpolation axis is half a step off; Unterberger
  rows are one sample late; forms other than "A" IndexError; short signals with
  wide bands TypeError.
* C91 affine `smoothed_pseudo_wigner`: a call without both bounds raises
  TypeError (np.linspace is given a float count); a call without nh0 never
  returns (mu is a float and is used as an index). With integer nh0 and a band
  it returns only for n_voices = nh0 = len(timestamps) = len(signal) and a band
  wide enough that 2 fmax ln(fmax/fmin) >= 1. Then, because the whole ambiguity
  array is summed before multiplying by the frequency axis, every column is the
  frequency axis times one nonnegative number; l1 and l2 being one array, the
  "Wigner" product is a square. K other than "bertrand" gives NaN (lambdak(0)).
* C92 `morlet_scalogram`: instants outside 1-N .. N-1 raise IndexError (instant
  N too, unless N = 1); the call returns only if no energy exceeds 1e-6 of the
  mean power, so e.g. every unit impulse raises. The first factor of the first
  product takes index -1, the last sample of the wavelet, and x[t-1] is used
  twice; a unit impulse at its own instant has energy
  m/(tbp n) exp(-((m-1)/(n tbp))^2) in row m instead of m/(tbp n). For odd
  n_fbins one of the rows next to n/2 is never computed.
* C93 STFT, Spectrogram and Margenau-Hill objects of default size raise TypeError
  for `plot(kind="contour", show_tf=True)` and ValueError for surf/wireframe: half
  the rows were dropped but not half the axis. With `show_tf=True` surf and
  wireframe draw no main picture.
* C94 contours stretch the frequency axis (top row at 1/2); pseudo Wigner-Ville
  images run from -1/2 to 1/2, so every row is drawn too low.
* C95, C96 affine contours are drawn on a linear axis although the voices are
  geometric; the default plot raises ValueError when n_voices < N//2 or the matrix
  is constant; `plot` writes into the array that `run` returned; the scalogram is
  drawn over [0, 1/2] whatever fmin and fmax are.
* C97 the spectrum beside an affine plot is upside down; beside a scalogram it is
  squeezed to a sliver; for odd N the mean value is missing.
* C99 `scale="log"` of the Wigner-Ville plot has no effect without `show_tf=True` or for
  other kinds than contour; with both, a flat distribution raises ValueError
  (levels not increasing).
* C104 the gallery's Heisenberg-Gabor inequality (time-bandwidth product at least 1) does
  not hold for what `loctime` and `locfreq` compute: single samples and tones on a bin
  have product 0.
* C110 the Wigner-Ville distribution does not determine the signal up to a phase: the even and
  the odd samples each keep a phase of their own ([1, 1] and [1, -1] have the same distribution).
* C107 an impulse at the last sample also shows up in column 0 of the reassigned
  spectrogram: at the left edge the lag range reaches index -1 (same cause as C38).
* C114 the dilation grid `np.arange(-umax, umax, umax/m1)` has 2 m1 - 1 points for some
  (umax, m1), after which the loop over 2 m1 points raises IndexError (D-Flandrin, 102
  samples, band [0.05, 0.45]).
* C116 at multiples of 0.05 the default band depends on rounding: a band end may be a whole
  0.05 away from where exact arithmetic puts it.
* C120 Margenau-Hill, Page and Spectrogram are not smoothings of the library's Wigner-Ville
  distribution (they are not even functions of it).
* C121 a second `run()` writes its lag table into the matrix returned by the first one (the object
  keeps working on the array it handed out).
* C122 `MargenauHillDistribution` leaves sample 0 out of its lag range, so an impulse at sample 0 gives the
  zero matrix and its reversal does not; `PageRepresentation` is not mirrored either. STFT and Spectrogram
  are mirrored about (N+1)/2 instead of (N-1)/2, their columns being one sample late.
* C123 `fmpower` with a positive degree and c <> 0 warns about aliasing on every call, its docstring's own
  call included, because its law is infinite at sample 0. `fmpar` tests a law that is not the frequency of the
  signal it returns: an aliased signal can be silent.
* C124 `loctime` tests `ndim > 2` where its neighbours test `ndim > 1`: for a column vector it returns
  (n-1)/2 and a constant spread whatever the signal, for a row (0, 0). The affine constructors test the
  dimension of the caller's array but index the flattened one, so their "cross" mode always raises IndexError;
  an array of three dimensions is flattened and accepted.
* C11, C28 a window longer than `n_fbins` does not add its lags modulo `n_fbins`: each row of the column buffer
  is assigned, so the last of the lags that share a row replaces the others. `T_long.v` gives the columns for
  every window length (the lags that survive are the last `n_fbins` of the range); the mean, inversion,
  injectivity and delay theorems of C12 and C14 hold for every window.
* C121 `Spectrogram.plot()` leaves the object working on the first half of the matrix that `run()` returned;
  the next `run()` usually raises IndexError (any lag below zero addresses a row that is no longer there),
  after having overwritten columns of the returned matrix.
* C131 of the programs of `doc/_gallery`, those whose names begin with `noplot` (the ones the documentation
  build does not run) fail: the pseudo Page representation raises IndexError, the reassigned pseudo Page,
  pseudo Margenau-Hill and smoothed pseudo Wigner-Ville without windows raise TypeError, 256 voices of 64
  samples raise IndexError; `from tftb.processing import scalogram` names nothing. Of the others,
  `plot_2_6_monocomp_nonstat_colored_gaussian_noise.py` draws white noise, since `noisecg` ignores its
  coefficients.
* C132 `test_volume_invariance` asserts |A(0,0)|^2 = volume / (N/2).  This is true exactly for signals whose even and
  odd samples hold the same energy (`C132_volume`); in general only <= holds.  The two tests of the STFT skipped as
  "Known failure" are false statements, not defects of the code (`C132_conjugation_refuted`, `C132_translation_refuted`;
  the true forms are C14 and C122).  `test_loctime` gives `amgauss(160, 80, 50)` the mean time 79; it is a little more
  than 79 (`C132_loctime`), the 160 samples reaching further to the right of the centre than to the left.
* C58, C133 The docstring examples `anaqpsk(512, 64.0, 0.05)` and `anafsk(512, 54.0, 5.0)` raise TypeError: np.repeat
  refuses a float count, so no keying generator works with a float `n_comp` (`C58_float`, `C58_docstrings_refuted`).
  `M_docs.v` models the int/float distinction; its int case is proved equal to `M_gen2.v` (`C58_number`).
  In double precision `np.floor(Nbf * rand)` never reaches Nbf (`C58_rounded`), so `jumps[jumps == 4] = 3` is dead code.
* C02 In double precision `nextpow2` first fails at 2^49 + 1, not at 2^53 + 1: the correctly rounded logarithm is 49
  (`C02_float_exact`, `C02_float_first`).
* C133 `inst_freq` of a sinusoidal modulation underestimates the deviation by sin(a)/a, a = 2 pi / period, and is blind to a
  modulation of period 2 (`C133_blind`).
* C135 `plot(kind="contour", levels=...)` without `show_tf` ignores the levels (and contour_x, contour_y): they are popped
  from kwargs and not passed on (`C135_ignored`, `C135_levels_refuted`).
* C134 `locfreq` of a modulated signal wraps by one when a component passes the end of the axis (`C134_wrap_refuted`).
* C136 The argument `ax` of `plot` is never drawn on (`C136_ax_refuted`, `C136_panels`); `kind="surf"` leaves an extra empty
  figure; `Spectrogram.plot(sqmod=...)` and `MargenauHillDistribution.plot(extent=...)` raise TypeError (duplicate keyword);
  `scale="log"` overrides given levels; the affine classes and Margenau-Hill do not pass the threshold on.
* C137 The Hough threshold is 1/20 of the largest entry, not of the largest modulus, so negating an image changes which pixels vote
  (`C137_hough_neg_refuted`).  `fmsin` with no points returns empty arrays even where other lengths give NaN (`C57_fmsin_no_points`).
* C138 The documented grid `np.arange(0.1, 0.38, step=0.04)` has 8 frequencies in double precision, not 7: the quotient is 7.000000000000001 and the
  last entry is the stop value itself (`C138_half_open_refuted`).  The gallery grid `np.arange(0.51, step=0.01)` is as intended.
* C139 The reassigned spectrogram puts a tone on bin k0 in row k0 - 1 and one column to the left (`C139_collect`): the offsets `- 1` in
  reassigned.py survive from 1-based indexing.  Cells far from the tone are moved by n sin(t)/(2 pi) instead of n t/(2 pi), because
  `derive_window` is a centred difference; windows that are not zero at their ends (Hamming) get a further term (`C139_vectors`).
* C140 `noplot_4_1_2_sin_gauss_spwv.py` compares each entry with 5% of itself: nothing is removed (`C140_own`).  The last picture of
  `noplot_4_3_5_page_margenau_hill.py`, titled "Reassigned", is made from the matrix that is not reassigned (`C140_fourth`).
* C141 A band with fmax < fmin is not refused as such. Bertrand raises in brenth; D-Flandrin takes a modulus, so it gets the umax of the ordered band and
  returns a decreasing frequency axis when n_voices is given; Unterberger constructs an object whose run always raises (umax < 0, a negative number of grid points or rows).
  What D-Flandrin and Scalogram return is zero throughout once the band is wider than about one bin, since `_normalize` (and lines 243-250) take an empty slice (`C141_flandrin_zero`, `C141_scalogram_zero`).
* C142 The touch-tone programs use np.linspace(0, 1, fs), whose spacing is 1/(fs - 1): the tones are at 697 fs/(fs - 1) Hz for the rate fs, the last sample repeats the first
  and no bin but bin 0 of the spectrum of either sine is zero (`C142_leak`). Of the four windows of `uncertainty_stft.py` only the 2 ms one keeps the two pulses in different columns (`C142_program`).
* C143 The noise generators divide by the standard deviation of the real draws and by sqrt(2), although hilbert does not double the component at half the sampling
  frequency: the variance is 1 - t^2/(2 s^2), t the alternating mean of the draws, which is 1 for no generic draw and at least 1/2 (`C143_noisecg`, `C143_variance_refuted`).
* C144 The analytic impulse is not concentrated: its imaginary part decays like 2/(pi d) and holds almost half the energy (`C144_impulse`, `C144_energy`).
* C145 The reassigned pseudo Wigner-Ville distribution of a chirp collects the cells around the ridge in one row, but one row before it (`C145_collect`, `C145_example`), in line with C37.
* C146 The interferences of the Margenau-Hill distribution lie diagonally opposite the signals, as the gallery program says, and do not decrease with the distance of the components (`C146_corners`, `C146_strength`).
* C147 Interference terms of the Wigner-Ville distribution are copies of the atom's own distribution half way between the atoms and reach twice its height (`C147_two`, `C147_midpoint`).
* C148 The gallery's remark that the interference terms of the ambiguity function lie away from the origin holds for atoms further apart than their length (`C148_separated`); a lag of `narrow_band` is half a delay.
* C149 A tone outside the bins counted by the normalisation of the scalogram (1 + round(f (N - 2)), so up to one and a half bins off) gives an all-zero matrix (`C149_tone`); the wavelet coefficients `wt` returned beside it are delayed by the half-length of each wavelet, differently in every row (`C149_returns`).
* C150 The pseudo Wigner-Ville distribution of `reassigned` is the one of `PseudoWignerVilleDistribution` one column late: column 0 is zero and the last sample has none (`C150_default`); at half-length round(n/2)-1 only the class returns (`C150_only_class`).
* C151 An impulse at the last sample is absent from both outputs of `reassigned.pseudo_wigner_ville` called with its default timestamps, and every other one is shown one column late (`C151_default`).
* C153 `ridges` with `'rsp'` never returns a cell of `reassigned.spectrogram` that has zero frequency displacement: the ridge of a tone is reported one bin low (`C153_tone`, `C153_never`). With `'rpwv'` the offsets cancel, but row 0 is lost both there and in `friedman_density`, and the last row of the density takes two rows and all unmoved cells (`C153_density`, `C153_row0`, `C153_ridge_pwv`).
* C154 The upper plot of `plot_2_7_multicomp_nonstat_instfreq_grpdlay.py` shows neither of the two frequency laws at any instant at which the signal is not 0 (`C154_program`): a limit of the method, not of the code.
* C155 `PageRepresentation` of a tone at a quarter of the sampling frequency is identically 0, between a quarter and three quarters the energy comes out negative, because the lag is one off (`C155_page_tone`, `C155_page_quarter`); `MargenauHillDistribution` spreads -|a|^2 cos(...) of the unused sample 0 over all rows and loses an impulse there (`C155_mh_tone`, `C155_mh_impulse`).
* C156 `smoothed_pseudo_wigner_ville` of a tone at a quarter of the sampling frequency has its smallest, not its largest, entry on the row of the tone, a consequence of the lag offset of C74 (`C156_row`, `C156_trough`, `C156_example`: -1 there, 3 on row 0).
* C157 `smoothed_pseudo_wigner_ville` of an impulse is not flat over the rows: lag 0 is stored a second and third time as lags 1 and -1, so the column follows 1 + 2 w[1] cos(2 pi f / n) and is negative about n/2 (`C157_impulse`, `C157_negative`, `C157_example`: 12 on row 0, -4 on row 2).
* C158 `PseudoMargenauHillDistribution` peaks on the row of a tone, but with the phase 2 pi nu, so that the peak of a tone at a quarter of the sampling frequency has real part 0 (`C158_row`, `C158_quarter`); the column of an impulse is weighted with the window at lag -1 and turns with the row: it sums to 0 and a one-point window loses it (`C158_impulse`, `C158_lost`).
* C159 `smoothed_pseudo_wigner_ville` is not covariant under modulation: besides the rotation of the rows the terms of positive and negative lags are turned by one bin each way (`C159_modulation`).
* C160 the rows of `PseudoMargenauHillDistribution` add up to n w[0] x[c] conj(x[c-1]), a product of neighbours, instead of the power of the sample (`C160_marginal`, `C160_example`: 16i).
* C162 `fmpower` documents an integer degree, but through two points it raises for every degree of 0 or more (`C162_nonneg`), and with a negative instant and an odd degree the law misses the point (`C162_points`, `C162_example`).
* C163 modulating the signal by m bins moves the rows of `PseudoMargenauHillDistribution` and also turns every entry by exp(2 i pi m / n) (`C163_modulation`, `C163_turned`; `C163_example`: 1 becomes i).
* C164 `morlet_scalogram` with one frequency bin returns zeros for every signal (`C164_one`), and with no bins or tbp = 0 it raises ZeroDivisionError (`C164_zero`).
* C165 `morlet_scalogram` accepts a negative tbp: with -0.25 or less it returns NaN on nearly all rows for every signal (`C165_quarter`), between that and 0 it may raise IndexError for the row in the middle (`C165_raises`, `C165_example`).
* C166 `PseudoMargenauHillDistribution` does not determine the signal up to a phase when the signal has a gap wider than the window (`C166_refuted`: 1, 0, 0, 1 and 1, 0, 0, -1).
* C167 `PseudoWignerVilleDistribution` only compares samples of the same parity, so it loses the phase between the even and the odd samples (`C167_example`: [1, 1] and [1, -1] give the same matrix).
* C168 `MargenauHillDistribution` with the default number of frequency bins does not determine the signal, not even its modulus (`C168_refuted`: [1, 1j] and [2, 1j]); sample 0 is only seen through the real part of its product with the others. With 2N-1 bins or more it does, if the last sample is not zero.
* C169 `narrow_band` only compares samples of the same parity, so it loses the phase between the even and the odd samples (`C169_example`: [1, 1, 1] and [1, -1, 1]).
