{
 "claims": [
  {
   "property": "C01",
   "status": "proved",
   "theorems": [
    "C01_divider_balanced",
    "C01_divider_float_exact_range",
    "C01_divider_float_refuted"
   ],
   "note": "Exact arithmetic for all N >= 1; in double precision for all N up to 2^52, refuted at 2^52+1."
  },
  {
   "property": "C02",
   "status": "proved",
   "theorems": [
    "C02_float_exact",
    "C02_float_first",
    "C02_nextpow2_least",
    "C02_nextpow2_nonpositive",
    "C02_array_refuted",
    "C02_float_refuted"
   ],
   "note": "Over the reals; the array form and the double precision form beyond 2^53 are refuted."
  },
  {
   "property": "C03",
   "status": "proved",
   "theorems": [
    "C03_nearest_odd",
    "C03_array_agrees",
    "C03_range_refuted"
   ],
   "note": "Scalar and array form, all reals; the docstring example with a range raises."
  },
  {
   "property": "C04",
   "status": "proved",
   "theorems": [
    "C04_modulo_residue",
    "C04_complex"
   ],
   "note": "Integer arrays; also the complex branch, which returns residues in 0..N-1 or raises."
  },
  {
   "property": "C05",
   "status": "proved",
   "theorems": [
    "C05_progression",
    "C05_accepts_bound",
    "C05_accepts_close",
    "C05_short",
    "C05_example_accepts"
   ],
   "note": "All arithmetic progressions, all decimals >= 0."
  },
  {
   "property": "C06",
   "status": "proved",
   "theorems": [
    "C06_izak_zak",
    "C06_izak_energy",
    "C06_1d_refuted"
   ],
   "note": "All sizes; 1-d input always raises IndexError."
  },
  {
   "property": "C07",
   "status": "proved",
   "theorems": [
    "C07_freqs_even",
    "C07_freqs_odd_short",
    "C07_refuted"
   ],
   "note": "Settled: holds for every even n_fbins, refuted for odd n_fbins (axis one entry short); the exact odd axis is proved."
  },
  {
   "property": "C08",
   "status": "proved",
   "theorems": [
    "C08_default_window"
   ],
   "note": ""
  },
  {
   "property": "C09",
   "status": "proved",
   "theorems": [
    "C09_stft_total",
    "C09_stft_total_default"
   ],
   "note": ""
  },
  {
   "property": "C10",
   "status": "proved",
   "theorems": [
    "C10_stft_linear"
   ],
   "note": ""
  },
  {
   "property": "C11",
   "status": "proved",
   "theorems": [
    "C11_any_window",
    "C11_short_window",
    "C11_long_window_refuted",
    "C11_stft_closed_form"
   ],
   "note": "Every window: the plain formula for 2*lh < n_fbins, the reduced window otherwise; the plain formula refuted for longer windows."
  },
  {
   "property": "C12",
   "status": "proved",
   "theorems": [
    "C12_parseval_any_window",
    "C12_inversion_any_window",
    "C12_mean_any_window",
    "C12_injective_any_window",
    "C12_stft_parseval",
    "C12_stft_inversion",
    "C12_stft_mean",
    "C12_stft_injective"
   ],
   "note": "Every window."
  },
  {
   "property": "C13",
   "status": "proved",
   "theorems": [
    "C13_stft_modulation"
   ],
   "note": "Holds for every window, colliding lags included."
  },
  {
   "property": "C14",
   "status": "proved",
   "theorems": [
    "C14_any_window",
    "C14_stft_delay"
   ],
   "note": "Every window."
  },
  {
   "property": "C15",
   "status": "proved",
   "theorems": [
    "C15_pmh_second_run",
    "C15_pmh_refuted",
    "C15_mh_refuted",
    "C15_page_refuted",
    "C15_spectrogram_second_run",
    "C15_spectrogram_refuted",
    "C15_stft_second_run",
    "C15_stft_refuted",
    "C15_wvd_refuted",
    "C15_pwvd_refuted"
   ],
   "note": "Settled: refuted as titled; exact condition for STFT and pseudo Margenau-Hill, refutation for all WVD/PWVD runs, exact second results for Margenau-Hill, Page and Spectrogram with short signals or windows."
  },
  {
   "property": "C16",
   "status": "proved",
   "theorems": [
    "C16_wvd_plot_idempotent",
    "C16_wvd_plot_destroys_refuted",
    "C16_spectrogram_plot_twice",
    "C16_spectrogram_default_keeps_array",
    "C16_spectrogram_mutates_refuted",
    "C16_stft_plot_rows",
    "C16_stft_run_after_plot_refuted",
    "C16_stft_second_plot",
    "C16_mh_plot_history",
    "C16_page_plot_refuted",
    "C16_wvd_displays",
    "C16_stft_displays",
    "C16_mh_displays"
   ],
   "note": "Settled: refuted in part; idempotence for WVD and Spectrogram, destruction for STFT, MH, Page. Complex STFT plot with sqmod=False and matplotlib drawing not modelled."
  },
  {
   "property": "C17",
   "status": "proved",
   "theorems": [
    "C17_spectrogram_total",
    "C17_spectrogram_default_window",
    "C17_float_timestamps",
    "C17_nan_refuted"
   ],
   "note": "Settled: never raises for integer timestamps; a zero truncated window gives NaN columns (C17_nan_refuted), float timestamps raise IndexError."
  },
  {
   "property": "C18",
   "status": "proved",
   "theorems": [
    "C18_spectrogram_weighted_mean",
    "C18_spectrogram_mean_bounds",
    "C18_spectrogram_unimodular",
    "C18_energy_refuted"
   ],
   "note": "Weighted-mean, bounds and unimodular forms proved; total energy conservation is refuted (C18_energy_refuted)."
  },
  {
   "property": "C19",
   "status": "proved",
   "theorems": [
    "C19_spectrogram_scale"
   ],
   "note": ""
  },
  {
   "property": "C20",
   "status": "proved",
   "theorems": [
    "C20_any_window",
    "C20_long_window_refuted",
    "C20_spectrogram_is_stft"
   ],
   "note": "Settled: proved with the part of the window that the spectrogram uses; refuted with the whole of a window longer than the bins."
  },
  {
   "property": "C21",
   "status": "proved",
   "theorems": [
    "C21_wvd_outcome",
    "C21_wvd_default",
    "C21_wvd_few_bins",
    "C21_wvd_timestamps",
    "C21_refuted"
   ],
   "note": "Settled: refuted as titled; the exact success condition is proved for all lengths and bin counts."
  },
  {
   "property": "C22",
   "status": "proved",
   "theorems": [
    "C22_wvd_real",
    "C22_wvd_closed_form"
   ],
   "note": ""
  },
  {
   "property": "C23",
   "status": "proved",
   "theorems": [
    "C23_wvd_time_marginal",
    "C23_wvd_energy",
    "C23_one_bin_refuted"
   ],
   "note": "n_fbins >= 2; the one-bin run returns 0 (C23_one_bin_refuted)."
  },
  {
   "property": "C24",
   "status": "proved",
   "theorems": [
    "C24_wvd_freq_marginal"
   ],
   "note": "Proved for every n_fbins >= 2 for which run returns."
  },
  {
   "property": "C25",
   "status": "proved",
   "theorems": [
    "C25_wvd_support"
   ],
   "note": ""
  },
  {
   "property": "C26",
   "status": "proved",
   "theorems": [
    "C26_wvd_moyal"
   ],
   "note": "Proved for every n_fbins >= 2 for which run returns."
  },
  {
   "property": "C27",
   "status": "proved",
   "theorems": [
    "C27_wvd_delay",
    "C27_wvd_modulation",
    "C27_wvd_scale",
    "C27_wvd_parallelogram",
    "C27_wvd_returns_by_shape"
   ],
   "note": ""
  },
  {
   "property": "C28",
   "status": "proved",
   "theorems": [
    "C28_any_window",
    "C28_long_window_refuted",
    "C28_pwvd_outcome",
    "C28_pwvd_short_window_total",
    "C28_pwvd_marginal",
    "C28_pwvd_closed_form"
   ],
   "note": "Every window."
  },
  {
   "property": "C29",
   "status": "proved",
   "theorems": [
    "C29_nan_iff",
    "C29_spwv_outcome",
    "C29_even_window",
    "C29_spwv_closed_form",
    "C29_spwv_marginal",
    "C29_spwv_marginal_real",
    "C29_positive_window_no_nan",
    "C29_nan_refuted"
   ],
   "note": ""
  },
  {
   "property": "C30",
   "status": "proved",
   "theorems": [
    "C30_mh_outcome",
    "C30_float_timestamps",
    "C30_mh_closed_form",
    "C30_mh_marginal",
    "C30_mh_time0",
    "C30_mh_freq_marginal",
    "C30_refuted",
    "C30_any_timestamp",
    "C30_any_marginal",
    "C30_few_bins_refuted"
   ],
   "note": "Settled: refuted as titled at t=0 (column sums to 0); exact column sums proved for every timestamp."
  },
  {
   "property": "C31",
   "status": "proved",
   "theorems": [
    "C31_page_outcome",
    "C31_float_timestamps",
    "C31_page_closed_form",
    "C31_page_marginal",
    "C31_marginal_refuted",
    "C31_causal_refuted",
    "C31_any_timestamp",
    "C31_any_marginal"
   ],
   "note": "Settled: both claims refuted; the exact closed form and column sum are proved."
  },
  {
   "property": "C32",
   "status": "proved",
   "theorems": [
    "C32_pmh_outcome",
    "C32_pmh_closed_form",
    "C32_pseudo_page_always_raises",
    "C32_pseudo_page_empty"
   ],
   "note": "Closed form for every call that returns."
  },
  {
   "property": "C33",
   "status": "proved",
   "theorems": [
    "C33_outcome",
    "C33_no_bins",
    "C33_total",
    "C33_default",
    "C33_origin_and_maximum"
   ],
   "note": ""
  },
  {
   "property": "C34",
   "status": "proved",
   "theorems": [
    "C34_hermitian"
   ],
   "note": ""
  },
  {
   "property": "C35",
   "status": "proved",
   "theorems": [
    "C35_volume"
   ],
   "note": ""
  },
  {
   "property": "C36",
   "status": "proved",
   "theorems": [
    "C36_entries",
    "C36_mass",
    "C36_nonneg",
    "C36_outcome",
    "C36_nan"
   ],
   "note": ""
  },
  {
   "property": "C37",
   "status": "proved",
   "theorems": [
    "C37_vectors",
    "C37_undisplaced",
    "C37_refuted"
   ],
   "note": "Settled: refuted as titled; the exact destination is proved."
  },
  {
   "property": "C38",
   "status": "proved",
   "theorems": [
    "C38_agrees",
    "C38_left_edge_refuted"
   ],
   "note": "Settled: true above the window half-length, refuted at the left edge."
  },
  {
   "property": "C39",
   "status": "proved",
   "theorems": [
    "C39_entries",
    "C39_mass",
    "C39_marginal",
    "C39_outcome",
    "C39_vectors",
    "C39_nearest",
    "C39_moved"
   ],
   "note": ""
  },
  {
   "property": "C40",
   "status": "proved",
   "theorems": [
    "C40_pmh_outcome",
    "C40_page_outcome",
    "C40_spwv_no_window",
    "C40_spwv_even",
    "C40_spwv_outcome",
    "C40_pmh_raises",
    "C40_page_raises",
    "C40_spwv_raises"
   ],
   "note": "Settled: refuted as titled; each function raises for every input whatever follows the failing line."
  },
  {
   "property": "C41",
   "status": "proved",
   "theorems": [
    "C41_one_row",
    "C41_no_row",
    "C41_bad_sizes",
    "C41_rho_bound",
    "C41_entries",
    "C41_total",
    "C41_rho_axis_refuted",
    "C41_empty"
   ],
   "note": "Entry formula, vote totals; one row, no row, refused sizes; rho axis label refuted"
  },
  {
   "property": "C42",
   "status": "proved",
   "theorems": [
    "C42_scale",
    "C42_scale_neg",
    "C42_flat"
   ],
   "note": "Scale invariance including effects; flat distributions"
  },
  {
   "property": "C43",
   "status": "proved",
   "theorems": [
    "C43_effects",
    "C43_unchanged_iff",
    "C43_second_call",
    "C43_object",
    "C43_refuted"
   ],
   "note": "Settled: refuted as titled; exact effects, when nothing changes, second call"
  },
  {
   "property": "C44",
   "status": "proved",
   "theorems": [
    "C44_marks",
    "C44_default",
    "C44_nan_refuted",
    "C44_nan_raises"
   ],
   "note": "Marks, labels; NaN handling shown wrong"
  },
  {
   "property": "C45",
   "status": "proved",
   "theorems": [
    "C45_bins",
    "C45_density",
    "C45_positive",
    "C45_zero"
   ],
   "note": "Exact density; positivity, NaN case"
  },
  {
   "property": "C46",
   "status": "proved",
   "theorems": [
    "C46_points",
    "C46_last",
    "C46_unknown",
    "C46_default_ts",
    "C46_refuted",
    "C46_threshold_refuted"
   ],
   "note": "Settled: refuted as titled; exact result"
  },
  {
   "property": "C47",
   "status": "proved",
   "theorems": [
    "C47_trapezoid",
    "C47_nonuniform_refuted",
    "C47_one_column",
    "C47_default_axes",
    "C47_linear",
    "C47_nonneg"
   ],
   "note": "Exact formula for every matrix; trapezoidal identity for uniform x, refutation otherwise"
  },
  {
   "property": "C48",
   "status": "proved",
   "theorems": [
    "C48_formula",
    "C48_short",
    "C48_sum",
    "C48_symmetric"
   ],
   "note": "Every entry for every length >= 2"
  },
  {
   "property": "C49",
   "status": "proved",
   "theorems": [
    "C49_formula",
    "C49_bounds",
    "C49_zero_spread",
    "C49_scale",
    "C49_shift"
   ],
   "note": "formula, bounds, zero spread, scale, shift"
  },
  {
   "property": "C50",
   "status": "proved",
   "theorems": [
    "C50_formula",
    "C50_raises",
    "C50_empty",
    "C50_one_sample",
    "C50_bounds",
    "C50_tone",
    "C50_refuted",
    "C50_range_refuted"
   ],
   "note": "Settled: refuted as titled; exact outcome and formula for every length"
  },
  {
   "property": "C51",
   "status": "proved",
   "theorems": [
    "C51_silence",
    "C51_outcome",
    "C51_default",
    "C51_range",
    "C51_exact",
    "C51_wrap",
    "C51_fmconst",
    "C51_fmlin"
   ],
   "note": "outcome, range and exact recovery for every angle function np.angle may return"
  },
  {
   "property": "C52",
   "status": "proved",
   "theorems": [
    "C52_formula",
    "C52_default",
    "C52_empty",
    "C52_range",
    "C52_values",
    "C52_impulse",
    "C52_scale",
    "C52_nan_refuted"
   ],
   "note": "formula, range, impulse, scale; NaN refutation"
  },
  {
   "property": "C53",
   "status": "proved",
   "theorems": [
    "C53_raises",
    "C53_defaults",
    "C53_amgauss",
    "C53_amexpos",
    "C53_zero_spread",
    "C53_amexpos_unilateral",
    "C53_amrect",
    "C53_amtriang",
    "C53_gauss_one_refuted",
    "C53_zero_spread_refuted",
    "C53_negative_spread",
    "C53_zero_spread_others"
   ],
   "note": "Settled: true with two exceptions proved as refutations: amgauss(1) misses its centre (1-based time axis) and spread 0 gives NaN"
  },
  {
   "property": "C54",
   "status": "proved",
   "theorems": [
    "C54_raises",
    "C54_tone",
    "C54_default",
    "C54_modulus",
    "C54_fraction_refuted"
   ],
   "note": "with the fractional t0 case refuted"
  },
  {
   "property": "C55",
   "status": "proved",
   "theorems": [
    "C55_raises",
    "C55_chirp",
    "C55_default"
   ],
   "note": ""
  },
  {
   "property": "C56",
   "status": "proved",
   "theorems": [
    "C56_raises",
    "C56_signal",
    "C56_ok",
    "C56_column_refuted",
    "C56_last_refuted"
   ],
   "note": "Settled: column laws escape the range check and t0=len raises IndexError (refutations)"
  },
  {
   "property": "C57",
   "status": "proved",
   "theorems": [
    "C57_fmhyp",
    "C57_fmhyp_raises",
    "C57_fmpower",
    "C57_fmpower_points",
    "C57_fmpower_int",
    "C57_fmpower_coeffs",
    "C57_fmsin",
    "C57_fmsin_defaults",
    "C57_fmsin_equal_band",
    "C57_fmsin_outside",
    "C57_fmsin_zero_period",
    "C57_fmsin_no_points",
    "C57_fmsin_phase",
    "C57_fmpar",
    "C57_fmpar_refuted"
   ],
   "note": "Settled: true for fmhyp, fmpower, fmsin; refuted for fmpar"
  },
  {
   "property": "C58",
   "status": "proved",
   "theorems": [
    "C58_number",
    "C58_float",
    "C58_float_fsk",
    "C58_anaask",
    "C58_anabpsk",
    "C58_raises",
    "C58_defaults",
    "C58_anafsk",
    "C58_anafsk_raises",
    "C58_anafsk_length_refuted",
    "C58_anaqpsk",
    "C58_anaqpsk_raises",
    "C58_anaqpsk_default_refuted",
    "C58_negative_blocks",
    "C58_anaqpsk_few",
    "C58_rounded"
   ],
   "note": "Settled: ASK/BPSK true for n_points>=2; refutations: anafsk length, anaqpsk default block length"
  },
  {
   "property": "C59",
   "status": "proved",
   "theorems": [
    "C59_hilbert",
    "C59_anapulse",
    "C59_anastep",
    "C59_raises",
    "C59_off_grid"
   ],
   "note": ""
  },
  {
   "property": "C60",
   "status": "proved",
   "theorems": [
    "C60_dopnoise_zero",
    "C60_dopnoise_nan",
    "C60_dopnoise_few",
    "C60_noisecg",
    "C60_noisecu",
    "C60_unit_variance",
    "C60_short_refuted",
    "C60_dopnoise",
    "C60_dopnoise_raises",
    "C60_dopnoise_default",
    "C60_dopnoise_length_refuted"
   ],
   "note": "Settled: refuted as titled for n_points<=2 and for dopnoise length; outcome characterised"
  },
  {
   "property": "C61",
   "status": "proved",
   "theorems": [
    "C61_ratio",
    "C61_decibels",
    "C61_outcome",
    "C61_broadcast"
   ],
   "note": ""
  },
  {
   "property": "C62",
   "status": "proved",
   "theorems": [
    "C62_refuted",
    "C62_outcome"
   ],
   "note": "Settled: refuted as titled; the exception raised is characterised for every input (control-flow model of lines 46-75)"
  },
  {
   "property": "C63",
   "status": "proved",
   "theorems": [
    "C63_raises_x",
    "C63_default_x",
    "C63_finite",
    "C63_no_sampling",
    "C63_no_wave",
    "C63_raises",
    "C63_default",
    "C63_signal",
    "C63_law"
   ],
   "note": ""
  },
  {
   "property": "C64",
   "status": "proved",
   "theorems": [
    "C64_altes_all",
    "C64_altes_negative",
    "C64_klauder",
    "C64_klauder_raises",
    "C64_klauder_odd_refuted",
    "C64_altes",
    "C64_altes_envelope",
    "C64_altes_swap",
    "C64_altes_inverted"
   ],
   "note": "Settled: klauder has n samples for even n >= 2, n-1 for odd n; altes exactly characterised for all positive bounds in either order and all alpha other than 1"
  },
  {
   "property": "C65",
   "status": "proved",
   "theorems": [
    "C65_outcome"
   ],
   "note": ""
  },
  {
   "property": "C66",
   "status": "proved",
   "theorems": [
    "C66_gdpower",
    "C66_short_refuted",
    "C66_outcome",
    "C66_raises",
    "C66_delay"
   ],
   "note": "Settled: holds for n >= 3; NaN for n = 1, 2"
  },
  {
   "property": "C67",
   "status": "proved",
   "theorems": [
    "C67_one_row",
    "C67_centre",
    "C67_atoms",
    "C67_additive",
    "C67_raises",
    "C67_last_refuted"
   ],
   "note": ""
  },
  {
   "property": "C68",
   "status": "proved",
   "theorems": [
    "C68_band",
    "C68_affine",
    "C68_inband",
    "C68_scalogram",
    "C68_scalogram_total"
   ],
   "note": ""
  },
  {
   "property": "C69",
   "status": "proved",
   "theorems": [
    "C69_grid",
    "C69_scalogram",
    "C69_single_refuted"
   ],
   "note": ""
  },
  {
   "property": "C70",
   "status": "proved",
   "theorems": [
    "C70_unterberger_root",
    "C70_outcome",
    "C70_default_refuted",
    "C70_cross"
   ],
   "note": "Settled: refuted as titled; outcome of the constructors characterised"
  },
  {
   "property": "C71",
   "status": "proved",
   "theorems": [
    "C71_solves",
    "C71_reciprocal"
   ],
   "note": ""
  },
  {
   "property": "C72",
   "status": "proved",
   "theorems": [
    "C72_outcome",
    "C72_divides",
    "C72_default",
    "C72_default_refuted"
   ],
   "note": "Settled: refuted as titled; the outcome of every call is characterised (C72_outcome), and which default calls return (C72_default)."
  },
  {
   "property": "C73",
   "status": "proved",
   "theorems": [
    "C73_pwvd_labels"
   ],
   "note": "Settled: refuted as titled; the mislabelling is proved for every signal of even length."
  },
  {
   "property": "C74",
   "status": "proved",
   "theorems": [
    "C74_one_sample_window",
    "C74_refuted"
   ],
   "note": "Settled: refuted as titled by a concrete run; C74_one_sample_window gives the exact (offset) lag law for every signal and frequency window."
  },
  {
   "property": "C75",
   "status": "proved",
   "theorems": [
    "C75_spectrum_total"
   ],
   "note": ""
  },
  {
   "property": "C76",
   "status": "proved",
   "theorems": [
    "C76_morlet_loop"
   ],
   "note": "Settled: refuted as titled; exact behaviour of the loop proved. The transform computation before the loop is not modelled."
  },
  {
   "property": "C77",
   "status": "proved",
   "theorems": [
    "C77_default",
    "C77_default_cusp",
    "C77_outcome",
    "C77_exact",
    "C77_no_points",
    "C77_pow2",
    "C77_binary64_refuted",
    "C77_real_part",
    "C77_cosines",
    "C77_cusp"
   ],
   "note": "Settled: refuted as titled; outcome characterised for every sample count"
  },
  {
   "property": "C78",
   "status": "proved",
   "theorems": [
    "C78_linear",
    "C78_power",
    "C78_refuted"
   ],
   "note": "Settled: refuted as titled; exact law proved"
  },
  {
   "property": "C79",
   "status": "proved",
   "theorems": [
    "C79_sweep",
    "C79_default_refuted"
   ],
   "note": "Settled: refuted as titled; exact sweep proved"
  },
  {
   "property": "C80",
   "status": "proved",
   "theorems": [
    "C80_voices",
    "C80_unset"
   ],
   "note": ""
  },
  {
   "property": "C81",
   "status": "proved",
   "theorems": [
    "C81_value",
    "C81_identity",
    "C81_zero_refuted"
   ],
   "note": "Settled: value at 0 refuted except bertrand"
  },
  {
   "property": "C82",
   "status": "proved",
   "theorems": [
    "C82_timestamps_refuted",
    "C82_defaults",
    "C82_array_refuted",
    "C82_voices_refuted",
    "C82_short_wavelet",
    "C82_negative",
    "C82_negative_voices",
    "C82_no_voices",
    "C82_one_voice",
    "C82_two_voices"
   ],
   "note": "Settled: refuted as titled; outcomes characterised"
  },
  {
   "property": "C83",
   "status": "proved",
   "theorems": [
    "C83_scalogram"
   ],
   "note": ""
  },
  {
   "property": "C84",
   "status": "proved",
   "theorems": [
    "C84_axes",
    "C84_theta_refuted",
    "C84_raises",
    "C84_default_voices"
   ],
   "note": "Settled: refuted as titled for the unit-scale label (c84_theta_refuted); shapes, axes, default N and raises proved."
  },
  {
   "property": "C85",
   "status": "proved",
   "theorems": [
    "C85_value",
    "C85_reference",
    "C85_peak",
    "C85_real",
    "C85_scale",
    "C85_origin_refuted"
   ],
   "note": "Settled: refuted as titled for the origin (c85_origin_refuted); entry formula, reference cell, homogeneity, peak at delay 0 proved."
  },
  {
   "property": "C86",
   "status": "proved",
   "theorems": [
    "C86_band",
    "C86_silent",
    "C86_spectrum_refuted",
    "C86_zero",
    "C86_two_refuted",
    "C86_empty_band",
    "C86_empty_band_refuted",
    "C86_equal_bounds"
   ],
   "note": "Settled: refuted as titled; the band actually computed is characterised."
  },
  {
   "property": "C87",
   "status": "proved",
   "theorems": [
    "C87_band",
    "C87_brackets",
    "C87_silent",
    "C87_span"
   ],
   "note": "Exact formula of the band from the spectral bins; bracketing; silent signals; degenerate bands shown."
  },
  {
   "property": "C88",
   "status": "proved",
   "theorems": [
    "C88_shift",
    "C88_kernel",
    "C88_marginal",
    "C88_run"
   ],
   "note": "Spline left abstract; root finders exact; binary64 rounding not modelled."
  },
  {
   "property": "C89",
   "status": "proved",
   "theorems": [
    "C89_outcome",
    "C89_long",
    "C89_form",
    "C89_short_refuted"
   ],
   "note": "Settled: refuted as titled; exact condition for TypeError proved."
  },
  {
   "property": "C90",
   "status": "proved",
   "theorems": [
    "C90_analysis",
    "C90_dual",
    "C90_reconstruct",
    "C90_tiny_refuted",
    "C90_window"
   ],
   "note": "Reconstruction, analysis formula and duality; the small-denominator exception is C90_tiny_refuted."
  },
  {
   "property": "C91",
   "status": "proved",
   "theorems": [
    "C91_band",
    "C91_default_refuted",
    "C91_separable",
    "C91_float_refuted",
    "C91_outcome",
    "C91_result",
    "C91_nonneg",
    "C91_default_voices",
    "C91_any_voices"
   ],
   "note": "Settled: refuted as titled; default calls never return (c91_default_refuted, c91_float_refuted); outcome of every explicit call, closed form, separability and non-negativity proved."
  },
  {
   "property": "C92",
   "status": "proved",
   "theorems": [
    "C92_irregular",
    "C92_outside",
    "C92_outcome",
    "C92_default",
    "C92_mirror",
    "C92_scale",
    "C92_scale_outcome",
    "C92_impulse",
    "C92_impulse_raises",
    "C92_peak_refuted"
   ],
   "note": "Settled: outcome of every call, closed form, mirror and scaling laws proved; the impulse height refuted (c92_peak_refuted) with the exact height in C92_impulse."
  },
  {
   "property": "C93",
   "status": "proved",
   "theorems": [
    "C93_wvd",
    "C93_shapes",
    "C93_stft",
    "C93_spectrogram",
    "C93_mh",
    "C93_half_refuted",
    "C93_wvd_default"
   ],
   "note": "Settled: refuted as titled for the halving classes; outcome of every kind and size"
  },
  {
   "property": "C94",
   "status": "proved",
   "theorems": [
    "C94_stft",
    "C94_wvd",
    "C94_pseudo_refuted",
    "C94_mh",
    "C94_contour",
    "C94_images",
    "C94_stretched_refuted"
   ],
   "note": "Settled: refuted for pseudo Wigner-Ville images and contours; exact positions"
  },
  {
   "property": "C95",
   "status": "proved",
   "theorems": [
    "C95_outcome",
    "C95_inplace",
    "C95_labels_refuted",
    "C95_run"
   ],
   "note": "Settled: refuted for the row labels; outcome, effect on the array and exact positions"
  },
  {
   "property": "C96",
   "status": "proved",
   "theorems": [
    "C96_draws",
    "C96_labels_refuted"
   ],
   "note": "Settled: refuted for the row labels; artists in full"
  },
  {
   "property": "C97",
   "status": "proved",
   "theorems": [
    "C97_spectrum",
    "C97_upright",
    "C97_span",
    "C97_affine_refuted",
    "C97_scalogram_refuted"
   ],
   "note": "Settled: refuted for the affine classes; values in full"
  },
  {
   "property": "C98",
   "status": "proved",
   "theorems": [
    "C98_outcome",
    "C98_limits"
   ],
   "note": "In full"
  },
  {
   "property": "C99",
   "status": "proved",
   "theorems": [
    "C99_ignored",
    "C99_outcome",
    "C99_levels",
    "C99_wvd_default",
    "C99_flat"
   ],
   "note": "Settled: refuted as titled for plots without show_tf (scale is ignored); exact outcome and exact levels proved; default WVD of N >= 3 samples always drawn."
  },
  {
   "property": "C100",
   "status": "proved",
   "theorems": [
    "C100_entry",
    "C100_ridge",
    "C100_label",
    "C100_peak",
    "C100_ends"
   ],
   "note": "All chirps, rows and columns; kernel in closed form with its maximum."
  },
  {
   "property": "C101",
   "status": "proved",
   "theorems": [
    "C101_interference",
    "C101_oscillation",
    "C101_size"
   ],
   "note": ""
  },
  {
   "property": "C102",
   "status": "proved",
   "theorems": [
    "C102_entry",
    "C102_ridge",
    "C102_line",
    "C102_peak"
   ],
   "note": ""
  },
  {
   "property": "C103",
   "status": "proved",
   "theorems": [
    "C103_bound_any_window",
    "C103_bound",
    "C103_rectangle",
    "C103_nearest",
    "C103_instant"
   ],
   "note": ""
  },
  {
   "property": "C104",
   "status": "proved",
   "theorems": [
    "C104_impulse",
    "C104_tone",
    "C104_zero_band",
    "C104_product",
    "C104_not_both",
    "C104_refuted"
   ],
   "note": "Settled: refuted as titled; zero set and both closed forms proved."
  },
  {
   "property": "C105",
   "status": "proved",
   "theorems": [
    "C105_negative",
    "C105_shannon",
    "C105_components",
    "C105_max",
    "C105_call",
    "C105_defaults"
   ],
   "note": ""
  },
  {
   "property": "C106",
   "status": "proved",
   "theorems": [
    "C106_stft_any_window",
    "C106_pseudo_any_window",
    "C106_stft",
    "C106_spectrogram",
    "C106_pseudo",
    "C106_wigner"
   ],
   "note": ""
  },
  {
   "property": "C107",
   "status": "proved",
   "theorems": [
    "C107_cells",
    "C107_vectors",
    "C107_impulse",
    "C107_last",
    "C107_last_refuted"
   ],
   "note": "Settled: refuted at the last sample (C107_last, C107_last_refuted); proved everywhere else."
  },
  {
   "property": "C108",
   "status": "proved",
   "theorems": [
    "C108_stft",
    "C108_wvd",
    "C108_spectrogram"
   ],
   "note": ""
  },
  {
   "property": "C109",
   "status": "proved",
   "theorems": [
    "C109_strip",
    "C109_row",
    "C109_column",
    "C109_unique",
    "C109_square"
   ],
   "note": "Strip characterisation for all images; unique peak for full rows"
  },
  {
   "property": "C110",
   "status": "proved",
   "theorems": [
    "C110_lag_products",
    "C110_same_distribution",
    "C110_phase_refuted"
   ],
   "note": "Settled: refuted as titled; exact characterisation of equal distributions"
  },
  {
   "property": "C111",
   "status": "proved",
   "theorems": [
    "C111_fourier",
    "C111_inverse",
    "C111_shifts"
   ],
   "note": "Forward and inverse identity, delays and modulations"
  },
  {
   "property": "C112",
   "status": "proved",
   "theorems": [
    "C112_smoothing",
    "C112_any_window"
   ],
   "note": "Windows of any length; C112_smoothing is the special case of windows that are used whole"
  },
  {
   "property": "C113",
   "status": "proved",
   "theorems": [
    "C113_stft",
    "C113_spectrogram",
    "C113_wvd",
    "C113_pwvd",
    "C113_mh",
    "C113_page",
    "C113_pmh",
    "C113_ambiguity"
   ],
   "note": "All eight functions; hermitian symmetry of the DFT of a real column."
  },
  {
   "property": "C114",
   "status": "proved",
   "theorems": [
    "C114_count",
    "C114_criterion",
    "C114_down",
    "C114_power_of_two",
    "C114_loop",
    "C114_run",
    "C114_refuted",
    "C114_values"
   ],
   "note": "Settled: refuted as titled; exact criterion, safe cases and a complete failing run proved."
  },
  {
   "property": "C115",
   "status": "proved",
   "theorems": [
    "C115_int",
    "C115_ceil",
    "C115_half",
    "C115_fifth",
    "C115_refuted"
   ],
   "note": "Proved below 2^53; refuted beyond."
  },
  {
   "property": "C116",
   "status": "proved",
   "theorems": [
    "C116_interior",
    "C116_multiple",
    "C116_covers",
    "C116_band",
    "C116_upper_refuted",
    "C116_lower_refuted",
    "C116_quarter"
   ],
   "note": "Settled: refuted as titled at multiples of 0.05; exact elsewhere, with the largest possible deviation."
  },
  {
   "property": "C117",
   "status": "proved",
   "theorems": [
    "C117_wvd",
    "C117_wvd_stable",
    "C117_pwvd",
    "C117_pwvd_stable",
    "C117_ambiguity_stable",
    "C117_stft",
    "C117_stft_stable",
    "C117_spectrogram",
    "C117_spectrogram_stable",
    "C117_mh",
    "C117_page",
    "C117_stft_any_window",
    "C117_stft_stable_any_window",
    "C117_pwvd_any_window",
    "C117_pwvd_stable_any_window"
   ],
   "note": "Proved; the Wigner-Ville bound is attained by an impulse."
  },
  {
   "property": "C118",
   "status": "proved",
   "theorems": [
    "C118_wvd",
    "C118_stft",
    "C118_spectrum",
    "C118_stft_any_window"
   ],
   "note": "Proved."
  },
  {
   "property": "C119",
   "status": "proved",
   "theorems": [
    "C119_pwvd_any_window",
    "C119_pwvd",
    "C119_ambiguity",
    "C119_mh",
    "C119_page",
    "C119_spectrogram",
    "C119_refuted"
   ],
   "note": "Proved; additivity refuted."
  },
  {
   "property": "C120",
   "status": "proved",
   "theorems": [
    "C120_pwvd",
    "C120_ambiguity",
    "C120_spwvd",
    "C120_twins",
    "C120_mh_refuted",
    "C120_page_refuted",
    "C120_spectrogram_refuted",
    "C120_pwvd_any_window"
   ],
   "note": "Settled: proved for three representations, refuted for three."
  },
  {
   "property": "C121",
   "status": "proved",
   "theorems": [
    "C121_table",
    "C121_model",
    "C121_inputs",
    "C121_others",
    "C121_earlier_results",
    "C121_after_plot",
    "C121_page_plot",
    "C121_stft_second_run",
    "C121_wvd_second_run",
    "C121_spectrogram_second_run",
    "C121_refuted",
    "C121_wvd_failed_run",
    "C121_pwvd_failed_run",
    "C121_plot_model",
    "C121_spectrogram_plot",
    "C121_pwvd_view",
    "C121_spectrogram_run_after_plot"
   ],
   "note": "Settled: refuted as titled; which arrays each call writes is characterised for all histories, the overwritten values for STFT, Spectrogram (also after plot) and Wigner-Ville, and what runs that raise leave behind."
  },
  {
   "property": "C122",
   "status": "proved",
   "theorems": [
    "C122_pwvd_real_window",
    "C122_stft_conj_any_window",
    "C122_stft_reversal_long_refuted",
    "C122_wvd_reversal",
    "C122_wvd_conj",
    "C122_wvd_mirror",
    "C122_pwvd",
    "C122_stft_reversal",
    "C122_stft_conj",
    "C122_spectrogram_reversal",
    "C122_ambiguity",
    "C122_mh",
    "C122_mh_refuted",
    "C122_page_refuted"
   ],
   "note": "Settled: proved for Wigner-Ville, pseudo Wigner-Ville, STFT, Spectrogram and narrow_band; refuted for Margenau-Hill (exact difference proved) and Page."
  },
  {
   "property": "C123",
   "status": "proved",
   "theorems": [
    "C123_fmhyp",
    "C123_fmhyp_quiet",
    "C123_fmpar",
    "C123_fmpar_silent_refuted",
    "C123_fmpar_ends_refuted",
    "C123_fmpower_always",
    "C123_fmpower",
    "C123_fmpower_points",
    "C123_fmpower_refuted"
   ],
   "note": "Settled: refuted as titled for fmpar and fmpower; exact condition of the warning proved for all three."
  },
  {
   "property": "C124",
   "status": "proved",
   "theorems": [
    "C124_row_column",
    "C124_matrix",
    "C124_times",
    "C124_sigmerge",
    "C124_affine",
    "C124_narrow_band",
    "C124_loctime_column",
    "C124_loctime_row",
    "C124_loctime_rectangle",
    "C124_loctime_square",
    "C124_loctime_deep",
    "C124_loctime_refuted"
   ],
   "note": "Settled: refuted for loctime; exact outcome for every shape."
  },
  {
   "property": "C125",
   "status": "proved",
   "theorems": [
    "C125_constant",
    "C125_scalogram_scale",
    "C125_affine_scale",
    "C125_real"
   ],
   "note": "Spline routine abstract but assumed linear in the ordinates."
  },
  {
   "property": "C126",
   "status": "proved",
   "theorems": [
    "C126_in_place",
    "C126_negative",
    "C126_empty",
    "C126_others",
    "C126_frequencies"
   ],
   "note": "Settled: refuted as titled; what every entry of the returned array becomes, what is drawn and what is raised are proved for all inputs. What matplotlib's contour does with complex numbers is left open."
  },
  {
   "property": "C127",
   "status": "proved",
   "theorems": [
    "C127_unilateral",
    "C127_unilateral_nan",
    "C127_bilateral",
    "C127_refuted",
    "C127_klauder",
    "C127_limits",
    "C127_zero_spread",
    "C127_negative_spread",
    "C127_klauder_outcome"
   ],
   "note": "Settled: refuted as titled for the unilateral kind and for klauder, with the exact condition for the former; proved for the bilateral kind. The model has the range of double precision but no rounding inside it."
  },
  {
   "property": "C128",
   "status": "proved",
   "theorems": [
    "C128_spectrogram_modulation",
    "C128_pwvd_modulation",
    "C128_mh_modulation",
    "C128_pmh_modulation",
    "C128_page_modulation",
    "C128_pwvd_delay",
    "C128_page_delay",
    "C128_mh_delay",
    "C128_pmh_delay",
    "C128_spectrogram_delay",
    "C128_spectrogram_edge_refuted",
    "C128_page_modulation_refuted"
   ],
   "note": "Settled: modulation proved for all but Page, delay for all but Spectrogram (edges) and Margenau-Hill; the three exceptions refuted with the exact values"
  },
  {
   "property": "C129",
   "status": "proved",
   "theorems": [
    "C129_positive",
    "C129_negative",
    "C129_zero_stft",
    "C129_zero_spectrogram",
    "C129_zero_wvd",
    "C129_zero_pwvd",
    "C129_zero_mh_page",
    "C129_zero_pmh",
    "C129_zero_ppage",
    "C129_zero_spwv",
    "C129_zero_spwv_default",
    "C129_float",
    "C129_empty_signal"
   ],
   "note": ""
  },
  {
   "property": "C130",
   "status": "proved",
   "theorems": [
    "C130_wvd",
    "C130_determined",
    "C130_pwvd",
    "C130_mh_moments",
    "C130_page_moments",
    "C130_mh"
   ],
   "note": "c130_wvd, c130_determined, c130_pwvd; np.angle is any function with is_angle."
  },
  {
   "property": "C131",
   "status": "proved",
   "theorems": [
    "C131_chirp_wv",
    "C131_hough_image",
    "C131_noisy_chirp",
    "C131_constant_draws",
    "C131_two_chirps",
    "C131_localization",
    "C131_inst_freq",
    "C131_gabor",
    "C131_affine",
    "C131_wideband",
    "C131_density",
    "C131_friedman",
    "C131_reassigned",
    "C131_hybrid",
    "C131_transient",
    "C131_tone_and_packet",
    "C131_chirp_sum",
    "C131_packets",
    "C131_doppler",
    "C131_two_atoms",
    "C131_four_atoms",
    "C131_impulse",
    "C131_scalogram",
    "C131_page_raises",
    "C131_singularity_raises"
   ],
   "note": "Settled: the programs with plot_ names return as stated; those of noplot/ are refuted. Drawing itself is modelled only as far as in C99."
  },
  {
   "property": "C132",
   "status": "proved",
   "theorems": [
    "C132_spectrogram_local",
    "C132_spectrogram_roll",
    "C132_spectrogram_energy",
    "C132_volume",
    "C132_volume_refuted",
    "C132_derive",
    "C132_pwvd_energy",
    "C132_loctime",
    "C132_amgauss_curvature",
    "C132_amgauss_test",
    "C132_mexhat_shape",
    "C132_mexhat_extrema",
    "C132_instfreq",
    "C132_conjugation_refuted",
    "C132_translation_refuted",
    "C132_energy_default"
   ],
   "note": "All sizes and parameters; the volume test and the two known failures settled as false in general, with the exact condition for the volume."
  },
  {
   "property": "C133",
   "status": "proved",
   "theorems": [
    "C133_inst_freq",
    "C133_blind",
    "C133_fmodany",
    "C133_fmconst",
    "C133_fmlin",
    "C133_dopnoise",
    "C133_stft",
    "C133_window"
   ],
   "note": ""
  },
  {
   "property": "C134",
   "status": "proved",
   "theorems": [
    "C134_locfreq_delay",
    "C134_locfreq_scale",
    "C134_locfreq_modulate",
    "C134_inst_tuned",
    "C134_inst_conj",
    "C134_delay",
    "C134_tuned",
    "C134_conj",
    "C134_wrap_refuted"
   ],
   "note": "Covariances of locfreq, inst_freq and group_delay; wrap of locfreq refuted."
  },
  {
   "property": "C135",
   "status": "proved",
   "theorems": [
    "C135_ignored",
    "C135_no_extent",
    "C135_image",
    "C135_side",
    "C135_contour",
    "C135_plain_contour",
    "C135_levels_refuted"
   ],
   "note": "Settled: levels without show_tf refuted as an option; every other option specified."
  },
  {
   "property": "C136",
   "status": "proved",
   "theorems": [
    "C136_stft",
    "C136_spectrogram",
    "C136_margenau",
    "C136_wigner",
    "C136_pseudo",
    "C136_affine",
    "C136_imshow",
    "C136_figures",
    "C136_index",
    "C136_no_line",
    "C136_ax_refuted",
    "C136_panels"
   ],
   "note": "Settled: ax refuted as titled; the keywords and figures of every plot method specified."
  },
  {
   "property": "C137",
   "status": "proved",
   "theorems": [
    "C137_hough_scale",
    "C137_hough_neg_refuted",
    "C137_friedman_scale",
    "C137_ridges_scale",
    "C137_half_turn",
    "C137_transpose",
    "C137_line",
    "C137_friedman_own"
   ],
   "note": "Scaling theorems hold for every outcome of the call; a negative factor is refuted."
  },
  {
   "property": "C138",
   "status": "proved",
   "theorems": [
    "C138_count",
    "C138_dyadic",
    "C138_doc",
    "C138_half_open_refuted",
    "C138_gallery",
    "C138_programs"
   ],
   "note": "c138_count bounds the length; c138_doc and c138_half_open_refuted settle the documented grid, c138_gallery the gallery grid."
  },
  {
   "property": "C139",
   "status": "proved",
   "theorems": [
    "C139_cells",
    "C139_vectors",
    "C139_rows",
    "C139_collect"
   ],
   "note": "Exact real arithmetic; the derivative window is the centred difference of derive_window. Columns whose window is cut by the ends of the signal are covered by C36 only."
  },
  {
   "property": "C140",
   "status": "proved",
   "theorems": [
    "C140_outcome",
    "C140_own",
    "C140_squares",
    "C140_kept",
    "C140_again",
    "C140_scaling",
    "C140_lost",
    "C140_real",
    "C140_fourth"
   ],
   "note": "Exact reals. The program of (e) raises at its first call (C131); the claim is about its lines taken on their own."
  },
  {
   "property": "C141",
   "status": "proved",
   "theorems": [
    "C141_voices",
    "C141_bertrand",
    "C141_flandrin",
    "C141_count",
    "C141_same",
    "C141_unterberger",
    "C141_axis",
    "C141_flandrin_run",
    "C141_flandrin_zero",
    "C141_scalogram_zero"
   ],
   "note": "Roots and grid counts are exact real numbers, the spline is any function that keeps the length; the affine classes on an ordered band are those of C69-C71, C89 (c141_same)."
  },
  {
   "property": "C142",
   "status": "proved",
   "theorems": [
    "C142_touch",
    "C142_sine",
    "C142_apart",
    "C142_leak",
    "C142_spectrum",
    "C142_window",
    "C142_window_refuted",
    "C142_window_1001",
    "C142_pulses",
    "C142_seen",
    "C142_signal",
    "C142_index",
    "C142_both",
    "C142_drawn",
    "C142_program"
   ],
   "note": "Sines and transforms in real numbers, window lengths and pulse positions in double precision (b64). The claim int(w * 0.001 * 8000 + 1) = 8 w + 1 for every w is settled: refuted (C142_window_refuted), true for the powers of two of the program."
  },
  {
   "property": "C143",
   "status": "proved",
   "theorems": [
    "C143_hilbert",
    "C143_noisecg",
    "C143_noisecu",
    "C143_exact",
    "C143_variance_refuted"
   ],
   "note": "Settled: refuted as titled (variance 1, mean 0); exact values proved."
  },
  {
   "property": "C144",
   "status": "proved",
   "theorems": [
    "C144_convolution",
    "C144_impulse",
    "C144_step",
    "C144_linear",
    "C144_delay",
    "C144_tone",
    "C144_energy",
    "C144_fmconst",
    "C144_off_bin_refuted"
   ],
   "note": "The clause about fmconst off the bins is refuted by C144_off_bin_refuted, as the statement says."
  },
  {
   "property": "C145",
   "status": "proved",
   "theorems": [
    "C145_quadratic",
    "C145_fmlin",
    "C145_cells",
    "C145_vectors",
    "C145_rows",
    "C145_collect"
   ],
   "note": "Theorems in Props_rchirp.v"
  },
  {
   "property": "C146",
   "status": "proved",
   "theorems": [
    "C146_mh",
    "C146_page",
    "C146_supports",
    "C146_interference",
    "C146_corners",
    "C146_strength"
   ],
   "note": "Theorems in Props_rect.v"
  },
  {
   "property": "C147",
   "status": "proved",
   "theorems": [
    "C147_one",
    "C147_two",
    "C147_largest",
    "C147_centre",
    "C147_midpoint"
   ],
   "note": "Theorems in Props_midw.v"
  },
  {
   "property": "C148",
   "status": "proved",
   "theorems": [
    "C148_one",
    "C148_two",
    "C148_atom",
    "C148_separated"
   ],
   "note": "Theorems in Props_ambat.v"
  },
  {
   "property": "C149",
   "status": "proved",
   "theorems": [
    "C149_own",
    "C149_tone",
    "C149_returns"
   ],
   "note": "Theorems in Props_tonesc.v"
  },
  {
   "property": "C150",
   "status": "proved",
   "theorems": [
    "C150_agree",
    "C150_default",
    "C150_both",
    "C150_only_class"
   ],
   "note": "Settled: refuted as titled; the exact relation is proved in Props_pwag.v"
  },
  {
   "property": "C151",
   "status": "proved",
   "theorems": [
    "C151_cells",
    "C151_rows",
    "C151_same",
    "C151_default"
   ],
   "note": ""
  },
  {
   "property": "C152",
   "status": "proved",
   "theorems": [
    "C152_entry",
    "C152_peak",
    "C152_gauss",
    "C152_programs"
   ],
   "note": ""
  },
  {
   "property": "C153",
   "status": "proved",
   "theorems": [
    "C153_density",
    "C153_row0",
    "C153_ridge_pwv",
    "C153_undisplaced",
    "C153_ridge_spec",
    "C153_never",
    "C153_chirp",
    "C153_tone",
    "C153_impulse"
   ],
   "note": "All parts; the chirp and tone cases under the hypotheses of C145 and C139."
  },
  {
   "property": "C154",
   "status": "proved",
   "theorems": [
    "C154_pair",
    "C154_chirps",
    "C154_program",
    "C154_mirror",
    "C154_impulses"
   ],
   "note": "All parts; samples of the sum that are 0 are the case of C51_silence."
  },
  {
   "property": "C155",
   "status": "proved",
   "theorems": [
    "C155_mh_tone",
    "C155_page_tone",
    "C155_page_quarter",
    "C155_mh_impulse",
    "C155_page_impulse"
   ],
   "note": "Settled: refuted as titled for Page and, by the sample it leaves out, for Margenau-Hill; the exact entries are proved."
  },
  {
   "property": "C156",
   "status": "proved",
   "theorems": [
    "C156_tone",
    "C156_row",
    "C156_trough"
   ],
   "note": "Settled: refuted as titled (nu = 1/4); the exact entries for all nu are proved."
  },
  {
   "property": "C157",
   "status": "proved",
   "theorems": [
    "C157_impulse",
    "C157_support",
    "C157_negative"
   ],
   "note": "Settled: refuted as titled; the exact column, its support and its sign are proved."
  },
  {
   "property": "C158",
   "status": "proved",
   "theorems": [
    "C158_tone",
    "C158_row",
    "C158_peak",
    "C158_quarter",
    "C158_impulse",
    "C158_lost"
   ],
   "note": "Settled: the peak is where the property says; the values are refuted as titled and given exactly."
  },
  {
   "property": "C159",
   "status": "proved",
   "theorems": [
    "C159_length",
    "C159_scale",
    "C159_parallelogram",
    "C159_real",
    "C159_bound",
    "C159_delay",
    "C159_modulation"
   ],
   "note": "Settled: all laws proved; modulation refuted as titled, with the exact value."
  },
  {
   "property": "C160",
   "status": "proved",
   "theorems": [
    "C160_length",
    "C160_scale",
    "C160_parallelogram",
    "C160_local",
    "C160_bound",
    "C160_marginal"
   ],
   "note": "Settled: all laws proved; the marginal refuted as titled, with the exact value."
  },
  {
   "property": "C161",
   "status": "proved",
   "theorems": [
    "C161_conj",
    "C161_reversal",
    "C161_mirror"
   ],
   "note": ""
  },
  {
   "property": "C162",
   "status": "proved",
   "theorems": [
    "C162_outcome",
    "C162_nonneg",
    "C162_points",
    "C162_phase",
    "C162_agrees"
   ],
   "note": "Settled: refuted as titled for degrees >= 0; the exact outcome for all degrees and points is proved."
  },
  {
   "property": "C163",
   "status": "proved",
   "theorems": [
    "C163_delay",
    "C163_before",
    "C163_modulation",
    "C163_modulus",
    "C163_turned",
    "C163_conj",
    "C163_real"
   ],
   "note": "The statement with its correction: c163_delay, c163_before, c163_modulation (with the extra phase), c163_modulus, c163_turned (when the phase shows), c163_conj, c163_real; c163_example has the law fail for 1, 1."
  },
  {
   "property": "C164",
   "status": "proved",
   "theorems": [
    "C164_agrees",
    "C164_irregular",
    "C164_negative",
    "C164_zero",
    "C164_one"
   ],
   "note": "The statement with its correction: c164_one (all timestamps), c164_zero, c164_negative, c164_irregular, c164_agrees (with the model of C92 from two bins on)."
  },
  {
   "property": "C165",
   "status": "proved",
   "theorems": [
    "C165_nan",
    "C165_raises",
    "C165_irregular",
    "C165_quarter"
   ],
   "note": "The statement with its correction: c165_nan and c165_raises (exact outcome), c165_quarter, c165_irregular."
  },
  {
   "property": "C166",
   "status": "proved",
   "theorems": [
    "C166_products",
    "C166_unique",
    "C166_covered",
    "C166_default",
    "C166_stable",
    "C166_refuted"
   ],
   "note": "The statement with its correction: c166_products (inversion), c166_unique, c166_default, c166_covered, c166_refuted (the counterexample), c166_stable."
  },
  {
   "property": "C167",
   "status": "proved",
   "theorems": [
    "C167_products",
    "C167_covered",
    "C167_unique",
    "C167_converse",
    "C167_default",
    "C167_stable"
   ],
   "note": "exact complex arithmetic; products, uniqueness in two forms, converse and an example; windows longer than the stated bound are covered by C28 only"
  },
  {
   "property": "C168",
   "status": "proved",
   "theorems": [
    "C168_mh_last",
    "C168_mh_first",
    "C168_page_first",
    "C168_mh_unique",
    "C168_page_unique",
    "C168_refuted"
   ],
   "note": "exact complex arithmetic; the last sentence is refuted (C168_refuted)"
  },
  {
   "property": "C169",
   "status": "proved",
   "theorems": [
    "C169_products",
    "C169_unique",
    "C169_default",
    "C169_two_lags",
    "C169_converse"
   ],
   "note": "exact complex arithmetic; products, uniqueness in two forms and with the defaults, converse and an example"
  }
 ]
}