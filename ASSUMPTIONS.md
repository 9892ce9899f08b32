# What `Print Assumptions` lists

Generated by `tools/mkassum.py` from the `Print Assumptions` command that follows
each theorem in `rocq/theories/Props_*.v`.

* D: `ClassicalDedekindReals.sig_forall_dec`
* N: `ClassicalDedekindReals.sig_not_dec`
* F: `FunctionalExtensionality.functional_extensionality_dep`
* C: `Classical_Prop.classic`

## no axiom (closed under the global context)

`C03_range_refuted`, `C04_complex`, `C04_modulo_residue`, `C06_1d_refuted`, `C121_page_plot`, `C124_affine`, `C136_affine`, `C136_imshow`, `C142_both`, `C16_page_plot_refuted`, `C46_unknown`, `C50_empty`, `C52_empty`, `C70_cross`, `C80_unset`, `C97_span`

## D

`C11_short_window`

## DF

`C03_array_agrees`, `C03_nearest_odd`, `C05_accepts_bound`, `C05_accepts_close`, `C05_example_accepts`, `C05_progression`, `C05_short`, `C129_float`, `C132_derive`, `C136_margenau`, `C136_pseudo`, `C136_spectrogram`, `C136_stft`, `C136_wigner`, `C137_friedman_own`, `C137_friedman_scale`, `C137_ridges_scale`, `C141_count`, `C142_index`, `C16_spectrogram_default_keeps_array`, `C16_spectrogram_mutates_refuted`, `C16_spectrogram_plot_twice`, `C40_page_outcome`, `C40_page_raises`, `C40_pmh_outcome`, `C40_pmh_raises`, `C40_spwv_even`, `C40_spwv_no_window`, `C40_spwv_outcome`, `C40_spwv_raises`, `C44_default`, `C44_marks`, `C44_nan_raises`, `C44_nan_refuted`, `C45_bins`, `C45_density`, `C45_positive`, `C45_zero`, `C46_default_ts`, `C46_last`, `C46_points`, `C46_refuted`, `C46_threshold_refuted`, `C47_default_axes`, `C47_linear`, `C47_nonneg`, `C47_nonuniform_refuted`, `C47_one_column`, `C47_trapezoid`, `C48_formula`, `C48_short`, `C48_sum`, `C48_symmetric`, `C62_outcome`, `C62_refuted`, `C67_centre`, `C76_morlet_loop`, `C87_brackets`, `C97_scalogram_refuted`, `C98_limits`, `C98_outcome`

## DNF

`C01_divider_balanced`, `C06_izak_energy`, `C06_izak_zak`, `C07_freqs_even`, `C07_freqs_odd_short`, `C07_refuted`, `C08_default_window`, `C09_stft_total_default`, `C09_stft_total`, `C100_ends`, `C100_entry`, `C100_label`, `C100_peak`, `C100_ridge`, `C101_interference`, `C101_oscillation`, `C101_size`, `C102_entry`, `C102_line`, `C102_peak`, `C102_ridge`, `C103_bound_any_window`, `C103_bound`, `C103_instant`, `C103_nearest`, `C103_rectangle`, `C104_impulse`, `C104_not_both`, `C104_product`, `C104_refuted`, `C104_tone`, `C104_zero_band`, `C106_pseudo_any_window`, `C106_pseudo`, `C106_spectrogram`, `C106_stft_any_window`, `C106_stft`, `C106_wigner`, `C107_cells`, `C107_impulse`, `C107_last`, `C107_vectors`, `C108_spectrogram`, `C108_stft`, `C108_wvd`, `C109_column`, `C109_row`, `C109_strip`, `C10_stft_linear`, `C110_lag_products`, `C110_phase_refuted`, `C110_same_distribution`, `C111_fourier`, `C111_inverse`, `C111_shifts`, `C112_any_window`, `C112_smoothing`, `C113_ambiguity`, `C113_mh`, `C113_page`, `C113_pmh`, `C113_pwvd`, `C113_spectrogram`, `C113_stft`, `C113_wvd`, `C117_ambiguity_stable`, `C117_mh`, `C117_page`, `C117_pwvd_any_window`, `C117_pwvd_stable_any_window`, `C117_pwvd_stable`, `C117_pwvd`, `C117_spectrogram_stable`, `C117_spectrogram`, `C117_stft_any_window`, `C117_stft_stable_any_window`, `C117_stft_stable`, `C117_stft`, `C117_wvd_stable`, `C117_wvd`, `C118_spectrum`, `C118_stft_any_window`, `C118_stft`, `C118_wvd`, `C119_ambiguity`, `C119_mh`, `C119_page`, `C119_pwvd_any_window`, `C119_pwvd`, `C119_refuted`, `C119_spectrogram`, `C11_any_window`, `C11_long_window_refuted`, `C11_stft_closed_form`, `C120_ambiguity`, `C120_mh_refuted`, `C120_page_refuted`, `C120_pwvd_any_window`, `C120_pwvd`, `C120_spectrogram_refuted`, `C120_spwvd`, `C120_twins`, `C121_after_plot`, `C121_earlier_results`, `C121_inputs`, `C121_model`, `C121_others`, `C121_plot_model`, `C121_pwvd_failed_run`, `C121_pwvd_view`, `C121_refuted`, `C121_spectrogram_plot`, `C121_spectrogram_run_after_plot`, `C121_spectrogram_second_run`, `C121_stft_second_run`, `C121_table`, `C121_wvd_failed_run`, `C121_wvd_second_run`, `C122_ambiguity`, `C122_mh_refuted`, `C122_mh`, `C122_page_refuted`, `C122_pwvd_real_window`, `C122_pwvd`, `C122_spectrogram_reversal`, `C122_stft_conj_any_window`, `C122_stft_conj`, `C122_stft_reversal_long_refuted`, `C122_stft_reversal`, `C122_wvd_conj`, `C122_wvd_mirror`, `C122_wvd_reversal`, `C124_loctime_column`, `C124_loctime_deep`, `C124_loctime_rectangle`, `C124_loctime_refuted`, `C124_loctime_row`, `C124_loctime_square`, `C124_narrow_band`, `C124_times`, `C126_empty`, `C126_frequencies`, `C126_in_place`, `C126_negative`, `C126_others`, `C127_zero_spread`, `C128_mh_delay`, `C128_mh_modulation`, `C128_page_delay`, `C128_page_modulation_refuted`, `C128_page_modulation`, `C128_pmh_delay`, `C128_pmh_modulation`, `C128_pwvd_delay`, `C128_pwvd_modulation`, `C128_spectrogram_delay`, `C128_spectrogram_edge_refuted`, `C128_spectrogram_modulation`, `C129_empty_signal`, `C129_negative`, `C129_positive`, `C129_zero_mh_page`, `C129_zero_pmh`, `C129_zero_ppage`, `C129_zero_pwvd`, `C129_zero_spectrogram`, `C129_zero_spwv_default`, `C129_zero_spwv`, `C129_zero_stft`, `C129_zero_wvd`, `C12_injective_any_window`, `C12_inversion_any_window`, `C12_mean_any_window`, `C12_parseval_any_window`, `C12_stft_injective`, `C12_stft_inversion`, `C12_stft_mean`, `C12_stft_parseval`, `C130_determined`, `C130_mh_moments`, `C130_mh`, `C130_page_moments`, `C130_pwvd`, `C130_wvd`, `C131_chirp_sum`, `C131_chirp_wv`, `C131_density`, `C131_gabor`, `C131_hough_image`, `C132_conjugation_refuted`, `C132_energy_default`, `C132_pwvd_energy`, `C132_spectrogram_energy`, `C132_spectrogram_local`, `C132_spectrogram_roll`, `C132_translation_refuted`, `C132_volume_refuted`, `C132_volume`, `C133_dopnoise`, `C133_stft`, `C133_window`, `C134_conj`, `C134_delay`, `C134_inst_conj`, `C134_inst_tuned`, `C134_locfreq_delay`, `C134_locfreq_modulate`, `C134_locfreq_scale`, `C134_tuned`, `C134_wrap_refuted`, `C135_contour`, `C135_ignored`, `C135_image`, `C135_levels_refuted`, `C135_no_extent`, `C135_plain_contour`, `C135_side`, `C136_ax_refuted`, `C136_figures`, `C136_index`, `C136_no_line`, `C136_panels`, `C137_half_turn`, `C137_hough_neg_refuted`, `C137_hough_scale`, `C137_transpose`, `C139_cells`, `C139_vectors`, `C13_stft_modulation`, `C140_again`, `C140_fourth`, `C140_kept`, `C140_lost`, `C140_outcome`, `C140_own`, `C140_real`, `C140_scaling`, `C140_squares`, `C142_apart`, `C142_leak`, `C142_seen`, `C142_signal`, `C142_sine`, `C142_spectrum`, `C142_touch`, `C143_exact`, `C143_hilbert`, `C144_convolution`, `C144_delay`, `C144_energy`, `C144_fmconst`, `C144_impulse`, `C144_linear`, `C144_off_bin_refuted`, `C144_step`, `C144_tone`, `C145_cells`, `C145_fmlin`, `C145_quadratic`, `C145_vectors`, `C146_corners`, `C146_interference`, `C146_mh`, `C146_page`, `C146_strength`, `C146_supports`, `C147_centre`, `C147_largest`, `C147_midpoint`, `C147_one`, `C147_two`, `C148_atom`, `C148_one`, `C148_separated`, `C148_two`, `C14_any_window`, `C14_stft_delay`, `C150_agree`, `C150_both`, `C150_default`, `C150_only_class`, `C151_cells`, `C151_default`, `C151_rows`, `C151_same`, `C152_entry`, `C152_gauss`, `C152_peak`, `C153_density`, `C153_impulse`, `C153_never`, `C153_ridge_pwv`, `C153_ridge_spec`, `C153_row0`, `C153_undisplaced`, `C154_chirps`, `C154_impulses`, `C154_mirror`, `C154_pair`, `C154_program`, `C155_mh_impulse`, `C155_mh_tone`, `C155_page_impulse`, `C155_page_quarter`, `C155_page_tone`, `C156_row`, `C156_tone`, `C156_trough`, `C157_impulse`, `C157_negative`, `C157_support`, `C158_impulse`, `C158_lost`, `C158_peak`, `C158_quarter`, `C158_row`, `C158_tone`, `C159_bound`, `C159_delay`, `C159_length`, `C159_modulation`, `C159_parallelogram`, `C159_real`, `C159_scale`, `C15_mh_refuted`, `C15_page_refuted`, `C15_pmh_refuted`, `C15_pmh_second_run`, `C15_pwvd_refuted`, `C15_spectrogram_refuted`, `C15_spectrogram_second_run`, `C15_stft_refuted`, `C15_stft_second_run`, `C15_wvd_refuted`, `C160_bound`, `C160_length`, `C160_local`, `C160_marginal`, `C160_parallelogram`, `C160_scale`, `C161_conj`, `C161_mirror`, `C161_reversal`, `C162_nonneg`, `C162_outcome`, `C162_points`, `C163_before`, `C163_conj`, `C163_delay`, `C163_modulation`, `C163_modulus`, `C163_real`, `C163_turned`, `C166_covered`, `C166_default`, `C166_products`, `C166_refuted`, `C166_stable`, `C166_unique`, `C167_converse`, `C167_default`, `C167_stable`, `C168_mh_last`, `C168_mh_first`, `C168_page_first`, `C168_mh_unique`, `C168_page_unique`, `C168_refuted`, `C169_products`, `C169_unique`, `C169_default`, `C169_two_lags`, `C169_converse`, `C167_covered`, `C167_products`, `C167_unique`, `C16_mh_displays`, `C16_mh_plot_history`, `C16_stft_displays`, `C16_stft_plot_rows`, `C16_stft_run_after_plot_refuted`, `C16_stft_second_plot`, `C16_wvd_displays`, `C16_wvd_plot_destroys_refuted`, `C16_wvd_plot_idempotent`, `C17_float_timestamps`, `C17_nan_refuted`, `C17_spectrogram_default_window`, `C17_spectrogram_total`, `C18_energy_refuted`, `C18_spectrogram_mean_bounds`, `C18_spectrogram_unimodular`, `C18_spectrogram_weighted_mean`, `C19_spectrogram_scale`, `C20_any_window`, `C20_long_window_refuted`, `C20_spectrogram_is_stft`, `C21_refuted`, `C21_wvd_default`, `C21_wvd_few_bins`, `C21_wvd_outcome`, `C21_wvd_timestamps`, `C22_wvd_closed_form`, `C22_wvd_real`, `C23_one_bin_refuted`, `C23_wvd_energy`, `C23_wvd_time_marginal`, `C24_wvd_freq_marginal`, `C25_wvd_support`, `C26_wvd_moyal`, `C27_wvd_delay`, `C27_wvd_modulation`, `C27_wvd_parallelogram`, `C27_wvd_returns_by_shape`, `C27_wvd_scale`, `C28_any_window`, `C28_long_window_refuted`, `C28_pwvd_closed_form`, `C28_pwvd_marginal`, `C28_pwvd_outcome`, `C28_pwvd_short_window_total`, `C29_even_window`, `C29_nan_iff`, `C29_nan_refuted`, `C29_positive_window_no_nan`, `C29_spwv_closed_form`, `C29_spwv_marginal_real`, `C29_spwv_marginal`, `C29_spwv_outcome`, `C30_any_marginal`, `C30_any_timestamp`, `C30_few_bins_refuted`, `C30_float_timestamps`, `C30_mh_closed_form`, `C30_mh_freq_marginal`, `C30_mh_marginal`, `C30_mh_outcome`, `C30_mh_time0`, `C30_refuted`, `C31_any_marginal`, `C31_any_timestamp`, `C31_causal_refuted`, `C31_float_timestamps`, `C31_marginal_refuted`, `C31_page_closed_form`, `C31_page_marginal`, `C31_page_outcome`, `C32_pmh_closed_form`, `C32_pmh_outcome`, `C32_pseudo_page_always_raises`, `C32_pseudo_page_empty`, `C33_default`, `C33_no_bins`, `C33_origin_and_maximum`, `C33_outcome`, `C33_total`, `C34_hermitian`, `C35_volume`, `C36_entries`, `C36_mass`, `C36_nonneg`, `C36_outcome`, `C37_undisplaced`, `C37_vectors`, `C38_agrees`, `C39_entries`, `C39_marginal`, `C39_mass`, `C39_moved`, `C39_nearest`, `C39_outcome`, `C39_vectors`, `C41_bad_sizes`, `C41_empty`, `C41_entries`, `C41_no_row`, `C41_one_row`, `C41_rho_axis_refuted`, `C41_rho_bound`, `C41_total`, `C49_bounds`, `C49_formula`, `C49_scale`, `C49_shift`, `C49_zero_spread`, `C50_bounds`, `C50_formula`, `C50_one_sample`, `C50_raises`, `C50_range_refuted`, `C50_refuted`, `C50_tone`, `C51_default`, `C51_exact`, `C51_fmconst`, `C51_outcome`, `C51_range`, `C51_wrap`, `C52_default`, `C52_formula`, `C52_impulse`, `C52_nan_refuted`, `C52_range`, `C52_scale`, `C52_values`, `C53_amrect`, `C53_amtriang`, `C53_defaults`, `C53_raises`, `C53_zero_spread_others`, `C53_zero_spread_refuted`, `C53_zero_spread`, `C54_default`, `C54_fraction_refuted`, `C54_modulus`, `C54_raises`, `C54_tone`, `C55_chirp`, `C55_default`, `C55_raises`, `C56_column_refuted`, `C56_last_refuted`, `C56_ok`, `C56_raises`, `C56_signal`, `C58_anaask`, `C58_anabpsk`, `C58_anafsk_length_refuted`, `C58_anafsk_raises`, `C58_anafsk`, `C58_anaqpsk_default_refuted`, `C58_anaqpsk_few`, `C58_anaqpsk_raises`, `C58_anaqpsk`, `C58_defaults`, `C58_float_fsk`, `C58_float`, `C58_negative_blocks`, `C58_number`, `C58_raises`, `C59_anapulse`, `C59_anastep`, `C59_hilbert`, `C59_off_grid`, `C59_raises`, `C60_dopnoise_default`, `C60_dopnoise_few`, `C60_dopnoise_length_refuted`, `C60_dopnoise_nan`, `C60_dopnoise_raises`, `C60_dopnoise_zero`, `C60_dopnoise`, `C60_unit_variance`, `C63_default_x`, `C63_default`, `C63_finite`, `C63_law`, `C63_no_sampling`, `C63_no_wave`, `C63_raises_x`, `C63_raises`, `C67_additive`, `C67_atoms`, `C67_last_refuted`, `C67_one_row`, `C67_raises`, `C68_band`, `C68_inband`, `C68_scalogram`, `C71_reciprocal`, `C71_solves`, `C72_divides`, `C72_outcome`, `C73_pwvd_labels`, `C74_one_sample_window`, `C74_refuted`, `C75_spectrum_total`, `C87_band`, `C87_silent`, `C87_span`, `C88_shift`, `C90_analysis`, `C90_dual`, `C90_reconstruct`, `C90_tiny_refuted`, `C93_half_refuted`, `C93_mh`, `C93_shapes`, `C93_spectrogram`, `C93_stft`, `C93_wvd_default`, `C93_wvd`, `C94_contour`, `C94_images`, `C94_mh`, `C94_pseudo_refuted`, `C94_stft`, `C94_stretched_refuted`, `C94_wvd`, `C95_inplace`, `C95_outcome`, `C96_draws`, `C97_affine_refuted`, `C97_spectrum`, `C97_upright`

## DNFC

`C01_divider_float_exact_range`, `C01_divider_float_refuted`, `C02_array_refuted`, `C02_float_exact`, `C02_float_first`, `C02_float_refuted`, `C02_nextpow2_least`, `C02_nextpow2_nonpositive`, `C105_call`, `C105_components`, `C105_defaults`, `C105_max`, `C105_negative`, `C105_shannon`, `C107_last_refuted`, `C109_square`, `C109_unique`, `C114_count`, `C114_criterion`, `C114_down`, `C114_loop`, `C114_power_of_two`, `C114_refuted`, `C114_run`, `C114_values`, `C115_ceil`, `C115_fifth`, `C115_half`, `C115_int`, `C115_refuted`, `C116_band`, `C116_covers`, `C116_interior`, `C116_lower_refuted`, `C116_multiple`, `C116_quarter`, `C116_upper_refuted`, `C123_fmhyp_quiet`, `C123_fmhyp`, `C123_fmpar_ends_refuted`, `C123_fmpar_silent_refuted`, `C123_fmpar`, `C123_fmpower_always`, `C123_fmpower_points`, `C123_fmpower_refuted`, `C123_fmpower`, `C124_matrix`, `C124_row_column`, `C124_sigmerge`, `C125_affine_scale`, `C125_constant`, `C125_real`, `C125_scalogram_scale`, `C127_bilateral`, `C127_klauder_outcome`, `C127_klauder`, `C127_limits`, `C127_negative_spread`, `C127_refuted`, `C127_unilateral_nan`, `C127_unilateral`, `C131_affine`, `C131_constant_draws`, `C131_doppler`, `C131_four_atoms`, `C131_friedman`, `C131_hybrid`, `C131_impulse`, `C131_inst_freq`, `C131_localization`, `C131_noisy_chirp`, `C131_packets`, `C131_page_raises`, `C131_reassigned`, `C131_scalogram`, `C131_singularity_raises`, `C131_tone_and_packet`, `C131_transient`, `C131_two_atoms`, `C131_two_chirps`, `C131_wideband`, `C132_amgauss_curvature`, `C132_amgauss_test`, `C132_instfreq`, `C132_loctime`, `C132_mexhat_extrema`, `C132_mexhat_shape`, `C133_blind`, `C133_fmconst`, `C133_fmlin`, `C133_fmodany`, `C133_inst_freq`, `C137_line`, `C138_count`, `C138_doc`, `C138_dyadic`, `C138_gallery`, `C138_half_open_refuted`, `C138_programs`, `C139_collect`, `C139_rows`, `C141_axis`, `C141_bertrand`, `C141_flandrin_run`, `C141_flandrin_zero`, `C141_flandrin`, `C141_same`, `C141_scalogram_zero`, `C141_unterberger`, `C141_voices`, `C142_drawn`, `C142_program`, `C142_pulses`, `C142_window_1001`, `C142_window_refuted`, `C142_window`, `C143_noisecg`, `C143_noisecu`, `C143_variance_refuted`, `C145_collect`, `C145_rows`, `C149_own`, `C149_returns`, `C149_tone`, `C152_programs`, `C153_chirp`, `C153_tone`, `C162_agrees`, `C162_phase`, `C36_nan`, `C37_refuted`, `C38_left_edge_refuted`, `C42_flat`, `C42_scale_neg`, `C42_scale`, `C43_effects`, `C43_object`, `C43_refuted`, `C43_second_call`, `C43_unchanged_iff`, `C51_fmlin`, `C51_silence`, `C53_amexpos_unilateral`, `C53_amexpos`, `C53_amgauss`, `C53_gauss_one_refuted`, `C53_negative_spread`, `C57_fmhyp_raises`, `C57_fmhyp`, `C57_fmpar_refuted`, `C57_fmpar`, `C57_fmpower_coeffs`, `C57_fmpower_int`, `C57_fmpower_points`, `C57_fmpower`, `C57_fmsin_defaults`, `C57_fmsin_equal_band`, `C57_fmsin_no_points`, `C57_fmsin_outside`, `C57_fmsin_phase`, `C57_fmsin_zero_period`, `C57_fmsin`, `C58_rounded`, `C60_noisecg`, `C60_noisecu`, `C60_short_refuted`, `C61_broadcast`, `C61_decibels`, `C61_outcome`, `C61_ratio`, `C63_signal`, `C64_altes_all`, `C64_altes_envelope`, `C64_altes_inverted`, `C64_altes_negative`, `C64_altes_swap`, `C64_altes`, `C64_klauder_odd_refuted`, `C64_klauder_raises`, `C64_klauder`, `C65_outcome`, `C66_delay`, `C66_gdpower`, `C66_outcome`, `C66_raises`, `C66_short_refuted`, `C68_affine`, `C68_scalogram_total`, `C69_grid`, `C69_scalogram`, `C69_single_refuted`, `C70_default_refuted`, `C70_outcome`, `C70_unterberger_root`, `C72_default_refuted`, `C72_default`, `C77_binary64_refuted`, `C77_cosines`, `C77_cusp`, `C77_default_cusp`, `C77_default`, `C77_exact`, `C77_no_points`, `C77_outcome`, `C77_pow2`, `C77_real_part`, `C78_linear`, `C78_power`, `C78_refuted`, `C79_default_refuted`, `C79_sweep`, `C80_voices`, `C81_identity`, `C81_value`, `C81_zero_refuted`, `C82_array_refuted`, `C82_defaults`, `C82_negative_voices`, `C82_negative`, `C82_no_voices`, `C82_one_voice`, `C82_short_wavelet`, `C82_timestamps_refuted`, `C82_two_voices`, `C82_voices_refuted`, `C83_scalogram`, `C84_axes`, `C84_default_voices`, `C84_raises`, `C84_theta_refuted`, `C85_origin_refuted`, `C85_peak`, `C85_real`, `C85_reference`, `C85_scale`, `C85_value`, `C86_band`, `C86_empty_band_refuted`, `C86_empty_band`, `C86_equal_bounds`, `C86_silent`, `C86_spectrum_refuted`, `C86_two_refuted`, `C86_zero`, `C88_kernel`, `C88_marginal`, `C88_run`, `C89_form`, `C89_long`, `C89_outcome`, `C89_short_refuted`, `C90_window`, `C91_any_voices`, `C91_band`, `C91_default_refuted`, `C91_default_voices`, `C91_float_refuted`, `C91_nonneg`, `C91_outcome`, `C91_result`, `C91_separable`, `C92_default`, `C92_impulse_raises`, `C92_impulse`, `C92_irregular`, `C92_mirror`, `C92_outcome`, `C92_outside`, `C92_peak_refuted`, `C92_scale_outcome`, `C92_scale`, `C95_labels_refuted`, `C95_run`, `C96_labels_refuted`, `C99_flat`, `C99_ignored`, `C99_levels`, `C99_outcome`, `C99_wvd_default`, `C164_agrees`, `C164_irregular`, `C164_negative`, `C164_zero`, `C164_one`, `C165_nan`, `C165_raises`, `C165_irregular`, `C165_quarter`
