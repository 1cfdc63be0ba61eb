{
 "claims": [
  {
   "property": "C01",
   "status": "proved",
   "theorems": [
    "C01_block_is_per_sample",
    "C01_block_panics_only_empty",
    "C01_block_delay",
    "C01_block_linear_delay"
   ],
   "note": ""
  },
  {
   "property": "C02",
   "status": "proved",
   "theorems": [
    "C02_block_boundaries"
   ],
   "note": ""
  },
  {
   "property": "C03",
   "status": "proved",
   "theorems": [
    "C03_last_out",
    "C03_last_out_delay",
    "C03_last_out_linear_delay"
   ],
   "note": ""
  },
  {
   "property": "C04",
   "status": "proved",
   "theorems": [
    "C04_clear_forgets",
    "C04_clear_forgets_fir"
   ],
   "note": ""
  },
  {
   "property": "C05",
   "status": "proved",
   "theorems": [
    "C05_clear_resets_last_out",
    "C05_clear_resets_last_out_delays",
    "C05_clear_keeps_last_out_fir_refuted"
   ],
   "note": ""
  },
  {
   "property": "C06",
   "status": "proved",
   "theorems": [
    "C06_delay_never_panics"
   ],
   "note": ""
  },
  {
   "property": "C07",
   "status": "proved",
   "theorems": [
    "C07_delay_is_pure_delay"
   ],
   "note": ""
  },
  {
   "property": "C08",
   "status": "proved",
   "theorems": [
    "C08_delay_refines_line",
    "C08_delay_outputs_tap"
   ],
   "note": ""
  },
  {
   "property": "C09",
   "status": "proved",
   "theorems": [
    "C09_set_delay_clips",
    "C09_new_clips"
   ],
   "note": ""
  },
  {
   "property": "C10",
   "status": "proved",
   "theorems": [
    "C10_set_max_delay_grows"
   ],
   "note": "for LinearDelay: C110_linear_grows"
  },
  {
   "property": "C11",
   "status": "proved",
   "theorems": [
    "C11_latency",
    "C11_growth_in_phase",
    "C11_growth_out_of_phase_refuted",
    "C11_set_delay_restores"
   ],
   "note": ""
  },
  {
   "property": "C12",
   "status": "proved",
   "theorems": [
    "C12_next_out_predicts",
    "C12_next_out_zero_delay_refuted"
   ],
   "note": ""
  },
  {
   "property": "C13",
   "status": "proved",
   "theorems": [
    "C13_process_shifts_taps",
    "C13_tap_out_reads_back",
    "C13_linear_process_shifts_taps",
    "C13_linear_tap_out_reads_back"
   ],
   "note": ""
  },
  {
   "property": "C14",
   "status": "proved",
   "theorems": [
    "C14_tap_in_edits_one",
    "C14_add_to_edits_one",
    "C14_linear_tap_in_edits_one",
    "C14_linear_add_to_edits_one"
   ],
   "note": ""
  },
  {
   "property": "C15",
   "status": "proved",
   "theorems": [
    "C15_tapped_value_emerges",
    "C15_linear_tapped_value_emerges"
   ],
   "note": ""
  },
  {
   "property": "C16",
   "status": "proved",
   "theorems": [
    "C16_taps_beyond_line",
    "C16_linear_taps_beyond_line"
   ],
   "note": ""
  },
  {
   "property": "C17",
   "status": "proved",
   "theorems": [
    "C17_clear_empties_line",
    "C17_clear_is_new",
    "C17_linear_clear_empties_line",
    "C17_linear_clear_is_new"
   ],
   "note": ""
  },
  {
   "property": "C18",
   "status": "proved",
   "theorems": [
    "C18_new_usize_max",
    "C18_new_too_large",
    "C18_set_max_delay_usize_max",
    "C18_linear_new_too_large"
   ],
   "note": ""
  },
  {
   "property": "C19",
   "status": "proved",
   "theorems": [
    "C19_set_delay_terminates",
    "C19_no_session_hangs",
    "C19_new_usize_max_hangs_refuted"
   ],
   "note": ""
  },
  {
   "property": "C20",
   "status": "proved",
   "theorems": [
    "C20_set_delay_clips",
    "C20_new_clips",
    "C20_nan_delay_poisons"
   ],
   "note": ""
  },
  {
   "property": "C21",
   "status": "proved",
   "theorems": [
    "C21_never_panics",
    "C21_long_line_panics_refuted"
   ],
   "note": ""
  },
  {
   "property": "C22",
   "status": "proved",
   "theorems": [
    "C22_refines_ideal",
    "C22_interpolates",
    "C22_mid_stream"
   ],
   "note": ""
  },
  {
   "property": "C23",
   "status": "proved",
   "theorems": [
    "C23_dyadic_delays_exact"
   ],
   "note": ""
  },
  {
   "property": "C24",
   "status": "proved",
   "theorems": [
    "C24_weights",
    "C24_tiny_delay_blows_up_refuted"
   ],
   "note": ""
  },
  {
   "property": "C25",
   "status": "proved",
   "theorems": [
    "C25_peek_harmless",
    "C25_peek_harmless_float",
    "C25_peek_same_value",
    "C25_peek_stale_refuted"
   ],
   "note": ""
  },
  {
   "property": "C26",
   "status": "proved",
   "theorems": [
    "C26_pending_peek",
    "C26_clear_keeps_peek_refuted"
   ],
   "note": ""
  },
  {
   "property": "C27",
   "status": "proved",
   "theorems": [
    "C27_agrees_with_Delay"
   ],
   "note": ""
  },
  {
   "property": "C28",
   "status": "proved",
   "theorems": [
    "C28_one_pole_equation",
    "C28_one_zero_equation",
    "C28_two_pole_equation",
    "C28_two_zero_equation",
    "C28_biquad1_equation"
   ],
   "note": ""
  },
  {
   "property": "C29",
   "status": "proved",
   "theorems": [
    "C29_filters_obey_equation",
    "C29_biquads_agree"
   ],
   "note": ""
  },
  {
   "property": "C30",
   "status": "proved",
   "theorems": [
    "C30_mid_stream_change",
    "C30_biquads_disagree"
   ],
   "note": ""
  },
  {
   "property": "C31",
   "status": "proved",
   "theorems": [
    "C31_linear",
    "C31_time_invariant"
   ],
   "note": ""
  },
  {
   "property": "C32",
   "status": "proved",
   "theorems": [
    "C32_new_is_transparent_f32",
    "C32_new_is_transparent_f64",
    "C32_infinity_poisons_refuted",
    "C32_infinity_poisons_f32_refuted"
   ],
   "note": ""
  },
  {
   "property": "C33",
   "status": "proved",
   "theorems": [
    "C33_set_keeps_last_out",
    "C33_biquad2_memory",
    "C33_rbj_set_forgets",
    "C33_rbj_is_biquad2"
   ],
   "note": ""
  },
  {
   "property": "C34",
   "status": "proved",
   "theorems": [
    "C34_bounded",
    "C34_one_pole_gain",
    "C34_fir_gain",
    "C34_one_pole_unstable",
    "C34_two_pole_iff"
   ],
   "note": ""
  },
  {
   "property": "C35",
   "status": "proved",
   "theorems": [
    "C35_ring_down",
    "C35_past_fades"
   ],
   "note": ""
  },
  {
   "property": "C36",
   "status": "proved",
   "theorems": [
    "C36_equation_determines_output",
    "C36_embed_in_biquad"
   ],
   "note": ""
  },
  {
   "property": "C37",
   "status": "proved",
   "theorems": [
    "C37_rbj_stable",
    "C37_rbj_bounded",
    "C37_rbj_sinusoid",
    "C37_slope_range"
   ],
   "note": ""
  },
  {
   "property": "C38",
   "status": "proved",
   "theorems": [
    "C38_lowpass"
   ],
   "note": ""
  },
  {
   "property": "C39",
   "status": "proved",
   "theorems": [
    "C39_highpass"
   ],
   "note": ""
  },
  {
   "property": "C40",
   "status": "proved",
   "theorems": [
    "C40_bandpass"
   ],
   "note": ""
  },
  {
   "property": "C41",
   "status": "proved",
   "theorems": [
    "C41_bandstop"
   ],
   "note": ""
  },
  {
   "property": "C42",
   "status": "proved",
   "theorems": [
    "C42_allpass"
   ],
   "note": ""
  },
  {
   "property": "C43",
   "status": "proved",
   "theorems": [
    "C43_peak"
   ],
   "note": ""
  },
  {
   "property": "C44",
   "status": "proved",
   "theorems": [
    "C44_shelves"
   ],
   "note": ""
  },
  {
   "property": "C45",
   "status": "proved",
   "theorems": [
    "C45_complementary"
   ],
   "note": ""
  },
  {
   "property": "C46",
   "status": "proved",
   "theorems": [
    "C46_opposite_gains_cancel",
    "C46_zero_gain"
   ],
   "note": ""
  },
  {
   "property": "C47",
   "status": "proved",
   "theorems": [
    "C47_alpha"
   ],
   "note": ""
  },
  {
   "property": "C48",
   "status": "proved",
   "theorems": [
    "C48_no_overshoot",
    "C48_range",
    "C48_overflow_refuted"
   ],
   "note": ""
  },
  {
   "property": "C49",
   "status": "proved",
   "theorems": [
    "C49_geometric",
    "C49_converges",
    "C49_one_pole"
   ],
   "note": ""
  },
  {
   "property": "C50",
   "status": "proved",
   "theorems": [
    "C50_new_is_transparent",
    "C50_loud_signal_refuted"
   ],
   "note": ""
  },
  {
   "property": "C51",
   "status": "proved",
   "theorems": [
    "C51_setters",
    "C51_gains",
    "C51_exact_gains"
   ],
   "note": ""
  },
  {
   "property": "C52",
   "status": "proved",
   "theorems": [
    "C52_peak_range",
    "C52_peak_no_overshoot"
   ],
   "note": ""
  },
  {
   "property": "C53",
   "status": "proved",
   "theorems": [
    "C53_sign_blind"
   ],
   "note": ""
  },
  {
   "property": "C54",
   "status": "proved",
   "theorems": [
    "C54_rms_range"
   ],
   "note": ""
  },
  {
   "property": "C55",
   "status": "proved",
   "theorems": [
    "C55_peak_time_constant",
    "C55_rms_time_constant",
    "C55_fraction"
   ],
   "note": ""
  },
  {
   "property": "C56",
   "status": "proved",
   "theorems": [
    "C56_new_peak_rectifies",
    "C56_new_rms_rectifies"
   ],
   "note": ""
  },
  {
   "property": "C57",
   "status": "proved",
   "theorems": [
    "C57_count",
    "C57_same_samples"
   ],
   "note": ""
  },
  {
   "property": "C58",
   "status": "proved",
   "theorems": [
    "C58_len",
    "C58_exact_size_refuted"
   ],
   "note": ""
  },
  {
   "property": "C59",
   "status": "proved",
   "theorems": [
    "C59_apply_window"
   ],
   "note": ""
  },
  {
   "property": "C60",
   "status": "proved",
   "theorems": [
    "C60_symmetric",
    "C60_symmetric_float"
   ],
   "note": ""
  },
  {
   "property": "C61",
   "status": "proved",
   "theorems": [
    "C61_range",
    "C61_range_float",
    "C61_finite_float"
   ],
   "note": ""
  },
  {
   "property": "C62",
   "status": "proved",
   "theorems": [
    "C62_rising"
   ],
   "note": ""
  },
  {
   "property": "C63",
   "status": "proved",
   "theorems": [
    "C63_overlap",
    "C63_note_refuted"
   ],
   "note": ""
  },
  {
   "property": "C64",
   "status": "proved",
   "theorems": [
    "C64_size_one"
   ],
   "note": ""
  },
  {
   "property": "C65",
   "status": "proved",
   "theorems": [
    "C65_round_trip",
    "C65_increasing"
   ],
   "note": ""
  },
  {
   "property": "C66",
   "status": "proved",
   "theorems": [
    "C66_clamp",
    "C66_panics",
    "C66_clamp_float",
    "C66_range_float"
   ],
   "note": ""
  },
  {
   "property": "C67",
   "status": "proved",
   "theorems": [
    "C67_apply_gain"
   ],
   "note": ""
  },
  {
   "property": "C68",
   "status": "proved",
   "theorems": [
    "C68_realised_delay"
   ],
   "note": ""
  },
  {
   "property": "C69",
   "status": "proved",
   "theorems": [
    "C69_taps_agree"
   ],
   "note": ""
  },
  {
   "property": "C70",
   "status": "proved",
   "theorems": [
    "C70_long_gain_is_one",
    "C70_long_attack_freezes"
   ],
   "note": ""
  },
  {
   "property": "C71",
   "status": "proved",
   "theorems": [
    "C71_monotone"
   ],
   "note": ""
  },
  {
   "property": "C72",
   "status": "proved",
   "theorems": [
    "C72_textbook"
   ],
   "note": ""
  },
  {
   "property": "C73",
   "status": "proved",
   "theorems": [
    "C73_overlap_add"
   ],
   "note": ""
  },
  {
   "property": "C74",
   "status": "proved",
   "theorems": [
    "C74_blackman_range_refuted"
   ],
   "note": ""
  },
  {
   "property": "C75",
   "status": "proved",
   "theorems": [
    "C75_gain_in_db"
   ],
   "note": ""
  },
  {
   "property": "C76",
   "status": "proved",
   "theorems": [
    "C76_analog_response",
    "C76_analog_gain"
   ],
   "note": ""
  },
  {
   "property": "C77",
   "status": "proved",
   "theorems": [
    "C77_peak_range",
    "C77_shelf_range",
    "C77_steep_shelf_overshoots"
   ],
   "note": ""
  },
  {
   "property": "C78",
   "status": "proved",
   "theorems": [
    "C78_butterworth",
    "C78_monotone",
    "C78_resonance"
   ],
   "note": ""
  },
  {
   "property": "C79",
   "status": "proved",
   "theorems": [
    "C79_band",
    "C79_pass_band"
   ],
   "note": ""
  },
  {
   "property": "C80",
   "status": "proved",
   "theorems": [
    "C80_allpass_passive",
    "C80_allpass_lossless",
    "C80_band_energy"
   ],
   "note": ""
  },
  {
   "property": "C81",
   "status": "proved",
   "theorems": [
    "C81_float_tracks_exact",
    "C81_stable_has_gain",
    "C81_explicit_gain"
   ],
   "note": ""
  },
  {
   "property": "C82",
   "status": "proved",
   "theorems": [
    "C82_convolution",
    "C82_worst_case",
    "C82_summable"
   ],
   "note": ""
  },
  {
   "property": "C83",
   "status": "proved",
   "theorems": [
    "C83_series_commutes",
    "C83_series_of_sum"
   ],
   "note": ""
  },
  {
   "property": "C84",
   "status": "proved",
   "theorems": [
    "C84_sweep_diverges_refuted",
    "C84_rbj_sweep_bounded"
   ],
   "note": ""
  },
  {
   "property": "C85",
   "status": "proved",
   "theorems": [
    "C85_tail_never_ends_refuted",
    "C85_tail_ends",
    "C85_release_gain"
   ],
   "note": ""
  },
  {
   "property": "C86",
   "status": "proved",
   "theorems": [
    "C86_constants"
   ],
   "note": ""
  },
  {
   "property": "C87",
   "status": "proved",
   "theorems": [
    "C87_low_cutoff_passes_refuted"
   ],
   "note": ""
  },
  {
   "property": "C88",
   "status": "proved",
   "theorems": [
    "C88_float_setting_stable_refuted",
    "C88_click_dies_out_refuted"
   ],
   "note": ""
  },
  {
   "property": "C89",
   "status": "proved",
   "theorems": [
    "C89_float_setting_stable",
    "C89_float_gain_setting_stable"
   ],
   "note": ""
  },
  {
   "property": "C90",
   "status": "proved",
   "theorems": [
    "C90_leaky_tracks",
    "C90_peak_tracks",
    "C90_rms_tracks"
   ],
   "note": ""
  },
  {
   "property": "C91",
   "status": "proved",
   "theorems": [
    "C91_window_accurate",
    "C91_window_range"
   ],
   "note": ""
  },
  {
   "property": "C92",
   "status": "proved",
   "theorems": [
    "C92_to_db_accurate",
    "C92_to_sample_accurate",
    "C92_round_trip",
    "C92_round_trip_level",
    "C92_floor_round_trip_refuted"
   ],
   "note": ""
  },
  {
   "property": "C93",
   "status": "proved",
   "theorems": [
    "C93_coefficients_accurate"
   ],
   "note": ""
  },
  {
   "property": "C94",
   "status": "proved",
   "theorems": [
    "C94_filter_tracks_ideal",
    "C94_rbj_tracks_ideal",
    "C94_rbj_gain",
    "C94_stable_gain"
   ],
   "note": ""
  },
  {
   "property": "C95",
   "status": "proved",
   "theorems": [
    "C95_passes_on",
    "C95_poisoned_for_ever",
    "C95_setters_do_not_help",
    "C95_overflow_lasts",
    "C95_fir_recovers",
    "C95_bad_setting"
   ],
   "note": ""
  },
  {
   "property": "C96",
   "status": "proved",
   "theorems": [
    "C96_tracks_ideal",
    "C96_contained",
    "C96_zero_delay_ghost_refuted"
   ],
   "note": ""
  },
  {
   "property": "C97",
   "status": "proved",
   "theorems": [
    "C97_coefficients_accurate",
    "C97_tracks_ideal",
    "C97_feedback_gain",
    "C97_steep_shelf_never_finite"
   ],
   "note": ""
  },
  {
   "property": "C98",
   "status": "proved",
   "theorems": [
    "C98_mean_reading",
    "C98_reading_error",
    "C98_attack_bias",
    "C98_forgets",
    "C98_settles",
    "C98_peak_hold",
    "C98_rms_of_sinusoid",
    "C98_float_meter"
   ],
   "note": ""
  },
  {
   "property": "C99",
   "status": "proved",
   "theorems": [
    "C99_louder_lowers_refuted",
    "C99_almost_monotone"
   ],
   "note": ""
  },
  {
   "property": "C100",
   "status": "proved",
   "theorems": [
    "C100_tone_spectrum",
    "C100_leakage",
    "C100_window_sums"
   ],
   "note": ""
  },
  {
   "property": "C101",
   "status": "proved",
   "theorems": [
    "C101_apply_accurate",
    "C101_leakage"
   ],
   "note": ""
  },
  {
   "property": "C102",
   "status": "proved",
   "theorems": [
    "C102_same_program",
    "C102_delay_panics_are_harmless",
    "C102_linear_delay_panics_are_harmless",
    "C102_block_panic",
    "C102_panics_are_harmless_refuted",
    "C102_panicking_process_stores",
    "C102_long_line_refuted"
   ],
   "note": ""
  },
  {
   "property": "C103",
   "status": "proved",
   "theorems": [
    "C103_polarity",
    "C103_zero_sign_refuted",
    "C103_leading_silence",
    "C103_delay_polarity",
    "C103_linear_delay_polarity"
   ],
   "note": ""
  },
  {
   "property": "C104",
   "status": "proved",
   "theorems": [
    "C104_mirror",
    "C104_rescale",
    "C104_alias",
    "C104_rescale_float"
   ],
   "note": ""
  },
  {
   "property": "C105",
   "status": "proved",
   "theorems": [
    "C105_click",
    "C105_bounded_iff",
    "C105_above_nyquist",
    "C105_edges"
   ],
   "note": ""
  },
  {
   "property": "C106",
   "status": "proved",
   "theorems": [
    "C106_delay_echo",
    "C106_comb",
    "C106_linear_echo",
    "C106_float_bound"
   ],
   "note": ""
  },
  {
   "property": "C107",
   "status": "proved",
   "theorems": [
    "C107_word64",
    "C107_delay",
    "C107_linear",
    "C107_windows",
    "C107_taps_refuted"
   ],
   "note": ""
  },
  {
   "property": "C108",
   "status": "proved",
   "theorems": [
    "C108_modulated_delay",
    "C108_modulated_linear",
    "C108_no_clicks",
    "C108_float",
    "C108_float_grid",
    "C108_sweep_blows_up_refuted"
   ],
   "note": ""
  },
  {
   "property": "C109",
   "status": "proved",
   "theorems": [
    "C109_resynthesis",
    "C109_perfect",
    "C109_ripple_refuted",
    "C109_bartlett"
   ],
   "note": ""
  },
  {
   "property": "C110",
   "status": "proved",
   "theorems": [
    "C110_taps",
    "C110_linear_grows",
    "C110_linear_taps",
    "C110_linear_growth",
    "C110_linear_latency",
    "C110_linear_growth_refuted"
   ],
   "note": ""
  },
  {
   "property": "C111",
   "status": "proved",
   "theorems": [
    "C111_rms_at_least_peak",
    "C111_rms_at_most",
    "C111_float",
    "C111_float_refuted"
   ],
   "note": ""
  },
  {
   "property": "C112",
   "status": "proved",
   "theorems": [
    "C112_section",
    "C112_passive",
    "C112_lossless",
    "C112_float_bound"
   ],
   "note": ""
  },
  {
   "property": "C113",
   "status": "proved",
   "theorems": [
    "C113_tail_fades",
    "C113_noise_follows_level"
   ],
   "note": ""
  },
  {
   "property": "C114",
   "status": "proved",
   "theorems": [
    "C114_loop",
    "C114_echoes",
    "C114_bounded",
    "C114_linear",
    "C114_float_bound",
    "C114_float_never_louder"
   ],
   "note": ""
  },
  {
   "property": "C115",
   "status": "proved",
   "theorems": [
    "C115_ceiling",
    "C115_recovers",
    "C115_transparent",
    "C115_float_ceiling",
    "C115_float_exact_ceiling_refuted"
   ],
   "note": ""
  },
  {
   "property": "C116",
   "status": "proved",
   "theorems": [
    "C116_network",
    "C116_invariant",
    "C116_lossless",
    "C116_decays",
    "C116_householder",
    "C116_ping_pong",
    "C116_ping_pong_float"
   ],
   "note": ""
  },
  {
   "property": "C117",
   "status": "proved",
   "theorems": [
    "C117_sum",
    "C117_linkwitz_riley",
    "C117_flat",
    "C117_three_way",
    "C117_second_order",
    "C117_series_gain",
    "C117_corner"
   ],
   "note": ""
  },
  {
   "property": "C118",
   "status": "proved",
   "theorems": [
    "C118_order",
    "C118_rising",
    "C118_leaky_refuted",
    "C118_delay",
    "C118_linear_delay",
    "C118_linear_delay_refuted"
   ],
   "note": ""
  },
  {
   "property": "C119",
   "status": "proved",
   "theorems": [
    "C119_exact",
    "C119_fir",
    "C119_linear_delay",
    "C119_accumulator_stalls",
    "C119_accumulator_refuted"
   ],
   "note": ""
  },
  {
   "property": "C120",
   "status": "proved",
   "theorems": [
    "C120_comb",
    "C120_moving_sum",
    "C120_fixed",
    "C120_residue",
    "C120_forgets_refuted"
   ],
   "note": ""
  },
  {
   "property": "C121",
   "status": "proved",
   "theorems": [
    "C121_delay",
    "C121_linear_delay",
    "C121_short",
    "C121_forgets",
    "C121_convolution",
    "C121_accurate",
    "C121_fixed"
   ],
   "note": ""
  },
  {
   "property": "C122",
   "status": "proved",
   "theorems": [
    "C122_filters",
    "C122_subnormal_refuted",
    "C122_leaky",
    "C122_peak",
    "C122_rms"
   ],
   "note": ""
  },
  {
   "property": "C123",
   "status": "proved",
   "theorems": [
    "C123_goertzel",
    "C123_oscillator",
    "C123_resonance",
    "C123_float_oscillator"
   ],
   "note": ""
  },
  {
   "property": "C124",
   "status": "proved",
   "theorems": [
    "C124_settles",
    "C124_integrator_first",
    "C124_difference_first_refuted",
    "C124_offset_removed"
   ],
   "note": ""
  },
  {
   "property": "C125",
   "status": "proved",
   "theorems": [
    "C125_symmetric",
    "C125_zero_phase"
   ],
   "note": ""
  },
  {
   "property": "C126",
   "status": "proved",
   "theorems": [
    "C126_looper",
    "C126_overdub",
    "C126_layers"
   ],
   "note": ""
  },
  {
   "property": "C127",
   "status": "proved",
   "theorems": [
    "C127_scatter",
    "C127_new",
    "C127_convolution",
    "C127_accurate",
    "C127_fixed",
    "C127_same_rounding_refuted"
   ],
   "note": ""
  },
  {
   "property": "C128",
   "status": "proved",
   "theorems": [
    "C128_section",
    "C128_balance",
    "C128_comb_energy"
   ],
   "note": ""
  },
  {
   "property": "C129",
   "status": "proved",
   "theorems": [
    "C129_lines",
    "C129_latency",
    "C129_placement",
    "C129_zero_sign_refuted"
   ],
   "note": ""
  },
  {
   "property": "C130",
   "status": "proved",
   "theorems": [
    "C130_loud_passes",
    "C130_stays_shut",
    "C130_hold_time",
    "C130_float_shuts",
    "C130_hum_is_muted_refuted"
   ],
   "note": ""
  },
  {
   "property": "C131",
   "status": "proved",
   "theorems": [
    "C131_linear_response",
    "C131_half_sample",
    "C131_comb_response",
    "C131_section_response",
    "C131_hum_removed"
   ],
   "note": ""
  },
  {
   "property": "C132",
   "status": "proved",
   "theorems": [
    "C132_clear_and_set",
    "C132_last_setting_wins",
    "C132_last_valid_setting_wins",
    "C132_delay",
    "C132_linear",
    "C132_set_what_it_reports",
    "C132_set_what_it_reports_refuted"
   ],
   "note": ""
  },
  {
   "property": "C133",
   "status": "proved",
   "theorems": [
    "C133_delay_moves_samples",
    "C133_linear_scales",
    "C133_filters_agree",
    "C133_detectors_agree",
    "C133_leaky_agree",
    "C133_widen"
   ],
   "note": ""
  },
  {
   "property": "C134",
   "status": "proved",
   "theorems": [
    "C134_fractional_echo",
    "C134_comb",
    "C134_exact_comb"
   ],
   "note": ""
  },
  {
   "property": "C135",
   "status": "proved",
   "theorems": [
    "C135_raised",
    "C135_types_agree"
   ],
   "note": ""
  },
  {
   "property": "C136",
   "status": "proved",
   "theorems": [
    "C136_exact_curve",
    "C136_exact_ratio",
    "C136_exact_settles",
    "C136_float"
   ],
   "note": ""
  },
  {
   "property": "C137",
   "status": "proved",
   "theorems": [
    "C137_one_angle",
    "C137_angle",
    "C137_peak",
    "C137_phase_unique",
    "C137_chain",
    "C137_notches"
   ],
   "note": ""
  },
  {
   "property": "C138",
   "status": "proved",
   "theorems": [
    "C138_equivalent",
    "C138_simple",
    "C138_lowpass",
    "C138_others"
   ],
   "note": ""
  },
  {
   "property": "C139",
   "status": "proved",
   "theorems": [
    "C139_no_overshoot",
    "C139_order",
    "C139_rising"
   ],
   "note": ""
  },
  {
   "property": "C140",
   "status": "proved",
   "theorems": [
    "C140_gain",
    "C140_shape",
    "C140_sharper",
    "C140_linkwitz_riley"
   ],
   "note": ""
  },
  {
   "property": "C141",
   "status": "proved",
   "theorems": [
    "C141_product",
    "C141_range",
    "C141_order",
    "C141_undo"
   ],
   "note": ""
  },
  {
   "property": "C142",
   "status": "proved",
   "theorems": [
    "C142_chain",
    "C142_order",
    "C142_order_exact_refuted",
    "C142_undo",
    "C142_levels",
    "C142_cascade"
   ],
   "note": ""
  },
  {
   "property": "C143",
   "status": "proved",
   "theorems": [
    "C143_sum",
    "C143_flat"
   ],
   "note": ""
  },
  {
   "property": "C144",
   "status": "proved",
   "theorems": [
    "C144_cascade",
    "C144_butterworth",
    "C144_tone",
    "C144_rating"
   ],
   "note": ""
  },
  {
   "property": "C145",
   "status": "proved",
   "theorems": [
    "C145_tone",
    "C145_equaliser",
    "C145_ends"
   ],
   "note": ""
  },
  {
   "property": "C146",
   "status": "proved",
   "theorems": [
    "C146_pairs",
    "C146_three_bands",
    "C146_without",
    "C146_phaser"
   ],
   "note": ""
  },
  {
   "property": "C147",
   "status": "proved",
   "theorems": [
    "C147_bank",
    "C147_order"
   ],
   "note": ""
  },
  {
   "property": "C148",
   "status": "proved",
   "theorems": [
    "C148_agree",
    "C148_banks"
   ],
   "note": ""
  }
 ]
}