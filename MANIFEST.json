{
 "claims": [
  {
   "property": "C01",
   "status": "proved",
   "theorems": [
    "C01_sanitize_labels",
    "C01_signal_labels"
   ],
   "note": "All label lists and channel counts; the constructor of signals establishes the invariant wf_signal that the other theorems assume."
  },
  {
   "property": "C02",
   "status": "proved",
   "theorems": [
    "C02_signal_arithmetic"
   ],
   "note": "All operators, offsets, lengths and sample types; both operands have at least one channel."
  },
  {
   "property": "C03",
   "status": "proved",
   "theorems": [
    "C03_commutative"
   ],
   "note": "Samples, times, labels; with equal sampling rates the results are identical."
  },
  {
   "property": "C04",
   "status": "proved",
   "theorems": [
    "C04_number",
    "C04_array",
    "C04_unary"
   ],
   "note": "Numbers, arrays of every broadcastable shape, both operand orders, unary operators."
  },
  {
   "property": "C05",
   "status": "proved",
   "theorems": [
    "C05_slice_times",
    "C05_slice_contents",
    "C05_float_bounds",
    "C05_offset_refuted"
   ],
   "note": "Step one keeps times (start within the signal); contents for every positive step; C05_offset_refuted shows that the condition on the start is needed."
  },
  {
   "property": "C06",
   "status": "partial",
   "theorems": [
    "C06_integer_index_partial",
    "C06_float_index",
    "C06_last_refuted"
   ],
   "note": "True for every index in range except -1 (C06_integer_index_partial) and for floats between 0 and 1 (C06_float_index). The full statement is false: C06_last_refuted shows that index -1 selects nothing for every signal."
  },
  {
   "property": "C07",
   "status": "proved",
   "theorems": [
    "C07_index_integer",
    "C07_index_float",
    "C07_index_sequence",
    "C07_no_termination"
   ],
   "note": "Integers, floats (exact products) and sequences; divergence for non-positive lengths is proved for every number of iterations."
  },
  {
   "property": "C08",
   "status": "proved",
   "theorems": [
    "C08_pad",
    "C08_crop_after_pad",
    "C08_pad_negative"
   ],
   "note": ""
  },
  {
   "property": "C09",
   "status": "proved",
   "theorems": [
    "C09_shift_offset",
    "C09_shift_none",
    "C09_shift_crop",
    "C09_shift_pad",
    "C09_shift_pad_negative",
    "C09_shift_cycle",
    "C09_shift_cycle_refuted",
    "C09_shift_pad_negative_refuted"
   ],
   "note": "All modes and all shifts; C09_shift_cycle and C09_shift_pad_negative also say what happens outside of the documented behaviour, the _refuted theorems show that it is not a shift."
  },
  {
   "property": "C10",
   "status": "partial",
   "theorems": [
    "C10_reversed",
    "C10_mirror_time",
    "C10_negated_time_refuted"
   ],
   "note": "Order, labels, involution proved for all signals. The documented claim about negated times is false (C10_negated_time_refuted); C10_mirror_time is what holds."
  },
  {
   "property": "C11",
   "status": "proved",
   "theorems": [
    "C11_equality",
    "C11_equivalence",
    "C11_hash"
   ],
   "note": "Relative to an equality on numbers that is an equivalence; NaN violates reflexivity as in Python."
  },
  {
   "property": "C12",
   "status": "proved",
   "theorems": [
    "C12_merge_spectrograms",
    "C12_merge_filters",
    "C12_trivial_cases_of_spectrograms_and_filters",
    "C12_order_is_unique",
    "C12_merge_signals",
    "C12_merge_spectrums",
    "C12_trivial_cases",
    "C12_empty_data_set_refuted"
   ],
   "note": "Signals, spectrums, spectrograms and filters, any number of data sets, both modes. FIRST_CHANNELS_FIRST needs data sets with at least one channel, C12_empty_data_set_refuted shows that the condition is needed."
  },
  {
   "property": "C13",
   "status": "proved",
   "theorems": [
    "C13_history_spectrograms",
    "C13_history_filters",
    "C13_history_concatenation_of_spectrograms",
    "C13_replace_unknown",
    "C13_history_signals",
    "C13_history_spectrums",
    "C13_history_concatenation",
    "C13_history_empty",
    "C13_remove_unknown"
   ],
   "note": "Histories of any length in which remove and replace get identifiers that are present; what happens for others is stated separately. The library class MultiInputData is modelled as a dictionary in insertion order."
  },
  {
   "property": "C14",
   "status": "proved",
   "theorems": [
    "C14_concatenate_spectrograms",
    "C14_trivial_cases_of_spectrograms",
    "C14_concatenate",
    "C14_trivial_cases"
   ],
   "note": "Signals and spectrograms, any number, offsets, overlaps and gaps; addition is assumed to be exact (associative, commutative)."
  },
  {
   "property": "C15",
   "status": "proved",
   "theorems": [
    "C15_full",
    "C15_full_contains_all",
    "C15_same",
    "C15_valid",
    "C15_spectrum_padded",
    "C15_spectrum",
    "C15_commutes"
   ],
   "note": "All five modes. FULL, SAME and VALID over every commutative ring; SPECTRUM and SPECTRUM_PADDED over real numbers with the discrete Fourier transforms as documented by NumPy, for which the circular convolution theorem is proved. Rounding is not modelled."
  },
  {
   "property": "C16",
   "status": "proved",
   "theorems": [
    "C16_full",
    "C16_full_contains_all",
    "C16_same",
    "C16_valid",
    "C16_spectrum_padded",
    "C16_spectrum"
   ],
   "note": "All five modes, as for convolution; the circular correlation of SPECTRUM is stated with its period."
  },
  {
   "property": "C17",
   "status": "partial",
   "theorems": [
    "C17_pairing",
    "C17_labels",
    "C17_labels_refuted",
    "C17_arrays",
    "C17_vectors",
    "C17_numbers"
   ],
   "note": "Pairing of channels in each mode, arrays, vectors and numbers are proved. The claim about labels is refuted for a one-channel signal that is combined with several channels (C17_labels_refuted) and proved otherwise."
  },
  {
   "property": "C18",
   "status": "proved",
   "theorems": [
    "C18_transform",
    "C18_round_trip",
    "C18_odd_length",
    "C18_spectrum_round_trip"
   ],
   "note": "Exact real numbers and the transforms of numpy.fft as documented. Signals of an odd length lose a sample (C18_odd_length)."
  },
  {
   "property": "C19",
   "status": "partial",
   "theorems": [
    "C19_signal_level",
    "C19_total_level",
    "C19_levels_agree",
    "C19_one_sample_refuted"
   ],
   "note": "Proved for all even lengths; refuted for signals with one sample, whose only bin is counted twice. For other odd lengths the levels differ, because the spectrum does not tell the parity of the signal's length."
  },
  {
   "property": "C20",
   "status": "proved",
   "theorems": [
    "C20_inverse",
    "C20_convolve"
   ],
   "note": "Even and odd lengths; for odd lengths the spectrum of the padded signal must not have zeros, because the code pads it to the double length."
  },
  {
   "property": "C21",
   "status": "proved",
   "theorems": [
    "C21_spectrum_arithmetic",
    "C21_different_lengths",
    "C21_number",
    "C21_inverse",
    "C21_unary"
   ],
   "note": "Operators, numbers, inverse, unary operators; ValueError for all other combinations of lengths."
  },
  {
   "property": "C22",
   "status": "proved",
   "theorems": [
    "C22_spectrogram_arithmetic",
    "C22_with_signal",
    "C22_with_spectrum",
    "C22_with_spectrum_lengths",
    "C22_array",
    "C22_number",
    "C22_unary"
   ],
   "note": "Spectrogram with spectrogram, signal and spectrum in both orders, numbers, arrays, unary operators. x - 0 = x and x / 1 = x are assumed of the values' arithmetic (true for floats and exact numbers)."
  },
  {
   "property": "C23",
   "status": "partial",
   "theorems": [
    "C23_complex_numbers",
    "C23_sum_partial",
    "C23_difference_partial",
    "C23_product_partial",
    "C23_quotient_partial",
    "C23_incompatible",
    "C23_plus_number_partial",
    "C23_minus_number_partial",
    "C23_times_number_partial",
    "C23_divided_by_number_partial",
    "C23_unary_operators_partial",
    "C23_linear_bands",
    "C23_equal",
    "C23_zero_hz_refuted",
    "C23_product_of_bands_refuted",
    "C23_sum_of_bands_refuted",
    "C23_symmetry_refuted",
    "C23_equal_bands_refuted"
   ],
   "note": "Proved for exact arithmetic (complex numbers are an instance) and filters without transformed terms (at all frequencies) or without differences (at all frequencies except 0 Hz), whose bands have pointwise interpolations; additionally sums and differences of linearly interpolated bands. Refuted otherwise: sums at 0 Hz, products of linearly interpolated bands, sums of bands with interpolation ONE, symmetry of ==, equality of bands without supporting points."
  },
  {
   "property": "C24",
   "status": "partial",
   "theorems": [
    "C24_sum_partial",
    "C24_product_partial",
    "C24_difference_partial",
    "C24_quotient_partial",
    "C24_unary_partial",
    "C24_primitive",
    "C24_difference_refuted"
   ],
   "note": "Proved for the same terms as C23; Difference.factory loses the transform, if the minuend is zero (refuted)."
  },
  {
   "property": "C25",
   "status": "partial",
   "theorems": [
    "C25_transform_partial",
    "C25_value",
    "C25_twice_partial",
    "C25_difference_refuted"
   ],
   "note": "Proved for terms without differences; refuted for a difference with a minuend, that has become zero."
  },
  {
   "property": "C26",
   "status": "partial",
   "theorems": [
    "C26_round_trip_partial",
    "C26_difference_refuted",
    "C26_equal_refuted"
   ],
   "note": "The dictionary representation is modelled here, its JSON text in C68. Labels, channel count and transfer functions survive; refuted: transformed differences with zero minuend change, and simplification makes terms unequal."
  },
  {
   "property": "C27",
   "status": "proved",
   "theorems": [
    "C27_support_points",
    "C27_bands",
    "C27_straight_lines",
    "C27_straight_lines_logarithmic",
    "C27_between",
    "C27_one_point",
    "C27_constants"
   ],
   "note": "Values at the supporting points for every interpolation and for the Bands term; straight lines between the points on the interpolation's axes, bounds between the neighbouring values, one supporting point, constants."
  },
  {
   "property": "C28",
   "status": "proved",
   "theorems": [
    "C28_stairs_lin",
    "C28_stairs_log",
    "C28_stairs_log_not_positive",
    "C28_nearest_unique"
   ],
   "note": "The nearest supporting point on the linear and on the logarithmic axis; the nearest point is unique up to the tie rule; non-positive frequencies for STAIRS_LOG."
  },
  {
   "property": "C29",
   "status": "proved",
   "theorems": [
    "C29_butterworth",
    "C29_half_power",
    "C29_monotonic",
    "C29_order_0",
    "C29_cutoff_0"
   ],
   "note": "The squared magnitude for all orders from 1, low pass and high pass, all real frequencies; consequences: half power at the cutoff frequency and monotonicity. The coefficients are computed with exact real arithmetic."
  },
  {
   "property": "C30",
   "status": "proved",
   "theorems": [
    "C30_bessel",
    "C30_low_frequencies",
    "C30_group_delay",
    "C30_half_power_refuted"
   ],
   "note": "The transfer function is the quotient of reverse Bessel polynomials (so the integer divisions are exact), the gain at 0 Hz is 1, and the group delay has a closed form. Refuted: the documented meaning of the cutoff frequency as -3 dB threshold."
  },
  {
   "property": "C31",
   "status": "proved",
   "theorems": [
    "C31_csv_contents",
    "C31_csv",
    "C31_npy_contents",
    "C31_npy",
    "C31_dictionary",
    "C31_read",
    "C31_rounding",
    "C31_one_sample_refuted",
    "C31_empty_refuted"
   ],
   "note": "CSV and npy files (contents and round trip), the dictionaries of JSON and npz files, reading of tables with and without header in any order, and the robustness against rounded times. Numbers are rational; conversions between numbers and texts are parameters. The lengths 0 and 1, which the property excludes, are refuted (C31_one_sample_refuted, C31_empty_refuted)."
  },
  {
   "property": "C32",
   "status": "partial",
   "theorems": [
    "C32_writable",
    "C32_written",
    "C32_write_fails",
    "C32_full_scale_refuted",
    "C32_memory",
    "C32_any_file",
    "C32_read",
    "C32_round_trip",
    "C32_copy"
   ],
   "note": "The wave and aifc writers and readers of all six formats, for all lengths and channel counts: which signals can be written, the bytes of the file, the file that is left after an exception, reading, the error of at most half a step, exact round trip of files. The claim fails for samples in the upper half of the highest quantisation step (1 - q/2 <= x < 1): C32_full_scale_refuted."
  },
  {
   "property": "C33",
   "status": "partial",
   "theorems": [
    "C33_extension",
    "C33_load",
    "C33_load_readable",
    "C33_load_history",
    "C33_reader_remembered_refuted",
    "C33_save_format",
    "C33_same_writer",
    "C33_save_auto",
    "C33_save_auto_fails",
    "C33_save_auto_succeeds",
    "C33_signal_formats",
    "C33_other_formats",
    "C33_extensions",
    "C33_wav_without_soundfile",
    "C33_missing_library_refuted"
   ],
   "note": "The choice of readers and writers is proved for all sets of readers and writers with any behaviour, all histories and all paths, and for the tables of the library. Two documented parts are false: readers are not remembered (C33_reader_remembered_refuted), and a missing library leads to an ImportError instead of the documented ValueError, if the format is guessed (C33_missing_library_refuted)."
  },
  {
   "property": "C34",
   "status": "partial",
   "theorems": [
    "C34_playing",
    "C34_once_partial",
    "C34_once_refuted"
   ],
   "note": "Proved for all schedules until the signal ends, and completely for schedules whose blocks end with the signal or whose first block contains it; refuted otherwise: a partly filled last block rewinds the position (C34_once_refuted gives what is played and recorded instead)."
  },
  {
   "property": "C35",
   "status": "proved",
   "theorems": [
    "C35_port_names"
   ],
   "note": "Unique, non-empty names, one per channel; the label is used if possible."
  },
  {
   "property": "C36",
   "status": "proved",
   "theorems": [
    "C36_plateau",
    "C36_symmetric",
    "C36_periodic",
    "C36_numpy_windows",
    "C36_range"
   ],
   "note": "The window functions themselves (NumPy, SciPy) are parameters; their symmetry is an assumption of the symmetry theorems."
  },
  {
   "property": "C37",
   "status": "proved",
   "theorems": [
    "C37_recursion",
    "C37_bins"
   ],
   "note": "For non-negative start and stop bins; the relation to the frequencies is Python's rounding of frequency/resolution."
  },
  {
   "property": "C38",
   "status": "proved",
   "theorems": [
    "C38_tail_energy",
    "C38_decreasing"
   ],
   "note": "Tail energies for exact addition, monotonicity for real samples."
  },
  {
   "property": "C39",
   "status": "partial",
   "theorems": [
    "C39_sequence",
    "C39_short_refuted"
   ],
   "note": "Proved for 2 to 32 bits; a length of 0 or 1 without bits raises an exception (refuted). SciPy's max_len_seq is a parameter with its documented behaviour."
  },
  {
   "property": "C40",
   "status": "partial",
   "theorems": [
    "C40_slopes",
    "C40_range",
    "C40_range_disjoint_partial",
    "C40_range_refuted"
   ],
   "note": "All samples are proved; the range [0,1] is proved unless a fade in begins during a fade out, where it is refuted."
  },
  {
   "property": "C41",
   "status": "proved",
   "theorems": [
    "C41_ordinal"
   ],
   "note": "The text before the suffix reads back as the number."
  },
  {
   "property": "C42",
   "status": "proved",
   "theorems": [
    "C42_slice",
    "C42_pad",
    "C42_equality",
    "C42_equivalence",
    "C42_hash"
   ],
   "note": "Slices with positive steps, padding, equality, equivalence, hash."
  },
  {
   "property": "C43",
   "status": "proved",
   "theorems": [
    "C43_slice",
    "C43_pad",
    "C43_pad_negative",
    "C43_shift_offset",
    "C43_shift_none",
    "C43_shift_crop",
    "C43_shift_pad",
    "C43_shift_pad_negative",
    "C43_shift_cycle",
    "C43_equality",
    "C43_equivalence",
    "C43_hash"
   ],
   "note": "Slices with positive steps; the offset for starts within the spectrogram; shifts in all modes (CYCLE is a rotation only for |shift| <= length, PAD with a negative shift moves nothing: stated as such)."
  },
  {
   "property": "C44",
   "status": "partial",
   "theorems": [
    "C44_xruns",
    "C44_delay_refuted"
   ],
   "note": "Counter and sample range proved; the delay is refuted: microseconds are multiplied by 1e6 instead of divided."
  },
  {
   "property": "C45",
   "status": "partial",
   "theorems": [
    "C45_remove_port_partial",
    "C45_negative_index_refuted"
   ],
   "note": "Proved for targets that are not negative indices; refuted for the index -1."
  },
  {
   "property": "C46",
   "status": "partial",
   "theorems": [
    "C46_channels_partial",
    "C46_slice_partial",
    "C46_index_partial",
    "C46_zero_hz_refuted",
    "C46_tuple_refuted"
   ],
   "note": "Selection of channels and labels is proved for every filter; the transfer functions are proved to be independent at all frequencies for untransformed filters and at all frequencies except 0 Hz otherwise. Missing: 0 Hz after a transformed channel, where the claim is false (C46_zero_hz_refuted); tuples as keys raise a TypeError (C46_tuple_refuted)."
  },
  {
   "property": "C47",
   "status": "proved",
   "theorems": [
    "C47_array_of_frequencies",
    "C47_spectrum",
    "C47_product_with_spectrum"
   ],
   "note": "Unconditional for calls; samples that are not finite are None."
  },
  {
   "property": "C48",
   "status": "partial",
   "theorems": [
    "C48_padded",
    "C48_unpadded",
    "C48_constant_overlap",
    "C48_short_signal",
    "C48_short_signal_refuted",
    "C48_full_overlap",
    "C48_default_window"
   ],
   "note": "Proved for every window with the sampling rate of the signal, whose sum of repetitions does not vanish, for every overlap, with and without padding; with the default Hann window the result is the Fourier transform. Refuted: signals shorter than the window, for which the block at the beginning of the signal is left out."
  },
  {
   "property": "C49",
   "status": "proved",
   "theorems": [
    "C49_chebyshev1",
    "C49_pass_band",
    "C49_without_ripple",
    "C49_chebyshev2",
    "C49_stop_band"
   ],
   "note": "Magnitudes of both types, pass band and stop band bounds for all orders from 1, all ripples except 0 dB (type 1 with 0 dB is a Butterworth filter)."
  },
  {
   "property": "C50",
   "status": "proved",
   "theorems": [
    "C50_a_weighting",
    "C50_b_weighting",
    "C50_c_weighting",
    "C50_d_weighting",
    "C50_u_weighting",
    "C50_delay",
    "C50_delays",
    "C50_derivative"
   ],
   "note": "All five weightings with exact real arithmetic; the poles of the C-weighting are characterised by the attenuation of 3 dB at the frequencies given by the standard."
  },
  {
   "property": "C51",
   "status": "proved",
   "theorems": [
    "C51_symmetric_shape",
    "C51_periodic_shape",
    "C51_amplitude_flatness",
    "C51_power_flatness",
    "C51_flat",
    "C51_overlap_correlation",
    "C51_scaling_factor",
    "C51_constant_overlap"
   ],
   "note": "Shapes of the rectangular, Bartlett, Hann, Hamming and Blackman windows; flatness, correlation and scaling factor of any window with one channel. The bandwidth, the scalloping loss, the recommended overlap and the windows that need SciPy or Bessel functions are not modelled."
  },
  {
   "property": "C52",
   "status": "partial",
   "theorems": [
    "C52_csv_contents",
    "C52_csv",
    "C52_npy_contents",
    "C52_npy",
    "C52_json",
    "C52_json_empty_refuted",
    "C52_read_partial",
    "C52_negative_refuted",
    "C52_one_bin_refuted"
   ],
   "note": "Everything except negative frequencies, which the reader is meant to crop: the result is wrong or an exception is raised (C52_negative_refuted). Spectrums of length 1 lose their resolution (C52_one_bin_refuted), empty ones their channels (C52_json_empty_refuted)."
  },
  {
   "property": "C53",
   "status": "proved",
   "theorems": [
    "C53_linear_sweep",
    "C53_inverse_linear_sweep",
    "C53_exponential_sweep",
    "C53_inverse_exponential_sweep",
    "C53_ends",
    "C53_equal_frequencies",
    "C53_minimum_frequency_refuted"
   ],
   "note": "Samples, angles, frequencies, extrema, labels, offsets and amplitudes of all four classes, for all parameters, in exact arithmetic. Equal frequencies of an exponential sweep raise a ZeroDivisionError (C53_equal_frequencies); the reported minimum can be a negative frequency (C53_minimum_frequency_refuted)."
  },
  {
   "property": "C54",
   "status": "proved",
   "theorems": [
    "C54_sine_wave",
    "C54_square_wave",
    "C54_periodic",
    "C54_constant_signal",
    "C54_constant_spectrum",
    "C54_constant_spectrogram"
   ],
   "note": "Sine waves, square waves and constants in exact arithmetic. The square wave is zero, where the sine is exactly zero."
  },
  {
   "property": "C55",
   "status": "partial",
   "theorems": [
    "C55_rate",
    "C55_harmonic",
    "C55_padded",
    "C55_cropped_partial",
    "C55_linear_partial",
    "C55_argument_unchanged_refuted",
    "C55_length_refuted",
    "C55_linear_length_refuted"
   ],
   "note": "The cut, the fractional advance, padding and cropping are proved for all impulse responses, harmonics and lengths. The documented claim is false in three respects: the samples of the given impulse response are overwritten, if no length is given (C55_argument_unchanged_refuted), the requested length is ignored, if there are not more samples than channels (C55_length_refuted, C55_linear_length_refuted), and the fractional advance is too large by n/(n-1) for odd numbers n of samples (the definition of [advance] in the specification). Cuts, that are wrapped around the end of the impulse response partially, are not covered."
  },
  {
   "property": "C56",
   "status": "partial",
   "theorems": [
    "C56_level_vs_time_partial",
    "C56_fraction_refuted",
    "C56_uninitialised_refuted",
    "C56_half_window_refuted"
   ],
   "note": "Proved for intervals of an integer number of samples, intervals of at most one sample and intervals, that cover the whole signal. The documented claim is false in three cases, which are refuted: intervals, whose length is not an integer number of samples (the weights of the first and the last sample of the window are exchanged with their complements), intervals as long as the signal without padding (uninitialised memory), and intervals with an even number of samples, whose half is one sample shorter than the signal."
  },
  {
   "property": "C57",
   "status": "proved",
   "theorems": [
    "C57_channels",
    "C57_shape",
    "C57_level",
    "C57_affine",
    "C57_affine_shape",
    "C57_kurtosis_bound",
    "C57_single_value"
   ],
   "note": "numpy.mean, numpy.var, numpy.std, scipy.stats.skew and scipy.stats.kurtosis are modelled by their definitions; skewness and kurtosis are undefined for channels, the samples of which are equal within the resolution."
  },
  {
   "property": "C58",
   "status": "partial",
   "theorems": [
    "C58_transform",
    "C58_offset_remainder",
    "C58_group_delay_refuted",
    "C58_short_signal",
    "C58_full_overlap",
    "C58_surplus_channels",
    "C58_round_trip",
    "C58_round_trip_unpadded",
    "C58_default_round_trip",
    "C58_single_sample"
   ],
   "note": "The spectrums of the segments, the frame and the round trip (for all windows, the overlapping energy of which exceeds SciPy's threshold, and for the default window) are proved. The documented claim is false for offsets, that are not a multiple of the step (C58_group_delay_refuted; C58_offset_remainder states, what is computed instead), for signals, that are shorter than the window, with pad=True (C58_short_signal) and for windows of one sample with pad=True (C58_single_sample). SciPy's stft and istft are modelled step by step for real samples; signals without channels are left out. The round trip is stated for offsets, that are multiples of the step."
  },
  {
   "property": "C59",
   "status": "proved",
   "theorems": [
    "C59_channels",
    "C59_insertion_order",
    "C59_values",
    "C59_to_decibels",
    "C59_from_decibels"
   ],
   "note": "Dictionaries are lists of entries with different keys. The logarithm and the power of 10 are those of the real numbers."
  },
  {
   "property": "C60",
   "status": "partial",
   "theorems": [
    "C60_text",
    "C60_csv",
    "C60_npy",
    "C60_npz",
    "C60_other_filters",
    "C60_integer_frequencies",
    "C60_fewer_columns_refuted",
    "C60_decibels_refuted",
    "C60_no_channels_refuted"
   ],
   "note": "The round trips are proved for all bands filters with at least one channel (CSV and text: with any number of channels). The documented claims about lines with fewer columns and decibels are false (C60_fewer_columns_refuted, C60_decibels_refuted); filters without channels do not survive npy and npz files (C60_no_channels_refuted), and integer frequencies make text tables unreadable (C60_integer_frequencies). That the notations of numbers are parsed to the numbers is trusted."
  },
  {
   "property": "C61",
   "status": "partial",
   "theorems": [
    "C61_json_reads",
    "C61_json",
    "C61_json_empty_refuted",
    "C61_npz",
    "C61_npz_labels_refuted"
   ],
   "note": "Proved for all spectrograms with at least one sample (JSON) and for all spectrograms (npz). A spectrogram without samples does not survive a JSON file (C61_json_empty_refuted), a label that ends with a NUL character does not survive an npz file (C61_npz_labels_refuted). The representations of dictionaries and arrays in the files are trusted; samples that are infinite or not-a-number are not covered."
  },
  {
   "property": "C62",
   "status": "proved",
   "theorems": [
    "C62_signal_times",
    "C62_spectrum_frequencies",
    "C62_spectrogram_axes",
    "C62_spectrum_views",
    "C62_spectrogram_views",
    "C62_polar_form"
   ],
   "note": "The axes in exact rational arithmetic; NumPy's functions for one complex number are the modulus and the argument, the latter defined like C's atan2."
  },
  {
   "property": "C63",
   "status": "partial",
   "theorems": [
    "C63_filters_partial",
    "C63_files_partial",
    "C63_bands",
    "C63_bands_files",
    "C63_derived_classes_refuted",
    "C63_only_filter_refuted"
   ],
   "note": "Bands filters: proved for all of them with finite numbers. Filters: for those whose dictionaries can be read (C26). The claim is refuted for the derived classes (C63_derived_classes_refuted), and the documentation's claim, that only the name Filter has to be defined, is refuted (C63_only_filter_refuted). The texts of numbers and strings are trusted tokens."
  },
  {
   "property": "C64",
   "status": "partial",
   "theorems": [
    "C64_signals",
    "C64_spectrums",
    "C64_spectrograms",
    "C64_derived_classes_refuted",
    "C64_empty_refuted",
    "C64_nonfinite_refuted"
   ],
   "note": "Proved for all data sets of the base classes with at least one sample and finite numbers. Refuted for the derived classes, for data sets without samples and for numbers, that are not finite. The texts of numbers and strings are trusted tokens."
  },
  {
   "property": "C65",
   "status": "partial",
   "theorems": [
    "C65_shape",
    "C65_symmetry",
    "C65_terms",
    "C65_range",
    "C65_middle_partial",
    "C65_one_sample_refuted",
    "C65_exponential_levels",
    "C65_decay_partial",
    "C65_decay_unique",
    "C65_fast_decay",
    "C65_decay_refuted"
   ],
   "note": "Shapes, numbers of terms, ranges and levels are proved. The decays of the side lobes are proved for all documented functions except for HFT169D, for which the documented decay is refuted (C65_decay_refuted). The middle sample is 1 up to 1e-5 for windows with more than one sample; for one sample it is refuted (C65_one_sample_refuted). The default flat top function is not modelled, because its coefficients are in SciPy; general_cosine, gaussian and exponential are modelled by SciPy's documentation."
  },
  {
   "property": "C66",
   "status": "partial",
   "theorems": [
    "C66_maximum",
    "C66_bandwidth_partial",
    "C66_bandwidth_refuted",
    "C66_one_sample_refuted",
    "C66_scalloping_loss",
    "C66_scalloping_range",
    "C66_recommended_overlap",
    "C66_compromise_unique",
    "C66_rectangular"
   ],
   "note": "The scalloping loss and the recommended overlap are proved. Half of the result of bandwidth() is the documented frequency, up to one bin; that the result itself is the documented frequency is refuted (C66_bandwidth_refuted), and it is not a number for windows with one sample (C66_one_sample_refuted)."
  },
  {
   "property": "C67",
   "status": "partial",
   "theorems": [
    "C67_structure",
    "C67_range",
    "C67_refused",
    "C67_distribution",
    "C67_affine",
    "C67_methods",
    "C67_reproducible",
    "C67_history",
    "C67_prefix",
    "C67_continues",
    "C67_generator_refuted",
    "C67_boundaries_refuted"
   ],
   "note": "The distribution functions are proved for the uniform, Laplace, logistic, triangular and Lomax noise; Gaussian, gamma and chi-square noise are proved to be multiples of the standard distribution, the other distributions to be NumPy's with the documented parameters. Noise is reproducible for integer seeds; it is not, if the seed is a random number generator (C67_generator_refuted). Equal boundaries of uniform noise break the documented range (C67_boundaries_refuted)."
  },
  {
   "property": "C68",
   "status": "proved",
   "theorems": [
    "C68_round_trip",
    "C68_ascii",
    "C68_truncated",
    "C68_failure",
    "C68_steps",
    "C68_steps_of_strings",
    "C68_surrogates_refuted",
    "C68_signal",
    "C68_signal_crash",
    "C68_signal_dtype",
    "C68_spectrum",
    "C68_spectrum_crash",
    "C68_spectrogram",
    "C68_filter",
    "C68_filter_crash",
    "C68_filter_complex"
   ],
   "note": "Python's JSON encoder and decoder are modelled character by character; float.__repr__ and float are parameters, which are assumed to be inverse. Signals with samples of single precision or integers and filters with complex coefficients raise a TypeError and leave a file that is refused (C68_signal_dtype, C68_filter_complex). A string with a pair of surrogates is changed (C68_surrogates_refuted), which the property excludes."
  },
  {
   "property": "C69",
   "status": "partial",
   "theorems": [
    "C69_format",
    "C69_unambiguous",
    "C69_reader",
    "C69_round_trip",
    "C69_any_text",
    "C69_truncated",
    "C69_long_cells",
    "C69_nul",
    "C69_round_trip_refuted",
    "C69_signal",
    "C69_signal_crash",
    "C69_signal_crash_refuted",
    "C69_spectrum",
    "C69_spectrum_crash",
    "C69_bands",
    "C69_bands_without_labels",
    "C69_bands_crash",
    "C69_bands_crash_refuted",
    "C69_bands_rows"
   ],
   "note": "Python's csv.writer and csv.reader are modelled character by character; the conversions between numbers and texts are parameters. The last sentence is false (C69_signal_crash_refuted): a truncated file is loaded as the empty signal or as the beginning of the signal, whose last sample might be another one. C69_signal_crash and C69_spectrum_crash show that nothing worse can happen. A truncated file with a bands filter is loaded as a filter with the first supporting points, or with fewer channels and without points (C69_bands_crash, C69_bands_crash_refuted). C69_bands_without_labels is about files without the first row. C69_bands_rows says for each file, whether it is loaded as a bands filter. Rows with a cell of more than 131072 characters, and before Python 3.11 rows with NUL characters, are written, but cannot be read (C69_round_trip_refuted)."
  },
  {
   "property": "C70",
   "status": "partial",
   "theorems": [
    "C70_writable",
    "C70_written",
    "C70_failed",
    "C70_reader",
    "C70_standard",
    "C70_round_trip",
    "C70_anything",
    "C70_crash",
    "C70_truncated",
    "C70_interrupted_refuted",
    "C70_limits_refuted"
   ],
   "note": "The standard library's module wave is modelled byte by byte, with the positions at which it writes. Two sentences are false. A signal, whose sampling rate, number of channels or length does not fit in the header, is refused with a struct.error (C70_limits_refuted); C70_writable says exactly which signals can be saved. An interrupted saving is not always noticed (C70_interrupted_refuted); C70_crash shows for each number of bytes, that nothing but the first samples of the signal can be loaded then, and C70_truncated that the beginnings of a complete file are refused. The wav files with floating point numbers, which the module soundfile writes, are not covered."
  },
  {
   "property": "C71",
   "status": "partial",
   "theorems": [
    "C71_saved",
    "C71_flac_refuted",
    "C71_loaded",
    "C71_round_trip"
   ],
   "note": "The library soundfile is a parameter of the model: any function for the samples, that are in the file afterwards. The sentence about the sampling rate is false for FLAC files with sampling rates between 65535.5 Hz and 65537.5 Hz (C71_flac_refuted); C71_saved shows, that this is the only exception."
  },
  {
   "property": "C72",
   "status": "partial",
   "theorems": [
    "C72_bessel",
    "C72_shape",
    "C72_symmetry",
    "C72_falling",
    "C72_range",
    "C72_landmarks",
    "C72_combination",
    "C72_blackman_harris",
    "C72_bohman",
    "C72_parzen_refuted",
    "C72_kaiser_rectangular"
   ],
   "note": "With exact real numbers. The last sentence is false (C72_parzen_refuted): the Parzen window of the length M begins and ends with 2/M^3. The Bessel function in the Kaiser window is any function with the power series of the modified Bessel function of the order zero; C72_bessel shows that there is one. The autocorrelation for the Bohman window is scaled with the factor 2, so that its maximum is one."
  },
  {
   "property": "C73",
   "status": "partial",
   "theorems": [
    "C73_merge_same_type",
    "C73_merge_refused",
    "C73_merge_refuted",
    "C73_concatenate_same_type",
    "C73_concatenate_mixed",
    "C73_concatenate_refuted"
   ],
   "note": "For data sets with at least one channel and spectrograms with at least two frequencies. The refusal is false in two cases: signals after a spectrum are merged as if their samples were those of a spectrum (C73_merge_refuted), and a signal after a spectrogram can be concatenated as if it were a spectrogram (C73_concatenate_refuted). Merge refuses all other mixtures (C73_merge_refused). For Concatenate it is proved, that a result of a mixture is a spectrogram and that its signals have one channel or as many channels as samples (C73_concatenate_mixed), so that all other mixtures are refused."
  },
  {
   "property": "C74",
   "status": "partial",
   "theorems": [
    "C74_programs",
    "C74_copies",
    "C74_views",
    "C74_assignment",
    "C74_harmonic",
    "C74_harmonic_unchanged",
    "C74_harmonic_refuted",
    "C74_spectrum_programs",
    "C74_spectrum_copies",
    "C74_spectrum_views",
    "C74_spectrum_parts",
    "C74_spectrum_part_assigned"
   ],
   "note": "For signals and for spectrums; spectrograms are not modelled with a memory, and the programs do not mix signals and spectrums. A method, that allocates an array, reads its arguments before the result is stored. The claim is false for harmonic_impulse_response without a length, which overwrites its argument (C74_harmonic_refuted); C74_harmonic says, that what it leaves is what the theorems C55 are about. The arrays, that are returned by real and imaginary, share the memory of the spectrum (C74_spectrum_parts, C74_spectrum_part_assigned)."
  },
  {
   "property": "C75",
   "status": "partial",
   "theorems": [
    "C75_values",
    "C75_current_values",
    "C75_representation",
    "C75_values_refuted"
   ],
   "note": "The claim is false (C75_values_refuted), because the constructor keeps references to the dictionaries. It holds for programs, that do not change a dictionary after it has been used (C75_values). C75_current_values says what happens otherwise: the transfer functions are kept, and the conversions are those of a filter, that is made from the changed dictionaries; so are its representation and the files with it (C75_representation). The sequence of the dictionaries itself is not changed in the model."
  }
 ]
}