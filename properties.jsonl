{"id": "C01", "title": "Label sanitation", "statement": "After constructing a Signal, Spectrum, Spectrogram or Filter the labels() tuple has exactly as many entries as the data set has channels; the i-th label is the i-th given label if one was given, and the empty string otherwise; superfluous labels are dropped.", "quantifier": "every label sequence (or None) and every number of channels", "why_tests_cant": "tests try a few label counts; the length mismatch may be arbitrary in both directions", "anchors": ["sumpf/_internal/_functions.py:sanitize_labels", "sumpf/_data/_signals/_signal.py:Signal.__init__", "sumpf/_data/_sampled_data.py:SampledData.labels"]}
{"id": "C02", "title": "Signal arithmetic is time aligned", "statement": "For a binary operator on two Signals the result covers exactly the hull of both signals' time spans; at every time and channel, where both operands have a sample (single-channel operands being broadcast), it is op(a,b); where only the left operand has one it is a; where only the right operand has one it is b (for + * **) or op(pivot,b) (0-b for -, 1/b for /); in gaps it is 0. The left operand's sampling rate is kept.", "quantifier": "all operators, all pairs of signals with arbitrary (also negative) offsets, lengths and channel counts, overlapping or not (at least one channel each), and all sample values incl. NaN/inf", "why_tests_cant": "the code has separate index computations for equal shapes, one-channel left, one-channel right and differing channel counts; tests check a few offsets per branch", "anchors": ["sumpf/_data/_signals/_signal.py:Signal._algebra_function", "sumpf/_data/_signals/_signal.py:Signal._algebra_function_right", "sumpf/_data/_sampled_data.py:SampledData.__add__"]}
{"id": "C03", "title": "Arithmetic does not depend on operand order", "statement": "With equal sampling rates a+b and b+a (and a*b, b*a) have the same samples at the same times, the same offset, length, channel count and labels.", "quantifier": "all pairs of signals and every commutative sample operation", "why_tests_cant": "commutativity relates two different branches (one-channel-left and one-channel-right) for all shapes and offsets", "anchors": ["sumpf/_data/_signals/_signal.py:Signal._algebra_function"]}
{"id": "C04", "title": "Arithmetic with scalars and arrays", "statement": "signal op x and x op signal for a number or an array x of matching shape apply op element-wise in the given operand order and keep sampling rate, offset, shape and labels.", "quantifier": "all signals, numbers, arrays and operators", "why_tests_cant": "operand order mistakes in reflected operators show only for non-commutative ops and specific values", "anchors": ["sumpf/_data/_signals/_signal.py:Signal._algebra_function", "sumpf/_data/_sampled_data.py:SampledData.__rsub__", "sumpf/_data/_sampled_data.py:SampledData.__rtruediv__", "sumpf/_data/_sampled_data.py:SampledData.__rpow__"]}
{"id": "C05", "title": "Slicing keeps samples at their times and labels with their channels", "statement": "signal[c, t] with slices of positive step: each selected channel keeps its label and, for a start within the signal, each selected sample (step 1) stays at the time it had in the original; nothing outside the slice is in the result.", "quantifier": "all signals and all slice bounds: omitted, integer, negative, float, out of range", "why_tests_cant": "offset bookkeeping for clamped, negative and fractional bounds spans an infinite key space", "anchors": ["sumpf/_data/_signals/_signal.py:Signal.__getitem__", "sumpf/_internal/_indexing.py:key_to_slices"]}
{"id": "C06", "title": "Integer indexing selects the named channel or sample", "statement": "signal[i] / signal[:, i] with an integer -n <= i < n selects exactly the one channel / sample that Python indexing with i denotes.", "quantifier": "all signals and all integers in range, including -1", "why_tests_cant": "the boundary index -1 is a single point among all negative indices", "anchors": ["sumpf/_internal/_indexing.py:key_to_slices", "sumpf/_data/_signals/_signal.py:Signal.__getitem__"]}
{"id": "C07", "title": "index() normalises every index into the valid range", "statement": "For length > 0, index(i,length) terminates and returns a value congruent to i (or to the rounded fraction i*length) modulo the length, non-negative, and equal to the input if that was non-negative already; sequences are mapped element-wise.", "quantifier": "every integer or float index and every positive length; what happens for length <= 0 is stated separately", "why_tests_cant": "loop termination for all inputs cannot be tested", "anchors": ["sumpf/_internal/_indexing.py:index"]}
{"id": "C08", "title": "Padding and cropping", "statement": "signal.pad(length, value) has exactly the requested length, the same offset, labels and sampling rate; its samples are those of the original where it has some, the value elsewhere. Padding to the own length returns the signal; cropping after padding gives the signal back.", "quantifier": "all signals, non-negative lengths and values", "why_tests_cant": "round trips for all lengths", "anchors": ["sumpf/_data/_signals/_signal.py:Signal.pad", "sumpf/_data/_spectrums/_spectrum.py:Spectrum.pad"]}
{"id": "C09", "title": "Shift modes", "statement": "shift(k) in mode OFFSET moves every sample by k in time; CROP moves samples by k inside an unchanged time span filling with zeros; PAD moves by k without loss, for non-negative k; CYCLE is a rotation by k for |k| <= length. shift(None) sets the offset to zero.", "quantifier": "all signals and all integer shifts, including those beyond the length and negative ones", "why_tests_cant": "slice clamping makes large and negative shifts take different paths", "anchors": ["sumpf/_data/_signals/_signal.py:Signal.shift", "sumpf/_internal/_enums.py:ShiftMode"]}
{"id": "C10", "title": "Time reversal", "statement": "reversed(signal) has, per channel, the samples in reversed order with the same labels and sampling rate, reversing twice gives an equal signal, and (documentation) at time t it has the value that the original has at time -t.", "quantifier": "all signals and offsets", "why_tests_cant": "offset arithmetic must be right for all offsets and lengths", "anchors": ["sumpf/_data/_signals/_signal.py:Signal.__reversed__"]}
{"id": "C11", "title": "Equality and hashing", "statement": "== on Signals is an equivalence relation (as far as == on numbers is one), is sensitive to each observable attribute (channels, labels, sampling rate, offset), and equal data sets have equal hashes.", "quantifier": "all pairs and triples of data sets", "why_tests_cant": "consistency of hash and equality is a universally quantified law", "anchors": ["sumpf/_data/_sampled_data.py:SampledData.__eq__", "sumpf/_data/_sampled_data.py:SampledData.__hash__", "sumpf/_data/_signals/_signal.py:Signal.__eq__", "sumpf/_data/_signals/_signal.py:Signal.__hash__"]}
{"id": "C12", "title": "Merging channels", "statement": "The Merge block's output holds each input channel with its label at its original times (and frequency bins), zero elsewhere, spanning the hull of all inputs (for filters: each transfer function with its label); the channels are ordered data set by data set (FIRST_DATASET_FIRST) or all first channels, then all second channels and so on (FIRST_CHANNELS_FIRST), every channel exactly once.", "quantifier": "every finite sequence of signals, spectrums, spectrograms or filters with any offsets and lengths and at least one channel each, both modes", "why_tests_cant": "round-robin order with exhausted data sets and index arithmetic for arbitrarily many inputs", "anchors": ["sumpf/_blocks/_merge.py:Merge", "sumpf/_blocks/_merge.py:_MergeSignals"]}
{"id": "C13", "title": "Merge and Concatenate add/remove/replace history", "statement": "After any sequence of add, remove and replace calls, the block's inputs are those added and not removed, in order of addition, each with its latest replacement; removing an unknown id raises a KeyError without a change and replacing an unknown id appends the data.", "quantifier": "every finite history of calls", "why_tests_cant": "histories are unbounded", "anchors": ["sumpf/_blocks/_merge.py:Merge.add", "sumpf/_blocks/_concatenate.py:Concatenate.add"]}
{"id": "C14", "title": "Concatenation", "statement": "Concatenate's output is, per channel (and frequency bin) and at each time, the sum of the input signals (or spectrograms), each placed so that it begins at the end of its predecessor plus its own offset; channel counts are the maximum, missing channels count as zero.", "quantifier": "every finite sequence of signals or of spectrograms with arbitrary positive or negative offsets, lengths, channel counts and numbers of frequency bins", "why_tests_cant": "overlaps created by negative offsets across many signals", "anchors": ["sumpf/_blocks/_concatenate.py:Concatenate"]}
{"id": "C15", "title": "Convolution is time-correct in every mode", "statement": "a.convolve(b, FULL) at time t is sum over tau of a(tau) b(t-tau) for absolute times (offsets included); SAME and VALID are restrictions of the same function to their time spans (VALID: exactly the times where the shorter fits entirely in the longer); SPECTRUM_PADDED equals FULL over exact arithmetic.", "quantifier": "all pairs of non-empty signals and offsets; every commutative ring of samples", "why_tests_cant": "sums over all lengths; offset formulas for all length relations and parities", "anchors": ["sumpf/_data/_signals/_signal.py:Signal.convolve", "sumpf/_internal/_convolution.py"]}
{"id": "C16", "title": "Correlation is time-correct in every mode", "statement": "a.correlate(b, mode) at lag t is sum over tau of a(tau) b(tau+t) in the modes FULL, SAME, VALID and SPECTRUM_PADDED, with the offset of the result placing each lag correctly.", "quantifier": "all pairs of non-empty signals and offsets", "why_tests_cant": "same as convolution, with argument order and reversal pitfalls", "anchors": ["sumpf/_data/_signals/_signal.py:Signal.correlate", "sumpf/_internal/_convolution.py"]}
{"id": "C17", "title": "Channel pairing of convolution and correlation", "statement": "With equal channel counts channels are paired; a one-channel operand is combined with every channel of the other one; other channel counts pair up to the smaller count. The label list names every result channel.", "quantifier": "all channel counts", "why_tests_cant": "labels and shapes for arbitrary counts", "anchors": ["sumpf/_data/_signals/_signal.py:Signal.convolve", "sumpf/_data/_signals/_signal.py:Signal.correlate", "sumpf/_internal/_convolution.py"]}
{"id": "C18", "title": "Fourier round trip", "statement": "signal.fourier_transform().inverse_fourier_transform() has the samples of the signal, moved to offset 0 by a cyclic rotation by the offset, when the length is even; for an odd length one sample is lost.", "quantifier": "all real signals of every length and offset (over exact real arithmetic)", "why_tests_cant": "identity over all lengths and values; parity dependence", "anchors": ["sumpf/_data/_signals/_signal.py:Signal.fourier_transform", "sumpf/_data/_spectrums/_spectrum.py:Spectrum.inverse_fourier_transform"]}
{"id": "C19", "title": "Level in time and frequency domain agree (Parseval)", "statement": "For an even length the level of a signal equals the level of its spectrum.", "quantifier": "all real signals of even length (exact arithmetic)", "why_tests_cant": "energy identity over all lengths", "anchors": ["sumpf/_data/_signals/_signal.py:Signal.level", "sumpf/_data/_spectrums/_spectrum.py:Spectrum.level"]}
{"id": "C20", "title": "Inverting a signal", "statement": "convolving a signal with its inverse ~signal circularly yields the unit impulse at time 0, if the spectrum has no zeros (for odd lengths: the spectrum of the signal padded to the double length).", "quantifier": "all signals of every length and offset with non-vanishing spectrum (exact arithmetic)", "why_tests_cant": "identity over all lengths", "anchors": ["sumpf/_data/_signals/_signal.py:Signal.__invert__"]}
{"id": "C21", "title": "Spectrum arithmetic is frequency aligned", "statement": "Binary operators on Spectrums combine bins of equal frequency index; channels that only one operand has follow the rules of signal arithmetic; the result has the resolution of the left operand and the larger channel count. Operands of different lengths raise a ValueError, unless the right one has length one, which is then combined with every bin. Numbers, negation, absolute value, conjugate and the inverse (~) act on every bin and keep labels and resolution.", "quantifier": "all operators, lengths and channel counts", "why_tests_cant": "separate branches per shape relation", "anchors": ["sumpf/_data/_spectrums/_spectrum.py:Spectrum._algebra_function"]}
{"id": "C22", "title": "Spectrogram arithmetic is time and frequency aligned", "statement": "Binary operators on Spectrograms combine values of equal time (offset included) and frequency; the rules of signal arithmetic apply elsewhere.", "quantifier": "all operators, shapes and offsets", "why_tests_cant": "three dimensional index computations with five branches", "anchors": ["sumpf/_data/_spectrograms/_spectrogram.py:Spectrogram._algebra_function"]}
{"id": "C23", "title": "Filter arithmetic is pointwise arithmetic of transfer functions", "statement": "For filters a, b and +, -, *, /: the transfer function of the result at each frequency equals the operation on the operands' transfer functions (where these are defined), with one-channel filters broadcast, for filters, numbers and the unary operators.", "quantifier": "all filters, i.e. all finite term trees, and all frequencies", "why_tests_cant": "term simplification rules interact over an unbounded set of term trees", "anchors": ["sumpf/_data/_filters/_base/_filter.py:Filter.__add__", "sumpf/_data/_filters/_base/_terms"]}
{"id": "C24", "title": "Term simplification never changes the transfer function", "statement": "Building sums, differences, products and quotients through the term factories gives a term that evaluates like the unsimplified one at every frequency where the latter is defined.", "quantifier": "all finite lists of terms, all frequencies, both transform flags", "why_tests_cant": "rewriting rules on unbounded trees", "anchors": ["sumpf/_data/_filters/_base/_terms:Sum.factory", "sumpf/_data/_filters/_base/_terms:Product.factory", "sumpf/_data/_filters/_base/_terms:Quotient.factory", "sumpf/_data/_filters/_base/_terms:Difference.factory"]}
{"id": "C25", "title": "Lowpass-highpass transformation is an involution", "statement": "Transforming a term's frequency variable twice yields a term with the original transfer function, and once maps H(s) to H(1/s) at every non-zero frequency.", "quantifier": "all finite term trees and all non-zero frequencies", "why_tests_cant": "structural recursion on unbounded trees", "anchors": ["sumpf/_data/_filters/_base/_terms:invert_transform", "sumpf/_data/_filters/_base/_s.py:S.transform"]}
{"id": "C26", "title": "Filter dictionaries round trip", "statement": "Converting any filter to its dictionary representation and back yields a filter with equal terms, labels and the same transfer function.", "quantifier": "all finite term trees", "why_tests_cant": "recursion over unbounded trees", "anchors": ["sumpf/_data/_filters/_base/_terms:as_dict", "sumpf/_internal/_persistence/_filter_readers.py:term_from_dict"]}
{"id": "C27", "title": "Interpolation passes through the support points", "statement": "Every interpolation variant of a Bands filter evaluates to the given value exactly at every support point, and (linear, logarithmic, stairs) lies between the neighbouring values elsewhere within the support.", "quantifier": "all strictly increasing support point lists, all query frequencies", "why_tests_cant": "universally quantified over tables and query points", "anchors": ["sumpf/_internal/_interpolation.py", "sumpf/_data/_filters/_base/_terms/_bands.py:Bands"]}
{"id": "C28", "title": "Stairs interpolation takes the nearest support point", "statement": "STAIRS_LIN / STAIRS_LOG return the value of a support point with minimal (logarithmic) distance to the query.", "quantifier": "all support lists and queries", "why_tests_cant": "search correctness over all lists", "anchors": ["sumpf/_internal/_interpolation.py"]}
{"id": "C29", "title": "Butterworth magnitude", "statement": "For each order n and cutoff frequency fc the Butterworth lowpass has |H(f)|^2 = 1/(1+(f/fc)^(2n)), the highpass the same with fc/f; hence gain 1 in the passband limit, and exactly -3 dB (1/2 in power) at fc.", "quantifier": "all orders >= 1, all cutoff frequencies > 0 and all frequencies >= 0", "why_tests_cant": "identity for all orders requires a product formula over pole pairs", "anchors": ["sumpf/_data/_filters/_butterworth.py:ButterworthFilter"]}
{"id": "C30", "title": "Bessel filter coefficients", "statement": "For each order the Bessel lowpass' denominator is the reverse Bessel polynomial, all its integer divisions are exact, and the DC gain is 1.", "quantifier": "all orders", "why_tests_cant": "factorial identities for all orders", "anchors": ["sumpf/_data/_filters/_bessel.py:BesselFilter"]}
{"id": "C31", "title": "Time table persistence round trip", "statement": "Writing a signal as rows of time and samples and reading it back gives the same samples, sampling rate and offset (length >= 2, exact arithmetic).", "quantifier": "all signals of length >= 2, sampling rates > 0, all offsets", "why_tests_cant": "rate/offset reconstruction by division and rounding for all values", "anchors": ["sumpf/_internal/_persistence/_signal_readers.py:from_rows", "sumpf/_internal/_persistence/_signal_writers.py"]}
{"id": "C32", "title": "PCM persistence", "statement": "Writing samples in [-1, 1) as integers with b bits and reading them back changes each sample by at most half a quantisation step; the chunk-wise reading and writing loops process every sample of every channel exactly once in order, for every length and chunk size.", "quantifier": "all lengths, channel counts, bit depths and sample values in range", "why_tests_cant": "loop boundary cases for every length relative to the chunk size", "anchors": ["sumpf/_internal/_persistence/_signal_writers.py:StandardLibraryWriter", "sumpf/_internal/_persistence/_signal_readers.py:StandardLibraryReader"]}
{"id": "C33", "title": "Reader and writer selection", "statement": "load tries readers in order of preference until one succeeds, returns its result, and raises ValueError only if each available reader failed; save picks a writer supporting the format.", "quantifier": "all sets of readers with arbitrary availability and failure behaviour, all files", "why_tests_cant": "all combinations of missing libraries and failing readers", "anchors": ["sumpf/_internal/_persistence/_functions.py:read_file", "sumpf/_internal/_persistence/_auto_writer.py:AutoWriter"]}
{"id": "C34", "title": "JACK playback and recording", "statement": "With any sequence of process callbacks of any block sizes each sample of the input signal is played exactly once in order, followed by silence, and recorded samples are stored at their positions.", "quantifier": "all block sizes, signal lengths and channel counts; every schedule of callbacks", "why_tests_cant": "schedules of callbacks are unbounded and need a running audio server", "anchors": ["sumpf/_blocks/_jack.py:Jack"]}
{"id": "C35", "title": "JACK port names are unique", "statement": "The output port names generated from a signal's labels are pairwise distinct, for any labels including empty and repeated ones.", "quantifier": "all label lists", "why_tests_cant": "the renaming loop must terminate and avoid collisions with all existing names", "anchors": ["sumpf/_blocks/_jack.py:Jack"]}
{"id": "C36", "title": "Window plateau and symmetry", "statement": "A window with plateau has the requested length, is 1 on the plateau, and is symmetric (symmetric=True: w[i]=w[n-1-i]; False: w[i]=w[n-i]) if the underlying window function is.", "quantifier": "all lengths, plateau lengths and underlying window functions", "why_tests_cant": "parity dependent index arithmetic", "anchors": ["sumpf/_data/_signals/_windows.py:Window"]}
{"id": "C37", "title": "Rudin-Shapiro spectra are maximally flat", "statement": "The Rudin-Shapiro sequence is +-1 valued with the recursion r(2n)=r(n), r(2n+1)=(-1)^n r(n), whichever way it is computed; truncation to the requested length is exact.", "quantifier": "all lengths", "why_tests_cant": "recursion over all lengths", "anchors": ["sumpf/_data/_spectrums/_rudinshapiro.py:RudinShapiroNoiseSpectrum"]}
{"id": "C38", "title": "Energy decay curve", "statement": "The value at t is the energy of the remaining signal from t on; the curve is non-increasing and starts with the total energy.", "quantifier": "all signals", "why_tests_cant": "universally quantified inequality", "anchors": ["sumpf/_data/_signals/_energy_decay.py:EnergyDecayCurve"]}
{"id": "C39", "title": "Maximum length sequences have the requested length", "statement": "bits and length given, or one of both missing: the length is the requested one or 2^bits-1, the bits suffice for the length; samples are +1 or -1.", "quantifier": "all bits and lengths", "why_tests_cant": "integer logarithm boundary cases", "anchors": ["sumpf/_data/_signals/_mls.py:MaximumLengthSequence"]}
{"id": "C40", "title": "Fades", "statement": "A Fade is 0 before the rise, 1 after the rise and before the fall (or the reverse), and stays within [0,1] for window functions within [0,1]; its length is the requested one.", "quantifier": "all lengths and interval bounds (negative and fractional ones included)", "why_tests_cant": "interval order and clamping cases", "anchors": ["sumpf/_data/_signals/_fade.py:Fade"]}
{"id": "C41", "title": "Channel numbering helper", "statement": "counting_number/ordinal texts are well formed for every number.", "quantifier": "all integers", "why_tests_cant": "suffix exceptions (11th, 12th, 13th) for every magnitude", "anchors": ["sumpf/_internal/_text.py:counting_number"]}
{"id": "C42", "title": "Slicing, padding and comparing spectrums", "statement": "spectrum[channels, bins] with slices of positive steps contains exactly the selected channels (with their labels) and bins and keeps the resolution; pad(length, value) has the requested length, keeps the bins below it and fills the rest with the value; == is an equivalence that holds iff resolution, labels, shape and all bins agree, and equal spectrums have equal hashes.", "quantifier": "all spectrums, slices, lengths", "why_tests_cant": "every combination of bounds, steps and lengths", "anchors": ["sumpf/_data/_spectrums/_spectrum.py:Spectrum.__getitem__", "sumpf/_data/_spectrums/_spectrum.py:Spectrum.pad", "sumpf/_data/_spectrums/_spectrum.py:Spectrum.__eq__", "sumpf/_data/_spectrums/_spectrum.py:Spectrum.__hash__"]}
{"id": "C43", "title": "Slicing, padding, shifting and comparing spectrograms", "statement": "spectrogram[channels, frequencies, times] with slices of positive steps contains exactly the selected values, keeps labels with their channels and adapts the offset; pad and shift move, crop, append or rotate the values along the time axis only, as documented for signals; == is an equivalence that holds iff resolution, rate, offset, labels, shape and all values agree, and equal spectrograms have equal hashes.", "quantifier": "all spectrograms, slices, lengths, shifts and modes", "why_tests_cant": "every combination of bounds, steps, offsets and modes", "anchors": ["sumpf/_data/_spectrograms/_spectrogram.py:Spectrogram.__getitem__", "sumpf/_data/_spectrograms/_spectrogram.py:Spectrogram.pad", "sumpf/_data/_spectrograms/_spectrogram.py:Spectrogram.shift", "sumpf/_data/_spectrograms/_spectrogram.py:Spectrogram.__eq__", "sumpf/_data/_spectrograms/_spectrogram.py:Spectrogram.__hash__"]}
{"id": "C44", "title": "Reports of JACK xruns", "statement": "Each xrun reported by the JACK server increases the number of xruns by one and announces the range of samples of the current block and the delay in seconds.", "quantifier": "all sequences of reports, delays, block sizes and positions", "why_tests_cant": "histories of reports are unbounded and need a running audio server", "anchors": ["sumpf/_blocks/_jack.py:on_xrun", "sumpf/_blocks/_jack.py:Jack.xruns"]}
{"id": "C45", "title": "Removing a JACK input port keeps the other stored connections", "statement": "After an input port has been removed, the stored connections to it are forgotten, and each other stored connection still designates the same port as before, whether it is given by a port object, a name or an index.", "quantifier": "all lists of ports, all lists of stored connections, each port specifier", "why_tests_cant": "indices shift depending on which port is removed", "anchors": ["sumpf/_blocks/_jack.py:Jack.remove_input_port"]}
{"id": "C46", "title": "Channels of a filter are independent", "statement": "The transfer function of each channel of a filter does not depend on its other channels; indexing and slicing a filter selects channels together with their labels without changing their transfer functions.", "quantifier": "all filters, frequencies, indices and slices", "why_tests_cant": "the channels are evaluated with a shared frequency variable, so that each combination of channels matters", "anchors": ["sumpf/_data/_filters/_base/_filter.py:Filter.__call__", "sumpf/_data/_filters/_base/_filter.py:Filter.__getitem__", "sumpf/_data/_filters/_base/_s.py:TransformedS"]}
{"id": "C47", "title": "Sampling a filter", "statement": "Calling a filter with an array of frequencies gives the same values as calling it with each of them; filter.spectrum(resolution, length) contains the transfer function at the multiples of the resolution with the filter's labels; multiplying a filter with a spectrum multiplies each bin with the transfer function at its frequency.", "quantifier": "all filters, arrays of frequencies, resolutions, lengths and spectrums", "why_tests_cant": "all lengths, resolutions and combinations of channel counts", "anchors": ["sumpf/_data/_filters/_base/_filter.py:Filter.spectrum", "sumpf/_data/_filters/_base/_filter.py:Filter.__call__", "sumpf/_data/_filters/_base/_filter.py:Filter.__mul__"]}
{"id": "C48", "title": "Block-wise Fourier transform", "statement": "The block-wise Fourier transform of a signal, whose blocks overlap such that the shifted windows add up to a constant, is the Fourier transform of the whole signal, sampled at the frequencies of the blocks; otherwise each sample is weighted with the sum of the windows at its time, relative to the mean of that sum.  With padding, the blocks are those that overlap the signal, without, they are those inside of it.", "quantifier": "all signals, windows, overlaps and bins", "why_tests_cant": "all lengths, overlaps and positions of the last block", "anchors": ["sumpf/_data/_signals/_signal.py:Signal.fourier_transform"]}
{"id": "C49", "title": "Chebyshev filters have the ripple of their specification", "statement": "The squared magnitude of a Chebyshev filter of type 1 is that of the Chebyshev polynomial of its order; in the pass band it stays within the ripple (amplifying for even, attenuating for odd orders), and it falls below the pass band at the cutoff frequency; without ripple it is a Butterworth filter.  The magnitude of a filter of type 2 stays below the ripple in the whole stop band and above it in the pass band.", "quantifier": "all orders, cutoff frequencies, ripples, frequencies, low pass and high pass", "why_tests_cant": "all orders and real frequencies", "anchors": ["sumpf/_data/_filters/_chebyshev.py:Chebyshev1Filter", "sumpf/_data/_filters/_chebyshev.py:Chebyshev2Filter"]}
{"id": "C50", "title": "Weighting, delay and derivative filters have the transfer functions they are defined by", "statement": "The A, B, C, D and U weighting filters have the magnitude curves of the standards with a gain of 1 at 1000 Hz (for the C-weighting: 3 dB attenuation at 10^1.5 Hz and 10^3.9 Hz); the delay filter has a magnitude of 1 and the given group delay at each frequency, and delays add up; the derivative filter multiplies with the frequency variable.", "quantifier": "all frequencies and delays", "why_tests_cant": "real functions of all frequencies", "anchors": ["sumpf/_data/_filters/_weighting.py:AWeighting", "sumpf/_data/_filters/_weighting.py:BWeighting", "sumpf/_data/_filters/_weighting.py:CWeighting", "sumpf/_data/_filters/_weighting.py:DWeighting", "sumpf/_data/_filters/_weighting.py:UWeighting", "sumpf/_data/_filters/_delay.py:DelayFilter", "sumpf/_data/_filters/_derivative.py:DerivativeFilter"]}
{"id": "C51", "title": "Windows have the shape and the measures of their definition", "statement": "Each window of the rectangular, Bartlett, Hann, Hamming and Blackman classes has the samples of its textbook definition.  The amplitude flatness and the power flatness of a window are the ratios of the minimum and the maximum of the sum of endlessly many overlapping repetitions, the flatness is 1 only if that sum is constant, the overlap correlation is a normalised correlation with a magnitude of at most 1, and the scaling factor is the inverse of the mean of that sum.  Non-symmetric windows whose repetitions overlap often enough have a constant sum.", "quantifier": "all windows, lengths, overlaps and numbers of overlapping repetitions", "why_tests_cant": "all lengths, steps and overlaps; the extrema of infinite sums", "anchors": ["sumpf/_data/_signals/_windows.py:Window.amplitude_flatness", "sumpf/_data/_signals/_windows.py:Window.power_flatness", "sumpf/_data/_signals/_windows.py:Window.overlap_correlation", "sumpf/_data/_signals/_windows.py:Window.scaling_factor", "sumpf/_data/_signals/_windows.py:HannWindow", "sumpf/_internal/_functions.py:get_window"]}
{"id": "C52", "title": "Frequency table persistence", "statement": "Writing a spectrum as rows of frequencies and samples (CSV, npy) or as a dictionary of real and imaginary parts (JSON) and reading it back gives the same samples, resolution and labels (npy: the name of the file and a number).  The rows of a table can have any order; if it begins above 0 Hz, the spectrum is zero below; negative frequencies are cropped.", "quantifier": "all spectrums of length >= 2 and resolution > 0, all tables with different frequencies in any order", "why_tests_cant": "all numbers of rows, orders and frequencies; reconstruction by division and rounding", "anchors": ["sumpf/_internal/_persistence/_spectrum_readers.py:from_rows", "sumpf/_internal/_persistence/_spectrum_readers.py:CsvReader", "sumpf/_internal/_persistence/_spectrum_readers.py:JsonReader", "sumpf/_internal/_persistence/_spectrum_writers.py:CsvWriter", "sumpf/_internal/_persistence/_spectrum_writers.py:as_dict"]}
{"id": "C53", "title": "Sweeps", "statement": "A linear (exponential) sweep is a sine, whose frequency changes linearly (exponentially) from the start frequency at the beginning of the given interval to the stop frequency at its end and accordingly outside of the interval; the angle is the given phase at the beginning of the interval.  instantaneous_frequency(t) is that frequency, minimum_frequency() and maximum_frequency() are its extrema over the duration of the signal.  The inverse sweep passes the same angles backwards with an offset, such that its time -n corresponds to the time n of the sweep, and its amplitude is constant for the linear and proportional to the frequency for the exponential sweep.", "quantifier": "all frequencies, phases, intervals, sampling rates and lengths, with and without NumExpr", "why_tests_cant": "a real function of all times; two implementations for short and long sweeps", "anchors": ["sumpf/_data/_signals/_sweep.py:LinearSweep", "sumpf/_data/_signals/_sweep.py:InverseLinearSweep", "sumpf/_data/_signals/_sweep.py:ExponentialSweep", "sumpf/_data/_signals/_sweep.py:InverseExponentialSweep", "sumpf/_data/_signals/_sweep.py:Sweep"]}
{"id": "C54", "title": "Stationary waves and constants", "statement": "The sample number n of a sine wave is sin(2*pi*frequency*n/sampling_rate + phase), that of a square wave is its sign; periods() is the frequency times the duration; the samples repeat after each number of samples, that is a whole number of periods.  All samples, bins or cells of constant signals, spectrums and spectrograms have the given value.", "quantifier": "all frequencies, phases, sampling rates, lengths and values", "why_tests_cant": "all lengths and real parameters", "anchors": ["sumpf/_data/_signals/_waves.py:SineWave", "sumpf/_data/_signals/_waves.py:SquareWave", "sumpf/_data/_signals/_constant.py:ConstantSignal", "sumpf/_data/_spectrums/_constant.py:ConstantSpectrum", "sumpf/_data/_spectrograms/_constant.py:ConstantSpectrogram"]}
{"id": "C55", "title": "Impulse responses of harmonics", "statement": "harmonic_impulse_response(impulse_response, h, length) of an exponential sweep cuts out the part of the (periodically continued) impulse response between the times, at which the sweep had a frequency, that is h and h-1 times lower, and advances it by the fraction of a sample, by which its beginning has been rounded; harmonic 1 is the part from the time 0 on.  The result has the requested length by cropping or zero padding and the given impulse response is not changed.", "quantifier": "all impulse responses, sweep rates, harmonics and lengths", "why_tests_cant": "all lengths, real delays and positions relative to the offset; changes of the argument", "anchors": ["sumpf/_data/_signals/_sweep.py:BaseExponentialSweep.harmonic_impulse_response", "sumpf/_data/_signals/_sweep.py:apply_delay"]}
{"id": "C56", "title": "Level versus time", "statement": "level_vs_time(integration_time, pad) is a signal with the same times, channels and labels, each sample of which is the root of the mean of the squared samples over an interval of the length integration_time around it, where each sample counts as much as its sampling period overlaps with the interval.  With pad, the signal is zero where it has no samples; without, the mean is that over the part of the interval, that is covered by the signal.", "quantifier": "all signals, integration times and both values of pad", "why_tests_cant": "all lengths of the interval relative to the length of the signal, including non-integer ones; dependence on uninitialised memory", "anchors": ["sumpf/_data/_signals/_signal.py:Signal.level_vs_time"]}
{"id": "C57", "title": "Statistical parameters of signals", "statement": "mean, variance, standard_deviation, skewness and kurtosis are the mean, the mean squared deviation, its root and the standardised third and fourth central moments (minus 3) of each channel.  The squared level is the squared mean plus the variance.  Multiplying all samples with a and adding b maps the mean m to a*m+b, the variance v to a*a*v, keeps the kurtosis and keeps the skewness except for the sign of a; the kurtosis is at least skewness**2 - 2.  As single values, the mean is the mean of the channels' means and the variance is the mean of the channels' variances plus the variance of their means.", "quantifier": "all signals and affine functions of samples", "why_tests_cant": "equations and inequalities of real numbers for all numbers of channels and samples", "anchors": ["sumpf/_data/_signals/_signal.py:Signal.mean", "sumpf/_data/_signals/_signal.py:Signal.variance", "sumpf/_data/_signals/_signal.py:Signal.standard_deviation", "sumpf/_data/_signals/_signal.py:Signal.skewness", "sumpf/_data/_signals/_signal.py:Signal.kurtosis"]}
{"id": "C58", "title": "Short time Fourier transforms", "statement": "short_time_fourier_transform(window, overlap, pad) is a spectrogram, the sample of which at the time t is the spectrum of the windowed segment of the signal around the time t*step, scaled by the sum of the window, where step is the window's length minus the overlap; with pad, the segments cover all samples, without, they are all inside the signal.  The offset is rounded to a multiple of step and the remainder is a constant addition to the group delay.  The inverse transform with the same window restores the samples of every signal, if the overlapping windows' energy does not vanish, in particular with the default arguments.", "quantifier": "all signals, windows, overlaps, offsets and both values of pad", "why_tests_cant": "all lengths of the signal relative to the window and the step; a round trip for all samples", "anchors": ["sumpf/_data/_signals/_signal.py:Signal.short_time_fourier_transform", "sumpf/_data/_spectrograms/_spectrogram.py:Spectrogram.inverse_short_time_fourier_transform", "sumpf/_internal/_functions.py:get_window"]}
{"id": "C59", "title": "Bands filters have the given supporting points", "statement": "Bands(bands, interpolations, extrapolations, labels) has one channel for each dictionary; at each frequency of the dictionary, the channel has the value in the dictionary, whatever the interpolation and extrapolation are and in whatever order the entries have been added.  Flags for missing channels are the last ones given, labels for missing channels are the first one given or 'Bands'.  to_db and from_db convert the values and keep everything else; they are inverse to each other for positive values.", "quantifier": "all sequences of dictionaries, flags, labels; all frequencies and values", "why_tests_cant": "any number of channels and supporting points, any order of insertion; a round trip for all values", "anchors": ["sumpf/_data/_filters/_bands.py:Bands", "sumpf/_data/_filters/_base/_terms/_primitive.py:Bands"]}
{"id": "C60", "title": "Bands filters survive being stored in tables", "statement": "A bands filter, that is saved as a text table (in any of the notations), a CSV file, an npy or an npz file, and then loaded, has the same number of channels with the same supporting points, also if the channels have different supporting points or none.  CSV and npz files keep the labels, npz files also the flags.  Filters with other transfer functions are rejected with a ValueError.  Lines with fewer columns and values in decibels are read as documented.", "quantifier": "all bands filters, the frequencies of which are non-negative floating point numbers", "why_tests_cant": "all combinations of shared and missing supporting points in any number of channels", "anchors": ["sumpf/_internal/_persistence/_filter_writers.py:TableWriter", "sumpf/_internal/_persistence/_filter_readers.py:TableReader", "sumpf/_internal/_persistence/_filter_readers.py:CsvReader", "sumpf/_internal/_persistence/_filter_readers.py:NumpyReader"]}
{"id": "C61", "title": "Spectrograms survive being stored in files", "statement": "A spectrogram, that is saved in a JSON file or an npz file, and then loaded, has the same shape, samples, resolution, sampling rate, offset and labels, whatever the size of its three dimensions is.  Parameters that are missing in a JSON file get their default values.", "quantifier": "all spectrograms; all dictionaries with equally long lists", "why_tests_cant": "any number of channels, frequencies and samples, any contents of the freshly allocated memory", "anchors": ["sumpf/_internal/_persistence/_spectrogram_writers.py:as_dict", "sumpf/_internal/_persistence/_spectrogram_writers.py:NumpyNpzWriter", "sumpf/_internal/_persistence/_spectrogram_readers.py:JsonReader", "sumpf/_internal/_persistence/_spectrogram_readers.py:NumpyReader", "sumpf/_internal/_persistence/_spectrogram_readers.py:from_dict"]}
{"id": "C62", "title": "Axes and views of data sets", "statement": "time_samples() has one value for each sample, the first one is offset / sampling_rate, the distance is 1 / sampling_rate; frequency_samples() has the multiples of the resolution, the last one is maximum_frequency(); duration() is the length divided by the sampling rate.  magnitude() * exp(1j * phase()) and real() + 1j * imaginary() are the samples of a spectrum or a spectrogram; the magnitudes are not negative, the phases are in the interval (-pi, pi], and abs(spectrum) has the magnitudes as samples.", "quantifier": "all signals, spectrums and spectrograms", "why_tests_cant": "all lengths (also 0 and 1, for which there is no distance between samples), offsets and complex numbers in all quadrants", "anchors": ["sumpf/_data/_signals/_signal.py:Signal.time_samples", "sumpf/_data/_signals/_signal.py:Signal.duration", "sumpf/_data/_spectrums/_spectrum.py:Spectrum.frequency_samples", "sumpf/_data/_spectrums/_spectrum.py:Spectrum.magnitude", "sumpf/_data/_spectrums/_spectrum.py:Spectrum.phase", "sumpf/_data/_spectrograms/_spectrogram.py:Spectrogram.time_samples", "sumpf/_data/_spectrograms/_spectrogram.py:Spectrogram.frequency_samples"]}
{"id": "C63", "title": "Representations of filters can be evaluated", "statement": "The evaluation of repr(filter) yields a filter with the same labels and the same responses, the evaluation of the representation of a bands filter yields an equal bands filter, and the same holds for files with representations.", "quantifier": "all filters with finite numbers, all bands filters", "why_tests_cant": "transfer functions are nested arbitrarily deep, and each kind of term has its own representation and its own factory", "anchors": ["sumpf/_data/_filters/_base/_filter.py:Filter.__repr__", "sumpf/_data/_filters/_bands.py:Bands.__repr__", "sumpf/_data/_filters/_base/_terms/_primitive.py:Bands.__repr__", "sumpf/_data/_filters/_base/_terms/_binary.py:Sum.__repr__", "sumpf/_internal/_persistence/_filter_readers.py:ReprReader", "sumpf/_internal/_persistence/_filter_writers.py:ReprWriter"]}
{"id": "C64", "title": "Representations of signals, spectrums and spectrograms can be evaluated", "statement": "The evaluation of the representation of a signal, a spectrum or a spectrogram yields an object with the same shape, samples, parameters and labels.", "quantifier": "all signals, spectrums and spectrograms; all classes, that are derived from them", "why_tests_cant": "any shape, also shapes without samples, and any number of derived classes", "anchors": ["sumpf/_data/_signals/_signal.py:Signal.__repr__", "sumpf/_data/_spectrums/_spectrum.py:Spectrum.__repr__", "sumpf/_data/_spectrograms/_spectrogram.py:Spectrogram.__repr__"]}
{"id": "C65", "title": "Flat top, Nuttall, Gaussian and exponential windows have their documented shapes", "statement": "The samples of a flat top, Nuttall, Gaussian or exponential window are those of a shape, that does not depend on the length of the window and is 1 in its middle. The sums of cosines have the documented number of terms and their side lobes decay with the documented number of decibels per octave. The first and the last sample of an exponential window are attenuated by the given number of decibels.", "quantifier": "all flags of the enumerations, all parameters, all lengths, symmetric and periodic windows, all frequencies of the Fourier transform", "why_tests_cant": "the decay of the side lobes is a statement about the limit for high frequencies, and tests check only few lengths", "anchors": ["sumpf/_data/_signals/_windows_scipy.py:FlatTopWindow", "sumpf/_data/_signals/_windows_scipy.py:NuttallWindow", "sumpf/_data/_signals/_windows_scipy.py:GaussianWindow", "sumpf/_data/_signals/_windows_scipy.py:ExponentialWindow", "sumpf/_internal/_enums.py:FlatTopWindows", "sumpf/_internal/_enums.py:NuttallWindows"]}
{"id": "C66", "title": "Bandwidth, scalloping loss and recommended overlap of windows", "statement": "The bandwidth of a window is the frequency, at which the magnitude of its spectrum drops below -3dB of the value at 0Hz, with an error of not more than one bin of the padded spectrum. The scalloping loss is the ratio of the magnitudes at half a frequency bin and at 0Hz. The recommended overlap is the smallest one that maximizes the difference between the amplitude flatness and the overlap correlation.", "quantifier": "all windows with at least one sample, all lengths, sampling rates and oversampling factors", "why_tests_cant": "the spectrum is a continuous function of the frequency and tests compare the results with tables for few windows", "anchors": ["sumpf/_data/_signals/_windows.py:Window.bandwidth", "sumpf/_data/_signals/_windows.py:Window.scalloping_loss", "sumpf/_data/_signals/_windows.py:Window.recommended_overlap"]}
{"id": "C67", "title": "Noise signals", "statement": "A noise signal has one channel with the given length. Its samples have the documented distribution with the given parameters, are in the documented range, and parameters without a distribution are refused. A noise signal with a given seed is reproducible, regardless of which other noise signals have been made before.", "quantifier": "all random number generators, distributions, parameters, lengths, seeds and programs that make other noise signals before", "why_tests_cant": "a distribution is a statement about all random numbers, and reproducibility is one about all histories of the program", "anchors": ["sumpf/_data/_signals/_noise.py:Noise", "sumpf/_data/_signals/_noise.py:UniformNoise", "sumpf/_data/_signals/_noise.py:GaussianNoise", "sumpf/_data/_signals/_noise.py:LaplaceNoise", "sumpf/_data/_signals/_noise.py:TriangularNoise", "sumpf/_data/_signals/_noise.py:LogisticNoise", "sumpf/_data/_signals/_noise.py:LomaxNoise"]}
{"id": "C68", "title": "JSON files", "statement": "A signal or spectrum with double precision samples, the dictionary of a spectrogram and of a filter with real coefficients is loaded from a JSON file as it was saved, whatever characters its labels have (except for pairs of surrogates). The file has only ASCII characters. If saving has been interrupted after any character, loading the file raises a ValueError rather than returning other data. Data that cannot be written raises a TypeError, and the rest of the file is refused, too.", "quantifier": "all signals, spectrums, spectrograms and filters, all labels, all positions at which writing the file might end", "why_tests_cant": "the characters, numbers and nesting depths of the data are unbounded, and a crash can happen after every character", "anchors": ["sumpf/_internal/_persistence/_signal_writers.py:JsonWriter", "sumpf/_internal/_persistence/_signal_readers.py:JsonReader", "sumpf/_internal/_persistence/_spectrum_writers.py:JsonWriter", "sumpf/_internal/_persistence/_spectrum_readers.py:JsonReader", "sumpf/_internal/_persistence/_spectrogram_writers.py:JsonWriter", "sumpf/_internal/_persistence/_spectrogram_readers.py:JsonReader", "sumpf/_internal/_persistence/_filter_writers.py:JsonWriter", "sumpf/_internal/_persistence/_filter_readers.py:JsonReader"]}
{"id": "C69", "title": "CSV files", "statement": "The rows that are written to a CSV file are a text according to RFC 4180, which is read as the same rows; texts with other line breaks or needless quotation marks are read as well. A signal, a spectrum and a bands filter are loaded from a CSV file as they were saved, whatever characters their labels have. If saving has been interrupted after any character, loading the file raises an exception rather than returning other data.", "quantifier": "all tables, signals, spectrums and bands filters, all labels, all positions at which writing the file might end", "why_tests_cant": "the contents of the cells and the sizes of the tables are unbounded, and a crash can happen after every character", "anchors": ["sumpf/_internal/_persistence/_signal_writers.py:CsvWriter", "sumpf/_internal/_persistence/_signal_readers.py:CsvReader", "sumpf/_internal/_persistence/_spectrum_writers.py:CsvWriter", "sumpf/_internal/_persistence/_spectrum_readers.py:CsvReader", "sumpf/_internal/_persistence/_filter_writers.py:CsvWriter", "sumpf/_internal/_persistence/_filter_readers.py:CsvReader"]}
{"id": "C70", "title": "wav files", "statement": "A signal can be saved as a wav file with integers if its samples are in the range of the integers. The file starts with a header that describes the data correctly, and loading it returns the samples rounded to the integers. Loading also succeeds for wav files with integers by other programs, which have further chunks or trailing bytes, and any file is either loaded as a signal or refused with an exception. If saving has been interrupted after any number of bytes, loading the file raises an exception rather than returning other data.", "quantifier": "all signals, all sequences of bytes as files, all numbers of bytes after which the saving might be interrupted", "why_tests_cant": "the sizes of the signals and the contents of the files are unbounded, and a crash can happen after every byte, also in the midst of the header, which is overwritten after each block", "anchors": ["sumpf/_internal/_persistence/_signal_writers.py:StandardLibraryWriter", "sumpf/_internal/_persistence/_signal_readers.py:WaveReader"]}
{"id": "C71", "title": "sound files with the library soundfile", "statement": "Saving a signal in one of the formats, for which the library soundfile is needed, stores the samples of the channels in the right order and with the encoding, after which the format is named. The sampling rate is the nearest one, that the format supports. Loading the file returns a signal with the same channels, as far as the encoding allows it, with this sampling rate and with the labels, which contain the name of the file.", "quantifier": "all signals, all sampling rates, all formats, all encodings of the samples by the library", "why_tests_cant": "the sampling rates and the sizes of the signals are unbounded, and there are intervals of sampling rates, in which the rounding is different", "anchors": ["sumpf/_internal/_persistence/_signal_writers.py:SoundfileWriter", "sumpf/_internal/_persistence/_signal_readers.py:SoundfileReader"]}
{"id": "C72", "title": "Bartlett-Hann, Blackman-Harris, Bohman, Parzen and Kaiser windows", "statement": "The Bartlett-Hann, Blackman-Harris, Bohman, Parzen and Kaiser windows are symmetric, fall from one in their middle to their ends and have no samples below zero or above one. The Bartlett-Hann window is an additive combination of the Bartlett and the Hann window. The side lobes of the Blackman-Harris window decay with 6dB per octave. The Bohman window is the autocorrelation of a half wave of a cosine. The Parzen window reaches zero at its ends.", "quantifier": "all lengths, plateaus and sampling rates, symmetric and periodic windows, all parameters beta of the Kaiser window", "why_tests_cant": "the lengths, the plateaus and beta are unbounded, and the statements about the shape and its side lobes are about continuous functions", "anchors": ["sumpf/_data/_signals/_windows_scipy.py:BartlettHannWindow", "sumpf/_data/_signals/_windows_scipy.py:BlackmanHarrisWindow", "sumpf/_data/_signals/_windows_scipy.py:BohmanWindow", "sumpf/_data/_signals/_windows_scipy.py:ParzenWindow", "sumpf/_data/_signals/_windows.py:KaiserWindow"]}
{"id": "C73", "title": "different types of data sets in Merge and Concatenate", "statement": "Merge and Concatenate process data sets of the same type as it is stated in C12 and C14. Data sets of different types are refused with an exception, independently of the order, in which they have been passed.", "quantifier": "all lists of data sets of all types, all of their contents, all merging modes", "why_tests_cant": "the number of data sets, their order, their shapes and the place of the wrong data set in the list are unbounded", "anchors": ["sumpf/_blocks/_merge.py:Merge", "sumpf/_blocks/_concatenate.py:Concatenate"]}
{"id": "C74", "title": "signals and spectrums that share their samples", "statement": "No operation on signals or spectrums changes the samples of a signal or a spectrum that exists already, whichever arrays are shared between them: a program has the same results as if each of them had an array of its own. Slices, reversed signals, signals with a shifted offset and results, that need no change, share the samples of the original signal; all other results are independent copies.", "quantifier": "all programs of operations (slicing, reversing, shifting, padding, arithmetic, Merge, Concatenate and other computations) on all signals, and on all spectrums, that share samples in any way; all later assignments to their arrays; all contents of uninitialised memory", "why_tests_cant": "the histories of operations and the ways, in which arrays can overlap, are unbounded; a wrong overlap is only seen, when something is written later", "anchors": ["sumpf/_data/_signals/_signal.py:Signal.__getitem__", "sumpf/_data/_signals/_signal.py:Signal.__reversed__", "sumpf/_data/_signals/_signal.py:Signal.pad", "sumpf/_data/_signals/_signal.py:Signal.shift", "sumpf/_data/_spectrums/_spectrum.py:Spectrum.__getitem__", "sumpf/_data/_spectrums/_spectrum.py:Spectrum.pad", "sumpf/_blocks/_merge.py:Merge", "sumpf/_blocks/_concatenate.py:Concatenate", "sumpf/_data/_signals/_sweep.py:BaseExponentialSweep.harmonic_impulse_response"]}
{"id": "C75", "title": "bands filters and the dictionaries, from which they are made", "statement": "A bands filter does not depend on what happens to the dictionaries after its creation: its transfer functions and its conversions to and from decibels remain those for the dictionaries, from which it has been made, whichever filters share a dictionary.", "quantifier": "all programs, that create dictionaries, assign to them, create bands filters from any of them and convert filters to and from decibels, in any order", "why_tests_cant": "the histories are unbounded; a shared dictionary is only noticed, if it is changed between the creation and the conversion of a filter", "anchors": ["sumpf/_data/_filters/_bands.py:Bands.__init__", "sumpf/_data/_filters/_bands.py:Bands.to_db", "sumpf/_data/_filters/_bands.py:Bands.from_db"]}
