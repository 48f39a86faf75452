# A Rocq model of SuMPF: design

Source: `/repo` (JonasSC/SuMPF at the pinned commit), read as text.
Model and proofs: `rocq/theories`, logical name `Verif`, Coq 8.16.1.

## Layout

* `Model/*.v`   definitions only, about one file per source module; each definition cites file and lines.
* `Spec/*.v`    small specification vocabulary, which does not use the model's functions (what a reader compares with the English property).
* `Proofs/*.v`  lemmas.
* `Properties/*.v` the theorems named in `MANIFEST.json`, each closed by `exact`, followed by
  `Print Assumptions`, with a concrete example (`Example Cxx_example`) that meets the hypotheses beside it.
* `seeded/LOG.jsonl` wrong programs, with which the theorems have been tested. One line per
  attempt. `theorems_failed` lists the theorems, whose proofs were no longer accepted or rested on such
  a proof after the edit; this does not show by itself, that the statement became false, as a proof can
  also break, because its script does not fit the edited text. Lines with an `outcome` are attempts that
  gave no result, e.g. because the edited model was not well-typed.

Suffixes of theorems: `_partial` proves only a part of the property, the manifest's note says what is missing;
`_refuted` proves with a witness that a claim of the property or of the documentation is false of the code.

## Modelling principles

* Python functions become total Gallina functions into `result A := Ok a | Err e`; an exception is a value.
  A theorem that concludes `Ok` therefore also says that no exception is raised.
  Loops that may diverge return after fuel, and divergence is a theorem about all fuels.
* NumPy arrays are lists of rows together with their number of columns (so that arrays without
  rows have a shape); three dimensional arrays are shapes with partial functions. Basic slicing, slice assignment, broadcasting
  and ufunc shape rules are modelled in `Model/Py.v`, `Numpy.v`, `Vector.v`, `Cube.v` following CPython's `PySlice_AdjustIndices` and
  NumPy's documentation; a shape mismatch is `Err`.
* `allocate_array` returns memory. The model takes the initial contents as an arbitrary parameter (`junk`), so
  that the theorems also show that no result depends on it.
* Sample values: structural properties are polymorphic in the sample type and in
  the element operation, so they hold for IEEE floats with NaN as well. Algebraic laws (convolution
  sums, Fourier transforms, filters, tables) are proved over rings, rationals, reals or complex numbers; there, floating point
  rounding is not modelled, which is stated in each file.
* Data sets are immutable values; the `connectors` package (lazy evaluation, caching) is third party and not modelled,
  except `MultiInputData`'s behaviour as an ordered dictionary with fresh keys (C13).

## Plan per property

| id | modelled | proof |
|----|----------|-------|
| C01 | `sanitize_labels` | case analysis, list extensionality |
| C02 | `Signal._algebra_function*` with all four shape branches and slice assignments | lookups of slice assignment, case split over the region of each time |
| C03 | same | corollary of C02's pointwise characterisation |
| C04 | scalar and array branches | direct |
| C05, C06 | `key_to_slices`, `Signal.__getitem__`, full slice semantics | lookups of strided slices; C06 is refuted at -1 |
| C07 | `index` with fuel | well-founded induction; non-termination for length <= 0 by induction on fuel |
| C08-C10 | `pad`, `shift`, `__reversed__` | lookups; documented claims that fail get `_refuted` theorems |
| C11 | `__eq__`, `__hash__` with an abstract hash function | congruence |
| C12 | `Merge.output` and index generator | counting argument that the generator is the rank in round-robin order; fold invariant |
| C13 | MultiInputData as ordered map with counter | induction over histories, refinement |
| C14 | `Concatenate.output` incl. stable sort | loop invariant: prefix sum of placed data sets |
| C15-C17 | `_convolution.py`, numpy.convolve/correlate as defined in the NumPy manual | sums over Z ranges in a ring, reindexing; circular convolution theorem |
| C18-C20 | rfft/irfft as DFT sums over complex numbers | orthogonality of roots of unity, conjugate symmetry, Parseval |
| C21, C22 | Spectrum/Spectrogram algebra | as C02 |
| C23-C26 | filter term AST, factories, operators, dict conversion | structural induction, weights that decrease through the mutually recursive factories |
| C27, C28 | interpolation functions over sorted tables | induction on the table |
| C29 | Butterworth factor list | product over pole pairs via roots of unity |
| C30 | Bessel coefficients | factorial divisibility; group delay by a recursion of the polynomials |
| C31, C52 | row readers/writers, dictionaries, sorting and labels of columns | permutation invariance of sorting, rational arithmetic of the reconstructed rates |
| C53 | `_sweep.py`: parameters, the four classes | derivatives of the angles, monotony of the frequencies, equidistance of linspace |
| C54 | `_waves.py`, `_constant.py` of signals, spectrums, spectrograms | equidistance of linspace, periodicity of the sine |
| C55 | `harmonic_impulse_response`, `apply_delay`, the aliasing of views of the argument | Hermitian symmetry of the half spectrum, the discrete Fourier transform of the result |
| C56 | `level_vs_time` with its window, its convolution and its correction, `numpy.empty` | the parts of an interval covered by the samples, in closed form; convolution lemma; uninitialised memory as a parameter |
| C57 | `mean`, `variance`, `standard_deviation`, `skewness`, `kurtosis` | linearity of means; Pearson's inequality from the mean of a square |
| C58 | `short_time_fourier_transform`, `inverse_short_time_fourier_transform`, the parts of SciPy's `stft` and `istft` that they use | the segments of the padded signal as a function of the time; inverse DFT per segment; overlap-add sums divided by the energy of the windows; for the Hann window the energy is at least 1/2 by cos²+sin² |
| C59 | the class `Bands` | dictionaries as lists with different keys; sorting gives the only ascending arrangement, so the order of insertion is irrelevant; the values by C27 |
| C60 | the tables of bands filters and their readers | the rows of the table as a function of the frequency; every reader builds the same columns; uniqueness of the ascending arrangement |
| C61 | the dictionaries of spectrograms, the JSON reader's loop over the channels, npz files | invariant of the loop over the layers of the allocated array; arithmetic of complex numbers |
| C62 | `time_samples`, `frequency_samples`, `duration`, `maximum_frequency`, the views of complex arrays | `linspace` in rational arithmetic; the polar form by cases of the quadrant, uniqueness by the addition theorems |
| C63 | `__repr__` of terms, filters and bands filters as sequences of tokens, a parser and an evaluator for Python's expressions, the files | the parser inverts the printing, by induction over the expressions; the evaluated factories are those of the dictionaries (C26) |
| C64 | `__repr__` of signals, spectrums and spectrograms, their constructors with keywords | the same parser; the shapes of nested lists |
| C65 | the window functions of `_windows_scipy.py`, that are sums of cosines, Gaussian or exponential functions, with the coefficients as fractions | Fourier transform of a sum of cosines by antiderivatives, expansion of its envelope, exact sums of the coefficients |
| C66 | the padded spectrum of a window, the search for the first bin below the threshold, the first maximum of a list | discrete Fourier transform of padded sequences, triangle inequality, intermediate value theorem, geometric sums |
| C67 | the constructors of noise signals over an arbitrary random number generator, whose states are threaded through the program | induction over the numbers that are drawn and over programs; inverse distribution functions |
| C68 | Python's JSON encoder, writing to a file that can end anywhere, its decoder, and the conversions between dictionaries and JSON | induction over objects: the decoder consumes exactly what the encoder has written; the decoder's result for a complete text does not depend on what follows, so that no proper prefix can be complete |
| C69 | Python's CSV writer, the state machine of its CSV reader, and the files with signals, spectrums and bands filters on top of it | a grammar for CSV texts after RFC 4180; induction over its derivations shows what the state machine makes of a text and of any beginning of it; the readers of tables (C31, C60) are applied to the rows |
| C70 | the standard library's modules wave and chunk, the order and the positions in which they write bytes to a file, and the loops of the wav writer and reader | an invariant of the contents of the file after each byte (a header with any two sizes and a part of the data); a description of the wav files, that can be read, with induction over their chunks; C32 for the samples |
| C71 | the conversions of the sampling rate, the table of formats and the transpositions of the writer and the reader, that use the library soundfile | case distinctions for the intervals of sampling rates; indices in interleaved samples |
| C72 | the five windows sample by sample, with exact real numbers | monotonicity by derivatives and by the power series of the Bessel function; antiderivatives for the integrals |
| C73 | the dispatch of Merge and Concatenate on the first data set, with the attributes that the other data sets lack and numpy's broadcasting for the others | induction over the list; case analysis on the types |
| C74 | a memory, in which arrays are tables of addresses; the methods that return the signal or the spectrum itself, a view or a new array; `harmonic_impulse_response` with its write to the argument | simulation of programs with a memory by programs with values, by induction over the program; framing of writes |
| C75 | the dictionaries of the user and the references to them, that are kept by bands filters; programs of assignments, constructions and conversions | simulation of programs with references by programs with values, by induction over the program; invariants of the memory |
| C32 | PCM packing, chunk loops of the writers and readers | loop invariants, little endian arithmetic, rounding error |
| C33 | reader/writer search loops over abstract readers; the tables of formats | induction over the reader list; decision over the finite tables |
| C34, C35 | Jack callback state machine and port naming loop | induction over callback schedules; termination by pigeonhole |
| C36, C40 | window and fade constructors over abstract window functions | lookups |
| C37 | Rudin-Shapiro doubling loop | loop invariant with the binary recursion |
| C38 | reverse cumulative sum | induction |
| C39 | length/bits computation | log2 facts |
| C41 | decimal text | digit lemmas |
| C42 | slicing, padding, `__eq__`, `__hash__` of spectrums | as for signals |
| C43 | slicing, padding, shifting, `__eq__`, `__hash__` of spectrograms | lookups in cubes |
| C44 | xrun reports of the Jack block | induction over the sequence of reports |
| C45 | stored connections while ports are removed | case analysis of names and indices |
| C46 | `Filter.__call__`, `Filter.__getitem__` with the shared frequency variable | state of the variable is an invariant away from 0 Hz |
| C47 | calls with arrays, `Filter.spectrum`, `Filter * Spectrum` | element-wise induction |
| C48 | block-wise Fourier transform | exchange of sums over blocks and samples |
| C49 | Chebyshev filters of both types | Chebyshev polynomials, product over the poles |
| C50 | weighting, delay and derivative filters | complex field arithmetic with bounds of the roots |
| C51 | window functions of NumPy and the measures of windows | trigonometric sums, minimum/maximum over periods, Cauchy-Schwarz |
## Which parts of the code are modelled

Paths are relative to `/repo/sumpf`.

| source file | modelled (in) | not modelled |
|---|---|---|
| `_blocks/_concatenate.py` | signals (`Concatenate.v`), spectrograms (`CubeBlocks.v`), mixed inputs (`MixedBlocks.v`) | dtypes |
| `_blocks/_merge.py` | signals, spectrums, add/remove/replace (`Merge.v`), spectrograms and filters (`CubeBlocks.v`), mixed inputs (`MixedBlocks.v`) | dtypes |
| `_blocks/_jack.py` | process and xrun callbacks, recorded output, port names, stored connections (`Jack.v`) | the JACK server, activation, threads other than by the order of calls, waiting times |
| `_data/_sampled_data.py` | labels, `==`, lookups (`Signal.v`, `Spectrum.v`) | |
| `_data/_signals/_signal.py` | construction, slicing, comparison, operators, pad, shift, convolve, correlate, Fourier transforms, inversion, level, energy, level_vs_time, statistics (`Signal.v`, `Convolution.v`, `Fourier.v`, `Levels.v`), sharing of memory (`Memory.v`), `short_time_fourier_transform` (`Stft.v`) | `__str__` (representations: `Repr.v`) |
| `_data/_signals/_windows.py` | rectangular, Bartlett, Hann, Hamming, Blackman; plateaus; flatness, overlap correlation, scaling factor, bandwidth, scalloping loss, recommended overlap ; Kaiser (`Generators.v`, `Windows.v`, `WindowSpectra.v`, `FurtherWindows.v`) | arrays of overlaps |
| `_data/_signals/_sweep.py` | all, in exact arithmetic; the interval is a pair (`Sweeps.v`) | arrays of times for instantaneous_frequency |
| `_data/_signals/_waves.py`, `_constant.py`, `_data/_spectrums/_constant.py`, `_data/_spectrograms/_constant.py` | all (`Sweeps.v`) | |
| `_data/_signals/_windows_scipy.py` | flat top (except for the default function), Nuttall, Gaussian, exponential (`CosineWindows.v`), Bartlett-Hann, Blackman-Harris, Bohman, Parzen (`FurtherWindows.v`) | Dolph-Chebyshev, Slepian (SciPy's functions are parameters of the window model) |
| `_data/_signals/_fade.py`, `_energy_decay.py`, `_mls.py` | all (`Generators.v`) | SciPy's `max_len_seq` is a parameter |
| `_data/_spectrums/_spectrum.py` | construction, slicing, comparison, operators, pad, inverse Fourier transform, level (`Spectrum.v`, `Fourier.v`), sharing of memory (`SpectrumMemory.v`, `SpectrumParts.v`), magnitude, phase, real and imaginary parts, frequency axis (`Views.v`, `Tables.v`) | `__str__` (representations: `Repr.v`) |
| `_data/_spectrums/_rudinshapiro.py` | all (`Generators.v`) | |
| `_data/_spectrograms/_spectrogram.py` | construction, slicing, comparison, operators with every kind of operand, pad, shift (`Spectrogram.v`), inverse short time Fourier transform (`Stft.v`) | |
| `_data/_filters/_base/*` | terms, factories, evaluation, comparison, transforms, dictionaries, filters (`Terms.v`, `Filter.v`), the frequency variable | (representations: `Repr.v`) values inf and nan are not distinguished from each other |
| `_data/_filters/_butterworth.py`, `_bessel.py`, `_chebyshev.py`, `_delay.py`, `_derivative.py`, `_weighting.py` | all (`Rolloff.v`, `Weighting.v`) | |
| `_internal/_convolution.py`, `_functions.py`, `_indexing.py`, `_interpolation.py`, `_text.py` | all functions used by the classes above (`Convolution.v`, `Functions.v`, `Interpolation.v`, `Text.v`) | complex numbers' `angle` helpers |
| `_internal/_persistence/_functions.py`, `_auto_writer.py` | all (`Persistence.v`) | |
| `_internal/_persistence/_signal_*.py`, `_spectrum_*.py` | CSV, npy, npz/JSON dictionaries (`Tables.v`); wave and aifc (`Pcm.v`); tables of formats (`FileFormats.v`) | the library soundfile, the bytes of containers (other than wav files); the calls of soundfile are in `Soundfile.v`, the JSON and CSV texts are in `Json.v`, `JsonFiles.v`, `Csv.v` and `CsvFiles.v`, the wav files in `Riff.v` |
| `_data/_filters/_bands.py` | all (`Bands.v`), sharing of dictionaries (`BandsSharing.v`) | a single dictionary or label instead of a sequence |
| `_internal/_persistence/_spectrogram_*.py` | JSON and npz files as dictionaries (`SpectrogramFiles.v`), the tables of formats; JSON texts (`Json.v`, `JsonFiles.v`) | pickle |
| `_data/_signals/_noise.py` | all classes; NumPy's transformations of uniform, normal, exponential and gamma distributed numbers (`Noise.v`) | NumPy's bit streams and its algorithms for the other distributions (parameters of the model), sequences as seeds |
| `_internal/_persistence/_filter_*.py` | the dictionaries of filters (`Filter.v`), tables of bands filters in text, CSV, npy and npz files (`Bands.v`), JSON texts (`Json.v`, `JsonFiles.v`), the tables of formats | the notations of numbers, CSV files without labels |
## Trusted base

* Coq 8.16.1's kernel (with `vm_compute`, which is used in a few examples and in decisions over finite tables).
* The axioms of the standard library that are listed below; no other.
* The faithfulness of the hand written model to the Python code (every definition cites its lines; the model has been
  tested by seeded errors, see `seeded/LOG.jsonl`, but not by running the code).
* The modelled behaviour of Python, NumPy and SciPy primitives: `Model/Py.v`, `Numpy.v`, `Vector.v`, `Cube.v`, `Fft.v`, SciPy's `stft` and `istft` in `Stft.v` and the
  parameters of the theorems (conversion of numbers to texts, `max_len_seq`, SciPy's window functions, the behaviour of individual readers and writers in C33, hash functions).
* Exact arithmetic instead of floating point numbers, where a theorem is stated for rings, rationals, reals or complex numbers.

Libraries: the development imports Coq's standard library only.

## Findings

Claims of the documentation or of the listed properties, that are false of the code (each has a `_refuted` theorem or a theorem that states what happens instead):

* `signal[-1]` is empty (C06); a slice start before the beginning gives a wrong offset (C05).
* `shift` with CYCLE and |shift| > length is not a rotation, PAD with a negative shift moves nothing (C09, C43).
* `reversed(signal)` mirrors about length-1 instead of negating the times (C10).
* `index` does not terminate for lengths <= 0 (C07).
* Spectrums of different lengths cannot be combined (C21, C22).
* Merging with FIRST_CHANNELS_FIRST overwrites channels, if a data set has no channels (C12).
* The last, partly filled block of a JACK playback rewinds the position, so that the signal's end is overwritten or repeated (C34); the xrun delay is multiplied with 1e6 instead of divided (C44); negative indices in stored connections are adapted wrongly (C45).
* A maximum length sequence of length 0 or 1 without bits raises an exception (C39); a fade in, that begins during a fade out, exceeds 1 (C40).
* Filters: after a transformed channel or summand, values at 0 Hz are wrong (C23, C46); products of linearly interpolated bands, sums of bands with constant-one extrapolation (C23); `==` is not symmetric and identifies different bands (C23); a difference loses its transform, if its minuend is zero (C24, C25, C26); tuples as keys raise a TypeError (C46).
* Convolution: labels of a one-channel signal with a several-channel one (C17).
* Levels: the spectrum of a one-sample signal counts its bin twice (C19). Odd lengths lose a sample in the round trip through a spectrum (C18).
* The Bessel filter's cutoff frequency is not its -3 dB frequency (C30); Butterworth filters of order 0 raise a ZeroDivisionError (C29).
* The block-wise Fourier transform skips the first block of signals shorter than the window (C48).
* Readers are never remembered; saving with AUTO raises an ImportError, if a library is missing (C33).
* Full scale samples raise struct.error and leave a truncated sound file (C32).
* `harmonic_impulse_response` without a length overwrites the samples of the given impulse response, since it works in place on a view; it ignores the length, if there are not more samples than channels (`harmonic_length > channel_count` instead of `> length`); for odd numbers of samples, the frequencies of the fractional delay are wrong (C55). The minimum frequency of a linear sweep with an interval can be negative (C53).
* `level_vs_time` gives the first and the last sample of its window the weight `remainder` instead of `1 - remainder`, which is wrong for windows, whose length is not an integer number of samples (a signal of ones has the level sqrt(11/5) for an interval of 5/4 samples); without padding and with a window as long as the signal, the correction of the sample in the middle is read from an uninitialised array; a window with an even number of samples, that is nearly twice as long as the signal, is treated as if it covered the whole signal for each sample (C56).
* Tables of one sample or one bin lose the sampling rate or the resolution, empty ones the channels (C31, C52); tables with negative frequencies give wrong samples or a ValueError (C52).
* The short time Fourier transform compensates the remainder of the offset with a group delay, that is (n-1)/(n//2) times too large, since `max_frequency = (window_length - 1) * resolution` is about the sampling rate rather than half of it; signals shorter than the window raise a ValueError even with pad=True; with a window of one sample and pad=True, the inverse transform is empty; surplus channels are dropped silently, if the window has several, but fewer channels (C58).
* The documentation of the reader of text tables for bands filters promises, that lines may have fewer columns, but such a line raises an AttributeError (`zip_longest` gives `None` instead of a match), and that real values are in decibels, but they are not converted; tables with integer frequencies (written as complex numbers, since NumPy's integers are not instances of `int` or `float`) cannot be read; a bands filter without channels is read from an npy file with one channel and cannot be read from an npz file (C60). `abs` of a bands filter is a `Filter` without the method `to_db`, although the documentation of `to_db` recommends `abs(bands).to_db()`; missing labels are padded with the first one, missing flags with the last one (C59).
* A spectrogram without samples (such as `sumpf.Spectrogram()`) is loaded from a JSON file as an object with a two dimensional array of channels (`numpy.empty(shape=(1, 0))`), so that it is not equal to the original and its methods fail; labels that end with NUL characters lose them in npz files, because NumPy's arrays of strings do (C61; the same holds for the npz files of signals, spectrums and bands filters, whose labels the models of C26 and C60 take to be stored as they are).
* The representations of objects of derived classes (`sumpf.ButterworthFilter(...)`, `sumpf.SineWave(...)`, ...) contain the name of the derived class with the parameters of the base class, so that their evaluation raises a TypeError; a file, in which such a filter is stored as representation, cannot be loaded, since the name is not defined there. The documentation of `Filter` says, that only the name `Filter` has to be defined, but bands are written with `array` (C63). The representations of data sets without samples lose their shapes, so that a spectrogram cannot be restored, and numbers, that are not finite, are written as the undefined names `nan` and `inf` (C64).
* The coefficients of the flat top window `HFT169D` are rounded to eight decimal places, so that their alternating sum is 2e-8 instead of zero. The window has jumps at its ends and its side lobes eventually decay with 6 instead of the documented 18 dB per octave; with a jump this small, this is relevant only for very high frequencies. A flat top window with one sample is not 1, if its function divides the sum of the cosines (C65).
* `Window.bandwidth` returns twice the documented frequency. For a rectangular window with two samples, the spectrum is zero at the returned frequency. The bandwidth of a window with one sample is infinite or not a number (C66).
* A noise signal, whose seed is a random number generator, is not reproducible, because the next noise continues where the previous one has stopped (C67).
* `UniformNoise` accepts equal boundaries; then the samples are not smaller than the upper boundary (C67).
* `save` with a JSON format opens the file before it converts the data. For signals and spectrums with samples of single precision (or integers) and for filters with complex constants or coefficients, `json.dump` raises a TypeError after a part of the file has been written: the former contents of the file are lost, and the file cannot be loaded (C68).
* A CSV file, whose end is missing because writing it has been interrupted, is usually loaded without an exception: with fewer samples, with another last sample, if some of its digits are missing, or as the empty signal, if nothing but (a part of) the first row is left (C69).
* Labels with more than 131072 characters can be saved to a CSV file, but the file cannot be loaded; the same holds for labels with NUL characters before Python 3.11 (C69).
* When the saving of a wav file is interrupted, the file can often be loaded: after each block of 2048 samples, the header is updated, so that the samples up to there are loaded without an exception (C70).
* Signals, whose sampling rate, number of channels or length is too large for the header of a wav file, are refused with a `struct.error`; a file with the contents `RIFFRIFF`, or a file with a part of the signal, remains (C70).
* The conversion of the sampling rate for FLAC files is documented to find the nearest supported value, but it converts 65536 Hz to 65540 Hz rather than to 65535 Hz (C71).
* The Parzen window is documented to reach zero at its ends, but its first and last sample are 2/M^3 for the length M (C72).
* Merge is documented to need data sets of the same type, but signals, that come after a spectrum, are merged silently as if they were spectrums (C73).
* A one-channel signal, that is concatenated to a spectrogram, is silently copied to as many frequencies as it has samples (C73).
* With the memory modelled explicitly, `harmonic_impulse_response` without a length is the only modelled method of signals, that changes another signal (C74); slices and reversed signals share their samples with the original one, which the documentation does not mention.
* The first row of a CSV file with a bands filter alone is loaded as a filter, whose channels have no supporting points; the first two rows of a CSV file with a spectrum are loaded as a spectrum with the resolution zero (C69).
* `Bands` keeps references to the dictionaries, with which it is created: if one of them is changed later, `to_db`, `from_db` and `repr` are not those of the filter anymore (C75).
* Unlike the arrays of `Spectrum.magnitude` and `Spectrum.phase`, those of `Spectrum.real` and `Spectrum.imaginary` are views: an assignment to them changes the spectrum (C74).

## Axioms (`Print Assumptions`)
Every theorem in `MANIFEST.json` is followed by `Print Assumptions` in its file.  No axiom is declared in this development;
the following axioms of the standard library appear.

| axiom | where it comes from |
|---|---|
| `ClassicalDedekindReals.sig_forall_dec`, `ClassicalDedekindReals.sig_not_dec` | the definition of the real numbers (Coq.Reals) |
| `FunctionalExtensionality.functional_extensionality_dep` | the real numbers; equality of functions in Coquelicot-free proofs about sums |
| `Classical_Prop.classic` | lemmas of Coq.Reals about trigonometric functions and roots |

Which theorem depends on which of them:

**no axioms (closed under the global context)** (299 theorems): `C01_sanitize_labels`, `C01_signal_labels`, `C02_signal_arithmetic`, `C03_commutative`, `C04_array`, `C04_number`, `C04_unary`, `C05_float_bounds`, `C05_offset_refuted`, `C05_slice_contents`, `C05_slice_times`, `C06_float_index`, `C06_integer_index_partial`, `C06_last_refuted`, `C07_index_float`, `C07_index_integer`, `C07_index_sequence`, `C07_no_termination`, `C08_crop_after_pad`, `C08_pad`, `C08_pad_negative`, `C09_shift_crop`, `C09_shift_cycle`, `C09_shift_cycle_refuted`, `C09_shift_none`, `C09_shift_offset`, `C09_shift_pad`, `C09_shift_pad_negative`, `C09_shift_pad_negative_refuted`, `C10_mirror_time`, `C10_negated_time_refuted`, `C10_reversed`, `C11_equality`, `C11_equivalence`, `C11_hash`, `C12_empty_data_set_refuted`, `C12_merge_filters`, `C12_merge_signals`, `C12_merge_spectrograms`, `C12_merge_spectrums`, `C12_order_is_unique`, `C12_trivial_cases`, `C12_trivial_cases_of_spectrograms_and_filters`, `C13_history_concatenation`, `C13_history_concatenation_of_spectrograms`, `C13_history_empty`, `C13_history_filters`, `C13_history_signals`, `C13_history_spectrograms`, `C13_history_spectrums`, `C13_remove_unknown`, `C13_replace_unknown`, `C14_concatenate`, `C14_concatenate_spectrograms`, `C14_trivial_cases`, `C14_trivial_cases_of_spectrograms`, `C15_commutes`, `C15_full`, `C15_full_contains_all`, `C15_same`, `C15_valid`, `C16_full`, `C16_full_contains_all`, `C16_same`, `C16_valid`, `C17_arrays`, `C17_labels_refuted`, `C17_numbers`, `C17_vectors`, `C21_different_lengths`, `C21_inverse`, `C21_number`, `C21_spectrum_arithmetic`, `C21_unary`, `C22_array`, `C22_number`, `C22_spectrogram_arithmetic`, `C22_unary`, `C22_with_signal`, `C22_with_spectrum`, `C22_with_spectrum_lengths`, `C23_difference_partial`, `C23_divided_by_number_partial`, `C23_equal`, `C23_equal_bands_refuted`, `C23_incompatible`, `C23_minus_number_partial`, `C23_plus_number_partial`, `C23_product_partial`, `C23_quotient_partial`, `C23_sum_partial`, `C23_symmetry_refuted`, `C23_times_number_partial`, `C23_unary_operators_partial`, `C23_zero_hz_refuted`, `C24_difference_partial`, `C24_difference_refuted`, `C24_primitive`, `C24_product_partial`, `C24_quotient_partial`, `C24_sum_partial`, `C24_unary_partial`, `C25_difference_refuted`, `C25_transform_partial`, `C25_twice_partial`, `C25_value`, `C26_difference_refuted`, `C26_equal_refuted`, `C26_round_trip_partial`, `C27_support_points`, `C31_csv`, `C31_csv_contents`, `C31_dictionary`, `C31_empty_refuted`, `C31_npy`, `C31_npy_contents`, `C31_one_sample_refuted`, `C31_read`, `C31_rounding`, `C32_any_file`, `C32_copy`, `C32_full_scale_refuted`, `C32_memory`, `C32_read`, `C32_round_trip`, `C32_writable`, `C32_write_fails`, `C32_written`, `C33_extension`, `C33_extensions`, `C33_load`, `C33_load_history`, `C33_load_readable`, `C33_missing_library_refuted`, `C33_other_formats`, `C33_reader_remembered_refuted`, `C33_same_writer`, `C33_save_auto`, `C33_save_auto_fails`, `C33_save_auto_succeeds`, `C33_save_format`, `C33_signal_formats`, `C33_wav_without_soundfile`, `C34_once_partial`, `C34_once_refuted`, `C34_playing`, `C35_port_names`, `C36_periodic`, `C36_plateau`, `C36_symmetric`, `C37_bins`, `C37_recursion`, `C38_tail_energy`, `C39_sequence`, `C39_short_refuted`, `C40_range`, `C40_range_disjoint_partial`, `C40_range_refuted`, `C40_slopes`, `C41_ordinal`, `C42_equality`, `C42_equivalence`, `C42_hash`, `C42_pad`, `C42_slice`, `C43_equality`, `C43_equivalence`, `C43_hash`, `C43_pad`, `C43_pad_negative`, `C43_shift_crop`, `C43_shift_cycle`, `C43_shift_none`, `C43_shift_offset`, `C43_shift_pad`, `C43_shift_pad_negative`, `C43_slice`, `C44_delay_refuted`, `C44_xruns`, `C45_negative_index_refuted`, `C45_remove_port_partial`, `C46_channels_partial`, `C46_index_partial`, `C46_slice_partial`, `C46_tuple_refuted`, `C46_zero_hz_refuted`, `C47_array_of_frequencies`, `C47_product_with_spectrum`, `C47_spectrum`, `C52_csv`, `C52_csv_contents`, `C52_json`, `C52_json_empty_refuted`, `C52_negative_refuted`, `C52_npy`, `C52_npy_contents`, `C52_one_bin_refuted`, `C52_read_partial`, `C54_constant_signal`, `C54_constant_spectrogram`, `C54_constant_spectrum`, `C59_channels`, `C59_insertion_order`, `C60_csv`, `C60_decibels_refuted`, `C60_fewer_columns_refuted`, `C60_integer_frequencies`, `C60_no_channels_refuted`, `C60_npy`, `C60_npz`, `C60_other_filters`, `C60_text`, `C61_npz`, `C61_npz_labels_refuted`, `C62_signal_times`, `C62_spectrogram_axes`, `C62_spectrum_frequencies`, `C63_bands`, `C63_bands_files`, `C63_derived_classes_refuted`, `C63_files_partial`, `C63_filters_partial`, `C63_only_filter_refuted`, `C64_derived_classes_refuted`, `C64_empty_refuted`, `C64_nonfinite_refuted`, `C64_signals`, `C64_spectrograms`, `C64_spectrums`, `C68_ascii`, `C68_failure`, `C68_filter`, `C68_filter_complex`, `C68_filter_crash`, `C68_round_trip`, `C68_signal`, `C68_signal_crash`, `C68_signal_dtype`, `C68_spectrogram`, `C68_spectrum`, `C68_spectrum_crash`, `C68_steps`, `C68_steps_of_strings`, `C68_surrogates_refuted`, `C68_truncated`, `C69_any_text`, `C69_bands`, `C69_bands_crash`, `C69_bands_crash_refuted`, `C69_bands_rows`, `C69_bands_without_labels`, `C69_format`, `C69_long_cells`, `C69_nul`, `C69_reader`, `C69_round_trip`, `C69_round_trip_refuted`, `C69_signal`, `C69_signal_crash`, `C69_signal_crash_refuted`, `C69_spectrum`, `C69_spectrum_crash`, `C69_truncated`, `C69_unambiguous`, `C70_anything`, `C70_crash`, `C70_failed`, `C70_interrupted_refuted`, `C70_limits_refuted`, `C70_reader`, `C70_round_trip`, `C70_standard`, `C70_truncated`, `C70_writable`, `C70_written`, `C71_flac_refuted`, `C71_loaded`, `C71_round_trip`, `C71_saved`, `C73_concatenate_mixed`, `C73_concatenate_refuted`, `C73_concatenate_same_type`, `C73_merge_refused`, `C73_merge_refuted`, `C73_merge_same_type`, `C74_assignment`, `C74_copies`, `C74_harmonic`, `C74_harmonic_unchanged`, `C74_programs`, `C74_spectrum_copies`, `C74_spectrum_part_assigned`, `C74_spectrum_parts`, `C74_spectrum_programs`, `C74_spectrum_views`, `C74_views`, `C75_current_values`, `C75_representation`, `C75_values`

**`sig_forall_dec`** (1 theorems): `C61_json_empty_refuted`

**`sig_forall_dec`, `functional_extensionality_dep`** (10 theorems): `C28_nearest_unique`, `C38_decreasing`, `C51_amplitude_flatness`, `C51_flat`, `C51_overlap_correlation`, `C51_power_flatness`, `C61_json`, `C61_json_reads`, `C66_compromise_unique`, `C66_recommended_overlap`

**`sig_forall_dec`, `sig_not_dec`, `functional_extensionality_dep`** (54 theorems): `C15_spectrum`, `C15_spectrum_padded`, `C16_spectrum`, `C16_spectrum_padded`, `C17_labels`, `C17_pairing`, `C18_odd_length`, `C18_round_trip`, `C18_spectrum_round_trip`, `C18_transform`, `C19_levels_agree`, `C19_one_sample_refuted`, `C19_signal_level`, `C19_total_level`, `C20_convolve`, `C20_inverse`, `C36_numpy_windows`, `C36_range`, `C48_constant_overlap`, `C48_default_window`, `C48_full_overlap`, `C48_padded`, `C48_short_signal`, `C48_short_signal_refuted`, `C48_unpadded`, `C51_constant_overlap`, `C51_periodic_shape`, `C51_scaling_factor`, `C51_symmetric_shape`, `C58_default_round_trip`, `C58_full_overlap`, `C58_group_delay_refuted`, `C58_offset_remainder`, `C58_round_trip`, `C58_round_trip_unpadded`, `C58_short_signal`, `C58_single_sample`, `C58_surplus_channels`, `C58_transform`, `C66_bandwidth_partial`, `C66_bandwidth_refuted`, `C66_maximum`, `C66_one_sample_refuted`, `C66_scalloping_loss`, `C66_scalloping_range`, `C72_bessel`, `C72_blackman_harris`, `C72_bohman`, `C72_combination`, `C72_kaiser_rectangular`, `C72_landmarks`, `C72_parzen_refuted`, `C72_shape`, `C72_symmetry`

**`sig_forall_dec`, `sig_not_dec`, `classic`, `functional_extensionality_dep`** (98 theorems): `C23_complex_numbers`, `C23_linear_bands`, `C23_product_of_bands_refuted`, `C23_sum_of_bands_refuted`, `C27_bands`, `C27_between`, `C27_constants`, `C27_one_point`, `C27_straight_lines`, `C27_straight_lines_logarithmic`, `C28_stairs_lin`, `C28_stairs_log`, `C28_stairs_log_not_positive`, `C29_butterworth`, `C29_cutoff_0`, `C29_half_power`, `C29_monotonic`, `C29_order_0`, `C30_bessel`, `C30_group_delay`, `C30_half_power_refuted`, `C30_low_frequencies`, `C49_chebyshev1`, `C49_chebyshev2`, `C49_pass_band`, `C49_stop_band`, `C49_without_ripple`, `C50_a_weighting`, `C50_b_weighting`, `C50_c_weighting`, `C50_d_weighting`, `C50_delay`, `C50_delays`, `C50_derivative`, `C50_u_weighting`, `C53_ends`, `C53_equal_frequencies`, `C53_exponential_sweep`, `C53_inverse_exponential_sweep`, `C53_inverse_linear_sweep`, `C53_linear_sweep`, `C53_minimum_frequency_refuted`, `C54_periodic`, `C54_sine_wave`, `C54_square_wave`, `C55_argument_unchanged_refuted`, `C55_cropped_partial`, `C55_harmonic`, `C55_length_refuted`, `C55_linear_length_refuted`, `C55_linear_partial`, `C55_padded`, `C55_rate`, `C56_fraction_refuted`, `C56_half_window_refuted`, `C56_level_vs_time_partial`, `C56_uninitialised_refuted`, `C57_affine`, `C57_affine_shape`, `C57_channels`, `C57_kurtosis_bound`, `C57_level`, `C57_shape`, `C57_single_value`, `C59_from_decibels`, `C59_to_decibels`, `C59_values`, `C62_polar_form`, `C62_spectrogram_views`, `C62_spectrum_views`, `C65_decay_partial`, `C65_decay_refuted`, `C65_decay_unique`, `C65_exponential_levels`, `C65_fast_decay`, `C65_middle_partial`, `C65_one_sample_refuted`, `C65_range`, `C65_shape`, `C65_symmetry`, `C65_terms`, `C66_rectangular`, `C67_affine`, `C67_boundaries_refuted`, `C67_continues`, `C67_distribution`, `C67_generator_refuted`, `C67_history`, `C67_methods`, `C67_prefix`, `C67_range`, `C67_refused`, `C67_reproducible`, `C67_structure`, `C72_falling`, `C72_range`, `C74_harmonic_refuted`, `C75_values_refuted`
