-Q theories Verif
theories/Model/Py.v
theories/Model/Numpy.v
theories/Model/Functions.v
theories/Model/Signal.v
theories/Proofs/PyFacts.v
theories/Proofs/NumpyFacts.v
theories/Spec/TimeSpec.v
theories/Spec/SliceSpec.v
theories/Proofs/SignalAlgebra.v
theories/Proofs/SliceFacts.v
theories/Proofs/SignalShape.v
theories/Proofs/SignalExtra.v
theories/Spec/Demo.v
theories/Proofs/SignalHelpers.v
theories/Properties/SignalProps.v
theories/Model/Spectrum.v
theories/Spec/FrequencySpec.v
theories/Proofs/SpectrumFacts.v
theories/Properties/SpectrumProps.v
theories/Model/Merge.v
theories/Spec/MergeSpec.v
theories/Proofs/MergeOrder.v
theories/Proofs/MergeFacts.v
theories/Proofs/MergeHistory.v
theories/Model/Concatenate.v
theories/Spec/ConcatSpec.v
theories/Proofs/ConcatFacts.v
theories/Properties/MergeProps.v
theories/Model/Cube.v
theories/Model/Spectrogram.v
theories/Spec/SpectrogramSpec.v
theories/Proofs/CubeFacts.v
theories/Proofs/SpectrogramAlgebra.v
theories/Proofs/SpectrogramMixed.v
theories/Proofs/SpectrogramSignal.v
theories/Proofs/SpectrogramFacts.v
theories/Proofs/SpectrogramShape.v
theories/Properties/SpectrogramProps.v
theories/Model/Vector.v
theories/Proofs/VectorFacts.v
theories/Model/Text.v
theories/Spec/TextSpec.v
theories/Proofs/TextFacts.v
theories/Model/Jack.v
theories/Spec/JackSpec.v
theories/Proofs/JackFacts.v
theories/Proofs/JackPorts.v
theories/Properties/JackProps.v
theories/Model/Generators.v
theories/Spec/GeneratorsSpec.v
theories/Spec/RealSpec.v
theories/Proofs/FadeFacts.v
theories/Proofs/SequenceFacts.v
theories/Proofs/EnergyFacts.v
theories/Properties/GeneratorsProps.v
theories/Model/Terms.v
theories/Spec/TermsSpec.v
theories/Proofs/TermFacts.v
theories/Proofs/TermOperators.v
theories/Proofs/TermFuel.v
theories/Model/Interpolation.v
theories/Spec/InterpolationSpec.v
theories/Proofs/InterpolationFacts.v
theories/Properties/InterpolationProps.v
theories/Model/Filter.v
theories/Spec/FilterSpec.v
theories/Spec/ComplexSpec.v
theories/Proofs/FilterFacts.v
theories/Proofs/FilterOperators.v
theories/Proofs/DictionaryFacts.v
theories/Proofs/FilterResults.v
theories/Proofs/FilterSlices.v
theories/Proofs/ComplexFacts.v
theories/Proofs/FilterRefuted.v
theories/Proofs/BandsFacts.v
theories/Proofs/FilterExamples.v
theories/Properties/FilterProps.v
theories/Model/Fft.v
theories/Model/Convolution.v
theories/Spec/ConvolutionSpec.v
theories/Spec/DftSpec.v
theories/Proofs/SumFacts.v
theories/Proofs/ConvolveFacts.v
theories/Proofs/PlacedFacts.v
theories/Proofs/MethodFacts.v
theories/Proofs/DftFacts.v
theories/Proofs/CircularFacts.v
theories/Proofs/SpectrumModes.v
theories/Proofs/SignalConvolve.v
theories/Properties/ConvolutionProps.v
theories/Model/Fourier.v
theories/Spec/FourierSpec.v
theories/Proofs/FourierFacts.v
theories/Proofs/RoundTripFacts.v
theories/Proofs/FourierResults.v
theories/Proofs/LevelFacts.v
theories/Proofs/InvertFacts.v
theories/Proofs/FourierCases.v
theories/Properties/FourierProps.v
theories/Model/Rolloff.v
theories/Model/Weighting.v
theories/Spec/RolloffSpec.v
theories/Spec/WeightingSpec.v
theories/Proofs/RootsFacts.v
theories/Proofs/RolloffFacts.v
theories/Proofs/ButterworthFacts.v
theories/Proofs/BesselFacts.v
theories/Proofs/GroupDelayFacts.v
theories/Proofs/ChebyshevFacts.v
theories/Proofs/Chebyshev1Facts.v
theories/Proofs/Chebyshev2Facts.v
theories/Proofs/RippleFacts.v
theories/Proofs/RolloffResults.v
theories/Proofs/WeightingFacts.v
theories/Proofs/WeightingResults.v
theories/Proofs/DelayFacts.v
theories/Properties/RolloffProps.v
theories/Spec/BlockSpec.v
theories/Proofs/BlockRanges.v
theories/Proofs/BlockFacts.v
theories/Proofs/BlockScaling.v
theories/Proofs/BlockResults.v
theories/Proofs/BlockCases.v
theories/Properties/BlockProps.v
theories/Model/Windows.v
theories/Spec/WindowSpec.v
theories/Proofs/WindowMeasures.v
theories/Proofs/WindowShapes.v
theories/Proofs/WindowResults.v
theories/Properties/WindowProps.v
theories/Model/Persistence.v
theories/Model/FileFormats.v
theories/Spec/PersistenceSpec.v
theories/Proofs/ExtensionFacts.v
theories/Proofs/ReaderFacts.v
theories/Proofs/ReaderResults.v
theories/Proofs/WriterFacts.v
theories/Proofs/WriterResults.v
theories/Properties/PersistenceProps.v
theories/Model/Pcm.v
theories/Spec/PcmSpec.v
theories/Proofs/InterleaveFacts.v
theories/Proofs/PcmCodes.v
theories/Proofs/PcmWriting.v
theories/Proofs/PcmReading.v
theories/Proofs/PcmResults.v
theories/Properties/PcmProps.v
theories/Model/Tables.v
theories/Spec/TablesSpec.v
theories/Spec/NumeralSpec.v
theories/Proofs/SortFacts.v
theories/Proofs/TableFacts.v
theories/Proofs/TableResults.v
theories/Proofs/TableRounding.v
theories/Proofs/TableSpectrum.v
theories/Properties/TablesProps.v
theories/Model/CubeBlocks.v
theories/Spec/CubeBlocksSpec.v
theories/Proofs/CubeMerge.v
theories/Proofs/CubeConcat.v
theories/Properties/CubeBlockProps.v
theories/Model/Sweeps.v
theories/Spec/SweepSpec.v
theories/Spec/HarmonicSpec.v
theories/Proofs/SweepFacts.v
theories/Proofs/WaveFacts.v
theories/Proofs/HarmonicFacts.v
theories/Proofs/SweepCases.v
theories/Properties/SweepProps.v
theories/Model/Levels.v
theories/Spec/LevelSpec.v
theories/Proofs/CoverageFacts.v
theories/Proofs/LevelTimeFacts.v
theories/Proofs/StatisticFacts.v
theories/Proofs/LevelCases.v
theories/Properties/LevelProps.v
theories/Model/Stft.v
theories/Model/Bands.v
theories/Spec/StftSpec.v
theories/Proofs/StftFacts.v
theories/Proofs/StftResults.v
theories/Proofs/StftCases.v
theories/Properties/StftProps.v
theories/Spec/BandsSpec.v
theories/Proofs/BandsClass.v
theories/Proofs/BandsTables.v
theories/Proofs/BandsFiles.v
theories/Proofs/BandsCases.v
theories/Properties/BandsProps.v
theories/Model/SpectrogramFiles.v
theories/Model/Repr.v
theories/Model/Views.v
theories/Spec/SpectrogramFilesSpec.v
theories/Spec/ViewsSpec.v
theories/Proofs/SpectrogramFilesFacts.v
theories/Proofs/SpectrogramFilesCases.v
theories/Proofs/ViewsFacts.v
theories/Proofs/ViewsCases.v
theories/Properties/SpectrogramFilesProps.v
theories/Properties/ViewsProps.v
theories/Spec/ReprSpec.v
theories/Proofs/ReprParse.v
theories/Proofs/ReprFacts.v
theories/Proofs/ReprResults.v
theories/Proofs/ReprData.v
theories/Proofs/ReprRefute.v
theories/Proofs/ReprCases.v
theories/Properties/ReprProps.v
theories/Model/CosineWindows.v
theories/Spec/CosineWindowSpec.v
theories/Proofs/CosineDecay.v
theories/Proofs/CosineWindowResults.v
theories/Properties/CosineWindowProps.v
theories/Model/WindowSpectra.v
theories/Spec/WindowSpectraSpec.v
theories/Proofs/WindowSpectraFacts.v
theories/Proofs/WindowSpectraResults.v
theories/Proofs/WindowSpectraCases.v
theories/Properties/WindowSpectraProps.v
theories/Model/Noise.v
theories/Spec/NoiseSpec.v
theories/Proofs/NoiseFacts.v
theories/Proofs/NoiseResults.v
theories/Properties/NoiseProps.v
theories/Model/Json.v
theories/Model/JsonFiles.v
theories/Spec/JsonSpec.v
theories/Spec/JsonFilesSpec.v
theories/Proofs/JsonText.v
theories/Proofs/JsonValues.v
theories/Proofs/JsonCrash.v
theories/Proofs/JsonFuel.v
theories/Proofs/JsonFilesFacts.v
theories/Proofs/JsonExamples.v
theories/Properties/JsonProps.v
theories/Model/Csv.v
theories/Model/CsvFiles.v
theories/Spec/CsvSpec.v
theories/Spec/CsvFilesSpec.v
theories/Proofs/CsvText.v
theories/Proofs/CsvReading.v
theories/Proofs/CsvFilesFacts.v
theories/Proofs/CsvBands.v
theories/Proofs/CsvCrash.v
theories/Proofs/CsvExamples.v
theories/Proofs/CsvResults.v
theories/Properties/CsvProps.v
theories/Model/Riff.v
theories/Spec/RiffSpec.v
theories/Proofs/RiffBytes.v
theories/Proofs/RiffWriting.v
theories/Proofs/RiffSaving.v
theories/Proofs/RiffReading.v
theories/Proofs/RiffData.v
theories/Proofs/RiffOpening.v
theories/Proofs/RiffResults.v
theories/Proofs/RiffAnything.v
theories/Proofs/RiffCases.v
theories/Properties/RiffProps.v
theories/Model/Soundfile.v
theories/Spec/SoundfileSpec.v
theories/Proofs/SoundfileRates.v
theories/Proofs/SoundfileData.v
theories/Proofs/SoundfileCases.v
theories/Properties/SoundfileProps.v
theories/Model/FurtherWindows.v
theories/Spec/FurtherWindowSpec.v
theories/Proofs/BesselSeries.v
theories/Proofs/FurtherWindowResults.v
theories/Proofs/FurtherWindowShapes.v
theories/Proofs/FurtherWindowSignals.v
theories/Properties/FurtherWindowProps.v
theories/Model/MixedBlocks.v
theories/Spec/MixedSpec.v
theories/Proofs/MixedMerge.v
theories/Proofs/MixedConcatenate.v
theories/Proofs/MixedCases.v
theories/Properties/MixedProps.v
theories/Model/Memory.v
theories/Spec/MemorySpec.v
theories/Proofs/MemoryFacts.v
theories/Proofs/MemoryWrites.v
theories/Proofs/MemoryCases.v
theories/Properties/MemoryProps.v
theories/Spec/CsvCrashSpec.v
theories/Proofs/CsvPlainBands.v
theories/Proofs/BandsCrash.v
theories/Proofs/SpectrumCrash.v
theories/Proofs/SpectrumCrashCase.v
theories/Model/SpectrumMemory.v
theories/Spec/SpectrumMemorySpec.v
theories/Proofs/SpectrumMemoryFacts.v
theories/Spec/CsvRowsSpec.v
theories/Proofs/CsvRows.v
theories/Model/BandsSharing.v
theories/Spec/BandsSharingSpec.v
theories/Proofs/BandsSharingFacts.v
theories/Proofs/BandsSharingRepr.v
theories/Proofs/BandsSharingCase.v
theories/Properties/BandsSharingProps.v
theories/Model/SpectrumParts.v
theories/Proofs/SpectrumPartsFacts.v
