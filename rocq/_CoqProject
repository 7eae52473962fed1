-Q theories Verif

theories/SumOrder.v
theories/Num.v
theories/XR.v
theories/Spec.v
theories/XRFacts.v
theories/Engine.v
theories/TimeModel.v
theories/Cpx.v
theories/SpectralModel.v
theories/WaveModel.v
theories/DisperModel.v
theories/DecompModel.v
theories/SpectrumModel.v
theories/SeriesModel.v
theories/EngineProps.v
theories/TimeSpec.v
theories/TimeProps.v
theories/TimeProps2.v
theories/TimeProps3.v
theories/WHProps.v
theories/PlotProps.v
theories/SeriesProps.v
theories/AxisProps.v
theories/WHStats.v
theories/WaveSym.v
theories/DFT.v
theories/FourierSpec.v
theories/FourierFacts.v
theories/FourierProps.v
theories/RSum.v
theories/AvgProps.v
theories/DensityProps.v
theories/BandProps.v
theories/SynthProps.v
theories/SeriesProps2.v
theories/SimpsonFacts.v
theories/MomentProps.v
theories/PeakProps.v
theories/ParamProps.v
theories/JonswapProps.v
theories/BGProps.v
theories/BGGamma.v
theories/HistProps.v
theories/TanhFacts.v
theories/ExpBounds.v
theories/DisperStart.v
theories/DisperStep.v
theories/DisperProps.v
theories/DisperRefute.v
theories/DecompSpec.v
theories/DecompProps.v
theories/DecompClaims.v
theories/DecompChecks.v
theories/SpecSym.v
theories/CutoffProps.v
theories/RoundNum.v
theories/RoundProps.v
theories/RoundWave.v
theories/GetterProps.v
theories/JonswapShape.v
theories/UnitProps.v
theories/DecompSym.v
theories/DecompClassic.v
theories/HeightProps.v
theories/GapProps.v
theories/DtypeModel.v
theories/DtypeProps.v
theories/RegularProps.v
theories/TimeUnit.v
theories/SynthObj.v
theories/AttrProps.v
theories/ReflectProps.v
theories/NormProps.v
theories/RoundSpec.v
theories/RoundChain.v
theories/PlotModel.v
theories/PlotText.v
theories/RoundPeriod.v
theories/RoundAccuracy.v
theories/RoundDisper.v
theories/CheckProps.v
theories/GapSpectrum.v
theories/HeapModel.v
theories/HeapFacts.v
theories/HeapProps.v
theories/HeapDecomp.v
theories/HeapSpec.v
theories/HeapClaims.v
theories/HeapObj.v
theories/HeapObjSpec.v
theories/HeapHist.v
theories/HeapObjProps.v
theories/RecordProps.v
theories/BandSplit.v
theories/DecompNoise.v
theories/RoundMix.v
theories/RoundJonswap.v
theories/RoundStats.v
theories/RoundRecord.v
theories/RoundFFT.v
theories/RoundTrip.v
theories/RoundSynth.v
theories/RoundAverage.v
theories/RoundLimits.v
theories/NumFloat.v
theories/Conformance.v
