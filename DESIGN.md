# Design of the formal model of Deltares wave-toolbox

## 1. What is modelled, and how numbers are treated

The library is a set of numeric functions on numpy arrays plus three small stateful classes
(`WaveHeights`, `Series`, `Spectrum`).  The model is a shallow Gallina transcription, function by
function and branch by branch, with Python exceptions as values (`res A = Ok a | Raise e`) and
methods as state transformers (`object -> object * res result`).

* **Numbers.** All model code is polymorphic in a record `Num` of number operations
  (`theories/Num.v`).  Three instances are used:
  * `NX` - *ideal floats* `xr = Fin r | PInf | NInf | NaN` with `r : R`: exact real arithmetic on
    finite values together with the IEEE-754 rules for inf and NaN (x/0 = inf, 0/0 = NaN,
    sqrt(-1) = NaN, comparisons with NaN are false, ...).  **All theorems except C60-C62, C77 and C79-C81 are about this
    instance** (or about every `Num`).  Not modelled: rounding, overflow, signed zero.
  * `NB` - the same carrier, every operation rounded to the nearest binary64 number, ties to even
    (Flocq's FLT format with 53 bits and gradual underflow; `RoundNum.v`).  Not modelled: overflow and
    signed zero.  The theorems C60-C62, C77 and C79-C81 run the same model code at this instance.
    `np.sum` and `np.mean` add up in any fixed order: `NB` takes a summation (`SumOrder.v`: for every length a binary
    tree whose leaves are the positions, each once), every theorem at `NB` is quantified over it, and numpy's pairwise
    summation is shown to be one (`numpy_order`; `NF` runs with it).
    exp, ln, tanh, cos, sin and pow come from an arbitrary elementary-function library `libm`, a parameter of NB
    that every rounding theorem quantifies over; asked of it: exp, tanh and pow within 4 ulp, exp in [0,1] for x <= 0,
    tanh = 1 from 22 on, pow not negative and, for a negative exponent, not increasing in the base, results
    representable (nothing of ln, cos, sin). Two instances are built (`rounded_libm`, `chopped_libm`). C81 uses
    exp, tanh and pow; C77, C79 and C80 use pow for integer powers: `array ** m` is reciprocal, ones, copy and square
    for m = -1, 0, 1, 2 (numpy's fast paths) and pow otherwise, `scalar ** m` is always pow.
  * `NF` - Coq's primitive binary64 floats.  Used only to *run* the model on the data of the
    repository's own unit tests (`theories/Conformance.v`); these are tests, not proofs, and no
    property theorem depends on them.
* **Arrays.** `arr A` = shape + row-major data; `arraylike` = scalar or array.  Everything the code
  does with shapes (flattening of (n,1), 1-D checks, `size == 0`) is modelled.  Arrays whose number
  of dimensions is neither 1 nor 2 and that slip through the library's guards end in the explicit
  outcome `Raise Unmodelled`; no theorem claims anything about them.
* **External code** (numpy, scipy) is modelled by its documented mathematical contract:
  * `np.fft.fft/ifft` = the DFT sums; `scipy.signal.hilbert` = the DFT construction of the analytic signal;
  * `np.polyfit(.,.,2)` on three distinct points = the interpolating parabola;
  * `scipy.integrate.simpson` = the composite rule of scipy >= 1.11 incl. the Cartwright end correction;
  * `np.argsort` = *any* function returning an ascending arrangement (ties unspecified; theorems
    quantify over it, contract `is_argsort` in `TimeSpec.v`);
  * `np.random` = an arbitrary generator (state, seed, rand), universally quantified;
  * `scipy.signal.welch` = an arbitrary function, universally quantified;
  * `scipy.special.gamma/gammainc`, `scipy.stats.exponweib.ppf` = arbitrary functions in the model;
    `C40_converges` and its companions instantiate them with the true functions (contract stated with
    Coquelicot integrals in `BGGamma.v`); `scipy.stats.rayleigh.ppf` = its closed form;
  * the `while` loop of the Battjes-Groenendijk function runs on fuel (`OutOfFuel` is a separate
    outcome); the theorems state for which inputs some fuel suffices, or that none does.

## 2. Trusted base

* Coq 8.16.1's kernel (and `coqchk` in `vcheck`), and the standard library.
* The axioms `Print Assumptions` lists.  Every property theorem is closed under (a subset of)
  the axioms of the standard library of real numbers:
  `ClassicalDedekindReals.sig_forall_dec`, `ClassicalDedekindReals.sig_not_dec`,
  `FunctionalExtensionality.functional_extensionality_dep`, and, for the theorems that use
  Coquelicot or classical case analysis, `Classical_Prop.classic` (section 7 has the table).
  Coquelicot and Flocq are used as libraries of definitions and lemmas; they add no axioms of their own.
  The primitive-float and primitive-int constants that `vcheck` lists among the "axioms" come from
  `NumFloat.v`/`Conformance.v` (and libraries loaded by `lra`/`interval`-free tactics); no property
  theorem depends on them.
* No axioms, admits, disabled kernel checks, functors or module types of our own.
* The adequacy of the hand-written model with respect to the Python source: every definition cites
  the file and lines it models; `Conformance.v` runs the model against the expectations of the
  repository's tests.
* The contracts of numpy/scipy listed above.

## 3. Plan and proof method per property

| id | modelled | proof |
|----|----------|-------|
| C01 | `convert_to_array_type`, `convert_to_vector`, `_size`, `is1darray`, guard in each function | case analysis on shapes; refutation for the unconverted density of `spectrum2timeseries` |
| C02 | `monotonic_increasing_constant_step` | iff-characterisation; `_refuted` witness for "only constant step" |
| C03 | `approx_array_index` (argmin) | induction on the array |
| C04 C05 | `sort_wave_params`, parametric in argsort | permutation reasoning for every argsort meeting its contract |
| C06-C09 | `determine_zero_crossing` | fold invariant: result = map of the filtered index list; then real arithmetic; alternation by induction, refuted for signals with exact zeros |
| C10 C11 | `highest_waves_params`, `exceedance_wave_height` | prefix-mean lemmas on sorted lists |
| C12 C13 | `determine_params_individual_waves` and the pipeline | index-window lemmas on increasing axes |
| C14 C15 C50 C51 | `WaveHeights` as state machine | invariant over op lists (multiset of waves); C15 refuted by a tie witness |
| C16-C19 C52 C53 | `Series` as state machine, statistics, analytic signal | composition of the above; algebra; DFT symmetry |
| C20-C23 | `time2freq`, `time2freq_nyquist`, `unfold_spectrum`, `freq2time` | DFT orthogonality over R (`DFT.v`) |
| C24-C27 | `frequency_averaging`, `compute_spectrum_*`, `coherence` | sums over blocks; Parseval; Cauchy-Schwarz |
| C28 C29 | `applybandfilter`, `bandpassfilter` | mask characterisation; upper edge deviates; DFT of a Hermitian mask |
| C30 C54 | `spectrum2timeseries` | closed form of the inverse DFT of the constructed coefficients; DFT of a sum of cosines |
| C31 | Welch wrapper, `get_spectrum` | case analysis (scipy's welch itself is a parameter) |
| C32-C36 | `compute_moment`, `compute_spectrum_params`, `compute_tps` | quadrature weights are positive; Cauchy-Schwarz; Coquelicot integral for the tail; parabola algebra; refutations for the edge maxima |
| C37 C38 | `create_spectrum_jonswap`, `..._piersonmoskowitz`, object variants | linearity of the moment + normalisation; calculus for the peak |
| C39 | `tpd` | weighted mean bound |
| C40 | `compute_BattjesGroenendijk_...` | loop invariant; for the true gamma functions a monotonicity argument gives termination for every 0 < tolerance < 1 |
| C41 C42 | `Spectrum` as state machine with optional cached attributes | invariant over op lists; C42 describes the caching that makes getters ignore their arguments |
| C43-C45 | `disper` | C43 exact outcome (UnboundLocalError); C44 structure; C45 relative error <= 1e-14 from verified enclosures of exp/tanh and a Newton-like contraction argument, and refutation of the documented 2.5e-16 |
| C46-C49 | `decompose_linear_ZS`, `..._series` | 2x2 normal equations over C; DFT round trip; exact characterisation of the assertions |
| C56 C57 | `WaveHeights`, wave-by-wave pipeline | inequalities on sorted lists; uniqueness of the specified crossings/waves transported along the symmetry |
| C58 | `compute_spectrum_time_series` on accepted axes | closed form of the density as block means of the periodogram; symmetries of the DFT |
| C59 | `_determine_individual_waves` with a cut-off | low-pass part via C28; composition with C12/C13; counterexample on 6 samples |
| C63 C64 | `Spectrum.__init__`, the getters, `compute_moment` | moments of C32/C33 substituted in the getters; Simpson sums split at an even offset by induction over panels; counterexamples on 4 frequencies |
| C65 | `create_spectrum_jonswap`, the object constructors | sign of the logarithmic derivative on either side of fp, both branches of sigma; nearest grid neighbours of fp bracket the discrete maximum |
| C66 | `compute_moment`, `compute_spectrum_params`, `compute_tps` | Simpson panels, tail and parabola fit are homogeneous in the abscissa; uniqueness of the smoothed peak (C35) transports Tps |
| C67 | `decompose_linear_ZS` | closed form of the model (proved for C46) plus invariance of the gauge sums; a real signal is determined by half its Fourier coefficients |
| C68 | `decompose_linear_ZS` | the papers' formulas stated as a specification; 2x2 solve evaluated for two and three gauges by field arithmetic |
| C69 | `Series.get_spectrum_raw` followed by `get_Hm0`, `get_Tp`, `get_Tm01`, `get_Tm02`, `get_Tmm10` | closed form of the Simpson weights on a uniform axis by induction over the panels; Parseval per bin (C25) |
| C70 | `determine_zero_crossing`, `determine_params_individual_waves`, `Series`, `compute_spectrum_time_series` on records with NaN | the loop invariants of C06/C12 redone over present samples: every wave window starts at a finite sample, so Python's max/min skip the gaps; NaN absorption for the statistics and the transform |
| C71 | the functions that behave differently on integer arrays, repeated with a dtype flag (`DtypeModel.v`), equal to the main model when the flag is off | case analysis along the code for the moments; block means with truncation for the averaging; refutation of variance conservation by a four-band density |
| C72 | `determine_zero_crossing`, `determine_params_individual_waves`, `WaveHeights` on samples of a sine | sign changes of the samples = zeros of the sine (increment below pi), consecutive numbering by induction over the crossings, concavity of the sine for the interpolation error, nearest sample to the crest for the height |
| C73 | `determine_zero_crossing`, `determine_params_individual_waves`, `compute_spectrum_time_series`, `Series`, `get_spectrum_raw`, `get_Hm0`, `get_Tmm10`, `get_Tm01`, `get_Tm02` on a record and on its copy in another unit | transport of each wave along the scaling (unique first maximum / minimum), closed form of the averaged periodogram, closed form of the moments; refutations of the invariance of the axis checks by almost uniform axes |
| C74 | `Spectrum.create_series`, `spectrum2timeseries_object`, `Series.get_bandpassfilter`, `Series.get_spectrum_raw` as objects | getters keep the arrays (C41), random-phase sum (C30), Parseval for the synthesised record, coefficient-wise filter (C29), constructor on uniform axes (C16) |
| C75 | all thirteen getters of `Spectrum` and the attributes they write | frame lemma per combinator (bind, hasattr test, setter), case analysis over the getters, induction over the history |
| C76 | `Series`, `decompose_linear_ZS_series`, `get_spectrum_raw`, `get_Hm0` in a chain | C49 (objects = core), C46 (exact recovery), C58 (densities), linearity of the moments |
| C77 | `Series`, `compute_spectrum_*`, `frequency_averaging`, `compute_moment`, `get_Hm0` at the rounding instance NB | sign of each Simpson panel and of Cartwright's correction under rounding; relative error of the averaged axis; monotone rounding |
| C78 | `Spectrum.plot`, `Series.plot`, `plot_hist_waveheight` (data of the lines and bars), `__str__`, `__repr__`, `D`/`nf`/`spec` (PlotModel.v) | stored attributes (C75), crossings (C07), permutation of the waves (C14); each value lies in exactly one bin; decimal numerals of the standard library |
| C79 | all Spectrum getters at `NB` (binary64) | invariant on the stored attributes over any history of calls; non-negativity of Simpson sums (C77) extended to infinite and NaN limits; comparisons do not round, so get_Tp rounds once |
| C80 | compute_moment and the moment getters at `NX` and at `NB` on the same data | forward error analysis: a calculus of k-rounding relations through panels, Cartwright's correction and the running sum; the subtracted term is at most a tenth of the rest; size bounds by linearity exclude underflow |
| C81 | disper at `NB` | error analysis: the computed correction solves the computed quadratic to 2.2e-8 of its constant term in either branch, so a pass maps a relative error e to 0.74 e^3 + 4.2e-8 e + 9u; in deep water a pass returns w^2 h/g exactly (Sterbenz); the start is within 1.001 percent |
| C82 | the checks at the head of each function | unfolding; the axis check by C02 |
| C83 | compute_moment, getters, compute_tps on a density of extended reals | NaN propagates through each Simpson panel and through Cartwright's end correction (induction over the panels); Python's max skips NaN unless it comes first |
| C84 | the same functions on an explicit memory (HeapModel.v): buffers, arrays as views, assignments to elements and slices | each step only appends buffers or writes to appended ones; loop invariants tie the partly filled arrays to prefixes of the value model's results |
| C85 | the three classes on the explicit memory of C84 (HeapObj.v): an object is a record of references | simulation of each method by the value model, then an invariant over event lists that separates the caller's buffers from the object's own |
| C86 | determine_zero_crossing and determine_params_individual_waves on uniform axes, Series.__init__ | the list of crossing pairs of the parts / the refined / the reversed record is computed from that of the record, and each wave by transporting first maximum and minimum over the window |
| C87 | bandpassfilter | per Fourier coefficient: which frequencies each band passes (C28, C29), then injectivity of the transform and Parseval for the energies |
| C88 | decompose_linear_ZS | the normal equations (C46) bound the fitted amplitudes by the measured ones; the determinant test bounds the smallest eigenvalue of the normal matrix; Parseval sums over the frequencies; C46_linear carries the bound to errors |
| C89 | create_spectrum_jonswap, create_spectrum_object_jonswap, create_spectrum_piersonmoskowitz, get_Hm0 at NB | each density bounded above and, near the peak, below; a mixed relative/absolute error calculus (RoundMix) carries the densities that underflow through Simpson; the scaling factor is computed from the same rule, so the two Simpson errors are the only large terms; below fp/5 the exponent is under -770 and the whole array is 0, then 0 * inf |
| C90 | the crossing analysis, Series construction and the wave-height statistics, at NX and NB side by side | the crossing indices depend on signs only, so they agree; the interpolated time is off by at most 8 steps/2^53 plus its own rounding, so the samples in every window, hence crests and troughs, agree; heights are rounded once, rounding is monotone so the sorted order is kept; mean and root by the error bounds of C61 |
| C91 | the chain Series -> get_spectrum_raw -> get_Hm0 at NX and NB side by side | every bin of df*S is 2|X|^2/n^2 up to 10 rounding units; Parseval turns the 2-norm accuracy of X into a bound on the sum of all bin errors; Simpson's weights are between 5/12 and 3/2 of the step, so the moment inherits it, and Hm0 half of it; the direct sums by a term-by-term error analysis |
| C92 | the chain Series -> get_spectrum_raw -> get_Hm0 for x, y and x + y | the squared triangle inequality as `c <= (1+l)a + (1+1/l)b` for every l > 0, which is linear and so passes through block means and Simpson sums of non-negative densities; noise bound from C69 |
| C93 | time2freq, freq2time, bandpassfilter at NB | term-by-term error of the DFT sums (C91), the same for the inverse sums with inexact coefficients; the pass band of the computed axis is that of the exact axis when no limit is within rounding of a frequency; C28 / C29 give both sides the same kept bins |
| C94 | spectrum2timeseries, spectrum2timeseries_object at NB | np.arange as numpy computes it (first difference, then multiples of it) with error bounds by magnitude; the frequency count by scaling with the duration; sign of the rounded interpolation formula: g = fl(ya-yb), fl(fl(g/D) X) <= ya from either a bounded ratio of densities or exact differences (Sterbenz); closure of finite numbers under the inverse transform; the two deviations by evaluating single roundings (significand and exponent) |
| C95 | frequency_averaging, coherence at NB | the rounding of the quotient (the difference to its floor is exact by Sterbenz), floor(n/r) below the next whole number by a gap of 1/r, relative errors composed from rounded sums in any order; the product x conj(y) by absolute errors against |x||y| (Cauchy-Schwarz on the parts), then root, averages, floors, quotient by relative errors; two deviations by evaluating single roundings. np.abs of a complex number is modelled as the rounded root of the rounded sum of rounded squares (numpy uses hypot, which is at least as accurate) |
| C96 | approx_array_index, compute_moment at NB | the rounded distances are within one relative rounding (plus 2^-1073) of the exact ones, so their minimum is nearly the exact minimum; when it is clearly unique both arithmetics slice the same frequencies and the accuracy of one Simpson integral (C80) applies; the tail C/e (f_hi^e - f_last^e) by relative errors for C/e and absolute errors against f_last^e for the difference, so its error is small against the tail up to infinity |
| C60 C61 C62 | axis check, wave selection, zero crossings and wave windows at the rounded instance `NB` | monotone rounding, relative and half-ulp error bounds (Flocq); counterexamples with explicit mantissas |
| C55 | `plot_exceedance_waveheight_Rayleigh` (the plotted data) | state-machine lemmas of C14 |

Every theorem is named after its property (`Cxx_...`).  A theorem whose name ends in `_refuted` proves
the *negation* of the documented/undeviating claim; the corresponding deviation is part of the
property's statement in `properties.jsonl`, so those properties are stated (and proved) as what the code
really does.  `Cxx_witness` examples show that the hypotheses of the theorems beside them are met by
concrete non-trivial cases.

## 4. Specification vocabulary

`Spec.v` (real lists, mean, variance, increasing, axis, floor), `TimeSpec.v` (crossings, argsort
contract, call histories), `FourierSpec.v` (Fourier coefficients, Hermitian, energy), `DecompSpec.v`
(plane waves, least squares), `HeapSpec.v` (memory, untouched arrays, new arrays), and small definitions directly above the theorems that use them.  They use
only standard-library notions, not the model's helpers.

## 5. Files

| file | content |
|------|---------|
| `Num.v` `XR.v` `XRFacts.v` | number record, ideal floats, list/array primitives of numpy, and their lemmas |
| `Engine.v` `TimeModel.v` `Cpx.v` `SpectralModel.v` `WaveModel.v` `DisperModel.v` `DecompModel.v` `SpectrumModel.v` `SeriesModel.v` | **the model**, one file per source file |
| `Spec.v` `TimeSpec.v` `FourierSpec.v` `DecompSpec.v` | specification vocabulary |
| `EngineProps.v` | C01-C03 |
| `TimeProps.v` `TimeProps2.v` `TimeProps3.v` | C04-C13 |
| `WHProps.v` `WHStats.v` `PlotProps.v` | C14 C15 C50 C51 C55 C56 |
| `WaveSym.v` | C57 |
| `SpecSym.v` | C58 |
| `CutoffProps.v` | C59 |
| `GetterProps.v` | C63, C64 |
| `JonswapShape.v` | C65 |
| `UnitProps.v` | C66 |
| `DecompSym.v` | C67 |
| `DecompClassic.v` | C68, with the published formulas as specification |
| `HeightProps.v` | C69 |
| `GapProps.v` | C70 |
| `DtypeModel.v` `DtypeProps.v` | C71 |
| `RegularProps.v` | C72 |
| `TimeUnit.v` | C73 |
| `SynthObj.v` | C74 |
| `AttrProps.v` | C75 |
| `ReflectProps.v` | C76 |
| `RoundSpec.v`, `RoundChain.v` | C77 |
| `PlotModel.v` | model of the plotted data, histogram, text representations, directional argument |
| `PlotText.v` | C78 |
| `RoundPeriod.v` | C79 |
| `RoundAccuracy.v` | C80 |
| `RoundDisper.v` | C81 |
| `CheckProps.v` | C82 |
| `GapSpectrum.v` | C83 |
| `HeapModel.v` | the in-place functions on an explicit memory |
| `HeapSpec.v` | vocabulary of C84, C85 |
| `HeapFacts.v`, `HeapProps.v`, `HeapDecomp.v` | lemmas for C84 |
| `HeapClaims.v` | C84 |
| `HeapObj.v` | the classes and the functions that make objects, on the explicit memory |
| `HeapObjSpec.v` | events (write, call) and how the value of an object follows them |
| `HeapHist.v` | lemmas for C85 |
| `HeapObjProps.v` | C85 |
| `RecordProps.v` | C86 |
| `BandSplit.v` | C87 |
| `SumOrder.v` | orders of summation; numpy's pairwise summation is one |
| `DecompNoise.v` | C88 |
| `RoundMix.v` | C80 for any non-negative densities |
| `RoundJonswap.v` | C89 |
| `RoundStats.v` | C90 |
| `RoundRecord.v`, `RoundFFT.v` | C91 |
| `NormProps.v` | C92 |
| `RoundTrip.v` | C93 |
| `RoundSynth.v` | C94 |
| `RoundAverage.v` | C95 |
| `RoundLimits.v` | C96 |
| `RoundNum.v` | the instance `NB` and facts about rounding |
| `RoundProps.v` | C60, C61 |
| `RoundWave.v` | C62 |
| `SeriesProps.v` `SeriesProps2.v` | C16-C19, C31 C52 C53 |
| `AxisProps.v` | C13 and C16 on axes that are not uniform |
| `DFT.v` `FourierFacts.v` `FourierProps.v` | C20-C23 |
| `RSum.v` `AvgProps.v` `DensityProps.v` `BandProps.v` `SynthProps.v` | C24-C30, C54 |
| `SimpsonFacts.v` `MomentProps.v` `PeakProps.v` `ParamProps.v` `JonswapProps.v` | C32-C39 |
| `BGProps.v` `BGGamma.v` | C40 |
| `HistProps.v` | C41 C42 |
| `TanhFacts.v` `ExpBounds.v` `DisperStart.v` `DisperStep.v` `DisperProps.v` `DisperRefute.v` | C43-C45 |
| `DecompProps.v` `DecompClaims.v` `DecompChecks.v` | C46-C49 |
| `NumFloat.v` `Conformance.v` | binary64 instance and test runs |

## 6. What is not modelled

* Rounding (except in C60-C62, C77 and C79-C81, for every order of summation), overflow, signed zero; integer dtypes except in C71 (elsewhere an integer array behaves as its real values),
  complex density arrays in `frequency_averaging`.
* matplotlib drawing (axes, ticks, axis labels, saving); the *data* handed to the plots is modelled
  (plt.hist by its contract: ten equal bins of finite values).  Warnings (no-ops).
* Aliasing is modelled in HeapModel.v (C84): every subscript assignment of the toolbox is there, on an
  explicit memory; and in HeapObj.v (C85) for the three classes and the functions that make objects.
  The other files treat arrays and objects as values, which C84 and C85 justify.  In the histories of
  C85 the caller writes to arrays it had when it made the object (not to arrays it got back from it).
* 0-d and >= 3-d arrays, ragged nested lists; whether a result is a Python float, a numpy scalar or a
  one-element array (`compute_tps`).
* The internals of numpy/scipy beyond the contracts of section 1.

## 7. Print Assumptions

Result of `Print Assumptions` for every `Cxx_` theorem and witness.  Abbreviations: F = `ClassicalDedekindReals.sig_forall_dec`,
N = `ClassicalDedekindReals.sig_not_dec`, C = `Classical_Prop.classic`, E = `FunctionalExtensionality.functional_extensionality_dep`
(all four from Coq's standard library).

| axioms | number | theorems |
|---|---|---|
| C E F N | 468 | all the others |
| E F | 48 | C02_witness, C06_witness, C07_witness, C08_witness, C10_witness, C11_witness, C12_witness, C13_witness, C15_witness, C16_regular_witness, C17_witness, C18_witness, C19_witness, C20_witness, C21_witness, C22_witness, C24_witness, C25_witness, C26_witness, C28_witness, C29_witness, C30_witness, C31_witness, C32_crossed_witness, C32_witness, C33_witness, C35_witness, C36_peak_unique, C36_witness, C37_witness, C38_witness, C39_witness, C47_weight_range_refuted, C47_witness, C52_witness, C54_witness, C58_witness, C59_witness, C60_witness, C61_witness, C64_witness, C65_witness, C67_witness, C70_witness, C71_witness, C73_witness, C74_witness, C87_witness |
| none (closed under the global context) | 24 | C01_convert_to_vector, C01_matrix_untouched, C03_empty, C84_applybandfilter, C84_bandpassfilter, C84_caller_reads_the_same, C84_convert_to_vector, C84_create_spectrum_jonswap, C84_decompose_linear_ZS, C84_disper, C84_freq2time, C84_individual_waves, C84_time2freq_nyquist, C84_unfold_spectrum, C85_bandpass_shares_the_time, C85_decomposition_shares_the_time, C85_determine_returns_the_objects_arrays, C85_jonswap_object, C85_series_history, C85_series_made, C85_spectrum_history, C85_spectrum_made, C85_waves_history, C85_writes_leave_the_waves |
| E F N | 4 | C27_witness, C66_witness, C69_witness, C72_witness |
| F | 2 | C03_witness, C16_non_finite_witness |

## 8. Deviations from the documented behaviour found by the proofs

| property | finding | theorem |
|----------|---------|---------|
| C01 | `spectrum2timeseries` fails on an (n,1) density column | `C01_column_density_refuted` |
| C02 | missing absolute value: axes with shrinking steps are accepted | `C02_nonuniform_rejected_refuted` |
| C05 C18 | the "no waves, return" branches are unreachable: a series without waves raises | `C05_no_waves_refuted`, `C18_no_waves_zero_refuted` |
| C09 | a signal touching zero can have two successive up-crossings | `C09_alternate_refuted` |
| C10 | the mean of the highest waves jumps from 0 to its maximum as p grows | `C10_non_increasing_at_zero_refuted` |
| C15 | asking twice for Ts can give two answers (unstable re-sorting on ties) | `C15_Ts_refuted` |
| C16 | a time axis that is not increasing can be accepted (variance compared with mean) | `C16_non_increasing_rejected_refuted` |
| C16 | an increasing axis that passes the check can make Series(t, x) raise IndexError (crossing times are interpolated with the first step) | `C16_increasing_accepted_refuted` |
| C23 | a complex Nyquist coefficient is conjugated by unfolding | `C23_nyquist_kept_refuted` |
| C24 | unequal lengths not rejected by `frequency_averaging` | `C24_length_check_refuted` |
| C25 | for even lengths the spectrum carries the Nyquist energy twice | `C25_even_variance_refuted` |
| C27 | `coherence` ignores phases | `C27_phase_blind` |
| C28 | the band filter drops the last frequency below `fhigh` | `C28_pass_band_refuted` |
| C32 C34 | shrinking-step axes give negative moments; f = 0 can break Tm01 <= Tm-1,0; a narrow band can raise | `C32_nonneg_accepted_axis_refuted`, `C34_ordering_with_zero_refuted`, `C34_narrow_band_refuted` |
| C33 | order 4 with infinite fmax is NaN | `C33_order_four` |
| C36 | edge maxima can give negative periods; axis is not validated | `C36_positive_refuted`, `C36_axis_check_refuted` |
| C39 | TpD is NaN for a one-point peak | `C39_between_refuted` |
| C40 | tolerance >= 9 is an UnboundLocalError; negative tolerance never ends | `C40_large_tolerance_error`, `C40_negative_tolerance_diverges` |
| C42 | steepness getters ignore their limits once cached | `C42_arguments_ignored_refuted` |
| C43 | deep and shallow branches of `disper` always raise | `C43_deep_water_refuted`, `C43_shallow_water_refuted` |
| C45 | documented accuracy 2.5e-16 false; no accuracy for w^2h/g < 1e-8 | `C45_documented_accuracy_refuted`, `C45_low_frequency_refuted` |
| C47 | weights outside (0,1] pass the check | `C47_weight_range_refuted` |
| C48 | the mean is lost in the decomposition | `C48_mean_lost_refuted` |
| C49 | missing gauges are silently zero signals | `C49_too_few_rejected_refuted` |
| C59 | with a cut-off the trough of a wave can be positive | `C59_trough_negative_refuted` |
| C64 | energy below and above a cut-off does not add up for an odd number of steps, nor for a cut-off beyond the axis | `C64_odd_split_refuted`, `C64_beyond_axis_refuted` |
| C69 | Hm0 of a recorded signal is 4 standard deviations; the period of a sine comes back from every period getter | Simpson's weights alternate 4/3, 2/3 over the bins: Hm0 of a line in one bin is off by +15% or -18% (between the proved bounds for every record); Tmm10, which drops the f = 0 bin and so shifts the weights by one, returns half or twice the period (a quarter in the first bin) |
| C71 | integer frequency axes (e.g. `f = np.arange(10)`) make `compute_spectrum_params`, `get_Tmm10` and the JONSWAP generators raise `ValueError: Integers to negative integer powers are not allowed`; integer densities are truncated by `frequency_averaging` |
| C60 | uniform Unix-time axes are rejected (absolute tolerance below the resolution of binary64) | `C60_unix_time_rejected_refuted` |
| C61 | the highest 29 % of 100 waves are 28 waves in binary64 | `C61_decimal_fraction_refuted` |
| C62 | rounding can give a wave height 0 | `C62_positive_height_refuted` |
| C51 C55 | plotted probabilities are not exceedance fractions; two scales in one plot | `C51_plotted_probability_refuted`, `C55_common_scale_refuted` |
| C94 | a synthesised record stops at tEnd | np.arange can go one step further: from 1 to 2 in steps of 0.2 there are 7 samples, the last at 2.2 s |
| C94 | a non-negative spectrum gives a record of numbers | if a frequency of the synthesis lies just below a zero of the density, np.interp can return a negative density (-2.2e-16) and its square root makes every sample nan: f = [0.29, 1], S = [1.5, 0], create_series(0, 5.5, 0.5) |
| C95 | a coherence is at most 1 | in double precision it can be 1.0000000000000002: amplitudes 1+1j and 1, no averaging |
| C95 | dfDesired rounds to the nearest number of bands | the quotient is rounded before it is rounded to a whole number: a step of 0.1 and dfDesired 0.75 join 8 bands, while 0.75 divided by the double 0.1 is below 7.5 |
| C96 | approx_array_index returns the nearest entry | the distances are rounded first: for [0, 2^-60] and 1 both are 1, and the first entry is returned although the second is nearer |

## 9. Mutation testing

`seeded/LOG.jsonl` has one line per seeded bug: the definition, the edit, the claim it breaks, the
theorems that failed and the theorems that were tightened because they did not.
