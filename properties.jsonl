{"id": "C01", "title": "Array input normalisation", "statement": "A scalar, a flat vector of n values and an (n,1) column holding the same n >= 1 values are interchangeable inputs: convert_to_vector turns all of them into the same flat vector, never changes, drops or reorders a value, and reports n as the first dimension; every spectral and wave function and the Series and Spectrum constructors give the same result for all three. A 2-D array with two or more columns is left alone and every function that checks the dimensions of its input (compute_moment, compute_spectrum_params, compute_tps, the two create_spectrum functions, frequency_averaging, time2freq, time2freq_nyquist, unfold_spectrum, freq2time, compute_spectrum_time_series, compute_spectrum_freq_series, bandpassfilter) rejects it with ValueError. Exception found: spectrum2timeseries does not convert its density argument and fails on an (n,1) column.", "quantifier": "every scalar, vector, column and 2-D array of every size", "why_tests_cant": "a test sees a handful of shapes; the claim is about every shape and length and about every public function sharing the guard", "anchors": ["deltares_wave_toolbox/cores/core_engine.py:convert_to_array_type", "deltares_wave_toolbox/cores/core_engine.py:convert_to_vector", "deltares_wave_toolbox/cores/core_engine.py:_size", "deltares_wave_toolbox/cores/core_engine.py:is1darray"]}
{"id": "C02", "title": "Uniform-axis validation", "statement": "monotonic_increasing_constant_step accepts an axis of two or more finite points exactly when it is strictly increasing and no step exceeds the first step by 1e6*eps or more; so it accepts every uniform increasing axis, rejects every axis that is not strictly increasing or contains a non-finite value, and fails with IndexError on fewer than two points. Deviation found: because there is no absolute value, axes with shrinking steps are accepted although the step is not constant.", "quantifier": "all axes of length >= 2", "why_tests_cant": "accept/reject must be right for every axis; tests only use arange-style axes, on which the missing absolute value is invisible", "anchors": ["deltares_wave_toolbox/cores/core_engine.py:monotonic_increasing_constant_step"]}
{"id": "C03", "title": "Nearest-index lookup", "statement": "approx_array_index returns a valid index whose entry is at minimal distance to the requested value, the first such index on ties; it fails exactly on an empty array.", "quantifier": "all arrays and all requested values", "why_tests_cant": "minimality ranges over all entries of all arrays", "anchors": ["deltares_wave_toolbox/cores/core_engine.py:approx_array_index"]}
{"id": "C04", "title": "Wave sorting", "statement": "sort_wave_params returns wave heights in descending order, and the returned (height, period) pairs are exactly the input pairs, re-ordered: no wave lost, duplicated or re-paired - whatever tie order argsort picks.", "quantifier": "all wave lists of equal non-zero length, all tie-breaking choices of the sort", "why_tests_cant": "permutation + pairing must hold for all lists, including ties whose order numpy does not specify", "anchors": ["deltares_wave_toolbox/cores/core_time.py:sort_wave_params"]}
{"id": "C05", "title": "Sorting input validation and the no-wave case", "statement": "sort_wave_params raises ValueError when heights or periods are not 1-D, when lengths differ, and also for zero waves - deviating from the code comment 'if there are no waves, return', whose branch is unreachable.", "quantifier": "all array inputs", "why_tests_cant": "the error/no-error boundary must be right for every shape, including the empty arrays that the library itself produces", "anchors": ["deltares_wave_toolbox/cores/core_time.py:sort_wave_params", "deltares_wave_toolbox/cores/core_engine.py:is1darray"]}
{"id": "C06", "title": "Zero-crossing completeness and count", "statement": "determine_zero_crossing finds exactly one crossing for every consecutive sample pair that goes from >=0 to <0 (down) or from <=0 to >0 (up), in time order, and no others; the number of waves is the number of crossings minus one, and zero when there are no crossings; typeCross is case-insensitive and anything other than up/down is a ValueError.", "quantifier": "all signals of length >= 2 (including NaN samples), both directions, all strings", "why_tests_cant": "which index pairs count is a statement about all signals; off-by-one at the ends is only visible for particular signals", "anchors": ["deltares_wave_toolbox/cores/core_time.py:determine_zero_crossing", "deltares_wave_toolbox/series.py:Series.get_crossing"]}
{"id": "C07", "title": "Zero-crossing time", "statement": "On a uniform increasing axis each crossing time lies inside its sampling interval [t_i, t_{i+1}), is the zero of the straight line through the two samples, and the crossing times are strictly increasing.", "quantifier": "all uniform axes and all finite signals", "why_tests_cant": "interval containment and order must hold for all real sample values", "anchors": ["deltares_wave_toolbox/cores/core_time.py:determine_zero_crossing"]}
{"id": "C08", "title": "Zero-crossing invariances", "statement": "Down-crossings of a signal are the up-crossings of its negative; multiplying the signal by a positive factor leaves all crossing times unchanged; shifting the time axis shifts them by the same amount.", "quantifier": "all signals, factors and shifts", "why_tests_cant": "relational property over pairs of runs", "anchors": ["deltares_wave_toolbox/cores/core_time.py:determine_zero_crossing"]}
{"id": "C09", "title": "Up- and down-crossings alternate", "statement": "Between two successive crossings of one kind there is exactly one crossing of the other kind, provided no sample recorded after the first and up to the second crossing is exactly zero; for every signal there is at least one exactly when a sample in between has strictly the other sign. Without the proviso alternation is false: a signal that touches zero can have two successive up-crossings.", "quantifier": "all signals", "why_tests_cant": "alternation is a global property of the crossing sequence; it fails only for signals touching zero exactly, which random tests never produce", "anchors": ["deltares_wave_toolbox/cores/core_time.py:determine_zero_crossing"]}
{"id": "C10", "title": "Highest-fraction means", "statement": "highest_waves_params returns the mean height and mean period of the floor(n*p) highest waves ((0,0) if that is zero waves); if at least one wave is selected the height result lies between the smallest and largest wave, is never below the mean of all waves, and does not increase when p grows (it does jump up from 0 when the first wave gets selected); p outside [0,1] or NaN, unsorted heights or unequal lengths raise ValueError.", "quantifier": "all sorted wave lists and all p", "why_tests_cant": "monotonicity and bounds range over all lists and fractions", "anchors": ["deltares_wave_toolbox/cores/core_time.py:highest_waves_params", "deltares_wave_toolbox/series.py:WaveHeights.highest_waves", "deltares_wave_toolbox/series.py:WaveHeights.get_Hs"]}
{"id": "C11", "title": "Exceedance wave height", "statement": "exceedance_wave_height(h,p) returns the floor(n*p/100)-th highest wave, hence one of the observed wave heights such that at least floor(n*p/100) waves are at least that high and at most p percent of the waves are strictly higher; 0 if n*p/100 < 1; otherwise it does not increase with p; p outside [0,100] or NaN, or unsorted heights raise ValueError.", "quantifier": "all sorted wave lists and percentages", "why_tests_cant": "rank statement for all lists incl. ties", "anchors": ["deltares_wave_toolbox/cores/core_time.py:exceedance_wave_height", "deltares_wave_toolbox/series.py:WaveHeights.get_exceedance_waveheight"]}
{"id": "C12", "title": "Individual wave parameters", "statement": "For each wave between successive crossings: the period is the difference of the crossing times (periods add up to the total span), crest/trough are the maximum/minimum of the samples whose time lies in the closed wave interval, attained first at tCrest/tTrough inside that interval, and height = crest - trough.", "quantifier": "all increasing axes, signals and crossing lists inside the axis", "why_tests_cant": "per-wave extremum over arbitrary windows", "anchors": ["deltares_wave_toolbox/cores/core_time.py:determine_params_individual_waves"]}
{"id": "C13", "title": "Wave-by-wave analysis never fails and yields genuine waves", "statement": "Feeding the crossings found by determine_zero_crossing into determine_params_individual_waves never raises, gives exactly nWave waves, and for down-crossings each wave has trough < 0 <= crest, height > 0 and period > 0 (for up-crossings trough <= 0 < crest). On any increasing axis on which no two neighbouring steps are together shorter than the first step the analysis does not fail either; heights and periods are then at least 0.", "quantifier": "all uniform axes and finite signals; all increasing axes with regular steps", "why_tests_cant": "end-to-end claim over all signals, including index arithmetic that could raise", "anchors": ["deltares_wave_toolbox/cores/core_time.py:determine_zero_crossing", "deltares_wave_toolbox/cores/core_time.py:determine_params_individual_waves", "deltares_wave_toolbox/series.py:Series._determine_individual_waves"]}
{"id": "C14", "title": "WaveHeights answers: values, and independence of call history", "statement": "After any sequence of method calls (sort, Hs, Hrms, Hmax, highest_waves, exceedance) a WaveHeights object still holds the same multiset of (height, period) pairs and the same nwave, and Hs, H_p, Hmax, Hrms and exceedance heights are the same as on a fresh object. The values are: Hrms the root of the mean square height, Hmax the largest height, Hs the mean of the floor(n/3) highest, H_p the mean of the floor(n p) highest, the exceedance height for p percent the floor(n p/100)-th highest (0 when that number is 0).", "quantifier": "all wave lists and all method-call sequences", "why_tests_cant": "ranges over unbounded call histories of a mutating object", "anchors": ["deltares_wave_toolbox/series.py:WaveHeights"]}
{"id": "C15", "title": "Ts does not depend on call history", "statement": "The period returned by get_Hs / highest_waves is the same after any call history whenever the set of the floor(n*p) highest waves is determined, i.e. the lowest selected wave is strictly higher than the highest unselected one (in particular for pairwise different heights). When equal heights straddle the boundary it is not: asking twice for Ts can give two different answers, because each call re-sorts the object in place.", "quantifier": "all wave lists and all method-call sequences", "why_tests_cant": "only equal wave heights straddling the 1/3 boundary expose re-ordering by repeated sorting", "anchors": ["deltares_wave_toolbox/series.py:WaveHeights.get_Hs", "deltares_wave_toolbox/series.py:WaveHeights.highest_waves", "deltares_wave_toolbox/cores/core_time.py:sort_wave_params"]}
{"id": "C16", "title": "Series construction", "statement": "Series(t,x) raises AssertionError when lengths differ, when there are fewer than two samples, when any time is NaN or infinite, when the variance of the time steps is not below 1% of their mean, and so whenever the axis does not advance from first to last sample; it accepts every uniform increasing axis, every axis within e of a uniform one of step dt (e <= dt/8, 2200 e^2 <= dt), and every increasing axis that passes the check and on which no two neighbouring steps are together shorter than the first step; dt is then the mean step (the step of a uniform axis), nt the length, and the stored waves and crossing times are exactly those of the down-crossing analysis of x. Deviation found: the check compares a variance with a mean, so some axes that are not increasing are accepted. Deviation found: an increasing axis that passes the check can still make the construction raise IndexError, because crossing times are interpolated with the first step.", "quantifier": "all axes and signals", "why_tests_cant": "construction composes validation, crossing detection and filtering for all inputs", "anchors": ["deltares_wave_toolbox/series.py:Series.__init__"]}
{"id": "C17", "title": "minimum_wave filter", "statement": "_determine_individual_waves(minimum_wave=m) keeps exactly the waves with height >= m, in order and with their own period; the stored hwave/twave/nwave agree; m=0 keeps every wave. The stored crossing times are the start times of the kept waves followed by the last crossing.", "quantifier": "all signals and thresholds", "why_tests_cant": "index deletion applied to several arrays at once must stay aligned for all index sets", "anchors": ["deltares_wave_toolbox/series.py:Series._determine_individual_waves"]}
{"id": "C18", "title": "Series without waves", "statement": "A Series on a uniform axis whose signal has at most one down-crossing can be constructed and reports zero waves, but get_Hs, highest_waves, get_exceedance_waveheight, get_H2p_Rayleigh and get_Hmax raise ValueError and get_Hrms is NaN - deviating from the code comment 'if there are no waves, return' (a result of 0).", "quantifier": "all signals with fewer than two down-crossings", "why_tests_cant": "needs all wave-free signals; the early-return branch looks reachable but is not", "anchors": ["deltares_wave_toolbox/series.py:WaveHeights", "deltares_wave_toolbox/cores/core_time.py:sort_wave_params", "deltares_wave_toolbox/cores/core_time.py:highest_waves_params"]}
{"id": "C19", "title": "Signal statistics", "statement": "Series.mean/var/max/min/get_skewness: min and max are the extreme samples, mean and var the mean and population variance, min <= mean <= max, var >= 0; mean and var transform affinely; skewness is the third central moment over var^(3/2) (NaN for a constant signal), is unchanged by adding a constant or scaling by a positive factor and changes sign when the signal is mirrored.", "quantifier": "all finite signals", "why_tests_cant": "algebraic laws over all signals", "anchors": ["deltares_wave_toolbox/series.py:Series.get_skewness", "deltares_wave_toolbox/series.py:Series.max", "deltares_wave_toolbox/series.py:Series.min", "deltares_wave_toolbox/series.py:Series.mean", "deltares_wave_toolbox/series.py:Series.var"]}
{"id": "C20", "title": "Frequency axis of the transforms", "statement": "time2freq returns nT frequencies k/(nT*dt) and the nT discrete Fourier sums; time2freq_nyquist returns the first floor(nT/2)+1 of both, and isOdd is true exactly when nT is odd; unequal lengths, 2-D input (C01) and rejected axes give ValueError - in these and in compute_spectrum_time_series and bandpassfilter.", "quantifier": "all uniform axes and signals", "why_tests_cant": "lengths/parity for all nT", "anchors": ["deltares_wave_toolbox/cores/core_spectral.py:time2freq", "deltares_wave_toolbox/cores/core_spectral.py:time2freq_nyquist", "deltares_wave_toolbox/series.py:Series.get_fourier_comp"]}
{"id": "C21", "title": "Fourier round trip", "statement": "freq2time(time2freq(t,x)) = x for every real signal; time2freq(freq2time(X)) = X for every Hermitian X; time2freq is linear.", "quantifier": "all lengths and signals", "why_tests_cant": "the inverse relation is over all vectors of all lengths", "anchors": ["deltares_wave_toolbox/cores/core_spectral.py:time2freq", "deltares_wave_toolbox/cores/core_spectral.py:freq2time"]}
{"id": "C22", "title": "Folded Fourier round trip", "statement": "freq2time(unfold_spectrum(time2freq_nyquist(t,x))) = x for every real signal, even or odd length, and the unfolded frequency axis equals that of time2freq.", "quantifier": "all lengths and signals", "why_tests_cant": "index reflection must be right for all lengths and both parities", "anchors": ["deltares_wave_toolbox/cores/core_spectral.py:time2freq_nyquist", "deltares_wave_toolbox/cores/core_spectral.py:unfold_spectrum", "deltares_wave_toolbox/cores/core_spectral.py:freq2time"]}
{"id": "C23", "title": "Unfolding gives a Hermitian spectrum", "statement": "unfold_spectrum of nF >= 2 folded coefficients returns n = 2(nF-1)+isOdd coefficients on the axis k*df; it keeps the given coefficients below the last one, and the last one too for odd length; for even length the last (Nyquist) coefficient is replaced by its conjugate; all others satisfy X[n-k] = conj X[k]. (So a complex Nyquist coefficient is not kept.)", "quantifier": "all coefficient vectors, both parities", "why_tests_cant": "index arithmetic over all sizes", "anchors": ["deltares_wave_toolbox/cores/core_spectral.py:unfold_spectrum"]}
{"id": "C24", "title": "Band averaging", "statement": "frequency_averaging of axis and density of equal length with factor r=max(round(df/df0),1) returns floor(n/r) points; each frequency and density is the mean of its own block of r consecutive inputs, so the integrated variance over the covered range is conserved, bounds (non-negativity) are kept, and a uniform axis stays uniform with step r*df0; df=0 is the identity; 2-D input is a ValueError. Deviation found: unequal lengths of axis and density are not rejected.", "quantifier": "all axes, spectra and resolutions", "why_tests_cant": "block arithmetic for all n, r", "anchors": ["deltares_wave_toolbox/cores/core_spectral.py:frequency_averaging"]}
{"id": "C25", "title": "Spectrum carries the signal's variance", "statement": "Integrating the un-averaged variance density spectrum of compute_spectrum_time_series (sum of S*df over f>0) gives exactly the variance of the signal for odd length, and the variance plus the squared Nyquist amplitude (which is counted twice) for even length; the bin at f=0 holds twice the squared mean. So for even length the spectrum can carry more than the variance.", "quantifier": "all signals and lengths", "why_tests_cant": "Parseval identity over all signals", "anchors": ["deltares_wave_toolbox/cores/core_spectral.py:compute_spectrum_time_series", "deltares_wave_toolbox/series.py:Series.get_spectrum_raw"]}
{"id": "C26", "title": "Spectra are non-negative and the two spectrum routes agree", "statement": "compute_spectrum_time_series never returns a negative density, and compute_spectrum_freq_series applied to the folded Fourier coefficients of a signal gives exactly the same spectrum.", "quantifier": "all signals, lengths, resolutions", "why_tests_cant": "relational statement over two routes", "anchors": ["deltares_wave_toolbox/cores/core_spectral.py:compute_spectrum_time_series", "deltares_wave_toolbox/cores/core_spectral.py:compute_spectrum_freq_series"]}
{"id": "C27", "title": "Coherence range", "statement": "coherence returns values between 0 and 1, is symmetric in its two signals, and without band averaging is exactly 1 wherever both signals carry energy (|X|^2, |Y|^2 >= 1e-10). Finding: it depends on the amplitudes only, not on the phases, so it is not a phase coherence.", "quantifier": "all coefficient vectors and resolutions", "why_tests_cant": "Cauchy-Schwarz bound over all complex vectors", "anchors": ["deltares_wave_toolbox/cores/core_spectral.py:coherence"]}
{"id": "C28", "title": "Band filter pass band", "statement": "applybandfilter on an increasing axis sets to zero every coefficient outside its pass band and leaves the others unchanged; coefficient k passes exactly when k >= 1, flow <= f_k, flow lies below the last frequency and either fhigh is at least the last frequency or f_{k+1} exists and lies below fhigh. So, deviating from the documented band flow <= f < fhigh, the highest frequency below an inner fhigh and the zero frequency are removed; a NaN lower limit is an IndexError.", "quantifier": "all uniform axes, coefficient vectors and limits", "why_tests_cant": "the band edges are off by one only for limits strictly inside the axis", "anchors": ["deltares_wave_toolbox/cores/core_spectral.py:applybandfilter"]}
{"id": "C29", "title": "Band-pass filtering of signals", "statement": "bandpassfilter returns a real signal of the input's length, is linear, idempotent, returns a zero-mean signal, and never increases the energy (sum of squares).", "quantifier": "all signals, lengths and limits", "why_tests_cant": "all signals/limits, both parities", "anchors": ["deltares_wave_toolbox/cores/core_spectral.py:bandpassfilter", "deltares_wave_toolbox/series.py:Series.get_bandpassfilter"]}
{"id": "C30", "title": "Random-phase synthesis", "statement": "spectrum2timeseries returns a time axis starting at tInit with step dt whose length n is ceil((tEnd-tInit)/dt + 1), and a signal that is the sum of m = ceil(n/2) cosines at the multiples of df = 1/(2 m dt), with amplitudes sqrt(2 S df) (the last, Nyquist, component half of that), S interpolated linearly (zero outside the given axis), and the drawn phases; with 0 <= seed <= 4294967295 the result does not depend on the previous generator state; lengths that differ, windows without samples and densities given as an (n,1) array are errors.", "quantifier": "all spectra, time windows, seeds and generator states", "why_tests_cant": "all random phases and generator histories", "anchors": ["deltares_wave_toolbox/cores/core_spectral.py:spectrum2timeseries", "deltares_wave_toolbox/cores/core_spectral.py:spectrum2timeseries_object", "deltares_wave_toolbox/spectrum.py:Spectrum.create_series"]}
{"id": "C31", "title": "Welch wrapper defaults", "statement": "compute_spectrum_welch_wrapper passes segment, overlap and FFT length through unchanged, treating 0 as 'not set', with sampling frequency 1/dt; get_spectrum derives segment length round(1/(dt*df)) and half overlap when use_dfDesired.", "quantifier": "all argument values", "why_tests_cant": "argument mapping over all values; scipy itself is outside", "anchors": ["deltares_wave_toolbox/cores/core_spectral.py:compute_spectrum_welch_wrapper", "deltares_wave_toolbox/series.py:Series.get_spectrum"]}
{"id": "C32", "title": "Spectral moments", "statement": "compute_moment integrates f^m*S by Simpson's rule over the grid points nearest to the limits (default limits: the whole axis; for negative m a zero frequency is left out): it is linear in S, exact for constant/linear/quadratic integrands, equals the composite 1-4-1 rule on an odd number of points, and is finite and non-negative for non-negative S on a uniform grid. Limits in the wrong order with no grid point between them are a ValueError. Finding: on an accepted axis with shrinking steps the moment of a non-negative spectrum can be negative.", "quantifier": "all uniform grids, spectra and orders", "why_tests_cant": "linearity/exactness/sign over all vectors, both parities of the number of points", "anchors": ["deltares_wave_toolbox/cores/core_wavefunctions.py:compute_moment"]}
{"id": "C33", "title": "High-frequency tail", "statement": "When fmax lies beyond the last frequency, compute_moment adds exactly the integral of f^m * S_end*(f/f_end)^-5 from f_end to fmax; for fmax=inf and m<4 the closed-form limit S_end*f_end^(m+1)/(4-m), which is the limit of the finite-fmax values; for m=4 (where the integral is logarithmic) the result is NaN.", "quantifier": "all grids, spectra, orders, limits", "why_tests_cant": "identity with a real integral for all arguments", "anchors": ["deltares_wave_toolbox/cores/core_wavefunctions.py:compute_moment"]}
{"id": "C34", "title": "Spectral parameters", "statement": "compute_spectrum_params on a band that contains a grid frequency returns, from the moments over that band, Hm0=4*sqrt(m0), Tm-1,0=m-1/m0, Tm01=m0/m1, Tm02=sqrt(m0/m2), Tp and Tps as the getters give them - unless m0<0 or 4*sqrt(m0) < 1e-6, when all six values are NaN; when no grid frequency lies in the band the result, if any, is all NaN (a narrow band between two grid points can also raise). Scaling the spectrum by c scales Hm0 by sqrt(c) and leaves the periods unchanged; Tm02 <= Tm01 for non-negative spectra on uniform axes, and Tm01 <= Tm-1,0 when the axis does not contain f=0 (with f=0 this ordering can fail because m-1 skips that bin).", "quantifier": "all spectra on uniform grids and limits", "why_tests_cant": "inequalities between moments for all non-negative spectra", "anchors": ["deltares_wave_toolbox/cores/core_wavefunctions.py:compute_spectrum_params", "deltares_wave_toolbox/spectrum.py:Spectrum"]}
{"id": "C35", "title": "Peak period", "statement": "get_Tp is the reciprocal of the frequency in the requested band (limits inclusive, default the whole axis, inf allowed) at which the density is maximal over the band, the last one on ties (inf if that frequency is 0); an empty band is an error.", "quantifier": "all spectra and limits", "why_tests_cant": "argmax over all spectra", "anchors": ["deltares_wave_toolbox/cores/core_wavefunctions.py:compute_spectrum_params", "deltares_wave_toolbox/spectrum.py:Spectrum.get_Tp"]}
{"id": "C36", "title": "Smoothed peak period", "statement": "compute_tps returns the reciprocal of the smoothed peak frequency, which is uniquely determined: the vertex of the parabola through the maximum and its two neighbours (for a maximum at an end of the axis: through the interior triple next to it; the grid maximum itself if that fit is not concave); with two adjacent tied maxima their mean, with two tied maxima apart the first, with three or more ties the second. For a single interior maximum on a uniform grid it is within half a grid step of the maximum, positive for positive frequencies, and exact for a sampled parabola; without energy (all < 1e-10) it is -999; get_Tps restricts to the band. Deviations found: a maximum at the edge can give a negative period, and non-uniform axes are not rejected.", "quantifier": "all spectra", "why_tests_cant": "all positions of the maximum incl. both edges", "anchors": ["deltares_wave_toolbox/cores/core_wavefunctions.py:compute_tps", "deltares_wave_toolbox/spectrum.py:Spectrum.get_Tps"]}
{"id": "C37", "title": "JONSWAP carries the requested wave height", "statement": "create_spectrum_jonswap(f,fp,hm0,gamma,l_fmax) with fp > 0 and gamma > 0 is zero for f<=eps and a non-negative multiple of the JONSWAP shape elsewhere, and integrating it over [f0,f_end] (l_fmax=0) or [f0,inf] with the f^-5 tail (l_fmax=1) gives a significant height of exactly |hm0|; for gamma>=1 no frequency carries more density than fp, so Tp = 1/fp if fp is on the axis; other l_fmax and an empty axis are ValueErrors; the object variant stores the same spectrum.", "quantifier": "all uniform grids, fp, hm0, gamma", "why_tests_cant": "normalisation identity and maximum over all parameters", "anchors": ["deltares_wave_toolbox/cores/core_wavefunctions.py:create_spectrum_jonswap", "deltares_wave_toolbox/cores/core_wavefunctions.py:create_spectrum_object_jonswap"]}
{"id": "C38", "title": "Pierson-Moskowitz is JONSWAP with gamma=1", "statement": "create_spectrum_piersonmoskowitz(f,fp,hm0) with its default gammaPeak=1 is proportional to f^-5 exp(-1.25 (fp/f)^4), independent of the peak width, with significant height |hm0|; for every gammaPeak it equals create_spectrum_jonswap with that value.", "quantifier": "all grids and parameters", "why_tests_cant": "function equality over all inputs", "anchors": ["deltares_wave_toolbox/cores/core_wavefunctions.py:create_spectrum_piersonmoskowitz", "deltares_wave_toolbox/cores/core_wavefunctions.py:create_spectrum_object_piersonmoskowitz"]}
{"id": "C39", "title": "TpD lies in the peak band", "statement": "tpd returns m0/m1 over the band spanned by all frequencies whose density is at least 0.64 of the maximum; when that band has at least two grid points 1/TpD lies between the lowest and highest such frequency. Deviation found: when only one frequency reaches 0.64 of the maximum the result is NaN.", "quantifier": "all non-negative spectra on uniform positive grids", "why_tests_cant": "weighted-mean bound over all spectra", "anchors": ["deltares_wave_toolbox/cores/core_wavefunctions.py:tpd"]}
{"id": "C40", "title": "Battjes-Groenendijk distribution", "statement": "For the true (incomplete) gamma functions, positive Hm0, depth, slope and 0<tolerance<1 the iteration always terminates; the returned three-point distribution starts at (0,1), has the transition height (0.35+5.8/cot a)*d in the middle, ends at exceedance 1/N with a height not above the Rayleigh cap, and is built from a composite Weibull curve that is continuous at the transition and whose mean square equals Hrms^2 within the tolerance; deep water (Htr/Hrms > 2.75) returns empty arrays; tolerance >= 9 is an UnboundLocalError and a negative tolerance never terminates.", "quantifier": "all parameters and all iteration counts", "why_tests_cant": "loop with data-dependent number of iterations", "anchors": ["deltares_wave_toolbox/cores/core_wavefunctions.py:compute_BattjesGroenendijk_wave_height_distribution"]}
{"id": "C41", "title": "Spectrum getters are history independent", "statement": "get_Hm0, get_Tp, get_Tps, get_Tmm10, get_Tm01, get_Tm02, and the HF/LF getters when given an explicit cut-off frequency, return the same value whatever was called before; no call changes f or sVarDens.", "quantifier": "all spectra, arguments and call histories", "why_tests_cant": "ranges over unbounded histories of a caching object", "anchors": ["deltares_wave_toolbox/spectrum.py:Spectrum"]}
{"id": "C42", "title": "Steepness and HF/LF getters honour their arguments", "statement": "get_s0p/get_smm10/get_smm10_HF ignore their fmin/fmax once the wave height and period have been cached: they return 2*pi*H/(g*T^2) for the values returned by the last get_Hm0/get_Tps/get_Tmm10(_HF) call, whatever its limits; only on a new object do they use the given limits. HF/LF getters without an explicit cut-off use 0.45/Tm-1,0 of the last get_Tmm10 call (on a new object: of the whole spectrum). So 'the getter returns the value for the arguments it is given' is false after other calls.", "quantifier": "all spectra, arguments and call histories", "why_tests_cant": "stale caches only show after particular call sequences", "anchors": ["deltares_wave_toolbox/spectrum.py:Spectrum.get_s0p", "deltares_wave_toolbox/spectrum.py:Spectrum.get_smm10", "deltares_wave_toolbox/spectrum.py:Spectrum.get_smm10_HF", "deltares_wave_toolbox/spectrum.py:Spectrum.get_Hm0_HF", "deltares_wave_toolbox/spectrum.py:Spectrum.get_Hm0_LF"]}
{"id": "C43", "title": "Deep- and shallow-water dispersion", "statement": "disper with infinite depth or with a negative depth raises UnboundLocalError for every frequency array and every g, although the documentation promises w^2/g and w/sqrt(g d).", "quantifier": "all frequencies and depths", "why_tests_cant": "documented branches never exercised by tests", "anchors": ["deltares_wave_toolbox/cores/core_dispersion.py:disper"]}
{"id": "C44", "title": "Finite-depth dispersion: structure", "statement": "For finite depth h>0 and g>0 disper returns one wave number per frequency, given by one function K with K(0)=0, K(-w)=-K(w), K(w)>0 for w>0, depending on w, h, g only through w^2 h/g (times 1/h); an exact solution of the dispersion relation is a fixed point of the iteration; at zero depth the result is +-inf (0 for w=0).", "quantifier": "all frequencies, depths, g", "why_tests_cant": "oddness/sign over all reals", "anchors": ["deltares_wave_toolbox/cores/core_dispersion.py:disper"]}
{"id": "C45", "title": "Finite-depth dispersion: accuracy", "statement": "For w^2 h/g >= 1e-8 the returned k has relative error at most 1e-14 with respect to the unique solution of w^2 = g k tanh(k h) (in exact arithmetic). The documented 2.5e-16 is false, and for w^2 h/g < 1e-8 the result no longer depends on w, so its relative error is unbounded as w -> 0.", "quantifier": "all frequencies and depths", "why_tests_cant": "accuracy claim for every kh", "anchors": ["deltares_wave_toolbox/cores/core_dispersion.py:disper"]}
{"id": "C46", "title": "Incident/reflected recovery", "statement": "If the gauge signals are the superposition of an incident and a reflected wave (with the wave numbers of the dispersion solver), decompose_linear_ZS returns exactly the incident and reflected parts at the first gauge for every frequency whose weighted sum of sin^2(k (x_i-x_j)) exceeds detLim, and zero at the others, so plane waves are recovered exactly; for arbitrary signals it returns the weighted least-squares fit; the result is linear in the signals, has zero mean and does not depend on the origin of the gauge axis.", "quantifier": "all gauge numbers >=2, spacings, weights, signals, depths", "why_tests_cant": "least-squares recovery for every signal and array", "anchors": ["deltares_wave_toolbox/cores/core_wave_decomposition.py:decompose_linear_ZS"]}
{"id": "C47", "title": "Decomposition input checks", "statement": "decompose_linear_ZS raises AssertionError exactly when the matrix, time, gauge and weight dimensions disagree, there are fewer than two gauges, the positions are not strictly increasing, the weights sum to at most 1, or some weight is <= 0 while some weight is > 1; otherwise, on a good time axis, it succeeds; a bad axis and a non-2-D matrix are ValueErrors. Deviation found: because of an 'or', weights above 1 or below 0 pass the documented (0,1] check.", "quantifier": "all inputs", "why_tests_cant": "accept/reject over all inputs; an 'or' instead of 'and' is invisible to valid inputs", "anchors": ["deltares_wave_toolbox/cores/core_wave_decomposition.py:decompose_linear_ZS"]}
{"id": "C48", "title": "Two gauges: parts add up", "statement": "With two gauges the incident and reflected parts add up to the signal at the first gauge at every frequency that is kept, and to zero at the discarded ones; so they add up to the signal itself exactly when it has no energy at discarded frequencies. The mean is always discarded.", "quantifier": "all two-gauge signals", "why_tests_cant": "all signals/spacings", "anchors": ["deltares_wave_toolbox/cores/core_wave_decomposition.py:decompose_linear_ZS"]}
{"id": "C49", "title": "Series wrapper of the decomposition", "statement": "decompose_linear_ZS_series on equally long series with one series per gauge gives the same signals as decompose_linear_ZS on the stacked matrix. Deviations found: with fewer series than positions the missing gauges are silently taken as zero signals; too many series is an IndexError, no series an UnboundLocalError, a series of another length a ValueError.", "quantifier": "all series lists and positions", "why_tests_cant": "all list lengths", "anchors": ["deltares_wave_toolbox/cores/core_wave_decomposition.py:decompose_linear_ZS_series"]}
{"id": "C50", "title": "2% Rayleigh wave height", "statement": "After any call history get_H2p_Rayleigh returns the height H > Hs that the Rayleigh distribution with the object's Hs exceeds with probability 2%: exp(-2 (H/Hs)^2) = 0.02.", "quantifier": "all wave lists with positive Hs, all call histories", "why_tests_cant": "an identity in real numbers over all lists and histories", "anchors": ["deltares_wave_toolbox/series.py:WaveHeights.get_H2p_Rayleigh"]}
{"id": "C51", "title": "Plotted exceedance probabilities", "statement": "plot_exceedance_waveheight draws all wave heights, sorted from high to low, the i-th (from 0) at probability i/(n-1), for n >= 2 waves. Deviation found: this is not the fraction of waves at least that high; the highest wave is drawn at probability 0.", "quantifier": "all wave lists", "why_tests_cant": "all lists; figures are not inspected by tests", "anchors": ["deltares_wave_toolbox/series.py:WaveHeights.plot_exceedance_waveheight"]}
{"id": "C52", "title": "Wave asymmetry", "statement": "get_asymmetry uses the analytic signal whose real part is the signal itself; the asymmetry is unchanged by adding a constant or scaling by a positive factor, and changes sign when the signal is mirrored or reversed in time.", "quantifier": "all finite non-constant signals of every length", "why_tests_cant": "Hilbert-transform identities over all signals", "anchors": ["deltares_wave_toolbox/series.py:Series.get_asymmetry"]}
{"id": "C53", "title": "Series call histories", "statement": "No method of a Series changes t, x, nt or dt; the crossing and wave analysis, max, min, mean, var, skewness, asymmetry, Fourier transform, spectrum and band-pass of a Series give the same answer after any sequence of method calls; a successful re-analysis puts the object in the same state whatever happened before, and the default re-analysis restores the object exactly as it was constructed.", "quantifier": "all signals on uniform axes and all sequences of method calls", "why_tests_cant": "unbounded call histories of a mutating object", "anchors": ["deltares_wave_toolbox/series.py:Series"]}
{"id": "C54", "title": "Synthesis followed by analysis", "statement": "Applying compute_spectrum_time_series to the output of spectrum2timeseries for an even number n of samples returns, at every frequency 0 < k < n/2 exactly the (interpolated) density that was asked for, whatever the random phases, and the signal has zero mean; at the Nyquist frequency it returns the density times cos^2 of the drawn phase.", "quantifier": "all spectra, time windows and phases", "why_tests_cant": "holds for every draw of the random phases", "anchors": ["deltares_wave_toolbox/cores/core_spectral.py:spectrum2timeseries", "deltares_wave_toolbox/cores/core_spectral.py:compute_spectrum_time_series"]}
{"id": "C55", "title": "Rayleigh-scaled exceedance plot", "statement": "plot_exceedance_waveheight_Rayleigh, after any call history, draws at the j-th x position (which encodes exceedance probability (j+1)/n as sqrt(-ln P)) the j-th highest wave and the height that the Rayleigh distribution with the object's Hs exceeds with probability (j+1)/(n+1), both divided by Hs if normalize; with plot_BG it adds the Battjes-Groenendijk curve on the same scales, and raises ValueError without Hm0. Deviation found: the theoretical curve uses n+1 where the axis uses n, so it is not drawn at its own probability.", "quantifier": "all wave lists with positive Hs, all histories and options", "why_tests_cant": "an identity in real numbers; figures are not inspected by tests", "anchors": ["deltares_wave_toolbox/series.py:WaveHeights.plot_exceedance_waveheight_Rayleigh"]}
{"id": "C56", "title": "Ordering of the wave-height statistics", "statement": "For non-negative wave heights, after any call history: mean height <= Hrms <= Hmax; if at least one wave is selected, mean height <= H_p <= Hmax and 0 <= (height exceeded with probability p) <= H_p; and H_q <= H_p for p <= q.", "quantifier": "all lists of non-negative heights, all fractions, all call histories", "why_tests_cant": "inequalities between statistics over all samples", "anchors": ["deltares_wave_toolbox/series.py:WaveHeights", "deltares_wave_toolbox/cores/core_time.py:highest_waves_params", "deltares_wave_toolbox/cores/core_time.py:exceedance_wave_height"]}
{"id": "C57", "title": "Symmetries of the wave-by-wave analysis", "statement": "Scaling a signal by c > 0 scales every wave height, crest and trough by c and leaves the crossings, periods and crest/trough times unchanged; mirroring the signal turns the down-crossing waves into the up-crossing waves with crest and trough exchanged (up to sign) and the same heights and periods; shifting the time origin shifts the crossing, crest and trough times and nothing else; Hrms, Hmax, H_p and exceedance heights scale with the heights.", "quantifier": "all signals on uniform axes, all positive scale factors, all time shifts", "why_tests_cant": "relational: compares two runs over all signals", "anchors": ["deltares_wave_toolbox/cores/core_time.py:determine_zero_crossing", "deltares_wave_toolbox/cores/core_time.py:determine_params_individual_waves", "deltares_wave_toolbox/series.py:WaveHeights"]}
{"id": "C58", "title": "Value and symmetries of the density spectrum", "statement": "compute_spectrum_time_series returns, for every accepted axis and every desired resolution, the block means over r neighbouring Fourier frequencies k/(n dt) of 2 dt/n |X_k|^2, with r = max(1, round(dfDesired n dt)) (1 for dfDesired = 0). Hence scaling the signal by c scales the density by c^2; adding a constant changes no bin but the first; playing the signal backwards, rotating it cyclically or moving the time origin changes nothing; slowing it down by a factor c divides the frequencies and multiplies the density by c.", "quantifier": "all real signals, accepted axes, resolutions, scale factors, offsets, rotations", "why_tests_cant": "relational statements over all signals", "anchors": ["deltares_wave_toolbox/cores/core_spectral.py:compute_spectrum_time_series", "deltares_wave_toolbox/cores/core_spectral.py:frequency_averaging"]}
{"id": "C59", "title": "Wave analysis with a cut-off frequency", "statement": "_determine_individual_waves with fcutoff <> 0 takes the crossings of the signal minus its part in the pass band of bandpassfilter(0, fcutoff) (the mean stays in) and measures height, crest and trough of each wave on the signal itself, between successive crossings; it never fails on a uniform axis; the minimum_wave filter applies to these waves; a positive cut-off of at most twice the frequency resolution, below the Nyquist frequency, changes nothing. Deviation found: the documented 'aTrough is always smaller than zero' is false with a cut-off.", "quantifier": "all signals on uniform axes, directions, cut-offs, thresholds", "why_tests_cant": "unbounded signals; Fourier filtering composed with wave-by-wave analysis", "anchors": ["deltares_wave_toolbox/series.py:Series._determine_individual_waves"]}
{"id": "C60", "title": "Uniform axes survive rounding", "statement": "monotonic_increasing_constant_step, evaluated in binary64 arithmetic, accepts every axis whose points are within 2^-35 of a uniform axis of step between 2^-30 and 2^16, in particular t0 + i dt as computed in floating point for records within 2^17 s. Deviation found: axes far from zero (Unix time stamps around 2^30 s, step 0.1 s) are rejected although every point is the correctly rounded one.", "quantifier": "all axes, origins, steps, lengths in the stated ranges; every order in which np.sum and np.mean may add up (numpy's pairwise order among them)", "why_tests_cant": "rounding errors of unboundedly many points; the absolute tolerance interacts with the magnitude of the axis", "anchors": ["deltares_wave_toolbox/cores/core_engine.py:monotonic_increasing_constant_step"]}
{"id": "C61", "title": "Selection of the highest waves survives rounding", "statement": "In binary64 arithmetic highest_waves_params with fraction 1/3 averages exactly the floor(n/3) highest of n waves (n <= 2^50), and exceedance_wave_height with a whole percentage p returns exactly the floor(n p/100)-th highest wave (n <= 2^45); the computed H1/3 and T1/3 are within a relative error of (n/3 + 1) 2^-52 of the exact means (for heights and periods of at least 2^-900). Deviation found: with a fraction such as 0.29 one wave too few is averaged (100 * 0.29 < 29 in binary64).", "quantifier": "all numbers of waves up to the bound, all wave heights and periods; every order in which np.sum and np.mean may add up (numpy's pairwise order among them)", "why_tests_cant": "off-by-one errors depend on the rounding of n*p for each n", "anchors": ["deltares_wave_toolbox/cores/core_time.py:highest_waves_params", "deltares_wave_toolbox/cores/core_time.py:exceedance_wave_height", "deltares_wave_toolbox/series.py:WaveHeights.get_Hs"]}
{"id": "C62", "title": "Wave-by-wave analysis survives rounding", "statement": "In binary64 arithmetic, for every signal (samples zero or at least 2^-900 in size) and every axis that is uniform up to an error e <= dt/16 per point (dt >= 2^-90), determine_zero_crossing finds exactly the sign changes, each computed crossing time lies between its two samples up to 8e + dt 2^-48, and determine_params_individual_waves never fails: crest and trough are the extremes of the samples between successive computed crossings, the period is positive and the height not negative. Deviation found: the computed crossing can pass the sample that ends the interval, and a wave can then have height 0 although in exact arithmetic every wave has a positive height.", "quantifier": "all signals of binary64 numbers, all nearly uniform axes, both directions; every order in which np.sum and np.mean may add up (numpy's pairwise order among them)", "why_tests_cant": "rounding of the interpolation for every pair of samples; windows that might be empty", "anchors": ["deltares_wave_toolbox/cores/core_time.py:determine_zero_crossing", "deltares_wave_toolbox/cores/core_time.py:determine_params_individual_waves"]}
{"id": "C63", "title": "Getters return the quantity of their name", "statement": "A Spectrum object is created exactly when the frequency axis is strictly increasing with constant step (up to the tolerance of C02) and axis and density have equal length, otherwise AssertionError. On any such object, after any calls, get_Hm0, get_Tmm10, get_Tm01 and get_Tm02 return 4 sqrt(m0), m-1/m0, m0/m1 and sqrt(m0/m2) of the moments over the requested limits (division by zero and negative moments giving inf or NaN); the LF/HF variants with an explicit cut-off are the same quantities over that band; and all six getters agree with compute_spectrum_params whenever that reports a wave height.", "quantifier": "all frequency axes, densities (of any sign), limits (including the defaults and an infinite upper limit) and object histories", "why_tests_cant": "four getters, two band variants and compute_spectrum_params repeat the same formulas; a copy-paste error shows only for particular spectra and limits", "anchors": ["deltares_wave_toolbox/spectrum.py:Spectrum.__init__", "deltares_wave_toolbox/spectrum.py:Spectrum.get_Hm0", "deltares_wave_toolbox/spectrum.py:Spectrum.get_Tmm10", "deltares_wave_toolbox/spectrum.py:Spectrum.get_Tm01", "deltares_wave_toolbox/spectrum.py:Spectrum.get_Tm02", "deltares_wave_toolbox/spectrum.py:Spectrum.get_Hm0_HF", "deltares_wave_toolbox/spectrum.py:Spectrum.get_Hm0_LF", "deltares_wave_toolbox/cores/core_wavefunctions.py:compute_spectrum_params"]}
{"id": "C64", "title": "Low- and high-frequency energy add up", "statement": "If the cut-off lies on the axis, an even number of steps above the lower limit (measured between the nearest grid points) and not exactly one step below the upper limit, then the moments below and above the cut-off add up to the moment over the whole band, with any finite or infinite upper limit, and Hm0_LF^2 + Hm0_HF^2 = Hm0^2. Deviations found: with an odd number of steps the parts do not add up (Simpson's rule), and with a cut-off beyond the last frequency the extrapolated tail is counted on both sides.", "quantifier": "all frequency axes, densities, orders below 4, limits and cut-offs", "why_tests_cant": "depends on the parity of index distances and on the position of the cut-off relative to the grid; examples hit one parity", "anchors": ["deltares_wave_toolbox/spectrum.py:Spectrum.get_Hm0_LF", "deltares_wave_toolbox/spectrum.py:Spectrum.get_Hm0_HF", "deltares_wave_toolbox/cores/core_wavefunctions.py:compute_moment"]}
{"id": "C65", "title": "JONSWAP spectra have one peak, at fp", "statement": "For every peak-enhancement factor >= 1, the density returned by create_spectrum_jonswap rises strictly with frequency up to fp and falls strictly after it (over frequencies above 2^-52, below which it is zero); when fp lies on the axis the Tp computed from the returned spectrum satisfies |1/Tp - fp| < df; multiplying hm0 by a multiplies every density by a^2; and the Pierson-Moskowitz object constructor stores the axis and the density of create_spectrum_piersonmoskowitz, with get_Hm0 equal to |hm0|.", "quantifier": "all frequency axes, peak frequencies, gamma >= 1, heights and scale factors", "why_tests_cant": "monotonicity on both sides and the distance of the discrete peak range over a continuum of shapes and over all grids", "anchors": ["deltares_wave_toolbox/cores/core_wavefunctions.py:create_spectrum_object_jonswap", "deltares_wave_toolbox/cores/core_wavefunctions.py:create_spectrum_object_piersonmoskowitz", "deltares_wave_toolbox/cores/core_wavefunctions.py:create_spectrum_jonswap", "deltares_wave_toolbox/cores/core_wavefunctions.py:compute_spectrum_params"]}
{"id": "C66", "title": "Parameters do not depend on the frequency unit", "statement": "Expressing a spectrum on c f with density S/c (for example rad/s instead of Hz) leaves Hm0 unchanged and divides Tmm10, Tm01, Tm02, Tp and Tps by c; the moment of order m with limits scaled alike is multiplied by c^(m+1) for an unscaled density.", "quantifier": "all factors c > 0, frequency axes, densities, limits (finite or infinite) and moment orders", "why_tests_cant": "a unit-bearing constant in the extrapolated tail, the limits or the peak smoothing would break the scaling only for particular limits and factors", "anchors": ["deltares_wave_toolbox/cores/core_wavefunctions.py:compute_moment", "deltares_wave_toolbox/cores/core_wavefunctions.py:compute_spectrum_params", "deltares_wave_toolbox/cores/core_wavefunctions.py:compute_tps"]}
{"id": "C67", "title": "Symmetries of the incident/reflected decomposition", "statement": "decompose_linear_ZS: a gauge of weight zero (not the first) has no influence whatever its record; multiplying all weights by c and detLim by c^2 changes nothing; a set-up on length scale c^2 and time scale c (depth, positions, time axis) gives the same signals (Froude similarity); cyclically rotating all records rotates both answers; playing all records backwards returns the two answers swapped and backwards; and listing the gauges from the other end with mirrored positions swaps incident and reflected waves, each carried by its own phase over the array to the other end gauge.", "quantifier": "all accepted inputs, scale factors, rotations and mirror points", "why_tests_cant": "a sign error, a swapped exponent or a dimension-bearing constant in the per-frequency solve keeps simple recovery tests working while breaking these identities for other gauge numbers and weights", "anchors": ["deltares_wave_toolbox/cores/core_wave_decomposition.py:decompose_linear_ZS"]}
{"id": "C68", "title": "Goda-Suzuki and Mansard-Funke are special cases", "statement": "With two gauges and unit weights the amplitudes of the incident and reflected components returned by decompose_linear_ZS are those of Goda and Suzuki (1976) at every frequency with sin^2(k l) > detLim, and zero elsewhere; with three gauges and unit weights the complex amplitudes are those of Mansard and Funke (1980) exactly at the frequencies with |sum of e^(2ikx)|^2 < 9 - 4 detLim (the Auke-Process denominator), and zero elsewhere - as the documentation claims.", "quantifier": "all accepted records of two (three) gauges, positions, depths, detLim >= 0, and frequencies below the Nyquist frequency", "why_tests_cant": "an identity between two families of trigonometric formulas in real parameters", "anchors": ["deltares_wave_toolbox/cores/core_wave_decomposition.py:decompose_linear_ZS"]}
{"id": "C69", "title": "Wave height and periods of a recorded signal", "statement": "A spectral moment over a whole uniform frequency axis is the sum of f^m S df with fixed weights per bin (1/3, 4/3, 2/3, ... with the end correction for an even number of bins, and the bins renumbered after dropping f = 0 for negative m). Hence for every uniformly sampled record of at least four samples, Series(t,x).get_spectrum_raw().get_Hm0()^2 lies between 16(var/3 + 2/3 mean^2) and 16(4/3 var + 2/3 mean^2) - not at the 16 var that Hm0 = 4 sigma means - and for a record holding one sine in bin m, Tp, Tm01 and Tm02 are exactly its period, while Hm0 is 4 sigma times the root of the weight of bin m and Tmm10 is the period times the ratio of two weights (half or twice the period in the middle of the axis).", "quantifier": "all record lengths >= 4, sampling steps, signals, and all sine amplitudes, phases and whole numbers of periods below the Nyquist frequency", "why_tests_cant": "tests use smooth spectra, on which the alternating weights average out; the bin parity effect appears only on line spectra and must be bounded for all signals", "anchors": ["deltares_wave_toolbox/cores/core_wavefunctions.py:compute_moment", "deltares_wave_toolbox/cores/core_wavefunctions.py:compute_spectrum_time_series", "deltares_wave_toolbox/spectrum.py:get_Hm0", "deltares_wave_toolbox/series.py:get_spectrum_raw"]}
{"id": "C70", "title": "Records with gaps (NaN samples)", "statement": "For every uniformly sampled record in which any samples are NaN and the others finite: determine_zero_crossing reports exactly the sign changes between two present neighbouring samples, at the time where the straight line through them is zero; determine_params_individual_waves succeeds, and every wave has a positive height and period with crest and trough the extremes of the samples present between its two crossings, at the first time they occur; Series(t, x) is accepted and stores these waves. Yet one missing sample makes max, min, mean, var, skewness and every value of the spectrum NaN.", "quantifier": "all record lengths, sampling steps, positions and numbers of gaps, and sample values", "why_tests_cant": "the result of Python's max/min and of comparisons with NaN depends on where the NaN stands in each wave; gaps can stand anywhere", "anchors": ["deltares_wave_toolbox/cores/core_time.py:determine_zero_crossing", "deltares_wave_toolbox/cores/core_time.py:determine_params_individual_waves", "deltares_wave_toolbox/series.py:Series", "deltares_wave_toolbox/cores/core_spectral.py:compute_spectrum_time_series"]}
{"id": "C71", "title": "Integer arrays", "statement": "On a frequency axis of integer dtype compute_moment raises ValueError for every negative order, returns exactly the value of the same axis in floats for a non-negative order as long as the upper limit does not exceed the last frequency, and raises ValueError beyond it; hence compute_spectrum_params fails on every integer axis, a Spectrum object on such an axis cannot give Tmm10 nor the default high/low-frequency split, while Hm0, Tm01 and Tm02 are the float values; create_spectrum_jonswap and create_spectrum_piersonmoskowitz fail as soon as one frequency is positive. frequency_averaging of an integer density drops the fraction of every band mean (towards zero): it can lose all of the variance, never more than one unit per band, and never creates any from a non-negative density; with dfDesired = 0 it is exact.", "quantifier": "all integer axes and densities, moment orders, limits and averaging widths", "why_tests_cant": "a test fixes one dtype and one array; the claim ranges over all integer arrays, orders and limits", "anchors": ["deltares_wave_toolbox/cores/core_wavefunctions.py:compute_moment", "deltares_wave_toolbox/cores/core_wavefunctions.py:compute_spectrum_params", "deltares_wave_toolbox/cores/core_wavefunctions.py:create_spectrum_jonswap", "deltares_wave_toolbox/cores/core_wavefunctions.py:create_spectrum_piersonmoskowitz", "deltares_wave_toolbox/spectrum.py:Spectrum", "deltares_wave_toolbox/cores/core_spectral.py:frequency_averaging"]}
{"id": "C72", "title": "Wave-by-wave analysis of a sampled regular wave", "statement": "For every sinusoidal record A sin(w t + p), uniformly sampled faster than twice per period, the crossings reported by determine_zero_crossing are, one for one, the zeros of the sine inside the record, each located within dt/4 (w dt/sin(w dt) - 1) of its true time; determine_params_individual_waves returns waves whose crest and trough reach at least cos(w dt/2) of the amplitude and never exceed it, whose height is between 2A cos(w dt/2) and 2A and whose period is within dt/2 (w dt/sin(w dt) - 1) of 2 pi/w; the number of waves is the number of whole periods in the record, less at most one boundary wave on each side; Hrms, Hmax and every highest-fraction mean height have the same bounds after any call history. With twelve samples per period: heights within 4 %, crossing times within dt/80, periods within dt/40. Below two samples per period the claim is false.", "quantifier": "all amplitudes, frequencies, phases, sampling steps above the Nyquist rate, start times, record lengths and crossing directions", "why_tests_cant": "the phase relative to the sampling grid decides which samples see the crest; a test fixes one phase and one rate", "anchors": ["deltares_wave_toolbox/cores/core_time.py:determine_zero_crossing", "deltares_wave_toolbox/cores/core_time.py:determine_params_individual_waves", "deltares_wave_toolbox/series.py:WaveHeights"]}
{"id": "C73", "title": "Change of time unit", "statement": "Multiplying the time axis of a record by any c > 0 (seconds to milliseconds, model to prototype scale) leaves the number of waves, the wave heights, crests and troughs unchanged and multiplies the wave periods and the crest and trough times by c; the density spectrum of the record computed with the resolution divided by c has its frequencies divided by c and its densities multiplied by c, band by band; Hm0 is unchanged and Tmm10, Tm01 and Tm02 are multiplied by c. The checks on the time axis do not have this invariance: an almost uniform axis accepted by the Fourier routines, or by the Series constructor, in seconds can be rejected in milliseconds.", "quantifier": "all records, uniform time axes, scale factors, crossing directions and frequency resolutions", "why_tests_cant": "a test fixes one record and one unit; the invariance ranges over every pair", "anchors": ["deltares_wave_toolbox/cores/core_time.py:determine_zero_crossing", "deltares_wave_toolbox/cores/core_time.py:determine_params_individual_waves", "deltares_wave_toolbox/cores/core_spectral.py:compute_spectrum_time_series", "deltares_wave_toolbox/series.py:Series.__init__", "deltares_wave_toolbox/series.py:Series.get_spectrum_raw", "deltares_wave_toolbox/spectrum.py:Spectrum.get_Hm0"]}
{"id": "C74", "title": "Objects made by synthesis and filtering", "statement": "For every Spectrum object with a valid axis and non-negative densities, whatever getters were called on it before, create_series(tstart, tend, dt) with at least two samples returns a Series on the axis tstart + j dt whose signal is the random-phase sum of the interpolated spectrum and whose stored waves are those of that signal; with a single sample it raises AssertionError; with a seed, spectrum2timeseries_object does not depend on earlier use of the generator. For an even number of samples get_spectrum_raw of the created series returns, at every frequency below Nyquist, the interpolated density of the original spectrum, the signal has zero mean and its variance is the sum of the band energies. get_bandpassfilter of any uniformly sampled Series, after any history, returns a Series on the same axis that holds exactly the Fourier coefficients inside the band, with zero mean and no more energy; filtering the result again, after any history, returns an identical object.", "quantifier": "all spectra, call histories, generator states and outputs, time ranges and steps, seeds, signals, bands", "why_tests_cant": "random phases, histories and arbitrary spectra: a test sees one seed and one spectrum", "anchors": ["deltares_wave_toolbox/spectrum.py:Spectrum.create_series", "deltares_wave_toolbox/cores/core_spectral.py:spectrum2timeseries_object", "deltares_wave_toolbox/series.py:Series.get_bandpassfilter", "deltares_wave_toolbox/series.py:Series.get_spectrum_raw"]}
{"id": "C75", "title": "Attributes stored by the Spectrum getters", "statement": "A getter of a Spectrum object that returns a value has stored that value in the attribute of its name (get_Hm0 in Hm0, get_Tps in Tps, ...); a getter that raises leaves that attribute as it was; every other attribute keeps its value, except that an attribute that was still missing and is needed as an ingredient (Tmm10 for a default cut-off, Hm0 and Tps for s0p, ...) may be created, with the value its own getter returns. After any call history an attribute holds what the last call of its getter returned, and is missing as long as neither its getter nor a getter that needs it was called.", "quantifier": "all spectra, call histories and arguments", "why_tests_cant": "all interleavings of thirteen getters, including failing calls; tests try one sequence", "anchors": ["deltares_wave_toolbox/spectrum.py:Spectrum.get_Hm0", "deltares_wave_toolbox/spectrum.py:Spectrum.get_Hm0_HF", "deltares_wave_toolbox/spectrum.py:Spectrum.get_Tps", "deltares_wave_toolbox/spectrum.py:Spectrum.get_Tp", "deltares_wave_toolbox/spectrum.py:Spectrum.get_Tmm10", "deltares_wave_toolbox/spectrum.py:Spectrum.get_s0p", "deltares_wave_toolbox/spectrum.py:Spectrum.get_smm10", "deltares_wave_toolbox/spectrum.py:Spectrum.get_smm10_HF"]}
{"id": "C76", "title": "Reflection analysis with Series objects", "statement": "Series made of the surface elevation that a field of incident and reflected plane waves (at Fourier frequencies, with wave numbers from the dispersion relation) has at the gauges go through decompose_linear_ZS_series and come back as an incident and a reflected Series: they hold exactly the incident and the reflected part at the first gauge, on the same time axis, and their raw spectra carry exactly the energy a_m^2/2 resp. b_m^2/2 in the bin of component m and nothing elsewhere. If every component is reflected with the coefficient Kr (any phases) then, at every averaging resolution and in every frequency band, Hm0 of the reflected Series is |Kr| times Hm0 of the incident Series.", "quantifier": "all gauge layouts, depths, weights, time axes, numbers of components, amplitudes, phases, resolutions and bands", "why_tests_cant": "chains four stages over all wave fields; a test tries one flume", "anchors": ["deltares_wave_toolbox/cores/core_wave_decomposition.py:decompose_linear_ZS_series", "deltares_wave_toolbox/cores/core_wave_decomposition.py:decompose_linear_ZS", "deltares_wave_toolbox/series.py:Series.__init__", "deltares_wave_toolbox/series.py:Series.get_spectrum_raw", "deltares_wave_toolbox/spectrum.py:Spectrum.get_Hm0"]}
{"id": "C77", "title": "Spectra and wave heights stay non-negative in binary64", "statement": "With every operation rounded to binary64: (a) spectral moments of order -5 to 3 of non-negative densities on a nearly uniform frequency axis are finite and not negative, whatever the limits and whether or not the tail beyond the axis is added; (b) the densities computed from any finite Fourier coefficients, averaged to any resolution, are finite and not negative; (c) every spectrum get_spectrum_raw returns for a record has non-negative densities, and get_Hm0() on it returns a finite non-negative number, never nan, as does get_Hm0 with other limits whenever it returns; (d)-(f) for every record on a rounded uniform axis within stated ranges the constructor, the raw spectrum and Hm0 all return: rounding alone never makes the chain fail.", "quantifier": "all records (lengths up to 2^30, elevations, rounded time axes), coefficients, resolutions, limits and moment orders; every pow within 4 ulp, not negative and not increasing in the base for negative exponents", "why_tests_cant": "rounding errors depend on every sample; sqrt of a rounding-negative moment would only show up for special values", "anchors": ["deltares_wave_toolbox/cores/core_spectral.py:compute_spectrum_time_series", "deltares_wave_toolbox/cores/core_spectral.py:compute_spectrum_freq_series", "deltares_wave_toolbox/cores/core_spectral.py:frequency_averaging", "deltares_wave_toolbox/cores/core_wavefunctions.py:compute_moment", "deltares_wave_toolbox/series.py:Series.__init__", "deltares_wave_toolbox/series.py:Series.get_spectrum_raw", "deltares_wave_toolbox/spectrum.py:Spectrum.get_Hm0"]}
{"id": "C78", "title": "What the figures and the texts show", "statement": "After any history of getter calls Spectrum.plot draws the curve of the spectrum and, unless periods are switched off, for each of Tps, Tmm10 and Tm02 that some call has computed one vertical line at 1/T of the most recently returned value, up to the largest density - and none for a period nobody computed. Series.plot draws the record and on request one marker per zero-down-crossing, on the line 0, in time order and where the interpolated signal is zero; after a new wave analysis the markers are those of the kept waves. The histogram of wave heights counts every wave exactly once in ten equal bins from the smallest to the largest height, whatever was called before. str/repr report the number of samples, waves or frequencies as a decimal numeral, and a spectrum calls itself 2D exactly when a non-empty directional array was given. For a Series without waves the histogram is ten empty bars between 0 and 1. A Spectrum made without the directional argument is 1D and its D has shape (0, 0).", "quantifier": "all spectra, records, wave lists, directional arrays and call histories", "why_tests_cant": "depends on the whole call history and on every sample; figures are not compared in tests", "anchors": ["deltares_wave_toolbox/spectrum.py:Spectrum.plot", "deltares_wave_toolbox/spectrum.py:Spectrum.__init__", "deltares_wave_toolbox/spectrum.py:Spectrum.__str__", "deltares_wave_toolbox/series.py:Series.plot", "deltares_wave_toolbox/series.py:WaveHeights.plot_hist_waveheight", "deltares_wave_toolbox/series.py:Series.__str__", "deltares_wave_toolbox/series.py:WaveHeights.__repr__"]}
{"id": "C79", "title": "Spectral getters never turn negative through rounding", "statement": "Computed with every operation rounded to binary64, on a spectrum with finite non-negative densities on an accepted frequency axis - in particular on every spectrum get_spectrum_raw returns for a record - no getter of a Spectrum other than get_Tps ever answers with a negative number or minus infinity, in whatever order the getters are called and with whatever limits (finite, infinite, NaN), also where a missing cut-off is derived from a period. With the default limits get_Hm0, get_Tmm10, get_Tm01 and get_Tm02 return, get_Hm0 a finite number. get_Tp is the exact reciprocal of the frequency of the last largest density in the band, rounded once, and positive.", "quantifier": "all sane frequency axes and non-negative densities of any length, all histories of getter calls, all limits, all gravities not below zero; all records of up to 2^30 samples; every order in which np.sum and np.mean may add up (numpy's pairwise order among them); every pow within 4 ulp, not negative and not increasing in the base for negative exponents", "why_tests_cant": "Simpson's rule for an even number of points subtracts, and limits, cut-offs and stored values combine over histories: no finite set of runs covers all of them", "anchors": ["deltares_wave_toolbox/spectrum.py:Spectrum.get_Hm0", "deltares_wave_toolbox/spectrum.py:Spectrum.get_Hm0_HF", "deltares_wave_toolbox/spectrum.py:Spectrum.get_Tmm10", "deltares_wave_toolbox/spectrum.py:Spectrum.get_Tm01", "deltares_wave_toolbox/spectrum.py:Spectrum.get_Tm02", "deltares_wave_toolbox/spectrum.py:Spectrum.get_Tp", "deltares_wave_toolbox/spectrum.py:Spectrum.get_s0p", "deltares_wave_toolbox/cores/core_wavefunctions.py:compute_moment"]}
{"id": "C80", "title": "Accuracy of moments, Hm0 and mean periods in binary64", "statement": "The same data run through the code exactly and with every operation rounded to binary64: on an accepted frequency axis with n frequencies (n up to 2^30) and densities that are zero or between 2^-200 and 2^200, the moment of any order from -5 to 3 over the whole axis or between two of its frequencies differs from the exact result by at most 2(n+38) 2^-53 of it; with d that number, get_Hm0 is within d, get_Tm02 within 2d and get_Tm01 and get_Tmm10 within 3d of the exact result, relatively, and where the exact period is infinite or NaN so is the computed one. For any non-negative densities whatever (tiny ones included) the moments differ by at most that plus 2^-860.", "quantifier": "all sane frequency axes of 2 to 2^30 frequencies, all densities zero or between 2^-200 and 2^200, all orders -5 to 3, all pairs of limits on the axis or left at -1; every pow within 4 ulp, not negative and not increasing in the base for negative exponents", "why_tests_cant": "an error bound for every axis, every density and every length cannot be sampled, and the subtraction in Simpson's rule for an even number of points could cancel", "anchors": ["deltares_wave_toolbox/cores/core_wavefunctions.py:compute_moment", "deltares_wave_toolbox/spectrum.py:Spectrum.get_Hm0", "deltares_wave_toolbox/spectrum.py:Spectrum.get_Tm01", "deltares_wave_toolbox/spectrum.py:Spectrum.get_Tm02", "deltares_wave_toolbox/spectrum.py:Spectrum.get_Tmm10"]}
{"id": "C81", "title": "Accuracy of the dispersion solver in binary64", "statement": "disper run with every operation rounded to binary64 (tanh, exp and pow from any library within 4 ulp whose exp stays in [0,1] for negative arguments and whose tanh is 1 from 22 on), for depths between 1e-60 and 1e60 and any positive g, always returns finite numbers; the wave number of w = 0 is 0, w -> k is odd and positive for positive w, and for every w of size at least 1e-60 with w^2 h/g >= 1e-8 the returned k is within 4e-14, relatively, of the one solution of the dispersion relation (and within 6e-14 of what the code gives in exact arithmetic), from shallow to arbitrarily deep water.", "quantifier": "all arrays of frequencies, all depths 1e-60..1e60, all positive g; every order in which np.sum and np.mean may add up (numpy's pairwise order among them); every elementary-function library meeting that contract", "why_tests_cant": "the cancellation in 1 - exp(-x), in q tanh q - w^2 h/g, in 1 - tanh^2 and in -b + sqrt(b^2 - 4ac), and the branch taken near the 1e-8 threshold, depend on the input in ways a finite table of test values cannot cover", "anchors": ["deltares_wave_toolbox/cores/core_dispersion.py:disper"]}
{"id": "C82", "title": "Input checks and their exceptions", "statement": "compute_moment, compute_spectrum_params, time2freq, time2freq_nyquist, compute_spectrum_time_series, bandpassfilter and compute_spectrum_freq_series raise ValueError, before computing anything, for every axis of two or more points that is not usable (contains NaN or infinity, is not strictly increasing, or has a step exceeding the first by the tolerance) and for every pair of unequal lengths, and IndexError for an axis of one point; time2freq and time2freq_nyquist succeed exactly on the usable axes with a finite vector of the same length. compute_tps checks only the lengths. determine_zero_crossing, highest_waves_params, exceedance_wave_height and determine_params_individual_waves raise ValueError for anything that is not a non-empty 1-D array (the last returns no waves, unchecked, when there are no crossings); spectrum2timeseries raises ValueError for a two-column frequency or density.", "quantifier": "all axes and vectors (finite, infinite, NaN), all shapes, all other arguments", "why_tests_cant": "the set of malformed inputs (any NaN position, any step pattern, any length pair) is infinite", "anchors": ["deltares_wave_toolbox/cores/core_wavefunctions.py:compute_moment", "deltares_wave_toolbox/cores/core_spectral.py:time2freq", "deltares_wave_toolbox/cores/core_time.py:determine_params_individual_waves", "deltares_wave_toolbox/cores/core_engine.py:monotonic_increasing_constant_step"]}
{"id": "C83", "title": "Spectra with missing (NaN) bins", "statement": "For a density with NaN bins on an accepted axis: a moment is NaN when a missing bin lies between the grid points nearest to the limits (or anywhere above the lower one, when the upper limit lies beyond the axis; or anywhere, with the default limits, but for the f = 0 bin of a negative order), is not influenced by any bin outside that range, and is 0 when the range is a single grid point, even if missing. Hm0, Tm-1,0, Tm01, Tm02 of such a band are NaN and compute_spectrum_params returns six NaNs, without an exception. get_Tp nevertheless returns 1/f of the largest of the bins present (the last one of several), unless the first bin of the band is missing: then it raises ValueError, and get_Tps raises IndexError (with three or more bins in the band; with two or one it returns the reciprocal of their mean frequency).", "quantifier": "all accepted axes, all positions and numbers of missing bins, all limits", "why_tests_cant": "every pattern of missing bins, even and odd numbers of points, and every pair of limits must be covered", "anchors": ["deltares_wave_toolbox/cores/core_wavefunctions.py:compute_moment", "deltares_wave_toolbox/cores/core_wavefunctions.py:compute_spectrum_params", "deltares_wave_toolbox/cores/core_wavefunctions.py:compute_tps", "deltares_wave_toolbox/spectrum.py:Spectrum.get_Tp", "deltares_wave_toolbox/spectrum.py:Spectrum.get_Tps"]}
{"id": "C84", "title": "No function changes an array it is given", "statement": "With arrays as references to memory (views of one buffer may overlap): convert_to_vector, frequency_averaging, unfold_spectrum, coherence, freq2time, time2freq_nyquist, applybandfilter, bandpassfilter, spectrum2timeseries, determine_params_individual_waves, disper, create_spectrum_jonswap and decompose_linear_ZS, which fill arrays element by element or slice by slice, leave every array the caller holds exactly as it was, also when they raise; they end with the result or exception of the value model; and the arrays they return are in new storage (different results in different storage). Only convert_to_vector may hand back the array it was given, and does so exactly for an array that is not a column.", "quantifier": "all memories, all arguments (numbers, lists, arrays, overlapping views), all values", "why_tests_cant": "aliasing between arguments, views and results ranges over all memories and all ways to overlap", "anchors": ["deltares_wave_toolbox/cores/core_engine.py:convert_to_vector", "deltares_wave_toolbox/cores/core_spectral.py:frequency_averaging", "deltares_wave_toolbox/cores/core_spectral.py:unfold_spectrum", "deltares_wave_toolbox/cores/core_spectral.py:coherence", "deltares_wave_toolbox/cores/core_spectral.py:spectrum2timeseries", "deltares_wave_toolbox/cores/core_time.py:determine_params_individual_waves", "deltares_wave_toolbox/cores/core_dispersion.py:disper", "deltares_wave_toolbox/cores/core_wavefunctions.py:create_spectrum_jonswap", "deltares_wave_toolbox/cores/core_wave_decomposition.py:decompose_linear_ZS"]}
{"id": "C85", "title": "Objects and the caller's arrays: what is shared, and what a later write shows", "statement": "A Series, WaveHeights or Spectrum keeps a 1-D array it is given as its own attribute and copies a number, a list or a column. After any sequence of assignments by the caller to its own arrays and of method calls: time and signal of a Series (frequencies and densities of a Spectrum) are the present contents of the kept arrays; its waves, crossings, number of samples and step (the stored parameters of a Spectrum) are those computed when they were computed; the waves of a WaveHeights follow the caller's arrays until its first successful sort and are its own afterwards; and the caller's memory holds exactly what the caller wrote - no method, also not sort, changes an array of the caller. get_bandpassfilter and decompose_linear_ZS_series give objects that share the time array of the (first) series and nothing else; create_spectrum_object_jonswap shares the frequencies; get_spectrum_raw and create_series share nothing; _determine_individual_waves returns the arrays the object keeps.", "quantifier": "all memories and arguments, all finite sequences of writes and calls, all values", "why_tests_cant": "histories of writes and calls, and the ways arrays overlap, are unbounded", "anchors": ["deltares_wave_toolbox/series.py:WaveHeights", "deltares_wave_toolbox/series.py:Series", "deltares_wave_toolbox/spectrum.py:Spectrum", "deltares_wave_toolbox/cores/core_engine.py:convert_to_vector", "deltares_wave_toolbox/cores/core_wave_decomposition.py:decompose_linear_ZS_series", "deltares_wave_toolbox/cores/core_wavefunctions.py:create_spectrum_object_jonswap"]}
{"id": "C86", "title": "Splitting, extending, refining and reversing a record", "statement": "The wave-by-wave analysis (determine_zero_crossing followed by determine_params_individual_waves, and the Series object) is local: cutting a record at a sample that belongs to both parts gives exactly the crossings of the whole, one list after the other, the waves of the parts are the first and the last waves of the whole, and the only further wave is the one between the last crossing of the first part and the first of the second; appending samples changes no crossing and no wave found so far. It depends on the straight lines between the samples only: adding linearly interpolated samples changes no crossing time and no height, period, crest or trough, nor the crest (trough) time unless the crest (trough) is exactly 0, so the stored waves of the Series are identical. A record without samples equal to 0 has, played backwards, the same waves in reverse order at the mirrored times with up- and down-crossings exchanged; a sample equal to 0 that the signal only touches makes this false.", "quantifier": "all signals of at least two samples, all start times and positive steps, both directions, all cut positions, all refinement factors, any number of appended samples", "why_tests_cant": "cut positions, refinement factors and signals are unbounded", "anchors": ["deltares_wave_toolbox/cores/core_time.py:determine_zero_crossing", "deltares_wave_toolbox/cores/core_time.py:determine_params_individual_waves", "deltares_wave_toolbox/series.py:Series"]}
{"id": "C87", "title": "Splitting a signal into frequency bands", "statement": "Filtering one signal with bandpassfilter in several bands: of two adjacent bands [a,b) and [b,c) the signals add up to the one of [a,c), and so do the energies (sums of squares), except for the component at the highest frequency of the signal below b, which neither of the two bands passes; a band that takes in every frequency only subtracts the mean and its energy is n times the variance; hence low-pass and high-pass at the same limit give back the signal only up to its mean and that one component ('low + high + mean = signal' is refuted); two filters may be applied in either order; a band inside another gives no more energy and the outer filter does not change its result.", "quantifier": "all signals, uniform time axes and band limits (also infinite)", "why_tests_cant": "the signals, their length and the limits range over unbounded sets", "anchors": ["deltares_wave_toolbox/cores/core_spectral.py:bandpassfilter", "deltares_wave_toolbox/cores/core_spectral.py:applybandfilter"]}
{"id": "C88", "title": "The decomposition amplifies measurement errors by at most Sum(w)/(2 detLim)", "statement": "With non-negative weights w and detLim > 0, the incident and reflected signal that decompose_linear_ZS returns have together at most Sum(w)/(2 detLim) times the energy (sum of squares) of the records, each record counted with the weight of its gauge; at each retained frequency the squared amplitudes of the two parts are together at most Sum(w)/(2 S) times the weighted squared amplitudes at the gauges, where S is the separation of the gauges at that frequency. Hence errors added to the records change the two signals by no more than that factor times the energy of the errors. With detLim = 0 there is no such factor: for any time axis, depth and constant c there are gauge positions and records whose decomposition has more than c times their energy.", "quantifier": "all time axes, records, errors, gauge positions, non-negative weights, depths and positive limits", "why_tests_cant": "the records, the errors, the number of gauges and their positions range over unbounded sets", "anchors": ["deltares_wave_toolbox/cores/core_wave_decomposition.py:decompose_linear_ZS"]}
{"id": "C89", "title": "The JONSWAP spectrum in binary64: energy, sign and underflow", "statement": "With every operation rounded to binary64, create_spectrum_jonswap on an accepted axis of n frequencies (n up to 2^30) returns finite non-negative densities that are 0 where f <= 2^-52, and the Hm0 of the Spectrum made from them differs from the |hm0| asked for by at most 5/4 times 2(n+38) 2^-53 of it, provided one axis frequency lies between fp/4 and 2^20 Hz, 2^-40 <= fp <= 2^22, 2^-50 <= gammaPeak <= 2^50, 2^-100 <= |hm0| <= 2^100 and l_fmax = 0. If instead no axis frequency exceeds fp/5 and exp underflows to 0 below -770 (as correct rounding does), every density is 0 before scaling and every density returned is NaN, although the exact result (C37) is a spectrum with the Hm0 asked for. The same holds of create_spectrum_piersonmoskowitz.", "quantifier": "all sane frequency axes of 2 to 2^30 frequencies, all fp, gammaPeak and hm0 in the ranges given, any summation order, any elementary-function library within 4 ulp", "why_tests_cant": "accuracy for every axis, peak frequency and enhancement factor cannot be sampled; the underflow boundary depends on the ratio of axis and peak frequency", "anchors": ["deltares_wave_toolbox/cores/core_wavefunctions.py:create_spectrum_jonswap", "deltares_wave_toolbox/cores/core_wavefunctions.py:create_spectrum_object_jonswap", "deltares_wave_toolbox/cores/core_wavefunctions.py:create_spectrum_piersonmoskowitz", "deltares_wave_toolbox/spectrum.py:Spectrum.get_Hm0"]}
{"id": "C90", "title": "The individual waves and their statistics in binary64 are those of exact arithmetic", "statement": "Let a record of binary64 numbers (increasing times, first step at least 2^-92, non-zero samples at least 2^-900 in size) be such that no interpolated crossing time c lies within (|c| + 8 steps) 2^-53 of the sample after it, or of the sample before it unless the signal is exactly 0 there. Then determine_zero_crossing and determine_params_individual_waves, with every operation rounded, find the same waves as in exact arithmetic: as many, with the same crest, trough and instants; each wave height is the exact one rounded once; each crossing time is within (|c| + 8 steps) 2^-53 of the exact one and each period within three times the sum of the two crossing errors. For a Series made from such a record (samples 0 or at least 2^-440, n >= 1 waves, n up to 2^45): get_Hmax and get_exceedance_waveheight at a whole percentage return the exact value rounded once, the height from get_Hs is within (n/3+2) 2^-52 of it, relatively, and get_Hrms within (n+4) 2^-52.", "quantifier": "all records meeting the stated margin, up- and down-crossings, all sorting routines, all summation orders", "why_tests_cant": "the margin quantifies over every crossing of every record; agreement with exact arithmetic cannot be observed by running floating-point code", "anchors": ["deltares_wave_toolbox/cores/core_time.py:determine_zero_crossing", "deltares_wave_toolbox/cores/core_time.py:determine_params_individual_waves", "deltares_wave_toolbox/series.py:Series.__init__", "deltares_wave_toolbox/series.py:WaveHeights.get_Hs", "deltares_wave_toolbox/series.py:WaveHeights.get_Hrms", "deltares_wave_toolbox/series.py:WaveHeights.get_Hmax", "deltares_wave_toolbox/series.py:WaveHeights.get_exceedance_waveheight"]}
{"id": "C91", "title": "From the record to Hm0 in binary64: how far the answer is from the exact one", "statement": "Let a record have n samples (n up to 2^30) at good time steps between 2^-20 and 2^20 s, at least one sample of size 2^-300 or more, and let the computed Fourier coefficients be within a relative error eta <= 1/1024 of the exact ones in the 2-norm. Then Series(t,x).get_spectrum_raw(), with every operation rounded to binary64, has as many bins as in exact arithmetic, each frequency is within 2^-50 of the exact one, relatively, and the errors of all densities together are at most 5 eta + 2^-48 of their sum; for n >= 4 the Hm0 returned by get_Hm0 is within 10 eta + (n+7)/2^49 of the exact one, relatively. If the coefficients are sums of n rounded products with cos and sin known to 2^-50, eta = n sqrt(n)/2^47; so for records of 4 to 2^24 samples evenly spaced up to 2^-35 s the whole chain runs, exactly and in binary64, and its error is bounded with no assumption about the FFT.", "quantifier": "all records meeting the stated ranges, all summation orders, all Fourier coefficients with the stated accuracy", "why_tests_cant": "an error bound quantifies over every record and every rounding; tests compare a few digits of a few records", "anchors": ["deltares_wave_toolbox/series.py:Series.get_spectrum_raw", "deltares_wave_toolbox/cores/core_spectral.py:compute_spectrum_time_series", "deltares_wave_toolbox/cores/core_spectral.py:frequency_averaging", "deltares_wave_toolbox/spectrum.py:Spectrum.get_Hm0", "deltares_wave_toolbox/cores/core_wavefunctions.py:compute_moment"]}
{"id": "C92", "title": "Hm0 is a norm of the record: noise changes it by no more than its own Hm0", "statement": "For two records x and y on the same good time axis, for every dfDesired for which a spectrum exists: the square root of each density of x + y is at most the sum of the square roots of the densities of x and of y, and for all limits lo <= hi inside the axis Hm0(x + y) <= Hm0(x) + Hm0(y) and |Hm0(x + y) - Hm0(x)| <= Hm0(y). So with the defaults, on a uniform axis with n >= 4, adding noise e to a record changes Hm0 by at most 4 sqrt(4/3 var(e) + 2/3 mean(e)^2), which is less than 4.62 times the largest |e_i|. get_spectrum_raw returns a spectrum exactly when averaging leaves at least two bins; otherwise it raises.", "quantifier": "all pairs of records, all time axes the Series constructor accepts as good, all averaging factors, all limits inside the axis", "why_tests_cant": "stability against noise is a statement about every pair of records; no set of examples settles an inequality", "anchors": ["deltares_wave_toolbox/series.py:Series.get_spectrum_raw", "deltares_wave_toolbox/cores/core_spectral.py:compute_spectrum_time_series", "deltares_wave_toolbox/cores/core_spectral.py:frequency_averaging", "deltares_wave_toolbox/spectrum.py:Spectrum.get_Hm0", "deltares_wave_toolbox/cores/core_wavefunctions.py:compute_moment"]}
{"id": "C93", "title": "Transforms and band-pass filter in double precision: there and back, and the same samples as exact arithmetic", "statement": "Let the sums of np.fft.fft and np.fft.ifft be evaluated term by term in double precision, in any fixed order of additions, with cos and sin known to 2^-50. On a good time axis of n <= 2^24 samples with a time step between 2^-20 and 2^20, whenever time2freq returns: every frequency is within a relative 2^-50 of the exact one; with E(x) = n/2^45 (sum|x_i| + n 2^-1020), both parts of every coefficient are within E(x)/4 of the exact transform; freq2time of these coefficients returns every sample of x to within E(x); freq2time of any coefficients returns every sample to within 2^-47 times the sum of the sizes of their parts (+ n 2^-1020) of the exact answer; and if neither limit is within a relative 2^-50 of a non-zero frequency of the spectrum, bandpassfilter returns every sample within E(x) of the answer of exact arithmetic.", "quantifier": "all records, all good time axes up to 2^24 samples, all coefficient arrays, all limits (finite or infinite) not within rounding of a frequency, all orders of summation, all cos and sin functions of the stated accuracy", "why_tests_cant": "rounding error bounds for every record, order of summation and mathematical library cannot be established by running one library on some records", "anchors": ["deltares_wave_toolbox/cores/core_spectral.py:time2freq", "deltares_wave_toolbox/cores/core_spectral.py:freq2time", "deltares_wave_toolbox/cores/core_spectral.py:bandpassfilter", "deltares_wave_toolbox/cores/core_spectral.py:applybandfilter", "deltares_wave_toolbox/cores/core_spectral.py:unfold_spectrum", "deltares_wave_toolbox/cores/core_spectral.py:time2freq_nyquist"]}
{"id": "C94", "title": "Synthesis in double precision: where the samples are, when they are numbers, and when they are not", "statement": "Call spectrum2timeseries in double precision with |tInit|, |tEnd| <= 2^16, tInit <= tEnd and 2^-13 <= dt <= 2^8. Whatever the spectrum, a record that is returned has the exact number n of samples (the smallest integer >= (tEnd - tInit)/dt + 1) or one more or less, and exactly n when (tEnd - tInit)/dt is further than 2^-34/dt from every whole number; time k is within (k+2)/2^36 of tInit + k dt (within 2^-36 if tInit = 0); and with two or more samples the axis passes the constant-step check. If tInit and dt are whole multiples of a power of two and tEnd is a whole number of steps later, the axis has no rounding error at all. If the frequencies increase from 0 upwards and the densities are zero or not tiny, and where a density falls by more than a factor 2^40 between neighbours the upper frequency is at most twice the lower one (or the lower one is 0), then the call succeeds and every sample is a finite double, and the Series object of such a record is accepted when its samples are zero or not tiny. Deviations: from 1 to 2 in steps of 0.2 there are 7 samples, the last one at 2.2 (exact arithmetic: 6); and from the non-negative density 1.5 at 0.29 Hz, 0 at 1 Hz, the 12 samples between 0 and 5.5 s at 0.5 s are all nan, for every draw of phases, because the density interpolated just below 1 Hz is negative.", "quantifier": "all spectra and all generators for the axis; all densities meeting the stated condition and all draws for the samples; all start times, end times and steps in the stated range; all libraries within the contract", "why_tests_cant": "rounding in np.arange and np.interp depends on every bit of the arguments; tests use a few round numbers, for which nothing goes wrong", "anchors": ["deltares_wave_toolbox/cores/core_spectral.py:spectrum2timeseries", "deltares_wave_toolbox/cores/core_spectral.py:spectrum2timeseries_object", "deltares_wave_toolbox/spectrum.py:Spectrum.create_series", "deltares_wave_toolbox/cores/core_engine.py:monotonic_increasing_constant_step"]}
{"id": "C95", "title": "Band averaging and coherence in double precision: how many bands are joined, how accurate the averages are, how far above 1 a coherence can be", "statement": "Call frequency_averaging and coherence in double precision, with any order of the additions in np.mean. The number r of frequencies joined is the whole number nearest to the computed quotient dfDesired/(f1-f0) (ties to even), at least 1; it is the one of exact arithmetic whenever the exact quotient is not within relative 2^-51 of a whole number plus a half. With values that are zero or at least 2^-900 there are exactly floor(n/r) bands (the computed division never loses or adds one), and each averaged frequency and density is within relative (r+1)/2^52 of the exact average of its block. Every computed coherence of Fourier coefficients whose parts are zero or of sizes 2^-100 to 2^100 is within relative (r+14)/2^50 of the exact coherence of the same blocks, so it is a finite number between 0 and 1 + (r+14)/2^50. Deviations: a coherence can really exceed 1 (amplitudes 1+i and 1, no averaging: 1.0000000000000002), and with a frequency step of 0.1 Hz and 0.75 Hz asked for, 8 bands are joined where exact arithmetic on the same doubles gives 7.", "quantifier": "all frequency axes of 2 to 2^36 points, all densities and Fourier coefficients in the stated ranges, all requested resolutions with a quotient up to 2^52, all orders of summation", "why_tests_cant": "the errors depend on every bit of the data and on the order of the additions; tests compare a few records to a tolerance", "anchors": ["deltares_wave_toolbox/cores/core_spectral.py:frequency_averaging", "deltares_wave_toolbox/cores/core_spectral.py:coherence"]}
{"id": "C96", "title": "Integration limits that are not frequencies of the axis, in double precision", "statement": "Call core_engine.approx_array_index, and compute_moment with integration limits that need not be frequencies of the axis, in double precision. The index found is at most the rounding of a distance further away than the nearest entry: its distance is at most (1 + 2^-51) times the distance of any other entry plus 2^-1000. When one entry is nearer than all others by more than that, that one is found, the same as in exact arithmetic. Consequently, for a frequency axis the library accepts, densities that are zero or of sizes 2^-200 to 2^200, orders -5 to 3 and any two limits 0 < fmin <= fmax up to the last frequency, each clearly nearest to one frequency, compute_moment joins the same frequencies in double precision as in exact arithmetic and its result is within relative (2n + 76)/2^53 of the exact one. With an upper limit above the last frequency, infinite or at most 2^100, the f^-5 tail is added as well; then the error is at most (2n + 78)/2^53 times the moment up to infinity (for an infinite limit: times the result itself). For limits nearest to frequencies other than the first, get_Hm0 of a spectrum is within (2n + 76)/2^53, get_Tm02 within twice and get_Tm01 and get_Tmm10 within three times that of the exact values. The same holds with an infinite upper limit, with 2n + 78 in place of 2n + 76. Deviation: without a clear winner the nearest entry can be missed: approx_array_index([0, 2^-60], 1) returns 0 although the second entry is nearer.", "quantifier": "all non-empty arrays and all values looked up; all accepted frequency axes of up to 2^30 points, all densities in the range, all orders from -5 to 3, all lower limits clearly nearest to a frequency, all upper limits clearly nearest to a frequency or above the last one (also infinite), all orders of the additions in np.sum", "why_tests_cant": "whether a rounded distance picks another frequency depends on every bit of the axis and the limit; tests use limits on the axis or far from a midpoint", "anchors": ["deltares_wave_toolbox/cores/core_engine.py:approx_array_index", "deltares_wave_toolbox/cores/core_wavefunctions.py:compute_moment", "deltares_wave_toolbox/spectrum.py:Spectrum.get_Hm0", "deltares_wave_toolbox/spectrum.py:Spectrum.get_Tm01"]}
