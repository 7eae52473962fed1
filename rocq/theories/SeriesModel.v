(** * Model of deltares_wave_toolbox/series.py (classes WaveHeights and Series), of
      spectrum2timeseries_object and of the Series wrapper of the decomposition *)

From Coq Require Import ZArith String List Bool.
From Verif Require Import Num Engine Cpx TimeModel SpectralModel DisperModel DecompModel WaveModel SpectrumModel.
Import ListNotations.

Section WaveHeights.
  Context {N : Num}.
  Local Open Scope num_scope.
  Variable argsort : list N -> list nat.

  (** series.py:29-35 *)
  Record waveheights := mkWH { wh_h : arr N; wh_t : arr N; wh_n : nat }.
  Definition wh_init (h t : arraylike N) : waveheights :=
    let '(h1, _) := convert_to_vector h in
    let '(t1, _) := convert_to_vector t in
    mkWH h1 t1 (alen (Arr h1)).

  (** A method call: new object state and result (or exception). *)
  Definition wh_meth (A : Type) := waveheights -> waveheights * res A.
  Definition wbind {A B} (m : wh_meth A) (k : A -> wh_meth B) : wh_meth B :=
    fun s => match m s with
             | (s', Ok a) => k a s'
             | (s', Raise e) => (s', Raise e)
             end.

  (** series.py:52 (also :117, :141, :161, :228): sort in place; nwave is not touched *)
  Definition wh_sort : wh_meth unit :=
    fun s => match sort_wave_params argsort (Arr (wh_h s)) (Arr (wh_t s)) with
             | Ok (h, t) => (mkWH (vec h) (vec t) (wh_n s), Ok tt)
             | Raise e => (s, Raise e)
             end.
  (** series.py:63 *)
  Definition wh_Hrms : wh_meth N :=
    fun s => (s, Ok (nsqrt (nmean (map (fun h => h * h) (data (wh_h s)))))).
  (** series.py:74 *)
  Definition wh_Hmax : wh_meth N := fun s => (s, npmax (data (wh_h s))).
  (** series.py:120-145 *)
  Definition wh_highest (fracP : N) : wh_meth (N * N) :=
    wbind wh_sort (fun _ s => (s, highest_waves_params (Arr (wh_h s)) (Arr (wh_t s)) fracP)).
  (** series.py:87 *)
  Definition wh_Hs : wh_meth (N * N) := wh_highest (n1 / nofZ 3).
  (** series.py:98; contract of scipy.stats.rayleigh.ppf(q, scale=s): s * sqrt(-2 ln(1-q)) *)
  Definition rayleigh_ppf (q scale : N) : N := scale * nsqrt (nofZ (-2) * nln (n1 - q)).
  Definition wh_H2p_Rayleigh : wh_meth N :=
    wbind wh_Hs (fun ht s =>
      (s, Ok (fst ht * rayleigh_ppf (lit 98 100) (n1 / nsqrt (nofZ 2)) / nsqrt (nofZ 2)))).
  (** series.py:117-118 *)
  Definition wh_exceedance (excPerc : N) : wh_meth N :=
    wbind wh_sort (fun _ s => (s, exceedance_wave_height (Arr (wh_h s)) excPerc)).

  (** series.py:161-165 plot_exceedance_waveheight: the plotted data (wave height, probability).
      np.linspace(0, n, n, n) / n: the fourth positional argument is endpoint (true for n >= 1),
      so the i-th point is i * n/(n-1) / n, and 0 for n = 1. *)
  Definition linspace0 (stop : N) (num : nat) : list N :=
    match num with
    | O => []
    | S O => [n0]
    | S k => map (fun i => nofnat i * (stop / nofnat k)) (seq 0 num)
    end.
  Definition wh_plot_exceedance : wh_meth (list N * list N) :=
    wbind wh_sort (fun _ s =>
      (s, Ok (data (wh_h s),
              map (fun v => v / nofnat (wh_n s)) (linspace0 (nofnat (wh_n s)) (wh_n s))))).

  (** series.py:213-264 plot_exceedance_waveheight_Rayleigh: the plotted data - x axis, theoretical
      curve, measured heights and, with plot_BG, the (x, height) pairs of the Battjes-Groenendijk
      curve.  [BG hm0 nwave water_depth cota_slope] stands for
      compute_BattjesGroenendijk_wave_height_distribution with its default tolerance
      ([compute_BG] in WaveModel.v); drawing itself (axes, ticks, labels) is not modelled. *)
  Definition wh_plot_Rayleigh (BG : N -> nat -> N -> N -> res (list N * list N))
             (normalize plot_BG : bool) (water_depth cota_slope hm0 : N)
    : wh_meth (list N * list N * list N * option (list N * list N)) :=
    wbind (if normalize then wbind wh_Hs (fun ht s => (s, Ok (fst ht))) else (fun s => (s, Ok n1)))
          (fun Hn => fun s0 =>
      let n := wh_n s0 in
      let rx := map (fun i => nsqrt (- nln (nofnat i / nofnat n))) (seq 1 n) in     (* :222 *)
      wbind wh_H2p_Rayleigh (fun H2p =>
        let theo := map (fun i => H2p * nsqrt (nln (n1 - nofnat i / nofnat (n + 1)) / nln (lit 2 100)))
                        (rev (seq 1 n)) in                                           (* :224-226 *)
        wbind wh_sort (fun _ s =>
          (s, let! bg :=
                (if plot_BG
                 then if hm0 =? - n1 then Raise ValueError
                      else let! (hBG, pBG) := BG hm0 n water_depth cota_slope in
                           Ok (Some (map (fun p => nsqrt (- nln p)) pBG, map (fun v => v / Hn) hBG))
                 else Ok None) in
              Ok (rx, map (fun v => v / Hn) theo, map (fun v => v / Hn) (data (wh_h s)), bg)))) s0).

  (** The public interface of a WaveHeights object, and any sequence of calls *)
  Inductive wh_call :=
  | WSort | WHrms | WHmax | WHs | WH2p | WExceedance (p : N) | WHighest (p : N)
  | WPlotExc
  | WPlotRay (BG : N -> nat -> N -> N -> res (list N * list N)) (normalize plot_BG : bool)
             (water_depth cota_slope hm0 : N).
  Definition wh_step (c : wh_call) (s : waveheights) : waveheights :=
    match c with
    | WSort => fst (wh_sort s) | WHrms => fst (wh_Hrms s) | WHmax => fst (wh_Hmax s)
    | WHs => fst (wh_Hs s) | WH2p => fst (wh_H2p_Rayleigh s)
    | WExceedance p => fst (wh_exceedance p s) | WHighest p => fst (wh_highest p s)
    | WPlotExc => fst (wh_plot_exceedance s) 
    | WPlotRay BG b pb d c hm0 => fst (wh_plot_Rayleigh BG b pb d c hm0 s)
    end.
  Definition wh_run (cs : list wh_call) (s : waveheights) : waveheights :=
    fold_left (fun s c => wh_step c s) cs s.
End WaveHeights.
Arguments waveheights : clear implicits.
Arguments wh_call : clear implicits.

Section Series.
  Context {N : Num}.
  Local Open Scope num_scope.

  (** series.py:317-340; the wave arrays of the base class are in [se_wh] *)
  Record series := mkSeries { se_t : list N; se_x : list N; se_nt : nat; se_dt : N;
                              se_wh : waveheights N; se_tCross : list N }.

  (** series.py:566-574: crossings of the signal, minus its part below fcutoff *)
  Definition series_crossings (t x : list N) (typeCross : string) (fcutoff : N) : res (Z * arr N) :=
    let! xr :=
      (if negb (fcutoff =? n0)
       then let! low := bandpassfilter (Arr (vec t)) (Arr (vec x)) n0 fcutoff in
            bmap2 nsub x low
       else Ok (map (fun v => v - n0) x)) in
    determine_zero_crossing (Arr (vec t)) (Arr (vec xr)) typeCross.

  (** series.py:525-596 _determine_individual_waves: kept waves, stored crossings, all crossings *)
  Definition individual_waves (t x : list N) (typeCross : string) (fcutoff minimum_wave : N)
    : res (list (wave N) * list N * arr N) :=
    let! (_, tCross) := series_crossings t x typeCross fcutoff in
    let! ws := determine_params_individual_waves (Arr tCross) (Arr (vec t)) (Arr (vec x)) in
    let remove_index := where_ (fun w => w_h w <? minimum_wave) ws in      (* :586 *)
    Ok (delete_idx remove_index ws, delete_idx remove_index (data tCross), tCross).
  Definition wh_of_waves (ws : list (wave N)) : waveheights N :=
    wh_init (Arr (vec (map w_h ws))) (Arr (vec (map w_t ws))).

  (** series.py:317-340 __init__ *)
  Definition series_init (time0 x0 : arraylike N) : res series :=
    let '(t1, tSize) := convert_to_vector time0 in
    let '(x1, xSize) := convert_to_vector x0 in
    raise_if negb (Nat.eqb (fst tSize) (fst xSize)) with AssertionError ;;       (* :321 *)
    let! t := as_list t1 in
    raise_if negb (nvar (ndiff t) <? nmean (map (fun d => d / nofZ 100) (ndiff t)))
      with AssertionError ;;                                                     (* :322-324 *)
    let! x := as_list x1 in
    let dt := nmean (ndiff t) in
    let! (ws, tc, _) := individual_waves t x "down"%string n0 n0 in
    Ok (mkSeries t x (length t) dt (wh_of_waves ws) tc).

  (** series.py:525-596 as a method: the object's waves are replaced *)
  Definition series_determine (s : series) (typeCross : string) (fcutoff minimum_wave : N)
    : series * res (list (wave N) * arr N) :=
    match individual_waves (se_t s) (se_x s) typeCross fcutoff minimum_wave with
    | Ok (ws, tc, tall) =>
        (mkSeries (se_t s) (se_x s) (se_nt s) (se_dt s) (wh_of_waves ws) tc, Ok (ws, tall))
    | Raise e => (s, Raise e)
    end.

  (** The state-changing calls on a Series object: those inherited from WaveHeights (series.py:43-290) and
      _determine_individual_waves (series.py:525-596); the remaining methods (get_crossing, get_skewness, get_asymmetry,
      get_spectrum, get_spectrum_raw, max, min, mean, var, get_bandpassfilter, get_fourier_comp, plot) assign nothing. *)
  Variable argsort : list N -> list nat.
  Inductive series_call :=
  | SWave (c : wh_call N) | SDetermine (typeCross : string) (fcutoff minimum_wave : N).
  Definition series_step (c : series_call) (s : series) : series :=
    match c with
    | SWave c => mkSeries (se_t s) (se_x s) (se_nt s) (se_dt s) (wh_step argsort c (se_wh s)) (se_tCross s)
    | SDetermine ty fc mw => fst (series_determine s ty fc mw)
    end.
  Definition series_run (cs : list series_call) (s : series) : series :=
    fold_left (fun s c => series_step c s) cs s.

  (** series.py:370-373 *)
  Definition series_get_crossing (s : series) (typeCross : string) : res (Z * arr N) :=
    determine_zero_crossing (Arr (vec (se_t s))) (Arr (vec (se_x s))) typeCross.
  (** series.py:472-482 *)
  Definition series_max (s : series) : res N := npmax (se_x s).
  Definition series_min (s : series) : res N := npmin (se_x s).
  Definition series_mean (s : series) : N := nmean (se_x s).
  Definition series_var (s : series) : N := nvar (se_x s).
  (** series.py:386-389 *)
  Definition skewness (x : list N) : N :=
    nmean (map (fun v => npowZ (v - nmean x) 3) x)
    / npow (nmean (map (fun v => (v - nmean x) * (v - nmean x)) x)) (lit 15 10).
  Definition series_skewness (s : series) : N := skewness (se_x s).

  (** series.py:391-404 get_asymmetry.  Contract of scipy.signal.hilbert (analytic signal by DFT):
      ifft(fft(x) * h) with h = 1 at zero frequency and (even length) at Nyquist, 2 at the positive
      frequencies, 0 at the negative ones. *)
  Definition hilbert_h (n k : nat) : N :=
    if Nat.eqb k 0 then n1
    else if Nat.even n && Nat.eqb k (Nat.div n 2) then n1
    else if Nat.ltb k (Nat.div (n + 1) 2) then nofZ 2
    else n0.
  Definition hilbert (x : list N) : list (cpx N) :=
    ifft (map2 (fun k z => cscale (hilbert_h (length x) k) z) (seq 0 (length x)) (fft (map cofr x))).
  Definition asymmetry (x : list N) : N :=
    nmean (map (fun z => npowZ (cim z) 3) (hilbert x))
    / npow (nmean (map (fun v => (v - nmean x) * (v - nmean x)) x)) (lit 15 10).
  Definition series_asymmetry (s : series) : N := asymmetry (se_x s).

  (** series.py:501-523 get_fourier_comp *)
  Definition series_fourier (s : series) : res (list N * list (cpx N) * bool) :=
    time2freq_nyquist (Arr (vec (se_t s))) (Arr (vec (se_x s))).
  (** series.py:484-499 get_bandpassfilter *)
  Definition series_bandpass (s : series) (fmin fmax : N) : res series :=
    let! y := bandpassfilter (Arr (vec (se_t s))) (Arr (vec (se_x s))) fmin fmax in
    series_init (Arr (vec (se_t s))) (Arr (vec y)).
  (** series.py:452-470 get_spectrum_raw *)
  Definition series_spectrum_raw (s : series) (dfDesired : N) : res (spec N) :=
    let! (f, Sd) := compute_spectrum_time_series (Arr (vec (se_t s))) (Arr (vec (se_x s))) dfDesired in
    spectrum_init (Arr (vec f)) (Arr (vec Sd)).

  (** series.py:438-440: np.round(...).astype(int) (not modelled for inf/nan) *)
  Definition round_int (x : N) : res Z :=
    match nfloor (nrint x) with Some z => Ok z | None => Raise Unmodelled end.
  Definition spectrum_segments (dt dfDesired : N) : res (Z * Z) :=
    let! nperseg := round_int (n1 / dt / dfDesired) in
    let! noverlap := round_int (nofZ nperseg / nofZ 2) in
    Ok (nperseg, noverlap).

  Variable welch : list N -> N -> string -> option Z -> option Z -> option Z -> res (list N * list N).
  (** series.py:406-450 get_spectrum *)
  Definition series_spectrum (s : series) (nperseg noverlap nfft : Z) (window : string)
             (dfDesired : N) (use_dfDesired : bool) : res (spec N) :=
    let! (nperseg, noverlap) :=
      (if use_dfDesired then spectrum_segments (se_dt s) dfDesired else Ok (nperseg, noverlap)) in
    let! (f, Sd) := compute_spectrum_welch_wrapper welch (se_x s) (se_dt s) nperseg noverlap nfft window in
    spectrum_init (Arr (vec f)) (Arr (vec Sd)).

  (** core_spectral.py:712-750 spectrum2timeseries_object, spectrum.py:458-478 create_series *)
  Variable RS : Type.
  Variable rng_seed : Z -> RS.
  Variable rng_rand : RS -> nat -> list N * RS.
  Definition spectrum2timeseries_object (rs : RS) (f0 s0 : arraylike N) (tInit tEnd dt : N) (seed : Z)
    : res (series * RS) :=
    let! (t, x, rs') := spectrum2timeseries RS rng_seed rng_rand rs f0 s0 tInit tEnd dt seed in
    let! s := series_init (Arr (vec t)) (Arr (vec x)) in
    Ok (s, rs').
  Definition spectrum_create_series (rs : RS) (sp : spec N) (tstart tend dt : N) : res (series * RS) :=
    spectrum2timeseries_object rs (Arr (vec (s_f sp))) (Arr (vec (s_S sp))) tstart tend dt (-1).

  (** core_wavefunctions.py:405-447, 510-553 create_spectrum_object_jonswap / _piersonmoskowitz *)
  Definition create_spectrum_object_jonswap (f : arraylike N) (fp hm0 gammaPeak l_fmax : N) : res (spec N) :=
    let! Sd := create_spectrum_jonswap f fp hm0 gammaPeak l_fmax in
    spectrum_init f (Arr (vec Sd)).
  Definition create_spectrum_object_piersonmoskowitz := create_spectrum_object_jonswap.

  (** core_wave_decomposition.py:274-280: stacking the series, column i of a zero array of
      len(t) x len(x_loc); a column beyond the last is an IndexError, a signal of another length
      (other than 1: broadcast) a ValueError *)
  Fixpoint stack_columns (nt nloc i : nat) (cols : list (list N)) (ss : list series)
    : res (list (list N)) :=
    match ss with
    | [] => Ok cols
    | s :: ss' =>
        raise_if negb (Nat.ltb i nloc) with IndexError ;;
        let! c := fit nt (se_x s) in
        stack_columns nt nloc (S i) (firstn i cols ++ c :: skipn (S i) cols) ss'
    end.
  (** row-major data of a list of columns *)
  Definition rows_of (nt : nat) (cols : list (list N)) : list N :=
    flat_map (fun i => map (fun c => nth i c n0) cols) (seq 0 nt).

  (** core_wave_decomposition.py:215-287 decompose_linear_ZS_series *)
  Definition decompose_linear_ZS_series (ss : list series) (h : N) (x_loc w_loc : list N) (detLim : N)
    : res (series * series) :=
    match ss with
    | [] => Raise UnboundLocalError                             (* t is never assigned *)
    | s0 :: _ =>
        let t := se_t s0 in
        let nt := length t in
        let nloc := length x_loc in
        let! cols := stack_columns nt nloc 0 (repeat (repeat n0 nt) nloc) ss in
        let! (xi, xr) := decompose_linear_ZS t (mkArr [nt; nloc] (rows_of nt cols)) h x_loc w_loc detLim in
        let! si := series_init (Arr (vec t)) (Arr (vec xi)) in
        let! sr := series_init (Arr (vec t)) (Arr (vec xr)) in
        Ok (si, sr)
    end.
End Series.
Arguments series : clear implicits.
Arguments series_call : clear implicits.
