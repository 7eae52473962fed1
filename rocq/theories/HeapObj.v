(** * Objects in memory: WaveHeights, Series and Spectrum as the toolbox has them

    The classes keep references to arrays (the caller's own, or arrays made by the toolbox), so an
    object changes when somebody writes to an array it refers to.  This file transcribes the
    constructors and methods on the memory of HeapModel.v.  Expressions that build a new array
    (fancy indexing, np.delete, np.append, arithmetic) are evaluated as values and allocated. *)

From Coq Require Import ZArith String List Bool Arith.
From Verif Require Import Num Engine Cpx TimeModel SpectralModel WaveModel DisperModel DecompModel
  SpectrumModel SeriesModel HeapModel.
Import ListNotations.

Section HeapObj.
  Context {N : Num}.
  Local Open Scope num_scope.
  Local Notation cpx := (cpx N).
  Local Notation mem := (mem N).
  Local Notation hp := (hp N).

  (** an array with its present contents *)
  Definition arr_at (m : mem) (r : ref) : arr N := mkArr (r_shape r) (read Real m r).
  (** len(a) *)
  Definition h_len (r : ref) : nat := match r_shape r with n :: _ => n | [] => 0 end.

  (** a method: object and memory before, object and memory after, result or exception *)
  Definition hmeth (O A : Type) := O -> mem -> mem * O * res A.
  Definition hmbind {O A B} (p : hmeth O A) (k : A -> hmeth O B) : hmeth O B :=
    fun o m => match p o m with
               | (m', o', Ok a) => k a o' m'
               | (m', o', Raise e) => (m', o', Raise e)
               end.

  (** *** series.py:17-298 WaveHeights *)
  Record hwh := mkHWH { hw_h : ref; hw_t : ref; hw_n : nat }.
  (** the object as a value, with the present contents of its arrays *)
  Definition hw_view (m : mem) (o : hwh) : waveheights N :=
    mkWH (arr_at m (hw_h o)) (arr_at m (hw_t o)) (hw_n o).

  (** series.py:29-35 __init__ *)
  Definition h_wh_init (h t : pyarg N) : hp hwh :=
    do! (rh, _) := h_vector Real h in
    do! (rt, _) := h_vector Real t in
    hret (mkHWH rh rt (h_len rh)).

  Section Methods.
    Variable argsort : list N -> list nat.
    (** series.py:43-52 sort: hwave[iSorted] and twave[iSorted] are new arrays; the attributes are
        rebound, the old arrays are not written *)
    Definition h_wh_sort : hmeth hwh unit :=
      fun o m =>
        match sort_wave_params argsort (Arr (arr_at m (hw_h o))) (Arr (arr_at m (hw_t o))) with
        | Raise e => (m, o, Raise e)
        | Ok (h, t) =>
            match (do! rh := hvec Real h in do! rt := hvec Real t in hret (rh, rt)) m with
            | (m', Ok (rh, rt)) => (m', mkHWH rh rt (hw_n o), Ok tt)
            | (m', Raise e) => (m', o, Raise e)
            end
        end.
    (** an expression on the attributes *)
    Definition h_wh_eval {A} (g : waveheights N -> res A) : hmeth hwh A :=
      fun o m => (m, o, g (hw_view m o)).
    (** series.py:54-145: the getters *)
    Definition h_wh_Hrms : hmeth hwh N :=
      h_wh_eval (fun s => Ok (nsqrt (nmean (map (fun h => h * h) (data (wh_h s)))))).
    Definition h_wh_Hmax : hmeth hwh N := h_wh_eval (fun s => npmax (data (wh_h s))).
    Definition h_wh_highest (fracP : N) : hmeth hwh (N * N) :=
      hmbind h_wh_sort (fun _ => h_wh_eval (fun s => highest_waves_params (Arr (wh_h s)) (Arr (wh_t s)) fracP)).
    Definition h_wh_Hs : hmeth hwh (N * N) := h_wh_highest (n1 / nofZ 3).
    Definition h_wh_H2p_Rayleigh : hmeth hwh N :=
      hmbind h_wh_Hs (fun ht => h_wh_eval (fun _ =>
        Ok (fst ht * rayleigh_ppf (lit 98 100) (n1 / nsqrt (nofZ 2)) / nsqrt (nofZ 2)))).
    Definition h_wh_exceedance (excPerc : N) : hmeth hwh N :=
      hmbind h_wh_sort (fun _ => h_wh_eval (fun s => exceedance_wave_height (Arr (wh_h s)) excPerc)).
    (** series.py:147-174 plot_exceedance_waveheight, the plotted data *)
    Definition h_wh_plot_exceedance : hmeth hwh (list N * list N) :=
      hmbind h_wh_sort (fun _ => h_wh_eval (fun s =>
        Ok (data (wh_h s), map (fun v => v / nofnat (wh_n s)) (linspace0 (nofnat (wh_n s)) (wh_n s))))).
    (** series.py:176-272 plot_exceedance_waveheight_Rayleigh, the plotted data *)
    Definition h_wh_plot_Rayleigh (BG : N -> nat -> N -> N -> res (list N * list N))
               (normalize plot_BG : bool) (water_depth cota_slope hm0 : N)
      : hmeth hwh (list N * list N * list N * option (list N * list N)) :=
      hmbind (if normalize then hmbind h_wh_Hs (fun ht => h_wh_eval (fun _ => Ok (fst ht)))
              else h_wh_eval (fun _ => Ok n1)) (fun Hn o0 =>
        let n := hw_n o0 in
        let rx := map (fun i => nsqrt (- nln (nofnat i / nofnat n))) (seq 1 n) in
        hmbind h_wh_H2p_Rayleigh (fun H2p =>
          let theo := map (fun i => H2p * nsqrt (nln (n1 - nofnat i / nofnat (n + 1)) / nln (lit 2 100)))
                          (rev (seq 1 n)) in
          hmbind h_wh_sort (fun _ => h_wh_eval (fun s =>
            let! bg :=
              (if plot_BG
               then if hm0 =? - n1 then Raise ValueError
                    else let! (hBG, pBG) := BG hm0 n water_depth cota_slope in
                         Ok (Some (map (fun p => nsqrt (- nln p)) pBG, map (fun v => v / Hn) hBG))
               else Ok None) in
            Ok (rx, map (fun v => v / Hn) theo, map (fun v => v / Hn) (data (wh_h s)), bg)))) o0).

    (** the answer of each call, on memory and as a value (SeriesModel.v) *)
    Definition wh_answer (c : wh_call N) : Type :=
      match c with
      | WSort => unit | WHrms | WHmax | WH2p | WExceedance _ => N
      | WHs | WHighest _ => N * N
      | WPlotExc => list N * list N
      | WPlotRay _ _ _ _ _ _ => list N * list N * list N * option (list N * list N)
      end.
    Definition h_wh_call (c : wh_call N) : hmeth hwh (wh_answer c) :=
      match c with
      | WSort => h_wh_sort | WHrms => h_wh_Hrms | WHmax => h_wh_Hmax
      | WHs => h_wh_Hs | WH2p => h_wh_H2p_Rayleigh
      | WExceedance p => h_wh_exceedance p | WHighest p => h_wh_highest p
      | WPlotExc => h_wh_plot_exceedance
      | WPlotRay BG b pb d c hm0 => h_wh_plot_Rayleigh BG b pb d c hm0
      end.
    Definition v_wh_call (c : wh_call N) : wh_meth (wh_answer c) :=
      match c with
      | WSort => wh_sort argsort | WHrms => wh_Hrms | WHmax => wh_Hmax
      | WHs => wh_Hs argsort | WH2p => wh_H2p_Rayleigh argsort
      | WExceedance p => wh_exceedance argsort p | WHighest p => wh_highest argsort p
      | WPlotExc => wh_plot_exceedance argsort
      | WPlotRay BG b pb d c hm0 => wh_plot_Rayleigh argsort BG b pb d c hm0
      end.
  End Methods.

  (** *** series.py:301-626 Series *)
  Record hseries := mkHS { hs_t : ref; hs_x : ref; hs_nt : nat; hs_dt : N; hs_wh : hwh; hs_tCross : ref }.
  Definition hs_view (m : mem) (o : hseries) : series N :=
    mkSeries (read Real m (hs_t o)) (read Real m (hs_x o)) (hs_nt o) (hs_dt o)
             (hw_view m (hs_wh o)) (read Real m (hs_tCross o)).

  (** series.py:565-574 the first part of _determine_individual_waves: the signal without its low part,
      and the array of its zero crossings *)
  Definition h_series_crossings (rt rx : ref) (typeCross : string) (fcutoff : N) : hp ref :=
    do! t := hlist Real rt in
    do! rxr :=
      (if negb (fcutoff =? n0)
       then do! rlow := h_bandpassfilter (PArr rt) (PArr rx) n0 fcutoff in         (* :567-569 *)
            do! x := hlist Real rx in
            do! low := hlist Real rlow in
            do! d := hlift (bmap2 nsub x low) in
            hvec Real d
       else do! x := hlist Real rx in hvec Real (map (fun v => v - n0) x)) in
    do! xr := hlist Real rxr in
    do! (_, tc) := hlift (determine_zero_crossing (Arr (vec t)) (Arr (vec xr)) typeCross) in   (* :572-574 *)
    hnew Real (shape tc) (data tc).
  (** series.py:566-587: crossings, waves, removal of low waves; np.delete and np.append make new
      arrays.  Result: the arrays (hWave, tWave, aCrest, aTrough, tCrest, tTrough), the crossings
      that are kept, and all crossings *)
  Definition h_individual_waves (rt rx : ref) (typeCross : string) (fcutoff minimum_wave : N)
    : hp (ref * ref * ref * ref * ref * ref * ref * ref) :=
    do! rc := h_series_crossings rt rx typeCross fcutoff in
    do! (rH, rT, rAC, rAT, rTC, rTT) := h_determine_params_individual_waves (PArr rc) (PArr rt) (PArr rx) in
    do! hW := hread Real rH in
    let remove_index := where_ (fun v => v <? minimum_wave) hW in                  (* :586 *)
    do! c := hread Real rc in
    do! rkept := hvec Real (delete_idx remove_index c) in                          (* :587 *)
    do! rH' := hvec Real (delete_idx remove_index hW) in                           (* :588-593 *)
    do! tW := hread Real rT in do! rT' := hvec Real (delete_idx remove_index tW) in
    do! aC := hread Real rAC in do! rAC' := hvec Real (delete_idx remove_index aC) in
    do! aT := hread Real rAT in do! rAT' := hvec Real (delete_idx remove_index aT) in
    do! tC := hread Real rTC in do! rTC' := hvec Real (delete_idx remove_index tC) in
    do! tT := hread Real rTT in do! rTT' := hvec Real (delete_idx remove_index tT) in
    hret (rH', rT', rAC', rAT', rTC', rTT', rkept, rc).

  (** series.py:317-340 __init__ *)
  Definition h_series_init (time0 x0 : pyarg N) : hp hseries :=
    do! (rt, tSize) := h_vector Real time0 in                                      (* :318 *)
    do! (rx, xSize) := h_vector Real x0 in                                         (* :319 *)
    hraise_if negb (Nat.eqb (fst tSize) (fst xSize)) with AssertionError ;;
    do! t := hlist Real rt in
    hraise_if negb (nvar (ndiff t) <? nmean (map (fun d => d / nofZ 100) (ndiff t))) with AssertionError ;;
    do! x := hlist Real rx in
    let dt := nmean (ndiff t) in
    do! (rH, rT, _, _, _, _, rkept, _) := h_individual_waves rt rx "down"%string n0 n0 in
    do! wh := h_wh_init (PArr rH) (PArr rT) in                                     (* :595 *)
    do! wh := h_wh_init (PArr (hw_h wh)) (PArr (hw_t wh)) in                       (* :340 *)
    hret (mkHS rt rx (length t) dt wh rkept).

  (** series.py:525-596 _determine_individual_waves as a method: the arrays it returns *)
  Definition h_series_determine (typeCross : string) (fcutoff minimum_wave : N)
    : hmeth hseries (ref * ref * ref * ref * ref * ref * ref) :=
    fun o m =>
      match (do! (rH, rT, rAC, rAT, rTC, rTT, rkept, rc) :=
               h_individual_waves (hs_t o) (hs_x o) typeCross fcutoff minimum_wave in
             do! wh := h_wh_init (PArr rH) (PArr rT) in
             hret (wh, rkept, (rH, rT, rAC, rAT, rTC, rTT, rc))) m with
      | (m', Ok (wh, rkept, ret)) => (m', mkHS (hs_t o) (hs_x o) (hs_nt o) (hs_dt o) wh rkept, Ok ret)
      | (m', Raise e) => (m', o, Raise e)
      end.

  (** the state-changing calls on a Series *)
  Definition h_series_step (argsort : list N -> list nat) (c : series_call N) (m : mem) (o : hseries) : mem * hseries :=
    match c with
    | SWave c =>
        let '(m', w, _) := h_wh_call argsort c (hs_wh o) m in
        (m', mkHS (hs_t o) (hs_x o) (hs_nt o) (hs_dt o) w (hs_tCross o))
    | SDetermine ty fc mw =>
        let '(m', o', _) := h_series_determine ty fc mw o m in (m', o')
    end.

  (** series.py:484-499 get_bandpassfilter: the new object is built on this object's time array *)
  Definition h_series_bandpass (o : hseries) (fmin fmax : N) : hp hseries :=
    do! ry := h_bandpassfilter (PArr (hs_t o)) (PArr (hs_x o)) fmin fmax in
    h_series_init (PArr (hs_t o)) (PArr ry).
  (** series.py:501-523 get_fourier_comp *)
  Definition h_series_fourier (o : hseries) : hp (ref * ref * bool) :=
    h_time2freq_nyquist (PArr (hs_t o)) (PArr (hs_x o)).

  (** *** spectrum.py Spectrum: two arrays and the values the getters have stored *)
  Record hspec := mkHSp { hp_f : ref; hp_S : ref; hp_attr : spec N }.
  Definition with_data (f Sd : list N) (s : spec N) : spec N :=
    mkSpec f Sd (s_Hm0 s) (s_Hm0_HF s) (s_Hm0_LF s) (s_Tps s) (s_Tp s) (s_Tmm10 s) (s_Tmm10_HF s)
           (s_Tmm10_LF s) (s_Tm01 s) (s_Tm02 s) (s_s0p s) (s_smm10 s) (s_smm10_HF s).
  Definition hp_view (m : mem) (o : hspec) : spec N :=
    with_data (read Real m (hp_f o)) (read Real m (hp_S o)) (hp_attr o).

  (** spectrum.py:31-56 __init__ *)
  Definition h_spectrum_init (f0 s0 : pyarg N) : hp hspec :=
    do! (rf, fSize) := h_vector Real f0 in
    do! (rs, sSize) := h_vector Real s0 in
    do! f := hlist Real rf in
    do! mono := hlift (monotonic_increasing_constant_step f) in
    hraise_if negb mono with AssertionError ;;
    hraise_if negb (Nat.eqb (fst fSize) (fst sSize)) with AssertionError ;;
    do! s := hlist Real rs in
    hret (mkHSp rf rs (fresh [] [])).
  (** spectrum.py:80-456: the getters read the arrays and assign attributes only *)
  Definition h_spec_call (c : spec_call N) : hmeth hspec N :=
    fun o m => let (s, r) := spec_step c (hp_view m o) in
               (m, mkHSp (hp_f o) (hp_S o) (with_data [] [] s), r).

  (** series.py:452-470 get_spectrum_raw, with core_spectral.py:478-529 compute_spectrum_time_series *)
  Definition h_compute_spectrum_time_series (t x : pyarg N) (n : nat) (dfDesired : N) : hp (ref * ref) :=
    do! (rf, rX, _) := h_time2freq_nyquist t x in
    do! f := hlist Real rf in
    do! fb := hlift (idx f 1) in
    do! fa := hlift (idx f 0) in
    let df := fb - fa in
    do! X := hlist Complex rX in
    do! rs := hvec Real (map (var_dens df (nofnat n)) X) in
    h_frequency_averaging (PArr rf) (PArr rs) dfDesired.
  Definition h_series_spectrum_raw (o : hseries) (dfDesired : N) : hp hspec :=
    do! (rf, rs) := h_compute_spectrum_time_series (PArr (hs_t o)) (PArr (hs_x o)) (h_len (hs_t o)) dfDesired in
    h_spectrum_init (PArr rf) (PArr rs).

  (** core_wavefunctions.py:405-447 create_spectrum_object_jonswap: the object is built on the
      caller's f *)
  Definition h_create_spectrum_object_jonswap (f : pyarg N) (fp hm0 gammaPeak l_fmax : N) : hp hspec :=
    do! rs := h_create_spectrum_jonswap f fp hm0 gammaPeak l_fmax in
    h_spectrum_init f (PArr rs).

  (** spectrum.py:458-478 create_series *)
  Definition h_create_series {RS} (rng_seed : Z -> RS) (rng_rand : RS -> nat -> list N * RS)
             (rs : RS) (o : hspec) (tstart tend dt : N) : hp (hseries * RS) :=
    do! (rt, rx, rs') := h_spectrum2timeseries rng_seed rng_rand rs (PArr (hp_f o)) (PArr (hp_S o)) tstart tend dt (-1) in
    do! s := h_series_init (PArr rt) (PArr rx) in
    hret (s, rs').

  (** core_wave_decomposition.py:274-280: xTime[:, i] = series_object.xTime *)
  Fixpoint h_stack (rX : ref) (nt nloc i : nat) (os : list hseries) : hp unit :=
    match os with
    | [] => hret tt
    | o :: os' =>
        hraise_if negb (Nat.ltb i nloc) with IndexError ;;
        do! x := hread Real (hs_x o) in
        do! _ := hstore_slice Real (col_view nt nloc i rX) 0 nt x in
        h_stack rX nt nloc (S i) os'
    end.
  (** core_wave_decomposition.py:215-287 decompose_linear_ZS_series *)
  Definition h_decompose_series (os : list hseries) (h : N) (rxl rwl : ref) (detLim : N) : hp (hseries * hseries) :=
    match os with
    | [] => hlift (Raise UnboundLocalError)
    | o0 :: _ =>
        let rt := hs_t o0 in
        let nt := h_len rt in
        do! x_loc := hlist Real rxl in
        let nloc := length x_loc in
        do! rX := hnew Real [nt; nloc] (repeat n0 (nt * nloc)) in
        do! _ := h_stack rX nt nloc 0 os in
        do! (ri, rr) := h_decompose_linear_ZS rt rX h rxl rwl detLim in
        do! si := h_series_init (PArr rt) (PArr ri) in
        do! sr := h_series_init (PArr rt) (PArr rr) in
        hret (si, sr)
    end.
End HeapObj.
Arguments hseries : clear implicits.
Arguments hspec : clear implicits.
Arguments hmeth : clear implicits.
