(** * Model of deltares_wave_toolbox/cores/core_spectral.py *)

From Coq Require Import ZArith String List Bool.
From Verif Require Import Num Engine Cpx.
Import ListNotations.

Section Spectral.
  Context {N : Num}.
  Local Open Scope num_scope.
  Local Notation cpx := (cpx N).

  (** core_spectral.py:72-77: the averaging factor (a float) *)
  Definition avg_factor (f : list N) (dfDesired : N) : res N :=
    let! nFactor :=
      (if negb (dfDesired =? n0)
       then let! f1 := idx f 1 in
            let! f0 := idx f 0 in
            Ok (nrint (dfDesired / (f1 - f0)))                       (* :73 *)
       else Ok n1) in
    Ok (pymax2 nFactor n1).                                          (* :77 *)

  (** core_spectral.py:85-90: body of the averaging loop *)
  Definition avg_block (nFactor : N) (v : list N) (iFreq : nat) : res N :=
    let! ilow := int_trunc (nofnat iFreq * nFactor) in
    let! ihigh := int_trunc (nofnat (iFreq + 1) * nFactor) in
    Ok (nmean (slice (Z.to_nat ilow) (Z.to_nat ihigh) v)).

  (** core_spectral.py:16-92 frequency_averaging *)
  Definition frequency_averaging (f0 s0 : arraylike N) (dfDesired : N)
    : res (list N * list N) :=
    let '(f1, fSize) := convert_to_vector f0 in
    let '(s1, sSize) := convert_to_vector s0 in
    raise_if Nat.ltb 1 (snd fSize) || Nat.ltb 1 (snd sSize) with ValueError ;;   (* :66-67 *)
    let! f := as_list f1 in
    let! s := as_list s1 in
    let nFine := fst fSize in
    let! nFactor := avg_factor f dfDesired in
    let! nCoarse := int_floor (nofnat nFine / nFactor) in            (* :78 *)
    let nCoarse := Z.to_nat nCoarse in
    let! _ := idx s 0 in                                             (* :82 type(sVarDens[0]) *)
    let! fc := mapM (avg_block nFactor f) (seq 0 nCoarse) in
    let! sc := mapM (avg_block nFactor s) (seq 0 nCoarse) in
    Ok (fc, sc).

  (** numpy slice assignment of [src] to a slot of length [n]: equal lengths, or broadcast of
      a single value, otherwise ValueError *)
  Definition fit {A} (n : nat) (src : list A) : res (list A) :=
    if Nat.eqb (length src) n then Ok src
    else match src with [v] => Ok (repeat v n) | _ => Raise ValueError end.

  (** core_spectral.py:95-174 unfold_spectrum *)
  Definition unfold_spectrum (f0 : arraylike N) (xFreq0 : arraylike cpx) (isOdd : bool)
    : res (list N * list cpx) :=
    let '(f1, fSize) := convert_to_vector f0 in
    let '(x1, xSize) := convert_to_vector xFreq0 in
    raise_if Nat.ltb 1 (snd fSize) || Nat.ltb 1 (snd xSize) with ValueError ;;   (* :156-157 *)
    let! f := as_list f1 in
    let! xFreq := as_list x1 in
    let nF := fst fSize in
    let odd := if isOdd then 1 else 0 in
    let! fb := idx f 1 in
    let! fa := idx f 0 in
    let df := fb - fa in                                             (* :165 *)
    let nFTot := ((nF - 1) * 2 + odd)%nat in                         (* :160 *)
    let fTot := map (fun k => nofnat k * df) (seq 0 nFTot) in        (* :166 *)
    let! head := fit nF (slice 0 nF xFreq) in                        (* :169 *)
    (* :172  xFreqTot[nF-1+isOdd : nFTot] = flipud(conj(xFreqTot[1:nF])) *)
    let xFreqTot := firstn (nF - 1 + odd) head ++ rev (map cconj (slice 1 nF head)) in
    Ok (fTot, xFreqTot).

  (** core_spectral.py:177-239 coherence.  S11 = abs(x * conj(x)) etc.; inputs are ndarrays. *)
  Definition clamp_small (l : list N) : list N :=
    map (fun v => if v <? lit 1 10000000000 then lit 1 10000000000 else v) l.    (* :228-234 *)
  Definition coherence (f : arraylike N) (xFreq1 xFreq2 : list cpx) (dfDesired : N)
    : res (list N * list N) :=
    let! S11 := bmap2 (fun a b => cabs (cmul a (cconj b))) xFreq1 xFreq1 in
    let! S22 := bmap2 (fun a b => cabs (cmul a (cconj b))) xFreq2 xFreq2 in
    let! S12 := bmap2 (fun a b => cabs (cmul a (cconj b))) xFreq1 xFreq2 in
    let! (_, S11b) := frequency_averaging f (Arr (vec S11)) dfDesired in
    let! (_, S22b) := frequency_averaging f (Arr (vec S22)) dfDesired in
    let! (fc, S12b) := frequency_averaging f (Arr (vec S12)) dfDesired in
    let S11b := clamp_small S11b in
    let S22b := clamp_small S22b in
    let! den := bmap2 nmul S11b S22b in
    let! coh2 := bmap2 (fun s d => s * s / d) S12b den in            (* :237 *)
    Ok (fc, coh2).

  (** core_spectral.py:242-292 freq2time *)
  Definition freq2time (xFreq0 : arraylike cpx) : res (list N) :=
    let '(x1, xSize) := convert_to_vector xFreq0 in
    raise_if Nat.ltb 1 (snd xSize) with ValueError ;;
    let nF := fst xSize in
    raise_if Nat.eqb nF 0 with ValueError ;;     (* np.fft.ifft(x, 0): invalid number of data points *)
    let! xFreq := as_list x1 in
    Ok (map cre (ifft xFreq)).

  (** core_spectral.py:295-379 time2freq *)
  Definition time2freq (t0 x0 : arraylike N) : res (list N * list cpx) :=
    let '(t1, tSize) := convert_to_vector t0 in
    let '(x1, xSize) := convert_to_vector x0 in
    raise_if Nat.ltb 1 (snd tSize) || Nat.ltb 1 (snd xSize) with ValueError ;;   (* :354 *)
    let! t := as_list t1 in
    let! mono := monotonic_increasing_constant_step t in
    raise_if negb mono with ValueError ;;                            (* :357 *)
    raise_if negb (Nat.eqb (fst tSize) (fst xSize)) with ValueError ;;  (* :362 *)
    let! x := as_list x1 in
    let nT := fst tSize in
    let! tb := idx t 1 in
    let! ta := idx t 0 in
    let dt := tb - ta in
    let T := nofnat nT * dt in
    let df := n1 / T in
    let f := map (fun k => nofnat k * df) (seq 0 nT) in              (* :374 *)
    Ok (f, fft (map cofr x)).

  (** core_spectral.py:382-475 time2freq_nyquist *)
  Definition time2freq_nyquist (t0 x0 : arraylike N) : res (list N * list cpx * bool) :=
    let '(t1, tSize) := convert_to_vector t0 in
    let '(x1, xSize) := convert_to_vector x0 in
    raise_if Nat.ltb 1 (snd tSize) || Nat.ltb 1 (snd xSize) with ValueError ;;
    let! t := as_list t1 in
    let! mono := monotonic_increasing_constant_step t in
    raise_if negb mono with ValueError ;;
    raise_if negb (Nat.eqb (fst tSize) (fst xSize)) with ValueError ;;
    let! (fTotal, xTotal) := time2freq (Arr t1) (Arr x1) in         (* :460 *)
    let nT := fst tSize in
    let isOdd := Nat.odd nT in                                       (* :464 *)
    let iNyq := (Nat.div nT 2 + 1)%nat in                            (* :468 *)
    Ok (slice 0 iNyq fTotal, slice 0 iNyq xTotal, isOdd).

  (** 2 * X * conj(X) / (df * Ntime * Ntime), real part: core_spectral.py:523-524, 597 *)
  Definition var_dens (df : N) (Ntime : N) (X : cpx) : N :=
    cre (cdivr (cmul (cscale (nofZ 2) X) (cconj X)) (df * Ntime * Ntime)).

  (** len(a) of an array: first dimension *)
  Definition alen {A} (x : arraylike A) : nat :=
    match shape (convert_to_array_type x) with n :: _ => n | [] => 0 end.

  (** core_spectral.py:478-529 compute_spectrum_time_series *)
  Definition compute_spectrum_time_series (t x : arraylike N) (dfDesired : N)
    : res (list N * list N) :=
    let! (f, xFreq, _) := time2freq_nyquist t x in
    let! fb := idx f 1 in
    let! fa := idx f 0 in
    let df := fb - fa in
    let Ntime := nofnat (alen t) in
    let sFine := map (var_dens df Ntime) xFreq in
    frequency_averaging (Arr (vec f)) (Arr (vec sFine)) dfDesired.

  (** core_spectral.py:532-602 compute_spectrum_freq_series *)
  Definition compute_spectrum_freq_series (f0 : arraylike N) (xFreq0 : arraylike cpx)
             (Ntime : Z) (dfDesired : N) : res (list N * list N) :=
    let '(f1, fSize) := convert_to_vector f0 in
    let '(x1, xSize) := convert_to_vector xFreq0 in
    raise_if Nat.ltb 1 (snd fSize) || Nat.ltb 1 (snd xSize) with ValueError ;;
    let! f := as_list f1 in
    let! mono := monotonic_increasing_constant_step f in
    raise_if negb mono with ValueError ;;
    raise_if negb (Nat.eqb (fst fSize) (fst xSize)) with ValueError ;;
    let! xFreq := as_list x1 in
    let! fb := idx f 1 in
    let! fa := idx f 0 in
    let df := fb - fa in
    let sFine := map (var_dens df (nofZ Ntime)) xFreq in
    frequency_averaging (Arr f1) (Arr (vec sFine)) dfDesired.

  (** np.arange(start, stop, step): ceil((stop-start)/step) points, none when that is negative; as in numpy the first
      two are start and start+step, the others start + i*d with d the difference of the first two.
      A zero step is a ZeroDivisionError in numpy. *)
  Definition np_arange (start stop step : N) : res (list N) :=
    raise_if step =? n0 with ZeroDivisionError ;;
    match nceil ((stop - start) / step) with
    | None => Raise ValueError
    | Some n =>
        let d := (start + step) - start in
        Ok (map (fun i => match i with O => start | 1%nat => start + step | _ => start + nofnat i * d end) (seq 0 (Z.to_nat n)))
    end.

  (** np.interp(x, xp, fp, left=0, right=0) at one point: [prev] is the last knot not above x. *)
  Fixpoint interp_from (x : N) (xa ya : N) (l : list (N * N)) : N :=
    match l with
    | [] => if xa <? x then n0 else ya                        (* beyond the last knot: right = 0 *)
    | (xb, yb) :: l' =>
        if xb <=? x then interp_from x xb yb l'
        else (yb - ya) / (xb - xa) * (x - xa) + ya
    end.
  Definition np_interp (xp fp : list N) (x : N) : res N :=
    match combine xp fp with
    | [] => Raise ValueError
    | (x0, y0) :: l => Ok (if x <? x0 then n0 else interp_from x x0 y0 l)
    end.

  (** numpy's global random generator: seeding and drawing are parameters. *)
  Variable RS : Type.
  Variable rng_seed : Z -> RS.
  Variable rng_rand : RS -> nat -> list N * RS.

  (** core_spectral.py:605-709 spectrum2timeseries; the generator state is threaded through. *)
  Definition spectrum2timeseries (rs : RS) (f0 s0 : arraylike N) (tInit tEnd dt : N) (seed : Z)
    : res (list N * list N * RS) :=
    let '(f1, fSize) := convert_to_vector f0 in
    let '(_, xSize) := convert_to_vector s0 in
    raise_if Nat.ltb 1 (snd fSize) || Nat.ltb 1 (snd xSize) with ValueError ;;
    raise_if negb (Nat.eqb (fst fSize) (fst xSize)) with ValueError ;;
    let! f := as_list f1 in
    let! t := np_arange tInit (tEnd + dt) dt in                      (* :665 *)
    let nTime := length t in
    let nTimeEven := (2 * ((nTime + 1) / 2))%nat in                  (* :668 *)
    let tDuration := nofnat nTimeEven * dt in
    raise_if tDuration =? n0 with ZeroDivisionError ;;               (* :675, Python float division *)
    let dfGen := n1 / tDuration in
    let fNyq := n1 / (nofZ 2 * dt) in
    let! fGen := np_arange dfGen (fNyq + dfGen / nofZ 2) dfGen in    (* :677 *)
    let nF := length fGen in
    (* :685  np.interp gets the unconverted sVarDens: a 2-D (n,1) array is a ValueError there *)
    let! s := match s0 with
              | Scalar v => Ok [v]
              | Arr a => match shape a with [_] => Ok (data a) | [_; _] => Raise ValueError
                                       | _ => Raise Unmodelled end
              end in
    let! sGen := mapM (np_interp f s) fGen in
    raise_if Z.ltb 4294967295 seed with ValueError ;;                (* np.random.seed range *)
    let rs := if Z.leb 0 seed then rng_seed seed else rs in          (* :690-691 *)
    let '(u, rs') := rng_rand rs nF in
    let phase := map (fun r => nofZ 2 * npi * r) u in                (* :693 *)
    let amplitude := map (fun s => nsqrt (nofZ 2 * s * dfGen)) sGen in  (* :696 *)
    let comp := map2 (fun a p => cscale (a / nofZ 2) (cexpi p)) amplitude phase in  (* :701 *)
    (* :700-702  zeros; [1:nF+1] = comp; [nF:nTimeEven] = flip(conj([1:nF+1])) *)
    let xFreq := firstn nF (c0 :: comp) ++ rev (map cconj comp) in
    raise_if negb (Nat.eqb (length xFreq) nTimeEven) with ValueError ;;
    let xTime := map (fun z => cre (cscale (nofnat nTimeEven) z)) (ifft xFreq) in  (* :705 *)
    Ok (t, firstn nTime xTime, rs').                                 (* :708 *)

  (** core_spectral.py:812-861 applybandfilter (arguments are 1-D arrays) *)
  Definition applybandfilter (f : list N) (xFreq : list cpx) (flow fhigh : N) : res (list cpx) :=
    let Nf := length f in
    let! ffirst := idx f 0 in
    let! flast := idx_last f in
    let! ilow :=
      (if flow <=? ffirst then Ok 1%nat
       else if flast <=? flow then Ok Nf
       else let! i := idx_last (where_ (fun v => v <? flow) f) in Ok (i + 1)%nat) in
    let! ihigh :=
      (if fhigh <=? ffirst then Ok 1%nat
       else if flast <=? fhigh then Ok Nf
       else idx_last (where_ (fun v => v <? fhigh) f)) in
    Ok (map2 (fun k z => if Nat.leb ilow k && Nat.ltb k ihigh then z else c0)
             (seq 0 (length xFreq)) xFreq).

  (** core_spectral.py:864-895 bandpassfilter *)
  Definition bandpassfilter (t x : arraylike N) (flow fhigh : N) : res (list N) :=
    let! (f, xFreq, isOdd) := time2freq_nyquist t x in
    let! zFreq := applybandfilter f xFreq flow fhigh in
    let! (_, zUnf) := unfold_spectrum (Arr (vec f)) (Arr (vec zFreq)) isOdd in
    freq2time (Arr (vec zUnf)).

  (** core_spectral.py:753-809 compute_spectrum_welch_wrapper: scipy's welch is a parameter that
      gets (signal, fs, window, nperseg, noverlap, nfft); 0 means None. *)
  Variable welch : list N -> N -> String.string -> option Z -> option Z -> option Z
                   -> res (list N * list N).
  Definition none_if_zero (z : Z) : option Z := if Z.eqb z 0 then None else Some z.
  Definition compute_spectrum_welch_wrapper (xTime : list N) (dt : N)
             (nperseg noverlap nfft : Z) (window_type : String.string) : res (list N * list N) :=
    welch xTime (n1 / dt) window_type
          (none_if_zero nperseg) (none_if_zero noverlap) (none_if_zero nfft).
End Spectral.
