(** * Arrays in memory: the toolbox with references, in-place writes and shared storage

    The other model files treat arrays as values.  numpy arrays are references to memory, and
    several toolbox functions fill arrays in place.  This file transcribes every statement of the
    toolbox that assigns to (part of) an array, on an explicit memory; HeapClaims.v and HeapObj.v
    prove that those functions compute what the value model says, that they write to no array
    they were given, and which objects share storage with the caller.

    A memory is a list of real and a list of complex buffers.  An array is a buffer and the
    positions of its elements in that buffer (in row-major order of the array), so slices, columns
    and other views of one buffer - also overlapping ones - are arrays that share storage.
    Expressions that build a new array are evaluated as values and then allocated; views of a new
    array that are dropped at once (np.zeros((1, n))[0]) are modelled as new arrays. *)

From Coq Require Import ZArith String List Bool Arith.
From Verif Require Import Num Engine Cpx TimeModel SpectralModel WaveModel DisperModel DecompModel
  SpectrumModel SeriesModel.
Import ListNotations.

(** an array: buffer number, positions in the buffer, shape (numpy: base, strides and shape) *)
Record ref := mkRef { r_buf : nat; r_idx : list nat; r_shape : list nat }.

Section Heap.
  Context {N : Num}.
  Local Open Scope num_scope.
  Local Notation cpx := (cpx N).

  Record mem := mkMem { mR : list (list N); mC : list (list cpx) }.

  (** float64 and complex128 arrays *)
  Inductive dtype : Type -> Type := Real : dtype (car N) | Complex : dtype cpx.
  Definition bufs {A} (d : dtype A) : mem -> list (list A) :=
    match d with Real => mR | Complex => mC end.
  Definition set_bufs {A} (d : dtype A) : list (list A) -> mem -> mem :=
    match d with
    | Real => fun l m => mkMem l (mC m)
    | Complex => fun l m => mkMem (mR m) l
    end.
  Definition zero {A} (d : dtype A) : A := match d with Real => n0 | Complex => c0 end.

  (** the elements of an array, as they are in memory now *)
  Definition read {A} (d : dtype A) (m : mem) (r : ref) : list A :=
    map (fun i => nth i (nth (r_buf r) (bufs d m) []) (zero d)) (r_idx r).

  (** l with position i replaced *)
  Fixpoint upd {A} (i : nat) (v : A) (l : list A) : list A :=
    match l, i with
    | [], _ => []
    | _ :: l', O => v :: l'
    | x :: l', S i' => x :: upd i' v l'
    end.
  (** one element of one buffer overwritten *)
  Definition poke {A} (d : dtype A) (b i : nat) (v : A) (m : mem) : mem :=
    set_bufs d (upd b (upd i v (nth b (bufs d m) [])) (bufs d m)) m.

  (** *** Computations on memory *)
  Definition hp (A : Type) := mem -> mem * res A.
  Definition hret {A} (a : A) : hp A := fun m => (m, Ok a).
  Definition hlift {A} (r : res A) : hp A := fun m => (m, r).
  Definition hbind {A B} (p : hp A) (k : A -> hp B) : hp B :=
    fun m => match p m with
             | (m', Ok a) => k a m'
             | (m', Raise e) => (m', Raise e)
             end.
  Notation "'do!' p ':=' c 'in' k" := (hbind c (fun p => k))
    (at level 200, p pattern, c at level 100, k at level 200, right associativity).
  Notation "'hraise_if' c 'with' e ';;' k" := (if c then hlift (Raise e) else k)
    (at level 200, c at level 100, e at level 0, k at level 200, right associativity).

  (** a new array with the given elements *)
  Definition hnew {A} (d : dtype A) (sh : list nat) (l : list A) : hp ref :=
    fun m => (set_bufs d (bufs d m ++ [l]) m,
              Ok (mkRef (length (bufs d m)) (seq 0 (length l)) sh)).
  Definition hvec {A} (d : dtype A) (l : list A) : hp ref := hnew d [length l] l.
  (** the elements of an array (any shape), and of a 1-D array *)
  Definition hread {A} (d : dtype A) (r : ref) : hp (list A) := fun m => (m, Ok (read d m r)).
  Definition hlist {A} (d : dtype A) (r : ref) : hp (list A) :=
    fun m => (m, as_list (mkArr (r_shape r) (read d m r))).

  (** r[i] = v (i-th element of the flattened array) *)
  Definition hstore {A} (d : dtype A) (r : ref) (i : nat) (v : A) : hp unit :=
    fun m => match nth_error (r_idx r) i with
             | Some p => (poke d (r_buf r) p v m, Ok tt)
             | None => (m, Raise IndexError)
             end.
  (** r[[i1; i2; ...]] = [v1; v2; ...], of equal lengths *)
  Fixpoint hstores {A} (d : dtype A) (r : ref) (ivs : list (nat * A)) : hp unit :=
    match ivs with
    | [] => hret tt
    | (i, v) :: ivs' => do! _ := hstore d r i v in hstores d r ivs'
    end.
  (** r[i:j] = src: clipped slice, equal lengths or a single value broadcast, else ValueError *)
  Definition hstore_slice {A} (d : dtype A) (r : ref) (i j : nat) (src : list A) : hp unit :=
    let n := length (slice i j (r_idx r)) in
    do! vs := hlift (fit n src) in
    hstores d r (combine (seq i n) vs).

  (** for k in ...: body k *)
  Fixpoint hfor (ks : list nat) (body : nat -> hp unit) : hp unit :=
    match ks with
    | [] => hret tt
    | k :: ks' => do! _ := body k in hfor ks' body
    end.

  (** *** Arguments of the toolbox functions *)
  (** a number, a (nested) list, or an ndarray of the caller *)
  Inductive pyarg (A : Type) := PScalar (x : A) | PList (a : arr A) | PArr (r : ref).
  Arguments PScalar {A}. Arguments PList {A}. Arguments PArr {A}.
  (** the argument as a value (Engine.v), with the present contents of memory *)
  Definition argval {A} (d : dtype A) (m : mem) (p : pyarg A) : arraylike A :=
    match p with
    | PScalar x => Scalar x
    | PList a => Arr a
    | PArr r => Arr (mkArr (r_shape r) (read d m r))
    end.

  (** core_engine.py:76-88 _size: depends on the shape only *)
  Definition h_size (r : ref) : nat * nat := size_ (mkArr (r_shape r) (@nil unit)).

  (** core_engine.py:10-27 convert_to_array_type: an ndarray is returned as it is *)
  Definition h_array {A} (d : dtype A) (p : pyarg A) : hp ref :=
    match p with
    | PScalar x => hnew d [1%nat] [x]
    | PList a => hnew d (shape a) (data a)
    | PArr r => hret r
    end.
  (** core_engine.py:30-53 convert_to_vector: an (n,1) array is copied by flatten(), any other
      ndarray is returned as it is *)
  Definition h_vector {A} (d : dtype A) (p : pyarg A) : hp (ref * (nat * nat)) :=
    do! r := h_array d p in
    let xSize := h_size r in
    if Nat.eqb (snd xSize) 1
    then do! l := hread d r in
         do! r' := hnew d [fold_right Nat.mul 1%nat (r_shape r)] l in
         hret (r', xSize)
    else hret (r, xSize).

  (** *** core_spectral.py *)

  (** core_spectral.py:16-92 frequency_averaging *)
  Definition h_frequency_averaging (f0 s0 : pyarg N) (dfDesired : N) : hp (ref * ref) :=
    do! (rf, fSize) := h_vector Real f0 in                                       (* :63 *)
    do! (rs, sSize) := h_vector Real s0 in                                       (* :64 *)
    hraise_if Nat.ltb 1 (snd fSize) || Nat.ltb 1 (snd sSize) with ValueError ;;  (* :66-67 *)
    do! f := hlist Real rf in
    do! s := hlist Real rs in
    do! nFactor := hlift (avg_factor f dfDesired) in                             (* :71-77 *)
    do! nC := hlift (int_floor (nofnat (fst fSize) / nFactor)) in                (* :78 *)
    let nCoarse := Z.to_nat nC in
    let fc0 := repeat n0 (length (slice 0 nCoarse f)) in
    do! rfc := hvec Real fc0 in                                                  (* :81 *)
    do! _ := hlift (idx s 0) in                                                  (* :82 *)
    do! rsc := hvec Real (repeat n0 (length fc0)) in                             (* :82 *)
    do! _ := hfor (seq 0 nCoarse) (fun iFreq =>                                  (* :85-90 *)
      do! ilow := hlift (int_trunc (nofnat iFreq * nFactor)) in
      do! ihigh := hlift (int_trunc (nofnat (iFreq + 1) * nFactor)) in
      do! f := hlist Real rf in
      do! _ := hstore Real rfc iFreq (nmean (slice (Z.to_nat ilow) (Z.to_nat ihigh) f)) in
      do! s := hlist Real rs in
      hstore Real rsc iFreq (nmean (slice (Z.to_nat ilow) (Z.to_nat ihigh) s))) in
    hret (rfc, rsc).

  (** core_spectral.py:95-174 unfold_spectrum *)
  Definition h_unfold_spectrum (f0 : pyarg N) (x0 : pyarg cpx) (isOdd : bool) : hp (ref * ref) :=
    do! (rf, fSize) := h_vector Real f0 in
    do! (rx, xSize) := h_vector Complex x0 in
    hraise_if Nat.ltb 1 (snd fSize) || Nat.ltb 1 (snd xSize) with ValueError ;;
    do! f := hlist Real rf in
    do! x := hlist Complex rx in
    let nF := fst fSize in
    let odd := if isOdd then 1%nat else 0%nat in
    do! fb := hlift (idx f 1) in
    do! fa := hlift (idx f 0) in
    let nFTot := ((nF - 1) * 2 + odd)%nat in
    do! rfT := hvec Real (map (fun k => nofnat k * (fb - fa)) (seq 0 nFTot)) in  (* :166 *)
    do! rxT := hvec Complex (repeat c0 nFTot) in                                 (* :168 *)
    do! x := hlist Complex rx in
    do! _ := hstore_slice Complex rxT 0 nF (slice 0 nF x) in                     (* :169 *)
    do! xT := hlist Complex rxT in
    do! _ := hstore_slice Complex rxT (nF - 1 + odd) nFTot
               (rev (map cconj (slice 1 nF xT))) in                              (* :172 *)
    hret (rfT, rxT).

  (** core_spectral.py:177-239 coherence; xFreq1, xFreq2 are 1-D ndarrays *)
  Definition h_clamp_small (r : ref) : hp unit :=                                (* :228-229, :231-232 *)
    do! l := hlist Real r in
    let ismall := where_ (fun v => v <? lit 1 10000000000) l in
    hstores Real r (map (fun i => (i, lit 1 10000000000)) ismall).
  Definition h_coherence (f0 : pyarg N) (x1 x2 : ref) (dfDesired : N) : hp (ref * ref) :=
    do! X1 := hlist Complex x1 in
    do! X2 := hlist Complex x2 in
    do! S11 := hlift (bmap2 (fun a b => cabs (cmul a (cconj b))) X1 X1) in
    do! r11 := hvec Real S11 in
    do! S22 := hlift (bmap2 (fun a b => cabs (cmul a (cconj b))) X2 X2) in
    do! r22 := hvec Real S22 in
    do! S12 := hlift (bmap2 (fun a b => cabs (cmul a (cconj b))) X1 X2) in
    do! r12 := hvec Real S12 in
    do! (_, b11) := h_frequency_averaging f0 (PArr r11) dfDesired in             (* :221 *)
    do! (_, b22) := h_frequency_averaging f0 (PArr r22) dfDesired in
    do! (fc, b12) := h_frequency_averaging f0 (PArr r12) dfDesired in
    do! _ := h_clamp_small b11 in
    do! _ := h_clamp_small b22 in
    do! S11b := hlist Real b11 in
    do! S22b := hlist Real b22 in
    do! S12b := hlist Real b12 in
    do! den := hlift (bmap2 nmul S11b S22b) in
    do! coh2 := hlift (bmap2 (fun s d => s * s / d) S12b den) in                 (* :237 *)
    do! rc := hvec Real coh2 in
    hret (fc, rc).

  (** core_spectral.py:242-292 freq2time: no assignment to an array *)
  Definition h_freq2time (x0 : pyarg cpx) : hp ref :=
    do! (rx, xSize) := h_vector Complex x0 in
    do! x := hread Complex rx in
    do! y := hlift (freq2time (Arr (mkArr (r_shape rx) x))) in
    hvec Real y.
  (** core_spectral.py:382-475 time2freq_nyquist: no assignment to an array *)
  Definition h_time2freq_nyquist (t0 x0 : pyarg N) : hp (ref * ref * bool) :=
    do! (rt, _) := h_vector Real t0 in
    do! (rx, _) := h_vector Real x0 in
    do! t := hread Real rt in
    do! x := hread Real rx in
    do! (f, X, isOdd) := hlift (time2freq_nyquist (Arr (mkArr (r_shape rt) t)) (Arr (mkArr (r_shape rx) x))) in
    do! rf := hvec Real f in
    do! rX := hvec Complex X in
    hret (rf, rX, isOdd).

  (** core_spectral.py:812-861 applybandfilter; f, xFreq are 1-D ndarrays *)
  Definition h_applybandfilter (rf rx : ref) (flow fhigh : N) : hp ref :=
    do! f := hlist Real rf in
    do! x := hlist Complex rx in
    let Nf := length f in
    do! ffirst := hlift (idx f 0) in
    do! flast := hlift (idx_last f) in
    do! ilow :=
      (if flow <=? ffirst then hret 1%nat
       else if flast <=? flow then hret Nf
       else do! i := hlift (idx_last (where_ (fun v => v <? flow) f)) in hret (i + 1)%nat) in
    do! ihigh :=
      (if fhigh <=? ffirst then hret 1%nat
       else if flast <=? fhigh then hret Nf
       else hlift (idx_last (where_ (fun v => v <? fhigh) f))) in
    do! rz := hvec Complex (repeat c0 (length x)) in                             (* :857 *)
    do! x := hlist Complex rx in
    do! _ := hstore_slice Complex rz ilow ihigh (slice ilow ihigh x) in          (* :860 *)
    hret rz.

  (** core_spectral.py:864-895 bandpassfilter *)
  Definition h_bandpassfilter (t0 x0 : pyarg N) (flow fhigh : N) : hp ref :=
    do! (rf, rX, isOdd) := h_time2freq_nyquist t0 x0 in
    do! rz := h_applybandfilter rf rX flow fhigh in
    do! (_, rU) := h_unfold_spectrum (PArr rf) (PArr rz) isOdd in
    h_freq2time (PArr rU).

  (** core_spectral.py:605-709 spectrum2timeseries: t, xTime and the new state of numpy's random
      generator (a parameter, as in SpectralModel.v) *)
  Definition h_spectrum2timeseries {RS : Type} (rng_seed : Z -> RS) (rng_rand : RS -> nat -> list N * RS)
             (rs : RS) (f0 s0 : pyarg N) (tInit tEnd dt : N) (seed : Z) : hp (ref * ref * RS) :=
    do! (rf, fSize) := h_vector Real f0 in
    do! (_, xSize) := h_vector Real s0 in
    hraise_if Nat.ltb 1 (snd fSize) || Nat.ltb 1 (snd xSize) with ValueError ;;
    hraise_if negb (Nat.eqb (fst fSize) (fst xSize)) with ValueError ;;
    do! f := hlist Real rf in
    do! t := hlift (np_arange tInit (tEnd + dt) dt) in                           (* :665 *)
    do! rt := hvec Real t in
    let nTime := length t in
    let nTimeEven := (2 * ((nTime + 1) / 2))%nat in                              (* :668 *)
    let tDuration := nofnat nTimeEven * dt in
    hraise_if tDuration =? n0 with ZeroDivisionError ;;
    let dfGen := n1 / tDuration in
    let fNyq := n1 / (nofZ 2 * dt) in
    do! fGen := hlift (np_arange dfGen (fNyq + dfGen / nofZ 2) dfGen) in         (* :677 *)
    let nF := length fGen in
    do! sarr := (fun m => (m, Ok (argval Real m s0))) in                         (* :685 uses sVarDens as given *)
    do! s := hlift (match sarr with
                    | Scalar v => Ok [v]
                    | Arr a => match shape a with [_] => Ok (data a) | [_; _] => Raise ValueError
                                             | _ => Raise Unmodelled end
                    end) in
    do! sGen := hlift (mapM (np_interp f s) fGen) in
    hraise_if Z.ltb 4294967295 seed with ValueError ;;
    let rs := if Z.leb 0 seed then rng_seed seed else rs in                      (* :690-691 *)
    let '(u, rs') := rng_rand rs nF in
    let phase := map (fun r => nofZ 2 * npi * r) u in
    let amplitude := map (fun s => nsqrt (nofZ 2 * s * dfGen)) sGen in
    do! rx := hvec Complex (repeat c0 nTimeEven) in                              (* :700 *)
    do! _ := hstore_slice Complex rx 1 (nF + 1)
               (map2 (fun a p => cscale (a / nofZ 2) (cexpi p)) amplitude phase) in  (* :701 *)
    do! x := hlist Complex rx in
    do! _ := hstore_slice Complex rx nF nTimeEven
               (rev (map cconj (slice 1 (nF + 1) x))) in                         (* :702 *)
    do! x := hlist Complex rx in
    let xTime := map (fun z => cre (cscale (nofnat nTimeEven) z)) (ifft x) in    (* :705 *)
    do! rxT := hvec Real (firstn nTime xTime) in                                 (* :708 *)
    hret (rt, rxT, rs').

  (** *** core_time.py:392-540 determine_params_individual_waves: hWave, tWave, aCrest, aTrough,
      tCrest, tTrough *)
  Definition h_determine_params_individual_waves (c0 t0 x0 : pyarg N)
    : hp (ref * ref * ref * ref * ref * ref) :=
    do! rc := h_array Real c0 in
    do! rt := h_array Real t0 in
    do! rx := h_array Real x0 in
    if Nat.eqb (fold_right Nat.mul 1%nat (r_shape rc)) 0 then                    (* :465-473 *)
      do! e1 := hnew Real [0; 0]%nat [] in
      do! e2 := hnew Real [0; 0]%nat [] in
      do! e3 := hnew Real [0; 0]%nat [] in
      do! e4 := hnew Real [0; 0]%nat [] in
      do! e5 := hnew Real [0; 0]%nat [] in
      do! e6 := hnew Real [0; 0]%nat [] in
      hret (e1, e2, e3, e4, e5, e6)
    else
      hraise_if negb (is1darray (mkArr (r_shape rc) (@nil unit))) with ValueError ;;
      hraise_if negb (is1darray (mkArr (r_shape rt) (@nil unit))) with ValueError ;;
      hraise_if negb (is1darray (mkArr (r_shape rx) (@nil unit))) with ValueError ;;
      do! tCross := hlist Real rc in
      do! t := hlist Real rt in
      do! x := hlist Real rx in
      hraise_if negb (Nat.eqb (length t) (length x)) with ValueError ;;
      let nWave := (length tCross - 1)%nat in                                    (* :503 *)
      do! tWave := hvec Real (repeat n0 nWave) in                                (* :506-511 *)
      do! hWave := hvec Real (repeat n0 nWave) in
      do! aCrest := hvec Real (repeat n0 nWave) in
      do! aTrough := hvec Real (repeat n0 nWave) in
      do! tCrest := hvec Real (repeat n0 nWave) in
      do! tTrough := hvec Real (repeat n0 nWave) in
      do! _ := hfor (seq 0 nWave) (fun iWave =>
        do! tCross := hlist Real rc in
        do! t := hlist Real rt in
        do! x := hlist Real rx in
        do! tIni := hlift (idx tCross iWave) in
        do! tEnd := hlift (idx tCross (iWave + 1)) in
        do! iIni := hlift (idx (where_ (fun v => tIni <=? v) t) 0) in
        do! iEnd := hlift (idx_last (where_ (fun v => v <=? tEnd) t)) in
        let tI := slice iIni (iEnd + 1) t in
        let xI := slice iIni (iEnd + 1) x in
        do! mx := hlift (pymax xI) in
        do! iMax := hlift (idx (where_ (fun v => v =? mx) xI) 0) in
        do! mn := hlift (pymin xI) in
        do! iMin := hlift (idx (where_ (fun v => v =? mn) xI) 0) in
        do! cr := hlift (idx xI iMax) in
        do! tr := hlift (idx xI iMin) in
        do! tcr := hlift (idx tI iMax) in
        do! ttr := hlift (idx tI iMin) in
        do! _ := hstore Real tWave iWave (tEnd - tIni) in                        (* :533 *)
        do! _ := hstore Real aCrest iWave cr in
        do! _ := hstore Real aTrough iWave tr in
        do! _ := hstore Real tCrest iWave tcr in
        do! _ := hstore Real tTrough iWave ttr in
        do! C := hlist Real aCrest in
        do! T := hlist Real aTrough in
        do! a := hlift (idx C iWave) in
        do! b := hlift (idx T iWave) in
        hstore Real hWave iWave (a - b)) in                                      (* :538 *)
      hret (hWave, tWave, aCrest, aTrough, tCrest, tTrough).

  (** *** core_dispersion.py:9-89 disper, on 1-D (or scalar) w *)
  (** :71-82, one pass of the loop: new q from q and w2 (arrays), with arg filled in place *)
  Definition h_disper_pass (rw2 rq : ref) : hp ref :=
    do! w2 := hlist Real rw2 in
    do! q := hlist Real rq in
    let thq := map ntanh q in
    let thq2 := map (fun th => n1 - th * th) thq in
    let a := map2 (fun qt h2 => (n1 - qt) * h2) (map2 nmul q thq) thq2 in
    let b := map2 nadd thq (map2 nmul q thq2) in
    let c := map2 nsub (map2 nmul q thq) w2 in
    do! rarg := hvec Real (repeat n0 (length q)) in                              (* :76 *)
    let iq := where_ (fun v => negb (v =? n0)) a in                              (* :77 *)
    do! aq := hlift (take a iq) in
    do! bq := hlift (take b iq) in
    do! cq := hlift (take c iq) in
    do! _ := hstores Real rarg
               (combine iq (map2 (fun b ac => b * b - ac) bq
                                 (map2 (fun a c => nofZ 4 * a * c) aq cq))) in   (* :78 *)
    do! arg := hlist Real rarg in
    do! argq := hlift (take arg iq) in
    do! _ := hstores Real rarg
               (combine iq (map2 ndiv (map2 (fun b s => (- b) + nsqrt s) bq argq)
                                 (map (fun a => nofZ 2 * a) aq))) in             (* :79 *)
    let iq := where_ (fun p => nabs (fst p) <? lit 1 100000000 * (snd p * snd p))
                     (combine (map2 nmul a c) b) in                              (* :80 *)
    do! bq := hlift (take b iq) in
    do! cq := hlift (take c iq) in
    do! _ := hstores Real rarg (combine iq (map2 (fun c b => (- c) / b) cq bq)) in  (* :81 *)
    do! arg := hlist Real rarg in
    hvec Real (map2 nadd q arg).                                                 (* :82 *)
  Definition h_disper (w0 : pyarg N) (h g : N) : hp ref :=
    do! rw := h_array Real w0 in
    do! w := hlist Real rw in
    if nisinf h then hlift (Raise UnboundLocalError)
    else if h <? n0 then hlift (Raise UnboundLocalError)
    else
      do! rw2 := hvec Real (map (fun w => w * w * h / g) w) in                   (* :63 *)
      do! w2 := hlist Real rw2 in
      let ielem := where_ (fun v => v <? lit 1 100000000) w2 in
      do! _ := hstores Real rw2 (map (fun i => (i, lit 1 100000000)) ielem) in   (* :66 *)
      do! w2 := hlist Real rw2 in
      do! rq := hvec Real (map disper_q0 w2) in                                  (* :67 *)
      do! rq := h_disper_pass rw2 rq in
      do! rq := h_disper_pass rw2 rq in
      do! q := hlist Real rq in
      do! w := hlist Real rw in
      do! rk := hvec Real (map2 (fun s q => s * q / h) (map nsign w) q) in       (* :84 *)
      do! k := hlist Real rk in
      let ik := where_ (fun v => nisnan v) k in
      do! _ := hstores Real rk (combine ik (repeat n0 (length ik))) in           (* :86-87 *)
      hret rk.

  (** *** core_wavefunctions.py:274-402 create_spectrum_jonswap *)
  Definition h_create_spectrum_jonswap (f0 : pyarg N) (fp hm0 gammaPeak l_fmax : N) : hp ref :=
    do! (rf, fSize) := h_vector Real f0 in
    let nf := fst fSize in
    hraise_if Nat.eqb nf 0 with ValueError ;;
    hraise_if Nat.ltb 1 (snd fSize) with ValueError ;;
    do! f := hlist Real rf in
    do! flast := hlift (idx f (nf - 1)) in
    do! fmax := hlift (if l_fmax =? n0 then Ok flast
                       else if l_fmax =? n1 then Ok ninf
                       else Raise ValueError) in
    do! rs := hvec Real (repeat n0 (length f)) in                                (* :366 *)
    do! _ := hfor (seq 0 nf) (fun iff =>                                         (* :370-392 *)
      do! f := hlist Real rf in
      do! fi := hlift (idx f iff) in
      if spacing1 <? fi
      then let nu := fi / fp in
           let sigma := if fi <? fp then lit 7 100 else lit 9 100 in
           let A := nexp ((- ((nu - n1) * (nu - n1))) / (nofZ 2 * (sigma * sigma))) in
           let lambda := npow gammaPeak A in
           hstore Real rs iff
             (jonswap_C * npowi fi (-5) * nexp (lit (-125) 100 * npowi nu (-4)) * lambda)
      else hret tt) in
    do! f := hlist Real rf in
    do! s := hlist Real rs in
    do! ffirst := hlift (idx f 0) in
    do! m0 := hlift (compute_moment (Arr (vec f)) (Arr (vec s)) 0 ffirst fmax) in
    let r := hm0 / (nofZ 4 * nsqrt m0) in
    hvec Real (map (fun v => v * (r * r)) s).                                    (* :401, a new array *)

  (** *** core_wave_decomposition.py:13-212 decompose_linear_ZS *)
  (** the view xTime[:, j] of a (Ntime, Nloc) array *)
  Definition col_view (Ntime Nloc j : nat) (r : ref) : ref :=
    mkRef (r_buf r) (map (fun i => nth (i * Nloc + j) (r_idx r) 0%nat) (seq 0 Ntime)) [Ntime].
  (** f.reshape(len(f), 1): the same elements *)
  Definition as_column (r : ref) : ref := mkRef (r_buf r) (r_idx r) [length (r_idx r); 1%nat].

  (** :170-198 one frequency: the solution of the 2x2 system, if its determinant is large enough *)
  Definition zs_solve (detLim wsum k : N) (gs : list (N * N * cpx)) : option (cpx * cpx) :=
    let a11 := csum_map (fun '(w, d, _) => cscale w (cexpi (- (nofZ 2 * k * d)))) gs in
    let a22 := csum_map (fun '(w, d, _) => cscale w (cexpi (nofZ 2 * k * d))) gs in
    let b1 := csum_map (fun '(w, d, X) => cmul (cscale w X) (cexpi (- (k * d)))) gs in
    let b2 := csum_map (fun '(w, d, X) => cmul (cscale w X) (cexpi (k * d))) gs in
    let a12 := cofr wsum in
    let a21 := cofr wsum in
    let detA := csub (cmul a11 a22) (cmul a12 a21) in
    let sDetA := cabs (cscale (lit (-25) 100) detA) in
    if detLim <? sDetA
    then Some (cdiv (csub (cmul a22 b1) (cmul a12 b2)) detA,
               cdiv (cadd (cmul (copp a21) b1) (cmul a11 b2)) detA)
    else None.

  Definition h_decompose_linear_ZS (rt rX : ref) (h : N) (rxl rwl : ref) (detLim : N) : hp (ref * ref) :=
    match r_shape rX with
    | [Ntime; Nloc] =>
        do! t := hlist Real rt in
        do! x_loc := hlist Real rxl in
        do! w_loc := hlist Real rwl in
        hraise_if negb (Nat.eqb Nloc (length x_loc)) with AssertionError ;;
        hraise_if negb (Nat.eqb (length x_loc) (length w_loc)) with AssertionError ;;
        hraise_if negb (Nat.ltb 1 Nloc) with AssertionError ;;
        hraise_if negb (Nat.eqb Ntime (length t)) with AssertionError ;;
        do! wmin := hlift (pymin w_loc) in
        do! wmax := hlift (pymax w_loc) in
        hraise_if negb ((n0 <? wmin) || (wmax <=? n1)) with AssertionError ;;
        let wsum := nsum w_loc in
        hraise_if negb (n1 <? wsum) with AssertionError ;;
        do! dmin := hlift (pymin (ndiff x_loc)) in
        hraise_if negb (n0 <? dmin) with AssertionError ;;
        let g := lit 981 100 in
        do! rd := hvec Real (repeat n0 Nloc) in                                  (* :131 *)
        do! _ := hfor (seq 1 (Nloc - 1)) (fun iloc =>                            (* :133-134 *)
          do! x_loc := hlist Real rxl in
          do! xi := hlift (idx x_loc iloc) in
          do! x0 := hlift (idx x_loc 0) in
          hstore Real rd iloc (xi - x0)) in
        do! (rf, rX1, isOdd) := h_time2freq_nyquist (PArr rt) (PArr (col_view Ntime Nloc 0 rX)) in  (* :137 *)
        do! f := hlist Real rf in
        let Nf := length f in
        do! rF := hnew Complex [Nf; Nloc] (repeat c0 (Nf * Nloc)) in             (* :142 *)
        do! X1 := hlist Complex rX1 in
        do! _ := hstore_slice Complex (col_view Nf Nloc 0 rF) 0 Nf X1 in         (* :143 *)
        do! _ := hfor (seq 1 (Nloc - 1)) (fun iloc =>                            (* :145-146 *)
          do! (_, rXi, _) := h_time2freq_nyquist (PArr rt) (PArr (col_view Ntime Nloc iloc rX)) in
          do! Xi := hlist Complex rXi in
          hstore_slice Complex (col_view Nf Nloc iloc rF) 0 Nf Xi) in
        do! f := hlist Real rf in
        do! rw := hvec Real (map (fun v => nofZ 2 * npi * v) f) in               (* :149 *)
        do! rk := h_disper (PArr rw) h g in                                      (* :150 *)
        do! rIn := hvec Complex (repeat c0 (length X1)) in                       (* :163 *)
        do! rRe := hvec Complex (repeat c0 (length X1)) in                       (* :164 *)
        do! _ := hfor (seq 0 Nf) (fun ifreq =>                                   (* :169-198 *)
          do! w_loc := hlist Real rwl in
          do! d := hlist Real rd in
          do! k := hlist Real rk in
          do! F := hread Complex rF in
          let gs := map2 (fun wd iloc => (wd, nth (ifreq * Nloc + iloc) F c0))
                         (combine w_loc d) (seq 0 Nloc) in
          match zs_solve detLim wsum (nth ifreq k nnan) gs with
          | Some (a, b) =>
              do! _ := hstore Complex rIn ifreq a in
              hstore Complex rRe ifreq b
          | None => hret tt
          end) in
        do! (_, rI) := h_unfold_spectrum (PArr (as_column rf)) (PArr (as_column rIn)) isOdd in
        do! (_, rR) := h_unfold_spectrum (PArr (as_column rf)) (PArr (as_column rRe)) isOdd in
        do! i := h_freq2time (PArr rI) in
        do! r := h_freq2time (PArr rR) in
        hret (i, r)
    | _ => hlift (Raise ValueError)
    end.
End Heap.
Arguments mem : clear implicits.
Arguments dtype : clear implicits.
Arguments hp : clear implicits.
Arguments PScalar {A}. Arguments PList {A}. Arguments PArr {A}.
Notation "'do!' p ':=' c 'in' k" := (hbind c (fun p => k))
  (at level 200, p pattern, c at level 100, k at level 200, right associativity).
Notation "'hraise_if' c 'with' e ';;' k" := (if c then hlift (Raise e) else k)
  (at level 200, c at level 100, e at level 0, k at level 200, right associativity).
