(** * Specification vocabulary for C85: an object, its caller's arrays, and the order of events

    Read with HeapSpec.v.  The objects as values are those of SeriesModel.v and SpectrumModel.v; here
    is said how such a value follows what the caller does to the arrays it once passed. *)

From Coq Require Import ZArith String List Bool Arith.
From Verif Require Import Num Engine WaveModel SpectrumModel SeriesModel HeapModel HeapObj.
Import ListNotations.

Section HeapObjSpec.
  Context {N : Num}.

  (** the array of the caller an object keeps: a 1-D array is kept as it is; a number, a list and a
      column are copied *)
  Definition keeps {A} (p : pyarg A) : option ref :=
    match p with
    | PArr r => match r_shape r with [_] => Some r | _ => None end
    | _ => None
    end.
  (** [r] is the array kept for argument [p], or an array that did not exist in memory [m] *)
  Definition kept_or_new (m : mem N) (p : pyarg N) (r : ref) : Prop :=
    match keeps p with
    | Some r0 => r = r0
    | None => length (bufs Real m) <= r_buf r
    end.
  (** the elements an attribute has when the caller's memory is [M]: those of the array kept, or
      those it was given when made *)
  Definition refresh (p : pyarg N) (M : mem N) (old : list N) : list N :=
    match keeps p with
    | Some r => read Real M r
    | None => old
    end.

  (** what can happen after an object has been made: the caller overwrites an element of an array of
      its own, or calls a method *)
  Inductive event (C : Type) : Type :=
  | Write (A : Type) (d : dtype N A) (b i : nat) (v : A)
  | Call (c : C).
  Global Arguments Write {C A} d b i v.
  Global Arguments Call {C} c.
  (** a write to an array the caller had in memory [m] *)
  Definition callers {C} (m : mem N) (e : event C) : Prop :=
    match e with
    | Write d b _ _ => b < length (bufs d m)
    | Call _ => True
    end.

  (** the same events on memory, with the objects of HeapObj.v *)
  Definition h_series_event (argsort : list N -> list nat) (e : event (series_call N)) (st : mem N * hseries N)
    : mem N * hseries N :=
    let '(m, o) := st in
    match e with
    | Write d b i v => (poke d b i v m, o)
    | Call c => h_series_step argsort c m o
    end.
  Definition h_waves_event (argsort : list N -> list nat) (e : event (wh_call N)) (st : mem N * hwh) : mem N * hwh :=
    let '(m, o) := st in
    match e with
    | Write d b i v => (poke d b i v m, o)
    | Call c => fst (h_wh_call argsort c o m)
    end.
  Definition h_spectrum_event (e : event (spec_call N)) (st : mem N * hspec N) : mem N * hspec N :=
    let '(m, o) := st in
    match e with
    | Write d b i v => (poke d b i v m, o)
    | Call c => fst (h_spec_call c o m)
    end.
  Definition run {E S} (step : E -> S -> S) (es : list E) (s : S) : S := fold_left (fun s e => step e s) es s.

  (** a Series made from [time0] and [x0]: a write shows in its time and its signal, in nothing else *)
  Definition series_event (argsort : list N -> list nat) (time0 x0 : pyarg N)
             (e : event (series_call N)) (st : mem N * series N) : mem N * series N :=
    let '(M, s) := st in
    match e with
    | Write d b i v =>
        let M' := poke d b i v M in
        (M', mkSeries (refresh time0 M' (se_t s)) (refresh x0 M' (se_x s)) (se_nt s) (se_dt s) (se_wh s) (se_tCross s))
    | Call c => (M, series_step argsort c s)
    end.

  (** a WaveHeights made from [h0] and [t0]: a write shows until the object has sorted its waves for
      the first time ([live]); from then on it has arrays of its own *)
  Definition sorted_by (argsort : list N -> list nat) (c : wh_call N) (w : waveheights N) : bool :=
    match c with
    | WHrms | WHmax => false
    | _ => match snd (wh_sort argsort w) with Ok _ => true | Raise _ => false end
    end.
  (** the array kept (of any shape but a column, as no check is made), with its elements in [M] *)
  Definition refresh_arr (p : pyarg N) (M : mem N) (old : arr N) : arr N :=
    match p with
    | PArr r => match r_shape r with
                | [S _; 1] => old
                | sh => mkArr sh (read Real M r)
                end
    | _ => old
    end.
  Definition waves_event (argsort : list N -> list nat) (h0 t0 : pyarg N)
             (e : event (wh_call N)) (st : mem N * waveheights N * bool) : mem N * waveheights N * bool :=
    let '(M, w, live) := st in
    match e with
    | Write d b i v =>
        let M' := poke d b i v M in
        (M', if live then mkWH (refresh_arr h0 M' (wh_h w)) (refresh_arr t0 M' (wh_t w)) (wh_n w) else w, live)
    | Call c => (M, wh_step argsort c w, live && negb (sorted_by argsort c w))
    end.

  (** a Spectrum made from [f0] and [s0]: a write shows in its frequencies and densities; a parameter
      stored by an earlier call stays what it was *)
  Definition spectrum_event (f0 s0 : pyarg N) (e : event (spec_call N)) (st : mem N * spec N) : mem N * spec N :=
    let '(M, s) := st in
    match e with
    | Write d b i v =>
        let M' := poke d b i v M in
        (M', mkSpec (refresh f0 M' (s_f s)) (refresh s0 M' (s_S s)) (s_Hm0 s) (s_Hm0_HF s) (s_Hm0_LF s) (s_Tps s)
                    (s_Tp s) (s_Tmm10 s) (s_Tmm10_HF s) (s_Tmm10_LF s) (s_Tm01 s) (s_Tm02 s) (s_s0p s) (s_smm10 s)
                    (s_smm10_HF s))
    | Call c => (M, fst (spec_step c s))
    end.
End HeapObjSpec.
Arguments event : clear implicits.
