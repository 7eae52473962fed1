(** * Model of the plotted data and of the text representations of Spectrum, Series and WaveHeights objects
      (spectrum.py, series.py), and of the directional argument of a Spectrum *)

From Coq Require Import ZArith String List Bool Decimal DecimalString.
From Verif Require Import Num Engine WaveModel SpectrumModel SeriesModel.
Import ListNotations.

Section Plot.
  Context {N : Num}.
  Local Open Scope num_scope.

  (** a line drawn in a figure: label (empty when the code gives none), abscissae and ordinates *)
  Record line := mkLine { l_label : string; l_x : list N; l_y : list N }.

  (** spectrum.py:512-529: the vertical line of one period, when the attribute exists *)
  Definition period_line (label : string) (T : option N) (S : list N) : res (list line) :=
    match T with
    | None => Ok []
    | Some T => let! top := npmax S in Ok [mkLine label [n1 / T; n1 / T] [n0; top]]
    end.
  (** spectrum.py:480-538 Spectrum.plot: the lines drawn, in order.  The object is only read.  Axis limits, labels, grid and saving
      are not modelled. *)
  Definition spectrum_plot (s : spec N) (plot_periods : bool) : res (list line) :=
    let curve := mkLine "Spectrum" (s_f s) (s_S s) in                                 (* :509 *)
    if plot_periods
    then let! a := period_line "Tps" (s_Tps s) (s_S s) in                             (* :512-517 *)
         let! b := period_line "Tmm10" (s_Tmm10 s) (s_S s) in                         (* :518-523 *)
         let! c := period_line "Tm02" (s_Tm02 s) (s_S s) in                           (* :524-529 *)
         Ok (curve :: a ++ b ++ c)
    else Ok [curve].

  (** series.py:598-626 Series.plot: the record and, on request, the stored crossings at height 0 (tCross exists on every object) *)
  Definition series_plot (s : series N) (plot_crossing : bool) : list line :=
    mkLine "series" (se_t s) (se_x s)
    :: (if plot_crossing then [mkLine "crossing" (se_tCross s) (map (fun v => v * n0) (se_tCross s))] else []).

  (** series.py:274-298 plot_hist_waveheight: the edges and counts of the bars.  Contract of plt.hist with its default of ten bins on
      finite values: equal bins between the smallest and the largest value (half a unit to either side when they coincide, 0..1 without
      values), every bin closed at the left and open at the right, the last one closed.  Other values are not modelled. *)
  Definition hist_range (l : list N) : res (N * N) :=
    match l with
    | [] => Ok (n0, n1)
    | _ => let! lo := npmin l in let! hi := npmax l in
           raise_if negb (n0 * lo =? n0) || negb (n0 * hi =? n0) with Unmodelled ;;
           if lo =? hi then Ok (lo - lit 1 2, hi + lit 1 2) else Ok (lo, hi)
    end.
  Definition hist_edge (lo hi : N) (i : nat) : N := if Nat.eqb i 10 then hi else lo + nofnat i * ((hi - lo) / nofZ 10).
  Definition hist_count (lo hi : N) (l : list N) (i : nat) : nat :=
    length (filter (fun v => (hist_edge lo hi i <=? v) && (if Nat.eqb i 9 then v <=? hist_edge lo hi (S i) else v <? hist_edge lo hi (S i))) l).
  Definition wh_plot_hist (s : waveheights N) : res (list N * list nat) :=
    let! (lo, hi) := hist_range (data (wh_h s)) in
    Ok (map (hist_edge lo hi) (seq 0 11), map (hist_count lo hi (data (wh_h s))) (seq 0 10)).

  (** decimal representation of a length, as Python's str of an int >= 0 *)
  Definition dec (n : nat) : string := NilZero.string_of_uint (Nat.to_uint n).

  (** series.py:37-38, :342-343, spectrum.py:58-59: __str__ *)
  Definition wh_str (s : waveheights N) : string := ("Series with " ++ dec (wh_n s) ++ " elements")%string.
  Definition series_str (s : series N) : string := ("Series with " ++ dec (se_nt s) ++ " elements")%string.
  (** series.py:40-41, :345-346: __repr__ *)
  Definition wh_repr (s : waveheights N) : string := ("WaveHeights (series  nt = " ++ dec (wh_n s) ++ ")")%string.
  Definition series_repr (s : series N) : string := ("Series (series  nt = " ++ dec (se_nt s) ++ ")")%string.

  (** spectrum.py:31-56 with the third argument D (an array; np.empty((0,0)) by default): the object, D, nf and the label *)
  Record dspec := mkDspec { d_spec : spec N; d_D : arr N; d_nf : nat; d_label : string }.
  Definition spectrum_init_D (f0 s0 : arraylike N) (D : arr N) : res dspec :=
    let! sp := spectrum_init f0 s0 in
    Ok (mkDspec sp D (length (s_f sp)) (if Nat.eqb (asize D) 0 then "1D" else "2D")%string).
  Definition no_directions : arr N := mkArr [0; 0]%nat [].
  (** spectrum.py:58-62 *)
  Definition dspec_str (s : dspec) : string := (d_label s ++ " wave spectrum with " ++ dec (d_nf s) ++ " number of frequencies")%string.
  Definition dspec_repr (s : dspec) : string := ("Spectrum (spec = " ++ d_label s ++ ")")%string.
  (** the getters touch the attributes of SpectrumModel only *)
  Definition dspec_run (cs : list (spec_call N)) (s : dspec) : dspec :=
    mkDspec (spec_run cs (d_spec s)) (d_D s) (d_nf s) (d_label s).
End Plot.
Arguments line : clear implicits.
Arguments dspec : clear implicits.
