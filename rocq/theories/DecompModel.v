(** * Model of decompose_linear_ZS, deltares_wave_toolbox/cores/core_wave_decomposition.py
      (the wrapper on Series objects is in SeriesModel.v) *)

From Coq Require Import ZArith String List Bool.
From Verif Require Import Num Engine Cpx SpectralModel DisperModel.
Import ListNotations.

Section Decomp.
  Context {N : Num}.
  Local Open Scope num_scope.
  Local Notation cpx := (cpx N).

  (** xTime[:, j] of a (Ntime, Nloc) array stored row by row *)
  Definition column {A} (d : A) (xTime : list A) (Ntime Nloc j : nat) : list A :=
    map (fun i => nth (i * Nloc + j) xTime d) (seq 0 Ntime).

  Definition csum_map {A} (g : A -> cpx) (l : list A) : cpx := csum (map g l).

  (** core_wave_decomposition.py:170-198: one frequency.  [gs] lists (weight, distance to the first
      gauge, Fourier coefficient) per gauge. *)
  Definition zs_freq (detLim wsum k : N) (gs : list (N * N * cpx)) : cpx * cpx :=
    let a11 := csum_map (fun '(w, d, _) => cscale w (cexpi (- (nofZ 2 * k * d)))) gs in
    let a22 := csum_map (fun '(w, d, _) => cscale w (cexpi (nofZ 2 * k * d))) gs in
    let b1 := csum_map (fun '(w, d, X) => cmul (cscale w X) (cexpi (- (k * d)))) gs in
    let b2 := csum_map (fun '(w, d, X) => cmul (cscale w X) (cexpi (k * d))) gs in
    let a12 := cofr wsum in
    let a21 := cofr wsum in
    let detA := csub (cmul a11 a22) (cmul a12 a21) in                        (* :189 *)
    let sDetA := cabs (cscale (lit (-25) 100) detA) in                       (* :192 *)
    if detLim <? sDetA
    then (cdiv (csub (cmul a22 b1) (cmul a12 b2)) detA,
          cdiv (cadd (cmul (copp a21) b1) (cmul a11 b2)) detA)               (* :197-198 *)
    else (c0, c0).

  (** core_wave_decomposition.py:13-212 decompose_linear_ZS.  t, x_loc, w_loc are 1-D. *)
  Definition decompose_linear_ZS (t : list N) (xTime : arr N) (h : N) (x_loc w_loc : list N)
             (detLim : N) : res (list N * list N) :=
    match shape xTime with
    | [Ntime; Nloc] =>
        raise_if negb (Nat.eqb Nloc (length x_loc)) with AssertionError ;;   (* :99 *)
        raise_if negb (Nat.eqb (length x_loc) (length w_loc)) with AssertionError ;;  (* :102 *)
        raise_if negb (Nat.ltb 1 Nloc) with AssertionError ;;                (* :105 *)
        raise_if negb (Nat.eqb Ntime (length t)) with AssertionError ;;      (* :108 *)
        let! wmin := pymin w_loc in
        let! wmax := pymax w_loc in
        raise_if negb ((n0 <? wmin) || (wmax <=? n1)) with AssertionError ;; (* :112 *)
        let wsum := nsum w_loc in
        raise_if negb (n1 <? wsum) with AssertionError ;;                    (* :117 *)
        let! dmin := pymin (ndiff x_loc) in
        raise_if negb (n0 <? dmin) with AssertionError ;;                    (* :122 *)
        let g := lit 981 100 in
        let! x0 := idx x_loc 0 in
        let diff_x_loc := n0 :: map (fun x => x - x0) (tl x_loc) in          (* :131-134 *)
        let cols := map (column n0 (data xTime) Ntime Nloc) (seq 0 Nloc) in
        let! F := mapM (fun x => time2freq_nyquist (Arr (vec t)) (Arr (vec x))) cols in  (* :137-146 *)
        let! (f, _, isOdd) := idx F 0 in
        let! k := disper (Arr (vec (map (fun v => nofZ 2 * npi * v) f))) h g in  (* :149-150 *)
        let Xs := map (fun r => snd (fst r)) F in
        let per_freq ifreq :=
          zs_freq detLim wsum (nth ifreq k nnan)
                  (map2 (fun wd X => (wd, nth ifreq X c0)) (combine w_loc diff_x_loc) Xs) in
        let IR := map per_freq (seq 0 (length f)) in                         (* :170-198 *)
        let! (_, xIn) := unfold_spectrum (Arr (colvec f)) (Arr (colvec (map fst IR))) isOdd in
        let! (_, xRe) := unfold_spectrum (Arr (colvec f)) (Arr (colvec (map snd IR))) isOdd in
        let! i := freq2time (Arr (vec xIn)) in
        let! r := freq2time (Arr (vec xRe)) in
        Ok (i, r)
    | _ => Raise ValueError                                                  (* :95 cannot unpack *)
    end.
End Decomp.
