(** * Model of deltares_wave_toolbox/cores/core_time.py *)

From Coq Require Import ZArith String List Bool.
From Verif Require Import Num Engine.
Import ListNotations.

Section Time.
  Context {N : Num}.
  Local Open Scope num_scope.

  (** Reference order of numpy sorting: ascending, nan last. *)
  Definition sort_leb (x y : N) : bool := nisnan y || (x <=? y).

  (** np.sort: its result is determined (up to equal values) by the order; modelled by insertion sort. *)
  Fixpoint insert_sorted (x : N) (l : list N) : list N :=
    match l with
    | [] => [x]
    | y :: l' => if sort_leb x y then x :: l else y :: insert_sorted x l'
    end.
  Definition np_sort (l : list N) : list N := fold_right insert_sorted [] l.

  (** (a == b).all() for 1-D arrays of the same length *)
  Definition all_eq (l l' : list N) : bool := forallb (fun b => b) (map2 neqb l l').

  (** np.argsort: which of several equal values comes first is not specified by numpy, so
      the model takes the sorting function as a parameter (its contract is
      [is_argsort] in TimeSpec.v). *)
  Variable argsort : list N -> list nat.

  (** core_time.py:9-94 sort_wave_params *)
  Definition sort_wave_params (hWave0 tWave0 : arraylike N) : res (list N * list N) :=
    let hWave1 := convert_to_array_type hWave0 in
    let tWave1 := convert_to_array_type tWave0 in
    raise_if negb (is1darray hWave1) with ValueError ;;          (* :61-63 *)
    raise_if negb (is1darray tWave1) with ValueError ;;          (* :65-67 *)
    let! hWave := as_list hWave1 in
    let! tWave := as_list tWave1 in
    raise_if negb (Nat.eqb (length hWave) (length tWave)) with ValueError ;;  (* :70-74 *)
    let nWave := length hWave in
    if Nat.ltb nWave 1 then Ok ([], [])                          (* :82-83 *)
    else
      let iSorted := rev (argsort hWave) in                      (* :87-89 *)
      let! hWaveSorted := take hWave iSorted in                  (* :90 *)
      let! tWaveSorted := take tWave iSorted in                  (* :92 *)
      Ok (hWaveSorted, tWaveSorted).
End Time.

Section Time2.
  Context {N : Num}.
  Local Open Scope num_scope.

  (** core_time.py:169-195: loop body of determine_zero_crossing.  The accumulator is (nWave, tCross). *)
  Definition is_up (a b : N) : bool := (a <=? n0) && (n0 <? b).       (* :172 *)
  Definition is_down (a b : N) : bool := (n0 <=? a) && (b <? n0).     (* :187 *)
  Definition crossing_time (dt ti a b : N) : N := ti + dt * a / (a - b).  (* :178-180, 193-195 *)
  Definition zc_step (crosses : N -> N -> bool) (dt : N) (t x : list N)
             (acc : Z * list N) (iTime : nat) : Z * list N :=
    let a := nth iTime x nnan in
    let b := nth (iTime + 1) x nnan in
    if crosses a b
    then ((fst acc + 1)%Z, snd acc ++ [crossing_time dt (nth iTime t nnan) a b])
    else acc.
  Definition zc_loop (crosses : N -> N -> bool) (dt : N) (t x : list N) : Z * list N :=
    fold_left (zc_step crosses dt t x) (seq 0 (length t - 1)) ((-1)%Z, []).

  (** core_time.py:97-206 determine_zero_crossing.  Without crossings tCross stays the
      (0,0)-shaped np.empty((0, 0)) of :164. *)
  Definition determine_zero_crossing (t0 xTime0 : arraylike N) (typeCross : string)
    : res (Z * arr N) :=
    let t1 := convert_to_array_type t0 in
    let x1 := convert_to_array_type xTime0 in
    raise_if negb (is1darray t1) with ValueError ;;
    raise_if negb (is1darray x1) with ValueError ;;
    let! t := as_list t1 in
    let! x := as_list x1 in
    raise_if negb (Nat.eqb (length t) (length x)) with ValueError ;;
    let! ta := idx t 1 in                                        (* :165 dt = t[1] - t[0] *)
    let! tb := idx t 0 in
    let dt := ta - tb in
    let! crosses :=
      (if String.eqb (lower typeCross) "up"%string then Ok is_up
       else if String.eqb (lower typeCross) "down"%string then Ok is_down
       else Raise ValueError) in
    let '(nWave, tCross) := zc_loop crosses dt t x in
    let nWave := if Z.eqb nWave (-1) then 0%Z else nWave in       (* :203-204 *)
    Ok (nWave, match tCross with [] => empty00 | _ => vec tCross end).

  (** core_time.py:209-312 highest_waves_params *)
  Definition highest_waves_params (hS0 tS0 : arraylike N) (fracP : N) : res (N * N) :=
    let hS1 := convert_to_array_type hS0 in
    let tS1 := convert_to_array_type tS0 in
    raise_if negb (is1darray hS1) with ValueError ;;
    raise_if negb (is1darray tS1) with ValueError ;;
    let! hS := as_list hS1 in
    let! tS := as_list tS1 in
    raise_if negb (Nat.eqb (length tS) (length hS)) with ValueError ;;
    raise_if (fracP <? n0) || (n1 <? fracP) with ValueError ;;   (* :284-287 *)
    let nWave := length hS in
    if Nat.ltb nWave 1 then Ok (n0, n0)                          (* :295-296 *)
    else
      raise_if negb (all_eq hS (rev (np_sort hS))) with ValueError ;;  (* :299-303 *)
      let! nWaveP := int_floor (nofnat nWave * fracP) in         (* :307 *)
      if Z.ltb 0 nWaveP
      then Ok (nmean (slice 0 (Z.to_nat nWaveP) hS), nmean (slice 0 (Z.to_nat nWaveP) tS))
      else Ok (n0, n0).

  (** core_time.py:315-389 exceedance_wave_height *)
  Definition exceedance_wave_height (hS0 : arraylike N) (excPerc : N) : res N :=
    let hS1 := convert_to_array_type hS0 in
    raise_if negb (is1darray hS1) with ValueError ;;
    let! hS := as_list hS1 in
    raise_if (nofZ 100 <? excPerc) || (excPerc <? n0) with ValueError ;;
    let nWave := length hS in
    if Nat.ltb nWave 1 then Ok n0
    else
      raise_if negb (all_eq hS (rev (np_sort hS))) with ValueError ;;
      let! fl := int_floor (nofnat nWave * excPerc / nofZ 100) in
      let iWaveP := (fl - 1)%Z in
      if Z.ltb iWaveP 0 then Ok n0 else idx hS (Z.to_nat iWaveP).

  (** One wave's output of determine_params_individual_waves *)
  Record wave := mkWave { w_h : N; w_t : N; w_crest : N; w_trough : N; w_tcrest : N; w_ttrough : N }.

  (** core_time.py:514-538: body of the loop over the waves *)
  Definition one_wave (t x : list N) (tIni tEnd : N) : res wave :=
    let! iIni := idx (where_ (fun v => tIni <=? v) t) 0 in       (* :519 *)
    let! iEnd := idx_last (where_ (fun v => v <=? tEnd) t) in    (* :520 *)
    let tI := slice iIni (iEnd + 1) t in
    let xI := slice iIni (iEnd + 1) x in
    let! mx := pymax xI in
    let! iMax := idx (where_ (fun v => v =? mx) xI) 0 in         (* :529 *)
    let! mn := pymin xI in
    let! iMin := idx (where_ (fun v => v =? mn) xI) 0 in         (* :530 *)
    let! cr := idx xI iMax in
    let! tr := idx xI iMin in
    let! tcr := idx tI iMax in
    let! ttr := idx tI iMin in
    Ok (mkWave (cr - tr) (tEnd - tIni) cr tr tcr ttr).

  Fixpoint all_waves (t x : list N) (tCross : list N) : res (list wave) :=
    match tCross with
    | a :: ((b :: _) as rest) =>
        let! w := one_wave t x a b in
        let! ws := all_waves t x rest in
        Ok (w :: ws)
    | _ => Ok []
    end.

  (** core_time.py:392-540 determine_params_individual_waves.  The six parallel output arrays
      are modelled as one list of records. *)
  Definition determine_params_individual_waves (tCross0 t0 x0 : arraylike N) : res (list wave) :=
    let tCross1 := convert_to_array_type tCross0 in
    let t1 := convert_to_array_type t0 in
    let x1 := convert_to_array_type x0 in
    if Nat.eqb (asize tCross1) 0 then Ok []                      (* :472-473 *)
    else
      raise_if negb (is1darray tCross1) with ValueError ;;
      raise_if negb (is1darray t1) with ValueError ;;
      raise_if negb (is1darray x1) with ValueError ;;
      let! tCross := as_list tCross1 in
      let! t := as_list t1 in
      let! x := as_list x1 in
      raise_if negb (Nat.eqb (length t) (length x)) with ValueError ;;
      all_waves t x tCross.
End Time2.
Arguments wave : clear implicits.
