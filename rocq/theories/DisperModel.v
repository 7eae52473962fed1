(** * Model of deltares_wave_toolbox/cores/core_dispersion.py *)

From Coq Require Import ZArith List Bool.
From Verif Require Import Num Engine.
Import ListNotations.

Section Disper.
  Context {N : Num}.
  Local Open Scope num_scope.

  (** core_dispersion.py:63-66: dimensionless frequency, clamped from below *)
  Definition disper_w2 (w h g : N) : N :=
    let w2 := w * w * h / g in
    if w2 <? lit 1 100000000 then lit 1 100000000 else w2.
  (** core_dispersion.py:67: starting value *)
  Definition disper_q0 (w2 : N) : N :=
    w2 / npow (n1 - nexp (- npow w2 (lit 5 4))) (lit 2 5).
  (** core_dispersion.py:71-82: one pass of the iteration, for one element *)
  Definition disper_step (w2 q : N) : N :=
    let thq := ntanh q in
    let thq2 := n1 - thq * thq in
    let a := (n1 - q * thq) * thq2 in
    let b := thq + q * thq2 in
    let c := q * thq - w2 in
    let arg := if negb (a =? n0)
               then ((- b) + nsqrt (b * b - nofZ 4 * a * c)) / (nofZ 2 * a) else n0 in
    let arg := if nabs (a * c) <? lit 1 100000000 * (b * b) then (- c) / b else arg in
    q + arg.
  Definition disper_q (w h g : N) : N :=
    let w2 := disper_w2 w h g in
    disper_step w2 (disper_step w2 (disper_q0 w2)).
  (** core_dispersion.py:84-87 *)
  Definition disper_k (w h g : N) : N :=
    let k := nsign w * disper_q w h g / h in
    if nisnan k then n0 else k.

  (** core_dispersion.py:9-89 disper, on 1-D (or scalar) w; all array operations are elementwise.
      In the deep (h infinite, :55-57) and shallow (h < 0, :58-60) branches the local q is never
      assigned, and line 84 - which is outside the if - reads it. *)
  Definition disper (w0 : arraylike N) (h g : N) : res (list N) :=
    let w1 := convert_to_array_type w0 in
    let! w := as_list w1 in
    if nisinf h then Raise UnboundLocalError
    else if h <? n0 then Raise UnboundLocalError
    else Ok (map (fun wi => disper_k wi h g) w).
End Disper.
