(** * Specification vocabulary for the incident/reflected decomposition *)

From Coq Require Import Reals ZArith List Bool Lra Lia.
From Coquelicot Require Import Complex.
From Verif Require Import Num XR Engine Spec DFT FourierSpec RSum.
Import ListNotations.
Open Scope R_scope.

(** the (time x gauge) array holding one signal of n samples per gauge *)
Definition matrix (n : nat) (sigs : list (list R)) : arr NX :=
  mkArr [n; length sigs] (F (flat_map (fun i => map (fun s => nth i s 0) sigs) (seq 0 n))).

(** distance of gauge j to the first gauge *)
Definition dist (x : list R) (j : nat) : R := nth j x 0 - nth 0 x 0.
(** how well the gauges at positions x with weights w separate waves of wave number k:
    the sum over all pairs of gauges of  w_i w_j sin^2(k (x_i - x_j)) *)
Definition separation (w x : list R) (k : R) : R :=
  RS (length x) (fun i => RS i (fun j => nth i w 0 * nth j w 0 * Rsqr (sin (k * (nth i x 0 - nth j x 0))))).
(** the frequency with wave number k takes part in the decomposition *)
Definition retained (detLim : R) (w x : list R) (k : R) : Prop := detLim < Rabs (separation w x k).

(** complex amplitude at gauge j of an incident wave (amplitude A, travelling in the positive direction)
    plus a reflected wave (amplitude B): a wave a cos(W t - k x + p) has amplitude  A e^(-i k x) *)
Definition superposed (x : list R) (k : R) (A B : C) (j : nat) : C :=
  (A * ei (- (k * dist x j)) + B * ei (k * dist x j))%C.
(** weighted squared misfit of that model to measured amplitudes X *)
Definition misfit (w x : list R) (k : R) (X : nat -> C) (A B : C) : R :=
  RS (length x) (fun j => nth j w 0 * sq (X j - superposed x k A B j)%C).

(** what the function accepts *)
Record accepted (t : list R) (sigs : list (list R)) (x w : list R) : Prop := {
  acc_axis : good_axis t;
  acc_sig : forall s, In s sigs -> length s = length t;
  acc_gauges : (2 <= length sigs)%nat;
  acc_x : length x = length sigs;
  acc_w : length w = length sigs;
  acc_sorted : increasing x;
  acc_weights : (forall v, In v w -> 0 < v) \/ (forall v, In v w -> v <= 1);
  acc_sum : 1 < Rsum w }.
