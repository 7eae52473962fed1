(** * Specification vocabulary for the Fourier part *)

From Coq Require Import Reals ZArith List Bool Lra Lia.
From Coquelicot Require Import Complex.
From Verif Require Import Num XR Spec Cpx DFT.
Import ListNotations.
Open Scope R_scope.

(** a finite complex number / array of the model *)
Definition FC (z : C) : cpx NX := (Fin (fst z), Fin (snd z)).
Definition FCs (l : list C) : list (cpx NX) := map FC l.

(** an axis that the library accepts as increasing with constant step (C02): steps positive and at most
    10^6 machine epsilons larger than the first *)
Definition good_axis (t : list R) : Prop :=
  (2 <= length t)%nat /\
  forall i, (S i < length t)%nat ->
    nth i t 0 < nth (S i) t 0
    /\ nth (S i) t 0 - nth i t 0 < (nth 1 t 0 - nth 0 t 0) + 1000000 / 2 ^ 52.
(** its first step *)
Definition step (t : list R) : R := nth 1 t 0 - nth 0 t 0.

(** Fourier coefficient k of a real signal: sum over j of x_j e^(-2 pi i j k / n) *)
Definition coef (x : list R) (k : nat) : C :=
  Csum (length x) (fun j => RtoC (nth j x 0) * ei (- (2 * PI * INR (j * k) / INR (length x))))%C.
(** the first m coefficients *)
Definition coefs (x : list R) (m : nat) : list C := map (coef x) (seq 0 m).
(** the frequencies 0, df, 2df, ... (m of them) *)
Definition freqs (df : R) (m : nat) : list R := map (fun k => INR k * df) (seq 0 m).
