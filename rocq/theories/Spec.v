(** * Specification vocabulary (over the real numbers; independent of the model) *)

From Coq Require Import Reals List Lra Lia.
From Verif Require Import Num XR.
Import ListNotations.
Open Scope R_scope.

(** A finite float array is an array of reals. *)
Definition F (l : list R) : list (car NX) := map Fin l.

Definition Rsum (l : list R) : R := fold_right Rplus 0 l.
Definition Rmean (l : list R) : R := Rsum l / INR (length l).
(** mean squared deviation from the mean *)
Definition Rvar (l : list R) : R := Rmean (map (fun x => (x - Rmean l) * (x - Rmean l)) l).

(** every entry is smaller than its successor *)
Definition increasing (l : list R) : Prop :=
  forall i j, (i < j < length l)%nat -> nth i l 0 < nth j l 0.
(** descending order *)
Definition descending (l : list R) : Prop :=
  forall i j, (i < j < length l)%nat -> nth j l 0 <= nth i l 0.

(** the axis t0, t0+dt, t0+2dt, ... with n points *)
Definition axis (t0 dt : R) (n : nat) : list R := map (fun k => t0 + INR k * dt) (seq 0 n).

(** [k] is the integer part of the non-negative real [r] *)
Definition floor_is (r : R) (k : nat) : Prop := INR k <= r < INR k + 1.
