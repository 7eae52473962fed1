(** * Specification vocabulary for the wave-by-wave analysis (reals only) *)

From Coq Require Import Reals ZArith String List Bool Lra Lia Permutation.
From Verif Require Import Num XR Spec.
Import ListNotations.
Open Scope R_scope.

(** Contract of np.argsort on finite values: a permutation of the positions that reads the values
    in ascending order.  Ties may come in any order. *)
Definition is_argsort (sortf : list NX -> list nat) : Prop :=
  forall l : list R,
    Permutation (sortf (F l)) (seq 0 (length l))
    /\ forall i j, (i < j < length l)%nat ->
         nth (nth i (sortf (F l)) 0%nat) l 0 <= nth (nth j (sortf (F l)) 0%nat) l 0.

Inductive direction := Up | Down.
(** the strings that select a direction: "up" and "down", in any capitalisation *)
Definition names (s : string) (d : direction) : Prop :=
  match d with Up => lower s = "up"%string | Down => lower s = "down"%string end.

(** signs of possibly special samples; a NaN has no sign *)
Definition pos (v : xr) := match v with Fin r => 0 < r | PInf => True | _ => False end.
Definition neg (v : xr) := match v with Fin r => r < 0 | NInf => True | _ => False end.
Definition nonneg (v : xr) := match v with Fin r => 0 <= r | PInf => True | _ => False end.
Definition nonpos (v : xr) := match v with Fin r => r <= 0 | NInf => True | _ => False end.

(** sample pair (i, i+1) crosses zero in the given direction *)
Definition crosses (d : direction) (x : list xr) (i : nat) : Prop :=
  (S i < length x)%nat /\
  match d with
  | Up => nonpos (nth i x NaN) /\ pos (nth (S i) x NaN)
  | Down => nonneg (nth i x NaN) /\ neg (nth (S i) x NaN)
  end.
Definition Rcrosses (d : direction) (x : list R) (i : nat) : Prop :=
  (S i < length x)%nat /\
  match d with
  | Up => nth i x 0 <= 0 < nth (S i) x 0
  | Down => 0 <= nth i x 0 /\ nth (S i) x 0 < 0
  end.

Definition ascending (l : list nat) : Prop :=
  forall i j, (i < j < length l)%nat -> (nth i l 0 < nth j l 0)%nat.
(** [is] lists all crossings of x, in order *)
Definition all_crossings (d : direction) (x : list R) (is : list nat) : Prop :=
  ascending is /\ forall i, In i is <-> Rcrosses d x i.

(** [v] is the maximum of x over the samples whose time lies in [a,b], reached first at time [tv] *)
Definition first_max_on (t x : list R) (a b v tv : R) : Prop :=
  exists i, (i < length t)%nat /\ a <= nth i t 0 <= b /\ tv = nth i t 0 /\ v = nth i x 0
   /\ (forall j, (j < length t)%nat -> a <= nth j t 0 <= b -> nth j x 0 <= v)
   /\ (forall j, (j < i)%nat -> a <= nth j t 0 <= b -> nth j x 0 < v).
Definition first_min_on (t x : list R) (a b v tv : R) : Prop :=
  exists i, (i < length t)%nat /\ a <= nth i t 0 <= b /\ tv = nth i t 0 /\ v = nth i x 0
   /\ (forall j, (j < length t)%nat -> a <= nth j t 0 <= b -> v <= nth j x 0)
   /\ (forall j, (j < i)%nat -> a <= nth j t 0 <= b -> v < nth j x 0).

(** number of waves at least / strictly higher than v *)
Definition count_ge (h : list R) (v : R) : nat := length (filter (fun x => Rleb v x) h).
Definition count_gt (h : list R) (v : R) : nat := length (filter (fun x => Rltb v x) h).
