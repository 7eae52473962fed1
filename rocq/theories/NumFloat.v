(** * Binary64 instance of [Num]: Coq's primitive floats.

    Used only to run the model on the data of the repository's own tests (Conformance.v).
    The basic operations are IEEE-754 binary64; the elementary functions are plain series
    approximations, good to about 1e-12, NOT correctly rounded.  No theorem uses this file. *)

From Coq Require Uint63.
From Coq Require Import ZArith List Bool SpecFloat FloatOps PrimFloat.
From Verif Require Import SumOrder Num.
Import ListNotations.

Definition fofZ (z : Z) : float :=
  match z with
  | Z0 => 0
  | Zpos _ => of_uint63 (Uint63.of_Z z)
  | Zneg p => PrimFloat.opp (of_uint63 (Uint63.of_Z (Zpos p)))
  end%float.

Definition ffloor (x : float) : option Z :=
  match Prim2SF x with
  | S754_zero _ => Some 0%Z
  | S754_finite s m e =>
      let m' := if s then Zneg m else Zpos m in
      Some (if Z.leb 0 e then Z.mul m' (2 ^ e) else Z.div m' (2 ^ (- e)))%Z
  | _ => None
  end.

Definition fln2 : float := 0x1.62e42fefa39efp-1%float.
Definition fpi : float := 0x1.921fb54442d18p+1%float.

Fixpoint fsum_series (n : nat) (k : float) (term x : float) (step : float -> float -> float -> float) : float :=
  match n with
  | O => 0
  | S n' => term + fsum_series n' (k + 1) (step term x k) x step
  end%float.

Definition fexp_small (r : float) : float :=
  fsum_series 22 1 1 r (fun t x k => t * x / k)%float.
Definition fexp (x : float) : float :=
  if is_nan x then x
  else if ltb 709 x then infinity
  else if ltb x (-745)%float then 0%float
  else match ffloor (x / fln2)%float with
       | None => nan
       | Some k => Z.ldexp (fexp_small (x - fofZ k * fln2)%float) k
       end.

Definition fln (x : float) : float :=
  if is_nan x then x
  else if ltb x 0 then nan
  else if eqb x 0 then neg_infinity
  else if eqb x infinity then infinity
  else
    let '(m, e) := Z.frexp x in
    let z := ((m - 1) / (m + 1))%float in
    let z2 := (z * z)%float in
    (2 * fsum_series 20 1 z z2 (fun t x k => t * x * (2 * k - 1) / (2 * k + 1)) + fofZ e * fln2)%float.

Definition ftanh (x : float) : float :=
  if is_nan x then x
  else if ltb 20 x then 1%float
  else if ltb x (-20)%float then (-1)%float
  else if ltb (abs x) 0x1p-20 then (x - x * x * x / 3)%float
  else let e := fexp (2 * x)%float in ((e - 1) / (e + 1))%float.

Definition fpow (x y : float) : float :=
  if eqb y 0 then 1%float
  else if eqb x 0 then (if ltb 0 y then 0%float else infinity)
  else fexp (y * fln x)%float.

Definition freduce (x : float) : float :=
  match ffloor (x / (2 * fpi) + 0.5)%float with
  | None => nan
  | Some k => (x - fofZ k * (2 * fpi))%float
  end.
Definition fcos (x : float) : float :=
  let r := freduce x in
  fsum_series 16 1 1 (r * r)%float (fun t x k => - (t * x / ((2 * k - 1) * (2 * k))))%float.
Definition fsin (x : float) : float :=
  let r := freduce x in
  fsum_series 16 1 r (r * r)%float (fun t x k => - (t * x / ((2 * k) * (2 * k + 1))))%float.

Definition NF : Num :=
  mkNum float fofZ PrimFloat.add PrimFloat.sub PrimFloat.mul PrimFloat.div PrimFloat.opp
        PrimFloat.abs PrimFloat.sqrt PrimFloat.ltb PrimFloat.leb PrimFloat.eqb
        ffloor is_nan (fun x => eqb (abs x) infinity) infinity nan
        fexp fln ftanh fpow (powZ_mul 1%float PrimFloat.mul PrimFloat.div) fpi fcos fsin
        (sum_by (fun n => pairwise n 0 n) PrimFloat.add 0%float).   (* numpy's pairwise summation *)
