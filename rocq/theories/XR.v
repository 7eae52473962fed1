(** * Ideal floats: exact reals extended with the IEEE-754 special values.

    [Fin r] is a finite float64, idealised to the exact real r (no rounding, no
    overflow, one zero).  PInf/NInf/NaN behave as IEEE-754/numpy prescribe.
    Every theorem of the development is about the instance [NX]. *)

From Coq Require Import Reals ZArith Bool List Lra Lia.
From Verif Require Import Num.
Open Scope R_scope.

Inductive xr := Fin (r : R) | PInf | NInf | NaN.

Definition Rltb (x y : R) : bool := if Rlt_dec x y then true else false.
Definition Rleb (x y : R) : bool := if Rle_dec x y then true else false.
Definition Reqb (x y : R) : bool := if Req_EM_T x y then true else false.

Definition xopp (x : xr) : xr :=
  match x with Fin r => Fin (- r) | PInf => NInf | NInf => PInf | NaN => NaN end.

Definition xadd (x y : xr) : xr :=
  match x, y with
  | Fin a, Fin b => Fin (a + b)
  | NaN, _ | _, NaN => NaN
  | PInf, NInf | NInf, PInf => NaN
  | PInf, _ | _, PInf => PInf
  | NInf, _ | _, NInf => NInf
  end.

Definition xsub (x y : xr) : xr :=
  match x, y with
  | Fin a, Fin b => Fin (a - b)
  | _, _ => xadd x (xopp y)
  end.

(** sign-directed infinity: the result of inf * r or inf / r *)
Definition xinf_times (r : R) : xr :=
  if Rlt_dec 0 r then PInf else if Rlt_dec r 0 then NInf else NaN.

Definition xmul (x y : xr) : xr :=
  match x, y with
  | Fin a, Fin b => Fin (a * b)
  | NaN, _ | _, NaN => NaN
  | PInf, Fin r | Fin r, PInf => xinf_times r
  | NInf, Fin r | Fin r, NInf => xopp (xinf_times r)
  | PInf, PInf | NInf, NInf => PInf
  | PInf, NInf | NInf, PInf => NInf
  end.

Definition xdiv (x y : xr) : xr :=
  match x, y with
  | Fin a, Fin b => if Req_EM_T b 0 then xinf_times a else Fin (a / b)
  | NaN, _ | _, NaN => NaN
  | Fin _, PInf | Fin _, NInf => Fin 0
  | PInf, Fin r => if Rlt_dec r 0 then NInf else PInf
  | NInf, Fin r => if Rlt_dec r 0 then PInf else NInf
  | PInf, PInf | NInf, NInf | PInf, NInf | NInf, PInf => NaN
  end.

Definition xabs (x : xr) : xr :=
  match x with Fin r => Fin (Rabs r) | PInf | NInf => PInf | NaN => NaN end.

Definition xsqrt (x : xr) : xr :=
  match x with
  | Fin r => if Rlt_dec r 0 then NaN else Fin (sqrt r)
  | PInf => PInf
  | NInf | NaN => NaN
  end.

Definition xltb (x y : xr) : bool :=
  match x, y with
  | Fin a, Fin b => Rltb a b
  | NaN, _ | _, NaN => false
  | NInf, NInf | PInf, _ | _, NInf => false
  | NInf, _ | _, PInf => true
  end.

Definition xleb (x y : xr) : bool :=
  match x, y with
  | Fin a, Fin b => Rleb a b
  | NaN, _ | _, NaN => false
  | NInf, _ | _, PInf => true
  | PInf, _ | _, NInf => false
  end.

Definition xeqb (x y : xr) : bool :=
  match x, y with
  | Fin a, Fin b => Reqb a b
  | PInf, PInf | NInf, NInf => true
  | _, _ => false
  end.

Definition Rfloor (r : R) : Z := Int_part r.
Definition xfloor (x : xr) : option Z :=
  match x with Fin r => Some (Rfloor r) | _ => None end.

Definition xisnan (x : xr) : bool := match x with NaN => true | _ => false end.
Definition xisinf (x : xr) : bool := match x with PInf | NInf => true | _ => false end.

Definition xexp (x : xr) : xr :=
  match x with Fin r => Fin (exp r) | PInf => PInf | NInf => Fin 0 | NaN => NaN end.

Definition xln (x : xr) : xr :=
  match x with
  | Fin r => if Rlt_dec 0 r then Fin (ln r) else if Req_EM_T r 0 then NInf else NaN
  | PInf => PInf
  | NInf | NaN => NaN
  end.

Definition xtanh (x : xr) : xr :=
  match x with Fin r => Fin (tanh r) | PInf => Fin 1 | NInf => Fin (-1) | NaN => NaN end.

(** x ** y for a float exponent.  Negative finite bases give nan (in numpy they
    give nan except for integral y; the modelled code never relies on those). *)
Definition xpow (x y : xr) : xr :=
  match x, y with
  | _, Fin b =>
      if Req_EM_T b 0 then Fin 1 else
      match x with
      | Fin a => if Rlt_dec 0 a then Fin (Rpower a b)
                 else if Req_EM_T a 0 then (if Rlt_dec 0 b then Fin 0 else PInf)
                 else NaN
      | PInf => if Rlt_dec 0 b then PInf else Fin 0
      | NInf | NaN => NaN
      end
  | Fin a, PInf => if Rlt_dec (Rabs a) 1 then Fin 0 else if Rlt_dec 1 (Rabs a) then PInf else Fin 1
  | Fin a, NInf => if Rlt_dec (Rabs a) 1 then PInf else if Rlt_dec 1 (Rabs a) then Fin 0 else Fin 1
  | PInf, PInf => PInf
  | PInf, NInf => Fin 0
  | _, _ => NaN
  end.

Definition xcos (x : xr) : xr := match x with Fin r => Fin (cos r) | _ => NaN end.
Definition xsin (x : xr) : xr := match x with Fin r => Fin (sin r) | _ => NaN end.

Canonical Structure NX : Num :=
  mkNum xr (fun z => Fin (IZR z)) xadd xsub xmul xdiv xopp xabs xsqrt xltb xleb xeqb
        xfloor xisnan xisinf PInf NaN xexp xln xtanh xpow (powZ_mul (Fin 1) xmul xdiv) (Fin PI) xcos xsin (fold_right xadd (Fin 0)).
