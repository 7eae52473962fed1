(** * A third number instance: binary64 arithmetic with rounding (no overflow)

    [NB] has the same carrier as [NX] but rounds the result of every operation to the nearest binary64 value, ties to
    even (Flocq's FLT format: 53 bits, gradual underflow at 2^-1074).  Not modelled: overflow to infinity (results are
    unbounded) and signed zeros.  The elementary functions (exp, ln, tanh, pow, cos, sin) are those of any mathematical library
    [Lm] that meets the contract [libm] below; np.sum and np.mean add in any fixed order [So] (SumOrder.v).  Every theorem at
    [NB] is quantified over both.  x ** m for an integer m multiplies (exactly what numpy does for m = -1, 0, 1, 2, the only
    exponents of the spectral parameters). *)

From Coq Require Import Reals ZArith List Bool Lra Lia.
From Flocq Require Import Core.
From Verif Require Import SumOrder Num XR Spec XRFacts.
Import ListNotations.
Open Scope R_scope.

Definition fexp64 : Z -> Z := FLT_exp (-1074) 53.
(** rounding to nearest, ties to even *)
Definition rnd (r : R) : R := round radix2 fexp64 ZnearestE r.
(** [r] is a finite binary64 number *)
Definition is_float (r : R) : Prop := generic_format radix2 fexp64 r.
Definition floats (l : list R) : Prop := forall v, In v l -> is_float v.

Definition xround (x : xr) : xr := match x with Fin r => Fin (rnd r) | _ => x end.

(** An elementary-function library: every result that the model's theorems depend on is a binary64 number within four units in the
    last place of the exact value; exp is in [0,1] for arguments <= 0; tanh is 1 from 22 on (the exact value is within 2^-62
    of 1 there).  Nothing is asked of ln, cos and sin.  Correct rounding is one such library ([rounded_libm]). *)
Record libm : Type := {
  l_exp : R -> R;
  l_ln : R -> R;
  l_tanh : R -> R;
  l_cos : R -> R;
  l_sin : R -> R;
  l_pow : R -> R -> R;
  l_exp_acc : forall x, Rabs (l_exp x - exp x) <= 4 * ulp radix2 fexp64 (exp x);
  l_exp_01 : forall x, x <= 0 -> 0 <= l_exp x <= 1;
  l_tanh_acc : forall x, Rabs (l_tanh x - tanh x) <= 4 * ulp radix2 fexp64 (tanh x);
  l_tanh_1 : forall x, 22 <= x -> l_tanh x = 1;
  l_pow_acc : forall x y, 0 < x -> Rabs (l_pow x y - Rpower x y) <= 4 * ulp radix2 fexp64 (Rpower x y);
  l_pow_nonneg : forall x y, 0 < x -> 0 <= l_pow x y;
  l_pow_anti : forall x x' y, 0 < x <= x' -> y < 0 -> l_pow x' y <= l_pow x y;
  l_float : forall x y, is_float (l_exp x) /\ is_float (l_tanh x) /\ is_float (l_pow x y) }.
(** the library is used where the exact function has a finite value at a finite argument *)
Definition by_lib (f : R -> R) (g : xr -> xr) (x : xr) : xr :=
  match x, g x with Fin r, Fin _ => Fin (f r) | _, y => y end.
Definition by_lib2 (f : R -> R -> R) (g : xr -> xr -> xr) (x y : xr) : xr :=
  match x, y with
  | Fin a, Fin b => if Rlt_dec 0 a then Fin (f a b) else g x y
  | _, _ => g x y
  end.
(** x ** m, m an int, by the library's pow (C99 conventions for 0, the infinities, nan and a negative x) *)
Definition by_pow (f : R -> R -> R) (x : xr) (m : Z) : xr :=
  match m, x with
  | Z0, _ => Fin 1
  | _, Fin a =>
      if Rlt_dec 0 a then Fin (f a (IZR m))
      else if Rlt_dec a 0 then Fin (if Z.even m then f (- a) (IZR m) else - f (- a) (IZR m))
      else if Z.ltb m 0 then PInf else Fin 0
  | _, PInf => if Z.ltb m 0 then Fin 0 else PInf
  | _, NInf => if Z.ltb m 0 then Fin 0 else if Z.even m then PInf else NInf
  | _, NaN => NaN
  end.
Existing Class summation.
Existing Class libm.
Definition NB {So : summation} {Lm : libm} : Num :=
  mkNum xr (fun z => Fin (rnd (IZR z)))
        (fun a b => xround (xadd a b)) (fun a b => xround (xsub a b)) (fun a b => xround (xmul a b))
        (fun a b => xround (xdiv a b)) xopp xabs (fun a => xround (xsqrt a)) xltb xleb xeqb
        xfloor xisnan xisinf PInf NaN (by_lib (l_exp Lm) xexp) (by_lib (l_ln Lm) xln) (by_lib (l_tanh Lm) xtanh)
        (by_lib2 (l_pow Lm) xpow) (by_pow (l_pow Lm)) (Fin (rnd PI)) (by_lib (l_cos Lm) xcos) (by_lib (l_sin Lm) xsin)
        (sum_by (order So) (fun a b => xround (xadd a b)) (Fin 0)).

(** ** Facts about rounding *)

#[local] Instance prec53 : Prec_gt_0 53 := eq_refl.
#[local] Instance fexp64_valid : Valid_exp fexp64 := FLT_exp_valid (-1074) 53.
#[local] Instance fexp64_mono : Monotone_exp fexp64 := FLT_exp_monotone (-1074) 53.
#[local] Instance fexp64_ne : Exists_NE radix2 fexp64 := exists_NE_FLT radix2 (-1074) 53 (or_intror eq_refl).

Lemma rnd_le a b : a <= b -> rnd a <= rnd b.
Proof. apply round_le; typeclasses eauto. Qed.
Lemma rnd_id r : is_float r -> rnd r = r.
Proof. apply round_generic. typeclasses eauto. Qed.
Lemma rnd_float r : is_float (rnd r).
Proof. apply generic_format_round; typeclasses eauto. Qed.
Lemma rnd_ge_float f r : is_float f -> f <= r -> f <= rnd r.
Proof. intros Hf H. rewrite <- (rnd_id f Hf). apply rnd_le, H. Qed.
Lemma rnd_le_float f r : is_float f -> r <= f -> rnd r <= f.
Proof. intros Hf H. rewrite <- (rnd_id f Hf). apply rnd_le, H. Qed.
Lemma rnd_opp r : rnd (- r) = - rnd r.
Proof. apply round_NE_opp. Qed.

(** integers times powers of two *)
Lemma float_scaled (m : Z) (e : Z) : (Z.abs m <= 2 ^ 53)%Z -> (-1074 <= e)%Z -> is_float (IZR m * bpow radix2 e).
Proof.
  intros Hm He. destruct (Z.eq_dec (Z.abs m) (2 ^ 53)) as [E|E].
  - assert (Hp : is_float (bpow radix2 (53 + e))).
    { apply generic_format_bpow. unfold fexp64, FLT_exp. lia. }
    assert (B : bpow radix2 (53 + e) = IZR (2 ^ 53) * bpow radix2 e) by (rewrite bpow_plus; reflexivity).
    destruct (Z.abs_eq_or_opp m) as [A|A].
    + rewrite <- A, E, <- B. exact Hp.
    + replace m with (- (2 ^ 53))%Z by lia. rewrite opp_IZR, Ropp_mult_distr_l_reverse, <- B. apply generic_format_opp, Hp.
  - apply generic_format_FLT. exists (Float radix2 m e); cbn [Fnum Fexp]; [reflexivity| |exact He].
    change (Zpower radix2 53) with (2 ^ 53)%Z. lia.
Qed.
Lemma float_Z (m : Z) : (Z.abs m <= 2 ^ 53)%Z -> is_float (IZR m).
Proof. intros H. rewrite <- (Rmult_1_r (IZR m)). change 1 with (bpow radix2 0). apply float_scaled; [exact H|lia]. Qed.
Lemma float_0 : is_float 0.
Proof. apply generic_format_0. Qed.
Lemma float_bpow e : (-1074 <= e)%Z -> is_float (bpow radix2 e).
Proof. intros H. rewrite <- (Rmult_1_l (bpow radix2 e)). apply (float_scaled 1); [cbn; lia|exact H]. Qed.

(** absolute error below 2^e: at most 2^(e-54) *)
Lemma rnd_err r e : (-1020 <= e)%Z -> Rabs r <= bpow radix2 e -> Rabs (rnd r - r) <= bpow radix2 (e - 54).
Proof.
  intros He Hr. destruct (Rle_lt_or_eq_dec _ _ Hr) as [H|H].
  - eapply Rle_trans; [apply error_le_half_ulp; typeclasses eauto|].
    assert (U : ulp radix2 fexp64 r <= bpow radix2 (e - 53)).
    { destruct (Req_dec r 0) as [->|Hn].
      - replace (ulp radix2 fexp64 0) with (bpow radix2 (-1074)) by (symmetry; apply (ulp_FLT_0 radix2 (-1074) 53)).
        apply bpow_le. lia.
      - rewrite ulp_neq_0 by exact Hn. apply bpow_le. unfold cexp, fexp64, FLT_exp.
        assert (mag radix2 r <= e)%Z by (apply mag_le_bpow; auto). lia. }
    replace (bpow radix2 (e - 54)) with (/ 2 * bpow radix2 (e - 53)).
    + apply Rmult_le_compat_l; lra.
    + replace (e - 53)%Z with (1 + (e - 54))%Z by lia. rewrite bpow_plus. change (bpow radix2 1) with 2. lra.
  - rewrite rnd_id.
    + rewrite Rminus_diag_eq, Rabs_R0 by reflexivity. apply bpow_ge_0.
    + unfold Rabs in H. destruct (Rcase_abs r).
      * rewrite <- (Ropp_involutive r), H. apply generic_format_opp, float_bpow. lia.
      * rewrite H. apply float_bpow. lia.
Qed.

(** no binary64 number is nearer than the rounded value *)
Lemma rnd_nearest r f : is_float f -> Rabs (rnd r - r) <= Rabs (f - r).
Proof. intros Hf. apply (round_N_pt radix2 fexp64 (fun x => negb (Z.even x)) r). exact Hf. Qed.
(** every binary64 number is a multiple of 2^-1074 *)
Lemma float_multiple r : is_float r -> exists m, r = IZR m * bpow radix2 (-1074).
Proof.
  intros H. unfold is_float, generic_format, F2R in H. cbn [Fnum Fexp] in H.
  set (m := Ztrunc _) in H. assert (E : (-1074 <= cexp radix2 fexp64 r)%Z) by (unfold cexp, fexp64, FLT_exp; lia).
  exists (m * 2 ^ (cexp radix2 fexp64 r + 1074))%Z. rewrite mult_IZR.
  change (2 ^ (cexp radix2 fexp64 r + 1074))%Z with (Zpower radix2 (cexp radix2 fexp64 r + 1074)).
  rewrite (IZR_Zpower radix2) by lia. rewrite Rmult_assoc, <- bpow_plus.
  replace (cexp radix2 fexp64 r + 1074 + -1074)%Z with (cexp radix2 fexp64 r) by lia. exact H.
Qed.
(** the computed difference of two different binary64 numbers is not zero (gradual underflow) *)
Lemma rnd_diff_pos a b : is_float a -> is_float b -> a < b -> 0 < rnd (b - a).
Proof.
  intros Ha Hb H. apply Rlt_le_trans with (bpow radix2 (-1074)); [apply bpow_gt_0|].
  apply rnd_ge_float; [apply float_bpow; lia|].
  destruct (float_multiple a Ha) as [m ->]. destruct (float_multiple b Hb) as [k ->].
  rewrite <- Rmult_minus_distr_r, <- minus_IZR. assert (P := bpow_gt_0 radix2 (-1074)).
  apply Rmult_lt_reg_r in H; [|exact P]. apply lt_IZR in H.
  rewrite <- (Rmult_1_l (bpow radix2 (-1074))) at 1. apply Rmult_le_compat_r; [lra|]. apply IZR_le. lia.
Qed.

(** ** The operations of [NB] on finite values *)

Section AnyOrder.
  Context {So : summation} {Lm : libm}.

Lemma nb_add a b : nadd (n:=NB) (Fin a) (Fin b) = Fin (rnd (a + b)). Proof. reflexivity. Qed.
Lemma nb_sub a b : nsub (n:=NB) (Fin a) (Fin b) = Fin (rnd (a - b)). Proof. reflexivity. Qed.
Lemma nb_mul a b : nmul (n:=NB) (Fin a) (Fin b) = Fin (rnd (a * b)). Proof. reflexivity. Qed.
Lemma nb_div a b : b <> 0 -> ndiv (n:=NB) (Fin a) (Fin b) = Fin (rnd (a / b)).
Proof. intros H. change (ndiv (n:=NB) (Fin a) (Fin b)) with (xround (xdiv (Fin a) (Fin b))). cbn [xdiv]. destruct (Req_EM_T b 0); [contradiction|reflexivity]. Qed.
Lemma nb_ltb a b : nltb (n:=NB) (Fin a) (Fin b) = Rltb a b. Proof. reflexivity. Qed.
Lemma nb_leb a b : nleb (n:=NB) (Fin a) (Fin b) = Rleb a b. Proof. reflexivity. Qed.
Lemma nb_ofZ z : (Z.abs z <= 2 ^ 53)%Z -> nofZ (n:=NB) z = Fin (IZR z).
Proof. intros H. change (nofZ (n:=NB) z) with (Fin (rnd (IZR z))). rewrite rnd_id by (apply float_Z, H). reflexivity. Qed.
Lemma nb_0 : n0 (N:=NB) = Fin 0. Proof. unfold n0. rewrite nb_ofZ by (cbn; lia). reflexivity. Qed.
Lemma nb_1 : n1 (N:=NB) = Fin 1. Proof. unfold n1. rewrite nb_ofZ by (cbn; lia). reflexivity. Qed.
Lemma nb_diff (l : list R) : ndiff (N:=NB) (F l) = F (map rnd (Rdiff l)).
Proof.
  induction l as [|a l IH]; [reflexivity|]. destruct l as [|b l]; [reflexivity|].
  change (ndiff (N:=NB) (F (a :: b :: l))) with (nsub (n:=NB) (Fin b) (Fin a) :: ndiff (N:=NB) (F (b :: l))).
  rewrite IH, nb_sub. reflexivity.
Qed.
End AnyOrder.
