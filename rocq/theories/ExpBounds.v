(** * Verified integer bounds for exp, tanh and the starting value of the dispersion iteration *)

From Coq Require Import ZArith Reals Lra Lia List Bool.
From Coquelicot Require Import Coquelicot.
From Verif Require Import TanhFacts.
Import ListNotations.
Open Scope R_scope.

(** ** Taylor bounds *)
Lemma grow (f g f' g' : R -> R) (y : R) : 0 <= y -> f 0 <= g 0 ->
  (forall x, is_derive f x (f' x)) -> (forall x, is_derive g x (g' x)) -> (forall x, 0 <= x <= y -> f' x <= g' x) -> f y <= g y.
Proof.
  intros P B Df Dg L. destruct (MVT_gen (fun x => g x - f x) 0 y (fun x => g' x - f' x)) as (z & Hz & E).
  - intros x _. apply (is_derive_minus (V := R_NormedModule) g f x); auto.
  - intros x _. apply continuity_pt_filterlim, (ex_derive_continuous (fun x => g x - f x) x). eexists.
    apply (is_derive_minus (V := R_NormedModule) g f x); auto.
  - rewrite Rmin_left, Rmax_right in Hz by lra. specialize (L z Hz). nra.
Qed.
Ltac dr := intros; auto_derive; [repeat split; auto|try field; try lra].
Lemma exp_lo2 y : 0 <= y -> 1 + y + y * y / 2 <= exp y.
Proof.
  intros P. apply (grow (fun x => 1 + x + x * x / 2) exp (fun x => 1 + x) exp y P).
  - rewrite exp_0. lra. - dr. - intros; apply is_derive_Reals, derivable_pt_lim_exp. - intros; apply exp_ineq1_le.
Qed.
Lemma exp_lo3 y : 0 <= y -> 1 + y + y * y / 2 + y * y * y / 6 <= exp y.
Proof.
  intros P. apply (grow (fun x => 1 + x + x * x / 2 + x * x * x / 6) exp (fun x => 1 + x + x * x / 2) exp y P).
  - rewrite exp_0. lra. - dr. - intros; apply is_derive_Reals, derivable_pt_lim_exp. - intros; apply exp_lo2; lra.
Qed.
Lemma exp_lo4 y : 0 <= y -> 1 + y + y * y / 2 + y * y * y / 6 + y * y * y * y / 24 <= exp y.
Proof.
  intros P. apply (grow (fun x => 1 + x + x * x / 2 + x * x * x / 6 + x * x * x * x / 24) exp (fun x => 1 + x + x * x / 2 + x * x * x / 6) exp y P).
  - rewrite exp_0. lra. - dr. - intros; apply is_derive_Reals, derivable_pt_lim_exp. - intros; apply exp_lo3; lra.
Qed.
Lemma exp_hi0 y : 0 <= y <= 1 / 2 -> exp y <= 2.
Proof.
  intros [P L]. assert (A := exp_ineq1_le (- y)). rewrite exp_Ropp in A. assert (B := exp_pos y).
  apply (Rmult_le_compat_l (exp y)) in A; [|lra]. rewrite Rinv_r in A by lra. nra.
Qed.
Lemma exp_hi1 y : 0 <= y <= 1 / 2 -> exp y <= 1 + 2 * y.
Proof.
  intros [P L]. apply (grow exp (fun x => 1 + 2 * x) exp (fun _ => 2) y P).
  - rewrite exp_0. lra. - intros; apply is_derive_Reals, derivable_pt_lim_exp. - dr. - intros; apply exp_hi0; lra.
Qed.
Lemma exp_hi2 y : 0 <= y <= 1 / 2 -> exp y <= 1 + y + y * y.
Proof.
  intros [P L]. apply (grow exp (fun x => 1 + x + x * x) exp (fun x => 1 + 2 * x) y P).
  - rewrite exp_0. lra. - intros; apply is_derive_Reals, derivable_pt_lim_exp. - dr. - intros; apply exp_hi1; lra.
Qed.
Lemma exp_hi3 y : 0 <= y <= 1 / 2 -> exp y <= 1 + y + y * y / 2 + y * y * y / 3.
Proof.
  intros [P L]. apply (grow exp (fun x => 1 + x + x * x / 2 + x * x * x / 3) exp (fun x => 1 + x + x * x) y P).
  - rewrite exp_0. lra. - intros; apply is_derive_Reals, derivable_pt_lim_exp. - dr. - intros; apply exp_hi2; lra.
Qed.
Lemma exp_hi4 y : 0 <= y <= 1 / 2 -> exp y <= 1 + y + y * y / 2 + y * y * y / 6 + y * y * y * y / 12.
Proof.
  intros [P L]. apply (grow exp (fun x => 1 + x + x * x / 2 + x * x * x / 6 + x * x * x * x / 12) exp (fun x => 1 + x + x * x / 2 + x * x * x / 3) y P).
  - rewrite exp_0. lra. - intros; apply is_derive_Reals, derivable_pt_lim_exp. - dr. - intros; apply exp_hi3; lra.
Qed.

(** ** Fixed point arithmetic: the integer n stands for the real n / 2^32 *)
Definition P : Z := 4294967296.
Definition v (n : Z) : R := IZR n / IZR P.
Lemma P_pos : 0 < IZR P.
Proof. apply IZR_lt. reflexivity. Qed.
Lemma div_lo (a b : Z) : (0 < b)%Z -> IZR (a / b) * IZR b <= IZR a.
Proof. intros H. rewrite <- mult_IZR. apply IZR_le. rewrite Z.mul_comm. apply Z.mul_div_le; auto. Qed.
Lemma div_hi (a b : Z) : (0 < b)%Z -> IZR a <= IZR (a / b + 1) * IZR b.
Proof.
  intros H. rewrite <- mult_IZR. apply IZR_le. assert (A := Z.mul_succ_div_gt a b H). lia.
Qed.
Lemma v_nonneg n : (0 <= n)%Z -> 0 <= v n.
Proof. intros H. unfold v. apply Rle_mult_inv_pos; [apply IZR_le; auto|apply P_pos]. Qed.
Lemma v_eq n : IZR n = v n * IZR P.
Proof. unfold v. field. apply Rgt_not_eq, P_pos. Qed.
Lemma v_le_of n x : IZR n <= x * IZR P -> v n <= x.
Proof. intros H. apply (Rmult_le_reg_r (IZR P)); [apply P_pos|]. rewrite <- v_eq. exact H. Qed.
Lemma le_v_of n x : x * IZR P <= IZR n -> x <= v n.
Proof. intros H. apply (Rmult_le_reg_r (IZR P)); [apply P_pos|]. rewrite <- v_eq. exact H. Qed.

Definition mul_lo (a b : Z) : Z := Z.shiftr (a * b) 32.
Definition mul_hi (a b : Z) : Z := (Z.shiftr (a * b) 32 + 1)%Z.
Lemma shift_P a : Z.shiftr a 32 = (a / P)%Z.
Proof. rewrite Z.shiftr_div_pow2 by lia. reflexivity. Qed.
Lemma mul_lo_le a b : v (mul_lo a b) <= v a * v b.
Proof.
  apply v_le_of. unfold mul_lo. rewrite shift_P. assert (A := div_lo (a * b) P eq_refl). rewrite mult_IZR in A.
  assert (Q := P_pos). rewrite (v_eq a), (v_eq b) in A.
  apply (Rmult_le_reg_r (IZR P)); [auto|]. lra.
Qed.
Lemma mul_hi_le a b : v a * v b <= v (mul_hi a b).
Proof.
  apply le_v_of. unfold mul_hi. rewrite shift_P. assert (A := div_hi (a * b) P eq_refl). rewrite mult_IZR in A.
  assert (Q := P_pos). rewrite (v_eq a), (v_eq b) in A.
  apply (Rmult_le_reg_r (IZR P)); [auto|]. lra.
Qed.
Definition div_v_lo (a b : Z) : Z := (a * P / b)%Z.
Definition div_v_hi (a b : Z) : Z := (a * P / b + 1)%Z.
Lemma div_v_lo_le a b : (0 < b)%Z -> v (div_v_lo a b) <= v a / v b.
Proof.
  intros H. assert (Q := P_pos). assert (B : 0 < IZR b) by (apply IZR_lt; auto). unfold div_v_lo.
  assert (A := div_lo (a * P) b H). rewrite mult_IZR in A.
  apply v_le_of. replace (v a / v b) with (IZR a / IZR b) by (unfold v; field; lra).
  apply (Rmult_le_reg_r (IZR b)); [auto|]. replace (IZR a / IZR b * IZR P * IZR b) with (IZR a * IZR P) by (field; lra). lra.
Qed.
Lemma div_v_hi_le a b : (0 < b)%Z -> v a / v b <= v (div_v_hi a b).
Proof.
  intros H. assert (Q := P_pos). assert (B : 0 < IZR b) by (apply IZR_lt; auto). unfold div_v_hi.
  assert (A := div_hi (a * P) b H). rewrite mult_IZR in A.
  apply le_v_of. replace (v a / v b) with (IZR a / IZR b) by (unfold v; field; lra).
  apply (Rmult_le_reg_r (IZR b)); [auto|]. replace (IZR a / IZR b * IZR P * IZR b) with (IZR a * IZR P) by (field; lra). lra.
Qed.

(** *** exp: scale down by 2^8, Taylor polynomial of degree 4, square eight times *)
Definition poly_lo (n : Z) : Z := (P + mul_lo n (P + mul_lo n (P + mul_lo n (P + n / 4) / 3) / 2))%Z.
Definition poly_hi (n : Z) : Z := (P + mul_hi n (P + (mul_hi n (P + (mul_hi n (P + (n / 2 + 1)) / 3 + 1)) / 2 + 1)))%Z.
Lemma v_plus a b : v (a + b) = v a + v b.
Proof. unfold v. rewrite plus_IZR. field. apply Rgt_not_eq, P_pos. Qed.
Lemma v_minus a b : v (a - b) = v a - v b.
Proof. unfold v. rewrite minus_IZR. field. apply Rgt_not_eq, P_pos. Qed.
Lemma v_scal k a : v (k * a) = IZR k * v a.
Proof. unfold v. rewrite mult_IZR. field. apply Rgt_not_eq, P_pos. Qed.
Lemma v_P : v P = 1.
Proof. unfold v. field. apply Rgt_not_eq, P_pos. Qed.
Lemma v_div_lo a k : (0 < k)%Z -> v (a / k) <= v a / IZR k.
Proof.
  intros H. apply v_le_of. assert (A := div_lo a k H). assert (K : 0 < IZR k) by (apply IZR_lt; auto). rewrite (v_eq a) in A.
  apply (Rmult_le_reg_r (IZR k)); auto. replace (v a / IZR k * IZR P * IZR k) with (v a * IZR P) by (field; lra). exact A.
Qed.
Lemma v_div_hi a k : (0 < k)%Z -> v a / IZR k <= v (a / k + 1).
Proof.
  intros H. apply le_v_of. assert (A := div_hi a k H). assert (K : 0 < IZR k) by (apply IZR_lt; auto). rewrite (v_eq a) in A.
  apply (Rmult_le_reg_r (IZR k)); auto. replace (v a / IZR k * IZR P * IZR k) with (v a * IZR P) by (field; lra). exact A.
Qed.
Lemma poly_lo_le n : (0 <= n)%Z -> v (poly_lo n) <= exp (v n).
Proof.
  intros H. eapply Rle_trans; [|apply exp_lo4, v_nonneg; auto]. unfold poly_lo. assert (Y := v_nonneg n H).
  assert (A1 := v_div_lo n 4 eq_refl). set (a1 := (n / 4)%Z) in *. clearbody a1.
  assert (A2 := mul_lo_le n (P + a1)). rewrite v_plus, v_P in A2. set (b1 := mul_lo n (P + a1)) in *. clearbody b1.
  assert (A3 := v_div_lo b1 3 eq_refl). set (a2 := (b1 / 3)%Z) in *. clearbody a2.
  assert (A4 := mul_lo_le n (P + a2)). rewrite v_plus, v_P in A4. set (b2 := mul_lo n (P + a2)) in *. clearbody b2.
  assert (A5 := v_div_lo b2 2 eq_refl). set (a3 := (b2 / 2)%Z) in *. clearbody a3.
  assert (A6 := mul_lo_le n (P + a3)). rewrite v_plus, v_P in A6. set (b3 := mul_lo n (P + a3)) in *. clearbody b3.
  rewrite v_plus, v_P. set (y := v n) in *.
  assert (v b1 <= y * (1 + y / 4)) by nra. assert (v b2 <= y * (1 + y * (1 + y / 4) / 3)) by nra.
  assert (v b3 <= y * (1 + y * (1 + y * (1 + y / 4) / 3) / 2)) by nra. lra.
Qed.
Lemma poly_hi_le n : (0 <= n)%Z -> v n <= 1 / 2 -> exp (v n) <= v (poly_hi n).
Proof.
  intros H L. eapply Rle_trans; [apply exp_hi4; split; [apply v_nonneg; auto|exact L]|]. unfold poly_hi. assert (Y := v_nonneg n H).
  assert (A1 := v_div_hi n 2 eq_refl). set (a1 := (n / 2 + 1)%Z) in *. clearbody a1.
  assert (A2 := mul_hi_le n (P + a1)). rewrite v_plus, v_P in A2. set (b1 := mul_hi n (P + a1)) in *. clearbody b1.
  assert (A3 := v_div_hi b1 3 eq_refl). set (a2 := (b1 / 3 + 1)%Z) in *. clearbody a2.
  assert (A4 := mul_hi_le n (P + a2)). rewrite v_plus, v_P in A4. set (b2 := mul_hi n (P + a2)) in *. clearbody b2.
  assert (A5 := v_div_hi b2 2 eq_refl). set (a3 := (b2 / 2 + 1)%Z) in *. clearbody a3.
  assert (A6 := mul_hi_le n (P + a3)). rewrite v_plus, v_P in A6. set (b3 := mul_hi n (P + a3)) in *. clearbody b3.
  rewrite v_plus, v_P. set (y := v n) in *.
  assert (y * (1 + y / 2) <= v b1) by nra. assert (y * (1 + y * (1 + y / 2) / 3) <= v b2) by nra.
  assert (y * (1 + y * (1 + y * (1 + y / 2) / 3) / 2) <= v b3) by nra. lra.
Qed.
Lemma mul_lo_nonneg a b : (0 <= a)%Z -> (0 <= b)%Z -> (0 <= mul_lo a b)%Z.
Proof. intros. unfold mul_lo. rewrite shift_P. apply Z.div_pos; [nia|reflexivity]. Qed.
Lemma poly_lo_nonneg n : (0 <= n)%Z -> (0 <= poly_lo n)%Z.
Proof.
  intros H. unfold poly_lo. assert (0 <= P)%Z by discriminate.
  assert (A : (0 <= P + n / 4)%Z) by (assert (0 <= n / 4)%Z by (apply Z.div_pos; lia); lia).
  assert (B := mul_lo_nonneg n _ H A). set (b := mul_lo n (P + n / 4)) in *. clearbody b.
  assert (C : (0 <= P + b / 3)%Z) by (assert (0 <= b / 3)%Z by (apply Z.div_pos; lia); lia).
  assert (D := mul_lo_nonneg n _ H C). set (d := mul_lo n (P + b / 3)) in *. clearbody d.
  assert (E : (0 <= P + d / 2)%Z) by (assert (0 <= d / 2)%Z by (apply Z.div_pos; lia); lia).
  assert (F := mul_lo_nonneg n _ H E). lia.
Qed.
Fixpoint sq_lo (k : nat) (a : Z) : Z := match k with O => a | S k => sq_lo k (mul_lo a a) end.
Fixpoint sq_hi (k : nat) (a : Z) : Z := match k with O => a | S k => sq_hi k (mul_hi a a) end.
Lemma exp_double x : exp (2 * x) = exp x * exp x.
Proof. rewrite <- exp_plus. f_equal. ring. Qed.
Lemma sq_lo_le k a x : (0 <= a)%Z -> v a <= exp x -> v (sq_lo k a) <= exp (2 ^ k * x).
Proof.
  revert a x. induction k as [|k IH]; intros a x Ha H; cbn [sq_lo pow].
  - rewrite Rmult_1_l. exact H.
  - replace (2 * 2 ^ k * x) with (2 ^ k * (2 * x)) by ring. apply IH; [apply mul_lo_nonneg; auto|].
    rewrite exp_double. eapply Rle_trans; [apply mul_lo_le|]. assert (B := v_nonneg a Ha). nra.
Qed.
Lemma sq_hi_le k a x : exp x <= v a -> exp (2 ^ k * x) <= v (sq_hi k a).
Proof.
  revert a x. induction k as [|k IH]; intros a x H; cbn [sq_hi pow].
  - rewrite Rmult_1_l. exact H.
  - replace (2 * 2 ^ k * x) with (2 ^ k * (2 * x)) by ring. apply IH.
    rewrite exp_double. eapply Rle_trans; [|apply mul_hi_le]. assert (B := exp_pos x). nra.
Qed.
Definition exp_lo (n : Z) : Z := sq_lo 8 (poly_lo (n / 256)).
Definition exp_hi (n : Z) : Z := sq_hi 8 (poly_hi (n / 256 + 1)).
Lemma exp_lo_le n : (0 <= n)%Z -> v (exp_lo n) <= exp (v n).
Proof.
  intros H. assert (D : (0 <= n / 256)%Z) by (apply Z.div_pos; lia). unfold exp_lo.
  eapply Rle_trans; [apply (sq_lo_le 8 _ (v (n / 256)))|].
  - apply poly_lo_nonneg; auto.
  - apply poly_lo_le; auto.
  - apply exp_mono. apply le_v_of. assert (A := div_lo n 256 eq_refl). unfold v. assert (Q := P_pos).
    replace (2 ^ 8 * (IZR (n / 256) / IZR P) * IZR P) with (256 * IZR (n / 256)) by (field; lra). lra.
Qed.
Lemma exp_hi_le n : (0 <= n)%Z -> (n <= 100 * P)%Z -> exp (v n) <= v (exp_hi n).
Proof.
  intros H U. unfold exp_hi. assert (D : (0 <= n / 256)%Z) by (apply Z.div_pos; lia).
  eapply Rle_trans; [|apply (sq_hi_le 8 _ (v (n / 256 + 1)))].
  - apply exp_mono. apply v_le_of. assert (A := div_hi n 256 eq_refl). unfold v. assert (Q := P_pos).
    replace (2 ^ 8 * (IZR (n / 256 + 1) / IZR P) * IZR P) with (256 * IZR (n / 256 + 1)) by (field; lra). lra.
  - apply poly_hi_le; [lia|]. apply v_le_of. assert (A : (n / 256 + 1 <= P / 2)%Z).
    { assert (n / 256 <= 100 * P / 256)%Z by (apply Z.div_le_mono; lia). change (100 * P / 256)%Z with 1677721600%Z in H0.
      change (P / 2)%Z with 2147483648%Z. lia. }
    apply IZR_le in A. assert (B := div_lo P 2 eq_refl). lra.
Qed.

(** *** tanh q = 1 - 2 / (exp (2 q) + 1) *)
Definition tanh_lo (n : Z) : Z := (P - div_v_hi (2 * P) (exp_lo (2 * n) + P))%Z.
Definition tanh_hi (n : Z) : Z := (P - div_v_lo (2 * P) (exp_hi (2 * n) + P))%Z.
Lemma tanh_form x : tanh x = 1 - 2 / (exp (2 * x) + 1).
Proof.
  rewrite tanh_exp. replace (-2 * x) with (- (2 * x)) by ring. rewrite exp_Ropp. assert (A := exp_pos (2 * x)). field. lra.
Qed.
Lemma v_le a b : (a <= b)%Z -> v a <= v b.
Proof. intros H. apply v_le_of. rewrite <- v_eq. apply IZR_le; auto. Qed.
Lemma v_pos a : (0 < a)%Z -> 0 < v a.
Proof. intros H. unfold v. apply Rdiv_lt_0_compat; [apply IZR_lt; auto|apply P_pos]. Qed.
Lemma exp_lo_nonneg n : (0 <= n)%Z -> (0 <= exp_lo n)%Z.
Proof.
  intros H. unfold exp_lo. assert (D : (0 <= n / 256)%Z) by (apply Z.div_pos; lia).
  assert (A := poly_lo_nonneg _ D).
  revert A. generalize (poly_lo (n / 256)). generalize 8%nat. intros k. induction k as [|k IH]; intros a A; cbn [sq_lo]; auto.
  apply IH, mul_lo_nonneg; auto.
Qed.
Lemma tanh_lo_le n : (0 <= n)%Z -> v (tanh_lo n) <= tanh (v n).
Proof.
  intros H. unfold tanh_lo. rewrite v_minus, v_P, tanh_form.
  assert (A := exp_lo_nonneg (2 * n) ltac:(lia)). assert (B := exp_lo_le (2 * n) ltac:(lia)). rewrite v_scal in B.
  assert (C := div_v_hi_le (2 * P) (exp_lo (2 * n) + P) ltac:(unfold P in *; lia)).
  rewrite v_scal, v_plus, v_P in C. assert (D := v_nonneg _ A).
  enough (2 / (exp (2 * v n) + 1) <= 2 * 1 / (v (exp_lo (2 * n)) + 1)) by lra.
  rewrite Rmult_1_r. unfold Rdiv. apply Rmult_le_compat_l; [lra|]. apply Rinv_le_contravar; lra.
Qed.
Lemma tanh_hi_le n : (0 <= n)%Z -> (n <= 50 * P)%Z -> tanh (v n) <= v (tanh_hi n).
Proof.
  intros H U. unfold tanh_hi. rewrite v_minus, v_P, tanh_form.
  assert (B := exp_hi_le (2 * n) ltac:(lia) ltac:(lia)). rewrite v_scal in B. assert (E := exp_pos (IZR 2 * v n)).
  assert (A : (0 < exp_hi (2 * n))%Z).
  { apply lt_IZR. rewrite (v_eq (exp_hi _)). assert (Q := P_pos). nra. }
  assert (C := div_v_lo_le (2 * P) (exp_hi (2 * n) + P) ltac:(unfold P in *; lia)).
  rewrite v_scal, v_plus, v_P in C.
  enough (2 * 1 / (v (exp_hi (2 * n)) + 1) <= 2 / (exp (2 * v n) + 1)) by lra.
  rewrite Rmult_1_r. unfold Rdiv. apply Rmult_le_compat_l; [lra|]. apply Rinv_le_contravar; lra.
Qed.
