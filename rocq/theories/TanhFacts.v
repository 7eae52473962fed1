(** * The hyperbolic tangent and the function q tanh q *)

From Coq Require Import Reals Lra Lia.
From Coquelicot Require Import Coquelicot.
Open Scope R_scope.

Lemma exp_mono x y : x <= y -> exp x <= exp y.
Proof. intros [L|E]; [left; apply exp_increasing; auto|right; rewrite E; auto]. Qed.
Lemma cosh_pos x : 0 < cosh x.
Proof. unfold cosh. assert (A := exp_pos x). assert (B := exp_pos (- x)). lra. Qed.
Lemma tanh_exp x : tanh x = 1 - 2 * exp (-2 * x) / (1 + exp (-2 * x)).
Proof.
  unfold tanh, sinh, cosh. assert (A := exp_pos x). assert (B := exp_pos (- x)). assert (C := exp_pos (-2 * x)).
  assert (E : exp (-2 * x) = exp (- x) * / exp x) by (rewrite <- exp_Ropp, <- exp_plus; f_equal; ring).
  assert (D : exp (- x) = / exp x) by apply exp_Ropp. rewrite E, D. set (e := exp x) in *. assert (0 < e * e) by nra. field. repeat split; lra.
Qed.
Lemma tanh_sq x : 1 - tanh x * tanh x = / (cosh x * cosh x).
Proof.
  assert (C := cosh_pos x). unfold tanh. assert (E : cosh x * cosh x - sinh x * sinh x = 1).
  { unfold cosh, sinh. assert (D : exp x * exp (- x) = 1) by (rewrite <- exp_plus; replace (x + - x) with 0 by ring; apply exp_0). nra. }
  apply (Rmult_eq_reg_r (cosh x * cosh x)); [|nra]. rewrite Rinv_l by nra.
  transitivity (cosh x * cosh x - sinh x * sinh x); [field; lra|exact E].
Qed.
Lemma tanh_lt_1 x : tanh x < 1.
Proof.
  rewrite tanh_exp. assert (C := exp_pos (-2 * x)).
  assert (0 < 2 * exp (-2 * x) / (1 + exp (-2 * x))) by (apply Rdiv_lt_0_compat; lra). lra.
Qed.
Lemma tanh_odd x : tanh (- x) = - tanh x.
Proof. unfold tanh, sinh, cosh. rewrite Ropp_involutive. field. assert (A := exp_pos x). assert (B := exp_pos (- x)). lra. Qed.
Lemma tanh_0' : tanh 0 = 0.
Proof. unfold tanh, sinh. rewrite Ropp_0. field. apply Rgt_not_eq, cosh_pos. Qed.
Lemma tanh_pos x : 0 < x -> 0 < tanh x.
Proof.
  intros P. unfold tanh. apply Rdiv_lt_0_compat; [|apply cosh_pos]. unfold sinh. assert (exp (- x) < exp x) by (apply exp_increasing; lra). lra.
Qed.
Lemma tanh_sq_pos x : 0 < 1 - tanh x * tanh x.
Proof. rewrite tanh_sq. apply Rinv_0_lt_compat. assert (C := cosh_pos x). nra. Qed.
Lemma one_minus_tanh x : 1 - tanh x <= 2 * exp (-2 * x).
Proof.
  rewrite tanh_exp. assert (C := exp_pos (-2 * x)). enough (2 * exp (-2 * x) / (1 + exp (-2 * x)) <= 2 * exp (-2 * x)) by lra.
  apply (Rmult_le_reg_r (1 + exp (-2 * x))); [lra|]. unfold Rdiv. rewrite Rmult_assoc, Rinv_l by lra. nra.
Qed.
Lemma tanh_sq_le x : 1 - tanh x * tanh x <= 4 * exp (-2 * x).
Proof.
  rewrite tanh_exp. assert (C := exp_pos (-2 * x)). set (e := exp (-2 * x)) in *.
  replace (1 - (1 - 2 * e / (1 + e)) * (1 - 2 * e / (1 + e))) with (4 * e / ((1 + e) * (1 + e))) by (field; lra).
  apply (Rmult_le_reg_r ((1 + e) * (1 + e))); [nra|]. unfold Rdiv. rewrite Rmult_assoc, Rinv_l by nra. nra.
Qed.
Lemma tanh_derive x : is_derive tanh x (1 - tanh x * tanh x).
Proof.
  assert (A := exp_pos x). assert (B := exp_pos (- x)). unfold tanh at 1. unfold sinh, cosh.
  auto_derive; [split; [lra|exact I] || lra|].
  unfold tanh, sinh, cosh. field. lra.
Qed.
Lemma tanh_mono x y : x <= y -> tanh x <= tanh y.
Proof.
  intros L. rewrite !tanh_exp. assert (A := exp_pos (-2 * x)). assert (B := exp_pos (-2 * y)).
  assert (D : exp (-2 * y) <= exp (-2 * x)) by (apply exp_mono; lra). set (u := exp (-2 * x)) in *. set (v := exp (-2 * y)) in *.
  enough (2 * v / (1 + v) <= 2 * u / (1 + u)) by lra.
  apply (Rmult_le_reg_r ((1 + v) * (1 + u))); [nra|].
  replace (2 * v / (1 + v) * ((1 + v) * (1 + u))) with (2 * v * (1 + u)) by (field; lra).
  replace (2 * u / (1 + u) * ((1 + v) * (1 + u))) with (2 * u * (1 + v)) by (field; lra). nra.
Qed.

(** the dispersion function *)
Definition qth (q : R) : R := q * tanh q.
Lemma qth_derive q : is_derive qth q (tanh q + q * (1 - tanh q * tanh q)).
Proof.
  unfold qth. evar_last.
  - apply (is_derive_mult (fun x => x) tanh q 1 (1 - tanh q * tanh q)); [apply (is_derive_id q)|apply tanh_derive|intros; apply Rmult_comm].
  - unfold plus, mult; cbn. ring.
Qed.
Lemma qth_mvt x y : x <= y -> exists z, x <= z <= y /\ qth y - qth x = (tanh z + z * (1 - tanh z * tanh z)) * (y - x).
Proof.
  intros L. destruct (MVT_gen qth x y (fun q => tanh q + q * (1 - tanh q * tanh q))) as (z & Hz & E).
  - intros t _. apply qth_derive.
  - intros t _. apply continuity_pt_filterlim, (ex_derive_continuous qth t). eexists. apply qth_derive.
  - rewrite Rmin_left, Rmax_right in Hz by lra. eauto.
Qed.
Lemma qth_lt x y : 0 <= x -> x < y -> qth x < qth y.
Proof.
  intros P L. unfold qth. assert (A := tanh_mono x y ltac:(lra)). assert (B := tanh_pos y ltac:(lra)).
  destruct P as [P| <-]; [|nra]. assert (C := tanh_pos x P). nra.
Qed.

(** numerical bounds *)
Lemma e_lower : 269 / 100 <= exp 1.
Proof.
  assert (A : 1 + 1 / 64 <= exp (1 / 64)) by apply exp_ineq1_le.
  assert (E : exp 1 = exp (1 / 64) ^ 64) by (rewrite <- Rpower_pow by apply exp_pos; unfold Rpower; rewrite ln_exp; f_equal; rewrite INR_IZR_INZ; cbn; lra).
  rewrite E. apply Rle_trans with ((1 + 1 / 64) ^ 64); [|apply pow_incr; lra]. lra.
Qed.
Lemma xe_bound x : x * exp (- x) <= exp (-1).
Proof.
  assert (A := exp_ineq1_le (x - 1)). assert (E : exp (-1) = exp (x - 1) * exp (- x)) by (rewrite <- exp_plus; f_equal; ring).
  rewrite E. assert (B := exp_pos (- x)). nra.
Qed.
Lemma em1 : 0 < exp (-1) <= 372 / 1000.
Proof.
  split; [apply exp_pos|]. replace (-1) with (- (1)) by ring. rewrite exp_Ropp. assert (A := e_lower). apply Rle_trans with (/ (269 / 100)); [apply Rinv_le_contravar; lra|lra].
Qed.
