(** * C81: the dispersion solver in binary64 *)

From Coq Require Import ZArith Reals Lra Lia List Bool.
From Coquelicot Require Import Coquelicot.
From Flocq Require Import Core Sterbenz.
From Verif Require Import SumOrder Num XR Engine DisperModel Spec XRFacts EngineProps TimeProps TanhFacts ExpBounds DisperStart DisperStep DisperProps
  RoundNum RoundProps RoundSpec RoundAccuracy.
Import ListNotations.
Open Scope R_scope.

Section AnyOrder.
Context {So : summation} {Lm : libm}.

(** ** One pass, from a computed correction: what matters is the residual of the quadratic equation *)
Lemma resid e r q : 0 < r -> 0 <= e <= 1001 / 100000 -> within e r q ->
  0 < q /\ 98999 / 100000 * r <= q <= 101001 / 100000 * r /\ Rabs (fc (qth r) q) <= 1041 / 1000 * (fb q * (e * r)) /\
  Rabs (fa q) * r <= 10102 / 10000 * fb q.
Proof.
  intros Hr He H. assert (N := near_range e r q Hr ltac:(lra) H). assert (Hq : 98999 / 100000 * r <= q <= 101001 / 100000 * r) by nra.
  assert (Pq : 0 < q) by nra. split; [exact Pq|]. split; [exact Hq|].
  assert (B := fb_pos q Pq). set (b := fb q) in *.
  split.
  - unfold fc. destruct (qth_mvt' r q) as (z & Hz & E). rewrite E, Rabs_mult.
    assert (Z : 98999 / 100000 * r <= z <= 101001 / 100000 * r).
    { destruct (Rle_or_lt r q) as [L|L]; [rewrite Rmin_left, Rmax_right in Hz by lra|rewrite Rmin_right, Rmax_left in Hz by lra]; lra. }
    assert (F := fb_ratio z q (98999 / 100000 * r) (101001 / 100000 * r) ltac:(lra) Z Hq). fold b in F.
    rewrite Rabs_pos_eq by (left; apply fb_pos; lra).
    assert (F' : fb z <= 1041 / 1000 * b).
    { apply (Rmult_le_reg_r (r * r)); [nra|]. nra. }
    unfold within in H. assert (0 <= Rabs (q - r)) by apply Rabs_pos.
    replace (1041 / 1000 * (b * (e * r))) with (1041 / 1000 * b * (e * r)) by ring.
    apply Rmult_le_compat; auto. left; apply fb_pos; lra.
  - assert (A := fa_bound q Pq). fold b in A. assert (X := Rabs_pos (fa q)). nra.
Qed.
Theorem step_gen e r q d n : 0 < r -> 0 <= e <= 1001 / 100000 -> within e r q -> 0 <= n ->
  Rabs d <= 1057 / 1000 * (e * r) + 1 / 1000000 * r ->
  Rabs (fc (qth r) q + fb q * d + fa q * (d * d)) <= n * (fb q * r) ->
  Rabs d ^ 3 <= 1182 / 1000 * (e * e * e) * (r * r * r) + n * (r * r * r) ->
  within (74 / 100 * (e * e * e) + 18 / 10 * n) r (q + d).
Proof.
  intros Hr He H Hn Dd Dr D3. destruct (resid e r q Hr He H) as (Pq & Hq0 & C & _). assert (B := fb_pos q Pq).
  assert (ER : 0 <= e * r <= 1001 / 100000 * r) by nra. assert (D' := Dd). apply Rabs_le_between in D'.
  set (l := 979 / 1000 * r). set (u := 1021 / 1000 * r).
  assert (Hq : l <= q <= u) by (unfold l, u; lra). assert (Hq' : l <= q + d <= u) by (unfold l, u; lra).
  assert (Hr' : l <= r <= u) by (unfold l, u; lra). assert (Hl : 0 < l) by (unfold l; lra).
  set (b := fb q) in *.
  assert (BU : forall z, l <= z <= u -> fb z <= 1088 / 1000 * b /\ b <= 1088 / 1000 * fb z).
  { intros z Hz. assert (F1 := fb_ratio z q l u Hl Hz Hq). assert (F2 := fb_ratio q z l u Hl Hq Hz). fold b in F1, F2. unfold l, u in F1, F2.
    assert (0 < r * r) by nra. split; apply (Rmult_le_reg_r (r * r)); auto; nra. }
  assert (M : forall z, l <= z <= u -> 2 * Rabs (fa3 z) <= 341 / 100 * (b / (r * r))).
  { intros z Hz. assert (F := fa3_bound z ltac:(lra)). destruct (BU z Hz) as [F1 _]. assert (G := Rabs_pos (fa3 z)).
    assert (RR : 0 < r * r) by nra. apply (Rmult_le_reg_r (r * r)); auto.
    replace (341 / 100 * (b / (r * r)) * (r * r)) with (341 / 100 * b) by (field; lra).
    assert (ZZ : 9584 / 10000 * (r * r) <= z * z) by (unfold l, u in Hz; nra). nra. }
  assert (T := qth_taylor q d (341 / 100 * (b / (r * r)))). fold b in T.
  assert (T' : Rabs (qth (q + d) - (qth q + b * d + fa q * (d * d))) <= 341 / 100 * (b / (r * r)) * Rabs d ^ 3 / 6).
  { apply T. intros z Hz. apply M. destruct (Rle_or_lt q (q + d)) as [L|L]; [rewrite Rmin_left, Rmax_right in Hz by lra|rewrite Rmin_right, Rmax_left in Hz by lra]; lra. }
  clear T.
  assert (BR : 0 < b / (r * r)) by (apply Rdiv_lt_0_compat; nra).
  assert (E3 : 0 <= e * e * e) by (repeat apply Rmult_le_pos; lra).
  assert (R1 : Rabs (qth (q + d) - (qth q + b * d + fa q * (d * d))) <= (672 / 1000 * (e * e * e) + 57 / 100 * n) * (b * r)).
  { eapply Rle_trans; [exact T'|].
    apply Rle_trans with (341 / 100 * (b / (r * r)) * (1182 / 1000 * (e * e * e) * (r * r * r) + n * (r * r * r)) / 6).
    - apply Rmult_le_compat_r; [lra|]. apply Rmult_le_compat_l; lra.
    - replace (341 / 100 * (b / (r * r)) * (1182 / 1000 * (e * e * e) * (r * r * r) + n * (r * r * r)) / 6)
        with ((341 * 1182 / 600000 * (e * e * e) + 341 / 600 * n) * (b * r)) by (field; lra).
      apply Rmult_le_compat_r; [nra|]. lra. }
  assert (R2 : Rabs (qth (q + d) - qth r) <= (672 / 1000 * (e * e * e) + 157 / 100 * n) * (b * r)).
  { replace (qth (q + d) - qth r) with ((qth (q + d) - (qth q + b * d + fa q * (d * d))) + (fc (qth r) q + b * d + fa q * (d * d))) by (unfold fc; ring).
    eapply Rle_trans; [apply Rabs_triang|]. lra. }
  destruct (qth_mvt' r (q + d)) as (z & Hz & E). rewrite E, Rabs_mult in R2.
  assert (Z : l <= z <= u).
  { destruct (Rle_or_lt r (q + d)) as [L|L]; [rewrite Rmin_left, Rmax_right in Hz by lra|rewrite Rmin_right, Rmax_left in Hz by lra]; lra. }
  destruct (BU z Z) as [_ F]. assert (Pz := fb_pos z ltac:(lra)). rewrite (Rabs_pos_eq (fb z)) in R2 by lra.
  unfold within. set (w := Rabs (q + d - r)) in *. assert (W := Rabs_pos (q + d - r)). fold w in W.
  apply (Rmult_le_reg_l b); auto.
  apply Rle_trans with (1088 / 1000 * fb z * w); [apply Rmult_le_compat_r; auto|].
  apply Rle_trans with (1088 / 1000 * ((672 / 1000 * (e * e * e) + 157 / 100 * n) * (b * r))); [lra|].
  replace (b * ((74 / 100 * (e * e * e) + 18 / 10 * n) * r)) with ((74 / 100 * (e * e * e) + 18 / 10 * n) * (b * r)) by ring.
  rewrite <- Rmult_assoc. apply Rmult_le_compat_r; [nra|]. lra.
Qed.

(** ** Rounding errors of short expressions, measured in units u*w *)
Lemma z_small : 0 < bpow radix2 (-1020) <= / 10 ^ 90.
Proof.
  split; [apply b_pos|]. apply Rle_trans with (bpow radix2 (-300)); [apply bpow_le; lia|].
  change (bpow radix2 (-300)) with (/ IZR (Z.pow_pos 2 300)). apply Rinv_le_contravar; [apply pow_lt; lra|].
  rewrite pow_IZR. apply IZR_le. vm_compute. discriminate.
Qed.
Lemma u_small : 0 < u53 <= 1 / 9000000000000000.
Proof. rewrite u53_val. lra. Qed.
Definition tiny : R := / 10 ^ 60.
Lemma tiny_small : 0 < tiny <= / 10 ^ 50 /\ bpow radix2 (-1020) <= / 10 ^ 30 * tiny.
Proof.
  assert (Z := z_small). unfold tiny. split; [split|].
  - apply Rinv_0_lt_compat, pow_lt. lra.
  - apply Rinv_le_contravar; [apply pow_lt; lra|]. apply Rle_pow; [lra|lia].
  - rewrite <- Rinv_mult, <- pow_add. exact (proj2 Z).
Qed.
Lemma re k x0 w x x' : 0 <= k <= 1000 -> tiny <= w -> Rabs (x' - x) <= k * (u53 * w) -> Rabs x <= x0 * w ->
  Rabs (rnd x' - x) <= (k + x0 + / 1000) * (u53 * w).
Proof.
  intros Hk Hw H H0. assert (R := rnd_abs x'). assert (U := u_small). destruct tiny_small as [[T0 T1] T2].
  assert (Z := z_small). assert (X : Rabs x' <= x0 * w + k * (u53 * w)).
  { replace x' with (x + (x' - x)) by ring. eapply Rle_trans; [apply Rabs_triang|]. lra. }
  replace (rnd x' - x) with ((rnd x' - x') + (x' - x)) by ring. eapply Rle_trans; [apply Rabs_triang|].
  assert (KU : k * (u53 * w) <= / 100000 * w).
  { clear - Hk U T0 Hw. apply Rle_trans with (1000 * (u53 * w)); [apply Rmult_le_compat_r; [apply Rmult_le_pos; lra|lra]|].
    rewrite <- Rmult_assoc. apply Rmult_le_compat_r; lra. }
  assert (ZW : bpow radix2 (-1020) <= / 100000 * w).
  { apply (Rle_trans _ _ _ T2). assert (P30 : / 10 ^ 30 <= / 100000) by (apply Rinv_le_contravar; lra).
    apply Rle_trans with (/ 100000 * tiny); [apply Rmult_le_compat_r; lra|lra]. }
  assert (Rabs (rnd x' - x') <= u53 * (x0 * w + / 1000 * w)).
  { eapply Rle_trans; [exact R|]. apply Rmult_le_compat_l; [lra|]. lra. }
  replace ((k + x0 + / 1000) * (u53 * w)) with (u53 * (x0 * w + / 1000 * w) + k * (u53 * w)) by ring. lra.
Qed.
Lemma me j k x0 y0 v w x x' y y' : 0 <= j <= 1000 -> 0 <= k <= 1000 -> 0 <= v -> 0 <= w ->
  Rabs (x' - x) <= j * (u53 * v) -> Rabs x <= x0 * v -> Rabs (y' - y) <= k * (u53 * w) -> Rabs y <= y0 * w ->
  Rabs (x' * y' - x * y) <= (j * y0 + x0 * k + / 1000) * (u53 * (v * w)).
Proof.
  intros Hj Hk Hv Hw A B C D. assert (U := u_small).
  replace (x' * y' - x * y) with ((x' - x) * y + x * (y' - y) + (x' - x) * (y' - y)) by ring.
  assert (VW : 0 <= v * w) by (apply Rmult_le_pos; auto).
  assert (M1 : Rabs ((x' - x) * y) <= j * (u53 * v) * (y0 * w)) by (rewrite Rabs_mult; apply Rmult_le_compat; auto; apply Rabs_pos).
  assert (M2 : Rabs (x * (y' - y)) <= x0 * v * (k * (u53 * w))) by (rewrite Rabs_mult; apply Rmult_le_compat; auto; apply Rabs_pos).
  assert (M3 : Rabs ((x' - x) * (y' - y)) <= j * (u53 * v) * (k * (u53 * w))) by (rewrite Rabs_mult; apply Rmult_le_compat; auto; apply Rabs_pos).
  eapply Rle_trans; [apply Rabs_triang|]. eapply Rle_trans; [apply Rplus_le_compat_r, Rabs_triang|].
  assert (J : j * k * u53 <= / 1000).
  { apply Rle_trans with (1000 * 1000 * u53); [|lra]. apply Rmult_le_compat_r; [lra|]. apply Rmult_le_compat; lra. }
  replace ((j * y0 + x0 * k + / 1000) * (u53 * (v * w))) with (j * (u53 * v) * (y0 * w) + x0 * v * (k * (u53 * w)) + / 1000 * (u53 * (v * w))) by ring.
  assert (j * (u53 * v) * (k * (u53 * w)) <= / 1000 * (u53 * (v * w))); [|lra].
  replace (j * (u53 * v) * (k * (u53 * w))) with (j * k * u53 * (u53 * (v * w))) by ring. apply Rmult_le_compat_r; [|exact J].
  apply Rmult_le_pos; lra.
Qed.
Lemma re' k x0 w x x' K : Rabs (x' - x) <= k * (u53 * w) -> Rabs x <= x0 * w -> 0 <= k <= 1000 -> tiny <= w -> k + x0 + / 1000 <= K ->
  Rabs (rnd x' - x) <= K * (u53 * w).
Proof.
  intros A B C D H. eapply Rle_trans; [apply (re k x0 w); auto|]. apply Rmult_le_compat_r; [|exact H].
  assert (U := u_small). destruct tiny_small as [[T0 _] _]. apply Rmult_le_pos; lra.
Qed.
Lemma exact0 w x : Rabs (x - x) <= 0 * (u53 * w). Proof. rewrite Rminus_eq_0, Rabs_R0. lra. Qed.
Lemma ae j k v x x' y y' : Rabs (x' - x) <= j * v -> Rabs (y' - y) <= k * v -> Rabs (x' + y' - (x + y)) <= (j + k) * v.
Proof. intros A B. replace (x' + y' - (x + y)) with ((x' - x) + (y' - y)) by ring. eapply Rle_trans; [apply Rabs_triang|]. lra. Qed.
Lemma se j k v x x' y y' : Rabs (x' - x) <= j * v -> Rabs (y' - y) <= k * v -> Rabs (x' - y' - (x - y)) <= (j + k) * v.
Proof. intros A B. replace (x' - y' - (x - y)) with ((x' - x) + - (y' - y)) by ring. eapply Rle_trans; [apply Rabs_triang|]. rewrite Rabs_Ropp. lra. Qed.

(** ** The coefficients of one pass *)
(** a value within four units in the last place *)
#[local] Instance prec53' : Prec_gt_0 53 := eq_refl.
#[local] Instance fexp64_valid' : Valid_exp fexp64 := FLT_exp_valid (-1074) 53.
#[local] Instance fexp64_mono' : Monotone_exp fexp64 := FLT_exp_monotone (-1074) 53.
Lemma ulp_rel x : Rabs (Ulp.ulp radix2 fexp64 x) <= 2 * (u53 * (Rabs x + bpow radix2 (-1020))).
Proof.
  rewrite Rabs_pos_eq by apply ulp_ge_0. assert (Z := b_pos (-1020)). assert (U := u_small). assert (P := Rabs_pos x).
  replace (2 * (u53 * (Rabs x + bpow radix2 (-1020)))) with ((Rabs x + bpow radix2 (-1020)) * bpow radix2 (1 - 53)).
  2:{ unfold u53. change (bpow radix2 (1 - 53)) with (2 * bpow radix2 (-53)) || replace (bpow radix2 (1 - 53)) with (2 * bpow radix2 (-53)) by (cbn; lra). ring. }
  assert (B := bpow_gt_0 radix2 (1 - 53)).
  destruct (Rle_or_lt (bpow radix2 (-1074 + 53 - 1)) (Rabs x)) as [H|H].
  - assert (T := ulp_FLT_le radix2 (-1074) 53 x H). fold fexp64 in T. eapply Rle_trans; [exact T|]. apply Rmult_le_compat_r; lra.
  - assert (T := ulp_FLT_small radix2 (-1074) 53 x). fold fexp64 in T. rewrite T.
    + replace (bpow radix2 (-1074)) with (bpow radix2 (-1022) * bpow radix2 (1 - 53)) by (rewrite <- bpow_plus; reflexivity).
      apply Rmult_le_compat_r; [lra|]. assert (bpow radix2 (-1022) <= bpow radix2 (-1020)) by (apply bpow_le; lia). lra.
    + eapply Rlt_le_trans; [exact H|]. apply bpow_le. lia.
Qed.
Lemma ulp4 x y w : Rabs (y - x) <= 4 * Ulp.ulp radix2 fexp64 x -> Rabs x <= w -> tiny <= w -> Rabs (y - x) <= 8001 / 1000 * (u53 * w).
Proof.
  intros H Hx Hw. assert (L := ulp_rel x). rewrite Rabs_pos_eq in L by apply ulp_ge_0. assert (U := u_small). destruct tiny_small as [[T0 T1] T2].
  assert (ZW : bpow radix2 (-1020) <= / 100000 * w).
  { apply (Rle_trans _ _ _ T2). assert (P30 : / 10 ^ 30 <= / 100000) by (apply Rinv_le_contravar; lra).
    apply Rle_trans with (/ 100000 * tiny); [apply Rmult_le_compat_r; lra|lra]. }
  assert (u53 * (Rabs x + bpow radix2 (-1020)) <= u53 * (100001 / 100000 * w)) by (apply Rmult_le_compat_l; lra). assert (0 <= u53 * w) by (apply Rmult_le_pos; lra). lra.
Qed.
Definition ft (q : R) : R := l_tanh Lm q.
Definition fs (q : R) : R := rnd (1 - rnd (ft q * ft q)).
Definition fla (q : R) : R := rnd (rnd (1 - rnd (q * ft q)) * fs q).
Definition flb (q : R) : R := rnd (ft q + rnd (q * fs q)).
Definition flc (T q : R) : R := rnd (rnd (q * ft q) - T).
Lemma tanh_ge q : 0 <= q -> q <= (1 + q) * tanh q.
Proof.
  intros H. rewrite tanh_form. assert (E : 1 + 2 * q <= exp (2 * q)) by (assert (A := exp_lo2 (2 * q) ltac:(lra)); nra).
  set (y := exp (2 * q)) in *. assert (I : 2 / (y + 1) <= / (1 + q)).
  { apply (Rmult_le_reg_r ((y + 1) * (1 + q))); [nra|].
    replace (2 / (y + 1) * ((y + 1) * (1 + q))) with (2 * (1 + q)) by (field; lra).
    replace (/ (1 + q) * ((y + 1) * (1 + q))) with (y + 1) by (field; lra). lra. }
  assert (J : (1 + q) * / (1 + q) = 1) by (field; lra). nra.
Qed.
Lemma coeffs q : 1 / 20000 <= q <= 22 -> let th := tanh q in
  1 / 50000 <= th < 1 /\ q <= 23 * th /\
  Rabs (fs q - (1 - th * th)) <= 20 * u53 /\
  Rabs (rnd (q * ft q) - qth q) <= 9003 / 1000 * (u53 * qth q) /\
  Rabs (fla q - fa q) <= 700 * u53 /\ Rabs (flb q - fb q) <= 471 * (u53 * fb q).
Proof.
  intros Hq th. assert (U := u_small). destruct tiny_small as [[T0 T1] T2].
  assert (TS : / 10 ^ 50 <= / 10 ^ 20) by (apply Rinv_le_contravar; [apply pow_lt; lra|apply Rle_pow; [lra|lia]]).
  assert (TT : tiny <= / 10 ^ 20) by lra. clear T2 TS T1.
  assert (G := tanh_ge q ltac:(lra)). fold th in G. assert (L1 := tanh_lt_1 q). fold th in L1. assert (P := tanh_pos q ltac:(lra)). fold th in P.
  assert (Q22 : q <= 23 * th) by nra. assert (TH : 1 / 50000 <= th) by nra. split; [lra|]. split; [exact Q22|].
  assert (AT : Rabs th <= 1 * th) by (rewrite Rabs_pos_eq; lra).
  assert (Et : Rabs (ft q - th) <= 8001 / 1000 * (u53 * th)).
  { apply ulp4; [apply l_tanh_acc|lra|lra]. }
  assert (Et1 : Rabs (ft q - th) <= 8001 / 1000 * (u53 * 1)) by (eapply Rle_trans; [exact Et|]; nra).
  assert (AT1 : Rabs th <= 1 * 1) by lra.
  assert (S01 : 0 < 1 - th * th) by (apply tanh_sq_pos). assert (S1 : 0 <= 1 - th * th <= 1) by nra.
  assert (Em : Rabs (rnd (ft q * ft q) - th * th) <= 17005 / 1000 * (u53 * 1)).
  { assert (M := me (8001 / 1000) (8001 / 1000) 1 1 1 1 th (ft q) th (ft q) ltac:(lra) ltac:(lra) ltac:(lra) ltac:(lra) Et1 AT1 Et1 AT1).
    replace (u53 * (1 * 1)) with (u53 * 1) in M by ring. apply (re' _ 1 1 _ _ _ M); try lra. rewrite Rabs_pos_eq; nra. }
  assert (Es : Rabs (fs q - (1 - th * th)) <= 1801 / 100 * (u53 * 1)).
  { unfold fs. assert (M := se 0 _ _ 1 1 _ _ (exact0 1 1) Em).
    apply (re' _ 1 1 _ _ _ M); try lra. rewrite Rabs_pos_eq; lra. }
  split; [lra|]. assert (PQ : 0 < qth q) by (unfold qth; fold th; apply Rmult_lt_0_compat; lra). assert (BQ := fb_pos q ltac:(lra)).
  assert (AQ : Rabs q <= 1 * q) by (rewrite Rabs_pos_eq; lra).
  assert (Ep : Rabs (rnd (q * ft q) - qth q) <= 9003 / 1000 * (u53 * qth q)).
  { assert (M := me 0 (8001 / 1000) 1 1 q th q q th (ft q) ltac:(lra) ltac:(lra) ltac:(lra) ltac:(lra) (exact0 _ _) AQ Et AT).
    change (q * th) with (qth q) in M.
    apply (re' _ 1 _ _ _ _ M); try lra; [rewrite Rabs_pos_eq; lra|unfold qth; fold th; nra]. }
  split; [exact Ep|]. set (W := 1 + qth q). assert (HW : 1 <= W <= 23) by (unfold W, qth; fold th; nra).
  assert (E1 : Rabs (rnd (1 - rnd (q * ft q)) - (1 - qth q)) <= 10005 / 1000 * (u53 * W)).
  { assert (Ep' : Rabs (rnd (q * ft q) - qth q) <= 9003 / 1000 * (u53 * W)).
    { eapply Rle_trans; [exact Ep|]. apply Rmult_le_compat_l; [lra|]. apply Rmult_le_compat_l; [lra|]. unfold W. lra. }
    assert (M := se 0 _ _ 1 1 _ _ (exact0 W 1) Ep').
    apply (re' _ 1 W _ _ _ M); try lra. apply Rabs_le. unfold W. lra. }
  split.
  - assert (M := me (10005 / 1000) (1801 / 100) 1 1 W 1 (1 - qth q) _ (1 - th * th) _ ltac:(lra) ltac:(lra) ltac:(lra) ltac:(lra) E1
      ltac:(apply Rabs_le; unfold W; lra) Es ltac:(rewrite Rabs_pos_eq; lra)).
    change ((1 - qth q) * (1 - th * th)) with (fa q) in M. rewrite (Rmult_1_r W) in M. unfold fla.
    apply Rle_trans with (2905 / 100 * (u53 * W)); [apply (re' _ 1 W _ _ _ M); try lra|].
    + unfold fa. fold th. change (q * th) with (qth q). rewrite Rabs_mult, (Rabs_pos_eq (1 - th * th)) by lra.
      assert (Rabs (1 - qth q) <= W) by (apply Rabs_le; unfold W; lra). assert (X := Rabs_pos (1 - qth q)). nra.
    + assert (u53 * W <= u53 * 23) by (apply Rmult_le_compat_l; lra). nra.
  - assert (M := me 0 (1801 / 100) 1 1 q 1 q q (1 - th * th) _ ltac:(lra) ltac:(lra) ltac:(lra) ltac:(lra) (exact0 _ _) AQ Es ltac:(rewrite Rabs_pos_eq; lra)).
    rewrite (Rmult_1_r q) in M.
    assert (Ez : Rabs (rnd (q * fs q) - q * (1 - th * th)) <= 1902 / 100 * (u53 * q)).
    { apply (re' _ 1 q _ _ _ M); try lra. rewrite Rabs_pos_eq; nra. }
    assert (BT : th <= fb q) by (unfold fb; fold th; nra).
    assert (Ez' : Rabs (rnd (q * fs q) - q * (1 - th * th)) <= 4375 / 10 * (u53 * fb q)).
    { eapply Rle_trans; [exact Ez|]. assert (u53 * q <= u53 * (23 * fb q)) by (apply Rmult_le_compat_l; lra). nra. }
    assert (Et' : Rabs (ft q - th) <= 8001 / 1000 * (u53 * fb q)).
    { eapply Rle_trans; [exact Et|]. apply Rmult_le_compat_l; [lra|]. apply Rmult_le_compat_l; lra. }
    assert (M' := ae _ _ _ _ _ _ _ Et' Ez'). change (th + q * (1 - th * th)) with (fb q) in M'. unfold flb.
    apply (re' _ 1 _ _ _ _ M'); try lra. rewrite Rabs_pos_eq; lra.
Qed.

(** ** The computed correction solves the computed quadratic equation up to 2.2e-8 |c| *)
Definition lim8 : R := rnd (1 / 100000000).
Definition fdisc (a b c : R) : R := rnd (rnd (b * b) - rnd (rnd (4 * a) * c)).
Definition fquad (a b c : R) : R := rnd (rnd (- b + rnd (sqrt (fdisc a b c))) / rnd (2 * a)).
Definition fcorr (a b c : R) : R :=
  if Rltb (Rabs (rnd (a * c))) (rnd (lim8 * rnd (b * b))) then rnd (- c / b) else fquad a b c.
Lemma lim8_in : 9999 / 1000000000000 <= lim8 <= 10001 / 1000000000000.
Proof.
  unfold lim8. assert (R := rnd_abs (1 / 100000000)). rewrite (Rabs_pos_eq (1 / 100000000)) in R by lra. apply Rabs_le_inv in R.
  assert (U := u_small). assert (Z : 0 < bpow radix2 (-1020) <= 1) by (split; [apply b_pos|apply (bpow_le radix2 (-1020) 0); lia]). nra.
Qed.
Section Corr.
  Variables a b c : R.
  Hypothesis Hb : 1 / 100000 <= b <= 100.
  Hypothesis Ha : Rabs a <= 100.
  Hypothesis Hc : Rabs c <= 100.
  Hypothesis Hac : Rabs (a * c) <= 106 / 10000 * (b * b).

  Let U := u_small.
  Lemma tiny20 : 0 < tiny <= / 10 ^ 30.
  Proof.
    destruct tiny_small as [[T0 T1] _]. split; auto. apply (Rle_trans _ _ _ T1).
    apply Rinv_le_contravar; [apply pow_lt; lra|apply Rle_pow; [lra|lia]].
  Qed.
  Lemma bb_big : 1 / 10000000000 <= b * b. Proof. nra. Qed.
  Lemma e_bb : Rabs (rnd (b * b) - b * b) <= 1002 / 1000 * (u53 * (b * b)).
  Proof.
    assert (B := bb_big). assert (T := tiny20). apply (re' 0 1 _ _ _ _ (exact0 _ _)); try lra. rewrite Rabs_pos_eq; lra.
  Qed.
  Lemma thr_in : 999 / 100000000000 * (b * b) <= rnd (lim8 * rnd (b * b)) <= 1001 / 100000000000 * (b * b).
  Proof.
    assert (B := bb_big). assert (T := tiny20). assert (L := lim8_in). assert (E := e_bb). apply Rabs_le_inv in E.
    assert (EB : 99999 / 100000 * (b * b) <= rnd (b * b) <= 100001 / 100000 * (b * b)) by (assert (u53 * (b * b) <= / 1000000 * (b * b)) by (apply Rmult_le_compat_r; lra); lra).
    assert (M : 9998 / 1000000000000 * (b * b) <= lim8 * rnd (b * b) <= 10003 / 1000000000000 * (b * b)).
    { split.
      - apply Rle_trans with (9999 / 1000000000000 * (99999 / 100000 * (b * b))); [lra|]. apply Rmult_le_compat; lra.
      - apply Rle_trans with (10001 / 1000000000000 * (100001 / 100000 * (b * b))); [|lra]. apply Rmult_le_compat; lra. }
    assert (R := re' 0 1 (lim8 * rnd (b * b)) (lim8 * rnd (b * b)) _ 2 (exact0 _ _)). rewrite Rabs_pos_eq in R by lra.
    specialize (R ltac:(lra) ltac:(lra) ltac:(lra) ltac:(lra)). apply Rabs_le_inv in R.
    assert (u53 * (lim8 * rnd (b * b)) <= / 1000000 * (lim8 * rnd (b * b))) by (apply Rmult_le_compat_r; lra). lra.
  Qed.
  Lemma e_ac : Rabs (rnd (a * c) - a * c) <= / 1000000 * Rabs (a * c) + / 1000000 * (/ 100000000 * (b * b)).
  Proof.
    assert (R := rnd_abs (a * c)). destruct tiny_small as [[T0 T1] T2]. assert (T := tiny20). assert (B := bb_big).
    assert (X := Rabs_pos (a * c)).
    assert (Z : bpow radix2 (-1020) <= tiny).
    { apply (Rle_trans _ _ _ T2). rewrite <- (Rmult_1_l tiny) at 2. apply Rmult_le_compat_r; [lra|].
      rewrite <- Rinv_1. apply Rinv_le_contravar; [lra|]. apply pow_R1_Rle. lra. }
    eapply Rle_trans; [exact R|]. rewrite Rmult_plus_distr_l. apply Rplus_le_compat.
    - apply Rmult_le_compat_r; lra.
    - apply Rmult_le_compat; try lra. left. apply b_pos.
  Qed.
  Definition mag_c : R := Rabs c / b.
  Lemma mag_nonneg : 0 <= mag_c.
  Proof. apply Rmult_le_pos; [apply Rabs_pos|left; apply Rinv_0_lt_compat; lra]. Qed.
  Lemma mag_b : mag_c * b = Rabs c. Proof. unfold mag_c. field. lra. Qed.

  Lemma lin_case : Rabs (rnd (a * c)) < rnd (lim8 * rnd (b * b)) ->
    Rabs (rnd (- c / b)) <= 1001 / 1000 * mag_c + tiny /\
    Rabs (a * (rnd (- c / b) * rnd (- c / b)) + b * rnd (- c / b) + c) <= 11 / 1000000000 * Rabs c + / 10 ^ 40.
  Proof.
    intros L. assert (E := e_ac). assert (TH := thr_in). assert (B := bb_big). destruct tiny_small as [[T0 T1] T2].
    assert (X := Rabs_pos (a * c)).
    assert (AC : Rabs (a * c) <= 102 / 10000000000 * (b * b)).
    { assert (Rabs (a * c) <= Rabs (rnd (a * c)) + Rabs (rnd (a * c) - a * c)).
      { replace (a * c) with (rnd (a * c) - (rnd (a * c) - a * c)) at 1 by ring. unfold Rminus at 1. eapply Rle_trans; [apply Rabs_triang|]. rewrite Rabs_Ropp. lra. }
      lra. }
    set (d := rnd (- c / b)). assert (R := rnd_abs (- c / b)). fold d in R.
    assert (Q : Rabs (- c / b) = mag_c).
    { unfold Rdiv, mag_c. rewrite Rabs_mult, Rabs_Ropp, (Rabs_pos_eq (/ b)); [reflexivity|]. left. apply Rinv_0_lt_compat. lra. }
    rewrite Q in R. assert (M0 := mag_nonneg). assert (MB := mag_b).
    assert (Z : bpow radix2 (-1020) <= tiny).
    { apply (Rle_trans _ _ _ T2). rewrite <- (Rmult_1_l tiny) at 2. apply Rmult_le_compat_r; [lra|].
      rewrite <- Rinv_1. apply Rinv_le_contravar; [lra|]. apply pow_R1_Rle. lra. }
    assert (R' : Rabs (d - - c / b) <= / 1000000000000 * (mag_c + tiny)).
    { eapply Rle_trans; [exact R|]. apply Rmult_le_compat; try lra. assert (P := b_pos (-1020)). lra. }
    clear R T2 Z L E TH. assert (D : Rabs d <= 1001 / 1000 * mag_c + tiny).
    { replace d with (- c / b + (d - - c / b)) by ring. eapply Rle_trans; [apply Rabs_triang|]. rewrite Q. lra. }
    split; [exact D|].
    assert (MC : mag_c <= 10000000).
    { unfold mag_c. apply (Rmult_le_reg_r b); [lra|]. unfold Rdiv. rewrite Rmult_assoc, Rinv_l, Rmult_1_r by lra. nra. }
    replace (a * (d * d) + b * d + c) with (a * (d * d) + b * (d - - c / b)) by (field; lra).
    eapply Rle_trans; [apply Rabs_triang|]. rewrite (Rabs_mult b), (Rabs_pos_eq b) by lra. rewrite !Rabs_mult.
    assert (AM : Rabs a * mag_c <= 102 / 10000000000 * b).
    { rewrite Rabs_mult, <- MB in AC. apply (Rmult_le_reg_r b); [lra|]. rewrite !Rmult_assoc. lra. }
    assert (A0 := Rabs_pos a). assert (D0 := Rabs_pos d).
    assert (S1 : Rabs a * (Rabs d * Rabs d) <= Rabs a * ((1001 / 1000 * mag_c + tiny) * (1001 / 1000 * mag_c + tiny))).
    { apply Rmult_le_compat_l; [lra|]. apply Rmult_le_compat; lra. }
    assert (S2 : Rabs a * ((1001 / 1000 * mag_c + tiny) * (1001 / 1000 * mag_c + tiny)) <= 1003 / 1000 * (102 / 10000000000 * Rabs c) + 3000000000 * tiny).
    { replace (Rabs a * ((1001 / 1000 * mag_c + tiny) * (1001 / 1000 * mag_c + tiny)))
        with (1001 * 1001 / 1000000 * ((Rabs a * mag_c) * mag_c) + 1001 / 500 * (Rabs a * mag_c) * tiny + Rabs a * tiny * tiny) by field.
      assert (F1 : Rabs a * mag_c * mag_c <= 102 / 10000000000 * Rabs c).
      { rewrite <- MB. replace (102 / 10000000000 * (mag_c * b)) with (102 / 10000000000 * b * mag_c) by ring. apply Rmult_le_compat_r; lra. }
      assert (F2 : Rabs a * mag_c * tiny <= 1000000000 * tiny) by (apply Rmult_le_compat_r; [lra|]; apply Rle_trans with (100 * 10000000); [apply Rmult_le_compat; lra|lra]).
      assert (F3 : Rabs a * tiny * tiny <= 100 * tiny).
      { rewrite Rmult_assoc. apply Rmult_le_compat; [lra|nra|lra|]. assert (tiny <= 1) by (assert (T := tiny20); lra). nra. }
      assert (C0 := Rabs_pos c). lra. }
    assert (S3 : b * Rabs (d - - c / b) <= / 1000000000000 * Rabs c + tiny).
    { apply Rle_trans with (b * (/ 1000000000000 * (mag_c + tiny))); [apply Rmult_le_compat_l; lra|]. rewrite <- MB.
      replace (b * (/ 1000000000000 * (mag_c + tiny))) with (/ 1000000000000 * (mag_c * b) + / 1000000000000 * (b * tiny)) by ring. assert (b * tiny <= 100 * tiny) by (apply Rmult_le_compat_r; lra). lra. }
    assert (TT : 3000000001 * tiny <= / 10 ^ 40).
    { apply Rle_trans with (10 ^ 10 * / 10 ^ 50); [apply Rmult_le_compat; lra|]. right. field. }
    assert (C0 := Rabs_pos c). lra.
  Qed.

  Lemma quad_case : ~ Rabs (rnd (a * c)) < rnd (lim8 * rnd (b * b)) ->
    a <> 0 /\ 0 <= fdisc a b c /\ rnd (2 * a) <> 0 /\
    Rabs (fquad a b c) <= 1011 / 1000 * mag_c /\
    Rabs (a * (fquad a b c * fquad a b c) + b * fquad a b c + c) <= 22 / 1000000000 * Rabs c.
  Proof.
    intros L. assert (E := e_ac). assert (TH := thr_in). assert (B := bb_big). destruct tiny_small as [[T0 T1] T2]. assert (T20 := tiny20).
    assert (X := Rabs_pos (a * c)). assert (A0 := Rabs_pos a). assert (C0 := Rabs_pos c).
    assert (AC : 99 / 10000000000 * (b * b) <= Rabs (a * c)).
    { assert (Rabs (rnd (a * c)) <= Rabs (a * c) + Rabs (rnd (a * c) - a * c)).
      { replace (rnd (a * c)) with (a * c + (rnd (a * c) - a * c)) at 1 by ring. apply Rabs_triang. }
      lra. }
    assert (M0 := mag_nonneg). assert (MB := mag_b).
    assert (AM : 99 / 10000000000 * b <= Rabs a * mag_c).
    { rewrite Rabs_mult, <- MB in AC. apply (Rmult_le_reg_r b); [lra|]. rewrite !Rmult_assoc. lra. }
    assert (AP : / 10 ^ 21 <= Rabs a).
    { rewrite Rabs_mult in AC. assert (Rabs a * Rabs c <= Rabs a * 100) by (apply Rmult_le_compat_l; lra). lra. }
    assert (CP : / 10 ^ 21 <= Rabs c).
    { rewrite Rabs_mult in AC. assert (Rabs a * Rabs c <= 100 * Rabs c) by (apply Rmult_le_compat_r; lra). lra. }
    assert (NA : a <> 0) by (intros E0; rewrite E0, Rabs_R0 in AP; lra). split; [exact NA|]. clear E TH L T2.
    (* the discriminant *)
    assert (E4 : Rabs (rnd (4 * a) - 4 * a) <= 4001 / 1000 * (u53 * Rabs a)).
    { apply (re' 0 4 _ _ _ _ (exact0 _ _)); try lra. rewrite Rabs_mult, (Rabs_pos_eq 4); lra. }
    assert (M4 := me (4001 / 1000) 0 4 1 (Rabs a) (Rabs c) (4 * a) (rnd (4 * a)) c c ltac:(lra) ltac:(lra) A0 C0 E4
      ltac:(rewrite Rabs_mult, (Rabs_pos_eq 4); lra) (exact0 _ _) ltac:(lra)).
    rewrite <- Rabs_mult in M4.
    assert (F4 : Rabs (rnd (rnd (4 * a) * c) - 4 * a * c) <= 8004 / 1000 * (u53 * Rabs (a * c))).
    { apply (re' _ 4 _ _ _ _ M4); try lra. replace (4 * a * c) with (4 * (a * c)) by ring. rewrite (Rabs_mult 4 (a * c)), (Rabs_pos_eq 4); lra. }
    assert (F4' : Rabs (rnd (rnd (4 * a) * c) - 4 * a * c) <= 9 / 100 * (u53 * (b * b))).
    { eapply Rle_trans; [exact F4|]. assert (MU : u53 * Rabs (a * c) <= u53 * (106 / 10000 * (b * b))) by (apply Rmult_le_compat_l; [clear - U; lra|exact Hac]).
      assert (0 < u53 * (b * b)) by (apply Rmult_lt_0_compat; [clear - U|]; lra). clear - MU H. lra. }
    set (D := b * b - 4 * a * c). assert (AC' := Hac). apply Rabs_le_inv in AC'. assert (AC4 : 4 * a * c = 4 * (a * c)) by ring.
    assert (HD : 9576 / 10000 * (b * b) <= D <= 10424 / 10000 * (b * b)) by (unfold D; rewrite AC4; lra).
    assert (ED : Rabs (fdisc a b c - D) <= 214 / 100 * (u53 * (b * b))).
    { assert (M := se _ _ _ _ _ _ _ e_bb F4'). apply (re' _ (10424 / 10000) _ _ _ _ M); try lra. fold D. rewrite Rabs_pos_eq; lra. }
    set (D' := fdisc a b c) in *. assert (UB : u53 * (b * b) <= / 1000000 * (b * b)) by (apply Rmult_le_compat_r; lra).
    assert (HD' : 9575 / 10000 * (b * b) <= D' <= 10425 / 10000 * (b * b)) by (apply Rabs_le_inv in ED; lra).
    split; [lra|].
    assert (E2 : Rabs (rnd (2 * a) - 2 * a) <= 2002 / 1000 * (u53 * Rabs a)).
    { apply (re' 0 2 _ _ _ _ (exact0 _ _)); try lra. rewrite Rabs_mult, (Rabs_pos_eq 2); lra. }
    assert (UA : u53 * Rabs a <= / 1000000 * Rabs a) by (apply Rmult_le_compat_r; lra).
    assert (A2 : 1999 / 1000 * Rabs a <= Rabs (rnd (2 * a))).
    { assert (Rabs (2 * a) <= Rabs (rnd (2 * a)) + Rabs (rnd (2 * a) - 2 * a)).
      { replace (2 * a) with (rnd (2 * a) - (rnd (2 * a) - 2 * a)) at 1 by ring. unfold Rminus at 1. eapply Rle_trans; [apply Rabs_triang|]. rewrite Rabs_Ropp. lra. }
      rewrite Rabs_mult, (Rabs_pos_eq 2) in H by lra. lra. }
    assert (N2 : rnd (2 * a) <> 0) by (intros E0; rewrite E0, Rabs_R0 in A2; lra). split; [exact N2|].
    (* its square root *)
    set (s := sqrt D). set (s' := sqrt D'). assert (SS : s * s = D) by (apply sqrt_sqrt; lra). assert (SS' : s' * s' = D') by (apply sqrt_sqrt; lra).
    assert (S0 : 0 <= s) by apply sqrt_pos. assert (S0' : 0 <= s') by apply sqrt_pos.
    assert (S1 : 9785 / 10000 * b <= s) by (apply Rsqr_incr_0_var; [unfold Rsqr; rewrite SS; lra|lra]).
    assert (S1' : 978 / 1000 * b <= s') by (apply Rsqr_incr_0_var; [unfold Rsqr; rewrite SS'; lra|lra]).
    assert (S2 : s <= 1022 / 1000 * b) by (apply Rsqr_incr_0_var; [unfold Rsqr; rewrite SS; lra|lra]).
    assert (Ebb : u53 * (b * b) = u53 * b * b) by ring.
    assert (Es : Rabs (s' - s) <= 11 / 10 * (u53 * b)).
    { assert (Q : Rabs (s' - s) * (s' + s) = Rabs (D' - D)).
      { rewrite <- (Rabs_pos_eq (s' + s)) at 1 by lra. rewrite <- Rabs_mult. f_equal. rewrite <- SS, <- SS'. ring. }
      assert (AS := Rabs_pos (s' - s)). assert (Rabs (s' - s) * (1956 / 1000 * b) <= Rabs (s' - s) * (s' + s)) by (apply Rmult_le_compat_l; lra).
      apply (Rmult_le_reg_r b); [lra|]. assert (0 < u53 * (b * b)) by (apply Rmult_lt_0_compat; [clear - U|]; lra). rewrite Ebb in ED, H0. lra. }
    assert (Eg : Rabs (rnd s' - s) <= 213 / 100 * (u53 * b)) by (apply (re' _ (1022 / 1000) _ _ _ _ Es); try lra; rewrite Rabs_pos_eq; lra).
    assert (En : Rabs (rnd (- b + rnd s') - (- b + s)) <= 216 / 100 * (u53 * b)).
    { assert (M := ae 0 _ _ _ _ _ _ (exact0 b (- b)) Eg). apply (re' _ (22 / 1000) _ _ _ _ M); try lra. apply Rabs_le. lra. }
    set (n' := rnd (- b + rnd s')) in *. set (n := - b + s) in *. set (a2 := rnd (2 * a)) in *.
    assert (AN : Rabs n <= 22 / 1000 * b) by (unfold n; apply Rabs_le; lra).
    set (ds := n / (2 * a)). set (V := b / Rabs a). assert (V0 : 0 < V) by (apply Rdiv_lt_0_compat; lra).
    assert (VA : V * Rabs a = b) by (unfold V; field; lra).
    assert (Ads : Rabs ds <= 11 / 1000 * V).
    { apply (Rmult_le_reg_r (2 * Rabs a)); [lra|]. replace (Rabs ds * (2 * Rabs a)) with (Rabs n).
      - replace (11 / 1000 * V * (2 * Rabs a)) with (22 / 1000 * (V * Rabs a)) by field. rewrite VA. exact AN.
      - rewrite <- (Rabs_pos_eq 2) at 1 by lra. rewrite <- !Rabs_mult. f_equal. unfold ds. field. exact NA. }
    assert (Eq : Rabs (n' / a2 - ds) <= 11 / 10 * (u53 * V)).
    { apply (Rmult_le_reg_r (Rabs a2)); [lra|]. rewrite <- Rabs_mult.
      replace ((n' / a2 - ds) * a2) with ((n' - n) + ds * (2 * a - a2)) by (unfold ds; field; auto).
      eapply Rle_trans; [apply Rabs_triang|]. rewrite Rabs_mult. rewrite (Rabs_minus_sym (2 * a) a2).
      apply Rle_trans with (216 / 100 * (u53 * b) + 11 / 1000 * V * (2002 / 1000 * (u53 * Rabs a))).
      - apply Rplus_le_compat; [exact En|]. apply Rmult_le_compat; auto; apply Rabs_pos.
      - replace (11 / 1000 * V * (2002 / 1000 * (u53 * Rabs a))) with (11 / 1000 * (2002 / 1000) * (u53 * (V * Rabs a))) by ring. rewrite VA.
        apply Rle_trans with (11 / 10 * (u53 * V) * (1999 / 1000 * Rabs a)); [|apply Rmult_le_compat_l; [|lra]; apply Rmult_le_pos; [lra|apply Rmult_le_pos; lra]].
        replace (11 / 10 * (u53 * V) * (1999 / 1000 * Rabs a)) with (11 / 10 * (1999 / 1000) * (u53 * (V * Rabs a))) by ring. rewrite VA.
        assert (0 < u53 * b) by (apply Rmult_lt_0_compat; lra). lra. }
    assert (TV : tiny <= V).
    { apply (Rmult_le_reg_r (Rabs a)); [lra|]. rewrite VA. assert (tiny * Rabs a <= tiny * 100) by (apply Rmult_le_compat_l; lra). lra. }
    assert (Ed : Rabs (fquad a b c - ds) <= 12 / 10 * (u53 * V)).
    { apply (re' _ (11 / 1000) _ _ _ _ Eq); try lra. }
    set (d := fquad a b c) in *.
    (* V is at most 1.02e8 |c|/b *)
    assert (VM : V * (99 / 10000000000) <= mag_c).
    { apply (Rmult_le_reg_r (Rabs a)); [lra|]. replace (V * (99 / 10000000000) * Rabs a) with (99 / 10000000000 * (V * Rabs a)) by ring. rewrite VA. lra. }
    assert (UV : 12 / 10 * (u53 * V) <= 14 / 1000000000 * mag_c).
    { replace (12 / 10 * (u53 * V)) with (12 / 10 * u53 * (10000000000 / 99) * (V * (99 / 10000000000))) by field.
      apply Rle_trans with (14 / 1000000000 * (V * (99 / 10000000000))); [apply Rmult_le_compat_r; lra|apply Rmult_le_compat_l; lra]. }
    assert (Edm : Rabs (d - ds) <= 14 / 1000000000 * mag_c) by lra.
    assert (Eds : ds * (b + s) = - 2 * c).
    { unfold ds, n. replace ((- b + s) / (2 * a) * (b + s)) with ((s * s - b * b) / (2 * a)) by (field; auto). rewrite SS. unfold D. field. auto. }
    assert (Mds : Rabs ds <= 10109 / 10000 * mag_c).
    { apply (Rmult_le_reg_r (b + s)); [lra|]. rewrite <- (Rabs_pos_eq (b + s)) at 1 by lra. rewrite <- Rabs_mult, Eds, Rabs_mult, Rabs_left by lra.
      assert (10109 / 10000 * mag_c * (19785 / 10000 * b) <= 10109 / 10000 * mag_c * (b + s)) by (apply Rmult_le_compat_l; lra). lra. }
    assert (Md : Rabs d <= 1011 / 1000 * mag_c).
    { replace d with (ds + (d - ds)) by ring. eapply Rle_trans; [apply Rabs_triang|]. lra. }
    split; [exact Md|].
    assert (Z : a * (ds * ds) + b * ds + c = 0).
    { unfold ds, n. replace (a * ((- b + s) / (2 * a) * ((- b + s) / (2 * a))) + b * ((- b + s) / (2 * a)) + c) with ((s * s - (b * b - 4 * a * c)) / (4 * a)) by (field; auto).
      rewrite SS. unfold D, Rdiv. ring. }
    replace (a * (d * d) + b * d + c) with ((d - ds) * (a * (d + ds) + b) + (a * (ds * ds) + b * ds + c)) by ring. rewrite Z, Rplus_0_r, Rabs_mult.
    assert (AMu : Rabs a * mag_c <= 106 / 10000 * b).
    { assert (H := Hac). rewrite Rabs_mult, <- MB in H. apply (Rmult_le_reg_r b); [lra|]. rewrite !Rmult_assoc. lra. }
    assert (G : Rabs (a * (d + ds) + b) <= 105 / 100 * b).
    { eapply Rle_trans; [apply Rabs_triang|]. rewrite (Rabs_pos_eq b) by lra. rewrite Rabs_mult.
      assert (Rabs (d + ds) <= 203 / 100 * mag_c) by (eapply Rle_trans; [apply Rabs_triang|]; lra).
      assert (Rabs a * Rabs (d + ds) <= Rabs a * (203 / 100 * mag_c)) by (apply Rmult_le_compat_l; lra). lra. }
    apply Rle_trans with (14 / 1000000000 * mag_c * (105 / 100 * b)); [apply Rmult_le_compat; auto; apply Rabs_pos|]. lra.
  Qed.
  Lemma corr_fl : (Rabs (rnd (a * c)) < rnd (lim8 * rnd (b * b)) \/ a <> 0 /\ 0 <= fdisc a b c /\ rnd (2 * a) <> 0) /\
    Rabs (fcorr a b c) <= 1011 / 1000 * mag_c + tiny /\
    Rabs (a * (fcorr a b c * fcorr a b c) + b * fcorr a b c + c) <= 22 / 1000000000 * Rabs c + / 10 ^ 40.
  Proof.
    assert (M0 := mag_nonneg). assert (T := tiny20). assert (C0 := Rabs_pos c). unfold fcorr.
    destruct (Rltb_spec (Rabs (rnd (a * c))) (rnd (lim8 * rnd (b * b)))) as [L|L].
    - destruct (lin_case L) as [A B]. split; [left; exact L|]. lra.
    - destruct (quad_case L) as (N & D & N2 & A & B). split; [right; auto|]. lra.
  Qed.
End Corr.

(** ** One pass, for dimensionless wave numbers below 22 *)
Lemma fl_step e r q : 1 / 20000 <= q <= 22 -> 0 < r -> 0 <= e <= 1001 / 100000 -> within e r q ->
  let a := fla q in let b := flb q in let c := flc (qth r) q in
  0 < b /\
  (Rabs (rnd (a * c)) < rnd (lim8 * rnd (b * b)) \/ a <> 0 /\ 0 <= fdisc a b c /\ rnd (2 * a) <> 0) /\
  within (74 / 100 * (e * e * e) + 42 / 1000000000 * e + 22 * u53) r (rnd (q + fcorr a b c)).
Proof.
  intros Hq Hr He H a b c. assert (U := u_small). destruct (resid e r q Hr He H) as (Pq & Hqr & C & A).
  destruct (coeffs q Hq) as (TH & Q22 & _ & Ep & Ea & Eb). set (th := tanh q) in *. assert (B := fb_pos q Pq).
  assert (BT : th <= fb q) by (unfold fb; fold th; assert (S0 := tanh_sq_pos q); fold th in S0; nra).
  assert (S0 := tanh_sq_pos q). fold th in S0.
  assert (PQ : 0 < qth q) by (unfold qth; fold th; apply Rmult_lt_0_compat; lra).
  assert (P21 : qth q <= 22) by (unfold qth; fold th; assert (q * th <= q * 1) by (apply Rmult_le_compat_l; lra); lra).
  assert (B22 : fb q <= 23).
  { unfold fb. fold th. assert (q * (1 - th * th) <= q * 1) by (apply Rmult_le_compat_l; [lra|nra]). lra. }
  assert (A22 : Rabs (fa q) <= 23).
  { unfold fa. fold th. change (q * th) with (qth q). rewrite Rabs_mult, (Rabs_pos_eq (1 - th * th)) by lra.
    assert (Rabs (1 - qth q) <= 23) by (apply Rabs_le; lra). assert (X := Rabs_pos (1 - qth q)). nra. }
  assert (PB : qth q <= q * fb q) by (unfold qth; fold th; apply Rmult_le_compat_l; lra).
  set (F := fb q) in *. set (m := F * r). assert (Hm : 0 < m) by (unfold m; apply Rmult_lt_0_compat; lra).
  assert (m1 : / 2000000000 <= m) by (unfold m; apply Rle_trans with (1 / 50000 * (98 / 2000000)); [lra|apply Rmult_le_compat; lra]).
  assert (m2 : m <= 600) by (unfold m; apply Rle_trans with (23 * (23)); [apply Rmult_le_compat; lra|lra]).
  assert (T := tiny20). assert (R22 : r <= 234 / 10 * F) by lra.
  assert (PM : qth q <= 10102 / 10000 * m).
  { unfold m. apply (Rle_trans _ _ _ PB). replace (10102 / 10000 * (F * r)) with (10102 / 10000 * r * F) by ring. apply Rmult_le_compat_r; lra. }
  assert (UM : 0 < u53 * m <= / 1000000000000 * m) by (split; [apply Rmult_lt_0_compat; lra|apply Rmult_le_compat_r; lra]).
  assert (Ec : Rabs (c - fc (qth r) q) <= 911 / 100 * (u53 * m)).
  { assert (Ep' : Rabs (rnd (q * ft q) - qth q) <= 9095 / 1000 * (u53 * m)).
    { eapply Rle_trans; [exact Ep|]. assert (u53 * qth q <= u53 * (10102 / 10000 * m)) by (apply Rmult_le_compat_l; lra). lra. }
    assert (M := se _ 0 _ _ _ (qth r) (qth r) Ep' (exact0 _ _)). unfold c, flc.
    apply (re' _ (1043 / 100000) _ _ _ _ M); try lra. apply (Rle_trans _ _ _ C). replace (F * (e * r)) with (e * m) by (unfold m; ring).
    assert (e * m <= 1001 / 100000 * m) by (apply Rmult_le_compat_r; lra). lra. }
  assert (Cm : Rabs (fc (qth r) q) <= 1041 / 1000 * (e * m)) by (replace (e * m) with (F * (e * r)) by (unfold m; ring); exact C).
  assert (Cc : Rabs c <= 1041 / 1000 * (e * m) + 911 / 100 * (u53 * m)).
  { replace c with (fc (qth r) q + (c - fc (qth r) q)) by ring. eapply Rle_trans; [apply Rabs_triang|]. lra. }
  assert (EM : 0 <= e * m <= 1001 / 100000 * m) by (split; [apply Rmult_le_pos; lra|apply Rmult_le_compat_r; lra]).
  assert (Cc' : Rabs c <= 10421 / 1000000 * m) by lra.
  assert (UF : 0 < u53 * F <= / 1000000000000 * F) by (split; [apply Rmult_lt_0_compat; lra|apply Rmult_le_compat_r; lra]).
  assert (Hb : 999 / 1000 * F <= b <= 1001 / 1000 * F /\ 99999 / 100000 * F <= b) by (unfold b; apply Rabs_le_inv in Eb; lra).
  assert (Aa : Rabs a <= Rabs (fa q) + 700 * u53).
  { replace a with (fa q + (a - fa q)) by ring. eapply Rle_trans; [apply Rabs_triang|]. unfold a. lra. }
  assert (Ar : Rabs a * r <= 10103 / 10000 * F).
  { apply Rle_trans with ((Rabs (fa q) + 700 * u53) * r); [apply Rmult_le_compat_r; lra|].
    assert (700 * u53 * r <= 700 * u53 * (234 / 10 * F)) by (apply Rmult_le_compat_l; lra). lra. }
  assert (A0 := Rabs_pos a).
  assert (Hac : Rabs (a * c) <= 106 / 10000 * (b * b)).
  { rewrite Rabs_mult. apply Rle_trans with (Rabs a * (10421 / 1000000 * m)); [apply Rmult_le_compat_l; lra|].
    replace (Rabs a * (10421 / 1000000 * m)) with (10421 / 1000000 * F * (Rabs a * r)) by (unfold m; ring).
    apply Rle_trans with (10421 / 1000000 * F * (10103 / 10000 * F)); [apply Rmult_le_compat_l; lra|].
    apply Rle_trans with (106 / 10000 * (999 / 1000 * F * (999 / 1000 * F))).
    - assert (0 < F * F) by (apply Rmult_lt_0_compat; lra). lra.
    - apply Rmult_le_compat_l; [lra|]. apply Rmult_le_compat; lra. }
  split; [lra|].
  destruct (corr_fl a b c ltac:(lra) ltac:(lra) ltac:(lra) Hac) as (Cond & Dd & Dr). split; [exact Cond|]. clear Cond Hac.
  set (d := fcorr a b c) in *.
  assert (Mc : mag_c b c <= (10412 / 10000 * e + 912 / 100 * u53) * r).
  { unfold mag_c. apply (Rmult_le_reg_r b); [lra|]. replace (Rabs c / b * b) with (Rabs c) by (field; lra).
    apply (Rle_trans _ _ _ Cc).
    apply Rle_trans with ((10412 / 10000 * e + 912 / 100 * u53) * r * (99999 / 100000 * F)).
    - replace ((10412 / 10000 * e + 912 / 100 * u53) * r * (99999 / 100000 * F)) with (99999 / 100000 * (10412 / 10000 * (e * m) + 912 / 100 * (u53 * m))) by (unfold m; ring). lra.
    - apply Rmult_le_compat_l; [|lra]. apply Rmult_le_pos; lra. }
  assert (M0 : 0 <= mag_c b c) by (apply Rmult_le_pos; [apply Rabs_pos|left; apply Rinv_0_lt_compat; lra]).
  assert (TU : 0 < tiny <= / 1000 * (u53 * r)).
  { split; [lra|]. apply Rle_trans with (/ 1000 * (/ 10 ^ 20 * (1 / 50000))); [lra|]. apply Rmult_le_compat_l; [lra|].
    apply Rmult_le_compat; try lra. rewrite u53_val. lra. }
  assert (Dd' : Rabs d <= (10527 / 10000 * e + 95 / 10 * u53) * r).
  { apply (Rle_trans _ _ _ Dd). apply Rle_trans with (1011 / 1000 * ((10412 / 10000 * e + 912 / 100 * u53) * r) + / 1000 * (u53 * r)); [lra|].
    rewrite <- !Rmult_assoc, <- Rmult_plus_distr_r. apply Rmult_le_compat_r; lra. }
  assert (Dd2 : Rabs d <= 106 / 10000 * r).
  { apply (Rle_trans _ _ _ Dd'). apply Rmult_le_compat_r; lra. }
  assert (D0 := Rabs_pos d). set (n := 231 / 10000000000 * e + 11 * u53).
  assert (Rs : Rabs (fc (qth r) q + F * d + fa q * (d * d)) <= n * (F * r)).
  { fold m.
    replace (fc (qth r) q + F * d + fa q * (d * d)) with ((a * (d * d) + b * d + c) + ((- (c - fc (qth r) q)) + (- (b - F) * d + - (a - fa q) * (d * d)))) by ring.
    eapply Rle_trans; [apply Rabs_triang|]. eapply Rle_trans; [apply Rplus_le_compat_l, Rabs_triang|].
    eapply Rle_trans; [apply Rplus_le_compat_l, Rplus_le_compat_l, Rabs_triang|]. rewrite !Rabs_mult, !Rabs_Ropp.
    assert (UD : u53 * Rabs d <= / 100000000000000 * (e * r) + / 100000000000000 * (u53 * r)).
    { apply Rle_trans with (u53 * ((10527 / 10000 * e + 95 / 10 * u53) * r)); [apply Rmult_le_compat_l; lra|].
      replace (u53 * ((10527 / 10000 * e + 95 / 10 * u53) * r)) with (10527 / 10000 * u53 * (e * r) + 95 / 10 * u53 * (u53 * r)) by ring.
      apply Rplus_le_compat; apply Rmult_le_compat_r; try lra; apply Rmult_le_pos; lra. }
    assert (UDm : u53 * Rabs d * F <= / 100000000000000 * (e * m) + / 100000000000000 * (u53 * m)).
    { apply Rle_trans with ((/ 100000000000000 * (e * r) + / 100000000000000 * (u53 * r)) * F); [apply Rmult_le_compat_r; lra|]. unfold m. apply Req_le. ring. }
    assert (UD0 : 0 <= u53 * Rabs d * F) by (apply Rmult_le_pos; [apply Rmult_le_pos; lra|lra]).
    assert (K1 : Rabs (b - F) * Rabs d <= / 1000000000 * / 100000 * 471 * (e * m + u53 * m)).
    { apply Rle_trans with (471 * (u53 * F) * Rabs d); [apply Rmult_le_compat_r; auto|].
      replace (471 * (u53 * F) * Rabs d) with (471 * (u53 * Rabs d * F)) by ring. lra. }
    assert (K2 : Rabs (a - fa q) * (Rabs d * Rabs d) <= / 1000000000 * / 100000 * 471 * (e * m + u53 * m)).
    { apply Rle_trans with (700 * u53 * (Rabs d * (106 / 10000 * (234 / 10 * F)))).
      - apply Rmult_le_compat; auto; try apply Rabs_pos; [apply Rmult_le_pos; auto|]. apply Rmult_le_compat_l; lra.
      - replace (700 * u53 * (Rabs d * (106 / 10000 * (234 / 10 * F)))) with (700 * (106 / 10000) * (234 / 10) * (u53 * Rabs d * F)) by field. lra. }
    assert (K3 : / 10 ^ 40 <= / 1000 * (u53 * m)).
    { apply Rle_trans with (/ 1000 * (/ 10 ^ 20 * / 2000000000)); [lra|]. apply Rmult_le_compat_l; [lra|]. apply Rmult_le_compat; try lra. rewrite u53_val. lra. }
    replace (n * m) with (231 / 10000000000 * (e * m) + 11 * (u53 * m)) by (unfold n; ring). lra. }
  assert (Hn : 0 <= n) by (unfold n; lra).
  assert (E3 : 0 <= e * e * e) by (repeat apply Rmult_le_pos; lra).
  assert (W := step_gen e r q d n Hr He H Hn).
  assert (W' : within (74 / 100 * (e * e * e) + 18 / 10 * n) r (q + d)).
  { apply W; [|exact Rs|].
    - apply (Rle_trans _ _ _ Dd'). assert (u53 * r <= / 1000000000000 * r) by (apply Rmult_le_compat_r; lra). assert (0 <= e * r) by (apply Rmult_le_pos; lra). lra.
    - apply Rle_trans with (((10527 / 10000 * e + 95 / 10 * u53) * r) ^ 3); [apply pow_incr; lra|].
      replace (((10527 / 10000 * e + 95 / 10 * u53) * r) ^ 3) with ((10527 / 10000 * e + 95 / 10 * u53) ^ 3 * (r * r * r)) by ring.
      rewrite <- Rmult_plus_distr_r. apply Rmult_le_compat_r; [left; repeat apply Rmult_lt_0_compat; lra|].
      set (x := 10527 / 10000 * e). set (y := 95 / 10 * u53). assert (Hx : 0 <= x <= / 50) by (unfold x; lra). assert (Hy : 0 <= y <= / 50) by (unfold y; lra).
      replace ((x + y) ^ 3) with (x * x * x + y * (3 * (x * x) + 3 * (x * y) + y * y)) by ring.
      assert (Q1 : x * x <= / 50 * / 50) by (apply Rmult_le_compat; lra). assert (Q2 : x * y <= / 50 * / 50) by (apply Rmult_le_compat; lra).
      assert (Q3 : y * y <= / 50 * / 50) by (apply Rmult_le_compat; lra).
      assert (y * (3 * (x * x) + 3 * (x * y) + y * y) <= y * 1) by (apply Rmult_le_compat_l; lra).
      assert (XX : x * x * x = 10527 / 10000 * (10527 / 10000) * (10527 / 10000) * (e * e * e)) by (unfold x; ring). rewrite XX.
      unfold n, y in *. lra. }
  unfold within in *. assert (RR := rnd_abs (q + d)).
  replace (rnd (q + d) - r) with ((rnd (q + d) - (q + d)) + (q + d - r)) by ring. eapply Rle_trans; [apply Rabs_triang|].
  assert (QD : Rabs (q + d) <= 103 / 100 * r).
  { eapply Rle_trans; [apply Rabs_triang|]. rewrite (Rabs_pos_eq q) by lra. lra. }
  assert (ZR : bpow radix2 (-1020) <= / 100 * r).
  { assert (Z := z_small). assert (/ 10 ^ 90 <= / 10 ^ 20) by (apply Rinv_le_contravar; [apply pow_lt; lra|apply Rle_pow; [lra|lia]]). lra. }
  assert (Rabs (rnd (q + d) - (q + d)) <= 11 / 10 * u53 * r).
  { apply (Rle_trans _ _ _ RR). replace (11 / 10 * u53 * r) with (u53 * (11 / 10 * r)) by ring. apply Rmult_le_compat_l; lra. }
  apply Rle_trans with ((11 / 10 * u53 + (74 / 100 * (e * e * e) + 18 / 10 * n)) * r); [lra|]. apply Rmult_le_compat_r; [lra|]. unfold n. lra.
Qed.

(** ** One pass in deep water: tanh q is computed as 1 and the pass returns the dimensionless frequency itself *)
Lemma exp_m n : exp (- INR n) = exp (-1) ^ n.
Proof.
  induction n as [|n IH]; [cbn; rewrite Ropp_0; apply exp_0|]. rewrite S_INR. cbn [pow]. rewrite <- IH, <- exp_plus. f_equal. ring.
Qed.
Lemma exp_39 : exp (-39) <= / 10 ^ 16 / 4.
Proof.
  replace (-39) with (- INR 39) by (rewrite INR_IZR_INZ; reflexivity). rewrite exp_m. destruct em1 as [E0 E1].
  apply Rle_trans with ((372 / 1000) ^ 39); [apply pow_incr; lra|lra].
Qed.
Lemma tanh_deep q : 39 / 2 <= q -> 1 - / 10 ^ 16 / 2 <= tanh q < 1.
Proof.
  intros H. split; [|apply tanh_lt_1]. assert (A := one_minus_tanh q). assert (B := exp_mono (-2 * q) (-39) ltac:(lra)). assert (C := exp_39). lra.
Qed.
Lemma rnd_to_1 x : 1 - bpow radix2 (-54) < x <= 1 -> rnd x = 1.
Proof.
  intros [H1 H2]. assert (F1 : is_float 1) by apply float_1.
  assert (L := rnd_le_float 1 x F1 H2). destruct (Rle_lt_or_eq_dec _ _ L) as [K|K]; [|exact K]. exfalso.
  assert (N := rnd_nearest x 1 F1). assert (PP := pred_ge_gt radix2 fexp64 (rnd x) 1 (rnd_float x) F1 K).
  change 1 with (bpow radix2 0) in PP. rewrite pred_bpow in PP. change (bpow radix2 0) with 1 in PP.
  change (fexp64 0) with (-53)%Z in PP. replace (bpow radix2 (-53)) with (2 * bpow radix2 (-54)) in PP by (cbn; lra).
  rewrite (Rabs_pos_eq (1 - x)) in N by lra. apply Rabs_le_inv in N. lra.
Qed.
Lemma sterbenz_rnd x y : is_float x -> is_float y -> y / 2 <= x <= 2 * y -> rnd (x - y) = x - y.
Proof. intros Fx Fy H. apply rnd_id. apply sterbenz; auto; typeclasses eauto. Qed.
Lemma deep_coeffs q : is_float q -> 22 <= q -> ft q = 1 /\ fs q = 0 /\ fla q = 0 /\ flb q = 1.
Proof.
  intros Fq H. assert (E : ft q = 1) by (apply l_tanh_1, H).
  assert (R1 : rnd 1 = 1) by (apply rnd_id, float_1). assert (R0 : rnd 0 = 0) by (apply rnd_id, float_0).
  assert (S : fs q = 0) by (unfold fs; rewrite E, Rmult_1_r, R1, Rminus_eq_0; exact R0).
  split; [exact E|]. split; [exact S|]. unfold fla, flb. rewrite S, !Rmult_0_r, R0, E, Rplus_0_r. auto.
Qed.
Lemma deep_step q T : is_float q -> is_float T -> 22 <= q -> T / 2 <= q <= 2 * T ->
  Rabs (rnd (fla q * flc T q)) < rnd (lim8 * rnd (flb q * flb q)) /\ rnd (q + fcorr (fla q) (flb q) (flc T q)) = T.
Proof.
  intros Fq FT H HT. destruct (deep_coeffs q Fq H) as (E1 & E2 & E3 & E4).
  assert (C : flc T q = q - T).
  { unfold flc. rewrite E1, Rmult_1_r, (rnd_id q Fq). apply sterbenz_rnd; auto. }
  assert (R0 : rnd 0 = 0) by (apply rnd_id, float_0).
  assert (TH := thr_in 1 ltac:(lra)). rewrite E3, E4, Rmult_0_l, R0, Rabs_R0.
  assert (L : 0 < rnd (lim8 * rnd (1 * 1))) by lra. split; [exact L|]. unfold fcorr. rewrite Rmult_0_l, R0, Rabs_R0, (Rltb_true _ _ L).
  rewrite Rdiv_1, C. replace (rnd (- (q - T))) with (- (q - T)).
  - replace (q + - (q - T)) with T by ring. apply rnd_id, FT.
  - rewrite rnd_opp. f_equal. symmetry. apply sterbenz_rnd; auto.
Qed.

(** ** The operations of a pass, at the instance *)
Lemma nb_tanh x : ntanh (n:=NB) (Fin x) = Fin (l_tanh Lm x). Proof. reflexivity. Qed.
Lemma nb_opp x : nopp (n:=NB) (Fin x) = Fin (- x). Proof. reflexivity. Qed.
Lemma nb_abs x : nabs (n:=NB) (Fin x) = Fin (Rabs x). Proof. reflexivity. Qed.
Lemma nb_sqrt x : 0 <= x -> nsqrt (n:=NB) (Fin x) = Fin (rnd (sqrt x)).
Proof. intros H. change (nsqrt (n:=NB) (Fin x)) with (xround (nsqrt (n:=NX) (Fin x))). rewrite fin_sqrt by exact H. reflexivity. Qed.
Lemma nb_lit8 : lit (N:=NB) 1 100000000 = Fin lim8.
Proof. unfold lit. rewrite !nb_ofZ by (cbn; lia). rewrite nb_div by lra. reflexivity. Qed.
Lemma step_NB T q : flb q <> 0 ->
  (Rabs (rnd (fla q * flc T q)) < rnd (lim8 * rnd (flb q * flb q)) \/ fla q <> 0 /\ 0 <= fdisc (fla q) (flb q) (flc T q) /\ rnd (2 * fla q) <> 0) ->
  disper_step (N:=NB) (Fin T) (Fin q) = Fin (rnd (q + fcorr (fla q) (flb q) (flc T q))).
Proof.
  intros Hb H. unfold disper_step. cbv zeta. rewrite !nb_tanh. fold (ft q). rewrite !nb_1.
  repeat rewrite ?nb_mul, ?nb_sub, ?nb_add, ?nb_abs, ?nb_opp. fold (fs q). fold (fla q) (flb q) (flc T q).
  rewrite nb_lit8, !nb_mul, nb_ltb, nb_0, nb_eqb, !nb_ofZ by (cbn; lia). rewrite !nb_mul, nb_sub. fold (fdisc (fla q) (flb q) (flc T q)).
  unfold fcorr. destruct (Rltb_spec (Rabs (rnd (fla q * flc T q))) (rnd (lim8 * rnd (flb q * flb q)))) as [L|L].
  - rewrite nb_div by exact Hb. rewrite nb_add. reflexivity.
  - destruct H as [H|(H1 & H2 & H3)]; [contradiction|]. destruct (Reqb_spec (fla q) 0) as [E|_]; [contradiction|]. cbn [negb].
    rewrite nb_sqrt by exact H2. rewrite nb_add, nb_div by exact H3. rewrite nb_add. reflexivity.
Qed.

(** ** One pass, for every depth *)
Lemma pass e r q T : is_float q -> is_float T -> T = qth r -> 9 / 100000 <= r -> 0 <= e <= 1001 / 100000 -> within e r q ->
  exists q', disper_step (N:=NB) (Fin T) (Fin q) = Fin q' /\ is_float q' /\ within (74 / 100 * (e * e * e) + 42 / 1000000000 * e + 22 * u53) r q'.
Proof.
  intros Fq FT ET Hr He H. assert (U := u_small). destruct (resid e r q ltac:(lra) He H) as (Pq & Hqr & _ & _).
  destruct (Rle_or_lt 22 q) as [D|D].
  - destruct (tanh_deep r ltac:(lra)) as [T1 T2]. set (th := tanh r) in *.
    assert (TR : 9 / 10 * r <= T <= r). { rewrite ET. unfold qth. fold th. split; [nra|]. nra. }
    destruct (deep_coeffs q Fq D) as (_ & _ & _ & E4). destruct (deep_step q T Fq FT D ltac:(lra)) as [L E].
    exists T. rewrite step_NB; [|rewrite E4; lra|left; exact L]. rewrite E. split; [reflexivity|]. split; [exact FT|].
    unfold within. rewrite ET. unfold qth. fold th. replace (r * th - r) with (- (r * (1 - th))) by ring. rewrite Rabs_Ropp, Rabs_pos_eq by nra.
    rewrite Rmult_comm. apply Rmult_le_compat_r; [lra|]. assert (0 <= e * e * e) by (repeat apply Rmult_le_pos; lra). rewrite u53_val. lra.
  - destruct (fl_step e r q ltac:(lra) ltac:(lra) He H) as (B & Cond & W). rewrite <- ET in Cond, W.
    eexists. rewrite step_NB; [|lra|exact Cond]. split; [reflexivity|]. split; [apply rnd_float|exact W].
Qed.

(** ** The starting value *)
Lemma exp_close x : Rabs x <= / 1000 -> Rabs (exp x - 1) <= 1002 / 1000 * Rabs x.
Proof.
  intros H. assert (L := exp_ineq1_le x). assert (L' := exp_ineq1_le (- x)). assert (E : exp x * exp (- x) = 1) by (rewrite <- exp_plus, Rplus_opp_r; apply exp_0).
  assert (P := exp_pos x). assert (P' := exp_pos (- x)). apply Rabs_le_inv in H.
  destruct (Rle_or_lt 0 x) as [Hx|Hx].
  - rewrite (Rabs_pos_eq x) by lra. rewrite Rabs_pos_eq by lra. assert (exp x * (1 - x) <= 1) by (rewrite <- E; apply Rmult_le_compat_l; lra). nra.
  - rewrite (Rabs_left x) by lra. apply Rabs_le. split; [lra|]. assert (exp x <= 1) by (rewrite <- exp_0; apply exp_mono; lra). lra.
Qed.
Lemma ln_close d : Rabs d <= / 1000 -> Rabs (ln (1 + d)) <= 1002 / 1000 * Rabs d.
Proof.
  intros H. assert (H' := H). apply Rabs_le_inv in H'. assert (E : exp (ln (1 + d)) = 1 + d) by (apply exp_ln; lra).
  assert (L := exp_ineq1_le (ln (1 + d))). rewrite E in L. assert (L' := exp_ineq1_le (- ln (1 + d))). rewrite exp_Ropp, E in L'.
  assert (I : (1 + d) * / (1 + d) = 1) by (field; lra). set (i := / (1 + d)) in *. set (y := ln (1 + d)) in *. clearbody y i.
  destruct (Rle_or_lt 0 d) as [Hd|Hd].
  - rewrite (Rabs_pos_eq d) by lra. apply Rabs_le. split; [|lra]. nra.
  - rewrite (Rabs_left d) by lra. apply Rabs_le. split; [|lra]. assert (i <= 1 + (1002 / 1000) * - d) by nra. lra.
Qed.
Lemma ln_big x : 0 < x <= 1 -> Rabs (ln x) <= / x.
Proof.
  intros H. assert (E : exp (ln x) = x) by (apply exp_ln; lra). assert (L := exp_ineq1_le (ln x)). rewrite E in L.
  assert (L' := exp_ineq1_le (- ln x)). rewrite exp_Ropp, E in L'. assert (I : 0 < / x) by (apply Rinv_0_lt_compat; lra). apply Rabs_le. lra.
Qed.
Definition p25 : R := rnd (2 / 5).
Lemma p25_in : Rabs (p25 - 2 / 5) <= u53.
Proof.
  assert (R := rnd_abs (2 / 5)). rewrite (Rabs_pos_eq (2 / 5)) in R by lra. fold p25 in R. apply (Rle_trans _ _ _ R). assert (U := u_small).
  assert (Z : bpow radix2 (-1020) <= bpow radix2 (-1)) by (apply bpow_le; lia). change (bpow radix2 (-1)) with (/ 2) in Z. nra.
Qed.
Definition fy (T : R) : R := l_pow Lm T (5 / 4).
Definition finner (T : R) : R := rnd (1 - l_exp Lm (- fy T)).
Definition fstart (T : R) : R := rnd (T / l_pow Lm (finner T) p25).
Lemma finner_close T : 9 / 1000000000 <= T ->
  / 12000000000 <= 1 - exp (- Rpower T (5 / 4)) /\ finner T <= 1 /\ Rabs (finner T - (1 - exp (- Rpower T (5 / 4)))) <= 13 * u53.
Proof.
  intros HT. set (Y := Rpower T (5 / 4)). assert (U := u_small). assert (TS := tiny20).
  assert (Y0 : / 11500000000 <= Y).
  { apply Rpower_X; [lra|lra|]. apply Rle_trans with ((9 / 1000000000) ^ 5); [lra|apply pow_incr; lra]. }
  assert (I0 : / 12000000000 <= 1 - exp (- Y)).
  { assert (L := exp_ineq1_le Y). rewrite exp_Ropp. assert (P := exp_pos Y). set (E := exp Y) in *.
    assert (/ E <= / (1 + / 11500000000)) by (apply Rinv_le_contravar; lra). lra. }
  split; [exact I0|].
  assert (Ey : Rabs (fy T - Y) <= 8001 / 1000 * (u53 * Y)).
  { apply ulp4; [apply l_pow_acc; lra|rewrite Rabs_pos_eq; lra|lra]. }
  set (y := fy T) in *. assert (UY : u53 * Y <= / 1000000 * Y) by (apply Rmult_le_compat_r; lra).
  assert (Ee : Rabs (exp (- y) - exp (- Y)) <= 3 * (u53 * 1)).
  { destruct (Rle_or_lt Y 100) as [L|L].
    - replace (exp (- y) - exp (- Y)) with (exp (- Y) * (exp (Y - y) - 1)) by (rewrite Rmult_minus_distr_l, <- exp_plus, Rmult_1_r; f_equal; f_equal; ring).
      rewrite Rabs_mult, (Rabs_pos_eq (exp (- Y))) by (left; apply exp_pos). rewrite Rabs_minus_sym in Ey.
      assert (C := exp_close (Y - y) ltac:(lra)). assert (P := exp_pos (- Y)). assert (X := xe_bound Y). destruct em1 as [m0 m1].
      apply Rle_trans with (exp (- Y) * (1002 / 1000 * (8001 / 1000 * (u53 * Y)))); [apply Rmult_le_compat_l; lra|].
      replace (exp (- Y) * (1002 / 1000 * (8001 / 1000 * (u53 * Y)))) with (1002 / 1000 * (8001 / 1000) * u53 * (Y * exp (- Y))) by ring.
      apply Rle_trans with (1002 / 1000 * (8001 / 1000) * u53 * (372 / 1000)); [apply Rmult_le_compat_l; lra|lra].
    - apply Rabs_le_inv in Ey. assert (E39 := exp_39). assert (A := exp_mono (- y) (-39) ltac:(lra)). assert (B := exp_mono (- Y) (-39) ltac:(lra)).
      assert (A0 := exp_pos (- y)). assert (B0 := exp_pos (- Y)). apply Rabs_le. rewrite u53_val. lra. }
  assert (E1 : exp (- Y) <= 1) by lra. assert (E0 := exp_pos (- Y)).
  assert (Y2 : 0 < y) by (apply Rabs_le_inv in Ey; lra). assert (e1 : exp (- y) <= 1) by (rewrite <- exp_0; apply exp_mono; lra). assert (e0 := exp_pos (- y)).
  assert (EE : Rabs (l_exp Lm (- y) - exp (- Y)) <= 11002 / 1000 * (u53 * 1)).
  { assert (L4 := ulp4 (exp (- y)) (l_exp Lm (- y)) 1 (l_exp_acc _ _) ltac:(rewrite Rabs_pos_eq; lra) ltac:(lra)).
    replace (l_exp Lm (- y) - exp (- Y)) with ((l_exp Lm (- y) - exp (- y)) + (exp (- y) - exp (- Y))) by ring.
    eapply Rle_trans; [apply Rabs_triang|]. lra. }
  split.
  - unfold finner. fold y. apply rnd_le_float; [apply float_1|]. assert (P := l_exp_01 Lm (- y) ltac:(lra)). lra.
  - assert (M := se 0 _ _ 1 1 _ _ (exact0 1 1) EE). unfold finner. fold y. apply Rle_trans with (12504 / 1000 * (u53 * 1)); [|lra].
    apply (re' _ 1 1 _ _ _ M); try lra. rewrite Rabs_pos_eq; lra.
Qed.
Lemma rnd_rel' x K : tiny <= x -> 1001 / 1000 <= K -> Rabs (rnd x - x) <= K * (u53 * x).
Proof.
  intros H HK. assert (T := tiny20). apply (re' 0 1 x _ _ _ (exact0 _ _)); try lra. rewrite Rabs_pos_eq; lra.
Qed.
Lemma fstart_near T : 9 / 1000000000 <= T ->
  0 < finner T /\ 0 < l_pow Lm (finner T) p25 /\ Rabs (fstart T - start T) <= / 105000 * start T.
Proof.
  intros HT. destruct (finner_close T HT) as (I0 & I1 & EI). assert (U := u_small). assert (TS := tiny20).
  destruct (inner_pos T) as [J0 J1]. unfold start. set (I := 1 - exp (- Rpower T (5 / 4))) in *. set (I' := finner T) in *.
  set (d := (I' - I) / I). assert (Ed : I' = I * (1 + d)) by (unfold d; field; lra).
  assert (Hd : Rabs d <= / 56000).
  { unfold d, Rdiv. rewrite Rabs_mult, (Rabs_pos_eq (/ I)) by (left; apply Rinv_0_lt_compat; lra).
    assert (II : / I <= 12000000000) by (rewrite <- (Rinv_inv 12000000000); apply Rinv_le_contravar; lra).
    apply Rle_trans with (13 * u53 * 12000000000); [apply Rmult_le_compat; auto; [apply Rabs_pos|left; apply Rinv_0_lt_compat; lra]|lra]. }
  assert (Hd' := Hd). apply Rabs_le_inv in Hd'.
  assert (I'0 : / 13000000000 <= I') by (rewrite Ed; apply Rle_trans with (/ 12000000000 * (9999 / 10000)); [lra|apply Rmult_le_compat; lra]).
  split; [lra|].
  assert (Lg : Rabs (p25 * ln I' - 2 / 5 * ln I) <= / 110000).
  { assert (EL : ln I' = ln I + ln (1 + d)) by (rewrite Ed, ln_mult by lra; reflexivity).
    replace (p25 * ln I' - 2 / 5 * ln I) with ((p25 - 2 / 5) * ln I' + 2 / 5 * ln (1 + d)) by (rewrite EL; ring).
    eapply Rle_trans; [apply Rabs_triang|]. rewrite !Rabs_mult, (Rabs_pos_eq (2 / 5)) by lra. assert (B := ln_big I' ltac:(lra)).
    assert (II : / I' <= 13000000000) by (rewrite <- (Rinv_inv 13000000000); apply Rinv_le_contravar; lra).
    assert (C := ln_close d ltac:(lra)).
    apply Rle_trans with (u53 * 13000000000 + 2 / 5 * (1002 / 1000 * / 56000)); [|lra].
    apply Rplus_le_compat; [apply Rmult_le_compat; try apply Rabs_pos; [apply p25_in|lra]|lra]. }
  set (S := Rpower I (2 / 5)). assert (S0 : 0 < S) by apply Rpower_pos.
  assert (S1 : / 12000000000 <= S).
  { unfold S. rewrite <- (Rpower_1 I) in I0 by lra. apply (Rle_trans _ _ _ I0). unfold Rpower. apply exp_mono.
    assert (ln I <= 0) by (rewrite <- ln_1; left; apply ln_increasing; lra). lra. }
  assert (S2 : Rabs (Rpower I' p25 - S) <= / 109000 * S).
  { unfold S, Rpower at 1 2. set (x := p25 * ln I') in *. set (x0 := 2 / 5 * ln I) in *.
    replace (exp x - exp x0) with (exp x0 * (exp (x - x0) - 1)) by (rewrite Rmult_minus_distr_l, <- exp_plus, Rmult_1_r; f_equal; f_equal; ring).
    change (Rpower I (2 / 5)) with (exp x0). assert (P := exp_pos x0). rewrite Rabs_mult, (Rabs_pos_eq (exp x0)), Rmult_comm by lra. apply Rmult_le_compat_r; [lra|].
    assert (C := exp_close (x - x0) ltac:(lra)). lra. }
  set (S' := Rpower I' p25) in *. assert (H2 := S2). apply Rabs_le_inv in H2.
  assert (S3 : Rabs (l_pow Lm I' p25 - S') <= 8001 / 1000 * (u53 * S')) by (apply ulp4; [apply l_pow_acc; lra|rewrite Rabs_pos_eq; lra|lra]). assert (US : u53 * S' <= / 1000000000 * S') by (apply Rmult_le_compat_r; lra).
  set (S'' := l_pow Lm I' p25) in *. assert (H3 := S3). apply Rabs_le_inv in H3.
  assert (S4 : (1 - / 108000) * S <= S'' <= (1 + / 108000) * S) by lra.
  split; [lra|].
  assert (Q : Rabs (T / S'' - T / S) <= / 107000 * (T / S)).
  { replace (T / S'' - T / S) with (T / S * ((S - S'') / S'')) by (field; lra). rewrite Rabs_mult, (Rabs_pos_eq (T / S)) by (left; apply Rdiv_lt_0_compat; lra).
    rewrite Rmult_comm. apply Rmult_le_compat_r; [left; apply Rdiv_lt_0_compat; lra|].
    unfold Rdiv. rewrite Rabs_mult, (Rabs_pos_eq (/ S'')) by (left; apply Rinv_0_lt_compat; lra).
    apply (Rmult_le_reg_r S''); [lra|]. rewrite Rmult_assoc, Rinv_l, Rmult_1_r by lra. apply Rabs_le. lra. }
  assert (TB : / 10 ^ 9 <= T / S).
  { apply (Rmult_le_reg_r S); [lra|]. replace (T / S * S) with T by (field; lra).
    assert (S <= 1). { unfold S, Rpower. rewrite <- exp_0. apply exp_mono. assert (ln I <= 0) by (rewrite <- ln_1; left; apply ln_increasing; lra). lra. }
    apply Rle_trans with (/ 10 ^ 9 * 1); [apply Rmult_le_compat_l; lra|lra]. }
  assert (H4 := Q). apply Rabs_le_inv in H4. assert (R := rnd_rel' (T / S'') (1001 / 1000) ltac:(lra) ltac:(lra)).
  change (rnd (T / S'')) with (fstart T) in R. assert (u53 * (T / S'') <= / 1000000000 * (T / S'')) by (apply Rmult_le_compat_r; lra).
  replace (fstart T - T / S) with ((fstart T - T / S'') + (T / S'' - T / S)) by ring. eapply Rle_trans; [apply Rabs_triang|]. lra.
Qed.

(** ** The solver *)
Lemma nb_exp x : nexp (n:=NB) (Fin x) = Fin (l_exp Lm x). Proof. reflexivity. Qed.
Lemma nb_pow a b : 0 < a -> npow (n:=NB) (Fin a) (Fin b) = Fin (l_pow Lm a b).
Proof.
  intros H. change (npow (n:=NB) (Fin a) (Fin b)) with (by_lib2 (l_pow Lm) xpow (Fin a) (Fin b)). unfold by_lib2. destruct (Rlt_dec 0 a); [reflexivity|contradiction].
Qed.
Lemma lit54 : lit (N:=NB) 5 4 = Fin (5 / 4).
Proof.
  unfold lit. rewrite !nb_ofZ by (cbn; lia). rewrite nb_div by lra. rewrite rnd_id; [reflexivity|].
  replace (5 / 4) with (IZR 5 * bpow radix2 (-2)) by (cbn; lra). apply float_scaled; cbn; lia.
Qed.
Lemma lit25 : lit (N:=NB) 2 5 = Fin p25.
Proof. unfold lit. rewrite !nb_ofZ by (cbn; lia). rewrite nb_div by lra. reflexivity. Qed.
Lemma start_NB T : 9 / 1000000000 <= T -> disper_q0 (N:=NB) (Fin T) = Fin (fstart T).
Proof.
  intros HT. destruct (fstart_near T HT) as (I & P & _). unfold disper_q0. rewrite lit54, lit25, nb_pow by lra.
  rewrite nb_opp, nb_exp, nb_1, nb_sub. fold (fy T). fold (finner T). rewrite nb_pow by exact I. rewrite nb_div by lra. reflexivity.
Qed.
Lemma root_big r : 0 < r -> 9 / 1000000000 <= qth r -> 9 / 100000 <= r.
Proof. intros Hr H. unfold qth in H. assert (A := tanh_lt_1 r). assert (B : tanh r <= r).
  { destruct (Rle_or_lt 1 r) as [L|L]; [lra|]. rewrite tanh_form. assert (E := exp_hi4 r). assert (D := tanh_pos r Hr).
    destruct (MVT_gen tanh 0 r (fun x => 1 - tanh x * tanh x)) as (z & Hz & EE).
    - intros x _. apply tanh_derive.
    - intros x _. apply continuity_pt_filterlim, (ex_derive_continuous tanh x). eexists. apply tanh_derive.
    - rewrite tanh_0' in EE. rewrite <- tanh_form. assert (0 <= tanh z * tanh z) by nra. nra. }
  assert (0 < tanh r) by (apply tanh_pos; auto). nra.
Qed.
Definition passes (T : R) : car NB := disper_step (N:=NB) (Fin T) (disper_step (N:=NB) (Fin T) (disper_q0 (N:=NB) (Fin T))).
Lemma passes_NB T r : is_float T -> 0 < r -> qth r = T -> 9 / 1000000000 <= T ->
  exists q, passes T = Fin q /\ is_float q /\ within (345 / 10000000000000000) r q.
Proof.
  intros FT Hr E HT. assert (U := u_small). assert (R9 := root_big r Hr ltac:(lra)). unfold passes. rewrite start_NB by exact HT.
  destruct (fstart_near T HT) as (_ & _ & N). destruct (start_near r Hr) as [A B]. rewrite E in A, B.
  assert (W0 : within (1001 / 100000) r (fstart T)).
  { unfold within. apply Rabs_le_inv in N. apply Rabs_le. lra. }
  destruct (pass (1001 / 100000) r (fstart T) T (rnd_float _) FT (eq_sym E) R9 ltac:(lra) W0) as (q1 & -> & F1 & W1).
  assert (W1' : within (744 / 1000000000) r q1).
  { unfold within in *. apply (Rle_trans _ _ _ W1). apply Rmult_le_compat_r; lra. }
  destruct (pass (744 / 1000000000) r q1 T F1 FT (eq_sym E) R9 ltac:(lra) W1') as (q2 & -> & F2 & W2).
  exists q2. split; [reflexivity|]. split; [exact F2|]. unfold within in *. apply (Rle_trans _ _ _ W2). apply Rmult_le_compat_r; lra.
Qed.

(** the computed, clamped dimensionless frequency *)
Definition fw2 (w h g : R) : R := let x := rnd (rnd (rnd (w * w) * h) / g) in if Rltb x lim8 then lim8 else x.
Lemma w2_NB w h g : g <> 0 -> disper_w2 (N:=NB) (Fin w) (Fin h) (Fin g) = Fin (fw2 w h g).
Proof.
  intros Hg. unfold disper_w2, fw2. cbv zeta. rewrite !nb_mul, nb_div by exact Hg. rewrite nb_lit8, nb_ltb. destruct (Rltb _ _); reflexivity.
Qed.
Lemma fw2_float w h g : is_float (fw2 w h g).
Proof. unfold fw2. cbv zeta. destruct (Rltb _ _); apply rnd_float. Qed.
Lemma fw2_big w h g : 9 / 1000000000 <= fw2 w h g.
Proof. unfold fw2. cbv zeta. assert (L := lim8_in). destruct (Rltb_spec (rnd (rnd (rnd (w * w) * h) / g)) lim8); lra. Qed.
Definition fsolve (w h g : R) : R := match passes (fw2 w h g) with Fin q => q | _ => 0 end.
Lemma fsolve_spec w h g : passes (fw2 w h g) = Fin (fsolve w h g) /\ is_float (fsolve w h g) /\
  forall r, 0 < r -> qth r = fw2 w h g -> within (345 / 10000000000000000) r (fsolve w h g).
Proof.
  assert (B := fw2_big w h g). assert (F0 := fw2_float w h g). destruct (qth_root (fw2 w h g) ltac:(lra)) as (r & Hr & E).
  destruct (passes_NB _ r F0 Hr E B) as (q & Q & FQ & W). unfold fsolve. rewrite Q. split; [reflexivity|]. split; [exact FQ|].
  intros r' Hr' E'. rewrite <- E in E'. apply qth_inj in E'; auto. subst r'. exact W.
Qed.
Lemma fsolve_pos w h g : 0 < fsolve w h g.
Proof.
  assert (B := fw2_big w h g). destruct (qth_root (fw2 w h g) ltac:(lra)) as (r & Hr & E).
  assert (W := proj2 (proj2 (fsolve_spec w h g)) r Hr E). apply Rabs_le_inv in W. lra.
Qed.
Definition fk (h g w : R) : R := rnd (rsign w * fsolve w h g / h).
Lemma q_NB w h g : g <> 0 -> disper_q (N:=NB) (Fin w) (Fin h) (Fin g) = passes (fw2 w h g).
Proof. intros Hg. unfold disper_q. cbv zeta. rewrite w2_NB by exact Hg. unfold passes. reflexivity. Qed.
Lemma sign_NB w : nsign (N:=NB) (Fin w) = Fin (rsign w).
Proof.
  unfold nsign, rsign. change (nisnan (n:=NB) (Fin w)) with false. cbv iota. rewrite nb_0, nb_1, !nb_ltb, nb_opp. destruct (Rltb 0 w), (Rltb w 0); reflexivity.
Qed.
Lemma k_form w h (q : R) : h <> 0 -> is_float q ->
  (let k := ndiv (n:=NB) (nmul (n:=NB) (nsign (N:=NB) (Fin w)) (Fin q)) (Fin h) in if nisnan (n:=NB) k then n0 (N:=NB) else k) = Fin (rnd (rsign w * q / h)).
Proof.
  intros Hh Fq. cbv zeta. rewrite sign_NB, nb_mul, nb_div by exact Hh. rewrite (rnd_id (rsign w * q)); [reflexivity|].
  unfold rsign. destruct (Rltb 0 w); [rewrite Rmult_1_l; exact Fq|]. destruct (Rltb w 0); [|rewrite Rmult_0_l; apply float_0].
  replace (-1 * q) with (- q) by ring. apply generic_format_opp, Fq.
Qed.
Lemma k_NB w h g : 0 < h -> 0 < g -> disper_k (N:=NB) (Fin w) (Fin h) (Fin g) = Fin (fk h g w).
Proof.
  intros Hh Hg. destruct (fsolve_spec w h g) as (P & FQ & _). unfold fk. revert P FQ. generalize (fsolve w h g). intros q P FQ.
  unfold disper_k. rewrite q_NB by lra. rewrite P. apply k_form; [lra|exact FQ].
Qed.
Lemma disper_NB ws h g : 0 < h -> 0 < g -> disper (N:=NB) (Arr (vec (F ws))) (Fin h) (Fin g) = Ok (F (map (fk h g) ws)).
Proof.
  intros Hh Hg. unfold disper. cbn [convert_to_array_type].
  assert (A : as_list (A:=car NB) (vec (F ws)) = Ok (F ws)) by (unfold as_list, vec; reflexivity).
  rewrite A, bind_Ok. change (nisinf (n:=NB) (Fin h)) with false. cbv iota. rewrite nb_0, nb_ltb, (Rltb_false h 0) by lra.
  apply f_equal. unfold F. rewrite !map_map. apply map_ext. intros w. apply k_NB; auto.
Qed.

(** ** Relating the computed dimensionless frequency to the exact one *)
Definition large60 (x : R) : Prop := / 10 ^ 60 <= x.
Lemma large_thr x : / 10 ^ 290 <= x -> bpow radix2 (-1010) <= x.
Proof.
  intros H. apply Rle_trans with (/ 10 ^ 290); [|exact H]. change (bpow radix2 (-1010)) with (/ IZR (Z.pow_pos 2 1010)).
  apply Rinv_le_contravar; [apply pow_lt; lra|]. rewrite pow_IZR. apply IZR_le. vm_compute. discriminate.
Qed.
Lemma fw2_rel w h g : large60 (Rabs w) -> large60 h -> 0 < g -> 1 / 100000000 <= w * w * h / g ->
  (1 - 5 * u53) * (w * w * h / g) <= fw2 w h g <= (1 + 5 * u53) * (w * w * h / g).
Proof.
  intros Hw Hh Hg HT. unfold large60 in *. assert (U := u_small). set (t := w * w * h / g) in *.
  assert (P60 : 0 < / 10 ^ 60) by (apply Rinv_0_lt_compat, pow_lt; lra).
  assert (WW : / 10 ^ 120 <= w * w).
  { replace (/ 10 ^ 120) with (/ 10 ^ 60 * / 10 ^ 60) by (rewrite <- Rinv_mult, <- pow_add; reflexivity).
    replace (w * w) with (Rabs w * Rabs w) by (rewrite <- Rabs_mult; apply Rabs_pos_eq; nra). apply Rmult_le_compat; lra. }
  assert (P120 : 0 < / 10 ^ 120) by (apply Rinv_0_lt_compat, pow_lt; lra).
  assert (WH : / 10 ^ 180 <= w * w * h).
  { replace (/ 10 ^ 180) with (/ 10 ^ 120 * / 10 ^ 60) by (rewrite <- Rinv_mult, <- pow_add; reflexivity). apply Rmult_le_compat; lra. }
  assert (T1 : thr (w * w)).
  { right. apply large_thr. eapply Rle_trans; [|exact WW]. apply Rinv_le_contravar; [apply pow_lt; lra|apply Rle_pow; [lra|lia]]. }
  assert (T2 : thr (w * w * h)).
  { right. apply large_thr. eapply Rle_trans; [|exact WH]. apply Rinv_le_contravar; [apply pow_lt; lra|apply Rle_pow; [lra|lia]]. }
  assert (T3 : thr t).
  { right. apply large_thr. eapply Rle_trans; [|exact HT]. apply Rle_trans with (/ 10 ^ 9); [apply Rinv_le_contravar; [apply pow_lt; lra|apply Rle_pow; [lra|lia]]|lra]. }
  assert (R1 : rel 1 (w * w) (rnd (w * w))) by (apply rel_rnd; [cbn; lia|exact T1|apply rel_refl]).
  assert (R2 : rel 2 (w * w * h) (rnd (rnd (w * w) * h))).
  { apply rel_rnd; [cbn; lia|exact T2|]. apply (rel_mul 1 0); [apply thr_nonneg, T1|lra|exact R1|apply rel_refl]. }
  assert (R3 : rel 3 t (rnd (rnd (rnd (w * w) * h) / g))).
  { apply rel_rnd; [cbn; lia|exact T3|]. unfold t, Rdiv. apply (rel_mul 2 0); [apply thr_nonneg, T2|left; apply Rinv_0_lt_compat; lra|exact R2|apply rel_refl]. }
  assert (L3 := lo_bern 3). assert (H3 := hi_up 3). replace (INR 3) with 3 in * by (cbn; lra).
  assert (H4 : (1 + u53) ^ 3 <= 1 + 5 * u53) by (assert (X := hi_pos 3); assert (Y := hi_1 3); nra).
  destruct R3 as [R3 R3']. set (x := rnd (rnd (rnd (w * w) * h) / g)) in *.
  assert (X1 : (1 - 5 * u53) * t <= x) by (eapply Rle_trans; [|exact R3]; rewrite Rmult_comm; apply Rmult_le_compat_l; lra).
  assert (X2 : x <= (1 + 5 * u53) * t) by (eapply Rle_trans; [exact R3'|]; rewrite Rmult_comm; apply Rmult_le_compat_r; lra).
  unfold fw2. cbv zeta. fold x. destruct (Rltb_spec x lim8) as [L|L]; [|lra]. split; [lra|].
  assert (E : Rabs (lim8 - 1 / 100000000) <= 1001 / 1000 * (u53 * (1 / 100000000))).
  { assert (TS := tiny20). apply rnd_rel'; lra. }
  apply Rabs_le_inv in E. apply Rle_trans with ((1 + 5 * u53) * (1 / 100000000)); [lra|apply Rmult_le_compat_l; lra].
Qed.
(** the root moves no more, relatively, than the dimensionless frequency *)
Lemma root_close r s e : 0 < r -> 0 < s -> 0 <= e <= 1 / 2 -> (1 - e) * qth s <= qth r <= (1 + e) * qth s -> Rabs (r - s) <= 2 * e * s.
Proof.
  intros Hr Hs He [H1 H2]. assert (tr := tanh_pos r Hr). assert (ts := tanh_pos s Hs).
  destruct (Rtotal_order r s) as [L|[L|L]].
  - rewrite Rabs_left by lra. destruct (qth_mvt r s ltac:(lra)) as (z & Hz & E). assert (M := tanh_mono r z ltac:(lra)). assert (Q := tanh_sq_pos z).
    assert (K : tanh r * (s - r) <= qth s - qth r).
    { rewrite E. apply Rmult_le_compat_r; [lra|]. assert (0 <= z * (1 - tanh z * tanh z)) by (apply Rmult_le_pos; lra). lra. }
    assert (K2 : qth s - qth r <= 2 * e * qth r). { assert (0 < qth s) by (apply Rmult_lt_0_compat; auto). nra. }
    unfold qth at 3 in K2. apply Rle_trans with (2 * e * r); [|apply Rmult_le_compat_l; lra]. apply (Rmult_le_reg_l (tanh r)); [exact tr|]. lra.
  - subst. rewrite Rminus_eq_0, Rabs_R0. apply Rmult_le_pos; lra.
  - rewrite Rabs_pos_eq by lra. destruct (qth_mvt s r ltac:(lra)) as (z & Hz & E). assert (M := tanh_mono s z ltac:(lra)). assert (Q := tanh_sq_pos z).
    assert (K : tanh s * (r - s) <= qth r - qth s).
    { rewrite E. apply Rmult_le_compat_r; [lra|]. assert (0 <= z * (1 - tanh z * tanh z)) by (apply Rmult_le_pos; lra). lra. }
    assert (K2 : qth r - qth s <= e * qth s) by lra. unfold qth at 3 in K2.
    apply (Rmult_le_reg_l (tanh s)); [exact ts|]. assert (0 <= tanh s * (e * s)) by (apply Rmult_le_pos; [lra|apply Rmult_le_pos; lra]). lra.
Qed.

(** ** C81 *)
(** the allowed relative error: 4e-14 *)
Definition acc : R := 4 / 100000000000000.
Lemma fk_accuracy w h g k : large60 (Rabs w) -> large60 h -> h <= 10 ^ 60 -> 0 < g -> 1 / 100000000 <= w * w * h / g ->
  solves w h g k -> relative_error acc k (fk h g w).
Proof.
  intros Hw Hh Hh' Hg HT [E S]. assert (U := u_small). assert (P60 : 0 < / 10 ^ 60) by (apply Rinv_0_lt_compat, pow_lt; lra).
  unfold large60 in *. assert (H0 : 0 < h) by lra. assert (W0 : w <> 0) by (intros ->; rewrite Rabs_R0 in Hw; lra).
  assert (K0 : k <> 0) by (intros ->; lra). assert (AK := Rabs_pos_lt k K0).
  apply solves_iff in E; auto. set (s := Rabs k * h) in *. assert (Hs : 0 < s) by (apply Rmult_lt_0_compat; auto).
  assert (B := fw2_big w h g). destruct (qth_root (fw2 w h g) ltac:(lra)) as (r & Hr & Er).
  assert (R := fw2_rel w h g Hw Hh Hg HT). rewrite <- E, <- Er in R.
  assert (C := root_close r s (5 * u53) Hr Hs ltac:(lra) R).
  assert (W := proj2 (proj2 (fsolve_spec w h g)) r Hr Er). assert (Q0 := fsolve_pos w h g). assert (R9 := root_big r Hr ltac:(lra)).
  revert W Q0. unfold fk. generalize (fsolve w h g). intros q W Q0. unfold within in W.
  apply Rabs_le_inv in C. assert (US : u53 * s <= / 1000000 * s) by (apply Rmult_le_compat_r; lra).
  assert (QS : Rabs (q - s) <= 36 / 1000000000000000 * s).
  { apply Rabs_le_inv in W. apply Rabs_le. assert (u53 * s <= 1 / 9000000000000000 * s) by (apply Rmult_le_compat_r; lra). lra. }
  assert (SG : k = rsign w * (Rabs k) /\ Rabs (rsign w) = 1 /\ (rsign w = 1 \/ rsign w = -1)).
  { destruct (Rle_or_lt 0 w) as [L|L].
    - rewrite rsign_pos by lra. rewrite Rabs_pos_eq by nra. rewrite Rabs_R1. split; [ring|auto].
    - rewrite rsign_neg by lra. rewrite Rabs_left by nra. rewrite Rabs_left by lra. split; [ring|split; [ring|auto]]. }
  destruct SG as (SK & S1 & S2).
  assert (QH : / 10 ^ 65 <= q / h).
  { apply (Rmult_le_reg_r h); [lra|]. replace (q / h * h) with q by (field; lra).
    apply Rle_trans with (/ 10 ^ 65 * 10 ^ 60); [apply Rmult_le_compat_l; [left; apply Rinv_0_lt_compat, pow_lt; lra|lra]|].
    replace (/ 10 ^ 65 * 10 ^ 60) with (/ 10 ^ 5) by field. apply Rabs_le_inv in W. lra. }
  assert (KQ : Rabs (q / h - Rabs k) <= 36 / 1000000000000000 * Rabs k).
  { apply (Rmult_le_reg_r h); [lra|]. rewrite <- (Rabs_pos_eq h) at 2 by lra. rewrite <- Rabs_mult.
    replace ((q / h - Rabs k) * h) with (q - s) by (unfold s; field; lra). rewrite Rmult_assoc. exact QS. }
  assert (RQ : Rabs (rnd (q / h) - q / h) <= 3 * u53 * Rabs k).
  { assert (RA := rnd_abs (q / h)). rewrite (Rabs_pos_eq (q / h)) in RA by (assert (0 < / 10 ^ 65) by (apply Rinv_0_lt_compat, pow_lt; lra); lra).
    apply (Rle_trans _ _ _ RA). replace (3 * u53 * Rabs k) with (u53 * (3 * Rabs k)) by ring. apply Rmult_le_compat_l; [lra|].
    assert (Z : bpow radix2 (-1020) <= q / h).
    { destruct z_small as [_ Z]. apply (Rle_trans _ _ _ Z). eapply Rle_trans; [|exact QH]. apply Rinv_le_contravar; [apply pow_lt; lra|apply Rle_pow; [lra|lia]]. }
    apply Rabs_le_inv in KQ. lra. }
  unfold relative_error. rewrite SK at 1.
  replace (rnd (rsign w * q / h)) with (rsign w * rnd (q / h)).
  - rewrite <- Rmult_minus_distr_l, Rabs_mult, S1, Rmult_1_l.
    replace (rnd (q / h) - Rabs k) with ((rnd (q / h) - q / h) + (q / h - Rabs k)) by ring. eapply Rle_trans; [apply Rabs_triang|].
    apply Rle_trans with ((3 * u53 + 36 / 1000000000000000) * Rabs k); [lra|]. unfold acc. apply Rmult_le_compat_r; lra.
  - destruct S2 as [->| ->]; unfold Rdiv; rewrite ?Rmult_1_l; [reflexivity|].
    replace (-1 * q * / h) with (- (q * / h)) by ring. rewrite rnd_opp. ring.
Qed.

Theorem C81_structure (h g : R) : 0 < h <= 10 ^ 60 -> 0 < g -> exists K : R -> R,
  (forall ws, disper (N:=NB) (Arr (vec (F ws))) (Fin h) (Fin g) = Ok (F (map K ws))) /\
  (forall w, disper (N:=NB) (Scalar (Fin w)) (Fin h) (Fin g) = Ok (F [K w])) /\
  (forall w, is_float (K w)) /\ K 0 = 0 /\ (forall w, K (- w) = - K w) /\ (forall w, 0 < w -> 0 < K w).
Proof.
  intros [Hh Hh'] Hg. exists (fk h g). split; [intros ws; apply disper_NB; auto|].
  split; [intros w; apply (disper_NB [w]); auto|]. split; [intros w; apply rnd_float|].
  split; [unfold fk; rewrite rsign_0; unfold Rdiv; rewrite !Rmult_0_l; apply rnd_id, float_0|].
  assert (Even : forall w, fw2 (- w) h g = fw2 w h g).
  { intros w. unfold fw2. replace (- w * - w) with (w * w) by ring. reflexivity. }
  split.
  - intros w. assert (EV : fsolve (- w) h g = fsolve w h g) by (unfold fsolve; rewrite Even; reflexivity). unfold fk. rewrite EV.
    generalize (fsolve w h g). intros q. rewrite <- rnd_opp. f_equal.
    destruct (Rtotal_order w 0) as [L|[->|L]].
    + rewrite (rsign_neg w L), (rsign_pos (- w)) by lra. field. lra.
    + rewrite Ropp_0, rsign_0. field. lra.
    + rewrite (rsign_pos w L), (rsign_neg (- w)) by lra. field. lra.
  - intros w Hw. unfold fk. rewrite rsign_pos by exact Hw. assert (B := fw2_big w h g). destruct (qth_root (fw2 w h g) ltac:(lra)) as (r & Hr & Er).
    assert (W := proj2 (proj2 (fsolve_spec w h g)) r Hr Er). assert (R9 := root_big r Hr ltac:(lra)). revert W. generalize (fsolve w h g). intros q W.
    apply Rabs_le_inv in W. apply Rlt_le_trans with (bpow radix2 (-1020)); [apply b_pos|]. apply rnd_ge_float; [apply float_bpow; lia|].
    destruct z_small as [_ Z]. apply (Rle_trans _ _ _ Z). apply (Rmult_le_reg_r h); [lra|]. replace (1 * q / h * h) with q by (field; lra).
    assert (P90 : 0 < / 10 ^ 90) by (apply Rinv_0_lt_compat, pow_lt; lra).
    apply Rle_trans with (/ 10 ^ 90 * 10 ^ 60); [apply Rmult_le_compat_l; lra|]. replace (/ 10 ^ 90 * 10 ^ 60) with (/ 10 ^ 30) by field. lra.
Qed.
Theorem C81_accuracy (ws : list R) (h g : R) : / 10 ^ 60 <= h <= 10 ^ 60 -> 0 < g ->
  exists ks, disper (N:=NB) (Arr (vec (F ws))) (Fin h) (Fin g) = Ok (F ks) /\ length ks = length ws /\ floats ks /\
  forall i, (i < length ws)%nat -> / 10 ^ 60 <= Rabs (nth i ws 0) -> 1 / 100000000 <= nth i ws 0 * nth i ws 0 * h / g ->
    (exists! k, solves (nth i ws 0) h g k) /\
    forall k, solves (nth i ws 0) h g k -> relative_error (4 / 100000000000000) k (nth i ks 0).
Proof.
  intros [Hh Hh'] Hg. assert (H0 : 0 < h) by (assert (0 < / 10 ^ 60) by (apply Rinv_0_lt_compat, pow_lt; lra); lra).
  exists (map (fk h g) ws). split; [apply disper_NB; auto|]. split; [apply map_length|].
  split; [intros v Hv; apply in_map_iff in Hv; destruct Hv as (w & <- & _); apply rnd_float|].
  intros i Hi Hw HT. rewrite (nth_indep (map (fk h g) ws) 0 (fk h g 0)) by (rewrite map_length; auto). rewrite map_nth. set (w := nth i ws 0) in *.
  assert (W0 : w <> 0). { intros E. rewrite E in HT. unfold Rdiv in HT. rewrite !Rmult_0_l in HT. lra. }
  split; [destruct (solves_exists w h g H0 Hg W0) as (k & Sk); exists k; split; [exact Sk|intros k' Sk'; apply (solves_unique w h g); auto]|].
  intros k Sk. apply fk_accuracy; auto.
Qed.
(** the binary64 result against the exact-arithmetic result of the same code *)
Theorem C81_against_exact (w h g kb kx : R) : / 10 ^ 60 <= h <= 10 ^ 60 -> 0 < g -> / 10 ^ 60 <= Rabs w -> 1 / 100000000 <= w * w * h / g ->
  disper (N:=NB) (Scalar (Fin w)) (Fin h) (Fin g) = Ok (F [kb]) -> disper (N:=NX) (Scalar (Fin w)) (Fin h) (Fin g) = Ok (F [kx]) ->
  Rabs (kb - kx) <= 6 / 100000000000000 * Rabs kx.
Proof.
  intros Hh Hg Hw HT DB DX. assert (H0 : 0 < h) by (assert (0 < / 10 ^ 60) by (apply Rinv_0_lt_compat, pow_lt; lra); lra).
  destruct (C81_accuracy [w] h g Hh Hg) as (ks & D & L & _ & A). destruct (A 0%nat ltac:(cbn; lia) Hw HT) as ((k & S & _) & E). specialize (E k S). clear A.
  change (disper (N:=NB) (Scalar (Fin w)) (Fin h) (Fin g)) with (disper (N:=NB) (Arr (vec (F [w]))) (Fin h) (Fin g)) in DB.
  change (disper (N:=NX) (Scalar (Fin w)) (Fin h) (Fin g)) with (disper (N:=NX) (Arr (vec (F [w]))) (Fin h) (Fin g)) in DX.
  rewrite D in DB. apply Ok_inj, F_inj in DB. subst ks. destruct (C45_accuracy [w] [kx] h g H0 Hg DX) as (_ & A).
  destruct (A 0%nat ltac:(cbn; lia) HT) as (_ & E'). specialize (E' k S). cbn [nth] in *.
  unfold relative_error in *. apply Rabs_le_inv in E, E'. assert (AK := Rabs_pos k).
  assert (X : Rabs k <= 1001 / 1000 * Rabs kx).
  { assert (Rabs k <= Rabs kx + Rabs (kx - k)). { replace k with (kx - (kx - k)) at 1 by ring. unfold Rminus at 1. eapply Rle_trans; [apply Rabs_triang|]. rewrite Rabs_Ropp. lra. }
    assert (Rabs (kx - k) <= 1 / 100000000000000 * Rabs k) by (apply Rabs_le; lra). lra. }
  apply Rabs_le. lra.
Qed.
Example C81_witness : exists k1 k2, disper (N:=NB) (Arr (vec (F [1; -2]))) (Fin 5) (Fin 10) = Ok (F [k1; k2]) /\
  (exists k, 1 = 10 * k * tanh (k * 5) /\ 0 < k /\ Rabs (k1 - k) <= 4 / 100000000000000 * k) /\
  (exists k, 4 = 10 * k * tanh (k * 5) /\ k < 0 /\ Rabs (k2 - k) <= 4 / 100000000000000 * - k).
Proof.
  assert (B1 : / 10 ^ 60 <= 1) by (rewrite <- Rinv_1; apply Rinv_le_contravar; [lra|apply pow_R1_Rle; lra]).
  assert (B2 : 5 <= 10 ^ 60) by (apply Rle_trans with (10 ^ 1); [lra|apply Rle_pow; [lra|lia]]).
  destruct (C81_accuracy [1; -2] 5 10 ltac:(lra) ltac:(lra)) as (ks & D & L & _ & A).
  destruct ks as [|k1 [|k2 [|]]]; try discriminate L. exists k1, k2. split; [exact D|].
  destruct (A 0%nat ltac:(cbn; lia)) as ((k & [E S] & _) & R); [cbn [nth]; rewrite Rabs_R1; lra|cbn [nth]; lra|].
  destruct (A 1%nat ltac:(cbn; lia)) as ((k' & [E' S'] & _) & R'); [cbn [nth]; rewrite Rabs_left by lra; lra|cbn [nth]; lra|].
  specialize (R k (conj E S)). specialize (R' k' (conj E' S')).
  cbn [nth] in *. unfold relative_error in *. rewrite (Rabs_pos_eq k) in R by lra. rewrite (Rabs_left k') in R' by lra.
  split; [exists k|exists k']; split; try lra.
Qed.
End AnyOrder.

(** Correct rounding of every function is a library that meets the contract, and so is the one that always rounds towards zero *)
#[local] Instance prec53'' : Prec_gt_0 53 := eq_refl.
#[local] Instance fexp64_valid'' : Valid_exp fexp64 := FLT_exp_valid (-1074) 53.
Lemma rnd_4ulp x : Rabs (rnd x - x) <= 4 * Ulp.ulp radix2 fexp64 x.
Proof. assert (H := error_le_half_ulp radix2 fexp64 (fun n => negb (Z.even n)) x). unfold rnd. assert (U := ulp_ge_0 radix2 fexp64 x). lra. Qed.
Lemma tanh_22 x : 22 <= x -> rnd (tanh x) = 1.
Proof.
  intros H. apply rnd_to_1. destruct (tanh_deep x ltac:(lra)) as [A B]. split; [|lra]. eapply Rlt_le_trans; [|exact A].
  change (bpow radix2 (-54)) with (/ IZR (Z.pow_pos 2 54)). change (Z.pow_pos 2 54) with 18014398509481984%Z. lra.
Qed.
Lemma Rpower_anti x x' y : 0 < x <= x' -> y < 0 -> Rpower x' y <= Rpower x y.
Proof.
  intros Hx Hy. unfold Rpower. apply exp_mono. assert (L : ln x <= ln x') by (destruct (Req_dec x x') as [->|]; [lra|left; apply ln_increasing; lra]). nra.
Qed.
Definition rounded_libm : libm.
Proof.
  refine {| l_exp := fun x => rnd (exp x); l_ln := fun x => rnd (ln x); l_tanh := fun x => rnd (tanh x); l_cos := fun x => rnd (cos x);
            l_sin := fun x => rnd (sin x); l_pow := fun x y => rnd (Rpower x y) |}.
  - intros x. apply rnd_4ulp.
  - intros x H. split; [apply rnd_ge_float; [apply float_0|left; apply exp_pos]|].
    apply rnd_le_float; [apply float_1|]. rewrite <- exp_0. apply exp_mono, H.
  - intros x. apply rnd_4ulp.
  - apply tanh_22.
  - intros x y _. apply rnd_4ulp.
  - intros x y _. apply rnd_ge_float; [apply float_0|left; apply exp_pos].
  - intros x x' y Hx Hy. apply rnd_le, Rpower_anti; auto.
  - intros x y. repeat split; apply rnd_float.
Defined.
Definition chopped_libm : libm.
Proof.
  set (chop := fun r => round radix2 fexp64 Ztrunc r).
  assert (C4 : forall r, Rabs (chop r - r) <= 4 * Ulp.ulp radix2 fexp64 r).
  { intros r. assert (H := error_le_ulp radix2 fexp64 Ztrunc r). assert (U := ulp_ge_0 radix2 fexp64 r). unfold chop. lra. }
  assert (CF : forall r, is_float (chop r)) by (intros; apply generic_format_round; typeclasses eauto).
  refine {| l_exp := fun x => chop (exp x); l_ln := fun x => chop (ln x);
            l_tanh := fun x => if Rle_dec 22 x then 1 else chop (tanh x); l_cos := fun x => chop (cos x);
            l_sin := fun x => chop (sin x); l_pow := fun x y => chop (Rpower x y) |}.
  - intros x. apply C4.
  - intros x H. unfold chop. split.
    + apply round_ge_generic; try typeclasses eauto; [apply generic_format_0|left; apply exp_pos].
    + apply round_le_generic; try typeclasses eauto; [apply float_1|]. rewrite <- exp_0. apply exp_mono, H.
  - intros x. destruct (Rle_dec 22 x) as [H|H]; [|apply C4]. rewrite <- (tanh_22 x H). apply rnd_4ulp.
  - intros x H. destruct (Rle_dec 22 x); [reflexivity|contradiction].
  - intros x y _. apply C4.
  - intros x y _. unfold chop. apply round_ge_generic; try typeclasses eauto; [apply generic_format_0|left; apply exp_pos].
  - intros x x' y Hx Hy. unfold chop. apply round_le; try typeclasses eauto. apply Rpower_anti; auto.
  - intros x y. repeat split; auto. destruct (Rle_dec 22 x); [apply float_1|auto].
Defined.
