(** * The starting value of the dispersion iteration is within 1% of the solution *)

From Coq Require Import ZArith Reals Lra Lia List Bool.
From Coquelicot Require Import Coquelicot.
From Verif Require Import TanhFacts ExpBounds.
Import ListNotations.
Open Scope R_scope.

(** the starting value, core_dispersion.py:67, in real numbers *)
Definition start (T : R) : R := T / Rpower (1 - exp (- Rpower T (5 / 4))) (2 / 5).

Lemma pow_le_inv n x y : 0 <= y -> x ^ S n <= y ^ S n -> x <= y.
Proof.
  intros Hy H. destruct (Rle_or_lt x y) as [L|L]; [exact L|]. exfalso.
  assert (y ^ S n < x ^ S n); [|lra].
  clear H. induction n as [|n IH]; [cbn; lra|]. change (y * y ^ S n < x * x ^ S n). assert (0 <= y ^ S n) by (apply pow_le; auto). nra.
Qed.
Lemma Rpower_5_4 T : 0 < T -> Rpower T (5 / 4) ^ 4 = T ^ 5.
Proof.
  intros H. rewrite <- (Rpower_pow 4) by (unfold Rpower; apply exp_pos). rewrite Rpower_mult.
  replace (5 / 4 * INR 4) with (INR 5) by (cbn; lra). apply Rpower_pow; auto.
Qed.
Lemma Rpower_2_5 T : 0 < T -> Rpower T (2 / 5) ^ 5 = T ^ 2.
Proof.
  intros H. rewrite <- (Rpower_pow 5) by (unfold Rpower; apply exp_pos). rewrite Rpower_mult.
  replace (2 / 5 * INR 5) with (INR 2) by (cbn; lra). apply Rpower_pow; auto.
Qed.
Lemma Rpower_pos x y : 0 < Rpower x y.
Proof. unfold Rpower. apply exp_pos. Qed.
Lemma inner_pos T : 0 < 1 - exp (- Rpower T (5 / 4)) < 1.
Proof.
  assert (A := Rpower_pos T (5 / 4)). assert (B : exp (- Rpower T (5 / 4)) < 1) by (rewrite <- exp_0; apply exp_increasing; lra).
  assert (C := exp_pos (- Rpower T (5 / 4))). lra.
Qed.

(** what has to be shown, in terms of the solution q *)
Definition near (q : R) : Prop := 99 / 100 * q <= start (qth q) <= 101 / 100 * q.
Lemma near_of q : 0 < q ->
  (tanh q / (101 / 100)) ^ 5 <= (1 - exp (- Rpower (qth q) (5 / 4))) ^ 2 ->
  (1 - exp (- Rpower (qth q) (5 / 4))) ^ 2 <= (tanh q / (99 / 100)) ^ 5 -> near q.
Proof.
  intros Hq U L. unfold near, start. destruct (inner_pos (qth q)) as [I1 I2]. set (A := 1 - exp (- Rpower (qth q) (5 / 4))) in *.
  assert (Rp := Rpower_pos A (2 / 5)). rewrite <- (Rpower_2_5 A I1) in U, L. assert (Ht := tanh_pos q Hq).
  apply pow_le_inv in U; [|lra]. apply pow_le_inv in L; [|lra]. unfold qth. set (B := Rpower A (2 / 5)) in *.
  split; apply (Rmult_le_reg_r B); auto; unfold Rdiv; rewrite ?(Rmult_assoc _ (/ B)), ?Rinv_l, ?Rmult_1_r by lra; nra.
Qed.

(** ** Small q *)
Lemma tanh_le_id q : 0 <= q -> tanh q <= q.
Proof.
  intros H. apply (grow tanh (fun x => x) (fun x => 1 - tanh x * tanh x) (fun _ => 1) q H).
  - rewrite tanh_0'. lra. - intros; apply tanh_derive. - dr. - intros x _. assert (0 <= tanh x * tanh x) by apply Rle_0_sqr. lra.
Qed.
Lemma tanh_ge q : 0 <= q -> q - q * q * q / 3 <= tanh q.
Proof.
  intros H. apply (grow (fun x => x - x * x * x / 3) tanh (fun x => 1 - x * x) (fun x => 1 - tanh x * tanh x) q H).
  - rewrite tanh_0'. lra. - dr. - intros; apply tanh_derive.
  - intros x Hx. assert (A := tanh_le_id x ltac:(lra)). destruct (Req_dec x 0) as [->|N]; [rewrite tanh_0'; lra|].
    assert (B := tanh_pos x ltac:(lra)). nra.
Qed.
Lemma exp_neg_le x : 0 <= x -> 1 - exp (- x) <= x.
Proof. intros H. assert (A := exp_ineq1_le (- x)). lra. Qed.
Lemma exp_neg_ge x : 0 <= x -> x - x * x / 2 <= 1 - exp (- x).
Proof.
  intros H. apply (grow (fun x => x - x * x / 2) (fun x => 1 - exp (- x)) (fun x => 1 - x) (fun x => exp (- x)) x H).
  - rewrite Ropp_0, exp_0. lra. - dr. - dr. - intros y Hy. assert (A := exp_ineq1_le (- y)). lra.
Qed.
Lemma Rpower_X T X : 0 < T -> 0 <= X -> X ^ 4 <= T ^ 5 -> X <= Rpower T (5 / 4).
Proof. intros HT HX H. rewrite <- Rpower_5_4 in H by auto. apply (pow_le_inv 3); [left; apply Rpower_pos|exact H]. Qed.
Lemma X_Rpower T X : 0 < T -> 0 <= X -> T ^ 5 <= X ^ 4 -> Rpower T (5 / 4) <= X.
Proof. intros HT HX H. rewrite <- Rpower_5_4 in H by auto. apply (pow_le_inv 3); auto. Qed.

Lemma near_small q : 0 < q <= 1 / 5 -> near q.
Proof.
  intros [H L]. assert (A := tanh_le_id q ltac:(lra)). assert (B := tanh_ge q ltac:(lra)). assert (C := tanh_pos q H).
  assert (HT : 0 < qth q) by (unfold qth; nra). set (t := tanh q) in *. set (T := qth q) in *.
  assert (ET : T = q * t) by reflexivity. set (x := Rpower T (5 / 4)) in *. assert (Hx : 0 < x) by apply Rpower_pos.
  assert (E4 : x ^ 4 = T ^ 5) by (apply Rpower_5_4; auto).
  assert (D1 := exp_neg_le x ltac:(lra)). assert (D2 := exp_neg_ge x ltac:(lra)). destruct (inner_pos T) as [I1 I2]. fold x in I1, I2.
  set (Y := 1 - exp (- x)) in *.
  assert (T5 : 0 < t ^ 5) by (apply pow_lt; auto).
  assert (XU : x <= 2 / 100).
  { apply (pow_le_inv 3); [lra|]. rewrite E4. apply Rle_trans with ((1 / 25) ^ 5); [|lra]. apply pow_incr. rewrite ET. nra. }
  assert (x2 : t ^ 5 <= x ^ 2).
  { apply (pow_le_inv 1); [apply pow_le; lra|]. replace ((x ^ 2) ^ 2) with (x ^ 4) by ring. rewrite E4, ET.
    replace ((t ^ 5) ^ 2) with ((t * t) ^ 5) by ring. apply pow_incr. nra. }
  assert (x3 : x ^ 2 <= (t / (99 / 100)) ^ 5).
  { apply (pow_le_inv 1); [apply pow_le; lra|]. replace ((x ^ 2) ^ 2) with (x ^ 4) by ring. rewrite E4, ET.
    replace (((t / (99 / 100)) ^ 5) ^ 2) with ((t / (99 / 100) * (t / (99 / 100))) ^ 5) by ring. apply pow_incr.
    split; [nra|]. assert (q * (1 - q * q / 3) <= t) by lra. assert (9801 / 10000 * q <= t) by nra. 
    replace (t / (99 / 100) * (t / (99 / 100))) with (t * t * (10000 / 9801)) by field. nra. }
  apply near_of; auto; fold t T x Y.
  - apply Rle_trans with ((98 / 100 * x) ^ 2); [|apply pow_incr; nra].
    replace ((t / (101 / 100)) ^ 5) with (t ^ 5 * (100 / 101) ^ 5) by (field). 
    replace ((98 / 100 * x) ^ 2) with (x ^ 2 * (98 / 100) ^ 2) by ring.
    apply Rmult_le_compat; lra.
  - apply Rle_trans with (x ^ 2); auto. apply pow_incr. lra.
Qed.

(** ** Large q *)
Lemma near_large q : 3 <= q -> near q.
Proof.
  intros H. assert (A := tanh_lt_1 q). assert (B := one_minus_tanh q).
  assert (E : exp (-2 * q) <= exp (-1) ^ 6).
  { replace (exp (-1) ^ 6) with (exp (-2 * 3)); [apply exp_mono; lra|].
    rewrite <- (Rpower_pow 6) by apply exp_pos. unfold Rpower. rewrite ln_exp. f_equal. cbn. lra. }
  destruct em1 as [e0 e1]. assert (E2 : exp (-1) ^ 6 <= (372 / 1000) ^ 6) by (apply pow_incr; lra).
  assert (T1 : 99 / 100 <= tanh q) by lra. assert (HT : 297 / 100 <= qth q) by (unfold qth; nra).
  destruct (inner_pos (qth q)) as [I1 I2].
  assert (X : 388 / 100 <= Rpower (qth q) (5 / 4)).
  { apply Rpower_X; try lra. apply Rle_trans with ((297 / 100) ^ 5); [lra|apply pow_incr; lra]. }
  assert (Y : 977 / 1000 <= 1 - exp (- Rpower (qth q) (5 / 4))).
  { assert (F : exp (- Rpower (qth q) (5 / 4)) <= exp (-1) ^ 3 * exp (- (88 / 100))).
    { replace (exp (-1) ^ 3) with (exp (-3)); [rewrite <- exp_plus; apply exp_mono; lra|].
      rewrite <- (Rpower_pow 3) by apply exp_pos. unfold Rpower. rewrite ln_exp. f_equal. cbn. lra. }
    assert (G : exp (-1) ^ 3 <= (372 / 1000) ^ 3) by (apply pow_incr; lra).
    assert (J : exp (- (88 / 100)) <= 1 / (2.38)).
    { rewrite exp_Ropp. assert (K := exp_lo4 (88 / 100) ltac:(lra)). apply (Rle_trans _ (/ 2.38)); [apply Rinv_le_contravar; lra|lra]. }
    assert (exp (-1) ^ 3 * exp (- (88 / 100)) <= 515 / 10000 * (1 / 2.38)) by (apply Rmult_le_compat; [apply pow_le; lra|left; apply exp_pos|lra|exact J]).
    lra. }
  apply near_of; [lra| |].
  - apply Rle_trans with ((1 / (101 / 100)) ^ 5); [apply pow_incr; split; [|]; try lra|].
    apply Rle_trans with ((977 / 1000) ^ 2); [lra|apply pow_incr; lra].
  - apply Rle_trans with (1 ^ 2); [apply pow_incr; lra|]. rewrite pow1, <- (pow1 5). apply pow_incr. lra.
Qed.

(** ** The middle range, by verified computation on a grid *)
Definition grid_point (n : Z) : Z := (n * 1048576)%Z.   (* n / 4096 *)
Definition upper_test (T t X Y : Z) : bool :=
  ((0 <=? T) && (0 <=? X) && (X * X * (X * X) * P <=? T ^ 5) && (0 <=? Y) && (100 ^ 5 * t ^ 5 <=? Y * Y * 101 ^ 5 * P ^ 3) &&
   (Y <? P) && (P * P <=? exp_lo X * (P - Y)))%Z.
Definition lower_test (T t X Y : Z) : bool :=
  ((0 <=? T) && (0 <=? t) && (0 <=? X) && (X <=? 100 * P) && (T ^ 5 <=? X * X * (X * X) * P) && (0 <=? Y) && (Y * Y * 99 ^ 5 * P ^ 3 <=? 100 ^ 5 * t ^ 5) &&
   ((P <=? Y) || (exp_hi X * (P - Y) <=? P * P)))%Z.
(** fixed point square root *)
Definition vsqrt (a : Z) : Z := Z.sqrt (a * P).
Definition pair_ok (n1 n2 : Z) : bool :=
  let q1 := grid_point n1 in let q2 := grid_point n2 in
  let tl := tanh_lo q1 in let th := tanh_hi q2 in
  let Tl := mul_lo q1 tl in let Th := mul_hi q2 th in
  let u1 := (th * 100 / 101 + 1)%Z in let u2 := (tl * 100 / 99)%Z in
  upper_test Tl th (mul_lo Tl (vsqrt (vsqrt Tl)) - 8) (mul_hi (mul_hi u1 u1) (vsqrt u1) + 8) &&
  lower_test Th tl (mul_hi Th (vsqrt (vsqrt Th)) + 8) (mul_lo (mul_lo u2 u2) (vsqrt u2) - 8).
Fixpoint chain (l : list Z) : bool :=
  match l with
  | n1 :: (n2 :: _) as r => ((0 <? n1) && (n2 <=? 204800))%Z && pair_ok n1 n2 && chain r
  | _ => true
  end.

Lemma v_grid n : v (grid_point n) = IZR n / 4096.
Proof.
  unfold v, grid_point. rewrite mult_IZR. unfold P. lra.
Qed.
Lemma prod5 p : 0 < p -> 0 < p * p * p * p * p.
Proof. intros H. repeat apply Rmult_lt_0_compat; auto. Qed.
Lemma IZR5 a : IZR (a ^ 5) = IZR a ^ 5.
Proof. change 5%Z with (Z.of_nat 5). symmetry. apply pow_IZR. Qed.
Lemma IZR3 a : IZR (a ^ 3) = IZR a ^ 3.
Proof. change 3%Z with (Z.of_nat 3). symmetry. apply pow_IZR. Qed.
Lemma quot5 (X T p : R) : 0 < p -> X * X * (X * X) * p <= T ^ 5 -> (X / p) ^ 4 <= (T / p) ^ 5.
Proof.
  intros Hp H. assert (Q := prod5 p Hp). apply (Rmult_le_reg_r (p * p * p * p * p)); auto.
  eapply Rle_trans; [right|eapply Rle_trans; [exact H|right]]; field; lra.
Qed.
Lemma quot5' (X T p : R) : 0 < p -> T ^ 5 <= X * X * (X * X) * p -> (T / p) ^ 5 <= (X / p) ^ 4.
Proof.
  intros Hp H. assert (Q := prod5 p Hp). apply (Rmult_le_reg_r (p * p * p * p * p)); auto.
  eapply Rle_trans; [right|eapply Rle_trans; [exact H|right]]; field; lra.
Qed.
Lemma quot2 (Y t p c : R) : 0 < p -> 0 < c -> 100 ^ 5 * t ^ 5 <= Y * Y * c ^ 5 * p ^ 3 -> ((t / p) / (c / 100)) ^ 5 <= (Y / p) ^ 2.
Proof.
  intros Hp Hc H. assert (Q := prod5 p Hp). assert (Q' := prod5 c Hc). apply (Rmult_le_reg_r (p * p * p * p * p * (c * c * c * c * c))); [nra|].
  eapply Rle_trans; [right|eapply Rle_trans; [exact H|right]]; field; lra.
Qed.
Lemma quot2' (Y t p c : R) : 0 < p -> 0 < c -> Y * Y * c ^ 5 * p ^ 3 <= 100 ^ 5 * t ^ 5 -> (Y / p) ^ 2 <= ((t / p) / (c / 100)) ^ 5.
Proof.
  intros Hp Hc H. assert (Q := prod5 p Hp). assert (Q' := prod5 c Hc). apply (Rmult_le_reg_r (p * p * p * p * p * (c * c * c * c * c))); [nra|].
  eapply Rle_trans; [right|eapply Rle_trans; [exact H|right]]; field; lra.
Qed.
Lemma rest_lo (E Y p : R) : 0 < p -> p * p <= E * (p - Y) -> 1 <= E / p * (1 - Y / p).
Proof.
  intros Hp H. apply (Rmult_le_reg_r (p * p)); [nra|]. eapply Rle_trans; [right|eapply Rle_trans; [exact H|right]]; field; lra.
Qed.
Lemma rest_hi (E Y p : R) : 0 < p -> E * (p - Y) <= p * p -> E / p * (1 - Y / p) <= 1.
Proof.
  intros Hp H. apply (Rmult_le_reg_r (p * p)); [nra|]. eapply Rle_trans; [right|eapply Rle_trans; [exact H|right]]; field; lra.
Qed.
Lemma upper_test_sound q1 q2 T t X Y q : 0 < v q1 -> v T <= v q1 * tanh (v q1) -> tanh (v q2) <= v t ->
  upper_test T t X Y = true -> v q1 <= q <= v q2 ->
  (tanh q / (101 / 100)) ^ 5 <= (1 - exp (- Rpower (qth q) (5 / 4))) ^ 2.
Proof.
  intros V1 Tm Th H [Q1 Q2]. unfold upper_test in H.
  rewrite !andb_true_iff in H. destruct H as [[[[[[K0 K1] K2] K3] K4] K5] K6].
  rewrite ?Z.leb_le, ?Z.ltb_lt in *.
  assert (Mq := tanh_mono (v q1) q Q1). assert (Mt := tanh_mono q (v q2) Q2).
  assert (Pt := tanh_pos (v q1) V1). assert (HT : v T <= qth q) by (unfold qth; nra).
  assert (TP : 0 < qth q) by (unfold qth; nra).
  assert (TN : 0 <= v T) by (apply v_nonneg; auto). assert (Q := P_pos).
  assert (XX : v X ^ 4 <= v T ^ 5).
  { apply quot5; auto. apply IZR_le in K2. rewrite IZR5, ?mult_IZR in K2. exact K2. }
  assert (XN : 0 <= v X) by (apply v_nonneg; auto).
  assert (XR : v X <= Rpower (qth q) (5 / 4)).
  { apply Rpower_X; auto. apply Rle_trans with (v T ^ 5); auto. apply pow_incr; lra. }
  assert (YY : (v t / (101 / 100)) ^ 5 <= v Y ^ 2).
  { apply quot2; auto; [lra|]. apply IZR_le in K4. rewrite ?mult_IZR, ?IZR5, ?IZR3 in K4. exact K4. }
  assert (YN : 0 <= v Y) by (apply v_nonneg; auto).
  assert (YE : v Y <= 1 - exp (- Rpower (qth q) (5 / 4))).
  { assert (EX := exp_lo_le X K1). assert (EP := exp_pos (v X)). 
    assert (Ka : 1 <= v (exp_lo X) * (1 - v Y)).
    { apply rest_lo; auto. apply IZR_le in K6. rewrite ?mult_IZR, minus_IZR in K6. exact K6. }
    assert (Y1 : v Y < 1). { rewrite <- v_P. unfold v. apply Rmult_lt_compat_r; [apply Rinv_0_lt_compat; auto|apply IZR_lt; auto]. }
    assert (Kb : 1 <= exp (v X) * (1 - v Y)) by nra.
    assert (exp (- Rpower (qth q) (5 / 4)) <= exp (- v X)) by (apply exp_mono; lra).
    assert (exp (- v X) <= 1 - v Y).
    { rewrite exp_Ropp. apply (Rmult_le_reg_l (exp (v X))); auto. rewrite Rinv_r by lra. exact Kb. }
    lra. }
  apply Rle_trans with (v Y ^ 2); [|apply pow_incr; lra]. apply Rle_trans with ((v t / (101 / 100)) ^ 5); auto.
  apply pow_incr. lra.
Qed.
Lemma lower_test_sound q1 q2 T t X Y q : 0 < v q1 -> v q2 * tanh (v q2) <= v T -> v t <= tanh (v q1) ->
  lower_test T t X Y = true -> v q1 <= q <= v q2 ->
  (1 - exp (- Rpower (qth q) (5 / 4))) ^ 2 <= (tanh q / (99 / 100)) ^ 5.
Proof.
  intros V1 Tm Th H [Q1 Q2]. unfold lower_test in H.
  rewrite !andb_true_iff in H. destruct H as [[[[[[[K0 K1] K2] K3] K4] K5] K6] K7].
  rewrite ?orb_true_iff, ?Z.leb_le, ?Z.ltb_lt in *.
  assert (Mq := tanh_mono (v q1) q Q1). assert (Mt := tanh_mono q (v q2) Q2).
  assert (Pt := tanh_pos (v q1) V1). assert (HT : qth q <= v T) by (unfold qth; nra).
  assert (TP : 0 < qth q) by (unfold qth; nra).
  destruct (inner_pos (qth q)) as [I1 I2].
  assert (Q := P_pos).
  assert (XX : v T ^ 5 <= v X ^ 4).
  { apply quot5'; auto. apply IZR_le in K4. rewrite IZR5, ?mult_IZR in K4. exact K4. }
  assert (XN : 0 <= v X) by (apply v_nonneg; auto).
  assert (XR : Rpower (qth q) (5 / 4) <= v X).
  { apply X_Rpower; auto. apply Rle_trans with (v T ^ 5); auto. apply pow_incr; lra. }
  assert (YY : v Y ^ 2 <= (v t / (99 / 100)) ^ 5).
  { apply quot2'; auto; [lra|]. apply IZR_le in K6. rewrite ?mult_IZR, ?IZR5, ?IZR3 in K6. exact K6. }
  assert (YN : 0 <= v Y) by (apply v_nonneg; auto). assert (TN : 0 <= v t) by (apply v_nonneg; auto).
  assert (YE : 1 - exp (- Rpower (qth q) (5 / 4)) <= v Y).
  { destruct K7 as [K7|K7].
    - apply v_le in K7. rewrite v_P in K7. lra.
    - assert (EX := exp_hi_le X K2 K3). assert (EP := exp_pos (v X)). 
      assert (Ka : v (exp_hi X) * (1 - v Y) <= 1).
      { apply rest_hi; auto. apply IZR_le in K7. rewrite ?mult_IZR, minus_IZR in K7. exact K7. }
      assert (exp (- v X) <= exp (- Rpower (qth q) (5 / 4))) by (apply exp_mono; lra).
      assert (1 - v Y <= exp (- v X)).
      { rewrite exp_Ropp. apply (Rmult_le_reg_l (exp (v X))); auto. rewrite Rinv_r by lra. 
        destruct (Rle_or_lt (v Y) 1); nra. }
      lra. }
  apply Rle_trans with (v Y ^ 2); [apply pow_incr; lra|]. apply Rle_trans with ((v t / (99 / 100)) ^ 5); auto.
  apply pow_incr. lra.
Qed.

Lemma grid_facts n1 n2 q : (0 < n1)%Z -> (n2 <= 204800)%Z -> IZR n1 / 4096 <= q <= IZR n2 / 4096 ->
  (0 <= grid_point n1)%Z /\ 0 < v (grid_point n1) /\ 0 < v (grid_point n2) /\ (0 <= grid_point n2 <= 50 * P)%Z /\ v (grid_point n1) <= q <= v (grid_point n2).
Proof.
  intros H1 H2 HQ. rewrite !v_grid. apply IZR_lt in H1 as H1'. assert (0 < n2)%Z by (apply lt_IZR; lra). apply IZR_lt in H as H'.
  unfold grid_point, P. repeat split; try lia; try lra.
Qed.
Lemma pair_sound n1 n2 q : (0 < n1)%Z -> (n2 <= 204800)%Z -> pair_ok n1 n2 = true -> IZR n1 / 4096 <= q <= IZR n2 / 4096 -> near q.
Proof.
  intros H1 H2 H HQ. destruct (grid_facts n1 n2 q H1 H2 HQ) as (G1 & V1 & V2 & [G2 G3] & HQ').
  unfold pair_ok in H. cbv zeta in H. apply andb_true_iff in H. destruct H as [A B]. apply near_of; [lra| |].
  - eapply upper_test_sound; [exact V1| | |exact A|exact HQ'].
    + eapply Rle_trans; [apply mul_lo_le|]. apply Rmult_le_compat_l; [lra|]. apply tanh_lo_le; auto.
    + apply tanh_hi_le; auto.
  - eapply lower_test_sound; [exact V1| | |exact B|exact HQ'].
    + eapply Rle_trans; [|apply mul_hi_le]. apply Rmult_le_compat_l; [lra|]. apply tanh_hi_le; auto.
    + apply tanh_lo_le; auto.
Qed.
Lemma chain_sound l : chain l = true -> forall n0 q, hd_error l = Some n0 -> IZR n0 / 4096 <= q <= IZR (last l 0%Z) / 4096 ->
  (2 <= length l)%nat -> near q.
Proof.
  induction l as [|n1 [|n2 l] IH]; intros H n0 q E Hq Hl; cbn in Hl; try lia.
  cbn in E. assert (n1 = n0) by congruence. subst n1. cbn [chain] in H.
  repeat match goal with K : _ && _ = true |- _ => apply andb_true_iff in K; destruct K end. rewrite ?Z.leb_le, ?Z.ltb_lt in *.
  destruct (Rle_or_lt q (IZR n2 / 4096)) as [L|L].
  - apply (pair_sound n0 n2); auto; lra.
  - destruct l as [|n3 l].
    + cbn in Hq. lra.
    + apply (IH ltac:(assumption) n2 q eq_refl).
      * change (last (n0 :: n2 :: n3 :: l) 0%Z) with (last (n2 :: n3 :: l) 0%Z) in Hq. lra.
      * cbn. lia.
Qed.
Definition grid : list Z := [
819; 824; 829; 834; 839; 844; 849; 854; 859; 864; 869; 874; 879; 885; 891; 897; 903; 909; 915; 921; 927; 933; 939; 945; 951; 957; 963; 969; 975; 981;
987; 993; 999; 1005; 1011; 1017; 1023; 1029; 1035; 1041; 1047; 1053; 1059; 1065; 1071; 1077; 1083; 1089; 1095; 1101; 1107; 1113; 1119; 1125; 1131;
1137; 1143; 1149; 1155; 1161; 1167; 1173; 1179; 1185; 1191; 1197; 1203; 1209; 1215; 1221; 1227; 1233; 1239; 1245; 1251; 1257; 1263; 1269; 1275; 1281;
1287; 1293; 1299; 1305; 1311; 1317; 1323; 1329; 1335; 1341; 1347; 1353; 1359; 1365; 1371; 1377; 1383; 1389; 1395; 1401; 1407; 1413; 1419; 1425; 1431;
1437; 1443; 1449; 1455; 1461; 1467; 1473; 1478; 1483; 1488; 1493; 1498; 1503; 1508; 1513; 1518; 1523; 1528; 1533; 1538; 1543; 1548; 1553; 1558; 1563;
1568; 1573; 1578; 1583; 1588; 1593; 1598; 1603; 1608; 1613; 1618; 1623; 1628; 1633; 1638; 1643; 1648; 1653; 1658; 1663; 1668; 1673; 1678; 1683; 1688;
1693; 1698; 1703; 1708; 1713; 1718; 1723; 1728; 1733; 1738; 1743; 1748; 1753; 1758; 1763; 1768; 1773; 1778; 1783; 1788; 1793; 1798; 1803; 1808; 1813;
1818; 1823; 1828; 1833; 1838; 1843; 1848; 1853; 1858; 1863; 1868; 1873; 1878; 1883; 1888; 1893; 1898; 1903; 1908; 1913; 1918; 1923; 1928; 1933; 1938;
1943; 1948; 1953; 1958; 1963; 1968; 1973; 1978; 1983; 1988; 1993; 1998; 2003; 2008; 2013; 2018; 2023; 2028; 2033; 2038; 2043; 2048; 2053; 2058; 2063;
2068; 2073; 2078; 2083; 2088; 2093; 2098; 2103; 2108; 2113; 2118; 2123; 2128; 2133; 2138; 2143; 2148; 2153; 2158; 2163; 2168; 2173; 2178; 2183; 2188;
2193; 2198; 2203; 2208; 2213; 2218; 2223; 2228; 2233; 2238; 2243; 2248; 2253; 2258; 2263; 2268; 2273; 2278; 2283; 2288; 2293; 2298; 2304; 2310; 2316;
2322; 2328; 2334; 2340; 2346; 2352; 2358; 2364; 2370; 2376; 2382; 2388; 2394; 2400; 2406; 2412; 2418; 2424; 2430; 2436; 2442; 2448; 2454; 2460; 2466;
2472; 2478; 2484; 2491; 2498; 2505; 2512; 2519; 2526; 2533; 2540; 2547; 2554; 2561; 2568; 2575; 2582; 2589; 2596; 2603; 2611; 2619; 2627; 2635; 2643;
2651; 2659; 2667; 2675; 2683; 2691; 2699; 2708; 2717; 2726; 2735; 2744; 2753; 2762; 2771; 2781; 2791; 2801; 2811; 2821; 2831; 2841; 2852; 2863; 2874;
2885; 2896; 2907; 2919; 2931; 2943; 2955; 2968; 2981; 2994; 3007; 3021; 3035; 3049; 3063; 3078; 3093; 3108; 3124; 3140; 3157; 3174; 3191; 3209; 3227;
3246; 3265; 3285; 3306; 3327; 3349; 3372; 3395; 3419; 3444; 3470; 3497; 3525; 3554; 3584; 3616; 3649; 3684; 3720; 3758; 3798; 3840; 3884; 3931; 3981;
4034; 4090; 4150; 4214; 4283; 4357; 4438; 4526; 4622; 4719; 4816; 4913; 5010; 5107; 5204; 5301; 5398; 5495; 5592; 5688; 5784; 5880; 5976; 6072; 6167;
6263; 6359; 6455; 6552; 6649; 6747; 6847; 6948; 7051; 7157; 7266; 7378; 7495; 7617; 7746; 7883; 8031; 8192; 8370; 8570; 8801; 9075; 9414; 9860; 10509;
11669; 12288]%Z.
Lemma grid_ok : chain grid = true.
Proof. vm_compute. reflexivity. Qed.
Lemma start_near q : 0 < q -> near q.
Proof.
  intros H. destruct (Rle_or_lt q (1 / 5)) as [A|A]; [apply near_small; lra|].
  destruct (Rle_or_lt 3 q) as [B|B]; [apply near_large; lra|].
  apply (chain_sound grid grid_ok 819%Z q eq_refl); [|cbn; lia].
  change (last grid 0%Z) with 12288%Z. lra.
Qed.
