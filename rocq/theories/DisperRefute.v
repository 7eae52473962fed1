(** * disper does not reach the documented relative error of 2.5e-16 (C45), even in exact arithmetic *)

From Coq Require Import ZArith Reals Lra Lia List Bool.
From Coquelicot Require Import Coquelicot.
From Verif Require Import Num XR Engine DisperModel Spec XRFacts EngineProps TimeProps TanhFacts ExpBounds DisperStart DisperStep DisperProps.
Import ListNotations.
Open Scope R_scope.

Lemma qth_taylor_signed q d m rho : (forall z, Rmin q (q + d) <= z <= Rmax q (q + d) -> Rabs (2 * fa3 z - m) <= rho) ->
  Rabs (qth (q + d) - (qth q + fb q * d + fa q * (d * d)) - m * (d * d * d) / 6) <= rho * Rabs d ^ 3 / 6.
Proof.
  intros H.
  assert (T := taylor3 (fun x => qth x - m * ((x - q) * (x - q) * (x - q)) / 6) (fun x => fb x - m * ((x - q) * (x - q)) / 2)
     (fun x => 2 * fa x - m * (x - q)) (fun x => 2 * fa3 x - m) q (q + d) rho).
  cbv beta in T. replace (q + d - q) with d in T by ring.
  replace (qth (q + d) - (qth q + fb q * d + fa q * (d * d)) - m * (d * d * d) / 6) with
    (qth (q + d) - m * (d * d * d) / 6 - (qth q - m * ((q - q) * (q - q) * (q - q)) / 6) - (fb q - m * ((q - q) * (q - q)) / 2) * d - (2 * fa q - m * (q - q)) * (d * d) / 2) by field.
  apply T; auto.
  - intros z. auto_derive; [repeat split; auto; eexists; apply qth_derive|].
    replace (Derive (fun x => qth x) z) with (fb z) by (symmetry; apply is_derive_unique, qth_derive). field.
  - intros z. auto_derive; [repeat split; auto; eexists; apply fb_derive|].
    replace (Derive (fun x => fb x) z) with (2 * fa z) by (symmetry; apply is_derive_unique, fb_derive). field.
  - intros z. auto_derive; [repeat split; auto; eexists; apply fa_derive|].
    replace (Derive (fun x => fa x) z) with (fa3 z) by (symmetry; apply is_derive_unique, fa_derive). ring.
Qed.

(** enclosures near the solution for w^2 h / g = 1/2 *)
Lemma tanh_between a b la ub : (0 <= a)%Z -> (0 <= b <= 50 * P)%Z -> (la <=? tanh_lo a)%Z = true -> (tanh_hi b <=? ub)%Z = true ->
  forall q, v a <= q <= v b -> v la <= tanh q <= v ub.
Proof.
  intros Ha [Hb1 Hb2] A B q [Q1 Q2]. apply Z.leb_le in A, B. apply v_le in A, B. assert (X := tanh_lo_le a Ha). assert (Y := tanh_hi_le b Hb1 Hb2).
  assert (M1 := tanh_mono _ _ Q1). assert (M2 := tanh_mono _ _ Q2). lra.
Qed.

Lemma vv n : v n = IZR n / 4294967296.
Proof. reflexivity. Qed.
Lemma tanh_wide q : 766 / 1000 <= q <= 773 / 1000 -> 6445 / 10000 <= tanh q <= 6488 / 10000.
Proof.
  intros H. assert (A := tanh_between 3289944948 3320009720 2768525000 2786018800 ltac:(lia) ltac:(unfold P; lia) eq_refl eq_refl q).
  rewrite !vv in A. lra.
Qed.
Definition r0 (r : R) : Prop := 0 < r /\ qth r = 1 / 2.
Lemma r_enclosure r : r0 r -> 77169 / 100000 <= r <= 77171 / 100000.
Proof.
  intros [H E].
  assert (A := tanh_between 3314383312 3314383313 2782756000 2782757500 ltac:(lia) ltac:(unfold P; lia) eq_refl eq_refl (77169 / 100000)).
  assert (B := tanh_between 3314469211 3314469212 2782806000 2782807500 ltac:(lia) ltac:(unfold P; lia) eq_refl eq_refl (77171 / 100000)).
  rewrite !vv in A, B. split.
  - destruct (Rle_or_lt (77169 / 100000) r) as [L|L]; auto. exfalso. apply qth_lt in L; [|lra]. rewrite E in L. unfold qth in L. lra.
  - destruct (Rle_or_lt r (77171 / 100000)) as [L|L]; auto. exfalso. apply qth_lt in L; [|lra]. rewrite E in L. unfold qth in L. lra.
Qed.
Lemma start_enclosure : 76687 / 100000 <= start (1 / 2) <= 76689 / 100000.
Proof.
  assert (X1 : 42044800008 / 100000000000 <= Rpower (1 / 2) (5 / 4)) by (apply Rpower_X; lra).
  assert (X2 : Rpower (1 / 2) (5 / 4) <= 420449 / 1000000) by (apply X_Rpower; lra).
  assert (E1 : 15226 / 10000 + 3 / 100000 <= exp (Rpower (1 / 2) (5 / 4))).
  { apply Rle_trans with (v (exp_lo 1805810410)).
    - apply Rle_trans with (v 6539650000); [rewrite vv; lra|]. apply v_le. apply Z.leb_le. reflexivity.
    - eapply Rle_trans; [apply exp_lo_le; lia|]. apply exp_mono. rewrite vv. lra. }
  assert (E2 : exp (Rpower (1 / 2) (5 / 4)) <= 15226 / 10000 + 6 / 100000).
  { apply Rle_trans with (v (exp_hi 1805814705)).
    - eapply Rle_trans; [|apply exp_hi_le; unfold P; lia]. apply exp_mono. rewrite vv. lra.
    - apply Rle_trans with (v 6539750000); [|rewrite vv; lra]. apply v_le. apply Z.leb_le. reflexivity. }
  unfold start. destruct (inner_pos (1 / 2)) as [I1 I2]. set (x := Rpower (1 / 2) (5 / 4)) in *. set (A := 1 - exp (- x)) in *.
  assert (AA : A = 1 - / exp x) by (unfold A; rewrite exp_Ropp; reflexivity).
  assert (AL : 343237 / 1000000 <= A).
  { rewrite AA. assert (/ exp x <= / (15226 / 10000 + 3 / 100000)) by (apply Rinv_le_contravar; lra).
    assert (/ (15226 / 10000 + 3 / 100000) <= 656763 / 1000000) by lra. lra. }
  assert (AU : A <= 343256 / 1000000).
  { rewrite AA. assert (/ (15226 / 10000 + 6 / 100000) <= / exp x) by (apply Rinv_le_contravar; lra).
    assert (656744 / 1000000 <= / (15226 / 10000 + 6 / 100000)) by lra. lra. }
  assert (B5 := Rpower_2_5 A I1). assert (Bp := Rpower_pos A (2 / 5)). set (B := Rpower A (2 / 5)) in *.
  assert (BL : (1 / 2) / (76689 / 100000) <= B).
  { apply (pow_le_inv 4); [lra|]. rewrite B5. apply Rle_trans with ((343237 / 1000000) ^ 2); [lra|apply pow_incr; lra]. }
  assert (BU : B <= (1 / 2) / (76687 / 100000)).
  { apply (pow_le_inv 4); [lra|]. rewrite B5. apply Rle_trans with ((343256 / 1000000) ^ 2); [apply pow_incr; lra|lra]. }
  split; apply (Rmult_le_reg_r B); auto; unfold Rdiv; rewrite ?(Rmult_assoc _ (/ B)), ?Rinv_l by lra; lra.
Qed.
Lemma derivs q : 766 / 1000 <= q <= 773 / 1000 ->
  1088 / 1000 <= fb q <= 1101 / 1000 /\ 2886 / 10000 <= fa q <= 2961 / 10000 /\ Rabs (2 * fa3 q - - (203 / 100)) <= 32 / 1000.
Proof.
  intros H. assert (T := tanh_wide q H). unfold fa, fb, fa3. set (t := tanh q) in *. clearbody t.
  assert (T2 : 41538 / 100000 <= t * t <= 42095 / 100000) by nra. set (s := 1 - t * t) in *.
  assert (S : 57905 / 100000 <= s <= 58462 / 100000) by (unfold s; lra). set (u := t * t) in *. clearbody s u.
  assert (QT : 49368 / 100000 <= q * t <= 50153 / 100000) by nra.
  assert (QS : 44355 / 100000 <= q * s <= 45192 / 100000) by nra.
  assert (QU : 63636 / 100000 <= 2 * q * u <= 65080 / 100000) by nra.
  assert (I : - (176197 / 100000) <= 2 * q * u - 3 * t - q * s <= - (172624 / 100000)) by lra. set (i := 2 * q * u - 3 * t - q * s) in *. clearbody i.
  split; [lra|]. split; [nra|]. apply Rabs_le. nra.
Qed.

Lemma lag_error r : r0 r -> 25 / 100000000000000000 * r < rq (1 / 2) - r.
Proof.
  intros H. assert (Er := r_enclosure r H). destruct H as [Hr E]. destruct (rq_error r Hr) as (W0 & W1 & _). rewrite E in W0, W1.
  assert (Es := start_enclosure). unfold rq. set (q0 := start (1 / 2)) in *. clearbody q0.
  assert (CC := rcorr_cases (1 / 2) q0).
  destruct (corr_props (1 / 100) r q0 (rcorr (1 / 2) q0) Hr ltac:(lra) W0) as [_ RES].
  { rewrite E. exact CC. }
  clear CC. rewrite E in RES. set (d := rcorr (1 / 2) q0) in *. unfold rstep at 2. unfold rstep in W1 at 1. fold d in W1 |- *. set (q1 := q0 + d) in *.
  assert (R1 := W1). apply Rabs_le_between in R1.
  assert (D : 47994 / 10000000 <= d <= 48406 / 10000000) by (unfold q1 in R1; lra).
  destruct (derivs q0 ltac:(lra)) as (B0 & A0 & _). 
  assert (T := qth_taylor_signed q0 d (- (203 / 100)) (32 / 1000)). fold q1 in T.
  assert (T' := T ltac:(intros z Hz; rewrite Rmin_left, Rmax_right in Hz by (unfold q1; lra); apply derivs; unfold q1 in *; lra)). clear T.
  rewrite (Rabs_pos_eq d) in T', RES by lra. unfold fc in RES. apply Rabs_le_between in T', RES.
  assert (D2 : 230342 / 10000000000 <= d * d <= 234315 / 10000000000) by nra.
  assert (D3 : 11054 / 100000000000 <= d * d * d <= 11343 / 100000000000) by nra.
  replace (d ^ 3) with (d * d * d) in T' by ring. set (d3 := d * d * d) in *. clearbody d3.
  assert (BD : fb q0 * d <= 54 / 10000) by nra.
  assert (C1 : - (391 / 10000000000) <= fc (1 / 2) q1 <= - (367 / 10000000000)) by (unfold fc; lra).
  clear T' RES. set (c := fc (1 / 2) q1) in *.
  assert (Hq1 : 7716 / 10000 <= q1 <= 7718 / 10000) by lra. destruct (derivs q1 ltac:(lra)) as (B1 & A1 & _).
  unfold rstep, rcorr. fold c. set (b := fb q1) in *. set (a := fa q1) in *.
  rewrite (Rltb_true _ _).
  2:{ rewrite Rabs_left by nra. assert (1183744 / 1000000 <= b * b) by nra. nra. }
  unfold corr_lin. fold c b. set (e := - c / b).
  assert (Ee : e * b = - c) by (unfold e; field; lra).
  assert (E1 : 333 / 10000000000 <= e <= 360 / 10000000000).
  { split; apply (Rmult_le_reg_r b); try lra; rewrite Ee; nra. }
  assert (T2 := qth_taylor q1 e (21 / 10)). fold a b in T2.
  assert (T3 := T2 ltac:(intros z Hz; rewrite Rmin_left, Rmax_right in Hz by lra; destruct (derivs z ltac:(lra)) as (_ & _ & X); apply Rabs_le_between in X; rewrite Rabs_left by lra; lra)).
  clear T2. rewrite (Rabs_pos_eq e) in T3 by lra. apply Rabs_le_between in T3.
  assert (X2 : 110889 / 100000000000000000000 <= e * e <= 1296 / 1000000000000000000) by nra.
  assert (X3 : e ^ 3 <= 1 / 10000000000000000000000) by (replace (e ^ 3) with (e * (e * e)) by ring; nra).
  assert (X4 : 2886 / 10000 * (110889 / 100000000000000000000) <= a * (e * e)) by (apply Rmult_le_compat; lra).
  assert (F : 31 / 100000000000000000 <= qth (q1 + e) - 1 / 2).
  { unfold c, fc in Ee. rewrite (Rmult_comm e b) in Ee. lra. }
  destruct (Rle_or_lt (q1 + e) r) as [L|L].
  - exfalso. assert (qth (q1 + e) <= qth r); [|lra]. destruct L as [L|L]; [left; apply qth_lt; lra|rewrite L; lra].
  - destruct (qth_mvt' r (q1 + e)) as (z & Hz & M). rewrite Rmin_left, Rmax_right in Hz by lra. rewrite E in M.
    destruct (derivs z ltac:(lra)) as (Bz & _ & _). nra.
Qed.

(** With w = 1 rad/s, h = 4.905 m and the default g = 9.81 m/s2 (kh = 0.77) the relative error is larger than documented *)
Theorem C45_documented_accuracy_refuted : exists w h k x, 0 < h /\ solves w h 9.81 k /\
  disper (N:=NX) (Scalar (Fin w)) (Fin h) (Fin 9.81) = Ok (F [x]) /\ ~ relative_error (25 / 100000000000000000) k x.
Proof.
  destruct (qth_root (1 / 2) ltac:(lra)) as (r & Hr & E). assert (L := lag_error r (conj Hr E)).
  exists 1, 4.905, (r / 4.905), (rk 4.905 9.81 1). assert (P : 0 < r / 4.905) by lra. split; [lra|]. split; [|split].
  - split; [|lra]. apply solves_iff; try lra. rewrite Rabs_pos_eq by lra. replace (r / 4.905 * 4.905) with r by lra. rewrite E. lra.
  - apply disper_scalar; lra.
  - unfold rk. rewrite rsign_pos by lra. replace (1 * 1 * 4.905 / 9.81) with (1 / 2) by lra. unfold rclamp. rewrite Rltb_false by lra.
    intros X. unfold relative_error in X. rewrite (Rabs_pos_eq (r / 4.905)) in X by lra. apply Rabs_le_between in X. lra.
Qed.
