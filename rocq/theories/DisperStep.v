(** * One pass of the dispersion iteration: how it reduces the error *)

From Coq Require Import Reals Lra Lia.
From Coquelicot Require Import Coquelicot.
From Verif Require Import TanhFacts ExpBounds.
Open Scope R_scope.

(** ** Taylor's formula with a cubic remainder, on either side *)
Lemma taylor3 (f f1 f2 f3 : R -> R) (x y M : R) :
  (forall z, is_derive f z (f1 z)) -> (forall z, is_derive f1 z (f2 z)) -> (forall z, is_derive f2 z (f3 z)) ->
  (forall z, Rmin x y <= z <= Rmax x y -> Rabs (f3 z) <= M) ->
  Rabs (f y - f x - f1 x * (y - x) - f2 x * ((y - x) * (y - x)) / 2) <= M * Rabs (y - x) ^ 3 / 6.
Proof.
  intros D D1 D2 HM.
  assert (K : forall s : R, exists z, Rmin x y <= z <= Rmax x y /\
     - (f y - f x - f1 x * (y - x) - f2 x * ((y - x) * (y - x)) / 2 - s * M * ((y - x) * (y - x) * (y - x)) / 6)
      = ((s * M - f3 z) * ((y - z) * (y - z)) / 2) * (y - x)).
  { intros s.
    set (h := fun z => f y - f z - f1 z * (y - z) - f2 z * ((y - z) * (y - z)) / 2 - s * M * ((y - z) * (y - z) * (y - z)) / 6).
    assert (Dh : forall z, is_derive h z ((s * M - f3 z) * ((y - z) * (y - z)) / 2)).
    { intros z. unfold h. auto_derive.
      - repeat split; auto; eexists; eauto.
      - replace (Derive (fun x0 => f x0) z) with (f1 z) by (symmetry; apply is_derive_unique, D).
        replace (Derive (fun x0 => f1 x0) z) with (f2 z) by (symmetry; apply is_derive_unique, D1).
        replace (Derive (fun x0 => f2 x0) z) with (f3 z) by (symmetry; apply is_derive_unique, D2). field. }
    destruct (MVT_gen h x y (fun z => (s * M - f3 z) * ((y - z) * (y - z)) / 2)) as (z & Hz & E).
    - intros z _. apply Dh.
    - intros z _. apply continuity_pt_filterlim, (ex_derive_continuous h z). eexists. apply Dh.
    - exists z. split; [exact Hz|]. rewrite <- E. unfold h. field. }
  destruct (K 1) as (z1 & H1 & E1). destruct (K (-1)) as (z2 & H2 & E2).
  assert (B1 := HM z1 H1). assert (B2 := HM z2 H2). apply Rabs_le_between in B1, B2.
  set (g := f y - f x - f1 x * (y - x) - f2 x * ((y - x) * (y - x)) / 2) in *. clearbody g.
  assert (P1 : 0 <= (M - f3 z1) * ((y - z1) * (y - z1)) / 2) by (assert (0 <= (y - z1) * (y - z1)) by apply Rle_0_sqr; assert (0 <= M - f3 z1) by lra; nra).
  assert (P2 : 0 <= (M + f3 z2) * ((y - z2) * (y - z2)) / 2) by (assert (0 <= (y - z2) * (y - z2)) by apply Rle_0_sqr; assert (0 <= M + f3 z2) by lra; nra).
  replace ((1 * M - f3 z1) * ((y - z1) * (y - z1)) / 2) with ((M - f3 z1) * ((y - z1) * (y - z1)) / 2) in E1 by field.
  replace ((-1 * M - f3 z2) * ((y - z2) * (y - z2)) / 2) with (- ((M + f3 z2) * ((y - z2) * (y - z2)) / 2)) in E2 by field.
  set (p1 := (M - f3 z1) * ((y - z1) * (y - z1)) / 2) in *. set (p2 := (M + f3 z2) * ((y - z2) * (y - z2)) / 2) in *. clearbody p1 p2.
  destruct (Rle_or_lt 0 (y - x)) as [S|S].
  - rewrite (Rabs_pos_eq (y - x)) by lra. apply Rabs_le. replace ((y - x) ^ 3) with ((y - x) * (y - x) * (y - x)) by ring.
    assert (0 <= p1 * (y - x)) by nra. assert (0 <= p2 * (y - x)) by nra. lra.
  - rewrite (Rabs_left (y - x)) by lra. apply Rabs_le. replace ((- (y - x)) ^ 3) with (- ((y - x) * (y - x) * (y - x))) by ring.
    assert (p1 * (y - x) <= 0) by nra. assert (p2 * (y - x) <= 0) by nra. lra.
Qed.

(** ** The derivatives of q tanh q *)
Definition fb (q : R) : R := tanh q + q * (1 - tanh q * tanh q).
Definition fa (q : R) : R := (1 - q * tanh q) * (1 - tanh q * tanh q).
Definition fa3 (q : R) : R := (1 - tanh q * tanh q) * (2 * q * (tanh q * tanh q) - 3 * tanh q - q * (1 - tanh q * tanh q)).
Lemma fb_derive q : is_derive fb q (2 * fa q).
Proof.
  unfold fb, fa. auto_derive.
  - assert (E : ex_derive tanh q) by (eexists; apply tanh_derive). repeat split; auto.
  - replace (Derive (fun x => tanh x) q) with (1 - tanh q * tanh q) by (symmetry; apply is_derive_unique, tanh_derive). ring.
Qed.
Lemma fa_derive q : is_derive fa q (fa3 q).
Proof.
  unfold fa, fa3. auto_derive.
  - assert (E : ex_derive tanh q) by (eexists; apply tanh_derive). repeat split; auto.
  - replace (Derive (fun x => tanh x) q) with (1 - tanh q * tanh q) by (symmetry; apply is_derive_unique, tanh_derive). ring.
Qed.
Lemma fb_pos q : 0 < q -> 0 < fb q.
Proof. intros H. unfold fb. assert (A := tanh_pos q H). assert (B := tanh_sq_pos q). nra. Qed.
Lemma sinh_ge q : 0 <= q -> q <= sinh q.
Proof.
  intros H. apply (grow (fun x => x) sinh (fun _ => 1) cosh q H).
  - unfold sinh. rewrite Ropp_0. lra.
  - dr.
  - intros x. unfold sinh, cosh. auto_derive; auto. field.
  - intros x _. unfold cosh. assert (A := exp_ineq1_le x). assert (B := exp_ineq1_le (- x)). lra.
Qed.
Lemma cosh_ge q : 0 <= q -> 1 + q * q / 2 <= cosh q.
Proof.
  intros H. apply (grow (fun x => 1 + x * x / 2) cosh (fun x => x) sinh q H).
  - unfold cosh. rewrite Ropp_0, exp_0. lra.
  - dr.
  - intros x. unfold sinh, cosh. auto_derive; auto. field.
  - intros x Hx. apply sinh_ge. lra.
Qed.
Lemma q2s q : 0 <= q -> q * q * (1 - tanh q * tanh q) <= 1 / 2.
Proof.
  intros H. rewrite tanh_sq. assert (A := cosh_ge q H). assert (B := cosh_pos q).
  apply (Rmult_le_reg_r (cosh q * cosh q)); [nra|]. rewrite Rmult_assoc, Rinv_l by nra.
  assert ((1 + q * q / 2) * (1 + q * q / 2) <= cosh q * cosh q) by (apply Rmult_le_compat; nra).
  assert (0 <= (1 - q * q / 2) * (1 - q * q / 2)) by apply Rle_0_sqr. lra.
Qed.
Lemma q3s q : 0 <= q -> q * q * q * (1 - tanh q * tanh q) <= 3 / 4.
Proof.
  intros H. assert (S := tanh_sq_le q). assert (X := xe_bound (2 * q / 3)). destruct em1 as [e0 e1].
  set (y := exp (- (2 * q / 3))) in *. assert (Y : 0 < y) by apply exp_pos.
  assert (E : exp (-2 * q) = y * y * y) by (unfold y; rewrite <- !exp_plus; f_equal; field). rewrite E in S.
  assert (Z0 : 0 <= 2 * q / 3 * y) by nra. set (z := 2 * q / 3 * y) in *.
  assert (Z1 : z <= 372 / 1000) by lra. assert (Z2 : z * z <= 372 / 1000 * (372 / 1000)) by (apply Rmult_le_compat; lra).
  assert (Z3 : z * z * z <= 372 / 1000 * (372 / 1000) * (372 / 1000)) by (apply Rmult_le_compat; nra).
  assert (0 <= q * q * q) by (repeat apply Rmult_le_pos; auto).
  apply Rle_trans with (q * q * q * (4 * (y * y * y))); [apply Rmult_le_compat_l; lra|].
  replace (q * q * q * (4 * (y * y * y))) with (27 / 2 * (z * z * z)) by (unfold z; field). lra.
Qed.
Lemma fa_bound q : 0 < q -> Rabs (fa q) * q <= fb q.
Proof.
  intros H. unfold fa, fb. assert (A := tanh_pos q H). assert (B := tanh_sq_pos q). assert (C := q2s q ltac:(lra)). assert (D := tanh_lt_1 q).
  set (t := tanh q) in *. set (s := 1 - t * t) in *. clearbody t. clearbody s. rewrite Rabs_mult, (Rabs_pos_eq s) by lra.
  destruct (Rle_or_lt 0 (1 - q * t)) as [L|L].
  - rewrite Rabs_pos_eq by lra. assert (0 <= q * t * (s * q)) by (apply Rmult_le_pos; nra). nra.
  - rewrite Rabs_left by lra. assert (t * (q * q * s) <= t * (1 / 2)) by (apply Rmult_le_compat_l; lra). nra.
Qed.
Lemma fa3_bound q : 0 < q -> Rabs (fa3 q) * (q * q) <= 3 / 2 * fb q.
Proof.
  intros H. unfold fa3, fb. assert (A := tanh_pos q H). assert (B := tanh_sq_pos q). assert (C := q2s q ltac:(lra)).
  assert (C3 := q3s q ltac:(lra)). assert (D := tanh_lt_1 q).
  set (t := tanh q) in *. set (s := 1 - t * t) in *. clearbody t. clearbody s. rewrite Rabs_mult, (Rabs_pos_eq s) by lra.
  assert (Q : 0 < q * q) by nra.
  assert (N1 : s * (3 * t + q * s) * (q * q) <= 3 / 2 * (t + q * s)).
  { replace (s * (3 * t + q * s) * (q * q)) with (q * q * s * (3 * t + q * s)) by ring.
    apply Rle_trans with (1 / 2 * (3 * t + q * s)); [apply Rmult_le_compat_r; nra|nra]. }
  assert (N2 : s * (2 * q * (t * t)) * (q * q) <= 3 / 2 * (t + q * s)).
  { replace (s * (2 * q * (t * t)) * (q * q)) with (2 * (t * t) * (q * q * q * s)) by ring.
    apply Rle_trans with (2 * (t * t) * (3 / 4)); [apply Rmult_le_compat_l; nra|nra]. }
  assert (N3 : 0 <= s * (2 * q * (t * t)) * (q * q)) by (repeat apply Rmult_le_pos; nra).
  assert (N4 : 0 <= s * (3 * t + q * s) * (q * q)) by (repeat apply Rmult_le_pos; nra).
  rewrite <- (Rabs_pos_eq s) by lra. rewrite <- Rabs_mult. rewrite (Rabs_pos_eq s) at 1 by lra.
  rewrite <- (Rabs_pos_eq (q * q)) by lra. rewrite <- Rabs_mult. apply Rabs_le. rewrite ?(Rabs_pos_eq s) by lra. lra.
Qed.
(** f' changes by at most the square of the ratio of the arguments *)
Lemma fb_up x y : 0 < x -> x <= y -> fb x * (x * x) <= fb y * (y * y).
Proof.
  intros P L. destruct (MVT_gen (fun q => fb q * (q * q)) x y (fun q => 2 * fa q * (q * q) + fb q * (2 * q))) as (z & Hz & E).
  - intros z _. auto_derive; [repeat split; auto; eexists; apply fb_derive|].
    replace (Derive (fun x0 => fb x0) z) with (2 * fa z) by (symmetry; apply is_derive_unique, fb_derive). ring.
  - intros z _. apply continuity_pt_filterlim, (ex_derive_continuous (fun q => fb q * (q * q)) z).
    auto_derive. repeat split; auto; eexists; apply fb_derive.
  - rewrite Rmin_left, Rmax_right in Hz by lra. assert (A := fa_bound z ltac:(lra)). assert (B := Rle_abs (- fa z)). rewrite Rabs_Ropp in B.
    assert (0 <= 2 * fa z * (z * z) + fb z * (2 * z)).
    { replace (2 * fa z * (z * z) + fb z * (2 * z)) with (2 * z * (fb z - - fa z * z)) by ring. apply Rmult_le_pos; [lra|]. nra. }
    nra.
Qed.
Lemma fb_down x y : 0 < x -> x <= y -> fb y * (x * x) <= fb x * (y * y).
Proof.
  intros P L. destruct (MVT_gen (fun q => fb q / (q * q)) x y (fun q => (2 * fa q * q - 2 * fb q) / (q * q * q))) as (z & Hz & E).
  - rewrite Rmin_left, Rmax_right by lra. intros z Hz. auto_derive; [repeat split; auto; [eexists; apply fb_derive|nra]|].
    replace (Derive (fun x0 => fb x0) z) with (2 * fa z) by (symmetry; apply is_derive_unique, fb_derive). field. lra.
  - rewrite Rmin_left, Rmax_right by lra. intros z Hz. apply continuity_pt_filterlim, (ex_derive_continuous (fun q => fb q / (q * q)) z).
    auto_derive. repeat split; auto; [eexists; apply fb_derive|nra].
  - rewrite Rmin_left, Rmax_right in Hz by lra. assert (A := fa_bound z ltac:(lra)). assert (B := Rle_abs (fa z)).
    assert (C : 0 < z * z * z) by (repeat apply Rmult_lt_0_compat; lra).
    assert (G : (2 * fa z * z - 2 * fb z) / (z * z * z) <= 0).
    { apply (Rmult_le_reg_r (z * z * z)); auto. unfold Rdiv. rewrite Rmult_assoc, Rinv_l by lra. nra. }
    assert (H : fb y / (y * y) <= fb x / (x * x)) by nra.
    apply (Rmult_le_compat_r (x * x * (y * y))) in H; [|nra].
    replace (fb y / (y * y) * (x * x * (y * y))) with (fb y * (x * x)) in H by (field; lra).
    replace (fb x / (x * x) * (x * x * (y * y))) with (fb x * (y * y)) in H by (field; lra). exact H.
Qed.
Lemma fb_ratio x y l u : 0 < l -> l <= x <= u -> l <= y <= u -> fb x * (l * l) <= fb y * (u * u).
Proof.
  intros Hl Hx Hy. assert (Px := fb_pos x ltac:(lra)). assert (Py := fb_pos y ltac:(lra)).
  destruct (Rle_or_lt x y) as [L|L].
  - apply Rle_trans with (fb x * (x * x)); [apply Rmult_le_compat_l; [lra|nra]|].
    apply Rle_trans with (fb y * (y * y)); [apply fb_up; lra|apply Rmult_le_compat_l; [lra|nra]].
  - apply Rle_trans with (fb x * (y * y)); [apply Rmult_le_compat_l; [lra|nra]|].
    apply Rle_trans with (fb y * (x * x)); [apply fb_down; lra|apply Rmult_le_compat_l; [lra|nra]].
Qed.
Lemma qth_mvt' x y : exists z, Rmin x y <= z <= Rmax x y /\ qth y - qth x = fb z * (y - x).
Proof.
  destruct (MVT_gen qth x y fb) as (z & Hz & E); [| |eauto].
  - intros t _. apply qth_derive.
  - intros t _. apply continuity_pt_filterlim, (ex_derive_continuous qth t). eexists. apply qth_derive.
Qed.
Lemma qth_taylor q d M : (forall z, Rmin q (q + d) <= z <= Rmax q (q + d) -> 2 * Rabs (fa3 z) <= M) ->
  Rabs (qth (q + d) - (qth q + fb q * d + fa q * (d * d))) <= M * Rabs d ^ 3 / 6.
Proof.
  intros H. assert (T := taylor3 qth fb (fun q => 2 * fa q) (fun q => 2 * fa3 q) q (q + d) M qth_derive fb_derive).
  replace (q + d - q) with d in T by ring.
  replace (qth (q + d) - (qth q + fb q * d + fa q * (d * d))) with (qth (q + d) - qth q - fb q * d - 2 * fa q * (d * d) / 2) by field.
  apply T.
  - intros z. apply (is_derive_scal fa z 2 (fa3 z)), fa_derive.
  - intros z Hz. rewrite Rabs_mult, Rabs_pos_eq by lra. auto.
Qed.

(** ** The pass itself *)
(** core_dispersion.py:71-82 in real numbers; rstep_lin and rstep_quad are the two corrections *)
Definition fc (T q : R) : R := qth q - T.
Definition linear (T q : R) : Prop := Rabs (fa q * fc T q) < 1 / 100000000 * (fb q * fb q).
Definition corr_lin (T q : R) : R := - fc T q / fb q.
Definition disc (T q : R) : R := fb q * fb q - 4 * fa q * fc T q.
Definition corr_quad (T q : R) : R := (- fb q + sqrt (disc T q)) / (2 * fa q).

Definition within (e r q : R) : Prop := Rabs (q - r) <= e * r.

Lemma near_range e r q : 0 < r -> 0 <= e -> within e r q -> (1 - e) * r <= q <= (1 + e) * r.
Proof. intros Hr He H. apply Rabs_le_between in H. lra. Qed.

Lemma residual_small e r q : 0 < r -> 0 <= e <= 1 / 100 -> within e r q ->
  0 < q /\ Rabs (fc (qth r) q) <= 1041 / 1000 * (fb q * (e * r)) /\
  Rabs (fa q * fc (qth r) q) <= 10516 / 10000 * (fb q * fb q) * e.
Proof.
  intros Hr He H. assert (N := near_range e r q Hr ltac:(lra) H). assert (Hq : 99 / 100 * r <= q <= 101 / 100 * r) by nra.
  assert (Pq : 0 < q) by nra. split; [exact Pq|].
  assert (B := fb_pos q Pq). set (b := fb q) in *.
  assert (C : Rabs (fc (qth r) q) <= 1041 / 1000 * (b * (e * r))).
  { unfold fc. destruct (qth_mvt' r q) as (z & Hz & E). rewrite E, Rabs_mult.
    assert (Z : 99 / 100 * r <= z <= 101 / 100 * r).
    { destruct (Rle_or_lt r q) as [L|L]; [rewrite Rmin_left, Rmax_right in Hz by lra|rewrite Rmin_right, Rmax_left in Hz by lra]; lra. }
    assert (F := fb_ratio z q (99 / 100 * r) (101 / 100 * r) ltac:(lra) Z Hq). fold b in F.
    rewrite Rabs_pos_eq by (left; apply fb_pos; lra).
    assert (F' : fb z <= 1041 / 1000 * b).
    { apply (Rmult_le_reg_r (r * r)); [nra|]. nra. }
    unfold within in H. assert (0 <= Rabs (q - r)) by apply Rabs_pos.
    replace (1041 / 1000 * (b * (e * r))) with (1041 / 1000 * b * (e * r)) by ring.
    apply Rmult_le_compat; auto. left; apply fb_pos; lra. }
  split; [exact C|].
  assert (A := fa_bound q Pq). fold b in A. rewrite Rabs_mult.
  assert (X := Rabs_pos (fa q)). assert (Y := Rabs_pos (fc (qth r) q)).
  apply Rle_trans with (Rabs (fa q) * (1041 / 1000 * (b * (e * r)))); [apply Rmult_le_compat_l; auto|].
  replace (Rabs (fa q) * (1041 / 1000 * (b * (e * r)))) with (1041 / 1000 * (b * e) * (Rabs (fa q) * r)) by ring.
  replace (10516 / 10000 * (b * b) * e) with (1041 / 1000 * (b * e) * (10516 / 10410 * b)) by field.
  apply Rmult_le_compat_l; [assert (0 <= b * e) by nra; lra|]. nra.
Qed.

Lemma disc_pos e r q : 0 < r -> 0 <= e <= 1 / 100 -> within e r q -> (97 / 100 * fb q) * (97 / 100 * fb q) <= disc (qth r) q.
Proof.
  intros Hr He H. destruct (residual_small e r q Hr He H) as (Pq & _ & A). assert (B := fb_pos q Pq).
  unfold disc. apply Rabs_le_between in A. nra.
Qed.
Lemma corr_props e r q d : 0 < r -> 0 <= e <= 1 / 100 -> within e r q ->
  (linear (qth r) q /\ d = corr_lin (qth r) q \/ ~ linear (qth r) q /\ d = corr_quad (qth r) q) ->
  Rabs d <= 1057 / 1000 * (e * r) /\ Rabs (fc (qth r) q + fb q * d + fa q * (d * d)) <= 1 / 100000000 * (fb q * Rabs d).
Proof.
  intros Hr He H Hd. destruct (residual_small e r q Hr He H) as (Pq & C & A). assert (B := fb_pos q Pq).
  assert (D := disc_pos e r q Hr He H). assert (ER : 0 <= e * r) by nra. destruct Hd as [[L ->]|[L ->]].
  - unfold corr_lin. set (c := fc (qth r) q) in *. set (b := fb q) in *. set (a := fa q) in *.
    assert (Q : Rabs (- c / b) = Rabs c / b) by (unfold Rdiv; rewrite Rabs_mult, Rabs_Ropp, (Rabs_pos_eq (/ b)); auto; left; apply Rinv_0_lt_compat; auto).
    split.
    + rewrite Q. apply (Rmult_le_reg_r b); auto. unfold Rdiv. rewrite Rmult_assoc, Rinv_l by lra. nra.
    + replace (c + b * (- c / b) + a * (- c / b * (- c / b))) with (- (a * c) * (- c / b) / b) by (field; lra).
      unfold Rdiv at 1. rewrite (Rabs_mult _ (/ b)), (Rabs_mult _ (- c / b)), Rabs_Ropp, (Rabs_mult a c), (Rabs_pos_eq (/ b)) by (left; apply Rinv_0_lt_compat; auto).
      rewrite <- (Rabs_mult a c). unfold linear in L. fold a b c in L. assert (Y := Rabs_pos (- c / b)). set (m := Rabs (- c / b)) in *.
      apply (Rmult_le_reg_r b); auto. rewrite Rmult_assoc, Rinv_l by lra. clearbody m a b c. nra.
  - unfold corr_quad. set (c := fc (qth r) q) in *. set (b := fb q) in *. set (a := fa q) in *.
    set (s := sqrt (disc (qth r) q)) in *.
    assert (D0 : 0 <= disc (qth r) q) by nra. assert (S2 : s * s = b * b - 4 * a * c) by (apply sqrt_sqrt; auto).
    assert (S0 : 0 <= s) by apply sqrt_pos. assert (S1 : 97 / 100 * b <= s) by (fold b in D; unfold disc in D; fold a b c in D; nra).
    assert (NA : a <> 0). { intros E. apply L. unfold linear. fold a b c. rewrite E, Rmult_0_l, Rabs_R0. nra. }
    set (d := (- b + s) / (2 * a)). assert (Ed : d * (b + s) = - 2 * c).
    { unfold d. replace ((- b + s) / (2 * a) * (b + s)) with ((s * s - b * b) / (2 * a)) by (field; auto). rewrite S2. field. auto. }
    split.
    + apply (Rmult_le_reg_r (b + s)); [lra|]. rewrite <- (Rabs_pos_eq (b + s)) at 1 by lra. rewrite <- Rabs_mult, Ed, Rabs_mult, Rabs_left by lra.
      nra.
    + assert (Z : c + b * d + a * (d * d) = 0).
      { unfold d. replace (c + b * ((- b + s) / (2 * a)) + a * ((- b + s) / (2 * a) * ((- b + s) / (2 * a)))) with ((s * s - (b * b - 4 * a * c)) / (4 * a)) by (field; auto).
        rewrite S2. unfold Rdiv. ring. }
      rewrite Z, Rabs_R0. assert (Y := Rabs_pos d). nra.
Qed.

Theorem step_error e r q d : 0 < r -> 0 <= e <= 1 / 100 -> within e r q ->
  (linear (qth r) q /\ d = corr_lin (qth r) q \/ ~ linear (qth r) q /\ d = corr_quad (qth r) q) ->
  within (74 / 100 * (e * e * e) + 12 / 1000000000 * e) r (q + d).
Proof.
  intros Hr He H Hd. destruct (residual_small e r q Hr He H) as (Pq & C & _). assert (B := fb_pos q Pq).
  destruct (corr_props e r q d Hr He H Hd) as [Dd Dr]. assert (N := near_range e r q Hr ltac:(lra) H).
  assert (ER : 0 <= e * r <= 1 / 100 * r) by nra. assert (D' := Dd). apply Rabs_le_between in D'.
  set (l := 979 / 1000 * r). set (u := 1021 / 1000 * r).
  assert (Hq : l <= q <= u) by (unfold l, u; nra). assert (Hq' : l <= q + d <= u) by (unfold l, u; nra).
  assert (Hr' : l <= r <= u) by (unfold l, u; nra). assert (Hl : 0 < l) by (unfold l; lra).
  set (b := fb q) in *.
  assert (BU : forall z, l <= z <= u -> fb z <= 1088 / 1000 * b /\ b <= 1088 / 1000 * fb z).
  { intros z Hz. assert (F1 := fb_ratio z q l u Hl Hz Hq). assert (F2 := fb_ratio q z l u Hl Hq Hz). fold b in F1, F2. unfold l, u in F1, F2.
    assert (0 < r * r) by nra. split; apply (Rmult_le_reg_r (r * r)); auto; nra. }
  assert (M : forall z, l <= z <= u -> 2 * Rabs (fa3 z) <= 341 / 100 * (b / (r * r))).
  { intros z Hz. assert (F := fa3_bound z ltac:(lra)). destruct (BU z Hz) as [F1 _]. assert (G := Rabs_pos (fa3 z)).
    assert (RR : 0 < r * r) by nra. apply (Rmult_le_reg_r (r * r)); auto.
    replace (341 / 100 * (b / (r * r)) * (r * r)) with (341 / 100 * b) by (field; lra).
    assert (ZZ : 9584 / 10000 * (r * r) <= z * z) by (unfold l, u in Hz; nra). nra. }
  assert (T := qth_taylor q d (341 / 100 * (b / (r * r)))). fold b in T.
  assert (T' : Rabs (qth (q + d) - (qth q + b * d + fa q * (d * d))) <= 341 / 100 * (b / (r * r)) * Rabs d ^ 3 / 6).
  { apply T. intros z Hz. apply M. destruct (Rle_or_lt q (q + d)) as [L|L]; [rewrite Rmin_left, Rmax_right in Hz by lra|rewrite Rmin_right, Rmax_left in Hz by lra]; lra. }
  clear T. set (x := e * r) in *. assert (AD := Rabs_pos d).
  assert (D3 : Rabs d ^ 3 <= 1181 / 1000 * (x * x * x)).
  { apply Rle_trans with ((1057 / 1000 * x) ^ 3); [apply pow_incr; lra|]. assert (0 <= x * x * x) by (repeat apply Rmult_le_pos; lra). nra. }
  assert (BR : 0 < b / (r * r)) by (apply Rdiv_lt_0_compat; nra).
  assert (R1 : Rabs (qth (q + d) - (qth q + b * d + fa q * (d * d))) <= 6713 / 10000 * (b * (e * e * e) * r)).
  { eapply Rle_trans; [exact T'|]. apply Rle_trans with (341 / 100 * (b / (r * r)) * (1181 / 1000 * (x * x * x)) / 6).
    - apply Rmult_le_compat_r; [lra|]. apply Rmult_le_compat_l; lra.
    - unfold x. replace (341 / 100 * (b / (r * r)) * (1181 / 1000 * (e * r * (e * r) * (e * r))) / 6) with (341 * 1181 / 600000 * (b * (e * e * e) * r)) by (field; lra).
      assert (0 <= b * (e * e * e) * r) by (repeat apply Rmult_le_pos; lra). lra. }
  assert (R2 : Rabs (qth (q + d) - qth r) <= 6713 / 10000 * (b * (e * e * e) * r) + 1058 / 100000000000 * (b * e * r)).
  { replace (qth (q + d) - qth r) with ((qth (q + d) - (qth q + b * d + fa q * (d * d))) + (fc (qth r) q + b * d + fa q * (d * d))) by (unfold fc; ring).
    eapply Rle_trans; [apply Rabs_triang|]. apply Rplus_le_compat; [exact R1|]. eapply Rle_trans; [exact Dr|]. unfold x in Dd. nra. }
  destruct (qth_mvt' r (q + d)) as (z & Hz & E). rewrite E, Rabs_mult in R2.
  assert (Z : l <= z <= u).
  { destruct (Rle_or_lt r (q + d)) as [L|L]; [rewrite Rmin_left, Rmax_right in Hz by lra|rewrite Rmin_right, Rmax_left in Hz by lra]; lra. }
  destruct (BU z Z) as [_ F]. assert (Pz := fb_pos z ltac:(lra)). rewrite (Rabs_pos_eq (fb z)) in R2 by lra.
  unfold within. set (w := Rabs (q + d - r)) in *. assert (W := Rabs_pos (q + d - r)). fold w in W.
  apply (Rmult_le_reg_l b); auto.
  apply Rle_trans with (1088 / 1000 * fb z * w); [apply Rmult_le_compat_r; auto|].
  apply Rle_trans with (1088 / 1000 * (6713 / 10000 * (b * (e * e * e) * r) + 1058 / 100000000000 * (b * e * r))); [lra|].
  assert (0 <= b * (e * e * e) * r) by (repeat apply Rmult_le_pos; lra). assert (0 <= b * e * r) by (repeat apply Rmult_le_pos; lra).
  replace (b * ((74 / 100 * (e * e * e) + 12 / 1000000000 * e) * r)) with (74 / 100 * (b * (e * e * e) * r) + 12 / 1000000000 * (b * e * r)) by ring. lra.
Qed.
