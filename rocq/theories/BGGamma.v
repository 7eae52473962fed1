(** * C40 with the true gamma functions: the Battjes-Groenendijk iteration always converges *)

From Coq Require Import Reals ZArith List Bool Lra Lia Ranalysis5.
From Coquelicot Require Import Coquelicot.
From Verif Require Import Num XR Spec XRFacts Engine WaveModel BGProps.
Import ListNotations.
Open Scope R_scope.

(** ** Specification of the gamma functions (for a > 1): x |-> P(a,x) Gamma(a) is the primitive of
    t^(a-1) e^-t on (0, oo) that vanishes at 0, and P(a,x) tends to 1 *)
Definition is_gamma (Gam : R -> R) (Pinc : R -> R -> R) : Prop :=
  forall a, 1 < a ->
  0 < Gam a
  /\ (forall x, 0 < x -> is_derive (fun y => Pinc a y * Gam a) x (Rpower x (a - 1) * exp (- x)))
  /\ filterlim (Pinc a) (at_right 0) (locally 0)
  /\ is_lim (Pinc a) p_infty 1.

(** a function with non-negative (non-positive) derivative on (0,oo) *)
Lemma mono (f df : R -> R) (x y : R) : 0 < x -> x <= y ->
  (forall t, x <= t <= y -> is_derive f t (df t)) -> (forall t, x <= t <= y -> 0 <= df t) -> f x <= f y.
Proof.
  intros P L D Hd. destruct (MVT_gen f x y df) as (c & Hc & E).
  - intros t Ht. apply D. rewrite Rmin_left, Rmax_right in Ht by lra. lra.
  - intros t Ht. rewrite Rmin_left, Rmax_right in Ht by lra. apply continuity_pt_filterlim.
    apply (ex_derive_continuous f t). exists (df t). apply D; lra.
  - rewrite Rmin_left, Rmax_right in Hc by lra. specialize (Hd c ltac:(lra)). nra.
Qed.
(** bound by the slope *)
Lemma slope (f df : R -> R) (M x y : R) : 0 < x -> x <= y ->
  (forall t, x <= t <= y -> is_derive f t (df t)) -> (forall t, x <= t <= y -> df t <= M) -> f y - f x <= M * (y - x).
Proof.
  intros P L D Hd. destruct (MVT_gen f x y df) as (c & Hc & E).
  - intros t Ht. apply D. rewrite Rmin_left, Rmax_right in Ht by lra. lra.
  - intros t Ht. rewrite Rmin_left, Rmax_right in Ht by lra. apply continuity_pt_filterlim.
    apply (ex_derive_continuous f t). exists (df t). apply D; lra.
  - rewrite Rmin_left, Rmax_right in Hc by lra. specialize (Hd c ltac:(lra)). rewrite E. apply Rmult_le_compat_r; lra.
Qed.
(** f increasing with limit l at infinity stays below l *)
Lemma below_limit (f : R -> R) (l x : R) : (forall y, x <= y -> f x <= f y) -> is_lim f p_infty l -> f x <= l.
Proof.
  intros M L. apply (is_lim_le_loc (fun _ => f x) f p_infty (Finite (f x)) (Finite l)).
  - exists x. intros y Hy. apply M. lra.
  - apply is_lim_const.
  - exact L.
Qed.

Section Convergence.
Variables (Gam : R -> R) (Pinc : R -> R -> R).
Hypothesis HG : is_gamma Gam Pinc.

Definition U (u : R) : R := (1 - Pinc (14 / 9) u) * Gam (14 / 9).
Definition L2 (u : R) : R := Pinc 2 u * Gam 2.

Lemma U_derive u : 0 < u -> is_derive U u (- (Rpower u (5 / 9) * exp (- u))).
Proof.
  intros P. destruct (HG (14 / 9)) as (_ & D & _); [lra|]. specialize (D u P). replace (14 / 9 - 1) with (5 / 9) in D by lra.
  apply (is_derive_ext (fun y => Gam (14 / 9) - Pinc (14 / 9) y * Gam (14 / 9))); [intros t; change (Gam (14 / 9) - Pinc (14 / 9) t * Gam (14 / 9) = U t); unfold U; ring|].
  evar_last; [apply @is_derive_minus; [apply @is_derive_const|exact D]|].
  unfold minus, plus, opp, zero. cbn. ring.
Qed.
Lemma U_lim : is_lim U p_infty 0.
Proof.
  destruct (HG (14 / 9)) as (_ & _ & _ & L); [lra|].
  replace (Finite 0) with (Finite (Gam (14 / 9) - Gam (14 / 9) * 1)) by (f_equal; ring).
  apply (is_lim_ext (fun u => Gam (14 / 9) - Gam (14 / 9) * Pinc (14 / 9) u)); [intros y; unfold U; ring|].
  apply is_lim_minus'; [apply is_lim_const|]. exact (is_lim_scal_l _ (Gam (14 / 9)) p_infty (Finite 1) L).
Qed.
Lemma exp_mono x y : x <= y -> exp x <= exp y.
Proof. intros [L|E]; [left; apply exp_increasing; auto|right; rewrite E; auto]. Qed.
Lemma Rpower_le_1x b t : 0 <= b <= 1 -> 0 < t -> Rpower t b <= 1 + t.
Proof.
  intros Hb P. unfold Rpower. apply Rle_trans with (exp (ln (1 + t))); [|rewrite exp_ln; lra].
  destruct (Rle_dec (ln t) 0).
  - apply exp_mono. assert (0 <= ln (1 + t)) by (rewrite <- ln_1; apply ln_le; lra). nra.
  - apply exp_mono. assert (ln t <= ln (1 + t)) by (apply ln_le; lra). nra.
Qed.
Lemma U_decreasing x y : 0 < x -> x <= y -> U y <= U x.
Proof.
  intros P L. enough (- U x <= - U y) by lra.
  apply (mono (fun t => - U t) (fun t => Rpower t (5 / 9) * exp (- t)) x y); auto.
  - intros t Ht. evar_last; [apply @is_derive_opp, U_derive; lra|]. unfold opp; cbn. ring.
  - intros t Ht. apply Rmult_le_pos; apply Rlt_le, exp_pos.
Qed.
Lemma U_nonneg u : 0 < u -> 0 <= U u.
Proof.
  intros P. enough (- U u <= 0) by lra.
  apply (below_limit (fun t => - U t)).
  - intros y Hy. assert (Q := U_decreasing u y P Hy). lra.
  - replace (Finite 0) with (Rbar_opp (Finite 0)) by (cbn; f_equal; ring). apply is_lim_opp, U_lim.
Qed.
Lemma U_pos u : 0 < u -> 0 < U u.
Proof.
  intros P. apply Rlt_le_trans with (U u - U (u + 1)); [|assert (Q := U_nonneg (u + 1) ltac:(lra)); lra].
  destruct (MVT_gen U u (u + 1) (fun t => - (Rpower t (5 / 9) * exp (- t)))) as (c & Hc & E).
  - intros t Ht. rewrite Rmin_left in Ht by lra. apply U_derive; lra.
  - intros t Ht. rewrite Rmin_left in Ht by lra. apply continuity_pt_filterlim, (ex_derive_continuous U t).
    eexists; apply U_derive; lra.
  - assert (0 < Rpower c (5 / 9) * exp (- c)) by (apply Rmult_lt_0_compat; apply exp_pos). nra.
Qed.
Lemma lim_m : is_lim (fun t => - t) p_infty m_infty.
Proof using. intros P [M HM]. exists (- M). intros x Hx. apply HM. lra. Qed.
Lemma lim_2exp : is_lim (fun t => 2 * exp (- t)) p_infty (Finite (2 * 0)).
Proof using.
  assert (Le : is_lim (fun t => exp (- t)) p_infty (Finite 0)).
  { apply (is_lim_comp exp (fun t => - t) p_infty (Finite 0) m_infty is_lim_exp_m lim_m). exists 0. intros; discriminate. }
  apply (is_lim_scal_l (fun t => exp (- t)) 2 p_infty (Finite 0) Le).
Qed.
Lemma lim_texp : is_lim (fun t => - ((- t) * exp (- t))) p_infty (Finite (- 0)).
Proof using.
  assert (Le : is_lim (fun t => (- t) * exp (- t)) p_infty (Finite 0)).
  { apply (is_lim_comp (fun y => y * exp y) (fun t => - t) p_infty (Finite 0) m_infty is_lim_mul_exp_m lim_m). exists 0. intros; discriminate. }
  apply (is_lim_opp (fun t => (- t) * exp (- t)) p_infty (Finite 0) Le).
Qed.
Lemma U_le_2 u : 0 < u -> U u <= 2.
Proof.
  intros P.
  assert (A : U u - (2 + u) * exp (- u) <= 0).
  { apply (below_limit (fun t => U t - (2 + t) * exp (- t))).
    - intros y Hy. apply (mono (fun t => U t - (2 + t) * exp (- t)) (fun t => (1 + t - Rpower t (5 / 9)) * exp (- t)) u y); auto.
      + intros t Ht. evar_last.
        * apply @is_derive_minus; [apply U_derive; lra|]. auto_derive; [trivial|reflexivity].
        * unfold minus, plus, opp; cbn. ring.
      + intros t Ht. apply Rmult_le_pos; [|apply Rlt_le, exp_pos]. assert (Q := Rpower_le_1x (5 / 9) t ltac:(lra) ltac:(lra)). lra.
    - replace (Finite 0) with (Finite (0 - (2 * 0 + - 0))) by (f_equal; ring).
      apply is_lim_minus'; [apply U_lim|].
      apply (is_lim_ext (fun t => 2 * exp (- t) + - ((- t) * exp (- t)))); [intros y; ring|].
      apply is_lim_plus'; [exact lim_2exp|exact lim_texp]. }
  assert (B : (2 + u) * exp (- u) <= 2).
  { rewrite exp_Ropp. apply (Rmult_le_reg_r (exp u)); [apply exp_pos|]. rewrite Rmult_assoc, Rinv_l by apply Rgt_not_eq, exp_pos.
    assert (Q := exp_ineq1_le u). nra. }
  lra.
Qed.

(** the first part is elementary: P(2,u) Gamma(2) = 1 - (1+u) e^-u *)
Lemma L2_value u : 0 < u -> L2 u = 1 - (1 + u) * exp (- u).
Proof.
  intros P. set (f := fun t => L2 t - (1 - (1 + t) * exp (- t))).
  destruct (HG 2) as (G0 & D & Z & _); [lra|].
  assert (Df : forall t, 0 < t -> is_derive f t 0).
  { intros t Ht. unfold f. evar_last.
    - apply @is_derive_minus; [exact (D t Ht)|]. auto_derive; [trivial|reflexivity].
    - replace (2 - 1) with 1 by ring. rewrite Rpower_1 by auto. unfold minus, plus, opp; cbn. ring. }
  assert (C : forall t, 0 < t <= u -> f t = f u).
  { intros t Ht. apply Rle_antisym.
    - apply (mono f (fun _ => 0) t u); [lra|lra| |intros; lra]. intros; apply Df; lra.
    - enough (- f t <= - f u) by lra. apply (mono (fun x => - f x) (fun _ => 0) t u); [lra|lra| |intros; lra].
      intros x Hx. evar_last; [apply @is_derive_opp, Df; lra|]. unfold opp; cbn; ring. }
  enough (f u = 0) by (unfold f in H; lra).
  destruct (Req_dec (f u) 0) as [|N]; [auto|exfalso].
  assert (Pe : 0 < Rabs (f u) / 2) by (assert (Q := Rabs_pos_lt _ N); lra).
  set (e := Rabs (f u) / 2) in *.
  assert (Pg : 0 < e / Gam 2) by (apply Rdiv_lt_0_compat; auto).
  destruct (Z (ball 0 (e / Gam 2)) (locally_ball 0 (mkposreal _ Pg))) as [d Hd].
  set (t := Rmin (Rmin u (d / 2)) (Rmin 1 (e / 2))).
  assert (Pd := cond_pos d).
  assert (Pt : 0 < t) by (unfold t; repeat apply Rmin_glb_lt; lra).
  assert (T1 : t <= u) by (eapply Rle_trans; [apply Rmin_l|apply Rmin_l]).
  assert (T2 : t <= d / 2) by (eapply Rle_trans; [apply Rmin_l|apply Rmin_r]).
  assert (T3 : t <= 1) by (eapply Rle_trans; [apply Rmin_r|apply Rmin_l]).
  assert (T4 : t <= e / 2) by (eapply Rle_trans; [apply Rmin_r|apply Rmin_r]).
  specialize (Hd t). assert (B : ball 0 d t) by (unfold ball; cbn; unfold AbsRing_ball, abs, minus, plus, opp; cbn; rewrite Rabs_pos_eq; lra).
  specialize (Hd B Pt). unfold ball in Hd; cbn in Hd. unfold AbsRing_ball, abs, minus, plus, opp in Hd; cbn in Hd.
  replace (Pinc 2 t + - 0) with (Pinc 2 t) in Hd by ring.
  assert (E1 : Rabs (L2 t) < e).
  { unfold L2. rewrite Rabs_mult, (Rabs_pos_eq (Gam 2)) by lra. apply (Rmult_lt_compat_r (Gam 2)) in Hd; [|auto].
    replace (e / Gam 2 * Gam 2) with e in Hd by (field; lra). exact Hd. }
  assert (E2 : 0 <= 1 - (1 + t) * exp (- t) <= t * t).
  { rewrite exp_Ropp. split.
    - enough ((1 + t) * / exp t <= 1) by lra. apply (Rmult_le_reg_r (exp t)); [apply exp_pos|].
      rewrite Rmult_assoc, Rinv_l by apply Rgt_not_eq, exp_pos. assert (Q := exp_ineq1_le t). lra.
    - rewrite <- exp_Ropp. assert (Q := exp_ineq1_le (- t)). nra. }
  assert (E3 : Rabs (f u) = e * 2) by (unfold e; field).
  rewrite <- (C t) in E3 by lra. unfold f in E3.
  assert (Rabs (L2 t - (1 - (1 + t) * exp (- t))) <= Rabs (L2 t) + t * t).
  { unfold Rminus at 1. eapply Rle_trans; [apply Rabs_triang|]. rewrite Rabs_Ropp, (Rabs_pos_eq (1 - _)) by lra. lra. }
  nra.
Qed.

(** ** The normalisation function and its slope *)
Notation nrm r h := (norm Gam Pinc r h).
Definition nrm' (r h : R) : R := 2 * h * L2 ((r / h) ^ 2) + 10 / 9 * Rpower r (8 / 9) * Rpower h (1 / 9) * U ((r / h) ^ 2).

Lemma ln_quot a b : 0 < a -> 0 < b -> ln (a / b) = ln a - ln b.
Proof using. intros. unfold Rdiv. rewrite ln_mult, ln_Rinv by (auto using Rinv_0_lt_compat). ring. Qed.
Lemma scale2_sq r h : 0 < r -> 0 < h -> scale2 r h ^ 2 = Rpower r (8 / 9) * Rpower h (10 / 9).
Proof.
  intros Pr Ph. unfold scale2. replace ((r / Rpower (r / h) (5 / 9)) ^ 2) with (r ^ 2 / (Rpower (r / h) (5 / 9) ^ 2)) by (field; apply Rgt_not_eq, exp_pos).
  rewrite <- !Rpower_pow by (auto; apply exp_pos). rewrite Rpower_mult. unfold Rdiv at 1. rewrite <- Rpower_Ropp. unfold Rpower. rewrite <- !exp_plus.
  rewrite ln_quot by auto. f_equal. cbn. field.
Qed.
Lemma nrm_eq r h : 0 < r -> 0 < h -> nrm r h = h ^ 2 * L2 ((r / h) ^ 2) + Rpower r (8 / 9) * Rpower h (10 / 9) * U ((r / h) ^ 2).
Proof. intros Pr Ph. unfold norm, mean_square. rewrite scale2_meets, scale2_sq by auto. reflexivity. Qed.

Lemma u_pos r h : 0 < r -> 0 < h -> 0 < (r / h) ^ 2.
Proof. intros. apply pow_lt, Rdiv_lt_0_compat; auto. Qed.

Lemma nrm_derive r h : 0 < r -> 0 < h -> is_derive (fun x => nrm r x) h (nrm' r h).
Proof.
  intros Pr Ph. destruct (HG 2) as (_ & D & _); [lra|].
  apply (is_derive_ext_loc (fun x => x ^ 2 * L2 ((r / x) ^ 2) + Rpower r (8 / 9) * Rpower x (10 / 9) * U ((r / x) ^ 2))).
  - exists (mkposreal h Ph). intros y Hy. symmetry. apply nrm_eq; auto.
    unfold ball in Hy; cbn in Hy; unfold AbsRing_ball, abs, minus, plus, opp in Hy; cbn in Hy. unfold Rabs in Hy; destruct (Rcase_abs _); lra.
  - assert (Pu := u_pos r h Pr Ph).
    assert (Du : is_derive (fun x => (r / x) ^ 2) h (- 2 * r ^ 2 / h ^ 3)) by (auto_derive; [lra|field; lra]).
    assert (D2 : is_derive (fun x => L2 ((r / x) ^ 2)) h (- 2 * r ^ 2 / h ^ 3 * (Rpower ((r / h) ^ 2) (2 - 1) * exp (- (r / h) ^ 2)))).
    { apply (is_derive_comp L2 (fun x => (r / x) ^ 2)); [apply D; auto|exact Du]. }
    assert (DU : is_derive (fun x => U ((r / x) ^ 2)) h (- 2 * r ^ 2 / h ^ 3 * (- (Rpower ((r / h) ^ 2) (5 / 9) * exp (- (r / h) ^ 2))))).
    { apply (is_derive_comp U (fun x => (r / x) ^ 2)); [apply U_derive; auto|exact Du]. }
    assert (DP : is_derive (fun x => Rpower x (10 / 9)) h (10 / 9 * Rpower h (1 / 9))).
    { evar_last; [apply is_derive_Reals, derivable_pt_lim_power; auto|]. f_equal. f_equal. field. }
    assert (Dh : is_derive (fun x => x ^ 2) h (2 * h)) by (auto_derive; [trivial|ring]).
    evar_last.
    + apply @is_derive_plus.
      * apply (is_derive_mult (fun x => x ^ 2) (fun x => L2 ((r / x) ^ 2)) h _ _ Dh D2). intros; apply Rmult_comm.
      * apply (is_derive_mult (fun x => Rpower r (8 / 9) * Rpower x (10 / 9)) (fun x => U ((r / x) ^ 2)) h _ _
          (is_derive_scal (fun x => Rpower x (10 / 9)) h (Rpower r (8 / 9)) _ DP) DU). intros; apply Rmult_comm.
    + unfold plus, mult, scal; cbn. unfold mult; cbn. unfold nrm'.
      replace (Rpower (r / h * (r / h * 1)) (2 - 1)) with ((r / h) ^ 2) by (replace (2 - 1) with 1 by ring; rewrite Rpower_1; [ring|]; cbn in Pu; exact Pu).
      assert (E : Rpower r (8 / 9) * Rpower h (10 / 9) * Rpower (r / h * (r / h * 1)) (5 / 9) = r ^ 2).
      { change (r / h * (r / h * 1)) with ((r / h) ^ 2). rewrite <- Rpower_pow by (apply Rdiv_lt_0_compat; auto). rewrite Rpower_mult.
        unfold Rpower. rewrite <- !exp_plus. rewrite ln_quot by auto.
        rewrite <- (Rpower_pow 2 r) by auto. unfold Rpower. f_equal. cbn. field. }
      match goal with |- ?a + (?b + Rpower r (8 / 9) * Rpower h (10 / 9) * (?c * - (Rpower _ _ * ?ee))) = _ =>
        transitivity (a + b - c * (r ^ 2) * ee); [rewrite <- E; ring|] end.
      change (r / h * (r / h * 1)) with ((r / h) ^ 2). generalize (L2 ((r / h) ^ 2)) (U ((r / h) ^ 2)) (exp (- (r / h) ^ 2)) (Rpower r (8 / 9)) (Rpower h (1 / 9)).
      intros v1 v2 v3 v4 v5. field. lra.
Qed.

Lemma L2_bounds u : 0 < u -> 0 <= L2 u <= 1 /\ L2 u <= u ^ 2.
Proof.
  intros P. rewrite L2_value by auto. assert (E := exp_pos (- u)).
  assert (A : (1 + u) * exp (- u) <= 1).
  { rewrite exp_Ropp. apply (Rmult_le_reg_r (exp u)); [apply exp_pos|]. rewrite Rmult_assoc, Rinv_l by apply Rgt_not_eq, exp_pos.
    assert (Q := exp_ineq1_le u). lra. }
  assert (Q := exp_ineq1_le (- u)). assert (0 <= (1 + u) * exp (- u)) by nra. split; [lra|]. nra.
Qed.
Lemma nrm'_nonneg r h : 0 < r -> 0 < h -> 0 <= nrm' r h.
Proof.
  intros Pr Ph. unfold nrm'. destruct (L2_bounds _ (u_pos r h Pr Ph)) as [B _]. assert (C := U_nonneg _ (u_pos r h Pr Ph)).
  assert (0 < Rpower r (8 / 9)) by apply exp_pos. assert (0 < Rpower h (1 / 9)) by apply exp_pos.
  apply Rplus_le_le_0_compat; [apply Rmult_le_pos; lra|].
  apply Rmult_le_pos; [apply Rmult_le_pos; [apply Rmult_le_pos|]|]; lra.
Qed.
Lemma part1 r h : 0 < r -> 0 < h -> 2 * h * L2 ((r / h) ^ 2) <= 2 * r.
Proof.
  intros Pr Ph. destruct (L2_bounds _ (u_pos r h Pr Ph)) as [B C]. destruct (Rle_dec h r) as [L|L]; [nra|].
  assert (Q : 0 < r / h < 1).
  { split; [apply Rdiv_lt_0_compat; auto|]. apply (Rmult_lt_reg_r h); [auto|]. replace (r / h * h) with r by (field; lra). lra. }
  assert (E : r = (r / h) * h) by (field; lra). set (q := r / h) in *.
  assert (q ^ 2 <= q) by nra. assert ((q ^ 2) ^ 2 <= q). { assert (0 <= q ^ 2 <= 1) by nra. nra. }
  rewrite E. nra.
Qed.
Lemma Rpower_le_max b t M : 0 <= b <= 1 -> 0 < t <= M -> 1 <= M -> Rpower t b <= M.
Proof using.
  intros Hb Ht HM. unfold Rpower. rewrite <- (exp_ln M) by lra. apply exp_mono.
  assert (ln t <= ln M) by (apply ln_le; lra). assert (0 <= ln M) by (rewrite <- ln_1; apply ln_le; lra).
  destruct (Rle_dec (ln t) 0); nra.
Qed.
Lemma ninth h : 0 < h <= 100 -> Rpower h (1 / 9) <= 2.
Proof using.
  intros Hh. apply Rle_trans with (Rpower 512 (1 / 9)).
  - unfold Rpower. apply exp_mono, Rmult_le_compat_l; [lra|]. apply ln_le; lra.
  - replace 512 with (2 ^ 9) by ring. rewrite <- Rpower_pow by lra. rewrite Rpower_mult. replace (INR 9 * (1 / 9)) with 1 by (cbn; lra).
    rewrite Rpower_1; lra.
Qed.
Lemma nrm'_le r h : 0 < r <= 275 / 100 -> 0 < h <= 100 -> nrm' r h <= 100.
Proof.
  intros Pr Ph. unfold nrm'. assert (A := part1 r h ltac:(lra) ltac:(lra)).
  assert (B := U_le_2 _ (u_pos r h ltac:(lra) ltac:(lra))). assert (C := U_nonneg _ (u_pos r h ltac:(lra) ltac:(lra))).
  assert (D := ninth h Ph). assert (E := Rpower_le_max (8 / 9) r (275 / 100) ltac:(lra) Pr ltac:(lra)).
  assert (0 < Rpower r (8 / 9)) by apply exp_pos. assert (0 < Rpower h (1 / 9)) by apply exp_pos.
  assert (Rpower r (8 / 9) * Rpower h (1 / 9) <= 275 / 100 * 2) by (apply Rmult_le_compat; lra).
  assert (Rpower r (8 / 9) * Rpower h (1 / 9) * U ((r / h) ^ 2) <= 275 / 100 * 2 * 2) by (apply Rmult_le_compat; nra).
  lra.
Qed.
(** relative slope *)
Lemma nrm'_rel r h : 0 < r -> 0 < h -> nrm' r h * h <= 2 * nrm r h.
Proof.
  intros Pr Ph. rewrite nrm_eq by auto. unfold nrm'. assert (C := U_nonneg _ (u_pos r h Pr Ph)).
  assert (0 < Rpower r (8 / 9)) by apply exp_pos. assert (P1 : 0 < Rpower h (1 / 9)) by apply exp_pos.
  assert (E : Rpower h (10 / 9) = Rpower h (1 / 9) * h).
  { replace (10 / 9) with (1 / 9 + 1) by lra. rewrite Rpower_plus, Rpower_1 by auto. reflexivity. }
  rewrite E. assert (0 <= Rpower r (8 / 9) * Rpower h (1 / 9) * U ((r / h) ^ 2) * h) by (apply Rmult_le_pos; [apply Rmult_le_pos; [apply Rmult_le_pos|]|]; lra). nra.
Qed.
Lemma nrm_mono r x y : 0 < r -> 0 < x -> x <= y -> nrm r x <= nrm r y.
Proof.
  intros Pr Px L. apply (mono (fun h => nrm r h) (fun h => nrm' r h) x y); auto; intros t Ht; [apply nrm_derive|apply nrm'_nonneg]; lra.
Qed.

Lemma root_exists r : 0 < r <= 275 / 100 -> exists hstar, 0 < hstar /\ nrm r hstar = 1.
Proof.
  intros Hr. assert (Pr : 0 < r) by lra.
  assert (A : nrm r (1 / 10) < 1).
  { rewrite nrm_eq by lra. destruct (L2_bounds _ (u_pos r (1 / 10) Pr ltac:(lra))) as [B _].
    assert (C := U_le_2 _ (u_pos r (1 / 10) Pr ltac:(lra))). assert (C' := U_nonneg _ (u_pos r (1 / 10) Pr ltac:(lra))).
    assert (E := Rpower_le_max (8 / 9) r (275 / 100) ltac:(lra) Hr ltac:(lra)).
    assert (F : Rpower (1 / 10) (10 / 9) <= 1 / 10).
    { replace (10 / 9) with (1 + 1 / 9) by lra. rewrite Rpower_plus, Rpower_1 by lra.
      assert (Q := Rpower_le_max (1 / 9) (1 / 10) 1 ltac:(lra) ltac:(lra) ltac:(lra)). nra. }
    assert (0 < Rpower r (8 / 9)) by apply exp_pos. assert (0 < Rpower (1 / 10) (10 / 9)) by apply exp_pos.
    assert (Rpower r (8 / 9) * Rpower (1 / 10) (10 / 9) <= 275 / 100 * (1 / 10)) by (apply Rmult_le_compat; lra).
    assert (Rpower r (8 / 9) * Rpower (1 / 10) (10 / 9) * U ((r / (1 / 10)) ^ 2) <= 275 / 100 * (1 / 10) * 2) by (apply Rmult_le_compat; nra).
    nra. }
  assert (P8 : 0 < Rpower r (8 / 9)) by apply exp_pos. assert (PU := U_pos 1 ltac:(lra)).
  set (q := Rpower r (8 / 9) * U 1). assert (Pq : 0 < q) by (apply Rmult_lt_0_compat; auto).
  set (H := 275 / 100 + 2 / q). assert (P2 : 0 < 2 / q) by (apply Rdiv_lt_0_compat; lra).
  assert (B : 1 < nrm r H).
  { assert (PH : 275 / 100 < H) by (unfold H; lra). rewrite nrm_eq by lra.
    destruct (L2_bounds _ (u_pos r H Pr ltac:(lra))) as [B _].
    assert (Q : (r / H) ^ 2 <= 1).
    { assert (0 < r / H <= 1); [|nra]. split; [apply Rdiv_lt_0_compat; lra|]. apply (Rmult_le_reg_r H); [lra|]. replace (r / H * H) with r by (field; lra). lra. }
    assert (C := U_decreasing _ 1 (u_pos r H Pr ltac:(lra)) Q).
    assert (D : H <= Rpower H (10 / 9)).
    { replace (10 / 9) with (1 + 1 / 9) by lra. rewrite Rpower_plus, Rpower_1 by lra.
      assert (1 <= Rpower H (1 / 9)); [|nra]. apply Rle_trans with (Rpower H 0); [right; symmetry; apply Rpower_O; lra|apply Rle_Rpower; lra]. }
    assert (E : q * H <= Rpower r (8 / 9) * Rpower H (10 / 9) * U ((r / H) ^ 2)).
    { unfold q. replace (Rpower r (8 / 9) * U 1 * H) with (Rpower r (8 / 9) * H * U 1) by ring.
      apply Rmult_le_compat; [apply Rmult_le_pos; lra|lra| |auto]. apply Rmult_le_compat_l; lra. }
    assert (q * H = q * (275 / 100) + 2) by (unfold H; field; lra). assert (0 <= H ^ 2 * L2 ((r / H) ^ 2)) by (apply Rmult_le_pos; [apply pow2_ge_0|lra]). nra. }
  destruct (IVT_interv (fun h => nrm r h - 1) (1 / 10) H) as (z & Hz & Ez); try (cbv beta; lra).
  - intros a Ha. apply continuity_pt_filterlim. apply (ex_derive_continuous (fun h => nrm r h - 1) a).
    eexists. apply @is_derive_minus; [apply nrm_derive; lra|apply @is_derive_const].
  - unfold H; lra.
  - exists z. split; lra.
Qed.

Theorem root_good r : 0 < r <= 275 / 100 -> exists hstar, good_root Gam Pinc r hstar.
Proof.
  intros Hr. destruct (root_exists r Hr) as (z & Pz & Ez). exists z. split; [auto|]. split; [auto|]. split; intros h Hh.
  - assert (A := nrm_mono r z h ltac:(lra) Pz ltac:(lra)). split; [lra|].
    assert (B := slope (fun x => nrm r x) (fun x => nrm' r x) 100 z h Pz ltac:(lra)).
    rewrite <- Ez at 1. apply B; intros t Ht; [apply nrm_derive|apply nrm'_le]; lra.
  - assert (A := nrm_mono r h z ltac:(lra) ltac:(lra) ltac:(lra)). split; [lra|].
    assert (B := slope (fun x => nrm r x) (fun x => nrm' r x) 100 h z ltac:(lra) ltac:(lra)).
    rewrite <- Ez at 1. apply B; intros t Ht; [apply nrm_derive; lra|].
    assert (C := nrm'_rel r t ltac:(lra) ltac:(lra)). assert (D := nrm_mono r t z ltac:(lra) ltac:(lra) ltac:(lra)).
    assert (E := nrm'_nonneg r t ltac:(lra) ltac:(lra)).
    assert (nrm' r t * 100 <= nrm' r t * t) by (apply Rmult_le_compat_l; lra). rewrite Ez in D. lra.
Qed.
End Convergence.

(** ** The gamma functions exist (so the specification is not empty) *)
Section Existence.
Variable a : R.
Hypothesis Ha : 1 < a.
Definition g (t : R) : R := if Rle_dec t 0 then 0 else Rpower t (a - 1) * exp (- t).

Lemma g_pos t : 0 < t -> g t = Rpower t (a - 1) * exp (- t).
Proof using. intros. unfold g. destruct (Rle_dec t 0); [lra|reflexivity]. Qed.
Lemma g_nonneg t : 0 <= g t.
Proof using. unfold g. destruct (Rle_dec t 0); [lra|]. apply Rmult_le_pos; apply Rlt_le, exp_pos. Qed.

Lemma g_continuous t : continuous g t.
Proof using Ha.
  destruct (Rtotal_order t 0) as [L|[-> |L]].
  - apply (continuous_ext_loc g (fun _ => 0) t); [|apply continuous_const].
    assert (P : 0 < - t) by lra. exists (mkposreal _ P). intros y Hy. unfold ball in Hy; cbn in Hy; unfold AbsRing_ball, abs, minus, plus, opp in Hy; cbn in Hy.
    unfold g. destruct (Rle_dec y 0); [reflexivity|]. unfold Rabs in Hy; destruct (Rcase_abs _); lra.
  - intros Q [e He]. unfold g at 1 in He. destruct (Rle_dec 0 0); [|lra].
    set (d := Rpower e (/ (a - 1))). assert (Pd : 0 < d) by apply exp_pos. exists (mkposreal _ Pd).
    intros y Hy. apply He. unfold ball in *; cbn in *; unfold AbsRing_ball, abs, minus, plus, opp in *; cbn in *.
    assert (Pe := cond_pos e). unfold g. destruct (Rle_dec y 0); [rewrite Ropp_0, Rplus_0_r, Rabs_R0; auto|].
    rewrite Ropp_0, Rplus_0_r in *. rewrite Rabs_pos_eq in Hy by lra. rewrite Rabs_pos_eq by (apply Rmult_le_pos; apply Rlt_le, exp_pos).
    assert (A : Rpower y (a - 1) < e).
    { apply Rlt_le_trans with (Rpower d (a - 1)).
      - unfold Rpower. apply exp_increasing, Rmult_lt_compat_l; [lra|]. apply ln_increasing; lra.
      - right. unfold d. rewrite Rpower_mult, Rinv_l by lra. apply Rpower_1; auto. }
    assert (B : exp (- y) <= 1) by (apply Rle_trans with (exp 0); [apply exp_mono; lra|right; apply exp_0]).
    assert (0 < Rpower y (a - 1)) by apply exp_pos. assert (0 < exp (- y)) by apply exp_pos. nra.
  - apply (continuous_ext_loc g (fun x => Rpower x (a - 1) * exp (- x)) t).
    + exists (mkposreal _ L). intros y Hy. unfold ball in Hy; cbn in Hy; unfold AbsRing_ball, abs, minus, plus, opp in Hy; cbn in Hy.
      symmetry. apply g_pos. unfold Rabs in Hy; destruct (Rcase_abs _); lra.
    + apply (ex_derive_continuous (fun x => Rpower x (a - 1) * exp (- x))). unfold Rpower. auto_derive. lra.
Qed.
Lemma g_int x y : ex_RInt g x y.
Proof using Ha. apply (ex_RInt_continuous (V:=R_CompleteNormedModule)). intros; apply g_continuous. Qed.
Definition low (x : R) : R := RInt g 0 x.
Lemma low_derive x : is_derive low x (g x).
Proof using Ha.
  apply (is_derive_RInt (V:=R_CompleteNormedModule) g low 0 x); [|apply g_continuous].
  exists (mkposreal 1 Rlt_0_1). intros y _. apply (RInt_correct (V:=R_CompleteNormedModule)), g_int.
Qed.
Lemma low_0 : low 0 = 0. Proof using. apply (RInt_point (V:=R_CompleteNormedModule)). Qed.
Lemma low_mono x y : x <= y -> low x <= low y.
Proof using Ha.
  intros L. destruct (MVT_gen low x y g) as (c & Hc & E).
  - intros t _. apply low_derive.
  - intros t _. apply continuity_pt_filterlim, (ex_derive_continuous low t). eexists; apply low_derive.
  - assert (Q := g_nonneg c). nra.
Qed.
Lemma g_bound : exists C, 0 < C /\ forall t, 0 <= t -> g t <= C * exp (- t / 2).
Proof using Ha.
  set (b := a - 1). exists (exp (b * ln (2 * b) - b)). split; [apply exp_pos|]. intros t Ht.
  unfold g. destruct (Rle_dec t 0); [apply Rmult_le_pos; apply Rlt_le, exp_pos|]. fold b. unfold Rpower. rewrite <- !exp_plus. apply exp_mono.
  assert (Pb : 0 < b) by (unfold b; lra).
  assert (E : ln t = ln (2 * b) + ln (t / (2 * b))) by (rewrite <- ln_mult by (try apply Rdiv_lt_0_compat; lra); f_equal; field; lra).
  assert (Q : ln (t / (2 * b)) <= t / (2 * b) - 1).
  { assert (W := exp_ineq1_le (ln (t / (2 * b)))). rewrite exp_ln in W by (apply Rdiv_lt_0_compat; lra). lra. }
  rewrite E. apply (Rmult_le_compat_l b) in Q; [|lra]. replace (b * (t / (2 * b) - 1)) with (t / 2 - b) in Q by (field; lra). lra.
Qed.
Lemma d_exp2 C t : is_derive (fun t => 2 * C * (1 - exp (- t / 2))) t (C * exp (- t / 2)).
Proof using. auto_derive; [trivial|]. unfold Rdiv. field. Qed.
Lemma low_bounded : exists M, forall x, low x <= M.
Proof using Ha.
  destruct g_bound as (C & PC & HC). exists (2 * C). intros x. destruct (Rle_dec x 0) as [N|P].
  - assert (Q := low_mono x 0 N). rewrite low_0 in Q. lra.
  - assert (A : low x - 2 * C * (1 - exp (- x / 2)) <= low 0 - 2 * C * (1 - exp (- 0 / 2))).
    { destruct (MVT_gen (fun t => low t - 2 * C * (1 - exp (- t / 2))) 0 x (fun t => g t - C * exp (- t / 2))) as (c & Hc & E).
      - intros t _. evar_last; [apply @is_derive_minus; [apply low_derive|apply d_exp2]|]. unfold minus, plus, opp; cbn. field.
      - intros t _. apply continuity_pt_filterlim, (ex_derive_continuous (fun t => low t - 2 * C * (1 - exp (- t / 2))) t).
        eexists. apply @is_derive_minus; [apply low_derive|apply d_exp2].
      - rewrite Rmin_left in Hc by lra. assert (Q := HC c ltac:(lra)). nra. }
    rewrite low_0 in A. replace (- 0 / 2) with 0 in A by field. rewrite exp_0 in A. assert (Q := exp_pos (- x / 2)). nra.
Qed.
Lemma low_limit : exists l, 0 < l /\ is_lim low p_infty l.
Proof using Ha.
  destruct low_bounded as [M HM].
  destruct (completeness (fun y => exists x, y = low x)) as [l [Ub Lub]].
  - exists M. intros y [x ->]. apply HM.
  - exists (low 0). exists 0. reflexivity.
  - exists l. split.
    + apply Rlt_le_trans with (low 1); [|apply Ub; exists 1; reflexivity].
      destruct (MVT_gen low (1 / 2) 1 g) as (c & Hc & E).
      * intros t _. apply low_derive.
      * intros t _. apply continuity_pt_filterlim, (ex_derive_continuous low t). eexists; apply low_derive.
      * rewrite Rmin_left in Hc by lra. assert (0 < g c) by (rewrite g_pos by lra; apply Rmult_lt_0_compat; apply exp_pos).
        assert (Q := low_mono 0 (1 / 2) ltac:(lra)). rewrite low_0 in Q. nra.
    + intros P [e He]. assert (Pe := cond_pos e).
      assert (N : ~ is_upper_bound (fun y => exists x, y = low x) (l - e)) by (intros B; specialize (Lub _ B); lra).
      assert (X : exists x, l - e < low x).
      { apply Classical_Prop.NNPP. intros F. apply N. intros y [x ->]. apply Rnot_lt_le. intros W. apply F. exists x. auto. }
      destruct X as [x Hx]. exists x. intros y Hy. apply He. assert (Q := low_mono x y ltac:(lra)). assert (W := Ub (low y) (ex_intro _ y eq_refl)).
      change (Rabs (low y + - l) < e). cbv beta in *. unfold Rabs; destruct (Rcase_abs _); lra.
Qed.
End Existence.

Theorem gamma_exists : exists Gam Pinc, is_gamma Gam Pinc.
Proof.
  set (Gam := fun a => real (Lim (low a) p_infty)). exists Gam, (fun a x => low a x / Gam a). intros a Ha.
  destruct (low_limit a Ha) as (l & Pl & L). assert (EG : Gam a = l) by (unfold Gam; rewrite (is_lim_unique _ _ _ L); reflexivity).
  rewrite EG. split; [auto|]. split; [|split].
  - intros x Px. apply (is_derive_ext (low a)); [intros t; change (low a t = low a t / l * l); field; lra|].
    rewrite <- g_pos by auto. apply low_derive; auto.
  - intros P [e He]. assert (Pe := cond_pos e).
    assert (C : continuous (low a) 0) by (apply (ex_derive_continuous (low a)); eexists; apply low_derive; auto).
    assert (Pe' : 0 < e * l) by (apply Rmult_lt_0_compat; auto).
    destruct (C (ball (low a 0) (e * l)) (locally_ball (low a 0) (mkposreal _ Pe'))) as [d Hd]. exists d. intros y Hy _. apply He.
    specialize (Hd y Hy). rewrite low_0 in Hd. unfold ball in *; cbn in *; unfold AbsRing_ball, abs, minus, plus, opp in *; cbn in *.
    rewrite Ropp_0, Rplus_0_r in *. unfold Rdiv. rewrite Rabs_mult, (Rabs_pos_eq (/ l)) by (apply Rlt_le, Rinv_0_lt_compat; auto).
    apply (Rmult_lt_reg_r l); [auto|]. rewrite Rmult_assoc, Rinv_l by lra. lra.
  - replace (Finite 1) with (Finite (/ l * l)) by (f_equal; field; lra).
    apply (is_lim_ext (fun x => / l * low a x)); [intros y; field; lra|]. apply (is_lim_scal_l (low a) (/ l) p_infty (Finite l) L).
Qed.

(** ** C40 *)
Notation BG gam inc ppf fuel hm0 N d cot tol := (compute_BG gam inc ppf fuel (Fin hm0) N (Fin d) (Fin cot) (Fin tol)).
(** normalised transition height *)
Definition relative_transition (hm0 d cot : R) : R := transition_height d cot / rms_height hm0 d.

(** whatever the special functions compute and however many passes the loop makes: what is returned is
    empty in deep water and otherwise three points of the composite Weibull curve, or not-a-number *)
Theorem C40_distribution Gam Pinc gam inc ppf fuel hm0 N d cot tol hs ps :
  special Gam Pinc gam inc -> weibull2 ppf ->
  0 < hm0 -> 0 < d -> 0 < cot -> 0 <= tol < 1 -> (2 <= N)%Z ->
  BG gam inc ppf fuel hm0 N d cot tol = Ok (hs, ps) ->
  (275 / 100 < relative_transition hm0 d cot -> hs = [] /\ ps = [])
  /\ (relative_transition hm0 d cot <= 275 / 100 -> on_curve Gam Pinc hm0 d cot tol N hs ps \/ not_a_number d cot N hs ps).
Proof. intros. eapply BG_result; eauto. Qed.

(** with the gamma functions the loop always terminates and not-a-number never occurs *)
Theorem C40_converges Gam Pinc gam inc ppf hm0 N d cot tol :
  is_gamma Gam Pinc -> special Gam Pinc gam inc -> weibull2 ppf ->
  0 < hm0 -> 0 < d -> 0 < cot -> 0 < tol < 1 -> (2 <= N)%Z ->
  exists enough : nat, forall fuel, (enough <= fuel)%nat ->
  exists hs ps, BG gam inc ppf fuel hm0 N d cot tol = Ok (hs, ps)
  /\ (275 / 100 < relative_transition hm0 d cot -> hs = [] /\ ps = [])
  /\ (relative_transition hm0 d cot <= 275 / 100 -> on_curve Gam Pinc hm0 d cot tol N hs ps).
Proof.
  intros HG Hs Hw Ph Pd Pc Ht HN. destruct (Rle_dec (relative_transition hm0 d cot) (275 / 100)) as [L|L].
  - destruct (root_good Gam Pinc HG (relative_transition hm0 d cot)) as [z Hz].
    + split; [|auto]. apply Rdiv_lt_0_compat; [apply Htr_pos|apply Hrms_pos]; auto.
    + exists (passes tol z). intros fuel Hf.
      destruct (BG_terminates Gam Pinc gam inc Hs ppf hm0 d cot tol N z fuel) as (hs & ps & E & C); auto.
      exists hs, ps. split; [exact E|]. split; [lra|auto].
  - exists 0%nat. intros fuel _. exists [], []. split; [|split; [auto|lra]].
    rewrite (BG_unfold gam inc ppf) by auto. unfold relative_transition in L. rewrite Rltb_true by lra. reflexivity.
Qed.

Theorem C40_deep_water gam inc ppf fuel hm0 N d cot tol :
  0 < hm0 -> 0 < d -> 0 < cot -> 275 / 100 < relative_transition hm0 d cot ->
  BG gam inc ppf fuel hm0 N d cot tol = Ok ([], []).
Proof.
  intros Ph Pd Pc L. rewrite (BG_unfold gam inc ppf) by auto. unfold relative_transition in L. rewrite Rltb_true by lra. reflexivity.
Qed.

(** the three exceedance probabilities are in order: 1 > P(Htr), and the third point is 1/N *)
Corollary C40_probabilities Gam Pinc hm0 d cot tol N hs ps : 0 < d -> 0 < cot -> (2 <= N)%Z -> on_curve Gam Pinc hm0 d cot tol N hs ps ->
  exists ptr, ps = [Fin 1; Fin ptr; Fin (/ IZR N)] /\ 0 < ptr < 1.
Proof.
  intros Pd Pc HN (H1 & H2 & x & c & P1 & P2 & C & _ & _ & _ & _ & _ & ->). eexists. split; [reflexivity|].
  unfold exceedance. destruct (Rlt_dec _ _); [lra|]. split; [apply exp_pos|]. rewrite <- exp_0. apply exp_increasing.
  assert (Q := exp_pos (36 / 10 * ln (transition_height d cot / H2))). unfold Rpower. lra.
Qed.
(** the largest height never exceeds the Rayleigh height with exceedance 1/N *)
Corollary C40_rayleigh_cap Gam Pinc hm0 d cot tol N hs ps : 0 < hm0 -> (2 <= N)%Z -> on_curve Gam Pinc hm0 d cot tol N hs ps ->
  exists x, hs = [Fin 0; Fin (transition_height d cot); Fin x] /\ x <= hm0 * sqrt (ln (IZR N) / 2).
Proof.
  intros Ph HN (H1 & H2 & x & c & P1 & P2 & C & _ & _ & Pc & Ec & -> & _). eexists. split; [reflexivity|].
  apply Rle_trans with c; [apply Rmin_r|]. assert (PN : 2 <= IZR N) by (apply (IZR_le 2); auto).
  assert (E : 2 * (c / hm0) ^ 2 = ln (IZR N)).
  { assert (Q := f_equal ln Ec). rewrite ln_exp, ln_Rinv in Q by lra. lra. }
  rewrite <- E. replace (2 * (c / hm0) ^ 2 / 2) with ((c / hm0) ^ 2) by (field; lra).
  rewrite sqrt_pow2 by (apply Rmult_le_pos; [auto|apply Rlt_le, Rinv_0_lt_compat; auto]). right. field. lra.
Qed.

(** tolerances outside (0,1): the initial estimate 10 passes a tolerance of 9 and the loop body, which
    binds the second scale, never runs; with a negative tolerance the loop never ends *)
Theorem C40_large_tolerance_error gam inc ppf fuel hm0 N d cot tol :
  0 < hm0 -> 0 < d -> 0 < cot -> relative_transition hm0 d cot <= 275 / 100 -> 9 <= tol ->
  BG gam inc ppf fuel hm0 N d cot tol = Raise UnboundLocalError.
Proof.
  intros Ph Pd Pc L Ht. rewrite (BG_unfold gam inc ppf) by auto. unfold relative_transition in L. rewrite Rltb_false by lra.
  assert (E : bg_loop gam inc fuel (Fin (transition_height d cot / rms_height hm0 d)) (Fin tol) (nofZ (n:=NX) 100, None, nofZ (n:=NX) 10)
    = Ok (nofZ (n:=NX) 100, None, nofZ (n:=NX) 10)) by (apply loop_stop; rewrite Rabs_pos_eq; lra).
  rewrite E. reflexivity.
Qed.
Theorem C40_negative_tolerance_diverges Gam Pinc gam inc ppf fuel hm0 N d cot tol :
  is_gamma Gam Pinc -> special Gam Pinc gam inc ->
  0 < hm0 -> 0 < d -> 0 < cot -> relative_transition hm0 d cot <= 275 / 100 -> tol < 0 ->
  BG gam inc ppf fuel hm0 N d cot tol = Raise OutOfFuel.
Proof.
  intros HG Hs Ph Pd Pc L Ht. rewrite (BG_unfold gam inc ppf) by auto. unfold relative_transition in L. rewrite Rltb_false by lra.
  set (r := transition_height d cot / rms_height hm0 d) in *.
  assert (Pr : 0 < r) by (apply Rdiv_lt_0_compat; [apply Htr_pos|apply Hrms_pos]; auto).
  destruct (root_good Gam Pinc HG r (conj Pr L)) as (z & Pz & Ez & Up & Dn).
  assert (Go : forall n h H2 e, (z <= h <= 100 \/ 100 <= h <= z) -> bg_loop gam inc n (Fin r) (Fin tol) ((Fin h : car NX), H2, (Fin e : car NX)) = Raise OutOfFuel).
  { induction n as [|n IH]; intros h H2 e Hh.
    - cbn [bg_loop]. rewrite fin_1, fin_sub, fin_abs, fin_ltb, Rltb_true by (assert (Q := Rabs_pos (e - 1)); lra). reflexivity.
    - rewrite (loop_go Gam Pinc gam inc Hs) by (auto; try lra; assert (Q := Rabs_pos (e - 1)); lra).
      apply IH. unfold pass. destruct Hh as [Hh|Hh]; [left; specialize (Up h Hh)|right; specialize (Dn h Hh)]; lra. }
  assert (E : bg_loop gam inc fuel (Fin r) (Fin tol) (nofZ (n:=NX) 100, None, nofZ (n:=NX) 10) = Raise OutOfFuel); [|rewrite E; reflexivity].
  apply Go. destruct (Rle_dec z 100); lra.
Qed.

(** the hypotheses are met: the gamma functions exist, and the documented example is in range *)
Example C40_witness : exists Gam Pinc gam inc ppf,
  is_gamma Gam Pinc /\ special Gam Pinc gam inc /\ weibull2 ppf /\ relative_transition 2 (45 / 10) 50 <= 275 / 100.
Proof.
  destruct gamma_exists as (Gam & Pinc & HG). exists Gam, Pinc.
  exists (fun x => match x with Fin a => Fin (Gam a) | _ => NaN end).
  exists (fun x y => match x, y with Fin a, Fin b => Fin (Pinc a b) | Fin _, PInf => Fin 1 | _, _ => NaN end).
  exists (fun q s => match q, s with Fin q, Fin s => Fin (s * sqrt (- ln (1 - q))) | _, _ => NaN end).
  split; [auto|]. split; [repeat split|]. split.
  - intros q s Hq Ps. eexists. split; [reflexivity|].
    assert (L : 0 <= - ln (1 - q)) by (assert (W := ln_le (1 - q) 1 ltac:(lra) ltac:(lra)); rewrite ln_1 in W; lra).
    split; [apply Rmult_le_pos; [lra|apply sqrt_pos]|].
    replace (s * sqrt (- ln (1 - q)) / s) with (sqrt (- ln (1 - q))) by (field; lra). rewrite pow2_sqrt by auto.
    rewrite Ropp_involutive, exp_ln by lra. ring.
  - unfold relative_transition, transition_height, rms_height. apply (Rmult_le_reg_r ((269 / 100 + 324 / 100 * (2 / 4) / (45 / 10)) * (2 / 4))); [lra|].
    unfold Rdiv at 1. rewrite Rmult_assoc, Rinv_l by lra. lra.
Qed.
