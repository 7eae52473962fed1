(** * C40: the Battjes-Groenendijk (2000) composite Weibull wave height distribution *)

From Coq Require Import Reals ZArith List Bool Lra Lia.
From Coquelicot Require Import Coquelicot.
From Verif Require Import Num XR Spec XRFacts Engine WaveModel.
Import ListNotations.
Open Scope R_scope.

(** ** Specification *)

(** exceedance probability of the composite Weibull distribution: shape 2 and scale H1 below the
    transition height, shape 3.6 and scale H2 above it *)
Definition exceedance (H1 H2 Htr h : R) : R :=
  if Rlt_dec h Htr then exp (- (h / H1) ^ 2) else exp (- Rpower (h / H2) (36 / 10)).
(** the two branches meet at the transition height *)
Definition continuous_at_transition (H1 H2 Htr : R) : Prop :=
  exp (- (Htr / H1) ^ 2) = exp (- Rpower (Htr / H2) (36 / 10)).

Section Gamma.
(** Gam a: the gamma function; Pinc a x: the regularised lower incomplete gamma function *)
Variable Gam : R -> R.
Variable Pinc : R -> R -> R.
(** mean square wave height of that distribution *)
Definition mean_square (H1 H2 Htr : R) : R :=
  H1 ^ 2 * (Pinc 2 ((Htr / H1) ^ 2) * Gam 2)
  + H2 ^ 2 * ((1 - Pinc (14 / 9) (Rpower (Htr / H2) (36 / 10))) * Gam (14 / 9)).

(** ** Normalised quantities *)
Definition scale2 (r h : R) : R := r / Rpower (r / h) (5 / 9).
Definition norm (r h : R) : R := mean_square h (scale2 r h) r.

Lemma scale2_pos r h : 0 < r -> 0 < h -> 0 < scale2 r h.
Proof. intros A B. apply Rdiv_lt_0_compat; [auto|apply exp_pos]. Qed.
Lemma scale2_meets r h : 0 < r -> 0 < h -> Rpower (r / scale2 r h) (36 / 10) = (r / h) ^ 2.
Proof.
  intros A B. assert (P : 0 < r / h) by (apply Rdiv_lt_0_compat; auto). unfold scale2.
  replace (r / (r / Rpower (r / h) (5 / 9))) with (Rpower (r / h) (5 / 9)) by (field; split; [apply Rgt_not_eq, exp_pos|lra]).
  rewrite Rpower_mult. replace (5 / 9 * (36 / 10)) with (INR 2) by (cbn; lra). apply Rpower_pow; auto.
Qed.

Variables (gam : NX -> NX) (inc : NX -> NX -> NX).
Definition special : Prop :=
  (forall a, 0 < a -> gam (Fin a) = Fin (Gam a))
  /\ (forall a x, 0 < a -> 0 <= x -> inc (Fin a) (Fin x) = Fin (Pinc a x))
  /\ (forall a, 0 < a -> inc (Fin a) PInf = Fin 1).
Hypothesis Hsp : special.

Lemma k12 : ndiv (n:=NX) bg_k1 bg_k2 = Fin (5 / 9).
Proof. unfold bg_k1, bg_k2. rewrite fin_ofZ, fin_lit, fin_div by lra. f_equal. field. Qed.
Lemma A1_val : nadd (n:=NX) (ndiv (n:=NX) (nofZ 2) bg_k1) n1 = Fin 2.
Proof. unfold bg_k1. rewrite fin_ofZ, fin_div by lra. rewrite fin_1, fin_add. f_equal. field. Qed.
Lemma A2_val : nadd (n:=NX) (ndiv (n:=NX) (nofZ 2) bg_k2) n1 = Fin (14 / 9).
Proof. unfold bg_k2. rewrite fin_ofZ, fin_lit, fin_div by lra. rewrite fin_1, fin_add. f_equal. field. Qed.

Lemma H2_pos r h : 0 < r -> 0 < h -> bg_H2 (N:=NX) (Fin r) (Fin h) = Fin (scale2 r h).
Proof.
  intros Pr Ph. unfold bg_H2. rewrite k12, fin_div by lra. rewrite fin_pow by (apply Rdiv_lt_0_compat; auto).
  rewrite fin_div by (apply Rgt_not_eq, exp_pos). reflexivity.
Qed.
Lemma EST_pos r h : 0 < r -> 0 < h -> bg_EST gam inc (Fin r) (Fin h) = Fin (norm r h).
Proof.
  intros Pr Ph. destruct Hsp as (Hg & Hi & _). unfold bg_EST. cbv zeta. rewrite A1_val, A2_val, H2_pos by auto.
  assert (P : 0 < r / h) by (apply Rdiv_lt_0_compat; auto).
  rewrite fin_div by lra. rewrite !fin_mul. rewrite !Hg, !Hi by nra. rewrite !fin_mul, fin_sub, fin_mul, fin_add.
  f_equal. unfold norm, mean_square. rewrite scale2_meets by auto.
  replace (r / h * (r / h)) with ((r / h) ^ 2) by ring. ring.
Qed.
Lemma H2_neg r h : h < 0 -> 0 < r -> bg_H2 (N:=NX) (Fin r) (Fin h) = NaN.
Proof.
  intros Nh Pr. unfold bg_H2. rewrite k12, fin_div by lra. cbn.
  assert (r / h < 0) by (unfold Rdiv; assert (/ h < 0) by (apply Rinv_lt_0_compat; auto); nra).
  destruct (Req_EM_T (5 / 9) 0); [lra|]. destruct (Rlt_dec 0 (r / h)); [lra|]. destruct (Req_EM_T (r / h) 0); [lra|]. reflexivity.
Qed.
Lemma nan_add_r a : nadd (n:=NX) a NaN = NaN. Proof. destruct a; reflexivity. Qed.
Lemma EST_neg r h : h < 0 -> 0 < r -> bg_EST gam inc (Fin r) (Fin h) = NaN.
Proof.
  intros Nh Pr. unfold bg_EST. cbv zeta. rewrite H2_neg by auto.
  change (nmul (n:=NX) NaN NaN) with NaN.
  match goal with |- nadd _ (nmul NaN ?x) = _ => change (nmul (n:=NX) NaN x) with (nmul (n:=NX) NaN x); destruct x; apply nan_add_r end.
Qed.
Lemma div_zero r : 0 < r -> ndiv (n:=NX) (Fin r) (Fin 0) = PInf.
Proof. intros Pr. cbn. destruct (Req_EM_T 0 0); [|lra]. unfold xinf_times. destruct (Rlt_dec 0 r); [reflexivity|lra]. Qed.
Lemma pow_inf a : 0 < a -> npow (n:=NX) PInf (Fin a) = PInf.
Proof. intros P. cbn. destruct (Req_EM_T a 0); [lra|]. destruct (Rlt_dec 0 a); [reflexivity|lra]. Qed.
Lemma H2_zero r : 0 < r -> bg_H2 (N:=NX) (Fin r) (Fin 0) = Fin 0.
Proof. intros Pr. unfold bg_H2. rewrite k12, div_zero, pow_inf by lra. reflexivity. Qed.
Lemma EST_zero r : 0 < r -> bg_EST gam inc (Fin r) (Fin 0) = Fin 0.
Proof.
  intros Pr. destruct Hsp as (Hg & _ & Hi). unfold bg_EST. cbv zeta. rewrite A1_val, A2_val, H2_zero by auto.
  rewrite div_zero by auto. change (nmul (n:=NX) PInf PInf) with PInf. rewrite !Hg, !Hi by lra.
  rewrite !fin_mul, fin_sub, fin_mul, fin_add. f_equal. ring.
Qed.

(** one pass of the loop *)
Definition pass (r h : R) : R := h - 1 / 100 * (norm r h - 1).
Lemma delta_val : bg_delta (N:=NX) = Fin (1 / 100).
Proof. unfold bg_delta. rewrite fin_lit by lra. reflexivity. Qed.

(** the state after at least one pass *)
Inductive after (r : R) : car NX * option (car NX) * car NX -> Prop :=
| after_pos h : 0 < h -> after r (Fin (pass r h), Some (Fin (scale2 r h)), Fin (norm r h))
| after_zero : after r (Fin (1 / 100), Some (Fin 0), Fin 0)
| after_nan : after r (NaN, Some NaN, NaN).
Lemma after_step r h : 0 < r ->
  after r (nsub (n:=NX) (Fin h) (nmul (n:=NX) bg_delta (nsub (n:=NX) (bg_EST gam inc (Fin r) (Fin h)) n1)),
           Some (bg_H2 (N:=NX) (Fin r) (Fin h)), bg_EST gam inc (Fin r) (Fin h)).
Proof.
  intros Pr. rewrite delta_val, fin_1. destruct (Rtotal_order h 0) as [L|[-> |L]].
  - rewrite EST_neg, H2_neg by auto. apply after_nan.
  - rewrite EST_zero, H2_zero by auto. rewrite fin_sub, fin_mul, fin_sub.
    replace (0 - 1 / 100 * (0 - 1)) with (1 / 100) by field. apply after_zero.
  - rewrite EST_pos, H2_pos by auto. rewrite fin_sub, fin_mul, fin_sub. apply after_pos; auto.
Qed.
Lemma after_H1 r st : after r st -> (exists h, fst (fst st) = Fin h) \/ st = (NaN, Some NaN, NaN).
Proof. intros []; cbn; eauto. Qed.

Lemma loop_after r tol fuel : 0 < r -> forall st st', after r st ->
  bg_loop gam inc fuel (Fin r) (Fin tol) st = Ok st' ->
  after r st' /\ nltb (n:=NX) (Fin tol) (nabs (n:=NX) (nsub (n:=NX) (snd st') n1)) = false.
Proof.
  intros Pr. induction fuel as [|fuel IH]; intros [[H1 H2] EST] st' Ha; cbn [bg_loop].
  - destruct (nltb _ _) eqn:E; intros L; [discriminate L|]. apply Ok_inj in L. subst st'. auto.
  - destruct (nltb _ _) eqn:E; intros L; [|apply Ok_inj in L; subst st'; auto].
    destruct (after_H1 _ _ Ha) as [[h Eh]|En]; [|injection En as -> -> ->; discriminate E].
    cbn in Eh. subst H1. apply (IH _ _ (after_step r h Pr) L).
Qed.
Lemma loop_init r tol fuel st' : 0 < r -> tol < 9 ->
  bg_loop gam inc fuel (Fin r) (Fin tol) (nofZ (n:=NX) 100, None, nofZ (n:=NX) 10) = Ok st' ->
  after r st' /\ nltb (n:=NX) (Fin tol) (nabs (n:=NX) (nsub (n:=NX) (snd st') n1)) = false.
Proof.
  intros Pr Ht. destruct fuel as [|fuel]; cbn [bg_loop]; rewrite !fin_ofZ, fin_1, fin_sub, fin_abs, fin_ltb;
    (rewrite Rltb_true by (unfold Rabs; destruct (Rcase_abs _); lra)); [discriminate|].
  intros L. exact (loop_after r tol fuel Pr _ _ (after_step r 100 Pr) L).
Qed.

(** scaling: physical heights are Hrms times the normalised ones *)
Lemma mean_square_scale c h1 h2 r : 0 < c -> 0 < h1 -> 0 < h2 -> mean_square (h1 * c) (h2 * c) (r * c) = c ^ 2 * mean_square h1 h2 r.
Proof.
  intros P P1 P2. unfold mean_square. replace (r * c / (h1 * c)) with (r / h1) by (field; lra).
  replace (r * c / (h2 * c)) with (r / h2) by (field; lra). ring.
Qed.

Variable ppf : NX -> NX -> NX.
(** scipy's exponentiated Weibull distribution with both shapes (1, 2) is 1 - exp(-(x/scale)^2) *)
Definition weibull2 : Prop :=
  forall q s, 0 <= q < 1 -> 0 < s -> exists x, ppf (Fin q) (Fin s) = Fin x /\ 0 <= x /\ 1 - exp (- (x / s) ^ 2) = q.

Definition transition_height (d cot : R) : R := (35 / 100 + 58 / 10 / cot) * d.
Definition rms_height (hm0 d : R) : R := (269 / 100 + 324 / 100 * (hm0 / 4) / d) * (hm0 / 4).
Notation BG fuel hm0 N d cot tol := (compute_BG gam inc ppf fuel (Fin hm0) N (Fin d) (Fin cot) (Fin tol)).

Section Run.
Variables (hm0 d cot tol : R) (N : Z).
Hypotheses (Ph : 0 < hm0) (Pd : 0 < d) (Pc : 0 < cot).
Let Htr := transition_height d cot.
Let Hrms := rms_height hm0 d.

Lemma Htr_pos : 0 < Htr.
Proof using Pc Pd. unfold Htr, transition_height. assert (0 < 58 / 10 / cot) by (apply Rdiv_lt_0_compat; lra). nra. Qed.
Lemma Hrms_pos : 0 < Hrms.
Proof using Pd Ph.
  unfold Hrms, rms_height. assert (0 < 324 / 100 * (hm0 / 4) / d) by (apply Rdiv_lt_0_compat; lra). nra.
Qed.

(** the tail of the computation, for a loop state *)
Definition finish (st : car NX * option (car NX) * car NX) : res (list (car NX) * list (car NX)) :=
  let '(H1', H2o, EST) := st in
  let H1n := nadd (n:=NX) H1' (nmul (n:=NX) bg_delta (nsub (n:=NX) EST n1)) in
  let x_1 := nmul (n:=NX) H1n (npow (n:=NX) (nln (n:=NX) (nofZ N)) (ndiv (n:=NX) n1 bg_k1)) in
  let! H2n := match H2o with Some h => Ok h | None => Raise UnboundLocalError end in
  let x_2 := nmul (n:=NX) H2n (npow (n:=NX) (nln (n:=NX) (nofZ N)) (ndiv (n:=NX) n1 bg_k2)) in
  let x := if nltb (n:=NX) x_1 (Fin (Htr / Hrms)) then x_1 else x_2 in
  let x := nmul (n:=NX) x (Fin Hrms) in
  raise_if Z.eqb N 0 with ZeroDivisionError ;;
  let x := pymin2 (N:=NX) x (nmul (n:=NX) (ndiv (n:=NX) (ppf (nsub (n:=NX) n1 (ndiv (n:=NX) n1 (nofZ N))) (nsqrt (n:=NX) (nofZ 8))) (nofZ 4)) (Fin hm0)) in
  let H_1 := nmul (n:=NX) H1n (Fin Hrms) in
  let H_2 := nmul (n:=NX) H2n (Fin Hrms) in
  let P_H_tr :=
    if Rltb hm0 Htr
    then nexp (n:=NX) (nopp (n:=NX) (nmul (n:=NX) (ndiv (n:=NX) (Fin Htr) H_1) (ndiv (n:=NX) (Fin Htr) H_1)))
    else nexp (n:=NX) (nopp (n:=NX) (npow (n:=NX) (ndiv (n:=NX) (Fin Htr) H_2) bg_k2)) in
  Ok ([n0 (N:=NX); Fin Htr; x], [n1 (N:=NX); P_H_tr; ndiv (n:=NX) n1 (nofZ N)]).

Lemma BG_unfold fuel : BG fuel hm0 N d cot tol
  = if Rltb (275 / 100) (Htr / Hrms) then Ok ([], [])
    else bind (bg_loop gam inc fuel (Fin (Htr / Hrms)) (Fin tol) (nofZ (n:=NX) 100, None, nofZ (n:=NX) 10)) finish.
Proof using Ph Pd Pc.
  assert (PH := Hrms_pos). unfold compute_BG. rewrite fin_0, fin_eqb.
  destruct (Reqb_spec cot 0); [lra|]. rewrite !fin_ofZ, !fin_1, !fin_lit by lra.
  rewrite fin_div by lra. rewrite fin_mul, fin_add, fin_mul. rewrite fin_div by lra. rewrite fin_mul.
  rewrite fin_sqrt by nra. rewrite sqrt_square by lra. rewrite fin_mul, fin_div by lra. rewrite fin_add, fin_mul.
  replace ((35 / 100 + 58 / 10 * (1 / cot)) * d) with Htr by (unfold Htr, transition_height; field; lra).
  replace (hm0 / 4 * (269 / 100 + 324 / 100 * (hm0 / 4) / d)) with Hrms by (unfold Hrms, rms_height; ring).
  rewrite fin_div by lra. rewrite !fin_ltb. reflexivity.
Qed.

Lemma k1_half : ndiv (n:=NX) n1 bg_k1 = Fin (1 / 2).
Proof. unfold bg_k1. rewrite fin_1, fin_ofZ, fin_div by lra. reflexivity. Qed.
Lemma k2_inv : ndiv (n:=NX) n1 bg_k2 = Fin (10 / 36).
Proof. unfold bg_k2. rewrite fin_1, fin_lit, fin_div by lra. f_equal. field. Qed.

Hypotheses (HN : (2 <= N)%Z) (Hw : weibull2).

Lemma N_pos : 2 <= IZR N. Proof using HN. apply (IZR_le 2). auto. Qed.
Lemma lnN_pos : 0 < ln (IZR N).
Proof using HN. assert (P := N_pos). rewrite <- ln_1. apply ln_increasing; lra. Qed.

(** the exceedance curve meets itself and passes through (x, 1/N) *)
Lemma quantile H1 H2 x1 x2 : 0 < H1 -> 0 < H2 -> continuous_at_transition H1 H2 Htr ->
  x1 = H1 * Rpower (ln (IZR N)) (1 / 2) -> x2 = H2 * Rpower (ln (IZR N)) (10 / 36) ->
  exceedance H1 H2 Htr (if Rltb x1 Htr then x1 else x2) = / IZR N.
Proof using HN Pc Pd.
  intros P1 P2 Hc E1 E2. assert (L := lnN_pos). assert (PN := N_pos). assert (PT := Htr_pos).
  assert (Q1 : (x1 / H1) ^ 2 = ln (IZR N)).
  { rewrite E1. replace (H1 * Rpower (ln (IZR N)) (1 / 2) / H1) with (Rpower (ln (IZR N)) (1 / 2)) by (field; lra).
    rewrite <- Rpower_pow by apply exp_pos. rewrite Rpower_mult. replace (1 / 2 * INR 2) with 1 by (cbn; lra). apply Rpower_1; auto. }
  assert (Q2 : Rpower (x2 / H2) (36 / 10) = ln (IZR N)).
  { rewrite E2. replace (H2 * Rpower (ln (IZR N)) (10 / 36) / H2) with (Rpower (ln (IZR N)) (10 / 36)) by (field; lra).
    rewrite Rpower_mult. replace (10 / 36 * (36 / 10)) with 1 by lra. apply Rpower_1; auto. }
  assert (X1 : 0 < x1) by (rewrite E1; apply Rmult_lt_0_compat; [auto|apply exp_pos]).
  assert (X2 : 0 < x2) by (rewrite E2; apply Rmult_lt_0_compat; [auto|apply exp_pos]).
  unfold exceedance. destruct (Rltb_spec x1 Htr) as [Lt|Ge].
  - destruct (Rlt_dec x1 Htr); [|lra]. rewrite Q1, exp_Ropp, exp_ln by lra. reflexivity.
  - assert (x2 >= Htr).
    { apply Rle_ge, Rnot_lt_le. intros L2. assert (C : (Htr / H1) ^ 2 = Rpower (Htr / H2) (36 / 10)) by (apply exp_inv in Hc; lra).
      assert (B1 : (Htr / H1) ^ 2 <= (x1 / H1) ^ 2).
      { apply pow_incr. split; [apply Rlt_le, Rdiv_lt_0_compat; auto|]. apply Rmult_le_compat_r; [apply Rlt_le, Rinv_0_lt_compat; auto|lra]. }
      assert (B2 : Rpower (x2 / H2) (36 / 10) < Rpower (Htr / H2) (36 / 10)).
      { unfold Rpower. apply exp_increasing, Rmult_lt_compat_l; [lra|]. apply ln_increasing; [apply Rdiv_lt_0_compat; auto|].
        apply Rmult_lt_compat_r; [apply Rinv_0_lt_compat; auto|lra]. }
      lra. }
    destruct (Rlt_dec x2 Htr); [lra|]. rewrite Q2, exp_Ropp, exp_ln by lra. reflexivity.
Qed.

(** the Rayleigh height with exceedance probability 1/N *)
Lemma cap_value : exists c, nmul (n:=NX) (ndiv (n:=NX) (ppf (nsub (n:=NX) n1 (ndiv (n:=NX) n1 (nofZ N))) (nsqrt (n:=NX) (nofZ 8))) (nofZ 4)) (Fin hm0) = Fin c
  /\ 0 <= c /\ exp (- 2 * (c / hm0) ^ 2) = / IZR N.
Proof using HN Hw Ph.
  assert (PN := N_pos). assert (Q : 0 < / IZR N <= / 2) by (split; [apply Rinv_0_lt_compat; lra|apply Rinv_le_contravar; lra]).
  assert (P8 : 0 < sqrt 8) by (apply sqrt_lt_R0; lra).
  rewrite !fin_ofZ, fin_1, fin_div, fin_sub, fin_sqrt by lra.
  destruct (Hw (1 - 1 / IZR N) (sqrt 8)) as (x & -> & Px & E); [unfold Rdiv; lra|auto|].
  rewrite fin_div, fin_mul by lra. exists (x / 4 * hm0). split; [reflexivity|]. split; [apply Rmult_le_pos; lra|].
  replace (/ IZR N) with (exp (- (x / sqrt 8) ^ 2)) by (unfold Rdiv in E; lra). f_equal.
  replace ((x / sqrt 8) ^ 2) with (x ^ 2 / (sqrt 8 * sqrt 8)) by (field; lra). rewrite sqrt_sqrt by lra. field. lra.
Qed.

Definition on_curve (hs ps : list (car NX)) : Prop :=
  exists H1 H2 x cap, 0 < H1 /\ 0 < H2 /\ continuous_at_transition H1 H2 Htr
  /\ Rabs (mean_square H1 H2 Htr - Hrms ^ 2) <= tol * Hrms ^ 2
  /\ exceedance H1 H2 Htr x = / IZR N
  /\ 0 <= cap /\ exp (- 2 * (cap / hm0) ^ 2) = / IZR N
  /\ hs = [Fin 0; Fin Htr; Fin (Rmin x cap)]
  /\ ps = [Fin 1; Fin (exceedance H1 H2 Htr Htr); Fin (/ IZR N)].
Definition not_a_number (hs ps : list (car NX)) : Prop :=
  hs = [Fin 0; Fin Htr; NaN] /\ ps = [Fin 1; NaN; Fin (/ IZR N)].

Lemma finish_pos h : 0 < h -> Rabs (norm (Htr / Hrms) h - 1) <= tol ->
  exists hs ps, finish (Fin (pass (Htr / Hrms) h), Some (Fin (scale2 (Htr / Hrms) h)), Fin (norm (Htr / Hrms) h)) = Ok (hs, ps) /\ on_curve hs ps.
Proof using Ph Pd Pc HN Hw.
  intros P0 Ht. assert (PH := Hrms_pos). assert (PT := Htr_pos). assert (PN := N_pos). assert (L := lnN_pos).
  set (r := Htr / Hrms) in *. assert (Pr : 0 < r) by (apply Rdiv_lt_0_compat; auto).
  assert (P2 := scale2_pos r h Pr P0). unfold finish. rewrite k1_half, k2_inv.
  rewrite delta_val, fin_1, fin_sub, fin_mul, fin_add. replace (pass r h + 1 / 100 * (norm r h - 1)) with h by (unfold pass; ring).
  rewrite bind_Ok.
  destruct cap_value as (c & Ec & Pcap & Hcap). rewrite fin_1 in Ec. rewrite Ec.
  rewrite !fin_ofZ. rewrite fin_ln by lra. rewrite !fin_pow by auto. rewrite !fin_mul, fin_ltb.
  destruct (Z.eqb_spec N 0); [lia|]. cbv iota.
  set (x1 := h * Rpower (ln (IZR N)) (1 / 2)). set (x2 := scale2 r h * Rpower (ln (IZR N)) (10 / 36)).
  set (H1 := h * Hrms). set (H2 := scale2 r h * Hrms).
  assert (PH1 : 0 < H1) by (apply Rmult_lt_0_compat; auto). assert (PH2 : 0 < H2) by (apply Rmult_lt_0_compat; auto).
  assert (ET : Htr = r * Hrms) by (unfold r; field; lra).
  assert (C0 : (Htr / H1) ^ 2 = Rpower (Htr / H2) (36 / 10)).
  { rewrite ET. unfold H1, H2. replace (r * Hrms / (h * Hrms)) with (r / h) by (field; lra).
    replace (r * Hrms / (scale2 r h * Hrms)) with (r / scale2 r h) by (field; lra). symmetry. apply scale2_meets; auto. }
  assert (C : continuous_at_transition H1 H2 Htr) by (unfold continuous_at_transition; rewrite C0; reflexivity).
  set (x := if Rltb (x1 * Hrms) Htr then x1 * Hrms else x2 * Hrms).
  fold r.
  match goal with |- context [nmul (n:=NX) (if Rltb x1 r then _ else _) ?z] =>
    replace (nmul (n:=NX) (if Rltb x1 r then Fin x1 else Fin x2) z) with (Fin x : car NX) end.
  2:{ unfold x. replace (Rltb (x1 * Hrms) Htr) with (Rltb x1 r); [destruct (Rltb x1 r); rewrite fin_mul; reflexivity|].
      destruct (Rltb_spec x1 r), (Rltb_spec (x1 * Hrms) Htr); auto; rewrite ET in *; nra. }
  do 2 eexists. split; [reflexivity|]. exists H1, H2, x, c. split; [auto|]. split; [auto|]. split; [auto|]. split.
  { rewrite ET. unfold H1, H2. rewrite mean_square_scale by auto. fold (norm r h).
    replace (Hrms ^ 2 * norm r h - Hrms ^ 2) with (Hrms ^ 2 * (norm r h - 1)) by ring. rewrite Rabs_mult, (Rabs_pos_eq (Hrms ^ 2)) by nra.
    assert (0 < Hrms ^ 2) by nra. nra. }
  split; [apply quantile; auto; unfold x1, x2, H1, H2; ring|]. split; [auto|]. split; [auto|]. split.
  - rewrite fin_0. do 2 f_equal. unfold pymin2. rewrite fin_ltb. unfold Rmin. destruct (Rltb_spec c x), (Rle_dec x c); auto; lra.
  - rewrite (fin_div 1 (IZR N)) by lra. replace (1 / IZR N) with (/ IZR N) by (field; lra). f_equal. f_equal.
    assert (D1 : ndiv (n:=NX) (Fin Htr) (Fin H1) = Fin (Htr / H1)) by (apply fin_div; lra).
    assert (D2 : ndiv (n:=NX) (Fin Htr) (Fin H2) = Fin (Htr / H2)) by (apply fin_div; lra).
    fold H1 H2. rewrite D1, D2. unfold bg_k2. rewrite fin_lit by lra. rewrite fin_pow by (apply Rdiv_lt_0_compat; auto).
    rewrite fin_mul, !fin_opp, !fin_exp. unfold exceedance. destruct (Rlt_dec Htr Htr); [lra|].
    destruct (Rltb hm0 Htr); [|reflexivity]. do 2 f_equal. rewrite <- C0. ring.
Qed.

Lemma finish_nan : exists hs ps, finish (NaN, Some NaN, NaN) = Ok (hs, ps) /\ not_a_number hs ps.
Proof using Ph HN Hw.
  assert (PN := N_pos). unfold finish. rewrite delta_val. cbn [bind]. destruct (Z.eqb_spec N 0); [lia|].
  destruct cap_value as (c & Ec & _). rewrite Ec.
  do 2 eexists. split; [reflexivity|]. split.
  - reflexivity.
  - rewrite fin_1, fin_ofZ, fin_div by lra. replace (1 / IZR N) with (/ IZR N) by (field; lra). f_equal. f_equal. destruct (Rltb hm0 Htr); [reflexivity|].
    unfold bg_k2. rewrite fin_lit by lra. change (nmul (n:=NX) NaN (Fin Hrms)) with NaN. change (ndiv (n:=NX) (Fin Htr) NaN) with NaN. cbn.
    destruct (Req_EM_T (36 / 10) 0); [lra|reflexivity].
Qed.

Theorem BG_result fuel hs ps : 0 <= tol < 1 -> BG fuel hm0 N d cot tol = Ok (hs, ps) ->
  (275 / 100 < Htr / Hrms -> hs = [] /\ ps = [])
  /\ (Htr / Hrms <= 275 / 100 -> on_curve hs ps \/ not_a_number hs ps).
Proof using Ph Pd Pc HN Hw Hsp.
  intros Ht. rewrite BG_unfold. assert (PH := Hrms_pos). assert (PT := Htr_pos). assert (Pr : 0 < Htr / Hrms) by (apply Rdiv_lt_0_compat; auto).
  destruct (Rltb_spec (275 / 100) (Htr / Hrms)) as [D|D]; intros E.
  - apply Ok_inj in E. injection E as <- <-. split; [auto|lra].
  - split; [lra|]. intros _. apply bind_inv in E as (st & L & E).
    apply loop_init in L as [Ha Hx]; [|auto|lra]. destruct Ha as [h P0| | ].
    + cbn [snd] in Hx. rewrite fin_1, fin_sub, fin_abs, fin_ltb in Hx.
      destruct (Rltb_spec tol (Rabs (norm (Htr / Hrms) h - 1))); [discriminate|].
      destruct (finish_pos h P0) as (hs' & ps' & E' & H'); [lra|]. rewrite E in E'. apply Ok_inj in E'. injection E' as -> ->. auto.
    + exfalso. cbn [snd] in Hx. rewrite fin_1, fin_sub, fin_abs, fin_ltb in Hx.
      destruct (Rltb_spec tol (Rabs (0 - 1))) as [|Q]; [discriminate|]. unfold Rabs in Q; destruct (Rcase_abs (0 - 1)); lra.
    + destruct finish_nan as (hs' & ps' & E' & H'). rewrite E in E'. apply Ok_inj in E'. injection E' as -> ->. auto.
Qed.
End Run.

(** ** Termination: the iteration is a damped fixed-point iteration for [norm r h = 1] *)

(** what makes it work: a root towards which every pass moves without overshooting *)
Definition good_root (r hstar : R) : Prop :=
  0 < hstar /\ norm r hstar = 1
  /\ (forall h, hstar <= h <= 100 -> 0 <= norm r h - 1 <= 100 * (h - hstar))
  /\ (forall h, 100 <= h <= hstar -> 0 <= 1 - norm r h <= 100 * (hstar - h)).

Lemma loop_stop fuel r tol h H2 e : Rabs (e - 1) <= tol ->
  bg_loop gam inc fuel (Fin r) (Fin tol) (Fin h, H2, Fin e) = Ok (Fin h, H2, Fin e).
Proof using.
  intros Q. destruct fuel; cbn [bg_loop]; rewrite fin_1, fin_sub, fin_abs, fin_ltb, Rltb_false by lra; reflexivity.
Qed.
Lemma loop_go fuel r tol h H2 e : 0 < r -> 0 < h -> tol < Rabs (e - 1) ->
  bg_loop gam inc (S fuel) (Fin r) (Fin tol) (Fin h, H2, Fin e)
  = bg_loop gam inc fuel (Fin r) (Fin tol) (Fin (pass r h), Some (Fin (scale2 r h)), Fin (norm r h)).
Proof using Hsp.
  intros Pr P Q. cbn [bg_loop]. rewrite fin_1, fin_sub, fin_abs, fin_ltb, Rltb_true by lra.
  rewrite EST_pos, H2_pos, delta_val by auto. rewrite fin_sub, fin_mul, fin_sub. reflexivity.
Qed.
Lemma loop_terminates r tol hstar : 0 < r -> 0 < tol -> good_root r hstar ->
  forall n h e H2, (hstar <= h <= 100 \/ 100 <= h <= hstar) -> Rabs (h - hstar) <= INR n * (tol / 100) ->
  exists h' H2' e', bg_loop gam inc (S n) (Fin r) (Fin tol) (Fin h, H2, Fin e) = Ok (Fin h', H2', Fin e').
Proof using Hsp.
  intros Pr Ht (Ps & Es & Up & Dn). induction n as [|n IH]; intros h e H2 Hh Hd;
    (destruct (Rle_dec (Rabs (e - 1)) tol) as [Q|Q]; [rewrite loop_stop by auto; eauto|apply Rnot_le_lt in Q]);
    rewrite loop_go by (auto || lra).
  - assert (h = hstar) as -> by (cbn in Hd; unfold Rabs in Hd; destruct (Rcase_abs (h - hstar)); lra).
    rewrite loop_stop by (rewrite Es; unfold Rabs; destruct (Rcase_abs (1 - 1)); lra). eauto.
  - destruct (Rle_dec (Rabs (norm r h - 1)) tol) as [Q1|Q1]; [rewrite loop_stop by auto; eauto|apply Rnot_le_lt in Q1].
    apply IH.
    + unfold pass. destruct Hh as [Hh|Hh]; [left; specialize (Up h Hh)|right; specialize (Dn h Hh)]; lra.
    + rewrite S_INR in Hd. unfold pass.
      destruct Hh as [Hh|Hh]; [specialize (Up h Hh)|specialize (Dn h Hh)].
      * rewrite Rabs_pos_eq in Hd, Q1 by lra. rewrite Rabs_pos_eq by lra. lra.
      * rewrite Rabs_left1 in Hd, Q1 by lra. rewrite Rabs_left1 by lra. lra.
Qed.

(** number of passes that is always enough *)
Definition passes (tol hstar : R) : nat := S (Z.to_nat (up (Rabs (100 - hstar) * 100 / tol))).
Lemma passes_enough tol hstar : 0 < tol -> Rabs (100 - hstar) <= INR (Z.to_nat (up (Rabs (100 - hstar) * 100 / tol))) * (tol / 100).
Proof using.
  intros Ht. set (q := Rabs (100 - hstar) * 100 / tol). assert (Pq : 0 <= q).
  { apply Rmult_le_pos; [assert (P := Rabs_pos (100 - hstar)); lra|apply Rlt_le, Rinv_0_lt_compat; auto]. }
  destruct (archimed q) as [Q _]. assert (0 <= up q)%Z by (apply le_IZR; lra).
  rewrite INR_IZR_INZ, Z2Nat.id by auto. apply Rle_trans with (q * (tol / 100)); [|apply Rmult_le_compat_r; lra].
  right. unfold q. field. lra.
Qed.

Theorem BG_terminates hm0 d cot tol N hstar fuel :
  0 < hm0 -> 0 < d -> 0 < cot -> 0 < tol < 1 -> (2 <= N)%Z -> weibull2 ->
  transition_height d cot / rms_height hm0 d <= 275 / 100 ->
  good_root (transition_height d cot / rms_height hm0 d) hstar -> (passes tol hstar <= fuel)%nat ->
  exists hs ps, BG fuel hm0 N d cot tol = Ok (hs, ps) /\ on_curve hm0 d cot tol N hs ps.
Proof using Hsp.
  intros Ph Pd Pc Ht HN Hw Hr Hroot Hfuel. rewrite BG_unfold by auto. rewrite Rltb_false by lra.
  assert (PH := Hrms_pos hm0 d Ph Pd). assert (PT := Htr_pos d cot Pd Pc).
  set (r := transition_height d cot / rms_height hm0 d) in *. assert (Pr : 0 < r) by (apply Rdiv_lt_0_compat; auto).
  destruct (loop_terminates r tol hstar Pr ltac:(lra) Hroot (pred fuel) 100 10 None) as (h' & H2' & e' & E).
  - destruct (Rle_dec hstar 100); lra.
  - eapply Rle_trans; [apply (passes_enough tol hstar); lra|]. apply Rmult_le_compat_r; [lra|]. apply le_INR. unfold passes in Hfuel. lia.
  - replace (S (pred fuel)) with fuel in E by (unfold passes in Hfuel; lia).
    change (bg_loop gam inc fuel (Fin r) (Fin tol) (nofZ (n:=NX) 100, None, nofZ (n:=NX) 10) = Ok (Fin h', H2', Fin e' : car NX)) in E.
    rewrite E, bind_Ok.
    destruct (loop_init r tol fuel (Fin h', H2', Fin e') Pr ltac:(lra) E) as [Ha Hx].
    cbn [snd] in Hx. rewrite fin_1, fin_sub, fin_abs, fin_ltb in Hx. destruct (Rltb_spec tol (Rabs (e' - 1))) as [|Q]; [discriminate|].
    inversion Ha; subst.
    + apply finish_pos; auto. unfold r in *. lra.
    + exfalso. unfold Rabs in Q; destruct (Rcase_abs (0 - 1)); lra.
Qed.
End Gamma.
