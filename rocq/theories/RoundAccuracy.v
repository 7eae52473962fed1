(** * C80: how accurate the spectral moments, Hm0 and the mean periods are in binary64.
    The same code run with every operation rounded to binary64 (NB) and run exactly (NX) on the same data: the relative difference is
    at most a few times the number of frequencies times 2^-53. *)

From Coq Require Import Reals ZArith String List Bool Lra Lia.
From Flocq Require Import Core.
From Verif Require Import SumOrder Num XR Engine Cpx SpectralModel WaveModel SpectrumModel SeriesModel Spec XRFacts TimeSpec EngineProps TimeProps
  FourierSpec FourierFacts SeriesProps SimpsonFacts MomentProps PeakProps RoundNum RoundProps RoundWave RoundSpec RoundChain RoundPeriod.
Import ListNotations.
Open Scope R_scope.

Section AnyOrder.
Context {So : summation} {Lm : libm}.

(** ** A calculus of relative errors: b is a up to k roundings *)
Definition rel (k : nat) (a b : R) : Prop := a * (1 - u53) ^ k <= b <= a * (1 + u53) ^ k.

Lemma u_pos : 0 < u53. Proof. rewrite u53_val. lra. Qed.
Lemma lo_pos k : 0 < (1 - u53) ^ k. Proof. apply pow_lt. rewrite u53_val. lra. Qed.
Lemma hi_pos k : 0 < (1 + u53) ^ k. Proof. apply pow_lt. rewrite u53_val. lra. Qed.
Lemma lo_1 k : (1 - u53) ^ k <= 1. Proof. apply Rle_trans with (1 ^ k); [apply pow_incr; rewrite u53_val; lra|rewrite pow1; lra]. Qed.
Lemma hi_1 k : 1 <= (1 + u53) ^ k. Proof. apply pow_R1_Rle. rewrite u53_val. lra. Qed.
Lemma lo_bern k : 1 - INR k * u53 <= (1 - u53) ^ k.
Proof.
  assert (U := u53_val). induction k as [|k IH]; [cbn; lra|]. rewrite S_INR. cbn [pow]. assert (P := pos_INR k). assert (P0 := lo_pos k). assert (P1 := lo_1 k).
  assert (Uu := u_pos). nra.
Qed.
Lemma hi_bern k : 1 + INR k * u53 <= (1 + u53) ^ k.
Proof.
  assert (U := u53_val). induction k as [|k IH]; [cbn; lra|]. rewrite S_INR. cbn [pow]. assert (P := pos_INR k). assert (P0 := hi_1 k). assert (Uu := u_pos). nra.
Qed.
Lemma hi_up k : (1 + u53) ^ k * (1 - INR k * u53) <= 1.
Proof.
  assert (U := u53_val). assert (Uu := u_pos). induction k as [|k IH]; [cbn; lra|]. rewrite S_INR. cbn [pow]. assert (P := pos_INR k). assert (P0 := hi_pos k).
  apply Rle_trans with ((1 + u53) ^ k * (1 - INR k * u53)); [|exact IH].
  replace ((1 + u53) * (1 + u53) ^ k * (1 - (INR k + 1) * u53)) with ((1 + u53) ^ k * (1 - INR k * u53 - (INR k + 1) * (u53 * u53))) by ring.
  apply Rmult_le_compat_l; [lra|]. assert (0 <= (INR k + 1) * (u53 * u53)) by (apply Rmult_le_pos; [lra|nra]). lra.
Qed.
Lemma lo_down k : (1 - u53) ^ k * (1 + INR k * u53) <= 1.
Proof.
  assert (U := u53_val). assert (Uu := u_pos). induction k as [|k IH]; [cbn; lra|]. rewrite S_INR. cbn [pow]. assert (P := pos_INR k). assert (P0 := lo_pos k).
  apply Rle_trans with ((1 - u53) ^ k * (1 + INR k * u53)); [|exact IH].
  replace ((1 - u53) * (1 - u53) ^ k * (1 + (INR k + 1) * u53)) with ((1 - u53) ^ k * (1 + INR k * u53 - (INR k + 1) * (u53 * u53))) by ring.
  apply Rmult_le_compat_l; [lra|]. assert (0 <= (INR k + 1) * (u53 * u53)) by (apply Rmult_le_pos; [lra|nra]). lra.
Qed.

Lemma rel_refl a : rel 0 a a. Proof. unfold rel. cbn. lra. Qed.
Lemma rel_weaken j k a b : 0 <= a -> (j <= k)%nat -> rel j a b -> rel k a b.
Proof.
  intros Ha Hjk [A B]. replace k with (j + (k - j))%nat by lia. unfold rel. rewrite !pow_add.
  assert (L := lo_1 (k - j)). assert (H := hi_1 (k - j)). assert (PL := lo_pos j). assert (PH := hi_pos j). assert (PL' := lo_pos (k - j)).
  split.
  - eapply Rle_trans; [|exact A]. apply Rmult_le_compat_l; [exact Ha|]. rewrite <- (Rmult_1_r ((1 - u53) ^ j)) at 2. apply Rmult_le_compat_l; lra.
  - eapply Rle_trans; [exact B|]. apply Rmult_le_compat_l; [exact Ha|]. rewrite <- (Rmult_1_r ((1 + u53) ^ j)) at 1. apply Rmult_le_compat_l; lra.
Qed.
Lemma rel_nonneg k a b : 0 <= a -> rel k a b -> 0 <= b.
Proof. intros Ha [A _]. assert (P := lo_pos k). eapply Rle_trans; [|exact A]. apply Rmult_le_pos; lra. Qed.
Lemma rel_pos k a b : 0 < a -> rel k a b -> 0 < b.
Proof. intros Ha [A _]. assert (P := lo_pos k). eapply Rlt_le_trans; [|exact A]. apply Rmult_lt_0_compat; lra. Qed.
Lemma rel_zero k b : rel k 0 b -> b = 0. Proof. intros [A B]. lra. Qed.
Lemma rel_mul j k a b c d : 0 <= a -> 0 <= c -> rel j a b -> rel k c d -> rel (j + k) (a * c) (b * d).
Proof.
  intros Ha Hc Hab Hcd. assert (Hb := rel_nonneg _ _ _ Ha Hab). assert (Hd := rel_nonneg _ _ _ Hc Hcd). destruct Hab as [A B], Hcd as [C D].
  unfold rel. rewrite !pow_add. assert (P1 := lo_pos j). assert (P2 := lo_pos k). assert (P3 := hi_pos j). assert (P4 := hi_pos k). split.
  - replace (a * c * ((1 - u53) ^ j * (1 - u53) ^ k)) with ((a * (1 - u53) ^ j) * (c * (1 - u53) ^ k)) by ring.
    apply Rmult_le_compat; auto; apply Rmult_le_pos; lra.
  - replace (a * c * ((1 + u53) ^ j * (1 + u53) ^ k)) with ((a * (1 + u53) ^ j) * (c * (1 + u53) ^ k)) by ring.
    apply Rmult_le_compat; auto.
Qed.
Lemma rel_add k a b c d : rel k a b -> rel k c d -> rel k (a + c) (b + d).
Proof. unfold rel. intros [A B] [C D]. lra. Qed.
Lemma rel_inv k c d : 0 < c -> rel k c d -> rel (2 * k) (/ c) (/ d).
Proof.
  intros Hc Hcd. assert (Hd := rel_pos _ _ _ Hc Hcd). destruct Hcd as [C D]. unfold rel.
  assert (P2 := lo_pos k). assert (P4 := hi_pos k). assert (U := u53_val). replace (2 * k)%nat with (k + k)%nat by lia. rewrite !pow_add.
  assert (I1 : (1 - u53) ^ k * (1 + u53) ^ k <= 1).
  { rewrite <- Rpow_mult_distr. apply Rle_trans with (1 ^ k); [apply pow_incr; rewrite U; lra|rewrite pow1; lra]. }
  assert (I2 : 1 <= (1 - u53) ^ k * ((1 + u53) ^ k * (1 + u53) ^ k)).
  { rewrite <- !Rpow_mult_distr. apply pow_R1_Rle. rewrite U. lra. }
  assert (L := lo_1 k). split.
  - apply Rmult_le_reg_r with (c * d); [apply Rmult_lt_0_compat; lra|].
    replace (/ c * ((1 - u53) ^ k * (1 - u53) ^ k) * (c * d)) with (d * ((1 - u53) ^ k * (1 - u53) ^ k)) by (field; lra).
    replace (/ d * (c * d)) with c by (field; lra).
    apply Rle_trans with (c * (1 + u53) ^ k * ((1 - u53) ^ k * (1 - u53) ^ k)); [apply Rmult_le_compat_r; [nra|exact D]|].
    replace (c * (1 + u53) ^ k * ((1 - u53) ^ k * (1 - u53) ^ k)) with (c * (((1 - u53) ^ k * (1 + u53) ^ k) * (1 - u53) ^ k)) by ring.
    rewrite <- (Rmult_1_r c) at 2. apply Rmult_le_compat_l; [lra|]. nra.
  - apply Rmult_le_reg_r with (c * d); [apply Rmult_lt_0_compat; lra|].
    replace (/ d * (c * d)) with c by (field; lra).
    replace (/ c * ((1 + u53) ^ k * (1 + u53) ^ k) * (c * d)) with (d * ((1 + u53) ^ k * (1 + u53) ^ k)) by (field; lra).
    apply Rle_trans with (c * (1 - u53) ^ k * ((1 + u53) ^ k * (1 + u53) ^ k)); [|apply Rmult_le_compat_r; [nra|exact C]].
    rewrite Rmult_assoc. rewrite <- (Rmult_1_r c) at 1. apply Rmult_le_compat_l; lra.
Qed.
Lemma rel_div j k a b c d : 0 <= a -> 0 < c -> rel j a b -> rel k c d -> rel (j + 2 * k) (a / c) (b / d).
Proof.
  intros Ha Hc Hab Hcd. unfold Rdiv. apply rel_mul; auto; [|apply rel_inv; auto]. apply Rlt_le, Rinv_0_lt_compat, Hc.
Qed.

(** sizes: nothing underflows *)
Definition thr (a : R) : Prop := a = 0 \/ bpow radix2 (-1010) <= a.
Lemma thr_nonneg a : thr a -> 0 <= a.
Proof. intros [->|H]; [lra|]. assert (P := b_pos (-1010)). lra. Qed.
Lemma half_lo k : (Z.of_nat k <= 2 ^ 40)%Z -> / 2 <= (1 - u53) ^ k.
Proof.
  intros Hk. eapply Rle_trans; [|apply lo_bern]. assert (I : INR k <= IZR (2 ^ 40)) by (rewrite INR_IZR_INZ; apply IZR_le, Hk).
  assert (U := u53_val). assert (P := u_pos). change (IZR (2 ^ 40)) with 1099511627776 in I. rewrite U. lra.
Qed.
Lemma rel_rnd k a b : (Z.of_nat k <= 2 ^ 40)%Z -> thr a -> rel k a b -> rel (S k) a (rnd b).
Proof.
  intros Hk [->|Ha] H.
  - rewrite (rel_zero _ _ H), rnd_id by apply float_0. unfold rel. lra.
  - destruct H as [A B]. assert (L := half_lo k Hk). assert (P := b_pos (-1010)).
    destruct (rnd_in (a * (1 - u53) ^ k) (a * (1 + u53) ^ k) b) as [C D]; [|auto|].
    + apply Rle_trans with (bpow radix2 (-1010) * / 2); [|apply Rmult_le_compat; lra].
      change (-1010)%Z with (-10 + -1000)%Z. change (-1020)%Z with (-20 + -1000)%Z. rewrite !bpow_plus. assert (Q := b_pos (-1000)).
      replace (bpow radix2 (-10)) with (/ 1024) by (cbn; lra). replace (bpow radix2 (-20)) with (/ 1048576) by (cbn; lra). lra.
    + unfold rel. cbn [pow]. split; [eapply Rle_trans; [|exact C]|eapply Rle_trans; [exact D|]]; apply Req_le; ring.
Qed.

Lemma rel_2minus k r r' : (k <= 100)%nat -> 9 / 10 <= r <= 11 / 10 -> rel k r r' -> rel (2 * k) (2 - r) (2 - r').
Proof.
  intros Hk Hr [A B]. assert (U := u53_val). assert (Uu := u_pos). assert (I : 0 <= INR k <= 100) by (split; [apply pos_INR|apply le_INR in Hk; cbn in Hk; lra]).
  assert (L := lo_bern k). assert (H := hi_up k). assert (HB := hi_bern (2 * k)). assert (LB := lo_down (2 * k)).
  assert (E2 : INR (2 * k) = 2 * INR k) by (rewrite mult_INR; reflexivity). rewrite E2 in HB, LB.
  assert (P0 := lo_pos (2 * k)). assert (P1 := hi_pos k).
  set (e := INR k * u53) in *. assert (He : 0 <= e <= / 1000) by (unfold e; rewrite U in *; nra).
  replace (2 * INR k * u53) with (2 * e) in HB, LB by (unfold e; ring).
  assert (H1 : (1 + u53) ^ k <= 1 + e + 2 * e * e).
  { apply Rmult_le_reg_r with (1 - e); [lra|]. eapply Rle_trans; [exact H|]. nra. }
  assert (L1 : (1 - u53) ^ (2 * k) <= 1 - 2 * e + 4 * e * e).
  { apply Rmult_le_reg_r with (1 + 2 * e); [lra|]. eapply Rle_trans; [exact LB|]. nra. }
  split.
  - apply Rle_trans with ((2 - r) * (1 - 2 * e + 4 * e * e)); [apply Rmult_le_compat_l; lra|].
    assert (r' <= r * (1 + e + 2 * e * e)) by (eapply Rle_trans; [exact B|]; apply Rmult_le_compat_l; lra). nra.
  - apply Rle_trans with ((2 - r) * (1 + 2 * e)); [|apply Rmult_le_compat_l; lra].
    assert (r * (1 - e) <= r') by (eapply Rle_trans; [|exact A]; apply Rmult_le_compat_l; lra). nra.
Qed.

(** ** Simpson's rule *)

(** exact steps near h, h between 2^-90 and 2^100 *)
Definition hok (h : R) : Prop := bpow radix2 (-90) <= h.
Definition close (h d : R) : Prop := 63 / 64 * h <= d <= 65 / 64 * h.
(** a value of the integrand: zero or not tiny *)
Definition yok (y : R) : Prop := y = 0 \/ bpow radix2 (-720) <= y.

Lemma thr_add a b : thr a -> thr b -> thr (a + b).
Proof.
  intros [->|Ha] [->|Hb]; assert (P := b_pos (-1010)).
  - left. lra. - right. lra. - right. lra. - right. lra.
Qed.
Lemma thr_mul a c : yok a -> bpow radix2 (-285) <= c -> thr (a * c).
Proof.
  intros [->|Ha] Hc; [left; lra|]. right. apply Rle_trans with (bpow radix2 (-720) * bpow radix2 (-285)).
  - rewrite <- bpow_plus. apply bpow_le. lia.
  - apply Rmult_le_compat; auto; apply Rlt_le, b_pos.
Qed.
Lemma thr_big c : bpow radix2 (-285) <= c -> thr c.
Proof. intros H. right. eapply Rle_trans; [apply bpow_le|exact H]. lia. Qed.
Lemma b285 c : / 1000 <= c -> bpow radix2 (-285) <= c.
Proof. intros H. apply Rle_trans with (bpow radix2 (-10)); [apply bpow_le; lia|]. replace (bpow radix2 (-10)) with (/ 1024) by (cbn; lra). lra. Qed.
Lemma b285_h h c v : hok h -> / 100000 * h <= v -> / 1000 <= c -> bpow radix2 (-285) <= c * v.
Proof.
  intros Hh Hv Hc. unfold hok in Hh. assert (P := b_pos (-90)).
  apply Rle_trans with (/ 1000 * (/ 100000 * bpow radix2 (-90))); [|apply Rmult_le_compat; lra].
  replace (bpow radix2 (-285)) with (bpow radix2 (-30) * (bpow radix2 (-165) * bpow radix2 (-90))) by (rewrite <- !bpow_plus; f_equal).
  assert (Q : bpow radix2 (-165) <= 1) by (apply (bpow_le radix2 (-165) 0); lia). assert (P2 := b_pos (-165)).
  replace (bpow radix2 (-30)) with (/ 1073741824) by (cbn; lra). nra.
Qed.

Lemma yok_nonneg y : yok y -> 0 <= y.
Proof. intros [->|H]; [lra|]. assert (Z := b_pos (-720)). lra. Qed.
Ltac rn := apply rel_rnd; [lia| |].
Section Panel.
  Variables (h h0 h1 : R) (j : nat).
  Hypothesis Hh : bpow radix2 (-90) <= h <= bpow radix2 100.
  Hypothesis C0 : close h h0.
  Hypothesis C1 : close h h1.
  Hypothesis Hj : (j <= 100)%nat.

  Lemma h_pos : 0 < h. Proof. assert (P := b_pos (-90)). lra. Qed.
  Lemma hs : 0 < h /\ 63 / 64 * h <= h0 <= 65 / 64 * h /\ 63 / 64 * h <= h1 <= 65 / 64 * h.
  Proof. assert (P := h_pos). unfold close in *. lra. Qed.
  Lemma r01 : 9 / 10 <= h0 / h1 <= 11 / 10.
  Proof. destruct hs as (P & A & B). split; [apply le_div|apply div_le]; lra. Qed.
  Lemma r10 : 9 / 10 <= h1 / h0 <= 11 / 10.
  Proof. destruct hs as (P & A & B). split; [apply le_div|apply div_le]; lra. Qed.
  Lemma t1 c : / 1000 * h <= c -> bpow radix2 (-285) <= c.
  Proof.
    intros H. replace c with (1 * c) by ring. apply (b285_h h); [apply Hh| |lra]. assert (P := h_pos). lra.
  Qed.
  Lemma hk k : (k <= 3)%nat -> bpow radix2 (-275) <= h ^ k.
  Proof.
    intros Hk. assert (L : bpow radix2 (-90) ^ k <= h ^ k) by (apply pow_incr; split; [apply Rlt_le, b_pos|apply Hh]).
    rewrite bpow_pow in L. eapply Rle_trans; [apply bpow_le|exact L]. lia.
  Qed.
  Lemma t_pow k c v : (k <= 3)%nat -> v = h ^ k -> / 1000 * v <= c -> bpow radix2 (-285) <= c.
  Proof.
    intros Hk -> Hc. assert (B := hk k Hk). eapply Rle_trans; [|exact Hc].
    apply Rle_trans with (/ 1000 * bpow radix2 (-275)); [|lra].
    change (-285)%Z with (-10 + -275)%Z. rewrite bpow_plus. replace (bpow radix2 (-10)) with (/ 1024) by (cbn; lra). assert (P := b_pos (-275)). lra.
  Qed.
  Lemma ih : bpow radix2 (-100) <= / h.
  Proof. change (-100)%Z with (- (100))%Z. rewrite bpow_opp. apply Rinv_le_contravar; [apply h_pos|]. apply Hh. Qed.

  Lemma e0 : rel 1 h0 (rnd h0). Proof. destruct hs as (P & A & B). rn; [apply thr_big, t1; lra|apply rel_refl]. Qed.
  Lemma e1 : rel 1 h1 (rnd h1). Proof. destruct hs as (P & A & B). rn; [apply thr_big, t1; lra|apply rel_refl]. Qed.
  Lemma pos0 : 0 < rnd h0. Proof. eapply rel_pos; [|apply e0]. destruct hs. lra. Qed.
  Lemma pos1 : 0 < rnd h1. Proof. eapply rel_pos; [|apply e1]. destruct hs. lra. Qed.
  Lemma esum : rel 2 (h0 + h1) (rnd (rnd h0 + rnd h1)).
  Proof. destruct hs as (P & A & B). rn; [apply thr_big, t1; lra|]. apply rel_add; [apply e0|apply e1]. Qed.
  Lemma prod_in : 63 / 64 * h * (63 / 64 * h) <= h0 * h1 <= 65 / 64 * h * (65 / 64 * h).
  Proof. destruct hs as (P & A & B). split; apply Rmult_le_compat; lra. Qed.
  Lemma hh_pos : 0 < h * h. Proof. assert (P := h_pos). apply Rmult_lt_0_compat; auto. Qed.
  Lemma eprod : rel 3 (h0 * h1) (rnd (rnd h0 * rnd h1)).
  Proof.
    destruct hs as (P & A & B). rn; [apply thr_big, (t_pow 2 _ (h * h)); [lia|ring|assert (Q := prod_in); assert (Q2 := hh_pos); lra]|].
    apply (rel_mul 1 1); [lra|lra|apply e0|apply e1].
  Qed.
  Lemma eq01 : rel 4 (h0 / h1) (fdiv (rnd h0) (rnd h1)).
  Proof.
    destruct hs as (P & A & B). assert (R := r01). assert (P1 := pos1). rewrite fdiv_ne by lra.
    rn; [apply thr_big, b285; lra|]. apply (rel_div 1 1); [lra|lra|apply e0|apply e1].
  Qed.
  Lemma eq10 : rel 9 (h1 / h0) (fdiv 1 (fdiv (rnd h0) (rnd h1))).
  Proof.
    destruct hs as (P & A & B). assert (R := r01). assert (R' := r10). assert (Q := eq01). assert (PQ := rel_pos 4 (h0 / h1) _ ltac:(lra) Q).
    rewrite fdiv_ne by lra. rn; [apply thr_big, b285; lra|].
    replace (h1 / h0) with (1 / (h0 / h1)) by (field; lra). apply (rel_div 0 4); [lra|lra|apply rel_refl|exact Q].
  Qed.
  Lemma ew0 : rel 19 (2 - h1 / h0) (pw0 (rnd h0) (rnd h1)).
  Proof.
    assert (R' := r10). unfold pw0. rn; [apply thr_big, b285; lra|]. apply (rel_2minus 9); [lia|lra|apply eq10].
  Qed.
  Lemma ew2 : rel 9 (2 - h0 / h1) (pw2 (rnd h0) (rnd h1)).
  Proof.
    assert (R' := r01). unfold pw2. rn; [apply thr_big, b285; lra|]. apply (rel_2minus 4); [lia|lra|apply eq01].
  Qed.
  Lemma w1_in : 38 / 10 <= (h0 + h1) * ((h0 + h1) / (h0 * h1)) <= 42 / 10.
  Proof.
    destruct hs as (P & A & B). assert (Q := prod_in). assert (Q2 := hh_pos). assert (D : 0 < h0 * h1) by lra. replace ((h0 + h1) * ((h0 + h1) / (h0 * h1))) with ((h0 + h1) * (h0 + h1) / (h0 * h1)) by (field; lra).
    split; [apply le_div|apply div_le]; nra.
  Qed.
  Lemma q_big : bpow radix2 (-285) <= (h0 + h1) / (h0 * h1).
  Proof.
    destruct hs as (P & A & B). assert (I := ih). assert (Q := prod_in). assert (Q2 := hh_pos). apply Rle_trans with (/ h); [eapply Rle_trans; [apply bpow_le|exact I]; lia|].
    apply le_div; [lra|]. apply Rle_trans with (/ h * (65 / 64 * h * (65 / 64 * h))).
    - apply Rmult_le_compat_l; [apply Rlt_le, Rinv_0_lt_compat, P|]. apply Q.
    - replace (/ h * (65 / 64 * h * (65 / 64 * h))) with (4225 / 4096 * h) by (field; lra). lra.
  Qed.
  Lemma ew1 : rel 12 ((h0 + h1) * ((h0 + h1) / (h0 * h1))) (pw1 (rnd h0) (rnd h1)).
  Proof.
    destruct hs as (P & A & B). assert (W := w1_in). unfold pw1. assert (D : 0 < h0 * h1) by (assert (Q := prod_in); assert (Q2 := hh_pos); lra). assert (PQ := rel_pos _ _ _ D eprod).
    assert (QB := q_big). assert (Z := b_pos (-285)).
    rewrite fdiv_ne by lra. rn; [apply thr_big, b285; lra|]. apply (rel_mul 2 9); [lra|lra|apply esum|].
    rn; [apply thr_big, QB|]. apply (rel_div 2 3); [lra|exact D|apply esum|apply eprod].
  Qed.
  Lemma epanel x0 x1 x2 y0 y1 y2 y0' y1' y2' : x1 - x0 = h0 -> x2 - x1 = h1 -> yok y0 -> yok y1 -> yok y2 ->
    rel j y0 y0' -> rel j y1 y1' -> rel j y2 y2' ->
    thr (rpanel x0 x1 x2 y0 y1 y2) /\ rel (j + 26) (rpanel x0 x1 x2 y0 y1 y2) (fpanel (rnd h0) (rnd h1) y0' y1' y2').
  Proof.
    intros E0 E1 Y0 Y1 Y2 R0 R1 R2. unfold rpanel, fpanel. rewrite E0, E1. cbv zeta. destruct hs as (P & A & B).
    assert (Q01 := r01). assert (Q10 := r10). assert (W1 := w1_in).
    assert (N : forall y, yok y -> 0 <= y) by (intros y [->|H]; [lra|]; assert (Z := b_pos (-720)); lra).
    assert (G0 := N _ Y0). assert (G1 := N _ Y1). assert (G2 := N _ Y2).
    assert (T0 : rel (j + 20) (y0 * (2 - h1 / h0)) (rnd (y0' * pw0 (rnd h0) (rnd h1)))).
    { replace (j + 20)%nat with (S (j + 19)) by lia. rn; [apply thr_mul; [exact Y0|apply b285; lra]|]. apply rel_mul; [exact G0|lra|exact R0|apply ew0]. }
    assert (T1 : rel (j + 20) (y1 * ((h0 + h1) * ((h0 + h1) / (h0 * h1)))) (rnd (y1' * pw1 (rnd h0) (rnd h1)))).
    { apply (rel_weaken (S (j + 12))); [apply Rmult_le_pos; lra|lia|]. rn; [apply thr_mul; [exact Y1|apply b285; lra]|].
      apply rel_mul; [exact G1|lra|exact R1|apply ew1]. }
    assert (T2 : rel (j + 21) (y2 * (2 - h0 / h1)) (rnd (y2' * pw2 (rnd h0) (rnd h1)))).
    { apply (rel_weaken (S (j + 9))); [apply Rmult_le_pos; lra|lia|]. rn; [apply thr_mul; [exact Y2|apply b285; lra]|].
      apply rel_mul; [exact G2|lra|exact R2|apply ew2]. }
    assert (T01 : rel (j + 21) (y0 * (2 - h1 / h0) + y1 * ((h0 + h1) * ((h0 + h1) / (h0 * h1)))) (rnd (rnd (y0' * pw0 (rnd h0) (rnd h1)) + rnd (y1' * pw1 (rnd h0) (rnd h1))))).
    { replace (j + 21)%nat with (S (j + 20)) by lia. rn; [apply thr_add; apply thr_mul; auto; apply b285; lra|]. apply rel_add; auto. }
    set (S3 := y0 * (2 - h1 / h0) + y1 * ((h0 + h1) * ((h0 + h1) / (h0 * h1))) + y2 * (2 - h0 / h1)).
    assert (TS : rel (j + 22) S3 (rnd (rnd (rnd (y0' * pw0 (rnd h0) (rnd h1)) + rnd (y1' * pw1 (rnd h0) (rnd h1))) + rnd (y2' * pw2 (rnd h0) (rnd h1))))).
    { replace (j + 22)%nat with (S (j + 21)) by lia. rn; [unfold S3; repeat apply thr_add; apply thr_mul; auto; apply b285; lra|]. apply rel_add; auto. }
    assert (S3y : S3 = 0 \/ bpow radix2 (-722) <= S3).
    { assert (K : forall y w, 9 / 10 <= w -> yok y -> y * w = 0 \/ bpow radix2 (-722) <= y * w).
      { intros y w Hw [->|Hy]; [left; lra|right]. change (-722)%Z with (-2 + -720)%Z. rewrite bpow_plus. replace (bpow radix2 (-2)) with (/ 4) by (cbn; lra).
        assert (Z := b_pos (-720)). nra. }
      assert (Z := b_pos (-722)). destruct (K y0 (2 - h1 / h0) ltac:(lra) Y0), (K y1 _ (ltac:(lra) : 9/10 <= (h0 + h1) * ((h0 + h1) / (h0 * h1))) Y1), (K y2 (2 - h0 / h1) ltac:(lra) Y2);
        unfold S3; (left; lra) || (right; lra). }
    assert (G3 : 0 <= S3) by (destruct S3y as [->|H]; [lra|]; assert (Z := b_pos (-722)); lra).
    assert (T6 : rel 3 ((h0 + h1) / 6) (rnd (rnd (rnd h0 + rnd h1) / 6))).
    { rn; [apply thr_big, t1; lra|]. apply (rel_div 2 0); [lra|lra|apply esum|apply rel_refl]. }
    fold S3. assert (TT : thr ((h0 + h1) / 6 * S3)); [|split; [exact TT|]; replace (j + 26)%nat with (S (3 + (j + 22))) by lia; rn; [exact TT|apply rel_mul; auto; lra]].
    destruct S3y as [->|S3y]; [left; lra|]. right. rewrite Rmult_comm.
    apply Rle_trans with (bpow radix2 (-722) * bpow radix2 (-285)); [rewrite <- bpow_plus; apply bpow_le; lia|].
    apply Rmult_le_compat; [apply Rlt_le, b_pos|apply Rlt_le, b_pos|exact S3y|]. apply t1. lra.
  Qed.
  (** Cartwright's rule for the last interval *)
  Lemma sq_in : 63 / 64 * h * (63 / 64 * h) <= h1 * h1 <= 65 / 64 * h * (65 / 64 * h).
  Proof. destruct hs as (P & A & B). split; apply Rmult_le_compat; lra. Qed.
  Lemma e_sq : rel 3 (h1 * h1) (rnd (rnd h1 * rnd h1)).
  Proof.
    destruct hs as (P & A & B). assert (Q := sq_in). assert (Q2 := hh_pos). rn; [apply thr_big, (t_pow 2 _ (h * h)); [lia|ring|lra]|].
    apply (rel_mul 1 1); [lra|lra|apply e1|apply e1].
  Qed.
  Lemma e_c c k v v' : / 1000 <= c -> (k <= 1000)%nat -> bpow radix2 (-275) <= v -> rel k v v' -> rel (S k) (c * v) (rnd (c * v')).
  Proof.
    intros Hc Hk Hv R. assert (Z := b_pos (-275)). rn.
    - apply thr_big. apply Rle_trans with (/ 1000 * bpow radix2 (-275)); [|apply Rmult_le_compat; lra].
      change (-285)%Z with (-10 + -275)%Z. rewrite bpow_plus. replace (bpow radix2 (-10)) with (/ 1024) by (cbn; lra). lra.
    - apply (rel_mul 0 k); [lra|lra|apply rel_refl|exact R].
  Qed.
  Lemma hk' k c v : (k <= 3)%nat -> v = h ^ k -> / 4 * v <= c -> bpow radix2 (-275) <= c.
  Proof.
    intros Hk -> Hc. eapply Rle_trans; [|exact Hc]. assert (L : bpow radix2 (-90) ^ k <= h ^ k) by (apply pow_incr; split; [apply Rlt_le, b_pos|apply Hh]).
    rewrite bpow_pow in L. apply Rle_trans with (bpow radix2 (-2) * bpow radix2 (-270)); [rewrite <- bpow_plus; apply bpow_le; lia|].
    replace (bpow radix2 (-2)) with (/ 4) by (cbn; lra). apply Rmult_le_compat_l; [lra|]. eapply Rle_trans; [apply bpow_le|exact L]. lia.
  Qed.
  Lemma e_30h : rel 4 (3 * h0 * h1) (rnd (rnd (3 * rnd h0) * rnd h1)).
  Proof.
    destruct hs as (P & A & B). assert (Q := prod_in). assert (Q2 := hh_pos). rn; [apply thr_big, (t_pow 2 _ (h * h)); [lia|ring|lra]|].
    apply (rel_mul 2 1); [lra|lra| |apply e1]. apply e_c; [lra|lia| |apply e0]. apply (hk' 1 _ h); [lia|ring|lra].
  Qed.
  Lemma ealpha : rel 12 ((2 * (h1 * h1) + 3 * h0 * h1) / (6 * (h1 + h0)))
    (fdiv (rnd (rnd (2 * rnd (rnd h1 * rnd h1)) + rnd (rnd (3 * rnd h0) * rnd h1))) (rnd (6 * rnd (rnd h1 + rnd h0)))).
  Proof.
    destruct hs as (P & A & B). assert (Q := prod_in). assert (Q' := sq_in). assert (Q2 := hh_pos).
    assert (D : rel 3 (6 * (h1 + h0)) (rnd (6 * rnd (rnd h1 + rnd h0)))).
    { apply e_c; [lra|lia|apply (hk' 1 _ h); [lia|ring|lra]|]. rewrite (Rplus_comm h1), (Rplus_comm (rnd h1)). apply esum. }
    assert (N : rel 5 (2 * (h1 * h1) + 3 * h0 * h1) (rnd (rnd (2 * rnd (rnd h1 * rnd h1)) + rnd (rnd (3 * rnd h0) * rnd h1)))).
    { rn; [apply thr_big, (t_pow 2 _ (h * h)); [lia|ring|lra]|]. apply rel_add; [|apply e_30h]. apply e_c; [lra|lia|apply (hk' 2 _ (h * h)); [lia|ring|lra]|apply e_sq]. }
    assert (PD := rel_pos 3 (6 * (h1 + h0)) _ ltac:(lra) D). rewrite fdiv_ne by lra.
    rn; [|apply (rel_div 5 3); [lra|lra|exact N|exact D]]. apply thr_big, t1. apply le_div; [lra|]. nra.
  Qed.
  Lemma ebeta : rel 10 ((h1 * h1 + 3 * h0 * h1) / (6 * h0))
    (fdiv (rnd (rnd (rnd h1 * rnd h1) + rnd (rnd (3 * rnd h0) * rnd h1))) (rnd (6 * rnd h0))).
  Proof.
    destruct hs as (P & A & B). assert (Q := prod_in). assert (Q' := sq_in). assert (Q2 := hh_pos).
    assert (D : rel 2 (6 * h0) (rnd (6 * rnd h0))).
    { apply e_c; [lra|lia|apply (hk' 1 _ h); [lia|ring|lra]|]. apply e0. }
    assert (N : rel 5 (h1 * h1 + 3 * h0 * h1) (rnd (rnd (rnd h1 * rnd h1) + rnd (rnd (3 * rnd h0) * rnd h1)))).
    { rn; [apply thr_big, (t_pow 2 _ (h * h)); [lia|ring|lra]|]. apply rel_add; [|apply e_30h]. apply (rel_weaken 3); [lra|lia|apply e_sq]. }
    assert (PD := rel_pos 2 (6 * h0) _ ltac:(lra) D). rewrite fdiv_ne by lra.
    rn; [|apply (rel_div 5 2); [lra|lra|exact N|exact D]]. apply thr_big, t1. apply le_div; [lra|]. nra.
  Qed.
  Lemma cube_in : 95 / 100 * (h * (h * h)) <= h1 * h1 * h1 <= 105 / 100 * (h * (h * h)).
  Proof.
    destruct hs as (P & A & B). assert (Q := sq_in). assert (Q2 := hh_pos). split.
    - apply Rle_trans with (63 / 64 * h * (63 / 64 * h) * (63 / 64 * h)); [nra|]. apply Rmult_le_compat; nra.
    - apply Rle_trans with (65 / 64 * h * (65 / 64 * h) * (65 / 64 * h)); [apply Rmult_le_compat; nra|nra].
  Qed.
  Lemma eden_in : 11 * (h * h) <= 6 * h0 * (h0 + h1) <= 13 * (h * h).
  Proof.
    destruct hs as (P & A & B). assert (Q2 := hh_pos). split.
    - apply Rle_trans with (6 * (63 / 64 * h) * (63 / 64 * h + 63 / 64 * h)); [nra|]. apply Rmult_le_compat; nra.
    - apply Rle_trans with (6 * (65 / 64 * h) * (65 / 64 * h + 65 / 64 * h)); [apply Rmult_le_compat; nra|nra].
  Qed.
  Lemma eta_in : 7 / 100 * h <= h1 * h1 * h1 / (6 * h0 * (h0 + h1)) <= 10 / 100 * h.
  Proof.
    destruct hs as (P & A & B). assert (C := cube_in). assert (D := eden_in). assert (Q2 := hh_pos). split.
    - apply le_div; [lra|]. nra.
    - apply div_le; [lra|]. nra.
  Qed.
  Lemma eeta : rel 20 (h1 * h1 * h1 / (6 * h0 * (h0 + h1))) (feta (rnd h0) (rnd h1)).
  Proof.
    destruct hs as (P & A & B). assert (C := cube_in). assert (D := eden_in). assert (Q2 := hh_pos). assert (Q := sq_in).
    assert (H3 : 0 < h * (h * h)) by (apply Rmult_lt_0_compat; lra).
    assert (N : rel 5 (h1 * h1 * h1) (rnd (rnd (rnd h1 * rnd h1) * rnd h1))).
    { rn; [apply thr_big, (t_pow 3 _ (h * (h * h))); [lia|ring|lra]|]. apply (rel_mul 3 1); [lra|lra|apply e_sq|apply e1]. }
    assert (R6 : rel 2 (6 * h0) (rnd (6 * rnd h0))).
    { apply e_c; [lra|lia|apply (hk' 1 _ h); [lia|ring|lra]|]. apply e0. }
    assert (R : rel 5 (6 * h0 * (h0 + h1)) (rnd (rnd (6 * rnd h0) * rnd (rnd h0 + rnd h1)))).
    { rn; [apply thr_big, (t_pow 2 _ (h * h)); [lia|ring|lra]|]. apply (rel_mul 2 2); [lra|lra|exact R6|apply esum]. }
    assert (PD := rel_pos 5 (6 * h0 * (h0 + h1)) _ ltac:(lra) R). unfold feta. rewrite fdiv_ne by lra.
    assert (E := eta_in). apply (rel_weaken 16); [lra|lia|].
    rn; [|apply (rel_div 5 5); [lra|lra|exact N|exact R]]. apply thr_big, t1. lra.
  Qed.
  Lemma ecart x0 x1 x2 y0 y1 y2 y0' y1' y2' : x1 - x0 = h0 -> x2 - x1 = h1 -> yok y0 -> yok y1 -> yok y2 ->
    rel j y0 y0' -> rel j y1 y1' -> rel j y2 y2' ->
    exists P Q P' Q', rlast x0 x1 x2 y0 y1 y2 = P - Q /\ fcart (rnd h0) (rnd h1) y0' y1' y2' = rnd (P' - Q')
      /\ thr P /\ rel (j + 21) P P' /\ rel (j + 21) Q Q' /\ 0 <= Q <= 10 / 100 * h * y0.
  Proof.
    intros E0 E1 Y0 Y1 Y2 R0 R1 R2. unfold rlast, fcart. rewrite E0, E1. cbv zeta. destruct hs as (P & A & B). assert (Q := prod_in). assert (Q' := sq_in). assert (Q2 := hh_pos).
    assert (G0 := yok_nonneg _ Y0). assert (G1 := yok_nonneg _ Y1). assert (G2 := yok_nonneg _ Y2). assert (Et := eta_in).
    set (al := (2 * (h1 * h1) + 3 * h0 * h1) / (6 * (h1 + h0))). set (be := (h1 * h1 + 3 * h0 * h1) / (6 * h0)). set (et := h1 * h1 * h1 / (6 * h0 * (h0 + h1))) in *.
    assert (Al : / 1000 * h <= al) by (apply le_div; nra). assert (Be : / 1000 * h <= be) by (apply le_div; nra).
    assert (Ta : thr (al * y2)) by (rewrite Rmult_comm; apply thr_mul; [exact Y2|apply t1, Al]).
    assert (Tb : thr (be * y1)) by (rewrite Rmult_comm; apply thr_mul; [exact Y1|apply t1, Be]).
    assert (Te : thr (et * y0)) by (rewrite Rmult_comm; apply thr_mul; [exact Y0|apply t1; lra]).
    exists (al * y2 + be * y1), (et * y0). eexists. eexists. split; [ring|]. split; [reflexivity|]. split; [apply thr_add; auto|].
    split; [|split; [|split; [apply thr_nonneg, Te|apply Rmult_le_compat_r; lra]]].
    - apply (rel_weaken (S (j + 13))); [apply thr_nonneg, thr_add; auto|lia|]. rn; [apply thr_add; auto|]. apply rel_add.
      + replace (j + 13)%nat with (S (12 + j)) by lia. rn; [exact Ta|]. apply rel_mul; [lra|lra|apply ealpha|exact R2].
      + apply (rel_weaken (S (10 + j))); [apply thr_nonneg, Tb|lia|]. rn; [exact Tb|]. apply rel_mul; [lra|lra|apply ebeta|exact R1].
    - replace (j + 21)%nat with (S (20 + j)) by lia. rn; [exact Te|]. apply rel_mul; [lra|lra|apply eeta|exact R0].
  Qed.
End Panel.

Definition exact_steps (h : R) (x : list R) : Prop := forall i, (S i < length x)%nat -> close h (nth (S i) x 0 - nth i x 0).
Lemma esteps_tl h a l : exact_steps h (a :: l) -> exact_steps h l.
Proof. intros H i Hi. apply (H (S i)). cbn. lia. Qed.
Definition values_ok (j : nat) (y y' : list R) : Prop :=
  length y = length y' /\ forall i, (i < length y)%nat -> yok (nth i y 0) /\ rel j (nth i y 0) (nth i y' 0).
Lemma vok_tl j a b l l' : values_ok j (a :: l) (b :: l') -> values_ok j l l'.
Proof. intros [L H]. split; [cbn in L; lia|]. intros i Hi. apply (H (S i)). cbn. lia. Qed.

(** a sum of non-negative terms computed from terms with a known relative error *)
Lemma fsum_rel_terms k (l l' : list R) : (Z.of_nat (k + length l) <= 2 ^ 40)%Z -> length l = length l' ->
  (forall i, (i < length l)%nat -> thr (nth i l 0) /\ rel k (nth i l 0) (nth i l' 0)) ->
  thr (Rsum l) /\ rel (k + length l) (Rsum l) (fsum l').
Proof.
  intros Hk L H. destruct l as [|v l0]; [destruct l'; [|discriminate L]; split; [left; reflexivity|unfold rel; cbn; lra]|].
  set (l := v :: l0) in *. assert (Nl : l <> []) by discriminate. clearbody l. assert (Nl' : l' <> []) by (intros ->; destruct l; [auto|discriminate L]).
  rewrite fsum_tval by exact Nl'. rewrite <- (tsum_order l Nl), <- L. assert (Ll := leaves_order l Nl).
  assert (K : forall i, In i (leaves (order So (length l))) -> (i < length l)%nat) by (intros i; apply leaf_in; exact Nl).
  rewrite <- Ll in Hk.
  replace (k + length l)%nat with (k + length (leaves (order So (length l))))%nat by (rewrite Ll; reflexivity). clear Ll. revert Hk K. generalize (order So (length l)). intros t.
  induction t as [i|a IHa b IHb]; intros Hk K.
  - destruct (H i (K i (or_introl eq_refl))) as [T E]. unfold tsum, tval. cbn [leaves map teval length].
    change (Rsum [nth i l 0]) with (nth i l 0 + 0). rewrite Rplus_0_r. split; [exact T|]. apply (rel_weaken k); [apply thr_nonneg, T|lia|exact E].
  - cbn [leaves] in Hk, K. rewrite app_length in Hk.
    destruct IHa as [Ta Ea]; [lia|intros i Hi; apply K, in_or_app; auto|].
    destruct IHb as [Tb Eb]; [lia|intros i Hi; apply K, in_or_app; auto|].
    unfold tsum in *. cbn [leaves]. rewrite map_app, Rsum_app, app_length. assert (TT := thr_add _ _ Ta Tb). split; [exact TT|].
    assert (Pa := leaves_pos a). assert (Pb := leaves_pos b). set (m1 := length (leaves a)) in *. set (m2 := length (leaves b)) in *.
    change (tval l' (Node a b)) with (rnd (tval l' a + tval l' b)).
    replace (k + (m1 + m2))%nat with (S (k + (m1 + m2 - 1))) by lia. apply rel_rnd; [lia|exact TT|].
    apply rel_add; [apply (rel_weaken (k + m1)); [apply thr_nonneg, Ta|lia|exact Ea]|apply (rel_weaken (k + m2)); [apply thr_nonneg, Tb|lia|exact Eb]].
Qed.
Fixpoint rpanels (x y : list R) : list R :=
  match x, y with
  | x0 :: x1 :: ((x2 :: _) as x'), y0 :: y1 :: ((y2 :: _) as y') => rpanel x0 x1 x2 y0 y1 y2 :: rpanels x' y'
  | _, _ => []
  end.
Lemma rpanels_sum x : forall y, Rsum (rpanels x y) = rbasic x y.
Proof.
  induction x as [| |a b|a b c l IH] using two_ind; intros y; try reflexivity. destruct y as [|d [|e [|g l']]]; try reflexivity.
  change (rpanel a b c d e g + Rsum (rpanels (c :: l) (g :: l')) = rpanel a b c d e g + rbasic (c :: l) (g :: l')). rewrite IH. reflexivity.
Qed.
Lemma epanels h j x : bpow radix2 (-90) <= h <= bpow radix2 100 -> (j <= 100)%nat -> exact_steps h x ->
  forall y y', values_ok j y y' -> length y = length x ->
  length (rpanels x y) = length (fpanels x y') /\ (length (rpanels x y) <= length x)%nat
  /\ forall i, (i < length (rpanels x y))%nat -> thr (nth i (rpanels x y) 0) /\ rel (j + 26) (nth i (rpanels x y) 0) (nth i (fpanels x y') 0).
Proof.
  intros Hh Hj. induction x as [| |a b|a b c l IH] using two_ind; intros Hx y y' Hy L.
  1,2,3: split; [reflexivity|]; split; [cbn; lia|cbn; lia].
  destruct y as [|y0 [|y1 [|y2 l2]]]; try discriminate L. destruct Hy as [L' Hy]. destruct y' as [|z0 [|z1 [|z2 l2']]]; try discriminate L'.
  destruct (Hy 0%nat ltac:(cbn; lia)) as [Y0 R0]. destruct (Hy 1%nat ltac:(cbn; lia)) as [Y1 R1]. destruct (Hy 2%nat ltac:(cbn; lia)) as [Y2 R2].
  cbn [nth] in Y0, Y1, Y2, R0, R1, R2.
  destruct (epanel h (b - a) (c - b) j Hh (Hx 0%nat ltac:(cbn; lia)) (Hx 1%nat ltac:(cbn; lia)) Hj a b c y0 y1 y2 z0 z1 z2 eq_refl eq_refl Y0 Y1 Y2 R0 R1 R2) as [T E].
  destruct (IH (esteps_tl _ _ _ (esteps_tl _ _ _ Hx)) (y2 :: l2) (z2 :: l2')) as (I1 & I2 & I3).
  { apply (vok_tl j y1 z1), (vok_tl j y0 z0). split; assumption. }
  { cbn [length] in *. lia. }
  rewrite fpanels_cons. change (rpanels (a :: b :: c :: l) (y0 :: y1 :: y2 :: l2)) with (rpanel a b c y0 y1 y2 :: rpanels (c :: l) (y2 :: l2)).
  split; [cbn [length] in *; lia|]. split; [cbn [length] in *; lia|]. intros [|i] Hi; [split; assumption|]. apply I3. cbn [length] in *; lia.
Qed.
Lemma ebasic h j x : bpow radix2 (-90) <= h <= bpow radix2 100 -> (j <= 100)%nat -> (Z.of_nat (length x) <= 2 ^ 31)%Z -> exact_steps h x ->
  forall y y', values_ok j y y' -> length y = length x ->
  thr (rbasic x y) /\ rel (j + 26 + length x) (rbasic x y) (fbasic x y').
Proof.
  intros Hh Hj Hn Hx y y' Hy L. destruct (epanels h j x Hh Hj Hx y y' Hy L) as (P1 & P2 & P3).
  destruct (fsum_rel_terms (j + 26) (rpanels x y) (fpanels x y')) as [T E]; [lia|exact P1|exact P3|].
  rewrite rpanels_sum in T, E. split; [exact T|]. apply (rel_weaken (j + 26 + length (rpanels x y))); [apply thr_nonneg, T|lia|exact E].
Qed.

(** the composite rule as computed *)
Definition fsimp (x y : list R) : R :=
  let n := length x in
  if Nat.odd n then fbasic x y
  else if Nat.eqb n 2 then rnd (rnd (rnd (1 / 2) * rnd (nth 1 x 0 - nth 0 x 0)) * rnd (nth 1 y 0 + nth 0 y 0))
  else rnd (fbasic x y + fcart (rnd (nth (n - 2) x 0 - nth (n - 3) x 0)) (rnd (nth (n - 1) x 0 - nth (n - 2) x 0))
                          (nth (n - 3) y 0) (nth (n - 2) y 0) (nth (n - 1) y 0)).
Lemma simpson_fsimp x y : x <> [] -> length x = length y -> simpson (N:=NB) (F y) (F x) = Ok (Fin (fsimp x y)).
Proof.
  intros Hne Hl. unfold simpson. rewrite !F_length, Hl, Nat.eqb_refl. cbn [negb]. unfold fsimp. rewrite Hl.
  destruct (Nat.odd (length y)) eqn:Ho; [rewrite nb_basic; reflexivity|].
  assert (Rx : @rev (car NB) (F x) = F (rev x)) by (symmetry; apply map_rev). assert (Ry : @rev (car NB) (F y) = F (rev y)) by (symmetry; apply map_rev).
  rewrite Rx, Ry. clear Rx Ry.
  assert (L : length (rev x) = length x) by apply rev_length. assert (L' : length (rev y) = length y) by apply rev_length.
  assert (Nx : forall k, (k < length x)%nat -> nth k (rev x) 0 = nth (length x - 1 - k) x 0) by (intros; apply rev_nth'; auto).
  assert (Ny : forall k, (k < length y)%nat -> nth k (rev y) 0 = nth (length y - 1 - k) y 0) by (intros; apply rev_nth'; auto).
  destruct (rev x) as [|x2 [|x1 [|x0 rx]]] eqn:Ex.
  - destruct x; [contradiction|cbn in *; lia].
  - rewrite <- Hl, <- L in Ho. discriminate.
  - destruct (rev y) as [|y2 [|y1 [|]]]; cbn [length] in *; try lia. cbn [F map].
    rewrite <- L'. cbn [Nat.eqb].
    assert (A := Nx 0%nat ltac:(lia)). assert (B := Nx 1%nat ltac:(lia)). assert (C := Ny 0%nat ltac:(lia)). assert (D := Ny 1%nat ltac:(lia)).
    rewrite <- L in A, B. rewrite <- L' in C, D. cbn in A, B, C, D. rewrite <- A, <- B, <- C, <- D.
    unfold lit. rewrite !nb_ofZ by (cbn; lia). rewrite (nb_div 1 2) by lra. rewrite (nb_sub x2 x1), (nb_add y2 y1), !nb_mul. reflexivity.
  - destruct (rev y) as [|y2 [|y1 [|y0 ry]]]; cbn [length] in *; try lia. cbn [F map].
    destruct (Nat.eqb_spec (length y) 2); [lia|].
    assert (A := Nx 0%nat ltac:(lia)). assert (B := Nx 1%nat ltac:(lia)). assert (C := Nx 2%nat ltac:(lia)).
    assert (A' := Ny 0%nat ltac:(lia)). assert (B' := Ny 1%nat ltac:(lia)). assert (C' := Ny 2%nat ltac:(lia)).
    cbn [nth] in A, B, C, A', B', C'.
    rewrite nb_basic, nb_cart, nb_add. rewrite A, B, C, A', B', C', Hl.
    replace (length y - 1 - 0)%nat with (length y - 1)%nat by lia. replace (length y - 1 - 1)%nat with (length y - 2)%nat by lia.
    replace (length y - 1 - 2)%nat with (length y - 3)%nat by lia. reflexivity.
Qed.

Lemma rpanel_ge h x0 x1 x2 y0 y1 y2 : bpow radix2 (-90) <= h <= bpow radix2 100 -> close h (x1 - x0) -> close h (x2 - x1) ->
  0 <= y0 -> 0 <= y1 -> 0 <= y2 -> h * y1 <= rpanel x0 x1 x2 y0 y1 y2.
Proof.
  intros Hh C0 C1 Y0 Y1 Y2. unfold rpanel. cbv zeta. destruct (hs h _ _ Hh C0 C1) as (P & A & B).
  assert (Q01 := r01 h _ _ Hh C0 C1). assert (Q10 := r10 h _ _ Hh C0 C1). assert (W1 := w1_in h _ _ Hh C0 C1).
  set (h0 := x1 - x0) in *. set (h1 := x2 - x1) in *. clearbody h0 h1.
  set (w1 := (h0 + h1) * ((h0 + h1) / (h0 * h1))) in *. set (w0 := h1 / h0) in *. set (w2 := h0 / h1) in *. clearbody w0 w1 w2.
  apply Rle_trans with (63 / 192 * h * (38 / 10 * y1)); [nra|]. apply Rmult_le_compat; [lra|lra|lra|].
  assert (0 <= y0 * (2 - w0)) by (apply Rmult_le_pos; lra). assert (0 <= y2 * (2 - w2)) by (apply Rmult_le_pos; lra). nra.
Qed.
Lemma rbasic_last h x : bpow radix2 (-90) <= h <= bpow radix2 100 -> exact_steps h x -> forall y, nonneg y -> length y = length x ->
  (4 <= length x)%nat -> Nat.odd (length x) = false -> 0 <= rbasic x y /\ h * nth (length x - 3) y 0 <= rbasic x y.
Proof.
  intros Hh. assert (P : 0 < h) by (assert (Z := b_pos (-90)); lra).
  assert (NN : forall x, exact_steps h x -> forall y, nonneg y -> 0 <= rbasic x y).
  { clear x. induction x as [| |a b|a b c l IH] using two_ind; intros Hx y Py; try (cbn; lra).
    destruct y as [|d [|e [|g l']]]; try (cbn; lra). change (0 <= rpanel a b c d e g + rbasic (c :: l) (g :: l')).
    assert (Y1 : 0 <= e) by (apply Py; cbn; auto).
    assert (K := rpanel_ge h a b c d e g Hh (Hx 0%nat ltac:(cbn; lia)) (Hx 1%nat ltac:(cbn; lia)) ltac:(apply Py; cbn; auto) Y1 ltac:(apply Py; cbn; auto 6)).
    assert (0 <= h * e) by (apply Rmult_le_pos; lra).
    assert (0 <= rbasic (c :: l) (g :: l')); [|lra]. apply IH; [exact (esteps_tl _ _ _ (esteps_tl _ _ _ Hx))|]. intros v Hv. apply Py. do 2 right. exact Hv. }
  induction x as [| |a b|a b c l IH] using two_ind; intros Hx y Py L L4 Ev; try (cbn in L4; lia).
  destruct y as [|d [|e [|g l']]]; try (cbn in L; lia). split; [apply NN; auto|].
  assert (Hx' : exact_steps h (c :: l)) by exact (esteps_tl _ _ _ (esteps_tl _ _ _ Hx)).
  assert (Py' : nonneg (g :: l')) by (intros v Hv; apply Py; do 2 right; exact Hv).
  assert (Y1 : 0 <= e) by (apply Py; cbn; auto).
  assert (K := rpanel_ge h a b c d e g Hh (Hx 0%nat ltac:(cbn; lia)) (Hx 1%nat ltac:(cbn; lia)) ltac:(apply Py; cbn; auto) Y1 ltac:(apply Py; cbn; auto 6)).
  assert (K0 : 0 <= h * e) by (apply Rmult_le_pos; lra). assert (NL := NN _ Hx' _ Py').
  change (rbasic (a :: b :: c :: l) (d :: e :: g :: l')) with (rpanel a b c d e g + rbasic (c :: l) (g :: l')).
  destruct l as [|x3 [|x4 l]].
  - cbn in L4; lia.
  - cbn [length Nat.sub nth]. lra.
  - destruct l as [|x5 l]; [cbn in Ev; discriminate|].
    destruct (IH Hx' (g :: l') Py' ltac:(cbn in *; lia) ltac:(cbn; lia) ltac:(cbn in *; exact Ev)) as [_ KK].
    replace (nth (length (a :: b :: c :: x3 :: x4 :: x5 :: l) - 3) (d :: e :: g :: l') 0) with (nth (length (c :: x3 :: x4 :: x5 :: l) - 3) (g :: l') 0) by (cbn [length Nat.sub]; rewrite ?Nat.sub_0_r; reflexivity).
    lra.
Qed.

Lemma rnd_abs r : Rabs (rnd r - r) <= u53 * (Rabs r + bpow radix2 (-1020)).
Proof.
  assert (K : forall r, 0 <= r -> Rabs (rnd r - r) <= u53 * (r + bpow radix2 (-1020))).
  { clear r. intros r Hr. assert (U := u_pos). assert (Z := b_pos (-1020)). destruct (Rle_lt_dec (bpow radix2 (-1020)) r) as [H|H].
    - destruct (rnd_rel r H) as [A B]. fold u53 in A, B. apply Rabs_le. assert (0 <= u53 * bpow radix2 (-1020)) by (apply Rmult_le_pos; lra). lra.
    - eapply Rle_trans; [apply (rnd_err r (-1020)); [lia|rewrite Rabs_pos_eq by lra; lra]|].
      apply Rle_trans with (u53 * bpow radix2 (-1020)); [unfold u53; rewrite <- bpow_plus; apply bpow_le; lia|]. apply Rmult_le_compat_l; lra. }
  destruct (Rle_lt_dec 0 r) as [H|H]; [rewrite (Rabs_pos_eq r H); apply K, H|].
  specialize (K (- r) ltac:(lra)). rewrite rnd_opp in K. rewrite (Rabs_left r H). replace (rnd r - r) with (- (- rnd r - - r)) by ring. rewrite Rabs_Ropp. exact K.
Qed.
(** k roundings as an absolute bound *)
Lemma rel_abs k a b : (Z.of_nat k <= 2 ^ 40)%Z -> 0 <= a -> rel k a b -> Rabs (b - a) <= 1001 / 1000 * (INR k * u53) * a.
Proof.
  intros Hk Ha [A B]. assert (I : INR k <= IZR (2 ^ 40)) by (rewrite INR_IZR_INZ; apply IZR_le, Hk). assert (P := pos_INR k).
  assert (U := u53_val). assert (Uu := u_pos). change (IZR (2 ^ 40)) with 1099511627776 in I.
  assert (L := lo_bern k). assert (H := hi_up k). set (e := INR k * u53) in *.
  assert (He : 0 <= e <= / 8000) by (unfold e; rewrite U; lra).
  assert (H1 : (1 + u53) ^ k <= 1 + 1001 / 1000 * e).
  { apply Rmult_le_reg_r with (1 - e); [lra|]. eapply Rle_trans; [exact H|]. nra. }
  apply Rabs_le. split.
  - apply Rle_trans with (a * (1 - u53) ^ k - a); [|lra].
    assert (a * (1 - e) <= a * (1 - u53) ^ k) by (apply Rmult_le_compat_l; lra). nra.
  - apply Rle_trans with (a * (1 + u53) ^ k - a); [lra|].
    assert (a * (1 + u53) ^ k <= a * (1 + 1001 / 1000 * e)) by (apply Rmult_le_compat_l; lra). lra.
Qed.

Lemma combine e B P Q B' P' Q' : 26 * u53 <= e <= / 8000 -> 0 <= Q <= B / 10 -> thr B -> thr P ->
  Rabs (B' - B) <= 1001 / 1000 * e * B -> Rabs (P' - P) <= 1001 / 1000 * e * P -> Rabs (Q' - Q) <= 1001 / 1000 * e * Q ->
  Rabs (rnd (B' + rnd (P' - Q')) - (B + P - Q)) <= 2 * e * (B + P - Q).
Proof.
  intros He HQ TB TP EB EP EQ. assert (GB := thr_nonneg _ TB). assert (GP := thr_nonneg _ TP). assert (U := u53_val). assert (Uu := u_pos).
  destruct (thr_add _ _ TB TP) as [Z|Big].
  - assert (B = 0) by lra. assert (P = 0) by lra. subst B P. assert (Q = 0) by lra. subst Q.
    rewrite Rmult_0_r in EB, EP, EQ. apply Rabs_le_inv in EB, EP, EQ. replace (P' - Q') with 0 by lra. rewrite (rnd_id 0) by apply float_0.
    replace (B' + 0) with 0 by lra. rewrite (rnd_id 0) by apply float_0. replace (0 - (0 + 0 - 0)) with 0 by ring. rewrite Rabs_R0. lra.
  - assert (T : 0 < bpow radix2 (-1020) <= (B + P) / 1000).
    { split; [apply b_pos|]. change (-1020)%Z with (-10 + -1010)%Z. rewrite bpow_plus. replace (bpow radix2 (-10)) with (/ 1024) by (cbn; lra).
      assert (Z := b_pos (-1010)). lra. }
    assert (A1 := rnd_abs (P' - Q')). assert (A2 := rnd_abs (B' + rnd (P' - Q'))). set (t := bpow radix2 (-1020)) in *. clearbody t.
    set (c := rnd (P' - Q')) in *. set (r := rnd (B' + c)) in *. clearbody c r.
    apply Rabs_le_inv in EB, EP, EQ.
    assert (eB : 0 <= e * B <= B / 8000) by nra. assert (eP : 0 <= e * P <= P / 8000) by nra. assert (eQ : 0 <= e * Q <= Q / 8000) by nra.
    assert (N1 : Rabs (P' - Q') <= 101 / 100 * (P + Q)) by (apply Rabs_le; lra).
    assert (M1 : Rabs (c - (P' - Q')) <= u53 * (101 / 100 * (P + Q) + t)).
    { eapply Rle_trans; [exact A1|]. apply Rmult_le_compat_l; lra. }
    set (s1 := 101 / 100 * (P + Q) + t) in *. assert (0 <= s1) by (unfold s1; lra). assert (us1 : 0 <= u53 * s1 <= s1 / 1000) by (rewrite U; lra).
    apply Rabs_le_inv in M1.
    assert (N2 : Rabs (B' + c) <= 102 / 100 * (B + P + Q) + t) by (unfold s1 in *; apply Rabs_le; lra).
    assert (M2 : Rabs (r - (B' + c)) <= u53 * (102 / 100 * (B + P + Q) + 2 * t)).
    { eapply Rle_trans; [exact A2|]. apply Rmult_le_compat_l; lra. }
    apply Rabs_le_inv in M2. set (S := B + P) in *. 
    assert (L1 : u53 * s1 <= e / 26 * (112 / 100 * S)) by (apply Rmult_le_compat; unfold s1, S in *; lra).
    assert (L2 : u53 * (102 / 100 * (B + P + Q) + 2 * t) <= e / 26 * (113 / 100 * S)) by (apply Rmult_le_compat; unfold S in *; lra).
    assert (L3 : e * Q <= e * (S / 10)) by (apply Rmult_le_compat_l; unfold S; lra).
    assert (L4 : 0 <= e * S) by (apply Rmult_le_pos; unfold S; lra).
    apply Rabs_le. unfold S in *. lra.
Qed.

(** Simpson's rule in binary64 on values known up to j roundings, against the exact rule on the exact values *)
Lemma simpson_accuracy h j x y y' : bpow radix2 (-90) <= h <= bpow radix2 100 -> (j <= 100)%nat -> (Z.of_nat (length x) <= 2 ^ 31)%Z ->
  exact_steps h x -> values_ok j y y' -> length y = length x -> x <> [] ->
  (rsimp x y = 0 \/ bpow radix2 (-1011) <= rsimp x y) /\ Rabs (fsimp x y' - rsimp x y) <= 2 * (INR (j + 26 + length x) * u53) * rsimp x y.
Proof.
  assert (TH : forall v, thr v -> v = 0 \/ bpow radix2 (-1011) <= v) by (intros v [Ev|Ev]; [left; exact Ev|right; eapply Rle_trans; [apply bpow_le|exact Ev]; lia]).
  intros Hh Hj Hn Hx Hv L Hne. assert (U := u53_val). assert (Uu := u_pos).
  assert (Nn : nonneg y). { intros v Hi. apply (In_nth _ _ 0) in Hi. destruct Hi as (k & Hk & <-). apply yok_nonneg, (proj2 Hv k Hk). }
  assert (L' : length y' = length x) by (destruct Hv; lia).
  assert (P : 0 < h) by (assert (Z := b_pos (-90)); lra).
  destruct (ebasic h j x Hh Hj Hn Hx y y' Hv L) as [TB EB].
  assert (GB := thr_nonneg _ TB). assert (AB := rel_abs (j + 26 + length x) _ _ ltac:(lia) GB EB).
  set (K := (j + 26 + length x)%nat) in *.
  assert (IK : 26 <= INR K) by (change 26 with (IZR 26); rewrite INR_IZR_INZ; apply IZR_le; unfold K; lia).
  assert (IK2 : INR K <= IZR (2 ^ 40)) by (rewrite INR_IZR_INZ; apply IZR_le; unfold K; lia). change (IZR (2 ^ 40)) with 1099511627776 in IK2.
  assert (He : 26 * u53 <= INR K * u53 <= / 8000) by (rewrite U; lra).
  unfold rsimp, fsimp. destruct (Nat.odd (length x)) eqn:O.
  { split; [apply TH, TB|]. eapply Rle_trans; [exact AB|]. apply Rmult_le_compat_r; lra. }
  destruct (Nat.eqb_spec (length x) 2) as [E2|E2].
  - destruct (proj2 Hv 0%nat ltac:(lia)) as [Y0 R0]. destruct (proj2 Hv 1%nat ltac:(lia)) as [Y1 R1].
    assert (C0 := Hx 0%nat ltac:(lia)). set (d := nth 1 x 0 - nth 0 x 0) in *. unfold close in C0.
    assert (G0 := yok_nonneg _ Y0). assert (G1 := yok_nonneg _ Y1).
    assert (D9 : bpow radix2 (-92) <= d).
    { change (-92)%Z with (-2 + -90)%Z. rewrite bpow_plus. replace (bpow radix2 (-2)) with (/ 4) by (cbn; lra). assert (Z := b_pos (-90)). lra. }
    assert (Td : thr d) by (right; eapply Rle_trans; [apply bpow_le|exact D9]; lia).
    assert (Ed : rel 1 d (rnd d)) by (apply rel_rnd; [lia|exact Td|apply rel_refl]).
    assert (D10 : bpow radix2 (-93) <= 1 / 2 * d).
    { change (-93)%Z with (-1 + -92)%Z. rewrite bpow_plus. replace (bpow radix2 (-1)) with (/ 2) by (cbn; lra). lra. }
    assert (Eh : rnd (1 / 2) = 1 / 2) by (apply rnd_id, (float_frac 1 (-1)); cbn; lia || lra).
    assert (E1 : rel 2 (1 / 2 * d) (rnd (rnd (1 / 2) * rnd d))).
    { rewrite Eh. apply rel_rnd; [lia|right; eapply Rle_trans; [apply bpow_le|exact D10]; lia|]. apply (rel_mul 0 1); [lra|lra|apply rel_refl|exact Ed]. }
    assert (Ys : yok (nth 1 y 0 + nth 0 y 0)) by (assert (Z := b_pos (-720)); destruct Y0 as [Y0|Y0], Y1 as [Y1|Y1]; (left; lra) || (right; lra)).
    assert (Tys : thr (nth 1 y 0 + nth 0 y 0)) by (destruct Ys as [Ys|Ys]; [left; exact Ys|right; eapply Rle_trans; [apply bpow_le|exact Ys]; lia]).
    assert (Es : rel (S j) (nth 1 y 0 + nth 0 y 0) (rnd (nth 1 y' 0 + nth 0 y' 0))) by (apply rel_rnd; [lia|exact Tys|apply rel_add; auto]).
    assert (TT : thr (1 / 2 * d * (nth 1 y 0 + nth 0 y 0))) by (rewrite Rmult_comm; apply thr_mul; [exact Ys|eapply Rle_trans; [apply bpow_le|exact D10]; lia]).
    assert (E : rel K (1 / 2 * d * (nth 1 y 0 + nth 0 y 0)) (rnd (rnd (rnd (1 / 2) * rnd d) * rnd (nth 1 y' 0 + nth 0 y' 0)))).
    { apply (rel_weaken (S (2 + S j))); [apply thr_nonneg, TT|unfold K; lia|]. apply rel_rnd; [lia|exact TT|]. apply rel_mul; auto; lra. }
    split; [apply TH, TT|]. eapply Rle_trans; [apply (rel_abs K); [unfold K; lia|apply thr_nonneg, TT|exact E]|].
    apply Rmult_le_compat_r; [apply thr_nonneg, TT|lra].
  - assert (L4 : (4 <= length x)%nat) by (clear - O E2 Hne; destruct x as [|? [|? [|? [|? ?]]]]; cbn in *; try lia; try discriminate; contradiction).
    destruct (rbasic_last h x Hh Hx y Nn L L4 O) as [_ KB].
    set (n := length x) in *.
    destruct (proj2 Hv (n - 3)%nat ltac:(lia)) as [Y0 R0]. destruct (proj2 Hv (n - 2)%nat ltac:(lia)) as [Y1 R1]. destruct (proj2 Hv (n - 1)%nat ltac:(lia)) as [Y2 R2].
    assert (C0 := Hx (n - 3)%nat ltac:(fold n; lia)). assert (C1 := Hx (n - 2)%nat ltac:(fold n; lia)).
    replace (S (n - 3)) with (n - 2)%nat in C0 by lia. replace (S (n - 2)) with (n - 1)%nat in C1 by lia.
    destruct (ecart h _ _ j Hh C0 C1 Hj (nth (n - 3) x 0) (nth (n - 2) x 0) (nth (n - 1) x 0) _ _ _ _ _ _ eq_refl eq_refl Y0 Y1 Y2 R0 R1 R2)
      as (P0 & Q0 & P' & Q' & EA & EF & TP & RP & RQ & HQ).
    rewrite EA, EF. assert (GP := thr_nonneg _ TP).
    replace (rbasic x y + (P0 - Q0)) with (rbasic x y + P0 - Q0) by ring. split.
    { destruct (thr_add _ _ TB TP) as [Z|Z]; [left; lra|right]. change (-1011)%Z with (-1 + -1010)%Z. rewrite bpow_plus. replace (bpow radix2 (-1)) with (/ 2) by (cbn; lra). lra. }
    clear TH. apply combine; auto; [lra| |].
    + apply rel_abs; [unfold K; lia|exact GP|]. apply (rel_weaken (j + 21)); [exact GP|unfold K; lia|exact RP].
    + apply rel_abs; [unfold K; lia|lra|]. apply (rel_weaken (j + 21)); [lra|unfold K; lia|exact RQ].
Qed.

(** the exact rule on values that are not negative is between 0 and the largest value times the length of the axis *)
Lemma rsimp_pos h x y : bpow radix2 (-90) <= h <= bpow radix2 100 -> exact_steps h x -> nonneg y -> length y = length x -> 0 <= rsimp x y.
Proof.
  intros Hh Hx Ny L. assert (P : 0 < h) by (assert (Z := b_pos (-90)); lra).
  assert (B0 : 0 <= rbasic x y).
  { clear L. revert y Ny Hx. induction x as [| |a b|a b c l IH] using two_ind; intros y Py Hx; try (cbn; lra).
    destruct y as [|d [|e [|g l']]]; try (cbn; lra). change (0 <= rpanel a b c d e g + rbasic (c :: l) (g :: l')).
    assert (Y1 : 0 <= e) by (apply Py; cbn; auto).
    assert (K := rpanel_ge h a b c d e g Hh (Hx 0%nat ltac:(cbn; lia)) (Hx 1%nat ltac:(cbn; lia)) ltac:(apply Py; cbn; auto) Y1 ltac:(apply Py; cbn; auto 6)).
    assert (0 <= h * e) by (apply Rmult_le_pos; lra).
    assert (0 <= rbasic (c :: l) (g :: l')); [|lra]. apply IH; [|exact (esteps_tl _ _ _ (esteps_tl _ _ _ Hx))]. intros v Hv. apply Py. do 2 right. exact Hv. }
  unfold rsimp. destruct (Nat.odd (length x)) eqn:O; [exact B0|].
  assert (N : forall k, 0 <= nth k y 0).
  { intros k. destruct (Nat.lt_ge_cases k (length y)); [apply Ny, nth_In; auto|rewrite nth_overflow by auto; lra]. }
  destruct (Nat.eqb_spec (length x) 2) as [E2|E2].
  - assert (C := Hx 0%nat ltac:(lia)). unfold close in C. assert (N0 := N 0%nat). assert (N1 := N 1%nat). apply Rmult_le_pos; lra.
  - destruct (Nat.eq_dec (length x) 0) as [E0|E0].
    { destruct x; [|discriminate]. destruct y; [|discriminate]. unfold rlast. cbn. unfold Rdiv. lra. }
    assert (L4 : (4 <= length x)%nat) by (destruct x as [|? [|? [|? [|? ?]]]]; cbn in *; try lia; try discriminate).
    destruct (rbasic_last h x Hh Hx y Ny L L4 O) as [_ KB]. set (n := length x) in *.
    assert (C0 := Hx (n - 3)%nat ltac:(fold n; lia)). assert (C1 := Hx (n - 2)%nat ltac:(fold n; lia)).
    replace (S (n - 3)) with (n - 2)%nat in C0 by lia. replace (S (n - 2)) with (n - 1)%nat in C1 by lia.
    unfold rlast. cbv zeta. assert (Et := eta_in h _ _ Hh C0 C1). unfold close in C0, C1.
    set (h0 := nth (n - 2) x 0 - nth (n - 3) x 0) in *. set (h1 := nth (n - 1) x 0 - nth (n - 2) x 0) in *. clearbody h0 h1.
    assert (A1 : 0 <= (2 * (h1 * h1) + 3 * h0 * h1) / (6 * (h1 + h0)) * nth (n - 1) y 0) by (apply Rmult_le_pos; [apply le_div; nra|apply N]).
    assert (A2 : 0 <= (h1 * h1 + 3 * h0 * h1) / (6 * h0) * nth (n - 2) y 0) by (apply Rmult_le_pos; [apply le_div; nra|apply N]).
    assert (A3 : h1 * h1 * h1 / (6 * h0 * (h0 + h1)) * nth (n - 3) y 0 <= 10 / 100 * h * nth (n - 3) y 0) by (apply Rmult_le_compat_r; [apply N|lra]).
    assert (0 <= h * nth (n - 3) y 0) by (apply Rmult_le_pos; [lra|apply N]). lra.
Qed.
Lemma exact_increasing h x : 0 < h -> exact_steps h x -> increasing x.
Proof.
  intros P Hx i j. induction j as [|j IH]; intros H; [lia|]. assert (C := Hx j ltac:(lia)). unfold close in C.
  destruct (Nat.eq_dec i j) as [->|]; [lra|]. specialize (IH ltac:(lia)). lra.
Qed.
Lemma rsimp_top h x y M : bpow radix2 (-90) <= h <= bpow radix2 100 -> exact_steps h x -> (forall v, In v y -> v <= M) -> length y = length x -> x <> [] ->
  rsimp x y <= M * (nth (length x - 1) x 0 - nth 0 x 0).
Proof.
  intros Hh Hx Hy L Hne. assert (P : 0 < h) by (assert (Z := b_pos (-90)); lra).
  assert (I := exact_increasing h x P Hx). assert (Q := rsimp_quad 0 0 M x I Hne ltac:(auto)).
  assert (Lmq : length (map (quad 0 0 M) x) = length y) by (rewrite map_length; lia).
  assert (Lin := rsimp_lin 1 (-1) x (map (quad 0 0 M) x) y ltac:(rewrite map_length; lia) Lmq).
  assert (N : 0 <= rsimp x (lc 1 (-1) (map (quad 0 0 M) x) y)).
  { apply (rsimp_pos h); auto; [|rewrite lc_length by exact Lmq; exact (eq_trans Lmq L)].
    intros v Hv. apply (In_nth _ _ 0) in Hv. destruct Hv as (k & Hk & <-). rewrite lc_length in Hk by exact Lmq. rewrite lc_nth by exact Lmq.
    rewrite map_quad_nth by (rewrite map_length in Hk; exact Hk). assert (B := Hy _ (nth_In y 0 (eq_ind _ (fun z => (k < z)%nat) Hk _ Lmq))). unfold quad. lra. }
  rewrite Lin, Q in N. unfold quadI in N. lra.
Qed.

(** ** The integrand f^m S *)
Lemma eight_rel p y : 0 <= p -> Rabs (y - p) <= 8 * u53 * p -> rel 9 p y.
Proof.
  intros Hp H. apply Rabs_le_inv in H. assert (U := u53_val). assert (Up := u_pos).
  assert (A : (1 - u53) ^ 9 <= 1 - 8 * u53).
  { replace ((1 - u53) ^ 9) with ((1 - u53) * (1 - u53) ^ 8) by ring. assert (B : (1 - u53) ^ 8 <= 1) by (apply lo_1).
    assert (C : (1 - u53) ^ 2 <= 1 - 15 / 8 * u53) by (rewrite U; lra).
    assert (C0 : 0 <= (1 - u53) ^ 2) by (apply pow_le; rewrite U; lra).
    assert (D : (1 - u53) ^ 4 <= 1 - 14 / 4 * u53) by (replace ((1 - u53) ^ 4) with ((1 - u53) ^ 2 * (1 - u53) ^ 2) by ring; nra).
    assert (D0 : 0 <= (1 - u53) ^ 4) by (apply pow_le; rewrite U; lra).
    assert (E : (1 - u53) ^ 8 <= 1 - 69 / 10 * u53) by (replace ((1 - u53) ^ 8) with ((1 - u53) ^ 4 * (1 - u53) ^ 4) by ring; nra).
    assert (E0 : 0 <= (1 - u53) ^ 8) by (apply pow_le; rewrite U; lra). idtac. nra. }
  assert (B : 1 + 8 * u53 <= (1 + u53) ^ 9).
  { assert (T := hi_bern 9). cbn [INR] in T. lra. }
  unfold rel. split; nra.
Qed.
Lemma fpowi_rel r m : 0 <= r <= bpow radix2 100 -> r = 0 /\ (0 <= m)%Z \/ bpow radix2 (-100) <= r -> (-5 <= m <= 3)%Z -> rel 9 (powerRZ r m) (fpowi r m).
Proof.
  intros Hr [[-> Hm0]|H] Hm.
  - destruct m as [|p|p]; [|unfold fpowi; cbn [powerRZ]|lia].
    + cbn [fpowi powerRZ]. apply (rel_weaken 0); [lra|lia|apply rel_refl].
    + destruct (Rlt_dec 0 0); [lra|]. rewrite pow_ne_zero by lia. apply (rel_weaken 0); [lra|lia|apply rel_refl].
  - assert (Lo := powerRZ_low r m ltac:(lra) ltac:(lia)). assert (P0 := b_pos (-1000)). apply eight_rel; [lra|]. apply fpowi_acc; [lra|lia].
Qed.
Lemma fpowZ_rel r m : 0 <= r <= bpow radix2 100 -> r = 0 /\ (0 <= m)%Z \/ bpow radix2 (-100) <= r -> (-5 <= m <= 3)%Z -> rel 11 (powerRZ r m) (fpowZ r m).
Proof.
  intros Hr H Hm. assert (G := fpowi_rel r m Hr H Hm).
  assert (P : 0 <= powerRZ r m).
  { destruct H as [[-> M]|H]; [|assert (Lo := powerRZ_low r m ltac:(lra) ltac:(lia)); assert (P0 := b_pos (-1000)); lra].
    destruct m as [|p|p]; [cbn; lra| |lia]. cbn [powerRZ]. apply pow_le. lra. }
  assert (G' : rel 11 (powerRZ r m) (fpowi r m)) by (apply (rel_weaken 9); [exact P|lia|exact G]). clear G.
  destruct m as [|p|p]; [exact G'| |].
  - destruct p as [p|[p|p|]|]; try exact G'; unfold fpowZ.
    + apply (rel_weaken 1); [exact P|lia|]. change (powerRZ r 2) with (r * (r * 1)). rewrite Rmult_1_r.
      apply rel_rnd; [lia| |apply rel_refl]. destruct H as [[-> _]|H]; [left; ring|right].
      apply Rle_trans with (bpow radix2 (-100) * bpow radix2 (-100)); [rewrite <- bpow_plus; apply bpow_le; lia|]. assert (Z := b_pos (-100)). nra.
    + apply (rel_weaken 0); [exact P|lia|]. change (powerRZ r 1) with (r * 1). rewrite Rmult_1_r. apply rel_refl.
  - destruct p as [p|p|]; try exact G'; unfold fpowZ. destruct H as [[_ H]|H]; [lia|]. assert (Z := b_pos (-100)).
    apply (rel_weaken 1); [exact P|lia|]. replace (powerRZ r (-1)) with (1 / r).
    + apply rel_rnd; [lia| |apply rel_refl]. right. apply le_div; [lra|]. apply Rle_trans with (bpow radix2 (-900) * bpow radix2 100).
      * apply Rmult_le_compat; try (apply Rlt_le, b_pos); [lra|apply bpow_le; lia|lra].
      * rewrite <- bpow_plus. change 1 with (bpow radix2 0). apply bpow_le. lia.
    + change (powerRZ r (-1)) with (/ (r * 1)). rewrite Rmult_1_r. unfold Rdiv. ring.
Qed.
Lemma powerRZ_size r m : 0 <= r <= bpow radix2 100 -> r = 0 /\ (0 <= m)%Z \/ bpow radix2 (-100) <= r -> (-5 <= m <= 3)%Z ->
  (powerRZ r m = 0 \/ bpow radix2 (- 100 * Z.abs m) <= powerRZ r m) /\ powerRZ r m <= bpow radix2 (100 * Z.abs m).
Proof.
  intros Hr H Hm. assert (Z := b_pos (-100)). destruct m as [|p|p].
  - cbn. split; [right|]; lra.
  - cbn [powerRZ Z.abs]. split.
    + destruct H as [[-> _]|H]; [left; apply pow_ne_zero; lia|]. right. rewrite <- (positive_nat_Z p), <- bpow_pow. apply pow_incr. lra.
    + rewrite <- (positive_nat_Z p), <- bpow_pow. apply pow_incr. lra.
  - cbn [powerRZ Z.abs]. destruct H as [[_ H]|H]; [lia|]. rewrite <- (positive_nat_Z p). set (k := Pos.to_nat p). assert (Pk : 0 < r ^ k) by (apply pow_lt; lra). split.
    + right. replace (-100 * Z.of_nat k)%Z with (- (100 * Z.of_nat k))%Z by lia. rewrite bpow_opp, <- bpow_pow. apply Rinv_le_contravar; [exact Pk|]. apply pow_incr. lra.
    + replace (100 * Z.of_nat k)%Z with (- (-100 * Z.of_nat k))%Z by lia. rewrite bpow_opp, <- bpow_pow. apply Rinv_le_contravar; [apply pow_lt, Z|]. apply pow_incr. lra.
Qed.

(** ** Moments *)

(** densities the analysis covers: zero, or between 2^-200 and 2^200 *)
Definition density_ok (v : R) : Prop := v = 0 \/ bpow radix2 (-200) <= v <= bpow radix2 200.
(** the relative accuracy of a moment over n frequencies *)
Definition eps (n : nat) : R := 2 * (INR (38 + n) * u53).

Lemma yok_of m v : (-5 <= m)%Z -> (m <= 3)%Z -> v = 0 \/ bpow radix2 (-200 - 100 * Z.abs m) <= v -> yok v.
Proof. intros H1 H2 [->|H]; [left; reflexivity|right]. eapply Rle_trans; [apply bpow_le|exact H]. lia. Qed.
Section Weighted.
  Variables (h : R) (f s : list R) (m : Z).
  Hypothesis Hf : freq_axis_fl h f.
  Hypothesis Ls : length s = length f.
  Hypothesis Ds : forall v, In v s -> density_ok v.
  Hypothesis Hm : (-5 <= m <= 3)%Z.

  Lemma w_length : length (weighted m f s) = length (dz f m f).
  Proof. unfold weighted. rewrite map2_length. change (without_zero m f f) with (dz f m f). change (without_zero m f s) with (dz f m s). rewrite (dz_length f m s Ls). apply Nat.min_id. Qed.
  Lemma w_nth k : (k < length (dz f m f))%nat -> nth k (weighted m f s) 0 = powerRZ (nth k (dz f m f) 0) m * nth k (dz f m s) 0.
  Proof.
    intros Hk. unfold weighted. change (without_zero m f f) with (dz f m f). change (without_zero m f s) with (dz f m s).
    rewrite (map2_nth _ _ _ _ 0 0 0); [reflexivity|exact Hk|rewrite (dz_length f m s Ls); exact Hk].
  Qed.
  Lemma base_ok k : (k < length (dz f m f))%nat ->
    0 <= nth k (dz f m f) 0 <= bpow radix2 100 /\ (nth k (dz f m f) 0 = 0 /\ (0 <= m)%Z \/ bpow radix2 (-100) <= nth k (dz f m f) 0).
  Proof.
    intros Hk. destruct (dz_base h f Hf m s Ls k Hk) as [B1 B2].
    split; [split; [exact B1|apply (fa_top _ _ Hf), (dz_In f m), nth_In, Hk]|].
    destruct (Z.ltb_spec m 0) as [M|M]; [right; apply B2, M|].
    assert (Ed : dz f m f = f) by (unfold dz; destruct (Z.ltb_spec m 0); [lia|reflexivity]). rewrite Ed in Hk |- *.
    destruct (fa_big h f Hf k Hk) as [[E _]|E]; [left; auto|right; auto].
  Qed.
  Lemma dens_k k : (k < length (dz f m f))%nat -> density_ok (nth k (dz f m s) 0).
  Proof. intros Hk. apply Ds, (dz_In f m), nth_In. rewrite (dz_length f m s Ls). exact Hk. Qed.
  Lemma w_size k : (k < length (dz f m f))%nat ->
    (nth k (weighted m f s) 0 = 0 \/ bpow radix2 (-200 - 100 * Z.abs m) <= nth k (weighted m f s) 0) /\ nth k (weighted m f s) 0 <= bpow radix2 (200 + 100 * Z.abs m).
  Proof.
    intros Hk. rewrite w_nth by exact Hk. destruct (base_ok k Hk) as [B1 B2]. destruct (powerRZ_size _ m B1 B2 Hm) as [S1 S2].
    assert (D := dens_k k Hk). set (p := powerRZ _ m) in *. set (v := nth k (dz f m s) 0) in *. clearbody p v.
    assert (Z1 := b_pos (-100 * Z.abs m)). assert (Z2 := b_pos (-200)). assert (Z3 := b_pos (100 * Z.abs m)). assert (Z4 := b_pos 200). assert (Z5 := b_pos (200 + 100 * Z.abs m)).
    assert (Z6 := b_pos (-200 - 100 * Z.abs m)). destruct D as [->|D].
    { rewrite Rmult_0_r. split; [left; reflexivity|lra]. }
    destruct S1 as [->|S1]; [rewrite Rmult_0_l; split; [left; reflexivity|lra]|]. split.
    - right. replace (-200 - 100 * Z.abs m)%Z with (-100 * Z.abs m + -200)%Z by lia. rewrite bpow_plus. apply Rmult_le_compat; lra.
    - rewrite Z.add_comm, bpow_plus. apply Rmult_le_compat; lra.
  Qed.
  Lemma w_values : values_ok 12 (weighted m f s) (wg f m s).
  Proof.
    split; [rewrite w_length, (wg_length f m s Ls); reflexivity|]. rewrite w_length. intros k Hk.
    assert (Y : yok (nth k (weighted m f s) 0)) by (apply (yok_of m); [lia|lia|apply w_size, Hk]). split; [exact Y|].
    rewrite (wg_nth f m s Ls) by exact Hk. rewrite w_nth in Y |- * by exact Hk.
    destruct (base_ok k Hk) as [B1 B2]. assert (D := dens_k k Hk).
    apply rel_rnd; [lia|destruct Y as [Y|Y]; [left; exact Y|right; eapply Rle_trans; [apply bpow_le|exact Y]; lia]|].
    apply (rel_mul 11 0).
    - destruct (powerRZ_size _ m B1 B2 Hm) as [[->|S1] _]; [lra|]. assert (Z1 := b_pos (-100 * Z.abs m)). lra.
    - destruct D as [->|D]; [lra|]. assert (Z2 := b_pos (-200)). lra.
    - apply fpowZ_rel; auto.
    - apply rel_refl.
  Qed.
  Lemma dz_exact : exact_steps h (dz f m f).
  Proof.
    assert (K : exact_steps h f) by (intros i Hi; assert (D := fa_steps _ _ Hf i Hi); apply Rabs_le_inv in D; unfold close; lra).
    unfold dz. destruct (_ && _); [|exact K]. intros i Hi. rewrite tl_length in Hi. rewrite !tl_nth. apply K. lia.
  Qed.
  Lemma slice_exact a b (x : list R) : exact_steps h x -> exact_steps h (slice a b x).
  Proof. intros H k Hk. rewrite slice_length in Hk. rewrite !slice_nth by lia. rewrite Nat.add_succ_r. apply H. lia. Qed.
  Lemma slice_values j a b y y' : values_ok j y y' -> values_ok j (slice a b y) (slice a b y').
  Proof.
    intros [L H]. split; [rewrite !slice_length, L; reflexivity|]. intros k Hk. rewrite slice_length in Hk. rewrite !slice_nth by lia. apply H. lia.
  Qed.

  (** Simpson over a part of the axis *)
  Definition rpart a b : R := rsimp (slice a b (dz f m f)) (slice a b (weighted m f s)).
  Definition fpart a b : R := fsimp (slice a b (dz f m f)) (slice a b (wg f m s)).
  Lemma part_accuracy a b : (a < b)%nat -> (a < length (dz f m f))%nat -> (Z.of_nat (length f) <= 2 ^ 30)%Z ->
    Rabs (fpart a b - rpart a b) <= eps (length f) * rpart a b.
  Proof.
    intros Hab Ha Hn. unfold fpart, rpart.
    assert (Ld : (length (dz f m f) <= length f)%nat) by (unfold dz; destruct (_ && _); rewrite ?tl_length; lia).
    destruct (simpson_accuracy h 12 (slice a b (dz f m f)) (slice a b (weighted m f s)) (slice a b (wg f m s))) as [R0 R1].
    - apply (fa_sane _ _ Hf).
    - lia.
    - rewrite slice_length. lia.
    - apply slice_exact, dz_exact.
    - apply slice_values, w_values.
    - rewrite !slice_length, w_length. reflexivity.
    - intros E. assert (L0 : length (slice a b (dz f m f)) = 0%nat) by (rewrite E; reflexivity). rewrite slice_length in L0. lia.
    - assert (G : 0 <= rsimp (slice a b (dz f m f)) (slice a b (weighted m f s))) by (destruct R0 as [->|R0]; [lra|assert (Z := b_pos (-1011)); lra]).
      eapply Rle_trans; [exact R1|]. apply Rmult_le_compat_r; [exact G|]. unfold eps. apply Rmult_le_compat_l; [lra|]. apply Rmult_le_compat_r; [apply Rlt_le, u_pos|].
      apply le_INR. rewrite slice_length. lia.
  Qed.
  (** a moment that is not zero is not tiny, and none is huge *)
  Lemma part_size a b : (a < b)%nat -> (a < length (dz f m f))%nat -> (Z.of_nat (length f) <= 2 ^ 30)%Z ->
    (rpart a b = 0 \/ bpow radix2 (-491 - 100 * Z.abs m) <= rpart a b) /\ 0 <= rpart a b <= bpow radix2 (300 + 100 * Z.abs m).
  Proof.
    intros Hab Ha Hn. unfold rpart.
    assert (Ld : (length (dz f m f) <= length f)%nat) by (unfold dz; destruct (_ && _); rewrite ?tl_length; lia).
    set (x := slice a b (dz f m f)). set (y := slice a b (weighted m f s)).
    assert (Hx : exact_steps h x) by (apply slice_exact, dz_exact).
    assert (Lxy : length y = length x) by (unfold x, y; rewrite !slice_length, w_length; reflexivity).
    assert (Lx : (0 < length x <= length f)%nat) by (unfold x; rewrite slice_length; lia).
    assert (Hne : x <> []) by (intros E; rewrite E in Lx; cbn in Lx; lia).
    assert (Hy : forall k, (k < length y)%nat -> (nth k y 0 = 0 \/ bpow radix2 (-200 - 100 * Z.abs m) <= nth k y 0) /\ nth k y 0 <= bpow radix2 (200 + 100 * Z.abs m)).
    { intros k Hk. unfold y in Hk |- *. rewrite slice_length, w_length in Hk. rewrite slice_nth by lia. apply w_size. lia. }
    assert (Ny : nonneg y).
    { intros v Hv. apply (In_nth _ _ 0) in Hv. destruct Hv as (k & Hk & <-). destruct (Hy k Hk) as [[->|C] _]; [lra|]. assert (Z := b_pos (-200 - 100 * Z.abs m)). lra. }
    assert (Hh := fa_sane _ _ Hf). split; [|split; [apply (rsimp_pos h); auto|]].
    - set (c := bpow radix2 (-520 + 100 * Z.abs m)). assert (Pc : 0 < c) by apply b_pos.
      assert (Lc : length (lc c 0 y y) = length y) by (apply lc_length; reflexivity).
      assert (Nc : forall k, nth k (lc c 0 y y) 0 = c * nth k y 0) by (intros k; rewrite lc_nth by reflexivity; ring).
      destruct (simpson_accuracy h 0 x (lc c 0 y y) (lc c 0 y y) Hh ltac:(lia) ltac:(lia) Hx) as [R0 _].
      + split; [reflexivity|]. intros k Hk. split; [|apply rel_refl]. rewrite Lc in Hk. rewrite Nc. destruct (Hy k Hk) as [[->|C] _]; [left; ring|right].
        replace (-720)%Z with (-520 + 100 * Z.abs m + (-200 - 100 * Z.abs m))%Z by lia. rewrite bpow_plus. apply Rmult_le_compat_l; [apply Rlt_le, Pc|exact C].
      + rewrite Lc. exact Lxy.
      + exact Hne.
      + rewrite (rsimp_lin c 0 x y y) in R0 by (auto; lia). rewrite Rmult_0_l, Rplus_0_r in R0.
        destruct R0 as [R0|R0]; [left; apply (Rmult_eq_reg_l c); lra|right].
        apply (Rmult_le_reg_l c); [exact Pc|]. eapply Rle_trans; [|exact R0]. unfold c. rewrite <- bpow_plus. apply bpow_le. lia.
    - assert (B : rsimp x y <= bpow radix2 (200 + 100 * Z.abs m) * (nth (length x - 1) x 0 - nth 0 x 0)).
      { apply (rsimp_top h); auto. intros v Hv. apply (In_nth _ _ 0) in Hv. destruct Hv as (k & Hk & <-). apply Hy, Hk. }
      eapply Rle_trans; [exact B|]. replace (300 + 100 * Z.abs m)%Z with (200 + 100 * Z.abs m + 100)%Z by lia. rewrite (bpow_plus _ (200 + 100 * Z.abs m)).
      apply Rmult_le_compat_l; [apply Rlt_le, b_pos|].
      assert (T : forall k, (k < length x)%nat -> 0 <= nth k x 0 <= bpow radix2 100).
      { intros k Hk. unfold x in Hk |- *. rewrite slice_length in Hk. rewrite slice_nth by lia. apply base_ok. lia. }
      assert (T1 := T (length x - 1)%nat ltac:(lia)). assert (T0 := T 0%nat ltac:(lia)). lra.
  Qed.
End Weighted.

(** the part of the axis between two of its frequencies, as [compute_moment] sees it *)
Definition zskip (f : list R) (m : Z) : nat := if Z.ltb m 0 && Reqb (nth 0 f 0) 0 then 1 else 0.
Lemma dz_nth f m (l : list R) k : (zskip f m <= k)%nat -> nth k l 0 = nth (k - zskip f m) (dz f m l) 0.
Proof. unfold zskip, dz. destruct (_ && _); intros H; [rewrite tl_nth; f_equal; lia|f_equal; lia]. Qed.
Lemma dz_len f m (l : list R) : length (dz f m l) = (length l - zskip f m)%nat.
Proof. unfold zskip, dz. destruct (_ && _); [apply tl_length|lia]. Qed.

Lemma nearest_self_NB (g : list R) i : floats g -> increasing g -> (i < length g)%nat -> approx_array_index (N:=NB) (F g) (Fin (nth i g 0)) = Ok i.
Proof.
  intros Fg Ig Hi. set (w := nth i g 0).
  assert (E : approx_array_index (N:=NB) (F g) (Fin w) = argmin (N:=NX) (F (map (fun a => Rabs (rnd (a - w))) g))).
  { unfold approx_array_index. change (argmin (N:=NB)) with (argmin (N:=NX)). f_equal. unfold F. rewrite !map_map. reflexivity. }
  assert (Nm : map (fun a => Rabs (rnd (a - w))) g <> []) by (destruct g; [cbn in Hi; lia|discriminate]).
  rewrite E. destruct (argmin_spec _ Nm) as (k & -> & Hk & Hmin & _). rewrite map_length in Hk, Hmin. f_equal.
  specialize (Hmin i Hi).
  assert (N : forall q, (q < length g)%nat -> nth q (map (fun a => Rabs (rnd (a - w))) g) 0 = Rabs (rnd (nth q g 0 - w))).
  { intros q Hq. rewrite (nth_indep _ 0 ((fun b => Rabs (rnd (b - w))) 0)) by (rewrite map_length; lia). rewrite (map_nth (fun b => Rabs (rnd (b - w)))). reflexivity. }
  rewrite !N in Hmin by auto. fold w in Hmin. rewrite (Rminus_diag_eq w w), (rnd_id 0), Rabs_R0 in Hmin by auto using float_0.
  destruct (Nat.eq_dec k i) as [|Ne]; [assumption|exfalso].
  assert (D : rnd (nth k g 0 - w) <> 0).
  { apply rnd_diff_ne; [apply Fg, nth_In, Hk|apply Fg, nth_In, Hi|]. unfold w. destruct (Nat.lt_ge_cases k i) as [Q|Q].
    - assert (A := Ig k i ltac:(lia)). lra.
    - assert (A := Ig i k ltac:(lia)). lra. }
  apply Rabs_pos_lt in D. lra.
Qed.

Section Grid.
  Variables (h : R) (f s : list R) (m : Z).
  Hypothesis Hf : freq_axis_fl h f.
  Hypothesis Ls : length s = length f.
  Hypothesis Hm : (-5 <= m <= 3)%Z.
  Variables (a b : nat).
  Hypothesis Hab : (a < b < length f)%nat.
  Lemma f_inc : increasing f.
  Proof. intros i j Hij. assert (A := fa_inc h f Hf i j Hij). assert (P := fa_h h f Hf). lra. Qed.
  Lemma grid_NB : monotonic_increasing_constant_step (N:=NB) (F f) = Ok true ->
    v_moment (N:=NB) m (F f) (F s) (Fin (nth a f 0)) (Fin (nth b f 0)) = Ok (Fin (fpart f s m (a - zskip f m) (b - zskip f m + 1))).
  Proof.
    intros Hmono. assert (T := fa_two _ _ Hf).
    enough (M : compute_moment (N:=NB) (Arr (vec (F f))) (Arr (vec (F s))) m (Fin (nth a f 0)) (Fin (nth b f 0)) = Ok (Fin (fpart f s m (a - zskip f m) (b - zskip f m + 1)))) by exact M.
    assert (Nf : F f <> []) by (destruct f; [cbn in T; lia|discriminate]).
    assert (Ns : F s <> []) by (destruct s; [cbn in Ls; lia|discriminate]).
    assert (Ga := fa_nonneg h f Hf a ltac:(lia)). assert (Gb := fa_nonneg h f Hf b ltac:(lia)).
    destruct (@hv_convert (car NB) (F f) (Arr (vec (F f))) Nf (hv_flat _)) as (kf & Hkf & Evf).
    destruct (@hv_convert (car NB) (F s) (Arr (vec (F s))) Ns (hv_flat _)) as (ks & Hks & Evs).
    unfold compute_moment. rewrite Evf, Evs. cbn [fst snd].
    destruct (Nat.ltb_spec 1 kf); [lia|]. destruct (Nat.ltb_spec 1 ks); [lia|]. cbn [orb]. rewrite !as_list_vec, bind_Ok.
    rewrite Hmono, bind_Ok. cbn [negb]. rewrite !F_length, Ls, Nat.eqb_refl. cbn [negb]. rewrite bind_Ok.
    rewrite idx_F, bind_Ok by lia. cbv zeta.
    assert (Dz : forall l : list R, drop_zero (N:=NB) (A:=car NB) m (Fin (nth 0 f 0)) (F l) = F (dz f m l)).
    { intros l. unfold drop_zero, dz. rewrite nb_0, nb_eqb. destruct (Z.ltb m 0); [|reflexivity].
      destruct (Reqb (nth 0 f 0) 0); [destruct l|]; reflexivity. }
    rewrite !Dz. rewrite (integrand_NB h f Hf m s Ls).
    rewrite nb_opp1, !nb_eqb, !(Reqb_false _ (-1)) by lra. cbn [orb].
    rewrite idx_F, bind_Ok by lia.
    assert (Ne := dz_ne h f Hf m s Ls).
    assert (NeF : F (dz f m f) <> []) by (destruct (dz f m f); [contradiction|discriminate]).
    assert (Zs : (zskip f m <= 1)%nat) by (unfold zskip; destruct (_ && _); lia).
    rewrite (@idx_last_nth (car NB) _ (Fin 0) NeF), F_length, F_nth, bind_Ok.
    assert (Last : nth (length (dz f m f) - 1) (dz f m f) 0 = nth (length f - 1) f 0).
    { rewrite (dz_nth f m f (length f - 1)) by lia. rewrite dz_len. f_equal. lia. }
    rewrite Last. assert (Le : nth b f 0 <= nth (length f - 1) f 0).
    { destruct (Nat.eq_dec b (length f - 1)) as [->|]; [lra|]. apply Rlt_le, f_inc. lia. }
    rewrite nb_leb, Rleb_true by exact Le.
    assert (First : (if Z.ltb m 0 && neqb (n:=NB) (Fin (nth 0 f 0)) (n0 (N:=NB)) && neqb (n:=NB) (Fin (nth a f 0)) (n0 (N:=NB)) then Fin (nth 1 f 0) else Fin (nth a f 0))
                    = Fin (nth (a - zskip f m) (dz f m f) 0)).
    { rewrite nb_0, !nb_eqb. unfold zskip, dz. destruct (Z.ltb m 0); cbn [andb]; [|rewrite Nat.sub_0_r; reflexivity].
      destruct (Reqb_spec (nth 0 f 0) 0) as [E0|E0]; cbn [andb]; [|rewrite Nat.sub_0_r; reflexivity]. rewrite tl_nth.
      destruct (Nat.eq_dec a 0) as [->|Na].
      - rewrite Reqb_true by exact E0. reflexivity.
      - rewrite Reqb_false; [do 2 f_equal; lia|]. assert (A := f_inc 0%nat a ltac:(lia)). lra. }
    match goal with |- context [approx_array_index _ ?q] => assert (Eq : q = Fin (nth (a - zskip f m) (dz f m f) 0)) by exact First; rewrite Eq end.
    rewrite (dz_nth f m f b) by lia.
    assert (Fg : floats (dz f m f)) by (intros v Hv; apply (fa_floats _ _ Hf), (dz_In f m), Hv).
    assert (Ig : increasing (dz f m f)).
    { intros i j Hij. rewrite dz_len in Hij. assert (A := f_inc (i + zskip f m)%nat (j + zskip f m)%nat ltac:(lia)).
      rewrite (dz_nth f m f (i + _)), (dz_nth f m f (j + _)) in A by lia. rewrite !Nat.add_sub in A. exact A. }
    rewrite !nearest_self_NB by (auto; rewrite dz_len; lia). rewrite !bind_Ok.
    unfold simpson_slice. rewrite !F_slice. apply simpson_fsimp.
    - intros E. assert (L0 : length (slice (a - zskip f m) (b - zskip f m + 1) (dz f m f)) = 0%nat) by (rewrite E; reflexivity). rewrite slice_length, dz_len in L0. lia.
    - rewrite !slice_length, (wg_length f m s Ls). reflexivity.
  Qed.
  Lemma grid_NX : good_axis f ->
    v_moment (N:=NX) m (F f) (F s) (Fin (nth a f 0)) (Fin (nth b f 0)) = Ok (Fin (rpart f s m (a - zskip f m) (b - zskip f m + 1))).
  Proof.
    intros Hg. unfold v_moment. assert (Hq : freq_axis f) by (split; [exact Hg|apply (fa_first h f Hf)]).
    assert (Ga := fa_nonneg h f Hf a ltac:(lia)). assert (Gb := fa_nonneg h f Hf b ltac:(lia)).
    assert (Zs : (zskip f m <= 1)%nat) by (unfold zskip; destruct (_ && _); lia).
    assert (Le : nth b f 0 <= last_of f).
    { unfold last_of. destruct (Nat.eq_dec b (length f - 1)) as [->|]; [lra|]. apply Rlt_le, f_inc. lia. }
    assert (Lab := f_inc a b Hab).
    destruct (moment_in f s m Hq Ls (nth a f 0) (nth b f 0) ltac:(lra) ltac:(lra) ltac:(left; lra) Le) as (i & j & Ni & Nj & _ & ->).
    change (without_zero m f f) with (dz f m f) in *.
    assert (Ig : increasing (dz f m f)).
    { intros p q Hpq. rewrite dz_len in Hpq. assert (A := f_inc (p + zskip f m)%nat (q + zskip f m)%nat ltac:(lia)).
      rewrite (dz_nth f m f (p + _)), (dz_nth f m f (q + _)) in A by lia. rewrite !Nat.add_sub in A. exact A. }
    assert (j = (b - zskip f m)%nat) as ->.
    { apply (nearest_unique (dz f m f) (nth b f 0)); auto. rewrite (dz_nth f m f b) by lia. apply nearest_self; [exact Ig|rewrite dz_len; lia]. }
    assert (i = (a - zskip f m)%nat) as ->; [|reflexivity].
    apply (nearest_unique (dz f m f) (nth a f 0)); auto. destruct (Nat.lt_ge_cases a (zskip f m)) as [Q|Q].
    - assert (a = 0%nat) by lia. subst a. cbn [Nat.sub]. apply nearest_below; [exact Ig|exact (dz_ne h f Hf m s Ls)|].
      assert (Z1 : zskip f m = 1%nat) by lia. assert (A := f_inc 0%nat 1%nat ltac:(lia)). rewrite (dz_nth f m f 1) in A by lia. rewrite Z1 in A. cbn [Nat.sub] in A. lra.
    - rewrite (dz_nth f m f a) by lia. apply nearest_self; [exact Ig|rewrite dz_len; lia].
  Qed.
End Grid.

(** ** C80 *)

(** the relative accuracy claimed for a moment over n frequencies *)
Definition accuracy (n : nat) : R := 2 * (INR n + 38) / 2 ^ 53.
Lemma accuracy_eps n : accuracy n = eps n.
Proof. unfold accuracy, eps. rewrite plus_INR, u53_val. replace (INR 38) with 38 by (cbn; lra). lra. Qed.
Lemma eps_small n : (Z.of_nat n <= 2 ^ 30)%Z -> 76 * u53 <= eps n <= / 1000000.
Proof.
  intros Hn. unfold eps. rewrite plus_INR. replace (INR 38) with 38 by (cbn; lra). assert (P := pos_INR n).
  assert (I : INR n <= IZR (2 ^ 30)) by (rewrite INR_IZR_INZ; apply IZR_le, Hn). change (IZR (2 ^ 30)) with 1073741824 in I. rewrite u53_val. lra.
Qed.

(** (a) moments of order -5 to 3 between two frequencies of the axis *)
Theorem C80_moments (h : R) (f s : list R) (m : Z) (a b : nat) :
  freq_axis_fl h f -> good_axis f -> monotonic_increasing_constant_step (N:=NB) (F f) = Ok true ->
  length s = length f -> (forall v, In v s -> density_ok v) -> (Z.of_nat (length f) <= 2 ^ 30)%Z -> (-5 <= m <= 3)%Z -> (a < b < length f)%nat ->
  exists x r,
    compute_moment (N:=NX) (Arr (vec (F f))) (Arr (vec (F s))) m (Fin (nth a f 0)) (Fin (nth b f 0)) = Ok (Fin x)
    /\ compute_moment (N:=NB) (Arr (vec (F f))) (Arr (vec (F s))) m (Fin (nth a f 0)) (Fin (nth b f 0)) = Ok (Fin r)
    /\ 0 <= x /\ Rabs (r - x) <= accuracy (length f) * x.
Proof.
  intros Hf Hg Ck Ls Ds Hn Hm Hab. assert (Zs : (zskip f m <= 1)%nat) by (unfold zskip; destruct (_ && _); lia).
  exists (rpart f s m (a - zskip f m) (b - zskip f m + 1)), (fpart f s m (a - zskip f m) (b - zskip f m + 1)).
  split; [exact (grid_NX h f s m Hf Ls a b Hab Hg)|]. split; [exact (grid_NB h f s m Hf Ls a b Hab Ck)|]. split.
  - apply (part_size h f s m Hf Ls Ds Hm); [lia|rewrite dz_len; lia|exact Hn].
  - rewrite accuracy_eps. apply (part_accuracy h f s m Hf Ls Ds Hm); [lia|rewrite dz_len; lia|exact Hn].
Qed.
(** with the defaults: the whole axis *)
Theorem C80_moments_default (h : R) (f s : list R) (m : Z) :
  freq_axis_fl h f -> good_axis f -> monotonic_increasing_constant_step (N:=NB) (F f) = Ok true ->
  length s = length f -> (forall v, In v s -> density_ok v) -> (Z.of_nat (length f) <= 2 ^ 30)%Z -> (-5 <= m <= 3)%Z ->
  exists x r,
    compute_moment (N:=NX) (Arr (vec (F f))) (Arr (vec (F s))) m (Fin (-1)) (Fin (-1)) = Ok (Fin x)
    /\ compute_moment (N:=NB) (Arr (vec (F f))) (Arr (vec (F s))) m (Fin (-1)) (Fin (-1)) = Ok (Fin r)
    /\ 0 <= x /\ Rabs (r - x) <= accuracy (length f) * x.
Proof.
  intros Hf Hg Ck Ls Ds Hn Hm. assert (Zs : (zskip f m <= 1)%nat) by (unfold zskip; destruct (_ && _); lia). assert (T := fa_two _ _ Hf).
  assert (Ew := dz_ne h f Hf m s Ls).
  exists (rpart f s m 0 (length (dz f m f))), (fpart f s m 0 (length (dz f m f))).
  assert (Lz : (0 < length (dz f m f))%nat) by (rewrite dz_len; lia).
  split; [|split; [|split]].
  - assert (Hq : freq_axis f) by (split; [exact Hg|apply (fa_first h f Hf)]).
    rewrite (moment_all f s m Hq Ls) by (left; reflexivity). unfold rpart. change (without_zero m f f) with (dz f m f).
    rewrite !slice_all by (rewrite ?(w_length f s m Ls); lia). reflexivity.
  - assert (Nf : F f <> []) by (destruct f; [cbn in T; lia|discriminate]).
    assert (Ns : F s <> []) by (destruct s; [cbn in Ls; lia|discriminate]).
    destruct (@hv_convert (car NB) (F f) (Arr (vec (F f))) Nf (hv_flat _)) as (kf & Hkf & Evf).
    destruct (@hv_convert (car NB) (F s) (Arr (vec (F s))) Ns (hv_flat _)) as (ks & Hks & Evs).
    unfold compute_moment. rewrite Evf, Evs. cbn [fst snd].
    destruct (Nat.ltb_spec 1 kf); [lia|]. destruct (Nat.ltb_spec 1 ks); [lia|]. cbn [orb]. rewrite !as_list_vec, bind_Ok.
    rewrite Ck, bind_Ok. cbn [negb]. rewrite !F_length, Ls, Nat.eqb_refl. cbn [negb]. rewrite bind_Ok.
    rewrite idx_F, bind_Ok by lia. cbv zeta.
    assert (Dz : forall l : list R, drop_zero (N:=NB) (A:=car NB) m (Fin (nth 0 f 0)) (F l) = F (dz f m l)).
    { intros l. unfold drop_zero, dz. rewrite nb_0, nb_eqb. destruct (Z.ltb m 0); [|reflexivity].
      destruct (Reqb (nth 0 f 0) 0); [destruct l|]; reflexivity. }
    rewrite !Dz. rewrite (integrand_NB h f Hf m s Ls).
    rewrite nb_opp1, !nb_eqb, !(Reqb_true (-1) (-1)) by reflexivity. cbn [orb].
    unfold fpart. rewrite !slice_all by (rewrite ?(wg_length f m s Ls); lia). apply simpson_fsimp; [exact Ew|rewrite (wg_length f m s Ls); reflexivity].
  - apply (part_size h f s m Hf Ls Ds Hm); [lia|lia|exact Hn].
  - rewrite accuracy_eps. apply (part_accuracy h f s m Hf Ls Ds Hm); [lia|lia|exact Hn].
Qed.

(** two results agree up to the relative error d: both numbers, or both infinite, or both NaN *)
Definition agree (d : R) (v w : xr) : Prop :=
  match v, w with Fin x, Fin r => 0 <= x /\ Rabs (r - x) <= d * x | PInf, PInf => True | NaN, NaN => True | _, _ => False end.

Lemma round_step d x r : 0 <= d <= / 100 -> thr x -> Rabs (r - x) <= d * x -> Rabs (rnd r - x) <= (d + 102 / 100 * u53) * x.
Proof.
  intros Hd T H. assert (G := thr_nonneg _ T). assert (Uu := u_pos). destruct T as [->|T].
  - rewrite Rmult_0_r in H |- *. apply Rabs_le_inv in H. replace r with 0 by lra. rewrite rnd_id by apply float_0. rewrite Rminus_0_r, Rabs_R0. lra.
  - apply Rabs_le_inv in H. assert (D : 0 <= d * x <= x / 100) by nra.
    assert (B : bpow radix2 (-1020) <= r).
    { apply Rle_trans with (bpow radix2 (-1010) / 2); [|lra]. change (-1020)%Z with (-10 + -1010)%Z. rewrite bpow_plus.
      replace (bpow radix2 (-10)) with (/ 1024) by (cbn; lra). assert (Z := b_pos (-1010)). lra. }
    destruct (rnd_rel r B) as [A1 A2]. fold u53 in A1, A2. assert (U : 0 <= u53 * r <= u53 * (102 / 100 * x)) by (split; [apply Rmult_le_pos; lra|apply Rmult_le_compat_l; lra]).
    apply Rabs_le. lra.
Qed.
Lemma sqrt_step d x r : 0 <= d <= / 100 -> 0 <= x -> Rabs (r - x) <= d * x -> 0 <= r /\ Rabs (sqrt r - sqrt x) <= 51 / 100 * d * sqrt x.
Proof.
  intros Hd Hx H. apply Rabs_le_inv in H. assert (Hr : 0 <= r) by nra. split; [exact Hr|].
  assert (P := sqrt_pos x). assert (L : sqrt (x * ((1 - 51 / 100 * d) * (1 - 51 / 100 * d))) <= sqrt r) by (apply sqrt_le_1_alt; nra).
  assert (U : sqrt r <= sqrt (x * ((1 + 51 / 100 * d) * (1 + 51 / 100 * d)))) by (apply sqrt_le_1_alt; nra).
  rewrite sqrt_mult_alt in L, U by exact Hx. rewrite sqrt_square in L, U by lra. apply Rabs_le. lra.
Qed.
Lemma ratio_step e x r y q : 0 <= e <= / 1000 -> 0 <= x -> 0 < y -> Rabs (r - x) <= e * x -> Rabs (q - y) <= e * y ->
  0 < q /\ Rabs (r / q - x / y) <= 201 / 100 * e * (x / y).
Proof.
  intros He Hx Hy H1 H2. apply Rabs_le_inv in H1, H2. assert (Hq : 0 < q) by nra. split; [exact Hq|].
  assert (E : x = x / y * y) by (field; lra). set (z := x / y) in *. assert (Hz : 0 <= z) by (unfold z; apply Rmult_le_pos; [lra|apply Rlt_le, Rinv_0_lt_compat, Hy]).
  clearbody z. subst x. assert (zy : 0 <= z * y) by (apply Rmult_le_pos; lra). assert (ezy : 0 <= e * (z * y)) by (apply Rmult_le_pos; lra).
  assert (ey : 0 <= e * y) by (apply Rmult_le_pos; lra). assert (eez : e * (e * (z * y)) <= / 1000 * (e * (z * y))) by (apply Rmult_le_compat_r; lra).
  assert (zq : z * (y - e * y) <= z * q <= z * (y + e * y)) by (split; apply Rmult_le_compat_l; lra).
  assert (ez : 0 <= e * z) by (apply Rmult_le_pos; lra).
  assert (ezq : e * z * (y - e * y) <= e * z * q <= e * z * (y + e * y)) by (split; apply Rmult_le_compat_l; lra).
  apply Rabs_le. split.
  - enough (z * (1 - 201 / 100 * e) <= r / q) by lra. apply le_div; [exact Hq|]. nra.
  - enough (r / q <= z * (1 + 201 / 100 * e)) by lra. apply div_le; [exact Hq|]. nra.
Qed.

Lemma agree_div e x r y q : 76 * u53 <= e <= / 1000000 -> 0 <= x -> 0 <= y -> Rabs (r - x) <= e * x -> Rabs (q - y) <= e * y ->
  (y = 0 \/ thr (x / y)) -> agree (21 / 10 * e) (ndiv (n:=NX) (Fin x) (Fin y)) (ndiv (n:=NB) (Fin r) (Fin q)).
Proof.
  intros He Hx Hy Hr Hq Ht. assert (Uu := u_pos). change (agree (21 / 10 * e) (xdiv (Fin x) (Fin y)) (xround (xdiv (Fin r) (Fin q)))). cbn [xdiv].
  destruct (Req_EM_T y 0) as [E|E].
  - subst y. assert (q = 0) by (rewrite Rmult_0_r in Hq; apply Rabs_le_inv in Hq; lra). subst q. destruct (Req_EM_T 0 0); [|contradiction].
    assert (Rx : x = 0 /\ r = 0 \/ 0 < x /\ 0 < r).
    { apply Rabs_le_inv in Hr. destruct (Req_dec x 0) as [->|]; [left; lra|right]. split; [lra|]. nra. }
    unfold xinf_times. destruct Rx as [[-> ->]|[Px Pr]].
    + destruct (Rlt_dec 0 0); [lra|]. cbn. exact I.
    + destruct (Rlt_dec 0 x); [|lra]. destruct (Rlt_dec 0 r); [|lra]. cbn. exact I.
  - destruct Ht as [|Ht]; [contradiction|]. destruct (ratio_step e x r y q ltac:(lra) Hx ltac:(lra) Hr Hq) as [Pq B].
    destruct (Req_EM_T q 0); [lra|]. cbn [xround agree]. assert (G := thr_nonneg _ Ht). split; [exact G|].
    eapply Rle_trans; [apply (round_step (201 / 100 * e)); [lra|exact Ht|exact B]|]. apply Rmult_le_compat_r; lra.
Qed.

(** limits of a getter: the default -1, or a frequency of the axis *)
Definition lower_at (f : list R) (v : xr) (a : nat) : Prop := v = Fin (-1) /\ a = 0%nat \/ v = Fin (nth a f 0).
Definition upper_at (f : list R) (v : xr) (b : nat) : Prop := v = Fin (-1) /\ b = (length f - 1)%nat \/ v = Fin (nth b f 0).

Lemma flim_both h f fmin fmax a b : freq_axis_fl h f -> (a < b < length f)%nat -> lower_at f fmin a -> upper_at f fmax b ->
  set_flim (N:=NX) (F f) fmin fmax = Ok (Fin (nth a f 0), Fin (nth b f 0)) /\ set_flim (N:=NB) (F f) fmin fmax = Ok (Fin (nth a f 0), Fin (nth b f 0)).
Proof.
  intros Hf Hab Ha Hb. assert (Ga := fa_nonneg h f Hf a ltac:(lia)). assert (Gb := fa_nonneg h f Hf b ltac:(lia)).
  assert (Nf : F f <> []) by (destruct f; [cbn in Hab; lia|discriminate]).
  assert (X : set_flim (N:=NX) (F f) fmin fmax = Ok (Fin (nth a f 0), Fin (nth b f 0))).
  { apply set_flim_F.
    - intros E. apply Nf. rewrite E. reflexivity.
    - destruct Ha as [[-> ->]| ->]; [left; auto|right]. split; [|reflexivity]. intros E. injection E as E. lra.
    - destruct Hb as [[-> ->]| ->]; [left; auto|right]. split; [|reflexivity]. intros E. injection E as E. lra. }
  split; [exact X|]. rewrite <- X. unfold set_flim. rewrite nb_opp1. 
  assert (E1 : nopp (n:=NX) (n1 (N:=NX)) = Fin (-1)) by reflexivity. rewrite E1. reflexivity.
Qed.

Lemma spectrum_fields_NX (f s : list R) (sp : spec NX) : (2 <= length f)%nat -> s <> [] ->
  spectrum_init (N:=NX) (Arr (vec (F f))) (Arr (vec (F s))) = Ok sp -> s_f sp = F f /\ s_S sp = F s /\ good_axis f.
Proof.
  intros L2 Ns H. unfold spectrum_init in H. rewrite !vec_convert in H. cbn [fst snd] in H. rewrite as_list_vec, bind_Ok in H.
  destruct (C02_accepts_iff f L2) as (b & Eb & Hb). rewrite Eb, bind_Ok in H. destruct b; cbn [negb] in H; [|discriminate H].
  destruct (Nat.eqb _ _); cbn [negb] in H; [|discriminate H]. rewrite as_list_vec in H. apply Ok_inj in H. subst sp.
  split; [reflexivity|]. split; [reflexivity|]. split; [exact L2|]. apply Hb. reflexivity.
Qed.

(** whatever the limits: the four getters from the accuracy and the sizes of the moments they use *)
Lemma getters_acc (f s : list R) (spx : spec NX) (spb : spec NB) (fmin fmax lo hi : xr) (d : R) :
  s_f spx = F f -> s_S spx = F s -> s_f spb = F f -> s_S spb = F s ->
  set_flim (N:=NX) (F f) fmin fmax = Ok (lo, hi) -> set_flim (N:=NB) (F f) fmin fmax = Ok (lo, hi) -> 76 * u53 <= d <= / 1000000 ->
  (forall m, (-5 <= m <= 3)%Z -> exists x r,
    v_moment (N:=NX) m (F f) (F s) lo hi = Ok (Fin x)
    /\ v_moment (N:=NB) m (F f) (F s) lo hi = Ok (Fin r)
    /\ Rabs (r - x) <= d * x /\ (x = 0 \/ bpow radix2 (-491 - 100 * Z.abs m) <= x) /\ 0 <= x <= bpow radix2 (301 + 100 * Z.abs m)) ->
  let both gx gb e := exists v w, snd (gx fmin fmax spx) = Ok v /\ snd (gb fmin fmax spb) = Ok w /\ agree e v w in
  both (get_Hm0 (N:=NX)) (get_Hm0 (N:=NB)) d
  /\ both (get_Tm02 (N:=NX)) (get_Tm02 (N:=NB)) (2 * d)
  /\ both (get_Tm01 (N:=NX)) (get_Tm01 (N:=NB)) (3 * d)
  /\ both (get_Tmm10 (N:=NX)) (get_Tmm10 (N:=NB)) (3 * d).
Proof.
  intros Exf Exs Ebf Ebs FX FB He M both. assert (Uu := u_pos).
  destruct (M (-1)%Z ltac:(lia)) as (xm & rm & Xm & Bm & Am & Sm & Tm). destruct (M 0%Z ltac:(lia)) as (x0 & r0 & X0 & B0 & A0 & S0 & T0).
  destruct (M 1%Z ltac:(lia)) as (x1 & r1 & X1 & B1 & A1 & S1 & T1). destruct (M 2%Z ltac:(lia)) as (x2 & r2 & X2 & B2 & A2 & S2 & T2). clear M.
  change (-491 - 100 * Z.abs (-1))%Z with (-591)%Z in Sm. change (-491 - 100 * Z.abs 0)%Z with (-491)%Z in S0.
  change (301 + 100 * Z.abs 0)%Z with 301%Z in T0. change (301 + 100 * Z.abs 1)%Z with 401%Z in T1. change (301 + 100 * Z.abs 2)%Z with 501%Z in T2.
  assert (Q : forall x y e1 e2, (x = 0 \/ bpow radix2 e1 <= x) -> 0 <= y <= bpow radix2 e2 -> (-1010 <= e1 - e2)%Z -> y = 0 \/ thr (x / y)).
  { clear. intros x y e1 e2 Hx Hy He. destruct (Req_dec y 0) as [E|E]; [left; exact E|right]. destruct Hx as [->|Hx]; [left; unfold Rdiv; ring|right].
    apply le_div; [lra|]. apply Rle_trans with (bpow radix2 (-1010) * bpow radix2 e2); [apply Rmult_le_compat_l; [apply Rlt_le, b_pos|lra]|].
    rewrite <- bpow_plus. eapply Rle_trans; [apply bpow_le|exact Hx]. lia. }
  assert (RX : forall v st w, v (F f) (F s) fmin fmax = Ok w -> snd (getter (N:=NX) v st fmin fmax spx) = Ok w).
  { intros v st w E. unfold getter, mbind, mget, mlift, mset. rewrite Exf, Exs, E. reflexivity. }
  assert (RB : forall v st w, v (F f) (F s) fmin fmax = Ok w -> snd (getter (N:=NB) v st fmin fmax spb) = Ok w).
  { intros v st w E. unfold getter, mbind, mget, mlift, mset. rewrite Ebf, Ebs, E. reflexivity. }
  assert (SQ : forall x, (x = 0 \/ bpow radix2 (-1010) <= x) -> 0 <= x -> sqrt x = 0 \/ bpow radix2 (-505) <= sqrt x).
  { clear. intros x [->|Hx] Gx; [left; apply sqrt_0|right]. apply Rsqr_incr_0_var; [|apply sqrt_pos]. rewrite Rsqr_sqrt by exact Gx. unfold Rsqr. rewrite <- bpow_plus. exact Hx. }
  assert (TH : forall x e, (-1010 <= e)%Z -> (x = 0 \/ bpow radix2 e <= x) -> thr x).
  { clear. intros x e He [->|Hx]; [left; reflexivity|right]. eapply Rle_trans; [apply bpow_le|exact Hx]. exact He. }
  split; [|split; [|split]].
  - exists (Fin (4 * sqrt x0)), (Fin (rnd (4 * rnd (sqrt r0)))).
    split; [apply RX; unfold v_Hm0; rewrite FX, bind_Ok, X0, bind_Ok, fin_sqrt by lra; reflexivity|].
    destruct (sqrt_step d x0 r0 ltac:(lra) ltac:(lra) A0) as [Pr Sr].
    split.
    { apply RB. unfold v_Hm0. rewrite FB, bind_Ok, B0, bind_Ok. rewrite nb_ofZ by (cbn; lia). change (nsqrt (n:=NB) (Fin r0)) with (xround (xsqrt (Fin r0))). cbn [xsqrt].
      destruct (Rlt_dec r0 0); [lra|]. cbn [xround]. rewrite nb_mul. reflexivity. }
    cbn [agree]. assert (Px := sqrt_pos x0). split; [lra|].
    assert (Ts := SQ x0 (TH x0 (-491)%Z ltac:(lia) S0) ltac:(lra)).
    assert (E1 := round_step (51 / 100 * d) (sqrt x0) (sqrt r0) ltac:(lra) (TH _ (-505)%Z ltac:(lia) Ts) Sr).
    assert (E2 : Rabs (rnd (4 * rnd (sqrt r0)) - 4 * sqrt x0) <= (51 / 100 * d + 102 / 100 * u53 + 102 / 100 * u53) * (4 * sqrt x0)).
    { apply round_step; [lra| |].
      - destruct (TH _ (-505)%Z ltac:(lia) Ts) as [Z|Z]; [left; lra|right; lra].
      - replace (4 * rnd (sqrt r0) - 4 * sqrt x0) with (4 * (rnd (sqrt r0) - sqrt x0)) by ring. rewrite Rabs_mult, (Rabs_pos_eq 4) by lra. lra. }
    eapply Rle_trans; [exact E2|]. apply Rmult_le_compat_r; lra.
  - assert (G := agree_div d x0 r0 x2 r2 He ltac:(lra) ltac:(lra) A0 A2 (Q x0 x2 (-491)%Z 501%Z S0 T2 ltac:(lia))).
    exists (nsqrt (n:=NX) (ndiv (n:=NX) (Fin x0) (Fin x2))), (nsqrt (n:=NB) (ndiv (n:=NB) (Fin r0) (Fin r2))).
    split; [apply RX; unfold v_Tm02; rewrite FX, bind_Ok, X0, bind_Ok, X2; reflexivity|].
    split; [apply RB; unfold v_Tm02; rewrite FB, bind_Ok, B0, bind_Ok, B2; reflexivity|].
    destruct (Req_dec x2 0) as [E|E].
    { destruct (ndiv (n:=NX) (Fin x0) (Fin x2)) as [q| | |] eqn:EX; destruct (ndiv (n:=NB) (Fin r0) (Fin r2)) as [q'| | |]; try contradiction G; try exact I.
      exfalso. subst x2. change (xdiv (Fin x0) (Fin 0) = Fin q) in EX. cbn [xdiv] in EX. destruct (Req_EM_T 0 0); [|contradiction].
      unfold xinf_times in EX. destruct (Rlt_dec 0 x0); [discriminate|]. destruct (Rlt_dec x0 0); discriminate. }
    rewrite fin_div in G |- * by exact E. set (w := ndiv (n:=NB) (Fin r0) (Fin r2)) in *. clearbody w. destruct w as [q'| | |]; try contradiction G. cbn [agree] in G. destruct G as [Gp G].
    destruct (sqrt_step (21 / 10 * d) (x0 / x2) q' ltac:(lra) Gp G) as [Pq Sq].
    rewrite fin_sqrt by exact Gp. change (nsqrt (n:=NB) (Fin q')) with (xround (xsqrt (Fin q'))). cbn [xsqrt]. destruct (Rlt_dec q' 0); [lra|]. cbn [xround agree].
    split; [apply sqrt_pos|]. destruct (Q x0 x2 (-491)%Z 501%Z S0 T2 ltac:(lia)) as [|Tq]; [contradiction|].
    eapply Rle_trans; [apply (round_step (51 / 100 * (21 / 10 * d))); [lra|apply (TH _ (-505)%Z ltac:(lia)), SQ; auto|exact Sq]|].
    apply Rmult_le_compat_r; [apply sqrt_pos|lra].
  - assert (G := agree_div d x0 r0 x1 r1 He ltac:(lra) ltac:(lra) A0 A1 (Q x0 x1 (-491)%Z 401%Z S0 T1 ltac:(lia))).
    exists (ndiv (n:=NX) (Fin x0) (Fin x1)), (ndiv (n:=NB) (Fin r0) (Fin r1)).
    split; [apply RX; unfold v_Tm01; rewrite FX, bind_Ok, X0, bind_Ok, X1; reflexivity|].
    split; [apply RB; unfold v_Tm01; rewrite FB, bind_Ok, B0, bind_Ok, B1; reflexivity|].
    unfold agree in *. destruct (ndiv (n:=NX) (Fin x0) (Fin x1)); destruct (ndiv (n:=NB) (Fin r0) (Fin r1)); auto.
    split; [apply G|]. eapply Rle_trans; [apply G|]. apply Rmult_le_compat_r; [apply G|lra].
  - assert (G := agree_div d xm rm x0 r0 He ltac:(lra) ltac:(lra) Am A0 (Q xm x0 (-591)%Z 301%Z Sm T0 ltac:(lia))).
    exists (ndiv (n:=NX) (Fin xm) (Fin x0)), (ndiv (n:=NB) (Fin rm) (Fin r0)).
    split; [apply RX; unfold v_Tmm10; rewrite FX, bind_Ok, Xm, bind_Ok, X0; reflexivity|].
    split; [apply RB; unfold v_Tmm10; rewrite FB, bind_Ok, Bm, bind_Ok, B0; reflexivity|].
    unfold agree in *. destruct (ndiv (n:=NX) (Fin xm) (Fin x0)); destruct (ndiv (n:=NB) (Fin rm) (Fin r0)); auto.
    split; [apply G|]. eapply Rle_trans; [apply G|]. apply Rmult_le_compat_r; [apply G|lra].
Qed.
(** (b) get_Hm0, get_Tm01, get_Tm02 and get_Tmm10 of the same spectrum, computed exactly and in binary64 *)
Theorem C80_getters (h : R) (f s : list R) (spx : spec NX) (spb : spec NB) (fmin fmax : xr) (a b : nat) :
  freq_axis_fl h f -> (Z.of_nat (length f) <= 2 ^ 30)%Z -> s <> [] -> (forall v, In v s -> density_ok v) ->
  spectrum_init (N:=NX) (Arr (vec (F f))) (Arr (vec (F s))) = Ok spx ->
  spectrum_init (N:=NB) (Arr (vec (F f))) (Arr (vec (F s))) = Ok spb ->
  lower_at f fmin a -> upper_at f fmax b -> (a < b < length f)%nat ->
  let d := accuracy (length f) in
  let both gx gb e := exists v w, snd (gx fmin fmax spx) = Ok v /\ snd (gb fmin fmax spb) = Ok w /\ agree e v w in
  both (get_Hm0 (N:=NX)) (get_Hm0 (N:=NB)) d
  /\ both (get_Tm02 (N:=NX)) (get_Tm02 (N:=NB)) (2 * d)
  /\ both (get_Tm01 (N:=NX)) (get_Tm01 (N:=NB)) (3 * d)
  /\ both (get_Tmm10 (N:=NX)) (get_Tmm10 (N:=NB)) (3 * d).
Proof.
  intros Hf Hn Ns Ds Hx Hb Ha Hbb Hab d. assert (T := fa_two _ _ Hf).
  assert (Nf : f <> []) by (destruct f; [cbn in T; lia|discriminate]).
  destruct (spectrum_fields_NX f s spx T Ns Hx) as (Exf & Exs & Hg).
  destruct (spectrum_fields_NB f s spb Nf Ns Hb) as (Ebf & Ebs & Ls & Ck).
  destruct (flim_both h f fmin fmax a b Hf Hab Ha Hbb) as [FX FB].
  assert (He := eps_small (length f) Hn). rewrite <- accuracy_eps in He. fold d in He. assert (Uu := u_pos).
  apply (getters_acc f s spx spb fmin fmax (Fin (nth a f 0)) (Fin (nth b f 0)) d Exf Exs Ebf Ebs FX FB He).
  intros m Hm. assert (Zs : (zskip f m <= 1)%nat) by (unfold zskip; destruct (_ && _); lia).
    exists (rpart f s m (a - zskip f m) (b - zskip f m + 1)), (fpart f s m (a - zskip f m) (b - zskip f m + 1)).
    split; [exact (grid_NX h f s m Hf Ls a b Hab Hg)|]. split; [exact (grid_NB h f s m Hf Ls a b Hab Ck)|]. split.
    - unfold d. rewrite accuracy_eps. apply (part_accuracy h f s m Hf Ls Ds Hm); [lia|rewrite dz_len; lia|exact Hn].
    - destruct (part_size h f s m Hf Ls Ds Hm (a - zskip f m) (b - zskip f m + 1) ltac:(lia) ltac:(rewrite dz_len; lia) Hn) as [S1 [S2 S3]]. split; [exact S1|]. split; [exact S2|]. eapply Rle_trans; [exact S3|]. apply bpow_le. lia.
Qed.

Example C80_witness : exists spx spb,
  freq_axis_fl 1 [0; 1; 2; 3] /\ good_axis [0; 1; 2; 3] /\ monotonic_increasing_constant_step (N:=NB) (F [0; 1; 2; 3]) = Ok true
  /\ (forall v, In v [0; 3; 1; 0] -> density_ok v)
  /\ spectrum_init (N:=NX) (Arr (vec (F [0; 1; 2; 3]))) (Arr (vec (F [0; 3; 1; 0]))) = Ok spx
  /\ spectrum_init (N:=NB) (Arr (vec (F [0; 1; 2; 3]))) (Arr (vec (F [0; 3; 1; 0]))) = Ok spb
  /\ lower_at [0; 1; 2; 3] (Fin (-1)) 0 /\ upper_at [0; 1; 2; 3] (Fin (-1)) 3
  /\ exists x, snd (get_Hm0 (N:=NX) (Fin (-1)) (Fin (-1)) spx) = Ok (Fin x) /\ 1 <= x.
Proof.
  destruct C77_witness as (_ & Hf & Fs & Ps).
  assert (Ck : monotonic_increasing_constant_step (N:=NB) (F [0; 1; 2; 3]) = Ok true).
  { apply (C60_near_uniform_accepted [0; 1; 2; 3] 0 1); [cbn; lia|lra|]. intros [|[|[|[|i]]]] Hi; cbn in Hi; try lia; cbn [nth INR];
      apply Rabs_le; split; cbn; nra. }
  assert (Hg : good_axis [0; 1; 2; 3]).
  { split; [cbn; lia|]. intros [|[|[|i]]] Hi; cbn in Hi; try lia; cbn [nth]; split; lra. }
  assert (E := spectrum_ok_NB [0; 1; 2; 3] [0; 3; 1; 0] ltac:(cbn; lia) eq_refl Ck).
  assert (EX : spectrum_init (N:=NX) (Arr (vec (F [0; 1; 2; 3]))) (Arr (vec (F [0; 3; 1; 0]))) = Ok (fresh (N:=NX) (F [0; 1; 2; 3]) (F [0; 3; 1; 0]))).
  { unfold spectrum_init. rewrite !vec_convert. cbn [fst snd]. rewrite as_list_vec, bind_Ok, (good_mono _ Hg), bind_Ok, as_list_vec. reflexivity. }
  eexists. eexists. split; [exact Hf|]. split; [exact Hg|]. split; [exact Ck|]. split.
  { intros v Hv. assert (B1 : bpow radix2 (-200) <= 1) by (apply (bpow_le radix2 (-200) 0); lia). assert (B2 : 4 <= bpow radix2 200) by (apply (bpow_le radix2 2 200); lia).
    cbn in Hv. destruct Hv as [<-|[<-|[<-|[<-|[]]]]]; [left; lra|right; lra|right; lra|left; lra]. }
  split; [exact EX|]. split; [exact E|]. split; [left; auto|]. split; [left; auto|].
  exists (4 * sqrt (rsimp [0; 1; 2; 3] (weighted 0 [0; 1; 2; 3] [0; 3; 1; 0]))).
  assert (V : rsimp [0; 1; 2; 3] (weighted 0 [0; 1; 2; 3] [0; 3; 1; 0]) = 57 / 12).
  { unfold rsimp, weighted, without_zero, rlast, rpanel. cbn. unfold rpanel. cbn. field. }
  assert (Hq : freq_axis [0; 1; 2; 3]) by (split; [exact Hg|cbn; lra]).
  split.
  - assert (Vm : v_Hm0 (N:=NX) (F [0; 1; 2; 3]) (F [0; 3; 1; 0]) (Fin (-1)) (Fin (-1)) = Ok (Fin (4 * sqrt (rsimp [0; 1; 2; 3] (weighted 0 [0; 1; 2; 3] [0; 3; 1; 0]))))).
    { unfold v_Hm0. rewrite (set_flim_F [0; 1; 2; 3] _ _ (Fin 0) (Fin 3)) by (try discriminate; left; auto). rewrite bind_Ok.
      assert (D : v_moment (N:=NX) 0 (F [0; 1; 2; 3]) (F [0; 3; 1; 0]) (Fin 0) (Fin 3) = Ok (Fin (rsimp [0; 1; 2; 3] (weighted 0 [0; 1; 2; 3] [0; 3; 1; 0])))).
      { etransitivity; [symmetry; exact (proj1 (C32_default_limits [0; 1; 2; 3] [0; 3; 1; 0] 0 (Fin (-1)) Hq eq_refl))|].
        exact (moment_all [0; 1; 2; 3] [0; 3; 1; 0] 0 Hq eq_refl (Fin (-1)) (Fin (-1)) (or_introl eq_refl)). }
      rewrite D.
      rewrite bind_Ok, fin_sqrt by (rewrite V; lra). reflexivity. }
    unfold get_Hm0, getter, mbind, mget, mlift, mset. cbn [fresh s_f s_S]. rewrite Vm. reflexivity.
  - rewrite V. assert (1 <= sqrt (57 / 12)) by (rewrite <- sqrt_1 at 1; apply sqrt_le_1_alt; lra). lra.
Qed.
End AnyOrder.
