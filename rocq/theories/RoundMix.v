(** * C80, C89: how accurate the moments are in binary64 when the densities may be as small as they like.
    [RoundAccuracy] asks that no density is tiny.  Here the error is a relative part plus an absolute part that underflow can add. *)

From Coq Require Import Reals ZArith String List Bool Lra Lia.
From Flocq Require Import Core.
From Verif Require Import SumOrder Num XR Engine Cpx SpectralModel WaveModel SpectrumModel SeriesModel Spec XRFacts TimeSpec EngineProps TimeProps
  FourierSpec FourierFacts SeriesProps SimpsonFacts MomentProps PeakProps RoundNum RoundProps RoundWave RoundSpec RoundChain RoundPeriod RoundAccuracy.
Import ListNotations.
Open Scope R_scope.

Section AnyOrder.
Context {So : summation} {Lm : libm}.

(** b is, up to k roundings, a number within e of a *)
Definition mix (k : nat) (e a b : R) : Prop := exists a', 0 <= a' /\ Rabs (a' - a) <= e /\ rel k a' b.
(** what underflow can add *)
Definition tau : R := bpow radix2 (-1009).
Lemma tau_pos : 0 < tau. Proof. apply b_pos. Qed.

Lemma mix_nonneg k e a b : mix k e a b -> 0 <= b.
Proof. intros (a' & P & _ & R). exact (rel_nonneg _ _ _ P R). Qed.
Lemma mix_e k e a b : mix k e a b -> 0 <= e.
Proof. intros (a' & _ & Q & _). assert (P := Rabs_pos (a' - a)). lra. Qed.
Lemma rel_mix k a b : 0 <= a -> rel k a b -> mix k 0 a b.
Proof. intros P R. exists a. split; [exact P|]. split; [|exact R]. rewrite Rminus_diag_eq, Rabs_R0 by reflexivity. lra. Qed.
Lemma mix_weaken j k e e' a b : (j <= k)%nat -> e <= e' -> mix j e a b -> mix k e' a b.
Proof. intros H H' (a' & P & Q & R). exists a'. split; [exact P|]. split; [lra|]. apply (rel_weaken j); auto. Qed.
Lemma mix_add k e e' a b c d : mix k e a b -> mix k e' c d -> mix k (e + e') (a + c) (b + d).
Proof.
  intros (a' & P & Q & R) (c' & P' & Q' & R'). exists (a' + c'). split; [lra|]. split; [|apply rel_add; auto].
  replace (a' + c' - (a + c)) with ((a' - a) + (c' - c)) by ring. eapply Rle_trans; [apply Rabs_triang|]. lra.
Qed.
Lemma mix_mul i k e a b w w' : 0 <= w -> rel i w w' -> mix k e a b -> mix (k + i) (e * w) (a * w) (b * w').
Proof.
  intros Pw Rw (a' & P & Q & R). exists (a' * w). split; [apply Rmult_le_pos; auto|]. split; [|apply rel_mul; auto].
  replace (a' * w - a * w) with ((a' - a) * w) by ring. rewrite Rabs_mult, (Rabs_pos_eq w) by exact Pw. apply Rmult_le_compat_r; auto.
Qed.
Lemma hi_2 k : (Z.of_nat k <= 2 ^ 40)%Z -> (1 + u53) ^ k <= 2.
Proof.
  intros Hk. assert (H := hi_up k). assert (P := hi_pos k). assert (I : INR k <= IZR (2 ^ 40)) by (rewrite INR_IZR_INZ; apply IZR_le, Hk).
  assert (U := u53_val). assert (PI := pos_INR k). change (IZR (2 ^ 40)) with 1099511627776 in I. assert (INR k * u53 <= / 2) by (rewrite U; lra). nra.
Qed.
Lemma mix_rnd k e a b : (Z.of_nat k <= 2 ^ 40)%Z -> mix k e a b -> mix (S k) (e + tau) a (rnd b).
Proof.
  intros Hk (a' & P & Q & R). assert (T := tau_pos). destruct (Rle_lt_dec (bpow radix2 (-1010)) a') as [B|B].
  - exists a'. split; [exact P|]. split; [lra|]. apply rel_rnd; [exact Hk|right; exact B|exact R].
  - assert (Pb := rel_nonneg _ _ _ P R). destruct R as [_ R]. assert (H2 := hi_2 k Hk). assert (H0 := hi_pos k).
    assert (E : tau = bpow radix2 (-1010) * 2) by (unfold tau; change (-1009)%Z with (-1010 + 1)%Z; rewrite bpow_plus; reflexivity).
    assert (Bb : b <= tau) by (eapply Rle_trans; [exact R|]; rewrite E; apply Rmult_le_compat; lra).
    assert (Rl : 0 <= rnd b <= tau).
    { split; [rewrite <- (rnd_id 0) by apply float_0; apply rnd_le, Pb|apply rnd_le_float; [apply float_bpow; lia|exact Bb]]. }
    exists (rnd b). split; [apply Rl|]. split; [|apply (rel_weaken 0); [apply Rl|lia|apply rel_refl]].
    replace (rnd b - a) with ((rnd b - a') + (a' - a)) by ring. eapply Rle_trans; [apply Rabs_triang|].
    assert (Rabs (rnd b - a') <= tau); [|lra]. apply Rabs_le. rewrite E in *. lra.
Qed.
Lemma mix_rnd' k e a b : mix k e a b -> (Z.of_nat k <= 2 ^ 40)%Z -> mix (S k) (e + tau) a (rnd b).
Proof. intros M H. apply mix_rnd; auto. Qed.
Lemma mix_abs k e a b : (Z.of_nat k <= 2 ^ 40)%Z -> 0 <= a -> mix k e a b -> Rabs (b - a) <= 1001 / 1000 * (INR k * u53) * a + 2 * e.
Proof.
  intros Hk Pa M. assert (Pe := mix_e _ _ _ _ M). destruct M as (a' & P & Q & R). assert (B := rel_abs k a' b Hk P R).
  assert (I : INR k <= IZR (2 ^ 40)) by (rewrite INR_IZR_INZ; apply IZR_le, Hk). assert (P' := pos_INR k). change (IZR (2 ^ 40)) with 1099511627776 in I.
  assert (U := u53_val). assert (He : 0 <= INR k * u53 <= / 8000) by (rewrite U; lra). set (q := INR k * u53) in *. clearbody q.
  apply Rabs_le_inv in B, Q. apply Rabs_le.
  assert (q * a' <= q * (a + e)) by (apply Rmult_le_compat_l; lra). assert (q * e <= / 8000 * e) by (apply Rmult_le_compat_r; lra). nra.
Qed.

(** ** Simpson's rule *)
Ltac mr := apply mix_rnd; [lia|].
Section Panel.
  Variables (h h0 h1 : R) (j : nat) (e : R).
  Hypothesis Hh : bpow radix2 (-90) <= h <= bpow radix2 100.
  Hypothesis C0 : close h h0.
  Hypothesis C1 : close h h1.
  Hypothesis Hj : (j <= 100)%nat.

  Lemma mpanel x0 x1 x2 y0 y1 y2 y0' y1' y2' : x1 - x0 = h0 -> x2 - x1 = h1 ->
    mix j e y0 y0' -> mix j e y1 y1' -> mix j e y2 y2' ->
    mix (j + 26) (3 * h * (e + tau) + tau) (rpanel x0 x1 x2 y0 y1 y2) (fpanel (rnd h0) (rnd h1) y0' y1' y2').
  Proof.
    intros E0 E1 R0 R1 R2. unfold rpanel, fpanel. rewrite E0, E1. cbv zeta. destruct (hs h h0 h1 Hh C0 C1) as (P & A & B). assert (T := tau_pos). assert (Pe := mix_e _ _ _ _ R0).
    assert (Q01 := r01 h h0 h1 Hh C0 C1). assert (Q10 := r10 h h0 h1 Hh C0 C1). assert (W1 := w1_in h h0 h1 Hh C0 C1).
    assert (T0 : mix (j + 20) (11 / 10 * e + tau) (y0 * (2 - h1 / h0)) (rnd (y0' * pw0 (rnd h0) (rnd h1)))).
    { apply (mix_weaken (S (j + 19)) _ (e * (2 - h1 / h0) + tau)); [lia|nra|]. mr. apply mix_mul; [lra|exact (ew0 h h0 h1 j Hh C0 C1 Hj)|exact R0]. }
    assert (T1 : mix (j + 20) (42 / 10 * e + tau) (y1 * ((h0 + h1) * ((h0 + h1) / (h0 * h1)))) (rnd (y1' * pw1 (rnd h0) (rnd h1)))).
    { apply (mix_weaken (S (j + 12)) _ (e * ((h0 + h1) * ((h0 + h1) / (h0 * h1))) + tau)); [lia| |].
      - set (w := (h0 + h1) * _) in *. clearbody w. nra.
      - mr. apply mix_mul; [lra|exact (ew1 h h0 h1 j Hh C0 C1 Hj)|exact R1]. }
    assert (T2 : mix (j + 21) (11 / 10 * e + tau) (y2 * (2 - h0 / h1)) (rnd (y2' * pw2 (rnd h0) (rnd h1)))).
    { apply (mix_weaken (S (j + 9)) _ (e * (2 - h0 / h1) + tau)); [lia|nra|]. mr. apply mix_mul; [lra|exact (ew2 h h0 h1 j Hh C0 C1 Hj)|exact R2]. }
    assert (T01 := mix_rnd' _ _ _ _ (mix_add _ _ _ _ _ _ _ T0 T1) ltac:(lia)). replace (S (j + 20)) with (j + 21)%nat in T01 by lia.
    assert (TS := mix_rnd' _ _ _ _ (mix_add _ _ _ _ _ _ _ T01 T2) ltac:(lia)).
    assert (T6 : rel 3 ((h0 + h1) / 6) (rnd (rnd (rnd h0 + rnd h1) / 6))).
    { apply rel_rnd; [lia|apply thr_big, (t1 h Hh); lra|]. apply (rel_div 2 0); [lra|lra|exact (esum h h0 h1 j Hh C0 C1 Hj)|apply rel_refl]. }
    assert (TT := mix_rnd' _ _ _ _ (mix_mul _ _ _ _ _ _ _ (ltac:(lra) : 0 <= (h0 + h1) / 6) T6 TS) ltac:(lia)).
    rewrite (Rmult_comm ((h0 + h1) / 6)), (Rmult_comm (rnd (rnd (rnd h0 + rnd h1) / 6))).
    eapply mix_weaken; [| |exact TT]; [lia|]. 
    set (X := 11 / 10 * e + tau + (42 / 10 * e + tau) + tau + (11 / 10 * e + tau) + tau) in *.
    assert (HX : 0 <= X <= 7 * (e + tau)) by (unfold X; lra). clearbody X.
    assert (X * ((h0 + h1) / 6) <= 7 * (e + tau) * (35 / 100 * h)) by (apply Rmult_le_compat; lra). nra.
  Qed.
  Lemma mcart x0 x1 x2 y0 y1 y2 y0' y1' y2' : x1 - x0 = h0 -> x2 - x1 = h1 -> 0 <= y0 -> 0 <= y1 -> 0 <= y2 ->
    mix j e y0 y0' -> mix j e y1 y1' -> mix j e y2 y2' ->
    exists P Q P' Q', rlast x0 x1 x2 y0 y1 y2 = P - Q /\ fcart (rnd h0) (rnd h1) y0' y1' y2' = rnd (P' - Q')
      /\ 0 <= P /\ 2 / 5 * h * y2 <= P /\ mix (j + 21) (2 * h * e + 3 * tau) P P' /\ mix (j + 21) (h * e + tau) Q Q' /\ 0 <= Q <= 10 / 100 * h * y0.
  Proof.
    intros E0 E1 G0 G1 G2 R0 R1 R2. unfold rlast, fcart. rewrite E0, E1. cbv zeta. destruct (hs h h0 h1 Hh C0 C1) as (P & A & B). assert (T := tau_pos). assert (Pe := mix_e _ _ _ _ R0).
    assert (Q := prod_in h h0 h1 Hh C0 C1). assert (Q' := sq_in h h0 h1 Hh C0 C1). assert (Q2 := hh_pos h Hh).
    assert (Et := eta_in h h0 h1 Hh C0 C1). assert (Ea := ealpha h h0 h1 j Hh C0 C1 Hj). assert (Eb := ebeta h h0 h1 j Hh C0 C1 Hj). assert (Ee := eeta h h0 h1 j Hh C0 C1 Hj).
    set (al := (2 * (h1 * h1) + 3 * h0 * h1) / (6 * (h1 + h0))) in *. set (be := (h1 * h1 + 3 * h0 * h1) / (6 * h0)) in *. set (et := h1 * h1 * h1 / (6 * h0 * (h0 + h1))) in *.
    assert (Al : 2 / 5 * h <= al <= h) by (split; [apply le_div|apply div_le]; nra). assert (Be : 0 <= be <= h) by (split; [apply le_div|apply div_le]; nra).
    exists (al * y2 + be * y1), (et * y0). eexists. eexists. split; [ring|]. split; [reflexivity|].
    assert (Z1 : 0 <= be * y1) by (apply Rmult_le_pos; lra). assert (Z2 : 2 / 5 * h * y2 <= al * y2) by (apply Rmult_le_compat_r; lra).
    assert (Z3 : 0 <= 2 / 5 * h * y2) by (apply Rmult_le_pos; lra).
    split; [lra|]. split; [lra|].
    split; [|split; [|split; [apply Rmult_le_pos; lra|apply Rmult_le_compat_r; lra]]].
    - assert (U2 := mix_rnd' _ _ _ _ (mix_mul _ _ _ _ _ _ _ (ltac:(lra) : 0 <= al) Ea R2) ltac:(lia)).
      assert (U1 := mix_rnd' _ _ _ _ (mix_mul _ _ _ _ _ _ _ (ltac:(lra) : 0 <= be) Eb R1) ltac:(lia)).
      apply (mix_weaken (S (j + 12)) (S (j + 12)) _ (h * e + tau)) in U2; [|lia|nra]. apply (mix_weaken (S (j + 10)) (S (j + 12)) _ (h * e + tau)) in U1; [|lia|nra].
      assert (U3 := mix_rnd' _ _ _ _ (mix_add _ _ _ _ _ _ _ U2 U1) ltac:(lia)).
      rewrite (Rmult_comm al), (Rmult_comm be). eapply mix_weaken; [| |]; cycle 2.
      + match type of U3 with mix _ _ _ ?v => match goal with |- mix _ _ _ ?w => replace w with v; [exact U3|] end end.
        rewrite (Rmult_comm y2'), (Rmult_comm y1'). reflexivity.
      + lia.
      + lra.
    - assert (U0 := mix_rnd' _ _ _ _ (mix_mul _ _ _ _ _ _ _ (ltac:(lra) : 0 <= et) Ee R0) ltac:(lia)).
      rewrite (Rmult_comm et), (Rmult_comm (feta _ _)). eapply mix_weaken; [| |exact U0]; [lia|]. nra.
  Qed.
End Panel.

Definition values_mix (j : nat) (e : R) (y y' : list R) : Prop :=
  length y = length y' /\ forall i, (i < length y)%nat -> mix j e (nth i y 0) (nth i y' 0).
Lemma vmix_tl j e a b l l' : values_mix j e (a :: l) (b :: l') -> values_mix j e l l'.
Proof. intros [L H]. split; [cbn in L; lia|]. intros i Hi. apply (H (S i)). cbn. lia. Qed.

(** a tree of n leaves has n - 1 inner nodes *)
Lemma msum k e (l l' : list R) : 0 <= e -> (Z.of_nat (k + length l) <= 2 ^ 40)%Z -> length l = length l' ->
  (forall i, (i < length l)%nat -> mix k e (nth i l 0) (nth i l' 0)) ->
  mix (k + length l) (INR (length l) * (e + tau)) (Rsum l) (fsum l').
Proof.
  intros Pe Hk L H. assert (T0 := tau_pos). destruct l as [|v l0]; [destruct l'; [|discriminate L]; exists 0; split; [lra|]; split; [change (Rabs (0 - 0) <= 0 * (e + tau)); rewrite Rminus_0_r, Rabs_R0; lra|unfold rel; change (fsum []) with 0; lra]|].
  set (l := v :: l0) in *. assert (Nl : l <> []) by discriminate. clearbody l. assert (Nl' : l' <> []) by (intros ->; destruct l; [auto|discriminate L]).
  rewrite fsum_tval by exact Nl'. rewrite <- (tsum_order l Nl), <- L. assert (Ll := leaves_order l Nl).
  assert (K : forall i, In i (leaves (order So (length l))) -> (i < length l)%nat) by (intros i; apply leaf_in; exact Nl).
  rewrite <- Ll in Hk.
  assert (G : forall t, (Z.of_nat (k + length (leaves t)) <= 2 ^ 40)%Z -> (forall i, In i (leaves t) -> (i < length l)%nat) ->
    mix (k + length (leaves t)) (INR (length (leaves t)) * (e + tau) - tau) (tsum l t) (tval l' t)).
  { clear Hk K Ll. induction t as [i|a IHa b IHb]; intros Hk K.
    - assert (M := H i (K i (or_introl eq_refl))). unfold tsum, tval. cbn [leaves map teval length].
      change (Rsum [nth i l 0]) with (nth i l 0 + 0). rewrite Rplus_0_r. eapply mix_weaken; [| |exact M]; [lia|]. cbn [INR]. lra.
    - cbn [leaves] in Hk, K. rewrite app_length in Hk.
      assert (Ea := IHa ltac:(lia) ltac:(intros i Hi; apply K, in_or_app; auto)).
      assert (Eb := IHb ltac:(lia) ltac:(intros i Hi; apply K, in_or_app; auto)).
      unfold tsum in *. cbn [leaves]. rewrite map_app, Rsum_app, app_length.
      assert (Pa := leaves_pos a). assert (Pb := leaves_pos b). set (m1 := length (leaves a)) in *. set (m2 := length (leaves b)) in *.
      change (tval l' (Node a b)) with (rnd (tval l' a + tval l' b)).
      apply (mix_weaken _ (k + (m1 + m2 - 1)) _ (INR m1 * (e + tau) - tau)) in Ea; [|lia|lra].
      apply (mix_weaken _ (k + (m1 + m2 - 1)) _ (INR m2 * (e + tau) - tau)) in Eb; [|lia|lra].
      assert (M := mix_rnd' _ _ _ _ (mix_add _ _ _ _ _ _ _ Ea Eb) ltac:(lia)).
      eapply mix_weaken; [| |exact M]; [lia|]. rewrite plus_INR. lra. }
  specialize (G _ Hk K). rewrite Ll in G. eapply mix_weaken; [| |exact G]; [lia|lra].
Qed.
Lemma mpanels h j e x : bpow radix2 (-90) <= h <= bpow radix2 100 -> (j <= 100)%nat -> exact_steps h x ->
  forall y y', values_mix j e y y' -> length y = length x ->
  length (rpanels x y) = length (fpanels x y') /\ (length (rpanels x y) <= length x)%nat
  /\ forall i, (i < length (rpanels x y))%nat -> mix (j + 26) (3 * h * (e + tau) + tau) (nth i (rpanels x y) 0) (nth i (fpanels x y') 0).
Proof.
  intros Hh Hj. induction x as [| |a b|a b c l IH] using two_ind; intros Hx y y' Hy L.
  1,2,3: split; [reflexivity|]; split; [apply Nat.le_0_l|intros i Hi; exfalso; revert Hi; apply Nat.nlt_0_r].
  destruct y as [|y0 [|y1 [|y2 l2]]]; try discriminate L. destruct Hy as [L' Hy]. destruct y' as [|z0 [|z1 [|z2 l2']]]; try discriminate L'.
  assert (R0 := Hy 0%nat ltac:(cbn; lia)). assert (R1 := Hy 1%nat ltac:(cbn; lia)). assert (R2 := Hy 2%nat ltac:(cbn; lia)).
  cbn [nth] in R0, R1, R2.
  assert (E := mpanel h (b - a) (c - b) j e Hh (Hx 0%nat ltac:(cbn; lia)) (Hx 1%nat ltac:(cbn; lia)) Hj a b c y0 y1 y2 z0 z1 z2 eq_refl eq_refl R0 R1 R2).
  destruct (IH (esteps_tl _ _ _ (esteps_tl _ _ _ Hx)) (y2 :: l2) (z2 :: l2')) as (I1 & I2 & I3).
  { apply (vmix_tl j e y1 z1), (vmix_tl j e y0 z0). split; assumption. }
  { cbn [length] in *. lia. }
  rewrite fpanels_cons. change (rpanels (a :: b :: c :: l) (y0 :: y1 :: y2 :: l2)) with (rpanel a b c y0 y1 y2 :: rpanels (c :: l) (y2 :: l2)).
  split; [cbn [length] in *; lia|]. split; [cbn [length] in *; lia|]. intros [|i] Hi; [assumption|]. apply I3. cbn [length] in *; lia.
Qed.
Lemma mbasic h j e x : 0 <= e -> bpow radix2 (-90) <= h <= bpow radix2 100 -> (j <= 100)%nat -> (Z.of_nat (length x) <= 2 ^ 31)%Z -> exact_steps h x ->
  forall y y', values_mix j e y y' -> length y = length x ->
  mix (j + 26 + length x) (INR (length x) * (3 * h * (e + tau) + 2 * tau)) (rbasic x y) (fbasic x y').
Proof.
  intros Pe Hh Hj Hn Hx y y' Hy L. destruct (mpanels h j e x Hh Hj Hx y y' Hy L) as (P1 & P2 & P3). assert (T := tau_pos). assert (Ph := h_pos h Hh).
  assert (P0 : 0 <= 3 * h * (e + tau)) by (apply Rmult_le_pos; lra).
  assert (M := msum (j + 26) (3 * h * (e + tau) + tau) (rpanels x y) (fpanels x y') ltac:(lra) ltac:(lia) P1 P3).
  rewrite rpanels_sum in M. eapply mix_weaken; [| |exact M]; [lia|].
  apply Rmult_le_compat; [apply pos_INR|lra|apply le_INR, P2|lra].
Qed.

Lemma mcombine e s B P Q B' P' Q' : 26 * u53 <= e <= / 8000 -> 0 <= Q <= B / 10 -> 0 <= B -> 0 <= P -> tau <= s ->
  Rabs (B' - B) <= 1001 / 1000 * e * B + s -> Rabs (P' - P) <= 1001 / 1000 * e * P + s -> Rabs (Q' - Q) <= 1001 / 1000 * e * Q + s ->
  Rabs (rnd (B' + rnd (P' - Q')) - (B + P - Q)) <= 2 * e * (B + P - Q) + 4 * s.
Proof.
  intros He HQ GB GP Hs EB EP EQ. assert (U := u53_val). assert (Uu := u_pos).
  assert (T : 0 < bpow radix2 (-1020) <= s).
  { split; [apply b_pos|]. eapply Rle_trans; [|exact Hs]. apply bpow_le. lia. }
  assert (A1 := rnd_abs (P' - Q')). assert (A2 := rnd_abs (B' + rnd (P' - Q'))). set (t := bpow radix2 (-1020)) in *. clearbody t.
  set (c := rnd (P' - Q')) in *. set (r := rnd (B' + c)) in *. clearbody c r.
  apply Rabs_le_inv in EB, EP, EQ.
  assert (eB : 0 <= e * B <= B / 8000) by nra. assert (eP : 0 <= e * P <= P / 8000) by nra. assert (eQ : 0 <= e * Q <= Q / 8000) by nra.
  assert (N1 : Rabs (P' - Q') <= 101 / 100 * (P + Q) + 2 * s) by (apply Rabs_le; lra).
  assert (M1 : Rabs (c - (P' - Q')) <= u53 * (101 / 100 * (P + Q) + 3 * s)).
  { eapply Rle_trans; [exact A1|]. apply Rmult_le_compat_l; lra. }
  set (s1 := 101 / 100 * (P + Q) + 3 * s) in *. assert (0 <= s1) by (unfold s1; lra). assert (us1 : 0 <= u53 * s1 <= s1 / 1000) by (rewrite U; lra).
  apply Rabs_le_inv in M1.
  assert (N2 : Rabs (B' + c) <= 102 / 100 * (B + P + Q) + 4 * s) by (unfold s1 in *; apply Rabs_le; lra).
  assert (M2 : Rabs (r - (B' + c)) <= u53 * (102 / 100 * (B + P + Q) + 5 * s)).
  { eapply Rle_trans; [exact A2|]. apply Rmult_le_compat_l; lra. }
  apply Rabs_le_inv in M2. set (S := B + P) in *.
  assert (L1 : u53 * s1 <= e / 26 * (112 / 100 * S) + s / 10).
  { unfold s1. replace (u53 * (101 / 100 * (P + Q) + 3 * s)) with (u53 * (101 / 100 * (P + Q)) + u53 * (3 * s)) by ring. apply Rplus_le_compat; [apply Rmult_le_compat; unfold S in *; lra|rewrite U; lra]. }
  assert (L2 : u53 * (102 / 100 * (B + P + Q) + 5 * s) <= e / 26 * (113 / 100 * S) + s / 10).
  { replace (u53 * (102 / 100 * (B + P + Q) + 5 * s)) with (u53 * (102 / 100 * (B + P + Q)) + u53 * (5 * s)) by ring. apply Rplus_le_compat; [apply Rmult_le_compat; unfold S in *; lra|rewrite U; lra]. }
  assert (L3 : e * Q <= e * (S / 10)) by (apply Rmult_le_compat_l; unfold S; lra).
  assert (L4 : 0 <= e * S) by (apply Rmult_le_pos; unfold S; lra).
  apply Rabs_le. unfold S in *. lra.
Qed.

(** what underflow can add to a moment *)
Definition slack (n : nat) (h e : R) : R := 40 * (INR n + 1) * (h + 1) * (e + tau).

(** Simpson's rule in binary64 on values known up to j roundings and an absolute error e, against the exact rule on the exact values *)
Lemma simpson_mix h j e x y y' : 0 <= e -> bpow radix2 (-90) <= h <= bpow radix2 100 -> (j <= 100)%nat -> (Z.of_nat (length x) <= 2 ^ 31)%Z ->
  exact_steps h x -> nonneg y -> values_mix j e y y' -> length y = length x -> x <> [] ->
  Rabs (fsimp x y' - rsimp x y) <= 2 * (INR (j + 26 + length x) * u53) * rsimp x y + slack (length x) h e.
Proof.
  intros Pe Hh Hj Hn Hx Nn Hv L Hne. assert (U := u53_val). assert (Uu := u_pos). assert (T := tau_pos).
  assert (L' : length y' = length x) by (destruct Hv; lia).
  assert (P : 0 < h) by (apply h_pos, Hh).
  assert (MB := mbasic h j e x Pe Hh Hj Hn Hx y y' Hv L).
  assert (N : forall k, 0 <= nth k y 0).
  { intros k. destruct (Nat.lt_ge_cases k (length y)); [apply Nn, nth_In; auto|rewrite nth_overflow by auto; lra]. }
  assert (GB : 0 <= rbasic x y).
  { rewrite <- rpanels_sum. assert (NN : forall v, In v (rpanels x y) -> 0 <= v).
    { clear MB L' L Hv N Hn Hne. revert y Nn. induction x as [| |a b|a b c l IH] using two_ind; intros y Py v Hi; try (cbn in Hi; contradiction).
      destruct y as [|d [|e1 [|g l']]]; try (cbn in Hi; contradiction). destruct Hi as [<-|Hi].
      - assert (Y1 : 0 <= e1) by (apply Py; cbn; auto).
        assert (K := rpanel_ge h a b c d e1 g Hh (Hx 0%nat ltac:(cbn; lia)) (Hx 1%nat ltac:(cbn; lia)) ltac:(apply Py; cbn; auto) Y1 ltac:(apply Py; cbn; auto 6)).
        assert (0 <= h * e1) by (apply Rmult_le_pos; lra). lra.
      - apply (IH (esteps_tl _ _ _ (esteps_tl _ _ _ Hx)) (g :: l')); [|exact Hi]. intros w Hw. apply Py. do 2 right. exact Hw. }
    clear - NN. induction (rpanels x y) as [|v l IH]; [cbn; lra|]. change (0 <= v + Rsum l). assert (0 <= v) by (apply NN; left; reflexivity). assert (0 <= Rsum l) by (apply IH; intros w Hw; apply NN; right; exact Hw). lra. }
  assert (AB := mix_abs (j + 26 + length x) _ _ _ ltac:(lia) GB MB).
  set (K := (j + 26 + length x)%nat) in *.
  assert (IK : 26 <= INR K) by (change 26 with (IZR 26); rewrite INR_IZR_INZ; apply IZR_le; unfold K; lia).
  assert (IK2 : INR K <= IZR (2 ^ 40)) by (rewrite INR_IZR_INZ; apply IZR_le; unfold K; lia). change (IZR (2 ^ 40)) with 1099511627776 in IK2.
  assert (He : 26 * u53 <= INR K * u53 <= / 8000) by (rewrite U; lra).
  set (c := INR K * u53) in *. assert (In0 := pos_INR (length x)).
  assert (S0 : 2 * (INR (length x) * (3 * h * (e + tau) + 2 * tau)) + 10 * (h + 1) * (e + tau) <= / 4 * slack (length x) h e).
  { unfold slack. set (n := INR (length x)) in *. clearbody n. set (g := e + tau). assert (Hg : tau <= g) by (unfold g; lra). clearbody g.
    assert (hg : 0 <= h * g) by (apply Rmult_le_pos; lra). assert (nhg : 0 <= n * (h * g)) by (apply Rmult_le_pos; lra). assert (ng : 0 <= n * g) by (apply Rmult_le_pos; lra).
    assert (nt : n * tau <= n * g) by (apply Rmult_le_compat_l; lra). nra. }
  assert (hg : 0 <= h * e) by (apply Rmult_le_pos; lra). assert (ht : 0 <= h * tau) by (apply Rmult_le_pos; lra).
  assert (nn0 : 0 <= INR (length x) * (3 * h * (e + tau) + 2 * tau)) by (apply Rmult_le_pos; [lra|nra]).
  set (bb := INR (length x) * (3 * h * (e + tau) + 2 * tau)) in *. clearbody bb. set (sl := slack (length x) h e) in *. clearbody sl.
  assert (S1 : 2 * bb <= / 4 * sl /\ 10 * (e + tau) + 10 * (h * e) + 10 * (h * tau) <= / 4 * sl) by nra.
  unfold rsimp, fsimp. destruct (Nat.odd (length x)) eqn:O.
  { eapply Rle_trans; [exact AB|]. assert (0 <= c * rbasic x y) by (apply Rmult_le_pos; lra). lra. }
  destruct (Nat.eqb_spec (length x) 2) as [E2|E2].
  - assert (M0 := proj2 Hv 0%nat ltac:(lia)). assert (M1 := proj2 Hv 1%nat ltac:(lia)).
    assert (C0 := Hx 0%nat ltac:(lia)). set (d := nth 1 x 0 - nth 0 x 0) in *. unfold close in C0.
    assert (G0 := N 0%nat). assert (G1 := N 1%nat).
    assert (D9 : bpow radix2 (-92) <= d).
    { change (-92)%Z with (-2 + -90)%Z. rewrite bpow_plus. replace (bpow radix2 (-2)) with (/ 4) by (cbn; lra). assert (Z := b_pos (-90)). lra. }
    assert (Td : thr d) by (right; eapply Rle_trans; [apply bpow_le|exact D9]; lia).
    assert (Ed : rel 1 d (rnd d)) by (apply rel_rnd; [lia|exact Td|apply rel_refl]).
    assert (D10 : bpow radix2 (-93) <= 1 / 2 * d).
    { change (-93)%Z with (-1 + -92)%Z. rewrite bpow_plus. replace (bpow radix2 (-1)) with (/ 2) by (cbn; lra). lra. }
    assert (Eh : rnd (1 / 2) = 1 / 2) by (apply rnd_id, (float_frac 1 (-1)); cbn; lia || lra).
    assert (E1 : rel 2 (1 / 2 * d) (rnd (rnd (1 / 2) * rnd d))).
    { rewrite Eh. apply rel_rnd; [lia|right; eapply Rle_trans; [apply bpow_le|exact D10]; lia|]. apply (rel_mul 0 1); [lra|lra|apply rel_refl|exact Ed]. }
    assert (M2 := mix_rnd' _ _ _ _ (mix_add _ _ _ _ _ _ _ M1 M0) ltac:(lia)).
    assert (M3 := mix_rnd' _ _ _ _ (mix_mul _ _ _ _ _ _ _ (ltac:(lra) : 0 <= 1 / 2 * d) E1 M2) ltac:(lia)).
    rewrite (Rmult_comm (nth 1 y 0 + nth 0 y 0)), (Rmult_comm _ (rnd (rnd (1 / 2) * rnd d))) in M3.
    assert (Gy : 0 <= 1 / 2 * d * (nth 1 y 0 + nth 0 y 0)) by (apply Rmult_le_pos; lra).
    apply (mix_weaken _ K _ ((e + e + tau) * (1 / 2 * d) + tau)) in M3; [|unfold K; lia|lra].
    eapply Rle_trans; [apply (mix_abs K); [unfold K; lia|exact Gy|exact M3]|]. fold c.
    assert ((e + e + tau) * (1 / 2 * d) <= (e + e + tau) * h) by (apply Rmult_le_compat_l; lra).
    assert (0 <= c * (1 / 2 * d * (nth 1 y 0 + nth 0 y 0))) by (apply Rmult_le_pos; lra). lra.
  - assert (L4 : (4 <= length x)%nat) by (clear - O E2 Hne; destruct x as [|? [|? [|? [|? ?]]]]; cbn in *; try lia; try discriminate; contradiction).
    destruct (rbasic_last h x Hh Hx y Nn L L4 O) as [_ KB].
    set (n := length x) in *.
    assert (R0 := proj2 Hv (n - 3)%nat ltac:(lia)). assert (R1 := proj2 Hv (n - 2)%nat ltac:(lia)). assert (R2 := proj2 Hv (n - 1)%nat ltac:(lia)).
    assert (C0 := Hx (n - 3)%nat ltac:(fold n; lia)). assert (C1 := Hx (n - 2)%nat ltac:(fold n; lia)).
    replace (S (n - 3)) with (n - 2)%nat in C0 by lia. replace (S (n - 2)) with (n - 1)%nat in C1 by lia.
    destruct (mcart h _ _ j e Hh C0 C1 Hj (nth (n - 3) x 0) (nth (n - 2) x 0) (nth (n - 1) x 0) _ _ _ _ _ _ eq_refl eq_refl (N _) (N _) (N _) R0 R1 R2)
      as (P0 & Q0 & P' & Q' & EA & EF & TP & _ & RP & RQ & HQ).
    rewrite EA, EF.
    replace (rbasic x y + (P0 - Q0)) with (rbasic x y + P0 - Q0) by ring.
    apply (mix_weaken _ K _ (2 * h * e + 3 * tau)) in RP; [|unfold K; lia|lra]. apply (mix_weaken _ K _ (h * e + tau)) in RQ; [|unfold K; lia|lra].
    assert (AP := mix_abs K _ _ _ ltac:(unfold K; lia) TP RP). assert (AQ := mix_abs K _ _ _ ltac:(unfold K; lia) (proj1 HQ) RQ). fold c in AP, AQ.
    replace sl with (4 * (/ 4 * sl)) by field. apply mcombine; auto; lra.
Qed.

(** one density alone already contributes a quarter of its value times the step *)
Lemma rsimp_ge h x y k : bpow radix2 (-90) <= h <= bpow radix2 100 -> exact_steps h x -> nonneg y -> length y = length x -> (2 <= length x)%nat -> (k < length x)%nat ->
  h / 4 * nth k y 0 <= rsimp x y.
Proof.
  intros Hh Hx Nn L L2 Hk. assert (P : 0 < h) by (apply h_pos, Hh).
  assert (N : forall k, 0 <= nth k y 0).
  { intros q. destruct (Nat.lt_ge_cases q (length y)); [apply Nn, nth_In; auto|rewrite nth_overflow by auto; lra]. }
  assert (GB : forall x, exact_steps h x -> forall y, nonneg y -> length y = length x -> 0 <= rbasic x y /\ forall k, (k < length x)%nat -> (3 <= length x)%nat -> (Nat.odd (length x) = false -> (k < length x - 1)%nat) -> 7 / 24 * h * nth k y 0 <= rbasic x y).
  { clear x y k Hx Nn L L2 Hk N. induction x as [| |a b|a b c l IH] using two_ind; intros Hx y Py L; try (split; [cbn; lra|cbn; intros; lia]).
    destruct y as [|d [|e1 [|g l']]]; try discriminate L. change (rbasic (a :: b :: c :: l) (d :: e1 :: g :: l')) with (rpanel a b c d e1 g + rbasic (c :: l) (g :: l')).
    assert (Hx' : exact_steps h (c :: l)) by exact (esteps_tl _ _ _ (esteps_tl _ _ _ Hx)).
    destruct (IH Hx' (g :: l')) as [I0 I]; [intros w Hw; apply Py; do 2 right; exact Hw|cbn in *; lia|].
    assert (Y0 : 0 <= d) by (apply Py; cbn; auto). assert (Y1 : 0 <= e1) by (apply Py; cbn; auto). assert (Y2 : 0 <= g) by (apply Py; cbn; auto).
    assert (C0 := Hx 0%nat ltac:(cbn; lia)). assert (C1 := Hx 1%nat ltac:(cbn; lia)). cbn [nth] in C0, C1.
    assert (PG : 7 / 24 * h * d + 7 / 24 * h * e1 + 7 / 24 * h * g <= rpanel a b c d e1 g).
    { unfold rpanel. cbv zeta. destruct (hs h _ _ Hh C0 C1) as (_ & A & B). assert (Q01 := r01 h _ _ Hh C0 C1). assert (Q10 := r10 h _ _ Hh C0 C1). assert (W1 := w1_in h _ _ Hh C0 C1).
      set (h0 := b - a) in *. set (h1 := c - b) in *. clearbody h0 h1.
      set (w1 := (h0 + h1) * ((h0 + h1) / (h0 * h1))) in *. set (w0 := h1 / h0) in *. set (w2 := h0 / h1) in *. clearbody w0 w1 w2.
      apply Rle_trans with (63 / 192 * h * (9 / 10 * d + 9 / 10 * e1 + 9 / 10 * g)); [assert (0 <= h * d) by nra; assert (0 <= h * e1) by nra; assert (0 <= h * g) by nra; nra|].
      apply Rmult_le_compat; [lra|lra|lra|]. nra. }
    assert (Z0 : 0 <= h * d) by nra. assert (Z1 : 0 <= h * e1) by nra. assert (Z2 : 0 <= h * g) by nra.
    split; [lra|]. intros k Hk _ Hodd. destruct k as [|[|[|k]]]; [cbn [nth]; lra|cbn [nth]; lra|cbn [nth]; lra|]. 
    change (nth (S (S (S k))) (d :: e1 :: g :: l') 0) with (nth (S k) (g :: l') 0).
    assert (Q := I (S k) ltac:(cbn in *; lia)). assert (7 / 24 * h * nth (S k) (g :: l') 0 <= rbasic (c :: l) (g :: l')); [|lra].
    apply Q.
    - destruct (Nat.le_gt_cases 3 (length (c :: l))) as [|Lt]; [assumption|exfalso]. assert (E : length (a :: b :: c :: l) = 4%nat) by (cbn [length] in *; lia).
      rewrite E in Hodd. specialize (Hodd eq_refl). cbn [length] in *. lia.
    - intros Ev. cbn [length] in *. assert (E2 : Nat.odd (S (S (S (length l)))) = false) by exact Ev. specialize (Hodd E2). lia. }
  destruct (GB x Hx y Nn L) as [G0 G]. assert (Nk := N k). assert (Zk : 0 <= h * nth k y 0) by (apply Rmult_le_pos; lra).
  unfold rsimp. destruct (Nat.odd (length x)) eqn:O.
  { assert (Q := G k Hk). assert (L3 : (3 <= length x)%nat) by (destruct x as [|? [|? [|? ?]]]; cbn in *; try lia; discriminate). specialize (Q L3 ltac:(discriminate)). lra. }
  destruct (Nat.eqb_spec (length x) 2) as [E2|E2].
  - assert (C := Hx 0%nat ltac:(lia)). unfold close in C. assert (N0 := N 0%nat). assert (N1 := N 1%nat). set (d := nth 1 x 0 - nth 0 x 0) in *.
    assert (h * (nth 1 y 0 + nth 0 y 0) * (63 / 128) <= 1 / 2 * d * (nth 1 y 0 + nth 0 y 0)).
    { replace (h * (nth 1 y 0 + nth 0 y 0) * (63 / 128)) with (63 / 128 * h * (nth 1 y 0 + nth 0 y 0)) by ring. apply Rmult_le_compat_r; lra. }
    destruct k as [|[|k]]; [| |lia]; nra.
  - assert (L4 : (4 <= length x)%nat) by (destruct x as [|? [|? [|? [|? ?]]]]; cbn in *; try lia; try discriminate).
    destruct (rbasic_last h x Hh Hx y Nn L L4 O) as [_ KB]. set (n := length x) in *.
    assert (C0 := Hx (n - 3)%nat ltac:(fold n; lia)). assert (C1 := Hx (n - 2)%nat ltac:(fold n; lia)).
    replace (S (n - 3)) with (n - 2)%nat in C0 by lia. replace (S (n - 2)) with (n - 1)%nat in C1 by lia.
    assert (Mx : forall q, mix 0 0 (nth q y 0) (nth q y 0)) by (intros q; apply rel_mix; [apply N|apply rel_refl]).
    destruct (mcart h _ _ 0 0 Hh C0 C1 ltac:(lia) (nth (n - 3) x 0) (nth (n - 2) x 0) (nth (n - 1) x 0) _ _ _ _ _ _ eq_refl eq_refl (N (n - 3)%nat) (N (n - 2)%nat) (N (n - 1)%nat) (Mx _) (Mx _) (Mx _))
      as (P0 & Q0 & P' & Q' & EA & EF & TP & TP2 & RP & RQ & HQ).
    rewrite EA. destruct (Nat.eq_dec k (n - 1)) as [->|Nk1]; [lra|].
    assert (Q := G k Hk ltac:(lia) ltac:(intros; lia)). lra.
Qed.

(** ** Moments of any densities that are not negative *)
Section Weighted.
  Variables (h : R) (f s : list R) (m : Z).
  Hypothesis Hf : freq_axis_fl h f.
  Hypothesis Ls : length s = length f.
  Hypothesis Ns : nonneg s.
  Hypothesis Hm : (-5 <= m <= 3)%Z.
  Lemma pow_nn k : (k < length (dz f m f))%nat -> 0 <= powerRZ (nth k (dz f m f) 0) m.
  Proof.
    intros Hk. destruct (base_ok h f s m Hf Ls k Hk) as [B1 B2]. destruct (powerRZ_size _ m B1 B2 Hm) as [[->|S1] _]; [lra|]. assert (Z1 := b_pos (-100 * Z.abs m)). lra.
  Qed.
  Lemma dens_nn k : (k < length (dz f m f))%nat -> 0 <= nth k (dz f m s) 0.
  Proof. intros Hk. apply Ns, (dz_In f m), nth_In. rewrite (dz_length f m s Ls). exact Hk. Qed.
  Lemma w_nonneg : nonneg (weighted m f s).
  Proof.
    intros v Hv. apply (In_nth _ _ 0) in Hv. destruct Hv as (k & Hk & <-). rewrite (w_length f s m Ls) in Hk. rewrite (w_nth f s m Ls) by exact Hk.
    apply Rmult_le_pos; [apply pow_nn, Hk|apply dens_nn, Hk].
  Qed.
  Lemma w_mix : values_mix 12 tau (weighted m f s) (wg f m s).
  Proof.
    split; [rewrite (w_length f s m Ls), (wg_length f m s Ls); reflexivity|]. rewrite (w_length f s m Ls). intros k Hk.
    rewrite (wg_nth f m s Ls) by exact Hk. rewrite (w_nth f s m Ls) by exact Hk. destruct (base_ok h f s m Hf Ls k Hk) as [B1 B2].
    apply (mix_weaken 12 _ (0 + tau)); [lia|lra|]. apply mix_rnd; [lia|]. apply rel_mix; [apply Rmult_le_pos; [apply pow_nn, Hk|apply dens_nn, Hk]|].
    apply (rel_mul 11 0); [apply pow_nn, Hk|apply dens_nn, Hk|apply fpowZ_rel; auto|apply rel_refl].
  Qed.
  Lemma vmix_slice j e a b y y' : values_mix j e y y' -> values_mix j e (slice a b y) (slice a b y').
  Proof.
    intros [L H]. split; [rewrite !slice_length, L; reflexivity|]. intros k Hk. rewrite slice_length in Hk. rewrite !slice_nth by lia. apply H. lia.
  Qed.
  Lemma slack_small n e : (Z.of_nat n <= 2 ^ 30)%Z -> e <= tau -> slack n h e <= bpow radix2 (-860).
  Proof.
    intros Hn He. unfold slack. assert (T := tau_pos). assert (I : INR n <= IZR (2 ^ 30)) by (rewrite INR_IZR_INZ; apply IZR_le, Hn). change (IZR (2 ^ 30)) with 1073741824 in I.
    assert (P := pos_INR n). assert (Hh := fa_sane _ _ Hf). assert (Ph := h_pos h Hh). assert (B1 : 1 <= bpow radix2 100) by (change 1 with (bpow radix2 0); apply bpow_le; lia).
    assert (A1 : 0 <= 40 * (INR n + 1) <= bpow radix2 37) by (replace (bpow radix2 37) with 137438953472 by (cbn; lra); lra).
    assert (A2 : 0 <= h + 1 <= bpow radix2 101) by (replace (bpow radix2 101) with (bpow radix2 100 * 2) by (change 101%Z with (100 + 1)%Z; rewrite bpow_plus; reflexivity); lra).
    assert (A3 : e + tau <= bpow radix2 (-1008)) by (replace (bpow radix2 (-1008)) with (tau * 2) by (unfold tau; change (-1008)%Z with (-1009 + 1)%Z; rewrite bpow_plus; reflexivity); lra).
    assert (A4 : 0 <= 40 * (INR n + 1) * (h + 1)) by (apply Rmult_le_pos; lra).
    apply Rle_trans with (40 * (INR n + 1) * (h + 1) * bpow radix2 (-1008)); [apply Rmult_le_compat_l; auto|].
    apply Rle_trans with (bpow radix2 37 * bpow radix2 101 * bpow radix2 (-1008)).
    - apply Rmult_le_compat_r; [apply Rlt_le, b_pos|]. apply Rmult_le_compat; lra.
    - rewrite <- !bpow_plus. apply bpow_le. lia.
  Qed.
  Lemma slack_mono n n' e : 0 <= e -> (n <= n')%nat -> slack n h e <= slack n' h e.
  Proof.
    intros Pe H. unfold slack. assert (T := tau_pos). assert (Ph := h_pos h (fa_sane _ _ Hf)). apply le_INR in H.
    repeat (apply Rmult_le_compat_r; [lra|]). lra.
  Qed.
  Lemma part_any a b : (a < b)%nat -> (a < length (dz f m f))%nat -> (Z.of_nat (length f) <= 2 ^ 30)%Z ->
    0 <= rpart f s m a b /\ Rabs (fpart f s m a b - rpart f s m a b) <= eps (length f) * rpart f s m a b + bpow radix2 (-860).
  Proof.
    intros Hab Ha Hn. unfold fpart, rpart. assert (T := tau_pos).
    assert (Ld : (length (dz f m f) <= length f)%nat) by (unfold dz; destruct (_ && _); rewrite ?tl_length; lia).
    set (x := slice a b (dz f m f)). set (y := slice a b (weighted m f s)).
    assert (Hx : exact_steps h x) by (apply (slice_exact h f s Ls), (dz_exact h f s m Hf Ls)).
    assert (Lxy : length y = length x) by (unfold x, y; rewrite !slice_length, (w_length f s m Ls); reflexivity).
    assert (Lx : (0 < length x <= length f)%nat) by (unfold x; rewrite slice_length; lia).
    assert (Hne : x <> []) by (intros E; rewrite E in Lx; cbn in Lx; lia).
    assert (Ny : nonneg y) by (intros v Hv; apply w_nonneg; unfold y, slice in Hv; apply firstn_In in Hv; apply skipn_In in Hv; exact Hv).
    assert (Hh := fa_sane _ _ Hf). assert (G : 0 <= rsimp x y) by (apply (rsimp_pos h); auto). split; [exact G|].
    assert (E := simpson_mix h 12 tau x y (slice a b (wg f m s)) ltac:(lra) Hh ltac:(lia) ltac:(lia) Hx Ny (vmix_slice _ _ _ _ _ _ w_mix) Lxy Hne).
    eapply Rle_trans; [exact E|]. apply Rplus_le_compat.
    - apply Rmult_le_compat_r; [exact G|]. unfold eps. apply Rmult_le_compat_l; [lra|]. apply Rmult_le_compat_r; [apply Rlt_le, u_pos|]. apply le_INR. lia.
    - eapply Rle_trans; [apply (slack_mono _ (length f)); [lra|lia]|]. apply slack_small; [exact Hn|lra].
  Qed.
End Weighted.

(** C80, any densities: the same accuracy, up to what underflow can add *)
Theorem C80_moments_any (h : R) (f s : list R) (m : Z) (a b : nat) :
  freq_axis_fl h f -> good_axis f -> monotonic_increasing_constant_step (N:=NB) (F f) = Ok true ->
  length s = length f -> nonneg s -> (Z.of_nat (length f) <= 2 ^ 30)%Z -> (-5 <= m <= 3)%Z -> (a < b < length f)%nat ->
  exists x r,
    compute_moment (N:=NX) (Arr (vec (F f))) (Arr (vec (F s))) m (Fin (nth a f 0)) (Fin (nth b f 0)) = Ok (Fin x)
    /\ compute_moment (N:=NB) (Arr (vec (F f))) (Arr (vec (F s))) m (Fin (nth a f 0)) (Fin (nth b f 0)) = Ok (Fin r)
    /\ 0 <= x /\ Rabs (r - x) <= accuracy (length f) * x + bpow radix2 (-860).
Proof.
  intros Hf Hg Ck Ls Ns Hn Hm Hab. assert (Zs : (zskip f m <= 1)%nat) by (unfold zskip; destruct (_ && _); lia).
  exists (rpart f s m (a - zskip f m) (b - zskip f m + 1)), (fpart f s m (a - zskip f m) (b - zskip f m + 1)).
  split; [exact (grid_NX h f s m Hf Ls a b Hab Hg)|]. split; [exact (grid_NB h f s m Hf Ls a b Hab Ck)|].
  rewrite accuracy_eps. apply (part_any h f s m Hf Ls Ns Hm); [lia|rewrite dz_len; lia|exact Hn].
Qed.

(** densities of 2^-1074, the smallest positive number, meet the hypotheses; [C80_moments] does not cover them *)
Example C80_witness_any :
  freq_axis_fl 1 [0; 1; 2; 3] /\ good_axis [0; 1; 2; 3] /\ monotonic_increasing_constant_step (N:=NB) (F [0; 1; 2; 3]) = Ok true
  /\ nonneg [0; bpow radix2 (-1074); 1; bpow radix2 300] /\ floats [0; bpow radix2 (-1074); 1; bpow radix2 300] /\ ~ density_ok (bpow radix2 (-1074)).
Proof.
  destruct C80_witness as (_ & _ & Hf & Hg & Ck & _). split; [exact Hf|]. split; [exact Hg|]. split; [exact Ck|].
  assert (Z := b_pos (-1074)). assert (Z3 := b_pos 300). split; [|split].
  - intros v Hv. cbn -[bpow] in Hv. destruct Hv as [<-|[<-|[<-|[<-|[]]]]]; lra.
  - intros v Hv. cbn -[bpow] in Hv. destruct Hv as [<-|[<-|[<-|[<-|[]]]]]; [apply float_0|apply float_bpow; lia|apply (float_bpow 0); lia|apply float_bpow; lia].
  - intros [E|E]; [lra|]. assert (B : bpow radix2 (-1074) < bpow radix2 (-200)) by (apply bpow_lt; lia). lra.
Qed.
End AnyOrder.
