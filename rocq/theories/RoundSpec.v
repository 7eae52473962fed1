(** * C77: spectra, moments and Hm0 as computed in binary64 are finite and not negative *)

From Coq Require Import Reals ZArith String List Bool Lra Lia Permutation.
From Flocq Require Import Core.
From Verif Require Import SumOrder Num XR Engine Cpx SpectralModel WaveModel SpectrumModel SeriesModel Spec XRFacts EngineProps TimeProps
  RoundNum RoundProps RoundWave.
Import ListNotations.
Open Scope R_scope.

Section AnyOrder.
Context {So : summation} {Lm : libm}.

(** ** One Simpson panel *)

Definition u53 : R := bpow radix2 (-53).
Lemma u53_val : u53 = / 9007199254740992. Proof. unfold u53. cbn. lra. Qed.
Lemma b_pos e : 0 < bpow radix2 e. Proof. apply bpow_gt_0. Qed.

Definition fdiv (a b : R) : R := if Reqb b 0 then 0 else rnd (a / b).
Lemma nb_eqb a b : neqb (n:=NB) (Fin a) (Fin b) = Reqb a b. Proof. reflexivity. Qed.
Lemma nb_sdiv a b : sdiv (N:=NB) (Fin a) (Fin b) = Fin (fdiv a b).
Proof.
  unfold sdiv, fdiv. rewrite nb_0, nb_eqb. destruct (Reqb b 0) eqn:E; [reflexivity|]. apply nb_div.
  intros ->. rewrite (Reqb_true 0 0 eq_refl) in E. discriminate.
Qed.

Lemma fdiv_nonneg a b : 0 <= a -> 0 <= b -> 0 <= fdiv a b.
Proof.
  intros Ha Hb. unfold fdiv. destruct (Reqb_spec b 0); [lra|]. apply rnd_nonneg. apply Rmult_le_pos; [exact Ha|].
  apply Rlt_le, Rinv_0_lt_compat. lra.
Qed.
Lemma fdiv_ne a b : b <> 0 -> fdiv a b = rnd (a / b).
Proof. intros H. unfold fdiv. rewrite Reqb_false by exact H. reflexivity. Qed.

Lemma le_div c a b : 0 < b -> c * b <= a -> c <= a / b.
Proof. intros Hb H. apply Rmult_le_reg_r with b; [exact Hb|]. unfold Rdiv. rewrite Rmult_assoc, Rinv_l by lra. lra. Qed.
Lemma div_le a b c : 0 < b -> a <= c * b -> a / b <= c.
Proof. intros Hb H. apply Rmult_le_reg_r with b; [exact Hb|]. unfold Rdiv. rewrite Rmult_assoc, Rinv_l by lra. lra. Qed.

(** relative rounding with explicit bounds *)
Lemma rnd_in a b r : bpow radix2 (-1020) <= a -> a <= r <= b -> a * (1 - u53) <= rnd r <= b * (1 + u53).
Proof.
  intros Ha [H1 H2]. assert (Z := b_pos (-1020)). assert (U := u53_val).
  destruct (rnd_rel r ltac:(lra)) as [B1 B2]. fold u53 in B1, B2. split.
  - eapply Rle_trans; [|exact B1]. apply Rmult_le_compat_r; lra.
  - eapply Rle_trans; [exact B2|]. apply Rmult_le_compat_r; lra.
Qed.

(** the weights of one panel, for the computed steps h0, h1 *)
Definition pw0 (h0 h1 : R) : R := rnd (2 - fdiv 1 (fdiv h0 h1)).
Definition pw1 (h0 h1 : R) : R := rnd (rnd (h0 + h1) * fdiv (rnd (h0 + h1)) (rnd (h0 * h1))).
Definition pw2 (h0 h1 : R) : R := rnd (2 - fdiv h0 h1).
Definition fpanel (h0 h1 y0 y1 y2 : R) : R :=
  rnd (rnd (rnd (h0 + h1) / 6) * rnd (rnd (rnd (y0 * pw0 h0 h1) + rnd (y1 * pw1 h0 h1)) + rnd (y2 * pw2 h0 h1))).
Lemma nb_panel x0 x1 x2 y0 y1 y2 :
  simpson_panel (N:=NB) (Fin x0) (Fin x1) (Fin x2) (Fin y0) (Fin y1) (Fin y2)
  = Fin (fpanel (rnd (x1 - x0)) (rnd (x2 - x1)) y0 y1 y2).
Proof.
  unfold simpson_panel. rewrite !nb_ofZ by (cbn; lia). rewrite nb_1, !nb_sub, !nb_add, !nb_mul, !nb_sdiv, !nb_sub, !nb_mul, !nb_add.
  rewrite nb_div by lra. rewrite nb_mul. reflexivity.
Qed.

(** a computed step near h *)
Definition near (h d : R) : Prop := 98 / 100 * h <= d <= 102 / 100 * h.
Definition sane (h : R) : Prop := bpow radix2 (-100) <= h <= bpow radix2 100.

Lemma sane_pos h : sane h -> 0 < h.
Proof. intros [H _]. assert (Z := b_pos (-100)). lra. Qed.
Lemma bpow_pow e k : bpow radix2 e ^ k = bpow radix2 (e * Z.of_nat k).
Proof.
  induction k as [|k IH]; [rewrite Z.mul_0_r; reflexivity|]. cbn [pow]. rewrite IH, <- bpow_plus. f_equal. lia.
Qed.
Lemma sane_pow h k : sane h -> (k <= 8)%nat -> bpow radix2 (-1000) <= h ^ k.
Proof.
  intros [H _] Hk. apply Rle_trans with (bpow radix2 (-100) ^ k).
  - rewrite bpow_pow. apply bpow_le. lia.
  - apply pow_incr. split; [apply Rlt_le, b_pos|exact H].
Qed.
Lemma quarter_ok : bpow radix2 (-1020) <= bpow radix2 (-1000) / 1000.
Proof.
  change (-1020)%Z with (-20 + -1000)%Z. rewrite bpow_plus. replace (bpow radix2 (-20)) with (/ 1048576) by (cbn; lra).
  assert (Z := b_pos (-1000)). lra.
Qed.
Lemma big c v : bpow radix2 (-1000) <= v -> / 1000 <= c -> bpow radix2 (-1020) <= c * v.
Proof. intros H Hc. assert (Q := quarter_ok). assert (Z := b_pos (-1000)). nra. Qed.

Lemma float_frac m e : (Z.abs m <= 2 ^ 53)%Z -> (-1074 <= e)%Z -> forall r, r = IZR m * bpow radix2 e -> is_float r.
Proof. intros H1 H2 r ->. apply float_scaled; auto. Qed.

Section Panel.
  Variables h h0 h1 : R.
  Hypothesis Hh : sane h.
  Hypothesis H0 : near h h0.
  Hypothesis H1 : near h h1.

  Lemma step_pos : 0 < h0 /\ 0 < h1 /\ 0 < h.
  Proof. assert (P := sane_pos h Hh). unfold near in *. lra. Qed.
  Lemma ratio_in : 15 / 16 <= fdiv h0 h1 <= 17 / 16.
  Proof.
    destruct step_pos as (P0 & P1 & P). rewrite fdiv_ne by lra. split.
    - apply rnd_ge_float; [apply (float_frac 15 (-4)); cbn; lia || lra|]. apply le_div; [lra|]. unfold near in *. lra.
    - apply rnd_le_float; [apply (float_frac 17 (-4)); cbn; lia || lra|]. apply div_le; [lra|]. unfold near in *. lra.
  Qed.
  Lemma pw0_nonneg : 0 <= pw0 h0 h1.
  Proof.
    unfold pw0. apply rnd_nonneg. destruct ratio_in as [R1 R2]. rewrite fdiv_ne by lra.
    assert (rnd (1 / fdiv h0 h1) <= 9 / 8); [|lra].
    apply rnd_le_float; [apply (float_frac 9 (-3)); cbn; lia || lra|]. apply div_le; lra.
  Qed.
  Lemma pw2_nonneg : 0 <= pw2 h0 h1.
  Proof. unfold pw2. apply rnd_nonneg. destruct ratio_in as [R1 R2]. lra. Qed.
  Lemma hsum_in : 195 / 100 * h <= rnd (h0 + h1) <= 205 / 100 * h.
  Proof.
    destruct step_pos as (P0 & P1 & P). assert (U := u53_val). assert (B := sane_pow h 1 Hh ltac:(lia)). rewrite pow_1 in B.
    destruct (rnd_in (196 / 100 * h) (204 / 100 * h) (h0 + h1)) as [A1 A2]; [apply big; lra|unfold near in *; lra|].
    assert (h * u53 <= h / 1000) by (rewrite U; lra). split; nra.
  Qed.
  Lemma hprod_in : 95 / 100 * (h * h) <= rnd (h0 * h1) <= 105 / 100 * (h * h).
  Proof.
    destruct step_pos as (P0 & P1 & P). assert (U := u53_val). assert (B := sane_pow h 2 Hh ltac:(lia)).
    replace (h ^ 2) with (h * h) in B by ring. assert (0 < h * h) by (apply Rmult_lt_0_compat; auto).
    destruct (rnd_in (96 / 100 * (h * h)) (1041 / 1000 * (h * h)) (h0 * h1)) as [A1 A2]; [apply big; lra|unfold near in *; split; nra|].
    assert (h * h * u53 <= h * h / 1000) by (rewrite U; lra). split; nra.
  Qed.
  Lemma pw1_ge1 : 1 <= pw1 h0 h1.
  Proof.
    destruct step_pos as (P0 & P1 & P). destruct hsum_in as [S1 S2]. destruct hprod_in as [Q1 Q2].
    assert (HH : 0 < h * h) by (apply Rmult_lt_0_compat; auto). assert (U := u53_val).
    unfold pw1. rewrite fdiv_ne by lra. set (s := rnd (h0 + h1)) in *. set (q := rnd (h0 * h1)) in *.
    assert (I : 18 / 10 * / h <= s / q).
    { apply le_div; [lra|]. apply Rle_trans with (18 / 10 * / h * (105 / 100 * (h * h))).
      - apply Rmult_le_compat_l; [|exact Q2]. apply Rmult_le_pos; [lra|]. apply Rlt_le, Rinv_0_lt_compat; auto.
      - replace (18 / 10 * / h * (105 / 100 * (h * h))) with (189 / 100 * h) by (field; lra). lra. }
    assert (B : bpow radix2 (-1000) <= / h).
    { apply Rle_trans with (bpow radix2 (-100)); [apply bpow_le; lia|]. change (-100)%Z with (- (100))%Z. rewrite bpow_opp.
      apply Rinv_le_contravar; [auto|]. exact (proj2 Hh). }
    destruct (rnd_in (18 / 10 * / h) (s / q) (s / q)) as [A1 _]; [apply big; lra|lra|].
    apply rnd_ge_float; [apply (float_Z 1); cbn; lia|].
    assert (Ih := Rinv_0_lt_compat h P). assert (17 / 10 * / h <= rnd (s / q)) by (rewrite U in A1; lra).
    apply Rle_trans with (195 / 100 * h * (17 / 10 * / h)).
    - replace (195 / 100 * h * (17 / 10 * / h)) with (195 * 17 / 1000) by (field; lra). lra.
    - apply Rmult_le_compat; [lra| |lra|lra]. apply Rmult_le_pos; lra.
  Qed.
  (** one panel is at least (1/6 of the two steps, as computed) times the middle density *)
  Lemma fpanel_ge y0 y1 y2 : is_float y1 -> 0 <= y0 -> 0 <= y1 -> 0 <= y2 ->
    rnd (rnd (rnd (h0 + h1) / 6) * y1) <= fpanel h0 h1 y0 y1 y2.
  Proof.
    intros F1 Y0 Y1 Y2. assert (W0 := pw0_nonneg). assert (W1 := pw1_ge1). assert (W2 := pw2_nonneg). assert (S := hsum_in).
    destruct step_pos as (_ & _ & P). unfold fpanel. apply rnd_le. apply Rmult_le_compat_l; [apply rnd_nonneg; lra|].
    assert (A : y1 <= rnd (y1 * pw1 h0 h1)) by (apply rnd_ge_float; [exact F1|nra]).
    assert (B : 0 <= rnd (y0 * pw0 h0 h1)) by (apply rnd_nonneg, Rmult_le_pos; auto).
    assert (C : 0 <= rnd (y2 * pw2 h0 h1)) by (apply rnd_nonneg, Rmult_le_pos; auto).
    apply rnd_ge_float; [exact F1|].
    assert (D : y1 <= rnd (rnd (y0 * pw0 h0 h1) + rnd (y1 * pw1 h0 h1))) by (apply rnd_ge_float; [exact F1|lra]). lra.
  Qed.
  Lemma fpanel_nonneg y0 y1 y2 : is_float y1 -> 0 <= y0 -> 0 <= y1 -> 0 <= y2 -> 0 <= fpanel h0 h1 y0 y1 y2.
  Proof.
    intros F1 Y0 Y1 Y2. eapply Rle_trans; [|apply fpanel_ge; auto]. apply rnd_nonneg, Rmult_le_pos; [|auto].
    assert (S := hsum_in). destruct step_pos as (_ & _ & P). apply rnd_nonneg. lra.
  Qed.
  (** Cartwright's negative weight *)
  Definition feta : R := fdiv (rnd (rnd (h1 * h1) * h1)) (rnd (rnd (6 * h0) * rnd (h0 + h1))).
  Lemma feta_le : feta <= 2 / 10 * h.
  Proof.
    destruct step_pos as (P0 & P1 & P). destruct hsum_in as [S1 S2]. assert (U := u53_val).
    assert (HH : 0 < h * h) by (apply Rmult_lt_0_compat; auto).
    assert (HHH : 0 < h * h * h) by (apply Rmult_lt_0_compat; auto).
    assert (B1 := sane_pow h 1 Hh ltac:(lia)). rewrite pow_1 in B1.
    assert (B2 := sane_pow h 2 Hh ltac:(lia)). replace (h ^ 2) with (h * h) in B2 by ring.
    assert (B3 := sane_pow h 3 Hh ltac:(lia)). replace (h ^ 3) with (h * h * h) in B3 by ring.
    unfold near in *.
    assert (E1 : rnd (h1 * h1) <= 105 / 100 * (h * h)).
    { destruct (rnd_in (96 / 100 * (h * h)) (1041 / 1000 * (h * h)) (h1 * h1)) as [_ A]; [apply big; lra|split; nra|].
      rewrite U in A. lra. }
    assert (E1' : 95 / 100 * (h * h) <= rnd (h1 * h1)).
    { destruct (rnd_in (96 / 100 * (h * h)) (1041 / 1000 * (h * h)) (h1 * h1)) as [A _]; [apply big; lra|split; nra|].
      rewrite U in A. lra. }
    assert (E2 : rnd (rnd (h1 * h1) * h1) <= 11 / 10 * (h * h * h)).
    { set (a := rnd (h1 * h1)) in *.
      assert (K : 9 / 10 * (h * h * h) <= a * h1 <= 108 / 100 * (h * h * h)).
      { split.
        - apply Rle_trans with (95 / 100 * (h * h) * (98 / 100 * h)); [nra|]. apply Rmult_le_compat; nra.
        - apply Rle_trans with (105 / 100 * (h * h) * (102 / 100 * h)); [|nra]. apply Rmult_le_compat; nra. }
      destruct (rnd_in (9 / 10 * (h * h * h)) (108 / 100 * (h * h * h)) (a * h1)) as [_ A]; [apply big; lra|exact K|].
      rewrite U in A. lra. }
    assert (E3 : 58 / 10 * h <= rnd (6 * h0)).
    { destruct (rnd_in (588 / 100 * h) (6 * h0) (6 * h0)) as [A _]; [apply big; lra|lra|]. rewrite U in A. lra. }
    assert (E4 : 11 * (h * h) <= rnd (rnd (6 * h0) * rnd (h0 + h1))).
    { assert (K : 113 / 10 * (h * h) <= rnd (6 * h0) * rnd (h0 + h1)).
      { apply Rle_trans with (58 / 10 * h * (195 / 100 * h)); [nra|]. apply Rmult_le_compat; nra. }
      destruct (rnd_in (113 / 10 * (h * h)) (rnd (6 * h0) * rnd (h0 + h1)) (rnd (6 * h0) * rnd (h0 + h1))) as [A _]; [apply big; lra|lra|].
      rewrite U in A. lra. }
    assert (E0 : 0 <= rnd (rnd (h1 * h1) * h1)) by (apply rnd_nonneg, Rmult_le_pos; lra).
    unfold feta. rewrite fdiv_ne by lra. set (nn := rnd (rnd (h1 * h1) * h1)) in *. set (dd := rnd (rnd (6 * h0) * rnd (h0 + h1))) in *.
    assert (K : nn / dd <= 11 / 100 * h).
    { apply div_le; [lra|]. apply Rle_trans with (11 / 100 * h * (11 * (h * h))); [nra|]. apply Rmult_le_compat_l; lra. }
    destruct (rnd_in (11 / 100 * h) (11 / 100 * h) (11 / 100 * h)) as [_ A]; [apply big; lra|lra|].
    apply Rle_trans with (rnd (11 / 100 * h)); [apply rnd_le, K|]. rewrite U in A. lra.
  Qed.
  Lemma sixth_ge : 3 / 10 * h <= rnd (rnd (h0 + h1) / 6).
  Proof.
    destruct step_pos as (P0 & P1 & P). destruct hsum_in as [S1 S2]. assert (U := u53_val).
    assert (B1 := sane_pow h 1 Hh ltac:(lia)). rewrite pow_1 in B1.
    destruct (rnd_in (32 / 100 * h) (rnd (h0 + h1) / 6) (rnd (h0 + h1) / 6)) as [A _]; [apply big; lra|lra|]. rewrite U in A. lra.
  Qed.
End Panel.

(** ** The composite rule *)

Definition steps (h : R) (x : list R) : Prop :=
  forall i, (S i < length x)%nat -> near h (rnd (nth (S i) x 0 - nth i x 0)).
Definition nonneg (l : list R) : Prop := forall v, In v l -> 0 <= v.

Fixpoint fpanels (x y : list R) : list R :=
  match x, y with
  | x0 :: x1 :: ((x2 :: _) as x'), y0 :: y1 :: ((y2 :: _) as y') => fpanel (rnd (x1 - x0)) (rnd (x2 - x1)) y0 y1 y2 :: fpanels x' y'
  | _, _ => []
  end.
Definition fbasic (x y : list R) : R := fsum (fpanels x y).
Lemma fpanels_cons x0 x1 x2 x y0 y1 y2 y : fpanels (x0 :: x1 :: x2 :: x) (y0 :: y1 :: y2 :: y)
  = fpanel (rnd (x1 - x0)) (rnd (x2 - x1)) y0 y1 y2 :: fpanels (x2 :: x) (y2 :: y).
Proof. reflexivity. Qed.
Lemma two_ind (P : list R -> Prop) : P [] -> (forall a, P [a]) -> (forall a b, P [a; b]) ->
  (forall a b c l, P (c :: l) -> P (a :: b :: c :: l)) -> forall l, P l.
Proof.
  intros P0 P1 P2 P3. assert (forall n l, (length l <= n)%nat -> P l) as K; [|intros l; apply (K (length l)); lia].
  induction n as [|n IH]; intros [|a [|b [|c l]]] Hl; auto; cbn in Hl; try lia. apply P3, IH. cbn. lia.
Qed.
Lemma nb_panels x : forall y, simpson_panels (N:=NB) (F x) (F y) = F (fpanels x y).
Proof.
  induction x as [| |a b|a b c l IH] using two_ind; intros y; try reflexivity.
  destruct y as [|d [|e [|g l']]]; try reflexivity. specialize (IH (g :: l')).
  change (simpson_panels (N:=NB) (F (a :: b :: c :: l)) (F (d :: e :: g :: l')))
    with (simpson_panel (N:=NB) (Fin a) (Fin b) (Fin c) (Fin d) (Fin e) (Fin g) :: simpson_panels (N:=NB) (F (c :: l)) (F (g :: l'))).
  rewrite IH, nb_panel. reflexivity.
Qed.
Lemma nb_basic x y : basic_simpson (N:=NB) (F x) (F y) = Fin (fbasic x y).
Proof. unfold basic_simpson. rewrite nb_panels. apply nb_sum. Qed.
Lemma steps_tl h a l : steps h (a :: l) -> steps h l.
Proof. intros H i Hi. apply (H (S i)). cbn. lia. Qed.
Lemma fpanel_float h0 h1 y0 y1 y2 : is_float (fpanel h0 h1 y0 y1 y2).
Proof. apply rnd_float. Qed.
Lemma fpanels_floats x : forall y, floats (fpanels x y).
Proof.
  induction x as [| |a b|a b c l IH] using two_ind; intros y v Hv; try contradiction.
  destruct y as [|d [|e [|g l']]]; try contradiction. rewrite fpanels_cons in Hv. destruct Hv as [<-|Hv]; [apply fpanel_float|apply (IH _ _ Hv)].
Qed.
Lemma fbasic_float x y : is_float (fbasic x y).
Proof. apply (fsum_ind is_float); [apply float_0|apply fpanels_floats|intros; apply rnd_float]. Qed.
Lemma fpanels_nonneg h x : sane h -> steps h x -> forall y, floats y -> nonneg y -> nonneg (fpanels x y).
Proof.
  intros Hh. induction x as [| |a b|a b c l IH] using two_ind; intros Hx y Fy Py v Hv; try contradiction.
  destruct y as [|d [|e [|g l']]]; try contradiction. rewrite fpanels_cons in Hv. destruct Hv as [<-|Hv].
  - apply (fpanel_nonneg h); auto; try (apply Fy; cbn; auto); try (apply Py; cbn; auto 6).
    + apply (Hx 0%nat). cbn. lia.
    + apply (Hx 1%nat). cbn. lia.
  - revert v Hv. apply IH; [apply steps_tl with b, steps_tl with a, Hx| |]; intros v Hv; [apply Fy|apply Py]; do 2 right; exact Hv.
Qed.
Lemma fbasic_nonneg h x : sane h -> steps h x -> forall y, floats y -> nonneg y -> 0 <= fbasic x y.
Proof.
  intros Hh Hx y Fy Py. apply (fsum_ind (fun v => 0 <= v)); [lra|apply (fpanels_nonneg h); auto|]. intros a b Ha Hb. apply rnd_nonneg. lra.
Qed.
(** a computed sum of non-negative binary64 numbers is at least each of them *)
Lemma fsum_ge (l : list R) v : nonneg l -> floats l -> In v l -> v <= fsum l.
Proof.
  intros Pl Fl Hv. assert (Nl : l <> []) by (intros ->; contradiction). rewrite fsum_tval by exact Nl.
  destruct (In_nth l v 0 Hv) as (k & Hk & <-). assert (P0 : (0 < length l)%nat) by lia.
  assert (Ik : In k (leaves (order So (length l)))).
  { apply (Permutation_in k (Permutation_sym (order_ok So _ P0))), in_seq. lia. }
  assert (K : forall i, In i (leaves (order So (length l))) -> (i < length l)%nat) by (intros i; apply leaf_in; exact Nl).
  revert Ik K. generalize (order So (length l)). intros t.
  assert (Q : forall t, (forall i, In i (leaves t) -> (i < length l)%nat) -> 0 <= tval l t).
  { clear t. intros t. induction t as [i|a IHa b IHb]; intros K; [apply Pl, nth_In, K; left; reflexivity|].
    change (0 <= rnd (tval l a + tval l b)). apply rnd_nonneg.
    assert (0 <= tval l a) by (apply IHa; intros i Hi; apply K, in_or_app; auto).
    assert (0 <= tval l b) by (apply IHb; intros i Hi; apply K, in_or_app; auto). lra. }
  induction t as [i|a IHa b IHb]; intros Ik K.
  - destruct Ik as [->|[]]. apply Rle_refl.
  - change (nth k l 0 <= rnd (tval l a + tval l b)). apply rnd_ge_float; [apply Fl, nth_In; exact Hk|]. cbn [leaves] in *.
    assert (Ka : forall i, In i (leaves a) -> (i < length l)%nat) by (intros i Hi; apply K, in_or_app; auto).
    assert (Kb : forall i, In i (leaves b) -> (i < length l)%nat) by (intros i Hi; apply K, in_or_app; auto).
    assert (Qa := Q a Ka). assert (Qb := Q b Kb). apply in_app_or in Ik. destruct Ik as [Ik|Ik]; [specialize (IHa Ik Ka); lra|specialize (IHb Ik Kb); lra].
Qed.
(** for 2q+4 points: at least the middle term of the last panel, the point before the last two *)
Lemma fpanels_last h x : sane h -> steps h x -> forall y, floats y -> nonneg y -> length y = length x ->
  (4 <= length x)%nat -> Nat.even (length x) = true ->
  exists ha hb p, near h ha /\ near h hb /\ rnd (rnd (rnd (ha + hb) / 6) * nth (length x - 3) y 0) <= p /\ In p (fpanels x y).
Proof.
  intros Hh. induction x as [| |a b|a b c l IH] using two_ind; intros Hx y Fy Py L L4 Ev; try (cbn in L4; lia).
  destruct y as [|d [|e [|g l']]]; try (cbn in L; lia).
  assert (N0 : near h (rnd (b - a))) by (apply (Hx 0%nat); cbn; lia).
  assert (N1 : near h (rnd (c - b))) by (apply (Hx 1%nat); cbn; lia).
  assert (Fy' : floats (g :: l')) by (intros v Hv; apply Fy; do 2 right; exact Hv).
  assert (Py' : nonneg (g :: l')) by (intros v Hv; apply Py; do 2 right; exact Hv).
  assert (Hx' : steps h (c :: l)) by (apply steps_tl with b, steps_tl with a, Hx).
  assert (P := fpanel_ge h _ _ Hh N0 N1 d e g ltac:(apply Fy; cbn; auto) ltac:(apply Py; cbn; auto) ltac:(apply Py; cbn; auto) ltac:(apply Py; cbn; auto 6)).
  rewrite fpanels_cons. destruct l as [|x3 [|x4 l]].
  - cbn in L4; lia.
  - exists (rnd (b - a)), (rnd (c - b)). eexists. split; [auto|]. split; [auto|]. cbn [length Nat.sub nth].
    split; [exact P|left; reflexivity].
  - destruct l as [|x5 l]; [cbn in Ev; discriminate|].
    destruct (IH Hx' (g :: l') Fy' Py' ltac:(cbn in *; lia) ltac:(cbn; lia) ltac:(cbn in *; exact Ev)) as (ha & hb & p & Na & Nb & K & Ip).
    exists ha, hb, p. split; [auto|]. split; [auto|].
    replace (nth (length (a :: b :: c :: x3 :: x4 :: x5 :: l) - 3) (d :: e :: g :: l') 0) with (nth (length (c :: x3 :: x4 :: x5 :: l) - 3) (g :: l') 0) by (cbn [length Nat.sub]; rewrite ?Nat.sub_0_r; reflexivity).
    split; [exact K|right; exact Ip].
Qed.
Lemma fbasic_last h x : sane h -> steps h x -> forall y, floats y -> nonneg y -> length y = length x ->
  (4 <= length x)%nat -> Nat.even (length x) = true ->
  exists ha hb, near h ha /\ near h hb /\ rnd (rnd (rnd (ha + hb) / 6) * nth (length x - 3) y 0) <= fbasic x y.
Proof.
  intros Hh Hx y Fy Py L L4 Ev. destruct (fpanels_last h x Hh Hx y Fy Py L L4 Ev) as (ha & hb & p & Na & Nb & K & Ip).
  exists ha, hb. split; [exact Na|]. split; [exact Nb|]. eapply Rle_trans; [exact K|].
  apply fsum_ge; [apply (fpanels_nonneg h); auto|apply fpanels_floats|exact Ip].
Qed.

Definition fcart (h0 h1 y0 y1 y2 : R) : R :=
  rnd (rnd (rnd (fdiv (rnd (rnd (2 * rnd (h1 * h1)) + rnd (rnd (3 * h0) * h1))) (rnd (6 * rnd (h1 + h0))) * y2)
            + rnd (fdiv (rnd (rnd (h1 * h1) + rnd (rnd (3 * h0) * h1))) (rnd (6 * h0)) * y1))
       - rnd (feta h0 h1 * y0)).
Lemma nb_cart x0 x1 x2 y0 y1 y2 :
  cartwright (N:=NB) (Fin x0) (Fin x1) (Fin x2) (Fin y0) (Fin y1) (Fin y2) = Fin (fcart (rnd (x1 - x0)) (rnd (x2 - x1)) y0 y1 y2).
Proof.
  unfold cartwright. rewrite !nb_ofZ by (cbn; lia).
  repeat first [rewrite nb_sub | rewrite nb_mul | rewrite nb_add | rewrite nb_sdiv]. reflexivity.
Qed.
Lemma fcart_ge h0 h1 y0 y1 y2 : 0 < h0 -> 0 < h1 -> 0 <= y1 -> 0 <= y2 -> - rnd (feta h0 h1 * y0) <= fcart h0 h1 y0 y1 y2.
Proof.
  intros P0 P1 Y1 Y2. unfold fcart. rewrite <- rnd_opp. apply rnd_ge_float; [apply rnd_float|]. rewrite rnd_opp.
  match goal with |- _ <= ?a - _ => assert (0 <= a) end; [|lra].
  apply rnd_nonneg, Rplus_le_le_0_compat; apply rnd_nonneg, Rmult_le_pos; auto; apply fdiv_nonneg.
  all: repeat first [apply rnd_nonneg | apply Rplus_le_le_0_compat | apply Rmult_le_pos]; lra.
Qed.

(** scipy's Simpson rule as computed: finite and not negative for non-negative values on a nearly uniform axis *)
Lemma simpson_NB h x y : sane h -> steps h x -> floats y -> nonneg y -> length y = length x -> x <> [] ->
  exists v, simpson (N:=NB) (F y) (F x) = Ok (Fin v) /\ 0 <= v.
Proof.
  intros Hh Hx Fy Py L Hne. unfold simpson. rewrite !F_length, L, Nat.eqb_refl. cbn [negb].
  destruct (Nat.odd (length x)) eqn:O.
  - exists (fbasic x y). split; [rewrite nb_basic; reflexivity|]. apply (fbasic_nonneg h); auto.
  - assert (Ev : Nat.even (length x) = true) by (rewrite <- Nat.negb_odd, O; reflexivity).
    assert (Rx : @rev (car NB) (F x) = F (rev x)) by (symmetry; apply map_rev). assert (Ry : @rev (car NB) (F y) = F (rev y)) by (symmetry; apply map_rev).
    rewrite Rx, Ry. clear Rx Ry.
    assert (Ex : x = rev (rev x)) by (symmetry; apply rev_involutive). assert (Ey : y = rev (rev y)) by (symmetry; apply rev_involutive).
    assert (Lr : length (rev y) = length (rev x)) by (rewrite !rev_length; exact L).
    destruct (rev x) as [|x2 [|x1 [|x0 px]]]; destruct (rev y) as [|y2 [|y1 [|y0 py]]]; try discriminate Lr.
    + contradiction.
    + rewrite Ex in Ev. discriminate.
    + cbn [rev app] in Ex, Ey. subst x y.
      assert (N0 : near h (rnd (x2 - x1))) by (apply (Hx 0%nat); cbn; lia).
      assert (P := sane_pos h Hh). assert (Y1 : 0 <= y1) by (apply Py; cbn; auto). assert (Y2 : 0 <= y2) by (apply Py; cbn; auto).
      unfold lit. rewrite !nb_ofZ by (cbn; lia).
      change (F [x2; x1]) with [Fin x2; Fin x1]. change (F [y2; y1]) with [Fin y2; Fin y1]. cbv iota.
      rewrite (nb_div 1 2) by lra. rewrite (nb_sub x2 x1), (nb_add y2 y1), !nb_mul. eexists; split; [reflexivity|].
      apply rnd_nonneg, Rmult_le_pos; [apply rnd_nonneg, Rmult_le_pos|apply rnd_nonneg; lra].
      * apply rnd_nonneg. lra.
      * unfold near in N0. lra.
    + assert (Lx : length x = S (S (S (length px)))) by (rewrite Ex, rev_length; reflexivity).
      assert (L4 : (4 <= length x)%nat) by (destruct px; [rewrite Lx in Ev; discriminate|cbn in Lx; lia]).
      destruct (fbasic_last h x Hh Hx y Fy Py L L4 Ev) as (ha & hb & Na & Nb & K).
      assert (Lp : length py = length px) by (cbn in Lr; lia).
      assert (Ex' : x = rev px ++ [x0; x1; x2]) by (rewrite Ex; cbn [rev]; rewrite <- !app_assoc; reflexivity).
      assert (Ey' : y = rev py ++ [y0; y1; y2]) by (rewrite Ey; cbn [rev]; rewrite <- !app_assoc; reflexivity).
      assert (N0 : near h (rnd (x1 - x0))).
      { specialize (Hx (length px) ltac:(lia)). rewrite Ex' in Hx. rewrite !app_nth2 in Hx by (rewrite rev_length; lia).
        rewrite rev_length in Hx. replace (S (length px) - length px)%nat with 1%nat in Hx by lia. rewrite Nat.sub_diag in Hx. exact Hx. }
      assert (N1 : near h (rnd (x2 - x1))).
      { specialize (Hx (S (length px)) ltac:(lia)). rewrite Ex' in Hx. rewrite !app_nth2 in Hx by (rewrite rev_length; lia).
        rewrite rev_length in Hx. replace (S (length px) - length px)%nat with 1%nat in Hx by lia.
        replace (S (S (length px)) - length px)%nat with 2%nat in Hx by lia. exact Hx. }
      assert (Y0 : nth (length x - 3) y 0 = y0).
      { rewrite Ey', Lx. rewrite app_nth2 by (rewrite rev_length; lia). rewrite rev_length. replace (S (S (S (length px))) - 3 - length py)%nat with 0%nat by lia. reflexivity. }
      rewrite Y0 in K.
      change (F (x2 :: x1 :: x0 :: px)) with (Fin x2 :: Fin x1 :: Fin x0 :: F px).
      change (F (y2 :: y1 :: y0 :: py)) with (Fin y2 :: Fin y1 :: Fin y0 :: F py). cbv iota.
      rewrite nb_basic, nb_cart, nb_add. eexists; split; [reflexivity|]. apply rnd_nonneg.
      assert (In0 : In y0 y) by (rewrite Ey'; apply in_or_app; right; cbn; auto).
      assert (In1 : In y1 y) by (rewrite Ey'; apply in_or_app; right; cbn; auto).
      assert (In2 : In y2 y) by (rewrite Ey'; apply in_or_app; right; cbn; auto).
      assert (P := sane_pos h Hh).
      assert (C := fcart_ge (rnd (x1 - x0)) (rnd (x2 - x1)) y0 y1 y2 ltac:(unfold near in *; lra) ltac:(unfold near in *; lra) (Py _ In1) (Py _ In2)).
      assert (E := feta_le h _ _ Hh N0 N1). assert (S6 := sixth_ge h _ _ Hh Na Nb).
      assert (rnd (feta (rnd (x1 - x0)) (rnd (x2 - x1)) * y0) <= rnd (rnd (rnd (ha + hb) / 6) * y0)); [|lra].
      apply rnd_le, Rmult_le_compat_r; [apply Py; auto|lra].
Qed.

(** ** Moments *)

(** a frequency axis of binary64 numbers: starts at 0 or above 2^-100, steps within 1.5 % of h, all below 2^100 *)
Record freq_axis_fl (h : R) (f : list R) : Prop := {
  fa_floats : floats f;
  fa_two : (2 <= length f)%nat;
  fa_sane : bpow radix2 (-90) <= h <= bpow radix2 100;
  fa_steps : forall i, (S i < length f)%nat -> Rabs (nth (S i) f 0 - nth i f 0 - h) <= h / 64;
  fa_start : nth 0 f 0 = 0 \/ bpow radix2 (-100) <= nth 0 f 0;
  fa_top : forall v, In v f -> v <= bpow radix2 100 }.

Lemma float_1 : is_float 1. Proof. apply (float_Z 1). cbn. lia. Qed.
(** a library result within 4 ulp of a normal number is within 8 units of relative rounding error *)
Lemma four_ulp p y : bpow radix2 (-1000) <= p -> Rabs (y - p) <= 4 * Ulp.ulp radix2 fexp64 p -> Rabs (y - p) <= 8 * u53 * p.
Proof.
  intros Hp H. assert (Z := b_pos (-1000)). apply (Rle_trans _ _ _ H).
  assert (T := ulp_FLT_le radix2 (-1074) 53 p). fold fexp64 in T. rewrite Rabs_pos_eq in T by lra.
  assert (E : bpow radix2 (1 - 53) = 2 * u53) by (unfold u53; cbn; lra). rewrite E in T.
  assert (L : bpow radix2 (-1074 + 53 - 1) <= p) by (eapply Rle_trans; [apply bpow_le|exact Hp]; lia). specialize (T L). lra.
Qed.
Lemma powerRZ_low r m : bpow radix2 (-100) <= r <= bpow radix2 100 -> (-10 <= m <= 10)%Z -> bpow radix2 (-1000) <= powerRZ r m.
Proof.
  intros Hr Hm. assert (Z := b_pos (-100)). destruct m as [|p|p].
  - cbn [powerRZ]. change 1 with (bpow radix2 0). apply bpow_le. lia.
  - cbn [powerRZ]. apply Rle_trans with (bpow radix2 (-100) ^ Pos.to_nat p); [rewrite bpow_pow; apply bpow_le; lia|].
    apply pow_incr. lra.
  - cbn [powerRZ]. apply Rle_trans with (/ (bpow radix2 100 ^ Pos.to_nat p)).
    + rewrite bpow_pow, <- bpow_opp. apply bpow_le. lia.
    + apply Rinv_le_contravar; [apply pow_lt; lra|]. apply pow_incr. lra.
Qed.
(** integer powers of one number, as computed *)
Definition fpowi (r : R) (m : Z) : R :=
  match m with Z0 => 1 | _ => if Rlt_dec 0 r then l_pow Lm r (IZR m) else 0 end.
Lemma nb_powi r m : 0 <= r -> ((m < 0)%Z -> 0 < r) -> npowi (n:=NB) (Fin r) m = Fin (fpowi r m) /\ 0 <= fpowi r m.
Proof.
  intros Hr Hneg. change (npowi (n:=NB)) with (by_pow (l_pow Lm)). unfold by_pow, fpowi.
  destruct m as [|p|p]; [split; [reflexivity|lra]| |]; destruct (Rlt_dec 0 r) as [P|P].
  - split; [reflexivity|apply l_pow_nonneg, P].
  - destruct (Rlt_dec r 0); [lra|]. split; [reflexivity|lra].
  - split; [reflexivity|apply l_pow_nonneg, P].
  - exfalso. apply P, Hneg. reflexivity.
Qed.
Lemma fpowi_pos r m : 0 < r -> m <> 0%Z -> fpowi r m = l_pow Lm r (IZR m).
Proof. intros Hr Hm. unfold fpowi. destruct m; [contradiction| |]; (destruct (Rlt_dec 0 r); [reflexivity|contradiction]). Qed.
Lemma fpowi_acc r m : bpow radix2 (-100) <= r <= bpow radix2 100 -> (-10 <= m <= 10)%Z ->
  Rabs (fpowi r m - powerRZ r m) <= 8 * u53 * powerRZ r m.
Proof.
  intros Hr Hm. assert (Z := b_pos (-100)). assert (Lo := powerRZ_low r m Hr Hm). assert (P0 := b_pos (-1000)).
  destruct (Z.eq_dec m 0) as [->|N0].
  - cbn [fpowi powerRZ]. rewrite Rminus_eq_0, Rabs_R0. assert (U := u53_val). lra.
  - rewrite fpowi_pos by (lra || exact N0). apply four_ulp; [exact Lo|]. rewrite powerRZ_Rpower by lra. apply l_pow_acc. lra.
Qed.
Lemma fpowi_big r m : bpow radix2 (-100) <= r <= bpow radix2 100 -> (-10 <= m <= 10)%Z -> 0 < fpowi r m.
Proof.
  intros Hr Hm. assert (A := fpowi_acc r m Hr Hm). assert (Lo := powerRZ_low r m Hr Hm). assert (P0 := b_pos (-1000)).
  apply Rabs_le_inv in A. rewrite u53_val in A. lra.
Qed.
Lemma fpowi_anti a c m : 0 < a <= c -> (m < 0)%Z -> fpowi c m <= fpowi a m.
Proof.
  intros H Hm. rewrite !fpowi_pos by (lra || lia). apply l_pow_anti; [lra|]. apply IZR_lt. exact Hm.
Qed.
(** integer powers of an array, as computed *)
Definition fpowZ (r : R) (m : Z) : R :=
  match m with (-1)%Z => rnd (1 / r) | 0%Z => 1 | 1%Z => r | 2%Z => rnd (r * r) | _ => fpowi r m end.
Lemma nb_powZ r m : 0 <= r -> ((m < 0)%Z -> 0 < r) -> npowZ (N:=NB) (Fin r) m = Fin (fpowZ r m) /\ 0 <= fpowZ r m.
Proof.
  intros Hr Hneg. assert (G := nb_powi r m Hr Hneg). destruct m as [|p|p].
  - split; [exact nb_1|cbn [fpowZ]; lra].
  - destruct p as [p|[p|p|]|]; try exact G; unfold npowZ, fpowZ.
    + split; [apply nb_mul|]. apply rnd_nonneg. nra.
    + split; [reflexivity|exact Hr].
  - destruct p as [p|p|]; try exact G; unfold npowZ, fpowZ. specialize (Hneg eq_refl).
    rewrite nb_1, nb_div by lra. split; [reflexivity|]. apply rnd_nonneg, Rmult_le_pos; [lra|]. apply Rlt_le, Rinv_0_lt_compat, Hneg.
Qed.

Lemma firstn_In {A} k (l : list A) a : In a (firstn k l) -> In a l.
Proof. revert l. induction k as [|k IH]; intros [|b l]; cbn; auto; try contradiction. intros [->|H]; auto. Qed.
Lemma skipn_In {A} k (l : list A) a : In a (skipn k l) -> In a l.
Proof. revert l. induction k as [|k IH]; intros [|b l]; cbn; auto. Qed.

Lemma tl_nth {A} (l : list A) i d : nth i (tl l) d = nth (S i) l d.
Proof. destruct l; [destruct i; reflexivity|reflexivity]. Qed.
Lemma tl_length {A} (l : list A) : length (tl l) = (length l - 1)%nat.
Proof. destruct l; cbn; lia. Qed.
Lemma tl_In {A} (l : list A) v : In v (tl l) -> In v l.
Proof. destruct l; cbn; auto. Qed.

Section Axis.
  Variables (h : R) (f : list R).
  Hypothesis Hf : freq_axis_fl h f.

  Lemma fa_sane' : sane h.
  Proof. destruct (fa_sane _ _ Hf) as [A B]. split; [|exact B]. eapply Rle_trans; [apply bpow_le|exact A]. lia. Qed.
  Lemma fa_h : 0 < h. Proof. apply sane_pos, fa_sane'. Qed.
  Lemma fa_near : steps h f.
  Proof.
    intros i Hi. assert (D := fa_steps _ _ Hf i Hi). apply Rabs_le_inv in D. assert (P := fa_h). assert (U := u53_val).
    assert (B1 := sane_pow h 1 fa_sane' ltac:(lia)). rewrite pow_1 in B1.
    destruct (rnd_in (63 / 64 * h) (65 / 64 * h) (nth (S i) f 0 - nth i f 0)) as [A1 A2]; [apply big; lra|lra|].
    rewrite U in A1, A2. unfold near. lra.
  Qed.
  Lemma fa_inc i j : (i < j < length f)%nat -> nth i f 0 + 63 / 64 * h <= nth j f 0.
  Proof.
    induction j as [|j IH]; intros H; [lia|]. assert (P := fa_h).
    assert (D := fa_steps _ _ Hf j ltac:(lia)). apply Rabs_le_inv in D.
    destruct (Nat.eq_dec i j) as [->|]; [lra|]. specialize (IH ltac:(lia)). lra.
  Qed.
  Lemma fa_first : 0 <= nth 0 f 0.
  Proof. destruct (fa_start _ _ Hf) as [->|H]; [lra|]. assert (Z := b_pos (-100)). lra. Qed.
  Lemma fa_pos i : (0 < i < length f)%nat -> 63 / 64 * h <= nth i f 0.
  Proof. intros Hi. assert (A := fa_inc 0 i ltac:(lia)). assert (B := fa_first). lra. Qed.
  Lemma fa_nonneg i : (i < length f)%nat -> 0 <= nth i f 0.
  Proof.
    intros Hi. destruct i; [apply fa_first|]. assert (A := fa_pos (S i) ltac:(lia)). assert (P := fa_h). lra.
  Qed.
  Lemma fa_big i : (i < length f)%nat -> nth i f 0 = 0 /\ i = O \/ bpow radix2 (-100) <= nth i f 0.
  Proof.
    intros Hi. destruct i; [destruct (fa_start _ _ Hf); auto|]. right. assert (A := fa_pos (S i) ltac:(lia)).
    eapply Rle_trans; [|exact A]. destruct (fa_sane _ _ Hf) as [B _].
    apply Rle_trans with (63 / 64 * bpow radix2 (-90)); [|apply Rmult_le_compat_l; lra].
    change (-100)%Z with (-10 + -90)%Z. rewrite bpow_plus. replace (bpow radix2 (-10)) with (/ 1024) by (cbn; lra).
    assert (Z := b_pos (-90)). lra.
  Qed.

  (** without a leading zero frequency when the order is negative *)
  Variables (m : Z) (s : list R).
  Hypothesis Hm : (-5 <= m)%Z.
  Hypothesis Ls : length s = length f.
  Hypothesis Fs : floats s.
  Hypothesis Ps : nonneg s.
  Definition dz {A} (l : list A) : list A := if Z.ltb m 0 && Reqb (nth 0 f 0) 0 then tl l else l.
  Lemma dz_In {A} (l : list A) v : In v (dz l) -> In v l.
  Proof. unfold dz. destruct (_ && _); [apply tl_In|auto]. Qed.
  Lemma dz_length : length (dz s) = length (dz f).
  Proof. unfold dz. destruct (_ && _); rewrite ?tl_length; lia. Qed.
  Lemma dz_ne : dz f <> [].
  Proof. assert (T := fa_two _ _ Hf). unfold dz. destruct f as [|a [|b l]]; cbn in T; try lia. destruct (_ && _); discriminate. Qed.
  Lemma dz_steps : steps h (dz f).
  Proof.
    unfold dz. destruct (_ && _); [|exact fa_near]. intros i Hi. rewrite tl_length in Hi. rewrite !tl_nth. apply fa_near. lia.
  Qed.
  Lemma dz_base k : (k < length (dz f))%nat -> 0 <= nth k (dz f) 0 /\ ((m < 0)%Z -> bpow radix2 (-100) <= nth k (dz f) 0).
  Proof.
    unfold dz. destruct (Z.ltb_spec m 0) as [M|M]; cbn [andb].
    - destruct (Reqb_spec (nth 0 f 0) 0) as [E|E].
      + rewrite tl_length, tl_nth. intros Hk. destruct (fa_big (S k) ltac:(lia)) as [[_ C]|C]; [discriminate|].
        split; [|auto]. apply fa_nonneg. lia.
      + intros Hk. split; [apply fa_nonneg, Hk|]. intros _. destruct (fa_big k Hk) as [[C ->]|C]; [contradiction|exact C].
    - intros Hk. split; [apply fa_nonneg, Hk|lia].
  Qed.
  Definition wg : list R := map2 (fun a b => rnd (fpowZ a m * b)) (dz f) (dz s).
  Lemma wg_length : length wg = length (dz f).
  Proof. unfold wg. rewrite map2_length, dz_length, Nat.min_id. reflexivity. Qed.
  Lemma wg_nth k : (k < length (dz f))%nat -> nth k wg 0 = rnd (fpowZ (nth k (dz f) 0) m * nth k (dz s) 0).
  Proof.
    intros Hk. unfold wg. rewrite (map2_nth _ _ _ _ 0 0 0); [reflexivity|exact Hk|rewrite dz_length; exact Hk].
  Qed.
  Lemma wg_floats : floats wg.
  Proof.
    intros v Hv. apply (In_nth _ _ 0) in Hv. destruct Hv as (k & Hk & <-). rewrite wg_length in Hk. rewrite wg_nth by exact Hk. apply rnd_float.
  Qed.
  Lemma wg_nonneg : nonneg wg.
  Proof.
    intros v Hv. apply (In_nth _ _ 0) in Hv. destruct Hv as (k & Hk & <-). rewrite wg_length in Hk. rewrite wg_nth by exact Hk.
    destruct (dz_base k Hk) as [B1 B2]. destruct (nb_powZ (nth k (dz f) 0) m B1 (fun M => Rlt_le_trans _ _ _ (b_pos (-100)) (B2 M))) as (_ & P).
    apply rnd_nonneg, Rmult_le_pos; [exact P|]. apply Ps, dz_In. apply nth_In. rewrite dz_length. exact Hk.
  Qed.
  Lemma integrand_NB : map2 (fun fr sp : car NB => nmul (npowZ fr m) sp) (F (dz f)) (F (dz s)) = F wg.
  Proof.
    apply nth_ext' with (Fin 0); [rewrite map2_length, !F_length, wg_length, dz_length; apply Nat.min_id|].
    intros k Hk. rewrite map2_length, !F_length, dz_length, Nat.min_id in Hk.
    rewrite (map2_nth _ _ _ _ (Fin 0) (Fin 0) (Fin 0)) by (rewrite F_length, ?dz_length; exact Hk).
    rewrite !F_nth, wg_nth by exact Hk. destruct (dz_base k Hk) as [B1 B2].
    destruct (nb_powZ (nth k (dz f) 0) m B1 (fun M => Rlt_le_trans _ _ _ (b_pos (-100)) (B2 M))) as (-> & _). apply nb_mul.
  Qed.
  (** Simpson over any part of the axis *)
  Lemma slice_nonneg i j v : simpson_slice (N:=NB) i j (F wg) (F (dz f)) = Ok v -> exists r, v = Fin r /\ 0 <= r.
  Proof.
    unfold simpson_slice. rewrite !F_slice. intros E.
    destruct (simpson_NB h (slice i (j + 1) (dz f)) (slice i (j + 1) wg)) as (r & Hr & Pr).
    - exact fa_sane'.
    - intros k Hk. rewrite slice_length in Hk. rewrite !slice_nth by lia. rewrite Nat.add_succ_r. apply dz_steps. lia.
    - intros a Ha. apply wg_floats. unfold slice in Ha. apply firstn_In in Ha. eapply skipn_In, Ha.
    - intros a Ha. apply wg_nonneg. unfold slice in Ha. apply firstn_In in Ha. eapply skipn_In, Ha.
    - rewrite !slice_length, wg_length. reflexivity.
    - intros Hn. rewrite Hn in E. assert (Lw : length (slice i (j + 1) wg) = 0%nat).
      { rewrite slice_length, wg_length, <- slice_length, Hn. reflexivity. }
      destruct (slice i (j + 1) wg); [|discriminate]. discriminate E.
    - rewrite Hr in E. apply Ok_inj in E. eauto.
  Qed.
End Axis.

Lemma nb_opp1 : nopp (n:=NB) (n1 (N:=NB)) = Fin (-1).
Proof. rewrite nb_1. reflexivity. Qed.

(** the tail beyond the last frequency *)
Lemma tail_NB a b c m v : (-5 <= m <= 3)%Z -> bpow radix2 (-100) <= a <= bpow radix2 100 -> a <= c -> 0 <= b ->
  tail_moment (N:=NB) (Fin a) (Fin b) (Fin c) m = Ok v -> exists r, v = Fin r /\ 0 <= r.
Proof.
  intros Hm Ha Hc Hb. assert (Z := b_pos (-100)). unfold tail_moment. cbv zeta. rewrite nb_0, nb_eqb, Reqb_false by lra. cbn [andb].
  destruct (nb_powi a (-5) ltac:(lra) ltac:(lra)) as (-> & _).
  set (e := (m + -5 + 1)%Z). assert (He : (-9 <= e < 0)%Z) by (unfold e; lia). clearbody e.
  destruct (nb_powi a e ltac:(lra) ltac:(lra)) as (-> & Pa).
  destruct (nb_powi c e ltac:(lra) ltac:(lra)) as (-> & Pc).
  assert (D : 0 < fpowi a (-5)) by (apply fpowi_big; [lra|lia]).
  rewrite nb_div by lra. rewrite nb_ofZ by lia. rewrite nb_div by (apply IZR_neq; lia).
  rewrite nb_sub, nb_mul. intros E. apply Ok_inj in E. eexists; split; [symmetry; exact E|].
  assert (E0 : IZR e < 0) by (apply IZR_lt; lia).
  assert (C0 : 0 <= rnd (b / fpowi a (-5))).
  { apply rnd_nonneg, Rmult_le_pos; [exact Hb|]. apply Rlt_le, Rinv_0_lt_compat, D. }
  assert (C1 : rnd (rnd (b / fpowi a (-5)) / IZR e) <= 0).
  { apply rnd_le_float; [apply float_0|]. assert (I := Rinv_lt_0_compat _ E0). unfold Rdiv at 1. nra. }
  assert (C2 : fpowi c e <= fpowi a e) by (apply fpowi_anti; [lra|lia]).
  assert (C3 : rnd (fpowi c e - fpowi a e) <= 0) by (apply rnd_le_float; [apply float_0|lra]).
  apply rnd_nonneg. nra.
Qed.

(** ** C77 *)

(** (a) moments: whatever the order between -5 and 3 and whatever the limits, with or without the tail beyond the axis *)
Theorem C77_moments (h : R) (f s : list R) (af as_ : arraylike (car NB)) (m : Z) (fmin fmax : R) (v : car NB) :
  freq_axis_fl h f -> length s = length f -> floats s -> nonneg s -> (-5 <= m <= 3)%Z ->
  holds_vector (F f) af -> holds_vector (F s) as_ ->
  compute_moment (N:=NB) af as_ m (Fin fmin) (Fin fmax) = Ok v -> exists r, v = Fin r /\ 0 <= r.
Proof.
  intros Hf Ls Fs Ps Hm Haf Has. assert (T := fa_two _ _ Hf).
  assert (Nf : F f <> []) by (destruct f; [cbn in T; lia|discriminate]).
  assert (Ns : F s <> []) by (destruct s; [cbn in Ls; lia|discriminate]).
  destruct (@hv_convert (car NB) (F f) af Nf Haf) as (kf & Hkf & Ef). destruct (@hv_convert (car NB) (F s) as_ Ns Has) as (ks & Hks & Es).
  unfold compute_moment. rewrite Ef, Es. cbn [fst snd].
  destruct (Nat.ltb_spec 1 kf); [lia|]. destruct (Nat.ltb_spec 1 ks); [lia|]. cbn [orb]. rewrite !as_list_vec, bind_Ok.
  intros H1. apply bind_inv in H1. destruct H1 as (mono & _ & H1). destruct mono; cbn [negb] in H1; [|discriminate H1].
  rewrite !F_length, Ls, Nat.eqb_refl in H1. cbn [negb] in H1. rewrite bind_Ok in H1.
  rewrite idx_F in H1 by lia. rewrite bind_Ok in H1.
  assert (Dz : forall l : list R, drop_zero (N:=NB) (A:=car NB) m (Fin (nth 0 f 0)) (F l) = F (dz f m l)).
  { clear H1. intros l. unfold drop_zero, dz. rewrite nb_0, nb_eqb. destruct (Z.ltb m 0); [|reflexivity].
    destruct (Reqb (nth 0 f 0) 0); [destruct l|]; reflexivity. }
  cbv zeta in H1. rewrite !Dz in H1. rewrite (integrand_NB h f Hf m s Ls) in H1.
  rewrite nb_opp1, !nb_eqb in H1.
  destruct (Reqb fmin (-1) || Reqb fmax (-1)).
  { assert (W : simpson_slice (N:=NB) 0 (length (dz f m f)) (F (wg f m s)) (F (dz f m f)) = Ok v).
    { unfold simpson_slice. rewrite !slice_all by (rewrite F_length, ?wg_length by exact Ls; lia). exact H1. }
    exact (slice_nonneg h f Hf m s Ls Ps _ _ _ W). }
  apply bind_inv in H1. destruct H1 as (f2 & _ & H1).
  assert (Ne := dz_ne h f Hf m s Ls).
  assert (NeF : F (dz f m f) <> []) by (destruct (dz f m f); [contradiction|discriminate]).
  rewrite (@idx_last_nth (car NB) _ (Fin 0) NeF) in H1. rewrite bind_Ok, F_length, F_nth in H1.
  set (fl := nth (length (dz f m f) - 1) (dz f m f) 0) in *. rewrite nb_leb in H1.
  destruct (Rleb_spec fmax fl) as [Q|Q].
  - apply bind_inv in H1. destruct H1 as (i & _ & H1). apply bind_inv in H1. destruct H1 as (j & _ & H1).
    exact (slice_nonneg h f Hf m s Ls Ps _ _ _ H1).
  - apply bind_inv in H1. destruct H1 as (i & _ & H1). apply bind_inv in H1. destruct H1 as (j & _ & H1).
    apply bind_inv in H1. destruct H1 as (m1 & M1 & H1). apply (slice_nonneg h f Hf m s Ls Ps) in M1.
    destruct M1 as (r1 & -> & R1). apply bind_inv in H1. destruct H1 as (sl & Sl & H1).
    apply (@idx_last_inv (car NB) _ _ (Fin 0)) in Sl. destruct Sl as [NeS ->]. rewrite F_length, F_nth in H1.
    apply bind_inv in H1. destruct H1 as (m2 & M2 & H1).
    assert (Lz : (0 < length (dz f m f))%nat) by (destruct (dz f m f); [contradiction|cbn; lia]).
    apply tail_NB in M2.
    + destruct M2 as (r2 & -> & R2). rewrite nb_add in H1. apply Ok_inj in H1. exists (rnd (r1 + r2)). split; [auto|]. apply rnd_nonneg. lra.
    + exact Hm.
    + split; [|apply (fa_top _ _ Hf), (dz_In f m); unfold fl; apply nth_In; lia].
      unfold fl, dz. destruct (_ && _).
      * rewrite tl_nth, tl_length. destruct (fa_big h f Hf (S (length f - 1 - 1)) ltac:(lia)) as [[_ C]|C]; [discriminate|exact C].
      * destruct (fa_big h f Hf (length f - 1) ltac:(lia)) as [[_ C]|C]; [lia|exact C].
    + lra.
    + apply Ps, (dz_In f m). apply nth_In. rewrite (dz_length f m s Ls). lia.
Qed.
End AnyOrder.
