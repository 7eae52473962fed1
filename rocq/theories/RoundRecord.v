(** * C91: density spectrum and Hm0 of a record in binary64, given the accuracy of the FFT.
    If the FFT routine returns the Fourier coefficients with a relative error of at most [eta] in the 2-norm, the densities, and the
    Hm0 of the Spectrum obtained from a Series by get_spectrum_raw, differ from the exact ones by a small multiple of [eta] plus the
    rounding of the remaining operations. *)

From Coq Require Import Reals ZArith String List Bool Lra Lia Psatz.
From Flocq Require Import Core.
From Coquelicot Require Import Complex.
From Verif Require Import SumOrder Num XR Spec XRFacts RoundNum Engine EngineProps Cpx SpectralModel WaveModel SpectrumModel SeriesModel SeriesProps DFT FourierSpec FourierFacts FourierProps
  RSum AvgProps DensityProps SimpsonFacts MomentProps GetterProps ParamProps HistProps HeightProps TimeModel TimeSpec RoundProps RoundWave RoundSpec RoundChain RoundAccuracy RoundMix TimeProps.
From Verif Require RoundDisper RoundJonswap.
Import ListNotations.
Open Scope R_scope.

(** ** Simpson's rule on an almost uniform axis *)
Section Panel.
  Variables (h d h0 h1 : R).
  Hypothesis (Hh : 0 < h) (Hd : 0 <= d <= 1 / 64) (A0 : Rabs (h0 - h) <= d * h) (A1 : Rabs (h1 - h) <= d * h).
  Lemma pan_pos : h * (63 / 64) <= h0 /\ h * (63 / 64) <= h1 /\ - (d * h) <= h0 - h <= d * h /\ - (d * h) <= h1 - h <= d * h /\ 0 <= d * h <= h / 64.
  Proof. apply Rabs_le_inv in A0, A1. assert (0 <= d * h <= h / 64) by nra. repeat split; lra. Qed.
  Lemma pan_r a b : h * (63 / 64) <= a -> - (d * h) <= a - h <= d * h -> - (d * h) <= b - h <= d * h -> Rabs (b / a - 1) <= 21 / 10 * d.
  Proof.
    intros Pa Ba Bb. assert (P := pan_pos). assert (0 < a) by lra. apply Rabs_le.
    assert (E : b / a - 1 = (b - a) / a) by (field; lra). rewrite E.
    assert (K : 2 * (d * h) <= 21 / 10 * d * a) by nra.
    split; [apply le_div|apply div_le]; lra.
  Qed.
  (** weights of one panel *)
  Lemma pan_0 : Rabs ((h0 + h1) / 6 * (2 - h1 / h0) - h / 3) <= 3 * d * h.
  Proof.
    destruct pan_pos as (P0 & P1 & B0 & B1 & Dh). assert (R := pan_r h0 h1 P0 B0 B1). apply Rabs_le_inv in R. set (r := h1 / h0) in *.
    replace ((h0 + h1) / 6 * (2 - r) - h / 3) with (((h0 - h) + (h1 - h)) / 6 * (2 - r) + h / 3 * (1 - r)) by field. apply Rabs_le. nra.
  Qed.
  Lemma pan_2 : Rabs ((h0 + h1) / 6 * (2 - h0 / h1) - h / 3) <= 3 * d * h.
  Proof.
    destruct pan_pos as (P0 & P1 & B0 & B1 & Dh). assert (R := pan_r h1 h0 P1 B1 B0). apply Rabs_le_inv in R. set (r := h0 / h1) in *.
    replace ((h0 + h1) / 6 * (2 - r) - h / 3) with (((h0 - h) + (h1 - h)) / 6 * (2 - r) + h / 3 * (1 - r)) by field. apply Rabs_le. nra.
  Qed.
  Lemma pan_1 : Rabs ((h0 + h1) / 6 * ((h0 + h1) * ((h0 + h1) / (h0 * h1))) - 4 * h / 3) <= 3 * d * h.
  Proof.
    destruct pan_pos as (P0 & P1 & B0 & B1 & Dh). assert (R := pan_r h1 h0 P1 B1 B0). apply Rabs_le_inv in R.
    assert (R' := pan_r h0 h1 P0 B0 B1). apply Rabs_le_inv in R'.
    replace ((h0 + h1) * ((h0 + h1) / (h0 * h1))) with (2 + h0 / h1 + h1 / h0) by (field; lra). set (r := h0 / h1) in *. set (r' := h1 / h0) in *.
    replace ((h0 + h1) / 6 * (2 + r + r') - 4 * h / 3) with (((h0 - h) + (h1 - h)) / 6 * (2 + r + r') + h / 3 * ((r - 1) + (r' - 1))) by field. apply Rabs_le. nra.
  Qed.
  (** weights of the last interval *)
  Lemma last_c : Rabs (h1 / (h0 + h1) - 1 / 2) <= 6 / 10 * d.
  Proof.
    destruct pan_pos as (P0 & P1 & B0 & B1 & Dh). assert (0 < h0 + h1) by lra.
    replace (h1 / (h0 + h1) - 1 / 2) with ((h1 - h0) / 2 / (h0 + h1)) by (field; lra). apply Rabs_le.
    assert (K : d * h <= 6 / 10 * d * (h0 + h1)) by nra.
    split; [apply le_div|apply div_le]; lra.
  Qed.
  Lemma last_2 : Rabs ((2 * (h1 * h1) + 3 * h0 * h1) / (6 * (h1 + h0)) - 5 * h / 12) <= 3 * d * h.
  Proof.
    destruct pan_pos as (P0 & P1 & B0 & B1 & Dh). assert (C := last_c). apply Rabs_le_inv in C.
    replace ((2 * (h1 * h1) + 3 * h0 * h1) / (6 * (h1 + h0))) with ((2 * h1 + 3 * h0) / 6 * (h1 / (h0 + h1))) by (field; lra). set (c := h1 / (h0 + h1)) in *.
    replace ((2 * h1 + 3 * h0) / 6 * c - 5 * h / 12) with ((2 * (h1 - h) + 3 * (h0 - h)) / 6 * c + 5 * h / 6 * (c - 1 / 2)) by field. apply Rabs_le. nra.
  Qed.
  Lemma last_1 : Rabs ((h1 * h1 + 3 * h0 * h1) / (6 * h0) - 2 * h / 3) <= 3 * d * h.
  Proof.
    destruct pan_pos as (P0 & P1 & B0 & B1 & Dh). assert (R' := pan_r h0 h1 P0 B0 B1). apply Rabs_le_inv in R'.
    replace ((h1 * h1 + 3 * h0 * h1) / (6 * h0)) with ((h1 + 3 * h0) / 6 * (h1 / h0)) by (field; lra). set (r := h1 / h0) in *.
    replace ((h1 + 3 * h0) / 6 * r - 2 * h / 3) with (((h1 - h) + 3 * (h0 - h)) / 6 * r + 2 * h / 3 * (r - 1)) by field. apply Rabs_le. nra.
  Qed.
  Lemma last_0 : Rabs (h1 * h1 * h1 / (6 * h0 * (h0 + h1)) - h / 12) <= 3 * d * h.
  Proof.
    destruct pan_pos as (P0 & P1 & B0 & B1 & Dh). assert (R' := pan_r h0 h1 P0 B0 B1). apply Rabs_le_inv in R'. assert (C := last_c). apply Rabs_le_inv in C.
    replace (h1 * h1 * h1 / (6 * h0 * (h0 + h1))) with (h1 / 6 * ((h1 / h0) * (h1 / (h0 + h1)))) by (field; lra). set (r := h1 / h0) in *. set (c := h1 / (h0 + h1)) in *.
    assert (Q : Rabs (r * c - 1 / 2) <= 2 * d).
    { replace (r * c - 1 / 2) with ((r - 1) * c + (c - 1 / 2)) by field. apply Rabs_le. nra. }
    apply Rabs_le_inv in Q. set (q := r * c) in *.
    replace (h1 / 6 * q - h / 12) with ((h1 - h) / 6 * q + h / 6 * (q - 1 / 2)) by field. apply Rabs_le. nra.
  Qed.
End Panel.

Lemma three_terms e w0 w1 w2 v0 v1 v2 y0 y1 y2 : Rabs (w0 - v0) <= e -> Rabs (w1 - v1) <= e -> Rabs (w2 - v2) <= e -> 0 <= y0 -> 0 <= y1 -> 0 <= y2 ->
  Rabs ((w0 * y0 + w1 * y1 + w2 * y2) - (v0 * y0 + v1 * y1 + v2 * y2)) <= e * (y0 + y1 + y2).
Proof.
  intros A0 A1 A2 Y0 Y1 Y2. apply Rabs_le_inv in A0, A1, A2.
  replace ((w0 * y0 + w1 * y1 + w2 * y2) - (v0 * y0 + v1 * y1 + v2 * y2)) with ((w0 - v0) * y0 + (w1 - v1) * y1 + (w2 - v2) * y2) by ring.
  set (a0 := w0 - v0) in *. set (a1 := w1 - v1) in *. set (a2 := w2 - v2) in *. apply Rabs_le. split; nra.
Qed.
Lemma panel_near h d x0 x1 x2 y0 y1 y2 : 0 < h -> 0 <= d <= 1 / 64 -> Rabs (x1 - x0 - h) <= d * h -> Rabs (x2 - x1 - h) <= d * h -> 0 <= y0 -> 0 <= y1 -> 0 <= y2 ->
  Rabs (rpanel x0 x1 x2 y0 y1 y2 - h / 3 * (y0 + 4 * y1 + y2)) <= 3 * d * h * (y0 + y1 + y2).
Proof.
  intros Hh Hd A0 A1 Y0 Y1 Y2. unfold rpanel. set (h0 := x1 - x0) in *. set (h1 := x2 - x1) in *.
  assert (T := three_terms (3 * d * h) _ _ _ _ _ _ y0 y1 y2 (pan_0 h d h0 h1 Hh Hd A0 A1) (pan_1 h d h0 h1 Hh Hd A0 A1) (pan_2 h d h0 h1 Hh Hd A0 A1) Y0 Y1 Y2).
  eapply Rle_trans; [|exact T]. right. f_equal. field. apply (pan_pos h d h0 h1 Hh Hd) in A0; auto. split; lra.
Qed.
Lemma last_near h d x0 x1 x2 y0 y1 y2 : 0 < h -> 0 <= d <= 1 / 64 -> Rabs (x1 - x0 - h) <= d * h -> Rabs (x2 - x1 - h) <= d * h -> 0 <= y0 -> 0 <= y1 -> 0 <= y2 ->
  Rabs (rlast x0 x1 x2 y0 y1 y2 - (5 * h / 12 * y2 + 2 * h / 3 * y1 - h / 12 * y0)) <= 3 * d * h * (y0 + y1 + y2).
Proof.
  intros Hh Hd A0 A1 Y0 Y1 Y2. unfold rlast. set (h0 := x1 - x0) in *. set (h1 := x2 - x1) in *.
  assert (A := last_0 h d h0 h1 Hh Hd A0 A1).
  assert (B : Rabs (- (h1 * h1 * h1 / (6 * h0 * (h0 + h1))) - - (h / 12)) <= 3 * d * h).
  { rewrite Rabs_minus_sym. replace (- (h / 12) - - (h1 * h1 * h1 / (6 * h0 * (h0 + h1)))) with (h1 * h1 * h1 / (6 * h0 * (h0 + h1)) - h / 12) by ring. exact A. }
  assert (T := three_terms (3 * d * h) _ _ _ _ _ _ y0 y1 y2 B (last_1 h d h0 h1 Hh Hd A0 A1) (last_2 h d h0 h1 Hh Hd A0 A1) Y0 Y1 Y2).
  eapply Rle_trans; [|exact T]. right. f_equal. ring.
Qed.

(** the same weights on every panel *)
Fixpoint ubasic (h : R) (y : list R) : R :=
  match y with
  | y0 :: y1 :: ((y2 :: _) as y') => h / 3 * (y0 + 4 * y1 + y2) + ubasic h y'
  | _ => 0
  end.
Definition usimp (h : R) (y : list R) : R :=
  let n := length y in
  if Nat.odd n then ubasic h y
  else ubasic h y + (5 * h / 12 * nth (n - 1) y 0 + 2 * h / 3 * nth (n - 2) y 0 - h / 12 * nth (n - 3) y 0).
Definition steps_near (h d : R) (x : list R) : Prop := forall i, (S i < length x)%nat -> Rabs (nth (S i) x 0 - nth i x 0 - h) <= d * h.

Lemma basic_near h d : 0 < h -> 0 <= d <= 1 / 64 -> forall n x y, (length x <= n)%nat -> length y = length x -> steps_near h d x -> nonneg y ->
  Rabs (rbasic x y - ubasic h y) <= 3 * d * h * (2 * Rsum y - nth 0 y 0).
Proof.
  intros Hh Hd. assert (SN : forall l, nonneg l -> 0 <= Rsum l).
  { induction l as [|a l IH]; intros H; [apply Rle_refl|]. change (Rsum (a :: l)) with (a + Rsum l). assert (0 <= a) by (apply H; left; auto). assert (0 <= Rsum l) by (apply IH; intros v Hv; apply H; right; auto). lra. }
  assert (P : 0 <= 3 * d * h) by nra.
  assert (small : forall y, nonneg y -> 0 <= 3 * d * h * (2 * Rsum y - nth 0 y 0)).
  { intros y Hy. apply Rmult_le_pos; [exact P|]. destruct y as [|a y]; [cbn; lra|]. change (Rsum (a :: y)) with (a + Rsum y). cbn [nth]. assert (0 <= a) by (apply Hy; left; auto).
    assert (0 <= Rsum y) by (apply SN; intros v Hv; apply Hy; right; auto). lra. }
  induction n as [|n IH]; intros x y Hn Ly Hx Hy.
  - destruct x; [|cbn in Hn; lia]. destruct y; [|discriminate]. cbn [rbasic ubasic]. rewrite Rminus_0_r, Rabs_R0. apply (small [] Hy).
  - destruct x as [|x0 [|x1 [|x2 x]]]; destruct y as [|y0 [|y1 [|y2 y]]]; try discriminate;
      try (cbn [rbasic ubasic]; rewrite Rminus_0_r, Rabs_R0; apply (small _ Hy)).
    assert (E : rbasic (x0 :: x1 :: x2 :: x) (y0 :: y1 :: y2 :: y) = rpanel x0 x1 x2 y0 y1 y2 + rbasic (x2 :: x) (y2 :: y)) by reflexivity.
    assert (E' : ubasic h (y0 :: y1 :: y2 :: y) = h / 3 * (y0 + 4 * y1 + y2) + ubasic h (y2 :: y)) by reflexivity.
    rewrite E, E'.
    assert (I : Rabs (rbasic (x2 :: x) (y2 :: y) - ubasic h (y2 :: y)) <= 3 * d * h * (2 * Rsum (y2 :: y) - nth 0 (y2 :: y) 0)).
    { apply IH; [cbn in *; lia|cbn in *; lia| |intros v Hv; apply Hy; right; right; exact Hv].
      intros i Hi. apply (Hx (S (S i))). cbn in *. lia. }
    assert (Y0 : 0 <= y0) by (apply Hy; left; auto). assert (Y1 : 0 <= y1) by (apply Hy; right; left; auto). assert (Y2 : 0 <= y2) by (apply Hy; right; right; left; auto).
    assert (Pn := panel_near h d x0 x1 x2 y0 y1 y2 Hh Hd (Hx 0%nat ltac:(cbn; lia)) (Hx 1%nat ltac:(cbn; lia)) Y0 Y1 Y2).
    cbn [nth] in *. apply Rabs_le_inv in I, Pn. apply Rabs_le.
    assert (S0 : Rsum (y0 :: y1 :: y2 :: y) = y0 + (y1 + (y2 + Rsum y))) by reflexivity. assert (S2 : Rsum (y2 :: y) = y2 + Rsum y) by reflexivity.
    rewrite S0. rewrite S2 in I. set (p := 3 * d * h) in *.
    assert (Q : 0 <= p * y0) by (apply Rmult_le_pos; auto). assert (Q1 : 0 <= p * y1) by (apply Rmult_le_pos; auto).
    split; nra.
Qed.

Lemma Rsum_three (y : list R) : nonneg y -> (3 <= length y)%nat -> nth (length y - 3) y 0 + nth (length y - 2) y 0 + nth (length y - 1) y 0 <= Rsum y.
Proof.
  intros Hy H3. induction y as [|a y IH]; [cbn in H3; lia|].
  assert (A : 0 <= a) by (apply Hy; left; auto). change (Rsum (a :: y)) with (a + Rsum y).
  destruct (Nat.eq_dec (length y) 2) as [E|E].
  - destruct y as [|b [|c [|]]]; try discriminate. cbn. lra.
  - cbn [length] in H3. assert (I := IH ltac:(intros v Hv; apply Hy; right; exact Hv) ltac:(lia)).
    cbn [length]. replace (S (length y) - 3)%nat with (S (length y - 3)) by lia. replace (S (length y) - 2)%nat with (S (length y - 2)) by lia.
    replace (S (length y) - 1)%nat with (S (length y - 1)) by lia. cbn [nth]. lra.
Qed.
Lemma simp_near h d x y : 0 < h -> 0 <= d <= 1 / 64 -> (3 <= length x)%nat -> length y = length x -> steps_near h d x -> nonneg y ->
  Rabs (rsimp x y - usimp h y) <= 9 * d * h * Rsum y.
Proof.
  intros Hh Hd H3 Ly Hx Hy. assert (B := basic_near h d Hh Hd (length x) x y (le_n _) Ly Hx Hy).
  assert (P : 0 <= d * h) by nra. assert (T := Rsum_three y Hy ltac:(lia)).
  assert (N : forall k, 0 <= nth k y 0).
  { intros k. destruct (Nat.lt_ge_cases k (length y)); [apply Hy, nth_In; auto|rewrite nth_overflow by auto; lra]. }
  assert (N1 := N 0%nat). assert (N2 := N (length y - 1)%nat). assert (N3 := N (length y - 2)%nat). assert (N4 := N (length y - 3)%nat).
  assert (Sy : 0 <= Rsum y) by lra.
  assert (Q : 0 <= d * h * Rsum y) by (apply Rmult_le_pos; auto). assert (Q0 : 0 <= d * h * nth 0 y 0) by (apply Rmult_le_pos; auto).
  assert (B' : Rabs (rbasic x y - ubasic h y) <= 6 * (d * h * Rsum y)).
  { eapply Rle_trans; [exact B|]. lra. }
  unfold rsimp, usimp. rewrite Ly. destruct (Nat.odd (length x)).
  - eapply Rle_trans; [exact B'|]. lra.
  - destruct (Nat.eqb_spec (length x) 2) as [Q2|_]; [lia|].
    set (n := length x) in *.
    assert (A0 := Hx (n - 3)%nat ltac:(fold n; lia)). assert (A1 := Hx (n - 2)%nat ltac:(fold n; lia)).
    replace (S (n - 3)) with (n - 2)%nat in A0 by lia. replace (S (n - 2)) with (n - 1)%nat in A1 by lia.
    rewrite Ly in N2, N3, N4, T. fold n in N2, N3, N4, T.
    assert (L := last_near h d _ _ _ _ _ _ Hh Hd A0 A1 N4 N3 N2). apply Rabs_le_inv in L, B'.
    set (l := rlast _ _ _ _ _ _) in *. set (rb := rbasic x y) in *. set (ub := ubasic h y) in *.
    assert (K : 3 * d * h * (nth (n - 3) y 0 + nth (n - 2) y 0 + nth (n - 1) y 0) <= 3 * (d * h * Rsum y)).
    { replace (3 * (d * h * Rsum y)) with (3 * d * h * Rsum y) by ring. apply Rmult_le_compat_l; lra. }
    apply Rabs_le. lra.
Qed.
Lemma usimp_weights h y : 0 < h -> (3 <= length y)%nat -> nonneg y -> usimp h y = h * RS (length y) (fun k => simpson_weight (length y) k * nth k y 0).
Proof.
  intros Hh H3 Hy. rewrite <- (rsimp_uniform 0) by (auto; lra || lia).
  assert (E := simp_near h 0 (axis 0 h (length y)) y Hh ltac:(lra)). rewrite axis_length in E.
  assert (E' : Rabs (rsimp (axis 0 h (length y)) y - usimp h y) <= 0).
  { eapply Rle_trans; [apply E; auto|]. intros i Hi. rewrite axis_length in Hi. rewrite !axis_nth by lia. rewrite S_INR.
    replace (0 + (INR i + 1) * h - (0 + INR i * h) - h) with 0 by ring. rewrite Rabs_R0. lra. lra. }
  apply Rabs_le_inv in E'. lra.
Qed.

Section AnyOrder.
Context {So : summation} {Lm : libm}.

(** ** The frequency axis *)
Lemma fsum_one v : fsum [v] = v.
Proof.
  unfold fsum, sum_by. cbn [length]. assert (P := order_ok So 1 ltac:(lia)). cbn [seq] in P.
  destruct (order So 1) as [i|a b].
  - cbn [leaves] in P. apply Permutation.Permutation_length_1 in P. subst i. reflexivity.
  - exfalso. assert (L : forall t, (1 <= length (leaves t))%nat).
    { induction t as [i|c IHc d IHd]; cbn [leaves]; [cbn; lia|]. rewrite app_length. lia. }
    apply Permutation.Permutation_length in P. cbn [leaves] in P. rewrite app_length in P. assert (A := L a). assert (B := L b). cbn in P. lia.
Qed.
Lemma raw_axis_nth m D k : (k < m)%nat -> nth k (favg m D 1 m) 0 = fk D k.
Proof.
  intros Hk. rewrite favg_nth by exact Hk. rewrite blk_fax by lia. rewrite Nat.mul_1_r. cbn [seq map]. unfold fmean. rewrite fsum_one. cbn [length INR].
  unfold Rdiv. rewrite Rinv_1, Rmult_1_r. apply rnd_id. unfold fk. apply rnd_float.
Qed.
Lemma raw_axis_near m D : bpow radix2 (-60) <= D -> steps_near D (2 * INR m * u53) (favg m D 1 m).
Proof.
  intros HD i Hi. rewrite favg_length in Hi. rewrite !raw_axis_nth by lia. assert (P := b_pos (-60)). assert (U := u53_val).
  assert (B : forall k, Rabs (fk D k - INR k * D) <= INR k * D * u53).
  { intros k. destruct (fk_bounds D k) as [[-> ->]|[_ B]]; [eapply Rle_trans; [apply bpow_le|exact HD]; lia| |].
    - cbn [INR]. rewrite Rmult_0_l, Rmult_0_l, Rminus_0_r, Rabs_R0. lra.
    - apply Rabs_le. lra. }
  assert (B0 := B i). assert (B1 := B (S i)). rewrite S_INR in B1. apply Rabs_le_inv in B0, B1. apply Rabs_le.
  assert (I : INR i + 1 <= INR m) by (rewrite <- S_INR; apply le_INR; lia). assert (Pi := pos_INR i).
  assert (K : (2 * INR i + 1) * D * u53 <= 2 * INR m * u53 * D).
  { replace (2 * INR m * u53 * D) with (2 * INR m * D * u53) by ring. apply Rmult_le_compat_r; [lra|]. apply Rmult_le_compat_r; lra. }
  lra.
Qed.

(** ** One density *)
Lemma dens_mix (D n a b : R) (N : nat) : n = INR N -> (1 <= N)%nat -> (Z.of_nat N <= 2 ^ 30)%Z -> bpow radix2 (-60) <= D <= bpow radix2 40 ->
  exists v, var_dens (N:=NB) (Fin D) (Fin n) ((Fin a, Fin b) : cpx NB) = Fin v
    /\ Rabs (D * v - 2 * (a * a + b * b) / (n * n)) <= 10 * u53 * (2 * (a * a + b * b) / (n * n)) + bpow radix2 (-960).
Proof.
  intros En HN HN' [D1 D2]. assert (PD := b_pos (-60)). assert (N1 : 1 <= n) by (rewrite En; apply (le_INR 1); lia).
  assert (N30 : n <= 1073741824) by (rewrite En, INR_IZR_INZ; apply IZR_le; lia).
  assert (Th : forall r, bpow radix2 (-60) <= r -> thr r).
  { intros r Hr. right. eapply Rle_trans; [apply bpow_le|exact Hr]. lia. }
  assert (R1 : rel 1 (D * n) (rnd (D * n))) by (apply rel_rnd; [lia|apply Th; nra|apply rel_refl]).
  assert (DN : D <= D * n) by nra. assert (DN2 : D * n <= D * n * n) by nra.
  assert (R2 : rel 2 (D * n * n) (rnd (rnd (D * n) * n))).
  { apply rel_rnd; [lia|apply Th; lra|]. apply (rel_mul 1 0); [lra|lra|exact R1|apply rel_refl]. }
  assert (PE : 0 < D * n * n) by lra. set (E := rnd (rnd (D * n) * n)) in *. assert (Pd : 0 < E) by (apply (rel_pos 2 (D * n * n)); auto).
  unfold var_dens, cdivr, cmul, cscale, cconj, cre, cim. cbn [fst snd].
  rewrite nb_ofZ by (cbn; lia). rewrite !nb_mul. fold E.
  change (nopp (n:=NB) (Fin b)) with (Fin (- b)). rewrite !nb_mul, nb_sub, nb_div by lra.
  eexists; split; [reflexivity|].
  assert (Half : forall r, mix 2 (tau * Rabs r + tau) (2 * (r * r)) (rnd (rnd (2 * r) * r))).
  { intros r. apply mix_rnd; [lia|].
    assert (M : mix 1 tau (2 * Rabs r) (rnd (2 * Rabs r))).
    { replace tau with (0 + tau) by ring. apply mix_rnd; [lia|]. apply rel_mix; [assert (A := Rabs_pos r); lra|apply rel_refl]. }
    assert (M2 := mix_mul 0 1 _ _ _ (Rabs r) (Rabs r) (Rabs_pos r) (rel_refl _) M). cbn [Nat.add] in M2.
    replace (2 * Rabs r * Rabs r) with (2 * (r * r)) in M2 by (rewrite Rmult_assoc, <- Rabs_mult, (Rabs_pos_eq (r * r)) by nra; reflexivity).
    replace (rnd (2 * r) * r) with (rnd (2 * Rabs r) * Rabs r); [exact M2|].
    destruct (Rle_lt_dec 0 r) as [P|P]; [rewrite Rabs_pos_eq by exact P; reflexivity|]. rewrite Rabs_left by exact P.
    replace (2 * - r) with (- (2 * r)) by ring. rewrite rnd_opp. ring. }
  assert (Ma := Half a). assert (Mb := Half b).
  assert (Eb : rnd (rnd (2 * b) * - b) = - rnd (rnd (2 * b) * b)) by (rewrite <- rnd_opp; f_equal; ring). rewrite Eb.
  replace (rnd (rnd (2 * a) * a) - - rnd (rnd (2 * b) * b)) with (rnd (rnd (2 * a) * a) + rnd (rnd (2 * b) * b)) by ring.
  assert (Ms := mix_rnd' _ _ _ _ (mix_add _ _ _ _ _ _ _ Ma Mb) ltac:(lia)).
  set (S := rnd (_ + _)) in *.
  assert (Mi := mix_mul _ _ _ _ _ _ _ ltac:(apply Rlt_le, Rinv_0_lt_compat, PE) (rel_inv 2 _ _ PE R2) Ms).
  assert (Mv := mix_rnd' _ _ _ _ Mi ltac:(lia)).
  assert (MD := mix_mul 0 _ _ _ _ D D ltac:(lra) (rel_refl _) Mv).
  assert (P0 : 0 <= (2 * (a * a) + 2 * (b * b)) * / (D * n * n) * D).
  { apply Rmult_le_pos; [|lra]. apply Rmult_le_pos; [nra|apply Rlt_le, Rinv_0_lt_compat, PE]. }
  assert (Q := fun H => mix_abs _ _ _ _ H P0 MD). specialize (Q ltac:(cbn; lia)).
  clear MD Mv Mi Ms. change (S * / E) with (S / E) in Q. set (v := rnd (S / E)) in *.
  set (g := 2 * (a * a + b * b) / (n * n)).
  replace ((2 * (a * a) + 2 * (b * b)) * / (D * n * n) * D) with g in Q by (unfold g; field; lra).
  rewrite (Rmult_comm D v). eapply Rle_trans; [exact Q|]. clear Q.
  set (A := Rabs a) in *. set (B := Rabs b) in *.
  assert (PA : 0 <= A) by apply Rabs_pos. assert (PB : 0 <= B) by apply Rabs_pos. assert (SA : A * A = a * a) by (unfold A; rewrite <- Rabs_mult, Rabs_pos_eq; nra).
  assert (SB : B * B = b * b) by (unfold B; rewrite <- Rabs_mult, Rabs_pos_eq; nra).
  replace (((tau * A + tau + (tau * B + tau) + tau) * / (D * n * n) + tau) * D) with (tau * ((A + B + 3) / (n * n) + D)) by (field; lra).
  assert (T := tau_pos).
  assert (G : 0 <= g) by (unfold g; apply Rmult_le_pos; [nra|apply Rlt_le, Rinv_0_lt_compat; nra]).
  assert (K : (A + B + 3) / (n * n) <= g + 5).
  { unfold g. apply Rmult_le_reg_r with (n * n); [nra|]. replace ((A + B + 3) / (n * n) * (n * n)) with (A + B + 3) by (field; lra).
    replace ((2 * (a * a + b * b) / (n * n) + 5) * (n * n)) with (2 * (A * A + B * B) + 5 * (n * n)) by (rewrite SA, SB; field; lra).
    assert (A <= 2 * (A * A) + 1) by (assert (0 <= (A - 1) * (A - 1)) by apply Rle_0_sqr; nra). assert (B <= 2 * (B * B) + 1) by (assert (0 <= (B - 1) * (B - 1)) by apply Rle_0_sqr; nra).
    assert (1 <= n * n) by nra. lra. }
  assert (U := u53_val). replace (INR _) with 8 by (cbn; lra).
  assert (B40 : bpow radix2 40 = 1099511627776) by (cbn; lra).
  assert (Tu : tau <= u53 / 2) by (rewrite U; replace (/ 9007199254740992 / 2) with (bpow radix2 (-54)) by (cbn; lra); apply bpow_le; lia).
  assert (TL : tau * 1099511627785 <= bpow radix2 (-961)).
  { unfold tau. replace (-961)%Z with (-1009 + 48)%Z by lia. rewrite bpow_plus. apply Rmult_le_compat_l; [apply bpow_ge_0|]. cbn. lra. }
  assert (E961 : bpow radix2 (-960) = 2 * bpow radix2 (-961)).
  { change (-960)%Z with (1 + -961)%Z. rewrite bpow_plus. reflexivity. }
  assert (K2 : tau * ((A + B + 3) / (n * n) + D) <= tau * g + tau * 1099511627785).
  { rewrite <- Rmult_plus_distr_l. apply Rmult_le_compat_l; lra. }
  assert (K3 : tau * g <= u53 / 2 * g) by (apply Rmult_le_compat_r; auto).
  assert (K4 : 0 <= u53 * g) by (apply Rmult_le_pos; lra). nra.
Qed.

(** ** The spectrum, bin by bin *)
Definition fft_is (x : list R) (re im : nat -> R) : Prop :=
  forall k, (k < length x)%nat -> nth k (fft (N:=NB) (map (cofr (N:=NB)) (F x))) (Fin 0, Fin 0) = (Fin (re k), Fin (im k)).

Lemma raw_NB (t x : list R) (re im : nat -> R) : length x = length t -> (2 <= length t)%nat -> (Z.of_nat (length t) <= 2 ^ 30)%Z ->
  bpow radix2 (-20) <= rnd (nth 1 t 0 - nth 0 t 0) <= bpow radix2 20 ->
  monotonic_increasing_constant_step (N:=NB) (F t) = Ok true -> fft_is x re im ->
  let m := (length t / 2 + 1)%nat in let n := INR (length t) in
  exists s, length s = m /\ floats s /\ nonneg s
    /\ (forall k, (k < m)%nat -> let g := 2 * (re k * re k + im k * im k) / (n * n) in Rabs (fdf t * nth k s 0 - g) <= 10 * u53 * g + bpow radix2 (-960))
    /\ compute_spectrum_time_series (N:=NB) (Arr (vec (F t))) (Arr (vec (F x))) (Fin 0) = Ok (F (favg m (fdf t) 1 m), F s).
Proof.
  intros Lx H2 Hn Hdt Hmono HX m n. destruct (fdf_bounds t ltac:(lia) Hn Hdt) as (HT & D1 & D2). set (D := fdf t) in *.
  assert (PD := b_pos (-50)).
  assert (Hm : (2 <= m <= length t)%nat).
  { unfold m. assert (DM := Nat.div_mod (length t) 2 ltac:(lia)). assert (M := Nat.mod_upper_bound (length t) 2 ltac:(lia)). lia. }
  assert (F0 : nth 0 (fax m D) 0 = 0).
  { unfold fax. destruct m; [lia|]. cbn [seq map nth]. unfold fk. cbn [INR]. rewrite Rmult_0_l. apply rnd_id, float_0. }
  assert (F1 : nth 1 (fax m D) 0 = D).
  { unfold fax. destruct m as [|[|k]]; [lia|lia|]. cbn [seq map nth]. unfold fk. change (INR 1) with 1. rewrite Rmult_1_l.
    apply rnd_id. unfold D, fdf. apply rnd_float. }
  assert (Lf : length (fax m D) = m) by (unfold fax; rewrite map_length, seq_length; reflexivity).
  assert (Fd : is_float D) by (unfold D, fdf; apply rnd_float).
  assert (Dd : rnd (D - 0) = D) by (rewrite Rminus_0_r; apply rnd_id, Fd).
  assert (N1 : 1 <= n) by (apply (le_INR 1); lia).
  set (X := slice 0 m (fft (N:=NB) (map (cofr (N:=NB)) (F x)))).
  assert (LX : length X = m).
  { unfold X. rewrite slice_length. unfold fft. rewrite !map_length, seq_length, F_length. lia. }
  destruct (var_dens_list D n X) as (sf & Esf & Lsf & Fsf & Psf).
  { apply Rlt_le_trans with D; [lra|]. assert (D <= rnd (D * n)) by (apply rnd_ge_float; [exact Fd|nra]).
    apply rnd_ge_float; [exact Fd|]. nra. }
  { intros z Hz. unfold X, slice in Hz. apply firstn_In in Hz. apply skipn_In in Hz. apply (fft_finite x), Hz. }
  assert (Dsf : forall k, (k < m)%nat -> let g := 2 * (re k * re k + im k * im k) / (n * n) in Rabs (D * nth k sf 0 - g) <= 10 * u53 * g + bpow radix2 (-960)).
  { intros k Hk. destruct (dens_mix D n (re k) (im k) (length t) eq_refl ltac:(lia) Hn) as (v & Ev & Bv).
    { split; [eapply Rle_trans; [apply bpow_le|exact D1]; lia|eapply Rle_trans; [exact D2|apply bpow_le; lia]]. }
    assert (Xk : nth k X (Fin 0, Fin 0) = (Fin (re k), Fin (im k))).
    { unfold X. rewrite slice_nth by lia. cbn [Nat.add]. apply HX. lia. }
    assert (V : nth k (F sf) (var_dens (N:=NB) (Fin D) (Fin n) (Fin 0, Fin 0)) = Fin v).
    { rewrite <- Esf. etransitivity; [apply map_nth|]. rewrite Xk. exact Ev. }
    rewrite (nth_indep _ _ (Fin 0)) in V by (rewrite F_length; lia). rewrite F_nth in V. injection V as V. rewrite V. exact Bv. }
  assert (Ls : length sf = length (fax m D)) by lia.
  destruct (averaging_NB (fax m D) sf 0 (Arr (vec (F (fax m D)))) (Arr (vec (F sf)))) as (v & c & L & Ev & HL & Hc & Hcase & Eavg).
  - constructor.
  - constructor.
  - exact Ls.
  - lia.
  - lia.
  - rewrite F0, F1, Dd. lra.
  - rewrite Lf in Hc, Hcase.
    assert (V1 : v = 1).
    { unfold avg_factor in Ev. rewrite nb_0, nb_eqb, Reqb_true in Ev by reflexivity. cbn [negb] in Ev. rewrite bind_Ok, nb_1 in Ev.
      unfold pymax2 in Ev. rewrite nb_ltb, Rltb_false in Ev by lra. injection Ev as <-. reflexivity. }
    destruct Hcase as [[Hv Hcm]|[_ Hv]]; [|exfalso; lra].
    assert (L = 1%nat) as -> by (apply INR_eq; rewrite <- Hv, V1; reflexivity). rewrite Nat.div_1_r in Hcm. subst c.
    assert (Es : map (fun i => fmean (blk 1 sf i)) (seq 0 m) = sf).
    { apply nth_ext' with 0; [rewrite map_length, seq_length; lia|]. intros k Hk. rewrite map_length, seq_length in Hk.
      rewrite (nth_indep _ 0 ((fun i => fmean (blk 1 sf i)) 0%nat)) by (rewrite map_length, seq_length; lia). rewrite (map_nth (fun i => fmean (blk 1 sf i))), seq_nth by lia. cbn [Nat.add].
      assert (B1 : blk 1 sf k = [nth k sf 0]).
      { apply nth_ext' with 0; [rewrite blk_length by lia; reflexivity|]. intros i Hi. rewrite blk_length in Hi by lia.
        unfold blk. rewrite slice_nth by lia. replace i with 0%nat by lia. cbn [nth]. f_equal. lia. }
      rewrite B1. unfold fmean. rewrite fsum_one. cbn [length INR]. unfold Rdiv. rewrite Rinv_1, Rmult_1_r. apply rnd_id, Fsf, nth_In. lia. }
    rewrite Es in Eavg.
    exists sf. split; [lia|]. split; [exact Fsf|]. split; [exact Psf|]. split; [exact Dsf|].
    unfold compute_spectrum_time_series. fold m D in Eavg.
    assert (NQ := nyquist_NB t x Lx H2 ltac:(lia) ltac:(lra) Hmono). fold m D in NQ.
    etransitivity; [apply (f_equal (fun r => bind r _) NQ)|]. rewrite bind_Ok. rewrite !idx_F, !bind_Ok by lia.
    cbv zeta. rewrite F0, F1, nb_sub, Dd.
    assert (Al : alen (@Arr (car NB) (vec (F t))) = length t) by (unfold alen; cbn; rewrite F_length; reflexivity).
    etransitivity; [|exact Eavg]. rewrite <- Esf. unfold n. rewrite <- nb_ofnat by lia. rewrite <- Al. reflexivity.
Qed.

(** the accuracy of the FFT routine on a record: the error of all coefficients together is at most eta times their 2-norm *)
Definition fft_accurate (eta : R) (x : list R) (re im : nat -> R) : Prop :=
  RS (length x) (fun k => (re k - fst (coef x k)) ^ 2 + (im k - snd (coef x k)) ^ 2) <= eta ^ 2 * RS (length x) (fun k => sq (coef x k)).

Lemma half_le (g : nat -> R) n : (2 <= n)%nat -> (forall k, (k <= n)%nat -> g (n - k)%nat = g k) -> (forall k, 0 <= g k) -> RS n g <= 2 * RS (n / 2 + 1) g.
Proof.
  intros H2 Hs Hp. destruct (half_sum g n Hs) as [Ho He]. replace (n / 2 + 1)%nat with (S (n / 2)) by lia. rewrite RS_shift. assert (P0 := Hp 0%nat).
  destruct (Nat.odd n); [rewrite Ho by reflexivity; lra|]. rewrite He by auto. assert (P := Hp (n / 2)%nat). lra.
Qed.
Lemma sq_error eta a b p q : 0 < eta ->
  Rabs ((a * a + b * b) - (p * p + q * q)) <= eta * (p * p + q * q) + (/ eta + 1) * ((a - p) ^ 2 + (b - q) ^ 2).
Proof.
  intros He. assert (K : forall y d, Rabs ((y + d) * (y + d) - y * y) <= eta * (y * y) + (/ eta + 1) * d ^ 2).
  { intros y d. replace ((y + d) * (y + d) - y * y) with (2 * y * d + d ^ 2) by ring. assert (0 <= d ^ 2) by apply pow2_ge_0. apply Rabs_le.
    assert (E1 : eta * (y * y) + (/ eta + 1) * d ^ 2 - (2 * y * d + d ^ 2) = eta * (y - d / eta) ^ 2) by (field; lra).
    assert (E2 : eta * (y * y) + (/ eta + 1) * d ^ 2 + (2 * y * d + d ^ 2) = eta * (y + d / eta) ^ 2 + 2 * d ^ 2) by (field; lra).
    assert (0 <= eta * (y - d / eta) ^ 2) by (apply Rmult_le_pos; [lra|apply pow2_ge_0]).
    assert (0 <= eta * (y + d / eta) ^ 2) by (apply Rmult_le_pos; [lra|apply pow2_ge_0]). lra. }
  assert (A := K p (a - p)). assert (B := K q (b - q)). replace (p + (a - p)) with a in A by ring. replace (q + (b - q)) with b in B by ring.
  replace ((a * a + b * b) - (p * p + q * q)) with ((a * a - p * p) + (b * b - q * q)) by ring. eapply Rle_trans; [apply Rabs_triang|]. lra.
Qed.

(** variance per bin: exact, and of the spectrum as computed *)
Definition bin (x : list R) (k : nat) : R := 2 * sq (coef x k) / (INR (length x) * INR (length x)).
Lemma sq_nonneg z : 0 <= sq z. Proof. unfold sq. assert (A := Rle_0_sqr (fst z)). assert (B := Rle_0_sqr (snd z)). unfold Rsqr in *. lra. Qed.
Lemma bin_nonneg x k : 0 <= bin x k.
Proof. unfold bin. assert (S := sq_nonneg (coef x k)). assert (P := pos_INR (length x)). unfold Rdiv. destruct P as [P|P]; [apply Rmult_le_pos; [lra|apply Rlt_le, Rinv_0_lt_compat; nra]|rewrite <- P, Rmult_0_l, Rinv_0; lra]. Qed.

Lemma bins_close (eta D : R) (x s : list R) (re im : nat -> R) : (2 <= length x)%nat -> (Z.of_nat (length x) <= 2 ^ 30)%Z -> 0 < eta <= / 1024 ->
  fft_accurate eta x re im -> (exists v, In v x /\ bpow radix2 (-300) <= Rabs v) ->
  let m := (length x / 2 + 1)%nat in let n := INR (length x) in
  (forall k, (k < m)%nat -> let g := 2 * (re k * re k + im k * im k) / (n * n) in Rabs (D * nth k s 0 - g) <= 10 * u53 * g + bpow radix2 (-960)) ->
  bpow radix2 (-640) <= RS m (bin x) /\ RS m (fun k => Rabs (D * nth k s 0 - bin x k)) <= (4 * eta + 2 * eta ^ 2 + 12 * u53) * RS m (bin x).
Proof.
  intros H2 Hn Heta HF (v & Hv & Bv) m n Hs. assert (U := u53_val).
  assert (N2 : 2 <= n) by (apply (le_INR 2); lia). assert (N30 : n <= 1073741824) by (unfold n; rewrite INR_IZR_INZ; apply IZR_le; lia).
  assert (Nn : 0 < n * n) by nra. assert (Hm : (m <= length x)%nat).
  { unfold m. assert (DM := Nat.div_mod (length x) 2 ltac:(lia)). assert (M := Nat.mod_upper_bound (length x) 2 ltac:(lia)). lia. }
  set (P := RS (length x) (fun k => sq (coef x k))). unfold fft_accurate in HF. fold P in HF.
  assert (HP : P <= n * n * RS m (bin x)).
  { unfold P. eapply Rle_trans; [apply half_le; [lia|intros k Hk; apply sq_coef_mirror; lia|intros k; apply sq_nonneg]|]. fold m.
    right. rewrite <- !RS_scal. apply RS_ext. intros k Hk. unfold bin. fold n. field. lra. }
  set (Tot := RS m (bin x)) in *. assert (PT : 0 <= Tot) by (apply RS_nonneg; intros; apply bin_nonneg).
  assert (PP : 0 <= P) by (apply RS_nonneg; intros; apply sq_nonneg).
  assert (Low : bpow radix2 (-640) <= Tot).
  { assert (Nx : x <> []) by (destruct x; [cbn in H2; lia|discriminate]).
    assert (Pv := parseval_R x Nx). fold P n in Pv.
    assert (V2 : bpow radix2 (-600) <= RS (length x) (fun j => nth j x 0 ^ 2)).
    { apply (In_nth _ _ 0) in Hv. destruct Hv as (j & Hj & Ej).
      eapply Rle_trans; [|apply (RS_term (length x) (fun j => nth j x 0 ^ 2) j Hj); intros; apply pow2_ge_0]. rewrite Ej, <- pow2_abs.
      change (-600)%Z with (-300 + -300)%Z. rewrite bpow_plus. assert (B := b_pos (-300)). cbn [pow]. rewrite Rmult_1_r. apply Rmult_le_compat; lra. }
    assert (B600 := b_pos (-600)). assert (E640 : bpow radix2 (-640) * bpow radix2 40 = bpow radix2 (-600)) by (rewrite <- bpow_plus; reflexivity).
    assert (B640 := b_pos (-640)). assert (B40 : bpow radix2 40 = 1099511627776) by (cbn; lra).
    apply Rmult_le_reg_l with (n * n); [exact Nn|]. eapply Rle_trans; [|exact HP]. rewrite Pv, Rmult_assoc. apply Rmult_le_compat_l; [lra|].
    eapply Rle_trans; [|exact V2]. rewrite <- E640. rewrite (Rmult_comm n). apply Rmult_le_compat_l; lra. }
  split; [exact Low|].
  set (gh := fun k => 2 * (re k * re k + im k * im k) / (n * n)).
  assert (Ge : RS m (fun k => Rabs (gh k - bin x k)) <= (4 * eta + 2 * eta ^ 2) * Tot).
  { set (dd := fun k => (re k - fst (coef x k)) ^ 2 + (im k - snd (coef x k)) ^ 2) in *.
    assert (Pw : forall k, Rabs (gh k - bin x k) <= 2 / (n * n) * (eta * sq (coef x k) + (/ eta + 1) * dd k)).
    { intros k. replace (gh k - bin x k) with (2 / (n * n) * ((re k * re k + im k * im k) - (fst (coef x k) * fst (coef x k) + snd (coef x k) * snd (coef x k)))) by (unfold gh, bin, sq; fold n; field; lra).
      rewrite Rabs_mult, (Rabs_pos_eq (2 / (n * n))) by (apply Rmult_le_pos; [lra|apply Rlt_le, Rinv_0_lt_compat, Nn]).
      apply Rmult_le_compat_l; [apply Rmult_le_pos; [lra|apply Rlt_le, Rinv_0_lt_compat, Nn]|]. apply sq_error. lra. }
    assert (Pq : forall k, 0 <= 2 / (n * n) * (eta * sq (coef x k) + (/ eta + 1) * dd k)) by (intros k; eapply Rle_trans; [apply Rabs_pos|apply Pw]).
    apply Rle_trans with (RS (length x) (fun k => 2 / (n * n) * (eta * sq (coef x k) + (/ eta + 1) * dd k))).
    { eapply Rle_trans; [apply RS_le; intros k Hk; apply Pw|]. replace (length x) with (m + (length x - m))%nat by lia. rewrite RS_add.
      assert (0 <= RS (length x - m) (fun k => 2 / (n * n) * (eta * sq (coef x (m + k)%nat) + (/ eta + 1) * dd (m + k)%nat))) by (apply RS_nonneg; intros; apply Pq). lra. }
    rewrite RS_scal, RS_plus, !RS_scal. fold P. assert (Pi : 0 < / eta) by (apply Rinv_0_lt_compat; lra).
    apply Rle_trans with (2 / (n * n) * ((2 * eta + eta ^ 2) * P)).
    - apply Rmult_le_compat_l; [apply Rmult_le_pos; [lra|apply Rlt_le, Rinv_0_lt_compat, Nn]|].
      assert ((/ eta + 1) * RS (length x) dd <= (/ eta + 1) * (eta ^ 2 * P)) by (apply Rmult_le_compat_l; [lra|exact HF]).
      replace ((/ eta + 1) * (eta ^ 2 * P)) with ((eta + eta ^ 2) * P) in H by (field; lra). lra.
    - replace ((4 * eta + 2 * eta ^ 2) * Tot) with (2 / (n * n) * ((2 * eta + eta ^ 2) * (n * n * Tot))) by (field; lra).
      apply Rmult_le_compat_l; [apply Rmult_le_pos; [lra|apply Rlt_le, Rinv_0_lt_compat, Nn]|]. apply Rmult_le_compat_l; [nra|exact HP]. }
  assert (Gt : RS m gh <= Tot + (4 * eta + 2 * eta ^ 2) * Tot).
  { eapply Rle_trans; [|apply Rplus_le_compat_l, Ge]. unfold Tot. rewrite <- RS_plus. apply RS_le. intros k Hk. assert (A := Rle_abs (gh k - bin x k)). lra. }
  assert (Tri : RS m (fun k => Rabs (D * nth k s 0 - bin x k)) <= RS m (fun k => 10 * u53 * gh k + bpow radix2 (-960)) + RS m (fun k => Rabs (gh k - bin x k))).
  { rewrite <- RS_plus. apply RS_le. intros k Hk. replace (D * nth k s 0 - bin x k) with ((D * nth k s 0 - gh k) + (gh k - bin x k)) by ring.
    eapply Rle_trans; [apply Rabs_triang|]. apply Rplus_le_compat_r. apply Hs, Hk. }
  eapply Rle_trans; [exact Tri|]. rewrite RS_plus, RS_scal, RS_const.
  assert (Sm : INR m * bpow radix2 (-960) <= u53 / 2 * Tot).
  { assert (Im : INR m <= n) by (apply le_INR, Hm). assert (B960 := b_pos (-960)). assert (B640 := b_pos (-640)).
    assert (E : bpow radix2 (-960) = bpow radix2 (-640) * bpow radix2 (-320)) by (rewrite <- bpow_plus; reflexivity).
    assert (B320 : 1073741824 * bpow radix2 (-320) <= u53 / 2).
    { replace 1073741824 with (bpow radix2 30) by (cbn; lra). rewrite <- bpow_plus, U. replace (/ 9007199254740992 / 2) with (bpow radix2 (-54)) by (cbn; lra). apply bpow_le. lia. }
    assert (B3 := b_pos (-320)). assert (Pm := pos_INR m).
    apply Rle_trans with (1073741824 * (bpow radix2 (-640) * bpow radix2 (-320))); [rewrite E; apply Rmult_le_compat_r; [rewrite <- E|]; lra|].
    replace (1073741824 * (bpow radix2 (-640) * bpow radix2 (-320))) with (1073741824 * bpow radix2 (-320) * bpow radix2 (-640)) by ring.
    apply Rmult_le_compat; lra || nra. }
  assert (Q : 10 * u53 * RS m gh <= 10 * u53 * (Tot + (4 * eta + 2 * eta ^ 2) * Tot)) by (apply Rmult_le_compat_l; [rewrite U; lra|exact Gt]).
  assert (Es : 4 * eta + 2 * eta ^ 2 <= / 100) by nra.
  assert (Q2 : (4 * eta + 2 * eta ^ 2) * Tot <= / 100 * Tot) by (apply Rmult_le_compat_r; auto).
  assert (Uu : 0 < u53) by (rewrite U; lra).
  assert (Q3 : 10 * u53 * (Tot + (4 * eta + 2 * eta ^ 2) * Tot) <= 11 * (u53 * Tot)).
  { replace (10 * u53 * (Tot + (4 * eta + 2 * eta ^ 2) * Tot)) with (10 * (u53 * Tot) + 10 * (u53 * ((4 * eta + 2 * eta ^ 2) * Tot))) by ring.
    assert (u53 * ((4 * eta + 2 * eta ^ 2) * Tot) <= u53 * (/ 100 * Tot)) by (apply Rmult_le_compat_l; lra). assert (0 <= u53 * Tot) by (apply Rmult_le_pos; lra). lra. }
  assert (0 <= u53 * Tot) by (apply Rmult_le_pos; lra). lra.
Qed.

(** ** Hm0 from a zeroth moment with a relative error *)
Lemma height_error e M r : bpow radix2 (-700) <= M -> 0 <= e <= 1 / 25 -> Rabs (r - M) <= e * M ->
  0 < r /\ Rabs (rnd (4 * rnd (sqrt r)) - 4 * sqrt M) <= (10 / 19 * e + 3 * u53) * (4 * sqrt M).
Proof.
  intros HM He Hr. assert (B := b_pos (-700)). apply Rabs_le_inv in Hr. assert (U := u53_val).
  assert (R0 : 24 / 25 * M <= r) by nra. split; [lra|].
  set (p := sqrt M) in *. set (q := sqrt r) in *. assert (Pp : 0 < p) by (apply sqrt_lt_R0; lra). assert (Pq : 0 <= q) by apply sqrt_pos.
  assert (Ep : p * p = M) by (apply sqrt_sqrt; lra). assert (Eq : q * q = r) by (apply sqrt_sqrt; lra).
  assert (Q1 : 9 / 10 * p <= q) by (apply Rsqr_incr_0_var; [unfold Rsqr; nra|exact Pq]).
  assert (Q2 : - (10 / 19 * e * p) <= q - p <= 10 / 19 * e * p).
  { assert (A : (q - p) * (q + p) = r - M) by (rewrite <- Ep, <- Eq; ring). split; apply Rmult_le_reg_r with (q + p); try lra; rewrite A.
    - assert (19 / 10 * p <= q + p) by lra. assert (0 <= 10 / 19 * e * p) by (repeat apply Rmult_le_pos; lra).
      assert (10 / 19 * e * p * (19 / 10 * p) <= 10 / 19 * e * p * (q + p)) by (apply Rmult_le_compat_l; auto). nra.
    - assert (19 / 10 * p <= q + p) by lra. assert (0 <= 10 / 19 * e * p) by (repeat apply Rmult_le_pos; lra).
      assert (10 / 19 * e * p * (19 / 10 * p) <= 10 / 19 * e * p * (q + p)) by (apply Rmult_le_compat_l; auto). nra. }
  assert (P2 : bpow radix2 (-350) <= p).
  { unfold p. rewrite <- (sqrt_Rsqr (bpow radix2 (-350))) by apply bpow_ge_0. apply sqrt_le_1_alt. unfold Rsqr. rewrite <- bpow_plus. exact HM. }
  assert (B2 : bpow radix2 (-1020) <= q).
  { apply Rle_trans with (bpow radix2 (-351)); [apply bpow_le; lia|]. change (-351)%Z with (-1 + -350)%Z. rewrite bpow_plus. replace (bpow radix2 (-1)) with (/ 2) by (cbn; lra). lra. }
  assert (B0 := b_pos (-1020)).
  destruct (rnd_rel q B2) as [S1 S2]. fold u53 in S1, S2. set (k := rnd q) in *.
  assert (K1 : q / 2 <= k) by nra.
  assert (B4 : bpow radix2 (-1020) <= 4 * k) by lra. destruct (rnd_rel (4 * k) B4) as [T1 T2]. fold u53 in T1, T2. set (H := rnd (4 * k)) in *.
  assert (He' : 0 <= e * p <= p / 25) by (split; [apply Rmult_le_pos; lra|]; nra).
  assert (Qp : q <= 11 / 10 * p) by lra.
  rewrite U in *. apply Rabs_le. split; lra.
Qed.

(** ** The exact spectrum of the same record *)
Lemma series_fields_NX (t x : list R) (se : series NX) : t <> [] -> x <> [] ->
  series_init (N:=NX) (Arr (vec (F t))) (Arr (vec (F x))) = Ok se -> se_t se = F t /\ se_x se = F x /\ length x = length t.
Proof.
  intros Nt Nx H. assert (Nt' : F t <> []) by (destruct t; [contradiction|discriminate]). assert (Nx' : F x <> []) by (destruct x; [contradiction|discriminate]).
  destruct (@hv_convert (car NX) (F t) (Arr (vec (F t))) Nt' (hv_flat _)) as (kt & _ & Et).
  destruct (@hv_convert (car NX) (F x) (Arr (vec (F x))) Nx' (hv_flat _)) as (kx & _ & Ex).
  unfold series_init in H. rewrite Et, Ex in H. cbn [fst snd] in H. rewrite !F_length in H.
  destruct (Nat.eqb_spec (length t) (length x)) as [L|]; cbn [negb] in H; [|discriminate H].
  rewrite !as_list_vec, bind_Ok in H. destruct (negb _); [discriminate H|]. rewrite bind_Ok in H.
  apply bind_inv in H. destruct H as ([[ws tc] q] & _ & H). apply Ok_inj in H. subst se. cbn. auto.
Qed.
Lemma raw_NX (t x : list R) (se : series NX) : good_axis t -> x <> [] -> series_init (N:=NX) (Arr (vec (F t))) (Arr (vec (F x))) = Ok se ->
  series_spectrum_raw (N:=NX) se (Fin 0) = Ok (fresh (N:=NX) (F (freqs (dfreq t) (nnyq (length x)))) (F (fine_density t x))).
Proof.
  intros Hg Nx Hse. assert (H2 := proj1 Hg). assert (Nt : t <> []) by (destruct t; [cbn in H2; lia|discriminate]).
  destruct (series_fields_NX t x se Nt Nx Hse) as (Et & Ex & Lt). unfold series_spectrum_raw. rewrite Et, Ex.
  assert (Hq := nnyq_le (length x) ltac:(lia)). assert (Hd := dfreq_pos t Hg).
  rewrite (spectrum_eq t x) by (auto using hv_flat).
  rewrite (C24_identity (freqs (dfreq t) (nnyq (length x))) (fine_density t x));
    [|rewrite freqs_length; lia|rewrite step_freqs by lia; lra|rewrite freqs_length, fine_length; auto|apply hv_flat|apply hv_flat].
  rewrite bind_Ok. apply (C63_object (freqs (dfreq t) (nnyq (length x))) (fine_density t x)).
  - rewrite freqs_length. lia.
  - intros E. apply (f_equal (@length R)) in E. rewrite fine_length in E. cbn in E. lia.
  - apply hv_flat.
  - apply hv_flat.
  - rewrite freqs_axis. apply axis_good; auto; lia.
  - rewrite fine_length, freqs_length. auto.
Qed.
Lemma fdf_close (t : list R) : good_axis t -> (Z.of_nat (length t) <= 2 ^ 30)%Z ->
  bpow radix2 (-20) <= rnd (nth 1 t 0 - nth 0 t 0) <= bpow radix2 20 -> rel 5 (dfreq t) (fdf t).
Proof.
  intros Hg Hn [A B]. assert (H2 := proj1 Hg). unfold fdf, dfreq, step. set (dt := nth 1 t 0 - nth 0 t 0) in *.
  assert (N1 : 1 <= INR (length t)) by (apply (le_INR 1); lia). assert (N30 : INR (length t) <= 1073741824) by (rewrite INR_IZR_INZ; apply IZR_le; lia).
  assert (P := b_pos (-20)). assert (P' := b_pos (-22)). assert (E22 : bpow radix2 (-20) = 4 * bpow radix2 (-22)) by (cbn; lra). assert (E20 : bpow radix2 20 = 1048576) by (cbn; lra).
  assert (L : bpow radix2 (-22) <= dt).
  { destruct (Rle_lt_dec (bpow radix2 (-22)) dt) as [H|H]; [exact H|exfalso].
    assert (rnd dt <= bpow radix2 (-22)) by (apply rnd_le_float; [apply float_bpow; lia|lra]). lra. }
  assert (Hi : dt <= bpow radix2 22).
  { destruct (Rle_lt_dec dt (bpow radix2 22)) as [H|H]; [exact H|exfalso].
    assert (bpow radix2 22 <= rnd dt) by (apply rnd_ge_float; [apply float_bpow; lia|lra]). assert (bpow radix2 22 = 4194304) by (cbn; lra). lra. }
  assert (Th : forall r, bpow radix2 (-60) <= r -> thr r) by (intros r Hr; right; eapply Rle_trans; [apply bpow_le|exact Hr]; lia).
  assert (B60 : bpow radix2 (-60) <= bpow radix2 (-22)) by (apply bpow_le; lia).
  assert (R1 : rel 1 dt (rnd dt)) by (apply rel_rnd; [lia|apply Th; lra|apply rel_refl]).
  assert (G : dt <= INR (length t) * dt) by nra.
  assert (R2 : rel 2 (INR (length t) * dt) (rnd (INR (length t) * rnd dt))).
  { apply rel_rnd; [lia|apply Th; lra|]. apply (rel_mul 0 1); [lra|lra|apply rel_refl|exact R1]. }
  assert (PT : 0 < INR (length t) * dt) by lra.
  assert (R4 := rel_inv 2 _ _ PT R2). cbn [Nat.mul Nat.add] in R4. set (T := rnd (INR (length t) * rnd dt)) in *.
  replace (1 / T) with (/ T) by (unfold Rdiv; ring). apply rel_rnd; [lia| |exact R4]. apply Th.
  apply Rmult_le_reg_r with (INR (length t) * dt); [exact PT|]. rewrite Rinv_l by lra.
  apply Rle_trans with (bpow radix2 (-60) * (bpow radix2 30 * bpow radix2 22)).
  - apply Rmult_le_compat_l; [apply bpow_ge_0|]. apply Rmult_le_compat; [lra|lra|replace (bpow radix2 30) with 1073741824 by (cbn; lra); exact N30|exact Hi].
  - rewrite <- !bpow_plus. cbn. lra.
Qed.

Definition spectral_error (eta : R) : R := 5 * eta + 1 / 2 ^ 48.
Definition height_error_bound (eta : R) (n : nat) : R := 10 * eta + (INR n + 7) / 2 ^ 49.

(** (a) The spectrum: every frequency has a relative error of at most 2^-50, and the errors of all densities together are at most
    5 eta + 2^-48 times their sum *)
Theorem C91_spectrum (t x : list R) (eta : R) (re im : nat -> R) (se : series NB) (sx : series NX) (sp : spec NB) :
  good_axis t -> x <> [] -> (Z.of_nat (length t) <= 2 ^ 30)%Z -> bpow radix2 (-20) <= rnd (nth 1 t 0 - nth 0 t 0) <= bpow radix2 20 ->
  (exists v, In v x /\ bpow radix2 (-300) <= Rabs v) ->
  0 < eta <= / 1024 -> fft_is x re im -> fft_accurate eta x re im ->
  series_init (N:=NB) (Arr (vec (F t))) (Arr (vec (F x))) = Ok se -> series_spectrum_raw (N:=NB) se (Fin 0) = Ok sp ->
  series_init (N:=NX) (Arr (vec (F t))) (Arr (vec (F x))) = Ok sx ->
  exists f s f' s' spx,
    series_spectrum_raw (N:=NX) sx (Fin 0) = Ok spx /\ s_f sp = F f /\ s_S sp = F s /\ s_f spx = F f' /\ s_S spx = F s'
    /\ length f = (length t / 2 + 1)%nat /\ length s = length f /\ length f' = length f /\ length s' = length f
    /\ (forall k, (k < length f)%nat -> Rabs (nth k f 0 - nth k f' 0) <= nth k f' 0 / 2 ^ 50)
    /\ RS (length s) (fun k => Rabs (nth k s 0 - nth k s' 0)) <= spectral_error eta * RS (length s) (fun k => nth k s' 0).
Proof.
  intros Hg Nx Hn Hdt Hv Heta HX HF Hse Hsp Hsx. assert (H2 := proj1 Hg). assert (Nt : t <> []) by (destruct t; [cbn in H2; lia|discriminate]).
  destruct (series_fields_NB t x se Nt Nx Hse) as (Et & Ex & Lx).
  unfold series_spectrum_raw in Hsp. rewrite Et, Ex in Hsp. apply bind_inv in Hsp. destruct Hsp as ([fc sc] & Hs & Hsp).
  assert (Hmono := check_of_spectrum t x 0 _ H2 Lx Hs).
  destruct (raw_NB t x re im Lx H2 Hn Hdt Hmono HX) as (s & Ls & Fs & Ps & Ds & E).
  assert (E' := eq_trans (eq_sym E) Hs). injection E' as <- <-. clear E Hs.
  destruct (fdf_bounds t ltac:(lia) Hn Hdt) as (_ & D1 & D2). assert (RD := fdf_close t Hg Hn Hdt). set (D := fdf t) in *. set (m := (length t / 2 + 1)%nat) in *.
  assert (Hm : (2 <= m <= length t)%nat).
  { unfold m. assert (DM := Nat.div_mod (length t) 2 ltac:(lia)). assert (M := Nat.mod_upper_bound (length t) 2 ltac:(lia)). lia. }
  assert (Lf : length (favg m D 1 m) = m) by apply favg_length.
  assert (Nf : favg m D 1 m <> []) by (intros Q; rewrite Q in Lf; cbn in Lf; lia).
  assert (Ns : s <> []) by (intros Q; rewrite Q in Ls; cbn in Ls; lia).
  destruct (spectrum_fields_NB (favg m D 1 m) s sp Nf Ns Hsp) as (Ef & Es & Lfs & Ck).
  assert (SX := raw_NX t x sx Hg Nx Hsx). assert (Em : nnyq (length x) = m) by (unfold nnyq, m; rewrite Lx; reflexivity). rewrite Em in SX.
  set (df := dfreq t) in *. assert (Pdf : 0 < df) by (apply dfreq_pos, Hg). assert (PD := b_pos (-50)).
  exists (favg m D 1 m), s, (freqs df m), (fine_density t x), (fresh (N:=NX) (F (freqs df m)) (F (fine_density t x))).
  split; [exact SX|]. split; [exact Ef|]. split; [exact Es|]. split; [reflexivity|]. split; [reflexivity|].
  split; [exact Lf|]. split; [lia|]. split; [rewrite freqs_length; lia|]. split; [rewrite fine_length; lia|].
  assert (U := u53_val). split.
  - intros k Hk. rewrite Lf in Hk. rewrite raw_axis_nth by exact Hk.
    assert (Fk : nth k (freqs df m) 0 = INR k * df) by (rewrite freqs_axis, axis_nth by exact Hk; ring). rewrite Fk.
    assert (Pk := pos_INR k). assert (R6 : rel 6 (INR k * df) (fk D k)).
    { destruct k as [|k]; [unfold fk; cbn [INR]; rewrite !Rmult_0_l, (rnd_id 0) by apply float_0; unfold rel; lra|].
      assert (1 <= INR (S k)) by (apply (le_INR 1); lia). unfold fk. apply rel_rnd; [lia| |apply (rel_mul 0 5); [lra|lra|apply rel_refl|exact RD]].
      right. assert (A := rel_abs 5 df D ltac:(lia) ltac:(lra) RD). replace (INR 5) with 5 in A by (cbn; lra). apply Rabs_le_inv in A.
      assert (D <= 2 * df) by (rewrite U in A; lra). apply Rle_trans with (bpow radix2 (-51)); [apply bpow_le; lia|].
      change (-51)%Z with (-1 + -50)%Z. rewrite bpow_plus. replace (bpow radix2 (-1)) with (/ 2) by (cbn; lra). nra. }
    assert (A := rel_abs 6 (INR k * df) (fk D k) ltac:(lia) ltac:(apply Rmult_le_pos; lra) R6). replace (INR 6) with 6 in A by (cbn; lra).
    eapply Rle_trans; [exact A|]. assert (0 <= INR k * df) by (apply Rmult_le_pos; lra). rewrite U. lra.
  - assert (Hn' : (Z.of_nat (length x) <= 2 ^ 30)%Z) by lia.
    destruct (bins_close eta D x s re im ltac:(lia) Hn' Heta HF Hv) as [_ Bc]; [rewrite Lx; exact Ds|]. rewrite Lx in Bc. fold m in Bc. rewrite Ls.
    assert (G : forall k, (k < m)%nat -> bin x k = df * nth k (fine_density t x) 0).
    { intros k Hk. rewrite fine_nth by (rewrite Em; exact Hk). unfold bin, DensityProps.dens. fold df. assert (0 < INR (length x)) by (apply lt_0_INR; lia). field. lra. }
    rewrite (RS_ext m (bin x) (fun k => df * nth k (fine_density t x) 0)) in Bc by exact G. rewrite RS_scal in Bc.
    assert (P' : forall k, (k < m)%nat -> 0 <= nth k (fine_density t x) 0).
    { intros k Hk. assert (B := bin_nonneg x k). rewrite (G k Hk) in B. nra. }
    set (Tot := RS m (fun k => nth k (fine_density t x) 0)) in *. assert (PT : 0 <= Tot) by (apply RS_nonneg; exact P').
    assert (A := rel_abs 5 df D ltac:(lia) ltac:(lra) RD). replace (INR 5) with 5 in A by (cbn; lra). apply Rabs_le_inv in A.
    apply Rmult_le_reg_l with D; [lra|]. rewrite <- RS_scal.
    apply Rle_trans with (RS m (fun k => Rabs (D * nth k s 0 - bin x k)) + RS m (fun k => 1001 / 1000 * (5 * u53) * df * nth k (fine_density t x) 0)).
    + rewrite <- RS_plus. apply RS_le. intros k Hk. rewrite <- (Rabs_pos_eq D) at 1 by lra. rewrite <- Rabs_mult.
      replace (D * (nth k s 0 - nth k (fine_density t x) 0)) with ((D * nth k s 0 - bin x k) + (df - D) * nth k (fine_density t x) 0) by (rewrite (G k Hk); ring).
      eapply Rle_trans; [apply Rabs_triang|]. apply Rplus_le_compat_l. rewrite Rabs_mult, (Rabs_pos_eq (nth k (fine_density t x) 0)) by auto.
      apply Rmult_le_compat_r; [auto|]. apply Rabs_le. lra.
    + rewrite RS_scal. fold Tot. eapply Rle_trans; [apply Rplus_le_compat_r, Bc|]. unfold spectral_error.
      replace ((4 * eta + 2 * eta ^ 2 + 12 * u53) * (df * Tot) + 1001 / 1000 * (5 * u53) * df * Tot) with ((4 * eta + 2 * eta ^ 2 + 12 * u53 + 1001 / 1000 * (5 * u53)) * df * Tot) by ring.
      rewrite <- (Rmult_assoc D). apply Rmult_le_compat_r; [exact PT|].
      assert (L1 : df * (999 / 1000) <= D) by (rewrite U in A; lra).
      apply Rle_trans with (df * (999 / 1000) * (5 * eta + 1 / 2 ^ 48)); [|apply Rmult_le_compat_r; [lra|exact L1]].
      replace (df * (999 / 1000) * (5 * eta + 1 / 2 ^ 48)) with (999 / 1000 * (5 * eta + 1 / 2 ^ 48) * df) by ring. apply Rmult_le_compat_r; [lra|]. rewrite U. nra.
Qed.

(** (b) Hm0 with the default limits: a relative error of at most 10 eta + (n + 7) / 2^49 for a record of n samples *)
Theorem C91_height (t x : list R) (eta : R) (re im : nat -> R) (se : series NB) (sx : series NX) (sp : spec NB) :
  good_axis t -> x <> [] -> (4 <= length t)%nat -> (Z.of_nat (length t) <= 2 ^ 30)%Z -> bpow radix2 (-20) <= rnd (nth 1 t 0 - nth 0 t 0) <= bpow radix2 20 ->
  (exists v, In v x /\ bpow radix2 (-300) <= Rabs v) ->
  0 < eta <= / 1024 -> fft_is x re im -> fft_accurate eta x re im ->
  series_init (N:=NB) (Arr (vec (F t))) (Arr (vec (F x))) = Ok se -> series_spectrum_raw (N:=NB) se (Fin 0) = Ok sp ->
  series_init (N:=NX) (Arr (vec (F t))) (Arr (vec (F x))) = Ok sx ->
  exists spx H H',
    series_spectrum_raw (N:=NX) sx (Fin 0) = Ok spx /\ snd (get_Hm0 (N:=NX) (Fin (-1)) (Fin (-1)) spx) = Ok (Fin H)
    /\ snd (get_Hm0 (N:=NB) (Fin (-1)) (Fin (-1)) sp) = Ok (Fin H') /\ 0 < H /\ Rabs (H' - H) <= height_error_bound eta (length t) * H.
Proof.
  intros Hg Nx H4 Hn Hdt Hv Heta HX HF Hse Hsp Hsx. assert (H2 := proj1 Hg). assert (Nt : t <> []) by (destruct t; [cbn in H2; lia|discriminate]).
  destruct (series_fields_NB t x se Nt Nx Hse) as (Et & Ex & Lx).
  unfold series_spectrum_raw in Hsp. rewrite Et, Ex in Hsp. apply bind_inv in Hsp. destruct Hsp as ([fc sc] & Hs & Hsp).
  assert (Hmono := check_of_spectrum t x 0 _ H2 Lx Hs).
  destruct (raw_NB t x re im Lx H2 Hn Hdt Hmono HX) as (s & Ls & Fs & Ps & Ds & E).
  assert (E' := eq_trans (eq_sym E) Hs). injection E' as <- <-. clear E Hs.
  destruct (fdf_bounds t ltac:(lia) Hn Hdt) as (_ & D1 & D2). set (D := fdf t) in *. set (m := (length t / 2 + 1)%nat) in *.
  assert (Hm : (3 <= m <= length t)%nat /\ INR m <= INR (length t) / 2 + 1).
  { unfold m. assert (DM := Nat.div_mod (length t) 2 ltac:(lia)). assert (M := Nat.mod_upper_bound (length t) 2 ltac:(lia)). split; [lia|].
    rewrite plus_INR. change (INR 1) with 1. apply Rplus_le_compat_r. apply Rmult_le_reg_l with 2; [lra|]. replace (2 * (INR (length t) / 2)) with (INR (length t)) by field.
    change 2 with (INR 2). rewrite <- mult_INR. apply le_INR. lia. }
  destruct Hm as [Hm Im].
  assert (Lf : length (favg m D 1 m) = m) by apply favg_length.
  assert (Nf : favg m D 1 m <> []) by (intros Q; rewrite Q in Lf; cbn in Lf; lia).
  assert (Ns : s <> []) by (intros Q; rewrite Q in Ls; cbn in Ls; lia).
  destruct (spectrum_fields_NB (favg m D 1 m) s sp Nf Ns Hsp) as (Ef & Es & Lfs & Ck).
  assert (SX := raw_NX t x sx Hg Nx Hsx). assert (Em : nnyq (length x) = m) by (unfold nnyq, m; rewrite Lx; reflexivity). rewrite Em in SX.
  set (df := dfreq t) in *. assert (Pdf : 0 < df) by (apply dfreq_pos, Hg). assert (PD := b_pos (-50)).
  assert (Lfine : length (fine_density t x) = m) by (rewrite fine_length; exact Em).
  destruct (default_getters df (fine_density t x) Pdf ltac:(lia)) as (m_1 & m0 & m1 & m2 & q & T & _ & E0 & _ & _ & P0 & _). rewrite Lfine in E0, P0.
  assert (U := u53_val). assert (Uu : 0 < u53) by (rewrite U; lra).
  assert (Hn' : (Z.of_nat (length x) <= 2 ^ 30)%Z) by lia.
  destruct (bins_close eta D x s re im ltac:(lia) Hn' Heta HF Hv) as [Low Bc]; [rewrite Lx; exact Ds|]. rewrite Lx in Low, Bc. fold m in Low, Bc.
  assert (G : forall k, (k < m)%nat -> bin x k = df * nth k (fine_density t x) 0).
  { intros k Hk. rewrite fine_nth by (rewrite Em; exact Hk). unfold bin, DensityProps.dens. fold df. assert (0 < INR (length x)) by (apply lt_0_INR; lia). field. lra. }
  assert (EM : m0 = RS m (fun k => simpson_weight m k * bin x k)).
  { rewrite E0, <- RS_scal. apply RS_ext. intros k Hk. rewrite (G k Hk). ring. }
  set (Tot := RS m (bin x)) in *. assert (B640 := b_pos (-640)).
  assert (W := fun k => simpson_weight_bounds m k ltac:(lia)).
  assert (MT : Tot / 3 <= m0).
  { rewrite EM. unfold Tot, Rdiv. rewrite Rmult_comm, <- RS_scal. apply RS_le. intros k Hk. apply Rmult_le_compat_r; [apply bin_nonneg|]. assert (Wk := W k). lra. }
  (* the weighted sum of the computed bins *)
  set (b := fun k => D * nth k s 0). set (Wb := RS m (fun k => simpson_weight m k * b k)).
  set (De := 4 * eta + 2 * eta ^ 2 + 12 * u53) in *.
  assert (Pb : forall k, (k < m)%nat -> 0 <= b k) by (intros k Hk; unfold b; apply Rmult_le_pos; [lra|apply Ps, nth_In; lia]).
  assert (Wm : Rabs (Wb - m0) <= 4 * De * m0).
  { assert (K : Rabs (Wb - m0) <= RS m (fun k => 4 / 3 * Rabs (b k - bin x k))).
    { unfold Wb. rewrite EM, <- RS_minus. apply Rle_trans with (RS m (fun k => Rabs (simpson_weight m k * b k - simpson_weight m k * bin x k))).
      - apply Rabs_le. split; [|apply RS_le; intros; apply Rle_abs]. replace (- RS m (fun k => Rabs (simpson_weight m k * b k - simpson_weight m k * bin x k))) with (-1 * RS m (fun k => Rabs (simpson_weight m k * b k - simpson_weight m k * bin x k))) by ring.
        rewrite <- RS_scal. apply RS_le. intros k Hk. assert (A := Rle_abs (- (simpson_weight m k * b k - simpson_weight m k * bin x k))). rewrite Rabs_Ropp in A. lra.
      - apply RS_le. intros k Hk. rewrite <- Rmult_minus_distr_l, Rabs_mult. assert (Wk := W k). rewrite (Rabs_pos_eq (simpson_weight m k)) by lra. apply Rmult_le_compat_r; [apply Rabs_pos|lra]. }
    rewrite RS_scal in K. eapply Rle_trans; [exact K|]. assert (0 <= De) by (unfold De; nra).
    apply Rle_trans with (4 / 3 * (De * Tot)); [apply Rmult_le_compat_l; [lra|exact Bc]|]. assert (De * Tot <= De * (3 * m0)) by (apply Rmult_le_compat_l; lra). lra. }
  (* Simpson's rule on the axis as computed *)
  set (f := favg m D 1 m) in *. set (dd := 2 * INR m * u53).
  assert (N30 : INR (length t) <= 1073741824) by (rewrite INR_IZR_INZ; apply IZR_le; lia). assert (Pm := pos_INR m).
  assert (Dd : 0 <= dd <= 1 / 64) by (unfold dd; rewrite U; lra).
  assert (D60 : bpow radix2 (-60) <= D) by (eapply Rle_trans; [apply bpow_le|exact D1]; lia).
  assert (Sn := simp_near D dd f s ltac:(lra) Dd ltac:(lia) ltac:(lia) (raw_axis_near m D D60) Ps).
  rewrite usimp_weights in Sn by (auto; lra || lia). rewrite Ls in Sn.
  assert (EW : D * RS m (fun k => simpson_weight m k * nth k s 0) = Wb) by (unfold Wb, b; rewrite <- RS_scal; apply RS_ext; intros; ring). rewrite EW in Sn.
  assert (SW : D * Rsum s <= 3 * Wb).
  { rewrite Rsum_RS, Ls. unfold Wb. rewrite <- !RS_scal. apply RS_le. intros k Hk. fold (b k). assert (Wk := W k). assert (Bk := Pb k Hk). nra. }
  assert (Sn' : Rabs (rsimp f s - Wb) <= 27 * dd * Wb).
  { eapply Rle_trans; [exact Sn|]. replace (9 * dd * D * Rsum s) with (9 * dd * (D * Rsum s)) by ring. replace (27 * dd * Wb) with (9 * dd * (3 * Wb)) by ring. apply Rmult_le_compat_l; lra. }
  (* the rounded Simpson rule *)
  assert (HA : freq_axis_fl D f).
  { replace D with (INR 1 * D) by (change (INR 1) with 1; ring). apply favg_axis; [|lia|lia|lia|lia]. split; [exact D60|eapply Rle_trans; [exact D2|apply bpow_le; lia]]. }
  assert (Hx : exact_steps D f) by (intros i Hi; assert (Q := fa_steps _ _ HA i Hi); apply Rabs_le_inv in Q; unfold close; lra).
  assert (VM : values_mix 0 0 s s).
  { split; [reflexivity|]. intros i Hi. apply rel_mix; [apply Ps, nth_In, Hi|apply rel_refl]. }
  assert (SM := simpson_mix D 0 0 f s s ltac:(lra) (fa_sane _ _ HA) ltac:(lia) ltac:(lia) Hx Ps VM ltac:(lia) Nf).
  set (r := fsimp f s) in *. rewrite Lf in SM. cbn [Nat.add] in SM.
  assert (SL : slack m D 0 <= bpow radix2 (-900)).
  { unfold slack, tau. rewrite Rplus_0_l. assert (D <= 1048576) by (replace (bpow radix2 20) with 1048576 in D2 by (cbn; lra); exact D2).
    apply Rle_trans with (bpow radix2 109 * bpow radix2 (-1009)); [|rewrite <- bpow_plus; apply bpow_le; lia]. apply Rmult_le_compat_r; [apply bpow_ge_0|].
    apply Rle_trans with (40 * 1073741825 * 1048577); [|cbn; lra]. apply Rmult_le_compat; [lra|lra|lra|lra]. }
  assert (S900 : bpow radix2 (-900) <= u53 * m0).
  { apply Rle_trans with (u53 * (bpow radix2 (-640) / 3)); [|apply Rmult_le_compat_l; lra]. rewrite U.
    apply Rle_trans with (bpow radix2 (-640) * bpow radix2 (-60)); [rewrite <- bpow_plus; apply bpow_le; lia|]. replace (bpow radix2 (-60)) with (/ 1152921504606846976) by (cbn; lra). lra. }
  set (A := 2 * (INR (S (S (S (S (S (S (S (S (S (S (S (S (S (S (S (S (S (S (S (S (S (S (S (S (S (S m)))))))))))))))))))))))))) * u53)) in *.
  assert (EA : A = 2 * ((INR m + 26) * u53)) by (unfold A; rewrite !S_INR; ring). clearbody A.
  assert (Pw : 0 <= m0) by lra.
  assert (De1 : 0 <= De <= 41 / 10 * eta + 12 * u53) by (unfold De; split; nra).
  assert (Sd : dd = 2 * (INR m * u53)) by (unfold dd; ring).
  set (mu := INR m * u53) in *. assert (Mu : 0 <= mu <= / 10000000) by (unfold mu; rewrite U; lra).
  assert (Fin1 : Rabs (r - m0) <= (17 * eta + 58 * mu + 130 * u53) * m0).
  { clear - Wm Sn' SM SL S900 EA De1 Sd Mu Pw Uu U Heta. apply Rabs_le_inv in Wm, Sn', SM. rewrite Sd in Sn'. rewrite EA in SM. replace (2 * ((INR m + 26) * u53)) with (2 * mu + 52 * u53) in SM by (unfold mu; ring).
    clearbody r mu De Wb. set (rs := rsimp f s) in *. clearbody rs.
    assert (X1 : De * m0 <= (41 / 10 * eta + 12 * u53) * m0) by (apply Rmult_le_compat_r; lra). assert (X0 : 0 <= De * m0) by (apply Rmult_le_pos; lra).
    assert (X2 : eta * m0 <= / 1024 * m0) by (apply Rmult_le_compat_r; lra). assert (X3 : u53 * m0 <= / 1000000000 * m0) by (apply Rmult_le_compat_r; [lra|rewrite U; lra]).
    assert (Wb1 : 0 <= Wb <= 51 / 50 * m0) by lra.
    assert (Y1 : mu * Wb <= mu * (51 / 50 * m0)) by (apply Rmult_le_compat_l; lra). assert (Y0 : 0 <= mu * Wb) by (apply Rmult_le_pos; lra).
    assert (Y2 : mu * m0 <= / 10000000 * m0) by (apply Rmult_le_compat_r; lra).
    assert (Rs1 : 0 <= rs <= 103 / 100 * m0) by lra.
    assert (Z1 : mu * rs <= mu * (103 / 100 * m0)) by (apply Rmult_le_compat_l; lra). assert (Z0 : 0 <= mu * rs) by (apply Rmult_le_pos; lra).
    assert (Z2 : u53 * rs <= u53 * (103 / 100 * m0)) by (apply Rmult_le_compat_l; lra). assert (Z3 : 0 <= u53 * rs) by (apply Rmult_le_pos; lra).
    assert (Q1 : 0 <= eta * m0) by (apply Rmult_le_pos; lra). assert (Q2 : 0 <= u53 * m0) by (apply Rmult_le_pos; lra). assert (Q3 : 0 <= mu * m0) by (apply Rmult_le_pos; lra).
    apply Rabs_le. split; lra. }
  assert (B700 : bpow radix2 (-700) <= m0).
  { apply Rle_trans with (bpow radix2 (-640) / 3); [|lra]. apply Rle_trans with (bpow radix2 (-640) * bpow radix2 (-2)); [rewrite <- bpow_plus; apply bpow_le; lia|]. replace (bpow radix2 (-2)) with (/ 4) by (cbn; lra). lra. }
  destruct (height_error (17 * eta + 58 * mu + 130 * u53) m0 r B700 ltac:(rewrite U; lra) Fin1) as [Pr Fin2].
  assert (Sq : 0 < sqrt m0) by (apply sqrt_lt_R0; assert (Z := b_pos (-700)); lra).
  exists (fresh (N:=NX) (F (freqs df m)) (F (fine_density t x))), (4 * sqrt m0), (rnd (4 * rnd (sqrt r))).
  split; [exact SX|]. split; [apply P0, Pw|]. split; [|split; [lra|]].
  - destruct (flim_both D f (Fin (-1)) (Fin (-1)) 0 (length f - 1) HA ltac:(lia) ltac:(left; auto) ltac:(left; auto)) as [_ FB].
    assert (V : v_Hm0 (N:=NB) (F f) (F s) (Fin (-1)) (Fin (-1)) = Ok (Fin (rnd (4 * rnd (sqrt r))))).
    { unfold v_Hm0. rewrite FB, bind_Ok. unfold v_moment.
      assert (Emm : compute_moment (N:=NB) (Arr (vec (F f))) (Arr (vec (F s))) 0 (Fin (nth 0 f 0)) (Fin (nth (length f - 1) f 0)) = Ok (Fin r)) by exact (RoundJonswap.moment0_NB D f s HA Lfs Fs Ck).
      etransitivity; [exact (f_equal (fun z => bind z _) Emm)|]. rewrite bind_Ok.
      rewrite RoundDisper.nb_sqrt by lra. rewrite nb_ofZ by (cbn; lia). rewrite nb_mul. reflexivity. }
    unfold get_Hm0, getter, mbind, mget, mlift, mset. rewrite Ef, Es, V. reflexivity.
  - eapply Rle_trans; [exact Fin2|]. apply Rmult_le_compat_r; [lra|]. unfold height_error_bound, mu. rewrite U. lra.
Qed.
End AnyOrder.
