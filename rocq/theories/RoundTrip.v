(** * C93: the transforms and the band-pass filter in binary64.
    The sums of np.fft.fft and np.fft.ifft are evaluated term by term with cos and sin known to 2^-50; then every coefficient and
    every sample that comes back has a known accuracy, and the band-pass filter returns what it returns in exact arithmetic, up to
    rounding, unless a limit is within rounding of a frequency of the spectrum. *)

From Coq Require Import Reals ZArith String List Bool Lra Lia Psatz.
From Flocq Require Import Core.
From Coquelicot Require Import Complex.
From Verif Require Import SumOrder Num XR Spec XRFacts RoundNum Engine EngineProps Cpx SpectralModel WaveModel SpectrumModel SeriesModel SeriesProps DFT FourierSpec FourierFacts FourierProps BandProps
  RSum AvgProps DensityProps HeightProps TimeModel TimeSpec RoundProps RoundWave RoundSpec RoundChain RoundAccuracy RoundMix RoundRecord RoundFFT.
From Verif Require TimeProps.
Import ListNotations.
Open Scope R_scope.

Lemma RS_abs n g : Rabs (RS n g) <= RS n (fun j => Rabs (g j)).
Proof.
  apply Rabs_le. split; [|apply RS_le; intros; apply Rle_abs]. replace (- RS n (fun j => Rabs (g j))) with (-1 * RS n (fun j => Rabs (g j))) by ring. rewrite <- RS_scal. apply RS_le.
  intros j _. assert (Q := Rle_abs (- g j)). rewrite Rabs_Ropp in Q. lra.
Qed.

(** a sum of n computed terms, each accurate relative to a bound on its size *)
Lemma sum_terms (n : nat) (v w B : nat -> R) : (2 <= n)%nat -> (Z.of_nat n <= 2 ^ 24)%Z ->
  (forall k, (k < n)%nat -> Rabs (v k - w k) <= (37 * INR n + 3) * u53 * B k + 4 * u53 * tn /\ Rabs (w k) <= B k) ->
  Rabs (rsum (map v (seq 0 n)) - RS n w) <= 42 * INR n * u53 * (RS n B + INR n * tn).
Proof.
  intros H2 Hn H. assert (U := u53_val). assert (Uu : 0 < u53) by (rewrite U; lra). assert (T : 0 < tn) by apply b_pos.
  assert (N2 : 2 <= INR n) by (apply (le_INR 2); lia). assert (N24 : INR n <= 16777216) by (rewrite INR_IZR_INZ; apply IZR_le; lia).
  set (nu := INR n * u53). assert (Nu : 2 * u53 <= nu <= / 100000000) by (unfold nu; split; [apply Rmult_le_compat_r; lra|rewrite U; lra]).
  set (A := RS n B + INR n * tn). assert (EA : RS n (fun k => B k + tn) = A) by (unfold A; rewrite RS_plus, RS_const; reflexivity).
  assert (PB : forall k, (k < n)%nat -> 0 <= B k) by (intros k Hk; destruct (H k Hk) as [_ Q]; assert (P := Rabs_pos (w k)); lra).
  assert (P0 : 0 <= RS n B) by (apply RS_nonneg; exact PB). assert (P1 : 0 <= INR n * tn) by (apply Rmult_le_pos; lra). assert (PA : 0 <= A) by (unfold A; lra).
  set (e := 77 / 2 * nu). assert (He : (37 * INR n + 3) * u53 <= e /\ 4 * u53 <= e) by (unfold e, nu in *; split; lra).
  assert (Tm : forall k, (k < n)%nat -> Rabs (v k - w k) <= e * (B k + tn)).
  { intros k Hk. destruct (H k Hk) as [Q _]. assert (Pk := PB k Hk). assert ((37 * INR n + 3) * u53 * B k <= e * B k) by (apply Rmult_le_compat_r; tauto). assert (4 * u53 * tn <= e * tn) by (apply Rmult_le_compat_r; lra). lra. }
  assert (S1 : Rabs (RS n v - RS n w) <= e * A) by (rewrite <- RS_minus, <- EA, <- RS_scal; eapply Rle_trans; [apply RS_abs|apply RS_le; exact Tm]).
  assert (S2 : RS n (fun k => Rabs (v k)) <= (1 + e) * A).
  { rewrite <- EA, <- RS_scal. apply RS_le. intros k Hk. destruct (H k Hk) as [_ Q]. assert (Q2 := Tm k Hk). replace (v k) with (w k + (v k - w k)) by ring. eapply Rle_trans; [apply Rabs_triang|]. lra. }
  assert (Re := rsum_error (map v (seq 0 n))). rewrite map_length, seq_length, map_map in Re.
  change (Rsum (map v (seq 0 n))) with (RS n v) in Re. change (Rsum (map (fun j => Rabs (v j)) (seq 0 n))) with (RS n (fun j => Rabs (v j))) in Re.
  assert (Q := hi_up n). assert (Q1 := hi_1 n). set (q := (1 + u53) ^ n) in *. fold nu in Q.
  assert (Q2 : q - 1 <= 101 / 100 * nu) by nra.
  assert (S0 : 0 <= RS n (fun j => Rabs (v j))) by (apply RS_nonneg; intros; apply Rabs_pos).
  assert (Ee : 0 <= e <= / 100) by (unfold e; lra). assert (EeA : e * A <= / 100 * A) by (apply Rmult_le_compat_r; lra).
  assert (S3 : RS n (fun j => Rabs (v j)) + INR n * tn <= 202 / 100 * A) by (unfold A in *; lra).
  assert (S4 : (q - 1) * (RS n (fun j => Rabs (v j)) + INR n * tn) <= 101 / 100 * nu * (202 / 100 * A)) by (apply Rmult_le_compat; lra).
  replace (rsum (map v (seq 0 n)) - RS n w) with ((rsum (map v (seq 0 n)) - RS n v) + (RS n v - RS n w)) by ring. eapply Rle_trans; [apply Rabs_triang|].
  replace (42 * INR n * u53 * A) with (42 * (nu * A)) by (unfold nu; ring). unfold e in S1. assert (0 <= nu * A) by (apply Rmult_le_pos; lra). lra.
Qed.

Section AnyOrder.
Context {So : summation} {Lm : libm}.

(** the library's cos and sin of the computed angle *)
Lemma trig_near n y th : trig_ok -> (2 <= n)%nat -> Rabs (y - th) <= 33 * INR n * u53 ->
  (Rabs (l_cos Lm y - cos th) <= 37 * INR n * u53 /\ Rabs (cos th) <= 1) /\ (Rabs (l_sin Lm y - sin th) <= 37 * INR n * u53 /\ Rabs (sin th) <= 1).
Proof.
  intros Ht H2 D. assert (U := u53_val). assert (N2 : 2 <= INR n) by (apply (le_INR 2); lia). destruct (Ht y) as [Tc Ts].
  assert (E50 : 1 / 2 ^ 50 = 8 * u53) by (rewrite U; lra). rewrite E50 in Tc, Ts.
  assert (Lc := cos_lip y th). assert (Lsn := sin_lip y th). assert (NU : 2 * u53 <= INR n * u53) by (apply Rmult_le_compat_r; [rewrite U|]; lra).
  split; (split; [|apply Rabs_le; apply COS_bound || apply SIN_bound]).
  - replace (l_cos Lm y - cos th) with ((l_cos Lm y - cos y) + (cos y - cos th)) by ring. eapply Rle_trans; [apply Rabs_triang|]. lra.
  - replace (l_sin Lm y - sin th) with ((l_sin Lm y - sin y) + (sin y - sin th)) by ring. eapply Rle_trans; [apply Rabs_triang|]. lra.
Qed.

(** ** Forward *)
Definition tot (x : list R) : R := RS (length x) (fun j => Rabs (nth j x 0)) + INR (length x) * tn.
Lemma coef_error (x : list R) k : trig_ok -> (2 <= length x)%nat -> (Z.of_nat (length x) <= 2 ^ 24)%Z -> (k < length x)%nat ->
  Rabs (re_hat x k - fst (coef x k)) <= 42 * INR (length x) * u53 * tot x /\ Rabs (im_hat x k - snd (coef x k)) <= 42 * INR (length x) * u53 * tot x.
Proof.
  intros Ht H2 Hn Hk. set (n := length x) in *. assert (U := u53_val). assert (N2 : 2 <= INR n) by (apply (le_INR 2); lia). assert (N24 : INR n <= 16777216) by (rewrite INR_IZR_INZ; apply IZR_le; lia).
  assert (T : 0 < tn) by apply b_pos.
  assert (Cs : forall j, (j < n)%nat -> let th := - (2 * PI * INR (j * k) / INR n) in Rabs (- ang n j k - th) <= 33 * INR n * u53).
  { intros j Hj th. assert (An := ang_error n j k H2 Hn Hj Hk). unfold th. replace (- ang n j k - - (2 * PI * INR (j * k) / INR n)) with (- (ang n j k - 2 * PI * INR (j * k) / INR n)) by ring. rewrite Rabs_Ropp. exact An. }
  assert (Te : forall j c c', Rabs (c - c') <= 37 * INR n * u53 -> Rabs c' <= 1 ->
    Rabs (rnd (nth j x 0 * c) - nth j x 0 * c') <= (37 * INR n + 3) * u53 * Rabs (nth j x 0) + 4 * u53 * tn /\ Rabs (nth j x 0 * c') <= Rabs (nth j x 0)).
  { intros j c c' H1 H3. assert (P := Rabs_pos (nth j x 0)). assert (Q := term_error (nth j x 0) c c' (37 * INR n * u53) H1 H3). split.
    - eapply Rle_trans; [apply Q; rewrite U; lra|]. assert (0 <= u53 * Rabs (nth j x 0)) by (apply Rmult_le_pos; [rewrite U; lra|exact P]). assert (0 <= u53 * tn) by (apply Rmult_le_pos; [rewrite U|]; lra). lra.
    - rewrite Rabs_mult. rewrite <- (Rmult_1_r (Rabs (nth j x 0))) at 2. apply Rmult_le_compat_l; auto. }
  unfold coef, tot. rewrite Csum_fst, Csum_snd. fold n. split.
  - rewrite (RS_ext n _ (fun j => nth j x 0 * cos (- (2 * PI * INR (j * k) / INR n)))) by (intros j Hj; unfold ei; cbn [fst snd Cmult RtoC]; ring).
    apply (sum_terms n (fun j => rnd (nth j x 0 * l_cos Lm (- ang n j k)))); auto. intros j Hj. apply Te; apply (trig_near n _ _ Ht H2 (Cs j Hj)).
  - rewrite (RS_ext n _ (fun j => nth j x 0 * sin (- (2 * PI * INR (j * k) / INR n)))) by (intros j Hj; unfold ei; cbn [fst snd Cmult RtoC]; ring).
    apply (sum_terms n (fun j => rnd (nth j x 0 * l_sin Lm (- ang n j k)))); auto. intros j Hj. apply Te; apply (trig_near n _ _ Ht H2 (Cs j Hj)).
Qed.

(** ** Back *)
Definition inv_term (n : nat) (X : list C) (j k : nat) : R :=
  rnd (rnd (fst (nth k X (RtoC 0)) * l_cos Lm (ang n k j)) - rnd (snd (nth k X (RtoC 0)) * l_sin Lm (ang n k j))).
Definition inv_hat (X : list C) (j : nat) : R := rnd (rsum (map (inv_term (length X) X j) (seq 0 (length X))) / INR (length X)).
Definition size (X : list C) : R := RS (length X) (fun k => Rabs (fst (nth k X (RtoC 0))) + Rabs (snd (nth k X (RtoC 0)))) + INR (length X) * tn.

Lemma freq2time_NB (X : list C) : (2 <= length X)%nat -> (Z.of_nat (length X) <= 2 ^ 24)%Z ->
  freq2time (N:=NB) (Arr (vec (FCs X))) = Ok (F (map (inv_hat X) (seq 0 (length X)))).
Proof.
  intros H2 Hn. set (n := length X) in *. assert (NX' : FCs X <> []) by (intros E; apply map_eq_nil in E; subst X; cbn in H2; lia).
  destruct (@hv_convert (cpx NB) (FCs X) (Arr (vec (FCs X))) NX' (hv_flat _)) as (k2 & K2 & E2).
  unfold freq2time. rewrite E2. cbn [fst snd]. assert (Nat.ltb 1 k2 = false) as -> by (apply Nat.ltb_ge; lia).
  rewrite FCs_length. fold n. destruct (Nat.eqb_spec n 0) as [E|_]; [lia|]. rewrite TimeProps.as_list_vec, bind_Ok. f_equal. unfold ifft.
  rewrite map_map, FCs_length. fold n. unfold F. rewrite map_map. apply map_ext_in. intros j Hj. apply in_seq in Hj.
  unfold dft_coef. rewrite FCs_length. fold n.
  replace (seq 0 n) with (seq 0 (length (FCs X))) by (rewrite FCs_length; reflexivity). rewrite (map2_seq _ (FC (RtoC 0)) (FCs X) 0), FCs_length. fold n.
  assert (ES : csum (N:=NB) (map (fun k => cmul (N:=NB) (nth (k - 0) (FCs X) (FC (RtoC 0))) (twiddle (N:=NB) 1 n k j)) (seq 0 n))
    = (Fin (rsum (map (inv_term n X j) (seq 0 n))), Fin (rsum (map (fun k => rnd (rnd (fst (nth k X (RtoC 0)) * l_sin Lm (ang n k j)) + rnd (snd (nth k X (RtoC 0)) * l_cos Lm (ang n k j)))) (seq 0 n))))).
  { rewrite <- csum_NB. f_equal. apply map_ext_in. intros k Hk. apply in_seq in Hk. rewrite Nat.sub_0_r, nth_FCs.
    unfold twiddle. change (1 * 2)%Z with 2%Z. rewrite nb_ofZ by (cbn; lia). rewrite !nb_ofnat by nia.
    change (npi (n:=NB)) with (Fin (rnd PI)). rewrite !nb_mul. rewrite nb_div by (apply not_0_INR; lia).
    change (rnd (rnd (rnd (2 * rnd PI) * INR (k * j)) / INR n)) with (ang n k j). reflexivity. }
  cbn beta in ES. etransitivity; [apply (f_equal (fun z => cre (N:=NB) (cdivr (N:=NB) z (nofnat (N:=NB) n)))); exact ES|].
  unfold cdivr, cre. cbn [fst snd]. rewrite nb_ofnat by lia. rewrite nb_div by (apply not_0_INR; lia). reflexivity.
Qed.

Lemma inv_error (X : list C) j : trig_ok -> (2 <= length X)%nat -> (Z.of_nat (length X) <= 2 ^ 24)%Z -> (j < length X)%nat ->
  Rabs (inv_hat X j - fst (IDF (length X) (fun k => nth k X (RtoC 0)) j)) <= 44 * u53 * size X.
Proof.
  intros Ht H2 Hn Hj. set (n := length X) in *. assert (U := u53_val). assert (Uu : 0 < u53) by (rewrite U; lra).
  assert (N2 : 2 <= INR n) by (apply (le_INR 2); lia). assert (N24 : INR n <= 16777216) by (rewrite INR_IZR_INZ; apply IZR_le; lia). assert (T : 0 < tn) by apply b_pos.
  set (re := fun k => fst (nth k X (RtoC 0))). set (im := fun k => snd (nth k X (RtoC 0))). set (th := fun k => 2 * PI * INR (k * j) / INR n).
  set (w := fun k => re k * cos (th k) - im k * sin (th k)).
  assert (EI : fst (IDF n (fun k => nth k X (RtoC 0)) j) = / INR n * RS n w).
  { unfold IDF. rewrite <- RtoC_inv by (apply not_0_INR; lia).
    replace (fst (RtoC (/ INR n) * Csum n (fun k => nth k X (RtoC 0) * tw 1 n k j))%C) with (/ INR n * fst (Csum n (fun k => nth k X (RtoC 0) * tw 1 n k j)%C)) by (unfold Cmult, RtoC; cbn [fst snd]; ring).
    rewrite Csum_fst. f_equal. apply RS_ext. intros k Hk. unfold w, th, re, im, tw, ei, Cmult. cbn [fst snd]. replace (1 * 2 * PI) with (2 * PI) by ring. reflexivity. }
  set (B := fun k => Rabs (re k) + Rabs (im k)).
  assert (K : Rabs (rsum (map (inv_term n X j) (seq 0 n)) - RS n w) <= 42 * INR n * u53 * (RS n B + INR n * tn)).
  { apply sum_terms; auto. intros k Hk. assert (An := ang_error n k j H2 Hn Hk Hj). destruct (trig_near n _ _ Ht H2 An) as [[C1 C2] [S1 S2]]. fold (th k) in C1, C2, S1, S2.
    assert (Pr := Rabs_pos (re k)). assert (Pi := Rabs_pos (im k)).
    assert (E1 := term_error (re k) _ _ (37 * INR n * u53) C1 C2 ltac:(rewrite U; lra)). assert (E2 := term_error (im k) _ _ (37 * INR n * u53) S1 S2 ltac:(rewrite U; lra)).
    assert (W1 : Rabs (re k * cos (th k)) <= Rabs (re k)) by (rewrite Rabs_mult; rewrite <- (Rmult_1_r (Rabs (re k))) at 2; apply Rmult_le_compat_l; auto).
    assert (W2 : Rabs (im k * sin (th k)) <= Rabs (im k)) by (rewrite Rabs_mult; rewrite <- (Rmult_1_r (Rabs (im k))) at 2; apply Rmult_le_compat_l; auto).
    unfold inv_term, w. fold (re k) (im k). set (a := rnd (re k * l_cos Lm (ang n k j))) in *. set (b := rnd (im k * l_sin Lm (ang n k j))) in *.
    set (a' := re k * cos (th k)) in *. set (b' := im k * sin (th k)) in *. assert (R := rnd_abs (a - b)). fold tn in R.
    assert (Wb : Rabs (a' - b') <= B k) by (unfold B; replace (a' - b') with (a' + - b') by ring; eapply Rle_trans; [apply Rabs_triang|]; rewrite Rabs_Ropp; lra).
    split; [|exact Wb].
    assert (D : Rabs ((a - b) - (a' - b')) <= (37 * INR n * u53 + 6 / 5 * u53) * B k + 2 * (u53 * tn)).
    { replace ((a - b) - (a' - b')) with ((a - a') + - (b - b')) by ring. eapply Rle_trans; [apply Rabs_triang|]. rewrite Rabs_Ropp. unfold B. lra. }
    assert (PB : 0 <= B k) by (unfold B; lra). assert (UT : 0 <= u53 * tn) by (apply Rmult_le_pos; lra).
    assert (M : Rabs (a - b) <= 11 / 10 * B k + tn).
    { replace (a - b) with ((a' - b') + ((a - b) - (a' - b'))) by ring. eapply Rle_trans; [apply Rabs_triang|].
      assert ((37 * INR n * u53 + 6 / 5 * u53) * B k <= / 10 * B k) by (apply Rmult_le_compat_r; [exact PB|rewrite U; lra]). assert (2 * (u53 * tn) <= tn) by (rewrite U; lra). lra. }
    assert (M2 : u53 * (Rabs (a - b) + tn) <= u53 * (11 / 10 * B k + tn + tn)) by (apply Rmult_le_compat_l; lra).
    replace (rnd (a - b) - (a' - b')) with ((rnd (a - b) - (a - b)) + ((a - b) - (a' - b'))) by ring. eapply Rle_trans; [apply Rabs_triang|].
    assert (0 <= u53 * B k) by (apply Rmult_le_pos; lra). lra. }
  rewrite EI. unfold inv_hat. fold n. set (S := rsum (map (inv_term n X j) (seq 0 n))) in *.
  unfold size. fold n. change (RS n (fun k => Rabs (fst (nth k X (RtoC 0))) + Rabs (snd (nth k X (RtoC 0))))) with (RS n B). set (A := RS n B + INR n * tn) in *.
  assert (R := rnd_abs (S / INR n)). fold tn in R.
  assert (PB : 0 <= RS n B) by (apply RS_nonneg; intros k _; unfold B; assert (P1 := Rabs_pos (re k)); assert (P2 := Rabs_pos (im k)); lra).
  assert (Pt : tn <= INR n * tn / 2) by nra. assert (PA : 2 * tn <= A) by (unfold A; lra).
  assert (Wn : Rabs (RS n w) <= RS n B).
  { eapply Rle_trans; [apply RS_abs|]. apply RS_le. intros k Hk. unfold w, B. replace (re k * cos (th k) - im k * sin (th k)) with (re k * cos (th k) + - (im k * sin (th k))) by ring.
    eapply Rle_trans; [apply Rabs_triang|]. rewrite Rabs_Ropp, !Rabs_mult. assert (C1 : Rabs (cos (th k)) <= 1) by (apply Rabs_le, COS_bound). assert (C2 : Rabs (sin (th k)) <= 1) by (apply Rabs_le, SIN_bound).
    assert (P1 := Rabs_pos (re k)). assert (P2 := Rabs_pos (im k)). assert (Rabs (re k) * Rabs (cos (th k)) <= Rabs (re k) * 1) by (apply Rmult_le_compat_l; auto). assert (Rabs (im k) * Rabs (sin (th k)) <= Rabs (im k) * 1) by (apply Rmult_le_compat_l; auto). lra. }
  assert (Kn : Rabs (S / INR n - / INR n * RS n w) <= 42 * u53 * A).
  { replace (S / INR n - / INR n * RS n w) with (/ INR n * (S - RS n w)) by (field; lra). rewrite Rabs_mult, (Rabs_pos_eq (/ INR n)) by (left; apply Rinv_0_lt_compat; lra).
    apply Rle_trans with (/ INR n * (42 * INR n * u53 * A)); [apply Rmult_le_compat_l; [left; apply Rinv_0_lt_compat; lra|exact K]|]. right. field. lra. }
  assert (Sn : Rabs (S / INR n) <= A).
  { replace (S / INR n) with (/ INR n * RS n w + (S / INR n - / INR n * RS n w)) by ring. eapply Rle_trans; [apply Rabs_triang|].
    assert (Q : Rabs (/ INR n * RS n w) <= / 2 * RS n B).
    { rewrite Rabs_mult, (Rabs_pos_eq (/ INR n)) by (left; apply Rinv_0_lt_compat; lra). apply Rmult_le_compat; [left; apply Rinv_0_lt_compat; lra|apply Rabs_pos|apply Rinv_le_contravar; lra|exact Wn]. }
    assert (42 * u53 * A <= / 4 * A) by (apply Rmult_le_compat_r; [lra|rewrite U; lra]). unfold A in *. lra. }
  replace (rnd (S / INR n) - / INR n * RS n w) with ((rnd (S / INR n) - S / INR n) + (S / INR n - / INR n * RS n w)) by ring. eapply Rle_trans; [apply Rabs_triang|].
  assert (u53 * (Rabs (S / INR n) + tn) <= u53 * (A + / 2 * A)) by (apply Rmult_le_compat_l; lra). assert (0 <= u53 * A) by (apply Rmult_le_pos; lra). lra.
Qed.

(** a spectrum close to the exact one gives samples close to the exact ones *)
Lemma back_error (X : list C) (V : nat -> C) (K A : R) j : trig_ok -> (2 <= length X)%nat -> (Z.of_nat (length X) <= 2 ^ 24)%Z -> (j < length X)%nat ->
  (forall k, (k < length X)%nat -> Rabs (fst (nth k X (RtoC 0)) - fst (V k)) <= K /\ Rabs (snd (nth k X (RtoC 0)) - snd (V k)) <= K) ->
  (forall k, (k < length X)%nat -> Rabs (fst (V k)) <= A /\ Rabs (snd (V k)) <= A) ->
  Rabs (inv_hat X j - fst (IDF (length X) V j)) <= 2 * K + 44 * u53 * (INR (length X) * (2 * A + 2 * K) + INR (length X) * tn).
Proof.
  intros Ht H2 Hn Hj HK HA. set (n := length X) in *. assert (N2 : 2 <= INR n) by (apply (le_INR 2); lia). assert (U := u53_val).
  assert (E := inv_error X j Ht H2 Hn Hj). fold n in E.
  assert (Sz : size X <= INR n * (2 * A + 2 * K) + INR n * tn).
  { unfold size. fold n. apply Rplus_le_compat_r. rewrite <- RS_const. apply RS_le. intros k Hk. destruct (HK k Hk) as [K1 K2]. destruct (HA k Hk) as [A1 A2].
    replace (fst (nth k X (RtoC 0))) with (fst (V k) + (fst (nth k X (RtoC 0)) - fst (V k))) by ring. replace (snd (nth k X (RtoC 0))) with (snd (V k) + (snd (nth k X (RtoC 0)) - snd (V k))) at 1 by ring.
    assert (T1 := Rabs_triang (fst (V k)) (fst (nth k X (RtoC 0)) - fst (V k))). assert (T2 := Rabs_triang (snd (V k)) (snd (nth k X (RtoC 0)) - snd (V k))). lra. }
  assert (Sz2 : 44 * u53 * size X <= 44 * u53 * (INR n * (2 * A + 2 * K) + INR n * tn)) by (apply Rmult_le_compat_l; [rewrite U; lra|exact Sz]).
  assert (D : Rabs (fst (IDF n (fun k => nth k X (RtoC 0)) j) - fst (IDF n V j)) <= 2 * K).
  { unfold IDF. rewrite <- RtoC_inv by (apply not_0_INR; lia).
    assert (P : forall W, fst (RtoC (/ INR n) * Csum n (fun k => W k * tw 1 n k j))%C = / INR n * RS n (fun k => fst (W k) * fst (tw 1 n k j) - snd (W k) * snd (tw 1 n k j))).
    { intros W. rewrite <- (RS_ext n (fun k => fst (W k * tw 1 n k j)%C)) by (intros; reflexivity). rewrite <- Csum_fst. unfold Cmult, RtoC. cbn [fst snd]. ring. }
    rewrite !P, <- Rmult_minus_distr_l, <- RS_minus, Rabs_mult, (Rabs_pos_eq (/ INR n)) by (left; apply Rinv_0_lt_compat; lra).
    apply Rle_trans with (/ INR n * (INR n * (2 * K))); [|right; field; lra]. apply Rmult_le_compat_l; [left; apply Rinv_0_lt_compat; lra|].
    eapply Rle_trans; [apply RS_abs|]. rewrite <- RS_const. apply RS_le. intros k Hk. destruct (HK k Hk) as [K1 K2].
    set (c := fst (tw 1 n k j)). set (q := snd (tw 1 n k j)). assert (C1 : Rabs c <= 1) by (unfold c, tw, ei; cbn [fst]; apply Rabs_le, COS_bound). assert (C2 : Rabs q <= 1) by (unfold q, tw, ei; cbn [snd]; apply Rabs_le, SIN_bound).
    replace (fst (nth k X (RtoC 0)) * c - snd (nth k X (RtoC 0)) * q - (fst (V k) * c - snd (V k) * q)) with ((fst (nth k X (RtoC 0)) - fst (V k)) * c + - ((snd (nth k X (RtoC 0)) - snd (V k)) * q)) by ring.
    eapply Rle_trans; [apply Rabs_triang|]. rewrite Rabs_Ropp, !Rabs_mult.
    assert (P1 := Rabs_pos (fst (nth k X (RtoC 0)) - fst (V k))). assert (P2 := Rabs_pos (snd (nth k X (RtoC 0)) - snd (V k))). assert (P3 := Rabs_pos c). assert (P4 := Rabs_pos q).
    assert (Rabs (fst (nth k X (RtoC 0)) - fst (V k)) * Rabs c <= K * 1) by (apply Rmult_le_compat; auto). assert (Rabs (snd (nth k X (RtoC 0)) - snd (V k)) * Rabs q <= K * 1) by (apply Rmult_le_compat; auto). lra. }
  replace (inv_hat X j - fst (IDF n V j)) with ((inv_hat X j - fst (IDF n (fun k => nth k X (RtoC 0)) j)) + (fst (IDF n (fun k => nth k X (RtoC 0)) j) - fst (IDF n V j))) by ring.
  eapply Rle_trans; [apply Rabs_triang|]. lra.
Qed.

(** the bound of the claims: the sum of the sizes of the samples, times n / 2^45 (the second term only matters for records of samples below 2^-300 or so) *)
Definition round_trip_error (x : list R) : R := INR (length x) / 2 ^ 45 * (Rsum (map Rabs x) + INR (length x) * bpow radix2 (-1020)).
Lemma tot_eq x : tot x = Rsum (map Rabs x) + INR (length x) * bpow radix2 (-1020).
Proof. unfold tot. f_equal. rewrite Rsum_RS, map_length. apply RS_ext. intros k Hk. symmetry. rewrite <- Rabs_R0 at 1. apply (map_nth Rabs). Qed.
Lemma coef_size x k : Rabs (fst (coef x k)) <= tot x /\ Rabs (snd (coef x k)) <= tot x.
Proof.
  unfold coef, tot. rewrite Csum_fst, Csum_snd. assert (P : 0 <= INR (length x) * tn) by (apply Rmult_le_pos; [apply pos_INR|apply Rlt_le, b_pos]).
  assert (Q : forall a c, Rabs c <= 1 -> Rabs (a * c) <= Rabs a) by (intros a c Hc; rewrite Rabs_mult; rewrite <- (Rmult_1_r (Rabs a)) at 2; apply Rmult_le_compat_l; [apply Rabs_pos|exact Hc]).
  split; (eapply Rle_trans; [apply RS_abs|]); match goal with |- ?a <= ?b + _ => apply Rle_trans with b; [|lra] end; apply RS_le; intros j Hj; unfold ei, Cmult, RtoC; cbn [fst snd].
  - replace (nth j x 0 * cos (- (2 * PI * INR (j * k) / INR (length x))) - 0 * sin (- (2 * PI * INR (j * k) / INR (length x)))) with (nth j x 0 * cos (- (2 * PI * INR (j * k) / INR (length x)))) by ring. apply Q, Rabs_le, COS_bound.
  - replace (nth j x 0 * sin (- (2 * PI * INR (j * k) / INR (length x))) + 0 * cos (- (2 * PI * INR (j * k) / INR (length x)))) with (nth j x 0 * sin (- (2 * PI * INR (j * k) / INR (length x)))) by ring. apply Q, Rabs_le, SIN_bound.
Qed.
Lemma budget x : (2 <= length x)%nat -> (Z.of_nat (length x) <= 2 ^ 24)%Z -> let K := 42 * INR (length x) * u53 * tot x in
  2 * K + 44 * u53 * (INR (length x) * (2 * tot x + 2 * K) + INR (length x) * tn) <= round_trip_error x.
Proof.
  intros H2 Hn K. unfold round_trip_error. rewrite <- tot_eq. set (n := length x) in *. assert (N2 : 2 <= INR n) by (apply (le_INR 2); lia). assert (N24 : INR n <= 16777216) by (rewrite INR_IZR_INZ; apply IZR_le; lia).
  assert (U := u53_val). assert (T : 0 < tn) by apply b_pos. assert (P : INR n * tn <= tot x) by (unfold tot; fold n; assert (0 <= RS n (fun j => Rabs (nth j x 0))) by (apply RS_nonneg; intros; apply Rabs_pos); lra).
  set (A := tot x) in *. assert (PA : 0 <= A) by nra. set (nu := INR n * u53) in *. assert (Nu : 0 <= nu <= / 100000000) by (unfold nu; rewrite U; split; lra).
  assert (EK : K = 42 * (nu * A)) by (unfold K, nu; ring). assert (NA : 0 <= nu * A) by (apply Rmult_le_pos; lra).
  replace (INR n / 2 ^ 45 * A) with (256 * (nu * A)) by (unfold nu; rewrite U; field).
  assert (T2 : tn <= A) by nra.
  replace (44 * u53 * (INR n * (2 * A + 2 * K) + INR n * tn)) with (44 * nu * (2 * A + 2 * K + tn)) by (unfold nu; ring). rewrite EK.
  assert (Q : nu * (nu * A) <= / 100000000 * (nu * A)) by (apply Rmult_le_compat_r; lra).
  assert (Q2 : nu * tn <= nu * A) by (apply Rmult_le_compat_l; lra). nra.
Qed.

(** ** time2freq and freq2time *)
Lemma check_of_time2freq (t x : list R) r : (2 <= length t)%nat -> length x = length t ->
  time2freq (N:=NB) (Arr (vec (F t))) (Arr (vec (F x))) = Ok r -> monotonic_increasing_constant_step (N:=NB) (F t) = Ok true.
Proof.
  intros H2 Lx H.
  assert (Nt' : F t <> []) by (destruct t; [cbn in H2; lia|discriminate]). assert (Nx' : F x <> []) by (destruct x; [cbn in Lx; lia|discriminate]).
  destruct (@hv_convert (car NB) (F t) (Arr (vec (F t))) Nt' (hv_flat _)) as (kt & Kt & Et).
  destruct (@hv_convert (car NB) (F x) (Arr (vec (F x))) Nx' (hv_flat _)) as (kx & Kx & Ex).
  unfold time2freq in H. rewrite Et, Ex in H. cbn [fst snd] in H.
  destruct (Nat.ltb_spec 1 kt); [lia|]. destruct (Nat.ltb_spec 1 kx); [lia|]. cbn [orb] in H. rewrite !TimeProps.as_list_vec, bind_Ok in H.
  apply bind_inv in H. destruct H as (mono & E & H). destruct mono; [exact E|discriminate H].
Qed.
Lemma time2freq_NB (t x : list R) : length x = length t -> (2 <= length t)%nat -> (Z.of_nat (length t) <= 2 ^ 50)%Z ->
  rnd (INR (length t) * rnd (nth 1 t 0 - nth 0 t 0)) <> 0 ->
  monotonic_increasing_constant_step (N:=NB) (F t) = Ok true ->
  time2freq (N:=NB) (Arr (vec (F t))) (Arr (vec (F x))) = Ok (F (fax (length t) (fdf t)), fft (N:=NB) (map (cofr (N:=NB)) (F x))).
Proof.
  intros Lx H2 Hn HT Hmono.
  assert (Nt : F t <> []) by (destruct t; [cbn in H2; lia|discriminate]).
  assert (Nx : F x <> []) by (destruct x; [cbn in Lx; lia|discriminate]).
  destruct (@hv_convert (car NB) (F t) (Arr (vec (F t))) Nt (hv_flat _)) as (kt & Hkt & Et).
  destruct (@hv_convert (car NB) (F x) (Arr (vec (F x))) Nx (hv_flat _)) as (kx & Hkx & Ex).
  unfold time2freq. rewrite Et, Ex. cbn [fst snd].
  destruct (Nat.ltb_spec 1 kt); [lia|]. destruct (Nat.ltb_spec 1 kx); [lia|]. cbn [orb]. rewrite !TimeProps.as_list_vec, bind_Ok.
  rewrite Hmono, bind_Ok. cbn [negb]. rewrite !F_length, Lx, Nat.eqb_refl. cbn [negb]. rewrite bind_Ok, !idx_F, !bind_Ok by lia.
  cbv zeta. rewrite nb_sub, nb_ofnat, nb_mul by lia. rewrite nb_1, nb_div by exact HT. f_equal. f_equal.
  unfold fax, F. rewrite map_map. apply map_ext_in. intros k Hk. apply in_seq in Hk. rewrite nb_ofnat by lia. rewrite nb_mul. reflexivity.
Qed.
Definition hats (x : list R) (m : nat) : list C := map (fun k => (re_hat x k, im_hat x k)) (seq 0 m).
Lemma hats_length x m : length (hats x m) = m. Proof. unfold hats. rewrite map_length, seq_length. reflexivity. Qed.
Lemma hats_nth x m k : (k < m)%nat -> nth k (hats x m) (RtoC 0) = (re_hat x k, im_hat x k).
Proof. intros H. unfold hats. rewrite map_seq_nth by exact H. reflexivity. Qed.
Lemma fft_hats x : (2 <= length x)%nat -> (Z.of_nat (length x) <= 2 ^ 24)%Z -> fft (N:=NB) (map (cofr (N:=NB)) (F x)) = FCs (hats x (length x)).
Proof.
  intros H2 Hn. apply (nth_ext' _ _ (FC (RtoC 0))).
  - unfold fft. rewrite map_length, seq_length, map_length, F_length, FCs_length, hats_length. reflexivity.
  - intros k Hk. unfold fft in Hk. rewrite map_length, seq_length, map_length, F_length in Hk. rewrite nth_FCs, hats_nth by exact Hk. apply (fft_hat x H2 Hn k Hk).
Qed.
Lemma fk_close t k : good_axis t -> (Z.of_nat (length t) <= 2 ^ 30)%Z -> bpow radix2 (-20) <= rnd (nth 1 t 0 - nth 0 t 0) <= bpow radix2 20 ->
  Rabs (fk (fdf t) k - INR k * dfreq t) <= INR k * dfreq t / 2 ^ 50.
Proof.
  intros Hg Hn Hdt. assert (H2 := proj1 Hg). destruct (fdf_bounds t ltac:(lia) Hn Hdt) as (_ & D1 & D2). assert (RD := fdf_close t Hg Hn Hdt). set (D := fdf t) in *. set (df := dfreq t) in *.
  assert (Pdf : 0 < df) by (apply dfreq_pos, Hg). assert (PD := b_pos (-50)). assert (U := u53_val). assert (Pk := pos_INR k).
  assert (R6 : rel 6 (INR k * df) (fk D k)).
  { destruct k as [|k]; [unfold fk; cbn [INR]; rewrite !Rmult_0_l, (rnd_id 0) by apply float_0; unfold rel; lra|].
    assert (1 <= INR (S k)) by (apply (le_INR 1); lia). unfold fk. apply rel_rnd; [lia| |apply (rel_mul 0 5); [lra|lra|apply rel_refl|exact RD]].
    right. assert (A := rel_abs 5 df D ltac:(lia) ltac:(lra) RD). replace (INR 5) with 5 in A by (cbn; lra). apply Rabs_le_inv in A.
    assert (D <= 2 * df) by (rewrite U in A; lra). assert (B60 : bpow radix2 (-60) <= bpow radix2 (-50) / 2) by (replace (bpow radix2 (-50)) with (bpow radix2 10 * bpow radix2 (-60)) by (rewrite <- bpow_plus; reflexivity); assert (P60 := b_pos (-60)); replace (bpow radix2 10) with 1024 by (cbn; lra); lra).
    apply Rle_trans with (bpow radix2 (-60)); [apply bpow_le; lia|]. clear - H H0 B60 D1 Pdf. nra. }
  assert (P : 0 <= INR k * df) by (apply Rmult_le_pos; lra). assert (A := rel_abs 6 _ _ ltac:(lia) P R6). replace (INR 6) with 6 in A by (cbn; lra). eapply Rle_trans; [exact A|]. rewrite U. lra.
Qed.

(** (a) Forward: the frequencies to 2^-50, relatively, both parts of every coefficient to n/2^47 times the sum of the sizes of the samples *)
Theorem C93_coefficients (t x : list R) f X : trig_ok -> good_axis t -> length x = length t -> (Z.of_nat (length t) <= 2 ^ 24)%Z ->
  bpow radix2 (-20) <= rnd (nth 1 t 0 - nth 0 t 0) <= bpow radix2 20 ->
  time2freq (N:=NB) (Arr (vec (F t))) (Arr (vec (F x))) = Ok (f, X) ->
  exists fr Z gr W, f = F fr /\ X = FCs Z /\ time2freq (N:=NX) (Arr (vec (F t))) (Arr (vec (F x))) = Ok (F gr, FCs W)
    /\ length fr = length x /\ length Z = length x /\ length gr = length x /\ length W = length x
    /\ forall k, (k < length x)%nat -> Rabs (nth k fr 0 - nth k gr 0) <= nth k gr 0 / 2 ^ 50
         /\ Rabs (fst (nth k Z (RtoC 0)) - fst (nth k W (RtoC 0))) <= round_trip_error x / 4
         /\ Rabs (snd (nth k Z (RtoC 0)) - snd (nth k W (RtoC 0))) <= round_trip_error x / 4.
Proof.
  intros Ht Hg Lx Hn Hdt E. assert (H2 := proj1 Hg). assert (Hmono := check_of_time2freq t x _ H2 Lx E).
  destruct (fdf_bounds t ltac:(lia) ltac:(lia) Hdt) as (HT & D1 & D2). rewrite (time2freq_NB t x Lx H2 ltac:(lia) ltac:(lra) Hmono) in E. apply Ok_inj in E. injection E as <- <-.
  rewrite fft_hats by lia. exists (fax (length t) (fdf t)), (hats x (length x)), (freqs (dfreq t) (length t)), (coefs x (length x)).
  split; [reflexivity|]. split; [reflexivity|]. split; [rewrite (time2freq_F t x) by (auto using hv_flat); rewrite ?Lx; reflexivity|].
  rewrite hats_length, coefs_length, freqs_length. unfold fax. rewrite map_length, seq_length. do 4 (split; [lia|]).
  intros k Hk. rewrite hats_nth, coefs_nth, freqs_nth by lia. rewrite map_seq_nth by lia. split; [apply fk_close; auto; lia|]. cbn [fst snd].
  assert (B : 42 * INR (length x) * u53 * tot x <= round_trip_error x / 4).
  { unfold round_trip_error. rewrite <- tot_eq. assert (P : 0 <= INR (length x) * tot x) by (apply Rmult_le_pos; [apply pos_INR|]; destruct (coef_size x 0) as [Q _]; assert (Q' := Rabs_pos (fst (coef x 0))); lra). rewrite u53_val. lra. }
  destruct (coef_error x k Ht ltac:(lia) ltac:(lia) Hk) as [E1 E2]. split; lra.
Qed.

(** (b) Back: for any coefficients, every sample to 2^-47 times the sum of the sizes of their parts *)
Theorem C93_inverse (X : list C) : trig_ok -> (2 <= length X)%nat -> (Z.of_nat (length X) <= 2 ^ 24)%Z ->
  exists y z, freq2time (N:=NB) (Arr (vec (FCs X))) = Ok (F y) /\ freq2time (N:=NX) (Arr (vec (FCs X))) = Ok (F z)
    /\ length y = length X /\ length z = length X
    /\ forall j, (j < length X)%nat ->
         Rabs (nth j y 0 - nth j z 0) <= (Rsum (map (fun c => Rabs (fst c) + Rabs (snd c)) X) + INR (length X) * bpow radix2 (-1020)) / 2 ^ 47.
Proof.
  intros Ht H2 Hn. eexists _, _. split; [apply freq2time_NB; auto|]. split; [apply (freq2time_FC X); [intros E; rewrite E in H2; cbn in H2; lia|constructor]|].
  rewrite !map_length, !seq_length. split; [reflexivity|]. split; [reflexivity|]. intros j Hj. rewrite !map_seq_nth by exact Hj.
  eapply Rle_trans; [apply (inv_error X j Ht H2 Hn Hj)|].
  assert (Es : size X = Rsum (map (fun c => Rabs (fst c) + Rabs (snd c)) X) + INR (length X) * bpow radix2 (-1020)).
  { unfold size. f_equal. rewrite Rsum_RS, map_length. apply RS_ext. intros k Hk. rewrite (nth_indep _ 0 ((fun c : C => Rabs (fst c) + Rabs (snd c)) (RtoC 0))) by (rewrite map_length; exact Hk). rewrite (map_nth (fun c : C => Rabs (fst c) + Rabs (snd c))). reflexivity. }
  rewrite <- Es. assert (P : 0 <= size X).
  { unfold size. apply Rplus_le_le_0_compat; [apply RS_nonneg; intros; apply Rplus_le_le_0_compat; apply Rabs_pos|apply Rmult_le_pos; [apply pos_INR|apply Rlt_le, b_pos]]. }
  rewrite u53_val. lra.
Qed.

(** (c) There and back again *)
Theorem C93_round_trip (t x : list R) f X : trig_ok -> length x = length t -> (2 <= length t)%nat -> (Z.of_nat (length t) <= 2 ^ 24)%Z ->
  bpow radix2 (-20) <= rnd (nth 1 t 0 - nth 0 t 0) <= bpow radix2 20 ->
  time2freq (N:=NB) (Arr (vec (F t))) (Arr (vec (F x))) = Ok (f, X) ->
  exists y, freq2time (N:=NB) (Arr (vec X)) = Ok (F y) /\ length y = length x
    /\ forall j, (j < length x)%nat -> Rabs (nth j y 0 - nth j x 0) <= round_trip_error x.
Proof.
  intros Ht Lx H2 Hn Hdt E. assert (Hmono := check_of_time2freq t x _ H2 Lx E).
  destruct (fdf_bounds t ltac:(lia) ltac:(lia) Hdt) as (HT & D1 & D2). rewrite (time2freq_NB t x Lx H2 ltac:(lia) ltac:(lra) Hmono) in E. apply Ok_inj in E. injection E as <- <-.
  rewrite fft_hats by lia. assert (L := hats_length x (length x)). eexists. split; [apply freq2time_NB; lia|]. rewrite map_length, seq_length, L. split; [reflexivity|].
  intros j Hj. rewrite map_seq_nth by exact Hj.
  assert (B := back_error (hats x (length x)) (coef x) (42 * INR (length x) * u53 * tot x) (tot x) j Ht ltac:(lia) ltac:(lia) ltac:(lia)). rewrite L in B.
  assert (EI : fst (IDF (length x) (coef x) j) = nth j x 0).
  { rewrite (IDF_ext _ _ (fun k => nth k (coefs x (length x)) (RtoC 0))) by (intros k Hk; rewrite coefs_nth by exact Hk; reflexivity). rewrite IDF_coef by exact Hj. reflexivity. }
  rewrite EI in B. eapply Rle_trans; [apply B|apply budget; lia].
  - intros k Hk. rewrite hats_nth by exact Hk. apply coef_error; auto; lia.
  - intros k Hk. apply coef_size.
Qed.

(** ** The band-pass filter *)
Lemma apply_NB (f : list R) (X : list C) (flow fhigh : xr) :
  applybandfilter (N:=NB) (F f) (FCs X) flow fhigh = applybandfilter (N:=NX) (F f) (FCs X) flow fhigh.
Proof. unfold applybandfilter. assert (E : c0 (N:=NB) = c0 (N:=NX)) by (unfold c0; rewrite nb_0; reflexivity). rewrite E. reflexivity. Qed.
Lemma unfold_NB (f : list R) (X : list C) odd : (2 <= length f)%nat -> length X = length f ->
  let n := ((length f - 1) * 2 + b2n odd)%nat in
  exists g, unfold_spectrum (N:=NB) (Arr (vec (F f))) (Arr (vec (FCs X))) odd
    = Ok (g, FCs (map (fun k => if Nat.ltb k (length f - 1 + b2n odd) then nth k X (RtoC 0) else Cconj (nth (n - k) X (RtoC 0))) (seq 0 n))).
Proof.
  intros H2 Hl n. assert (E := unfold_FC f X odd H2 Hl). cbv zeta in E. fold n in E. unfold unfold_spectrum in E |- *.
  assert (Nf : F f <> []) by (destruct f; [cbn in H2; lia|discriminate]). assert (Nx : FCs X <> []) by (intros Q; apply map_eq_nil in Q; rewrite Q in Hl; cbn in Hl; lia).
  destruct (@hv_convert (car NB) (F f) (Arr (vec (F f))) Nf (hv_flat _)) as (k1 & K1 & E1). destruct (@hv_convert (cpx NB) (FCs X) (Arr (vec (FCs X))) Nx (hv_flat _)) as (k2 & K2 & E2). rewrite E1, E2. cbn [fst snd].
  destruct (@hv_convert (car NX) (F f) (Arr (vec (F f))) Nf (hv_flat _)) as (k3 & K3 & E3). destruct (@hv_convert (cpx NX) (FCs X) (Arr (vec (FCs X))) Nx (hv_flat _)) as (k4 & K4 & E4). rewrite E3, E4 in E. cbn [fst snd] in E.
  destruct (Nat.ltb_spec 1 k1); [lia|]. destruct (Nat.ltb_spec 1 k2); [lia|]. destruct (Nat.ltb_spec 1 k3); [lia|]. destruct (Nat.ltb_spec 1 k4); [lia|]. cbn [orb] in *.
  rewrite !TimeProps.as_list_vec, !bind_Ok, !idx_F, !bind_Ok in * by lia. rewrite !F_length in *.
  apply bind_inv in E. destruct E as (lf & E5 & E). apply Ok_inj in E. injection E as _ EZ. eexists.
  etransitivity; [apply (f_equal (fun r => bind r _)); exact E5|]. rewrite bind_Ok. do 2 f_equal. exact EZ.
Qed.
(** the limit is further from every frequency of the spectrum (but 0) than its rounding *)
Definition clear_of (f : list R) (v : xr) : Prop := forall a, v = Fin a -> forall k, (1 <= k < length f)%nat -> nth k f 0 / 2 ^ 50 < Rabs (a - nth k f 0).
Lemma passed_agree (f g : list R) (flow fhigh : xr) k : length g = length f -> (2 <= length f)%nat ->
  (forall k, (k < length f)%nat -> Rabs (nth k g 0 - nth k f 0) <= nth k f 0 / 2 ^ 50) ->
  clear_of f flow -> clear_of f fhigh -> (k < length f)%nat -> passed g flow fhigh k <-> passed f flow fhigh k.
Proof.
  intros L H2 Hc C1 C2 Hk. unfold passed. rewrite L.
  assert (K : forall v, clear_of f v -> forall i, (1 <= i < length f)%nat ->
    (ext_le v (Fin (nth i g 0)) <-> ext_le v (Fin (nth i f 0))) /\ (ext_lt v (Fin (nth i g 0)) <-> ext_lt v (Fin (nth i f 0)))
    /\ (ext_le (Fin (nth i g 0)) v <-> ext_le (Fin (nth i f 0)) v) /\ (ext_lt (Fin (nth i g 0)) v <-> ext_lt (Fin (nth i f 0)) v)).
  { intros v Hv i Hi. destruct v as [a| | |]; cbn [ext_le ext_lt]; try tauto. assert (Q := Hv a eq_refl i Hi). assert (P := Hc i ltac:(lia)).
    apply Rabs_le_inv in P. set (d := nth i f 0 / 2 ^ 50) in *. clearbody d. destruct (Rle_lt_dec (nth i f 0) a) as [H|H].
    - rewrite Rabs_pos_eq in Q by lra. repeat split; intros; lra.
    - rewrite Rabs_left in Q by lra. repeat split; intros; lra. }
  assert (KL := K flow C1 (length f - 1)%nat ltac:(lia)). assert (KH := K fhigh C2 (length f - 1)%nat ltac:(lia)).
  split; intros (P1 & P2 & P3 & P4).
  - assert (Kk := K flow C1 k ltac:(lia)). split; [exact P1|]. split; [tauto|]. split; [tauto|]. destruct P4 as [P4|[P4 P5]]; [left; tauto|right]. split; [exact P4|]. assert (Ks := K fhigh C2 (S k) ltac:(lia)). tauto.
  - assert (Kk := K flow C1 k ltac:(lia)). split; [exact P1|]. split; [tauto|]. split; [tauto|]. destruct P4 as [P4|[P4 P5]]; [left; tauto|right]. split; [exact P4|]. assert (Ks := K fhigh C2 (S k) ltac:(lia)). tauto.
Qed.

(** (d) The band-pass filter in binary64 gives the samples of exact arithmetic up to the error of (c) *)
Theorem C93_bandpass (t x : list R) (flow fhigh : xr) q : trig_ok -> good_axis t -> length x = length t -> (Z.of_nat (length t) <= 2 ^ 24)%Z ->
  bpow radix2 (-20) <= rnd (nth 1 t 0 - nth 0 t 0) <= bpow radix2 20 ->
  flow <> NaN -> fhigh <> NaN -> clear_of (freqs (/ (INR (length t) * step t)) (length t / 2 + 1)) flow -> clear_of (freqs (/ (INR (length t) * step t)) (length t / 2 + 1)) fhigh ->
  time2freq (N:=NB) (Arr (vec (F t))) (Arr (vec (F x))) = Ok q ->
  exists y z, bandpassfilter (N:=NB) (Arr (vec (F t))) (Arr (vec (F x))) flow fhigh = Ok (F y) /\ bandpassfilter (N:=NX) (Arr (vec (F t))) (Arr (vec (F x))) flow fhigh = Ok (F z)
    /\ length y = length x /\ length z = length x
    /\ forall j, (j < length x)%nat -> Rabs (nth j y 0 - nth j z 0) <= round_trip_error x.
Proof.
  intros Ht Hg Lx Hn Hdt N1 N2 C1 C2 E. assert (H2 := proj1 Hg). assert (Hq := nnyq_le (length t) H2). change (length t / 2 + 1)%nat with (nnyq (length t)) in *.
  change (/ (INR (length t) * step t)) with (dfreq t) in *. set (n := length t) in *. set (m := nnyq n) in *.
  destruct (fdf_bounds t ltac:(lia) ltac:(unfold n in Hn; lia) Hdt) as (HT & D1 & D2).
  assert (Hmono := check_of_time2freq t x _ H2 Lx E). clear E.
  remember (bandpassfilter (N:=NB) (Arr (vec (F t))) (Arr (vec (F x))) flow fhigh) as r eqn:E. apply eq_sym in E. unfold bandpassfilter in E. rewrite (nyquist_NB t x Lx H2 ltac:(lia) ltac:(lra) Hmono) in E. change (length t / 2 + 1)%nat with m in E. rewrite bind_Ok in E.
  rewrite fft_hats in E by (unfold n in *; lia).
  assert (ES : @slice (cpx NB) 0 m (FCs (hats x (length x))) = FCs (hats x m)).
  { unfold hats, FCs. rewrite !map_map. apply slice0_map_seq. lia. }
  rewrite ES, apply_NB in E. set (fh := fax m (fdf t)) in *. set (f := freqs (dfreq t) m) in *.
  assert (Lfh : length fh = m) by (unfold fh, fax; rewrite map_length, seq_length; reflexivity). assert (Lf : length f = m) by (unfold f; apply freqs_length).
  assert (Close : forall k, (k < length f)%nat -> Rabs (nth k fh 0 - nth k f 0) <= nth k f 0 / 2 ^ 50).
  { intros k Hk. rewrite Lf in Hk. unfold fh, fax, f. rewrite map_seq_nth, freqs_nth by exact Hk. apply fk_close; auto. unfold n in *; lia. }
  assert (Pdf := dfreq_pos t Hg). assert (N24 : INR n <= 16777216) by (rewrite INR_IZR_INZ; apply IZR_le; lia).
  assert (Inc : increasing fh).
  { assert (Step1 : forall i, (S i < m)%nat -> nth i fh 0 < nth (S i) fh 0).
    { intros i Hi. assert (A := Close i ltac:(lia)). assert (B := Close (S i) ltac:(lia)). unfold f in A, B. rewrite freqs_nth in A, B by lia. rewrite S_INR in B. apply Rabs_le_inv in A, B.
      assert (Pi := pos_INR i). assert (Ii : INR i + 1 <= 16777216) by (rewrite <- S_INR; eapply Rle_trans; [apply le_INR|exact N24]; lia).
      assert (Q : (INR i + 1) * dfreq t <= 16777216 * dfreq t) by (apply Rmult_le_compat_r; lra). lra. }
    intros i j Hij. rewrite Lfh in Hij. destruct Hij as [Hij Hj]. revert Hj. induction Hij as [|j Hij IH]; intros Hj; [apply Step1, Hj|]. eapply Rlt_trans; [apply IH; lia|apply Step1, Hj]. }
  destruct (C28_pass_band fh (hats x m) flow fhigh) as (keep & Ek & Kk); auto.
  { intros Q. rewrite Q in Lfh. cbn in Lfh. lia. }
  { rewrite hats_length. auto. }
  rewrite Ek, bind_Ok, hats_length in E. set (Y := map (fun k => if keep k then nth k (hats x m) (RtoC 0) else RtoC 0) (seq 0 m)) in *.
  assert (LY : length Y = m) by (unfold Y; rewrite map_length, seq_length; reflexivity).
  destruct (unfold_NB fh Y (Nat.odd n) ltac:(lia) ltac:(lia)) as (g & Eg). cbv zeta in Eg. eapply eq_trans in E; [|symmetry; apply (f_equal (fun r => bind r _)); exact Eg]. rewrite bind_Ok in E. rewrite Lfh in E.
  assert (Tot := nnyq_total n H2). fold m in Tot. rewrite !Tot in E.
  match type of E with context [vec (FCs ?u)] => set (U := u) in * end. assert (LU : length U = n) by (unfold U; rewrite map_length, seq_length; reflexivity).
  rewrite freq2time_NB in E by lia. subst r. rewrite LU.
  destruct (bandpass_eq t x flow fhigh (Arr (vec (F t))) (Arr (vec (F x))) Hg Lx (hv_flat _) (hv_flat _) N1 N2) as (keep' & z & Ez & Kz & Lz & Cz).
  rewrite Lx in Kz. fold n m f in Kz.
  assert (Same : forall k, (k < m)%nat -> keep k = keep' k).
  { intros k Hk. assert (A := Kk k ltac:(lia)). assert (B := Kz k Hk). assert (P := passed_agree f fh flow fhigh k ltac:(lia) ltac:(lia) Close C1 C2 ltac:(lia)).
    destruct (keep k), (keep' k); auto; exfalso; [assert (false = true) by tauto|assert (false = true) by tauto]; discriminate. }
  eexists _, z. split; [reflexivity|]. split; [exact Ez|]. rewrite map_length, seq_length. split; [lia|]. split; [lia|].
  intros j Hj. rewrite map_seq_nth by lia. rewrite Lx in Hj. fold n in Hj.
  set (K := 42 * INR (length x) * u53 * tot x). assert (PT : 0 <= tot x) by (destruct (coef_size x 0) as [Q _]; assert (Q' := Rabs_pos (fst (coef x 0))); lra).
  assert (PK : 0 <= K) by (unfold K; apply Rmult_le_pos; [|exact PT]; apply Rmult_le_pos; [|rewrite u53_val; lra]; assert (P := pos_INR (length x)); lra).
  assert (CE := fun k => coef_error x k Ht ltac:(unfold n in *; lia) ltac:(unfold n in *; lia)). fold K in CE.
  assert (B := back_error U (coef z) K (tot x) j Ht ltac:(lia) ltac:(lia) ltac:(lia)). rewrite LU in B.
  assert (EI : fst (IDF n (coef z) j) = nth j z 0).
  { assert (Ln : length z = n) by (rewrite Lz; exact Lx). rewrite <- Ln. rewrite (IDF_ext _ _ (fun k => nth k (coefs z (length z)) (RtoC 0))) by (intros k Hk; rewrite coefs_nth by exact Hk; reflexivity). rewrite IDF_coef by lia. reflexivity. }
  rewrite EI in B. eapply Rle_trans; [apply B|].
  - intros k Hk. rewrite Cz by lia. rewrite Lx. fold n. unfold U. rewrite map_seq_nth by exact Hk. unfold fold_index.
    assert (Z0 : Rabs (0 - 0) <= K) by (rewrite Rminus_0_r, Rabs_R0; exact PK).
    assert (Ob : (b2n (Nat.odd n) <= 1)%nat) by (destruct (Nat.odd n); cbn; lia).
    destruct (Nat.ltb_spec k (m - 1 + b2n (Nat.odd n))).
    + assert (Hm : (k < m)%nat /\ (k <= n - k)%nat) by (clear - H Ob Tot Hk Hq; lia). destruct Hm as [Hm Hm2]. unfold Y. rewrite map_seq_nth by exact Hm.
      replace (Nat.min k (n - k)) with k by (clear - Hm2; lia). rewrite <- (Same k Hm). destruct (keep k); [|split; exact Z0]. rewrite hats_nth by exact Hm. apply CE. lia.
    + assert (Hm : (n - k < m)%nat /\ (n - k <= k)%nat /\ (n - k < length x)%nat) by (clear - H Ob Tot Hk Hq Lx; lia). destruct Hm as (Hm & Hm2 & Hnk). unfold Y. rewrite map_seq_nth by exact Hm.
      replace (Nat.min k (n - k)) with (n - k)%nat by (clear - Hm2; lia). rewrite <- (Same _ Hm). destruct (keep (n - k)%nat).
      * rewrite hats_nth by exact Hm. assert (Q := CE (n - k)%nat Hnk). assert (Hh := coef_hermitian x k ltac:(lia) ltac:(lia)). rewrite Lx in Hh. rewrite Hh in Q. cbn [Cconj fst snd] in *. destruct Q as [Q1 Q2]. split; [exact Q1|].
        replace (- im_hat x (n - k) - snd (coef x k)) with (- (im_hat x (n - k) - - snd (coef x k))) by ring. rewrite Rabs_Ropp. exact Q2.
      * cbn [Cconj RtoC fst snd]. rewrite Ropp_0. split; exact Z0.
  - intros k Hk. rewrite Cz by lia. destruct (keep' _); [apply coef_size|]. cbn [RtoC fst snd]. rewrite Rabs_R0. split; exact PT.
  - assert (Bg := budget x ltac:(unfold n in *; lia) ltac:(unfold n in *; lia)). cbv zeta in Bg. fold K in Bg. rewrite Lx in Bg. fold n in Bg. exact Bg.
Qed.
End AnyOrder.

Example C93_witness {So : summation} : exists f X,
  trig_ok (Lm := RoundDisper.rounded_libm) /\ good_axis t6 /\ length x6 = length t6 /\ (2 <= length t6)%nat /\ (Z.of_nat (length t6) <= 2 ^ 24)%Z
  /\ bpow radix2 (-20) <= rnd (nth 1 t6 0 - nth 0 t6 0) <= bpow radix2 20
  /\ time2freq (N:=NB (Lm := RoundDisper.rounded_libm)) (Arr (vec (F t6))) (Arr (vec (F x6))) = Ok (f, X)
  /\ Fin (/ 10) <> NaN /\ clear_of (freqs (/ (INR (length t6) * step t6)) (length t6 / 2 + 1)) (Fin (/ 10))
  /\ clear_of (freqs (/ (INR (length t6) * step t6)) (length t6 / 2 + 1)) (Fin (2 / 5))
  /\ (2 <= length (coefs x6 (length x6)))%nat.
Proof.
  destruct (@C91_witness So) as (sx & Tr & Ft & Fx & Lx & H4 & Hn & Hu & B1 & NT & Hx & Hv & EX & Hg & Hdt & (se & sp & Hse & Hsp) & _).
  assert (Hmono : monotonic_increasing_constant_step (N:=NB (Lm := RoundDisper.rounded_libm)) (F t6) = Ok true).
  { destruct (series_fields_NB (Lm := RoundDisper.rounded_libm) t6 x6 se ltac:(discriminate) ltac:(discriminate) Hse) as (Et & Ex & _).
    unfold series_spectrum_raw in Hsp. rewrite Et, Ex in Hsp. apply bind_inv in Hsp. destruct Hsp as (r & Hr & _).
    apply (check_of_spectrum (Lm := RoundDisper.rounded_libm) t6 x6 0 r ltac:(cbn; lia) (eq_sym Lx) Hr). }
  destruct (fdf_bounds t6 ltac:(cbn; lia) ltac:(cbn; lia) Hdt) as (HT & _).
  assert (P20 := b_pos (-20)).
  eexists _, _. split; [exact Tr|]. split; [exact Hg|]. split; [reflexivity|]. split; [cbn; lia|]. split; [exact Hn|]. split; [exact Hdt|].
  split; [apply (time2freq_NB (Lm := RoundDisper.rounded_libm)); [reflexivity|cbn; lia|cbn; lia|lra|exact Hmono]|].
  assert (Es : / (INR (length t6) * step t6) = / 6) by (unfold step, t6; cbn [length nth INR]; field).
  rewrite Es. change (length t6 / 2 + 1)%nat with 4%nat. split; [discriminate|].
  assert (Cl : forall a, (forall k, (1 <= k < 4)%nat -> / 1000 < Rabs (a - INR k * / 6)) -> clear_of (freqs (/ 6) 4) (Fin a)).
  { intros a H b Eb k Hk. injection Eb as <-. rewrite freqs_length in Hk. rewrite freqs_nth by lia. eapply Rle_lt_trans; [|apply H; lia].
    assert (K3 : INR k <= 3) by (replace 3 with (INR 3) by (cbn; lra); apply le_INR; lia). assert (P := pos_INR k). lra. }
  split; [|split; [|rewrite coefs_length; cbn; lia]]; apply Cl; intros k Hk; assert (D : k = 1%nat \/ k = 2%nat \/ k = 3%nat) by lia; destruct D as [E|[E|E]]; rewrite E;
    cbn [INR]; unfold Rabs; destruct (Rcase_abs _); lra.
Qed.
