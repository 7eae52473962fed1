(** * C91, continued: the Fourier sums evaluated term by term in binary64.
    If the library's cos and sin are within 2^-50 of the exact values, the sums for n samples, added one after the other, are accurate
    to n sqrt(n) / 2^47 in the 2-norm; so the density spectrum and Hm0 of a record have a known accuracy without any assumption
    about the FFT. *)

From Coq Require Import Reals ZArith String List Bool Lra Lia Psatz.
From Flocq Require Import Core.
From Coquelicot Require Import Complex.
From Verif Require Import SumOrder Num XR Spec XRFacts RoundNum Engine EngineProps Cpx SpectralModel WaveModel SpectrumModel SeriesModel SeriesProps DFT FourierSpec FourierFacts FourierProps
  RSum AvgProps DensityProps HeightProps TimeModel TimeSpec RoundProps RoundWave RoundSpec RoundChain RoundAccuracy RoundMix RoundRecord.
From Verif Require RoundDisper DecompProps AxisProps.
Import ListNotations.
Open Scope R_scope.

Lemma sin_abs y : Rabs (sin y) <= Rabs y.
Proof.
  assert (K : forall y, 0 < y -> - y <= sin y <= y).
  { clear y. intros y Hy. split; [|apply Rlt_le, sin_lt_x, Hy]. destruct (Rle_lt_dec y 1) as [H|H].
    - assert (0 <= sin y); [|lra]. apply sin_ge_0; [lra|]. assert (P := PI_RGT_0). assert (P2 := PI2_1). lra.
    - assert (B := SIN_bound y). lra. }
  destruct (Rtotal_order y 0) as [H|[H|H]].
  - assert (A := K (- y) ltac:(lra)). rewrite sin_neg in A. rewrite (Rabs_left y) by exact H. apply Rabs_le. lra.
  - subst y. rewrite sin_0. lra.
  - assert (A := K y H). rewrite (Rabs_pos_eq y) by lra. apply Rabs_le. lra.
Qed.
Lemma cos_lip a b : Rabs (cos a - cos b) <= Rabs (a - b).
Proof.
  rewrite form2. rewrite !Rabs_mult. assert (A := sin_abs ((a - b) / 2)). assert (B : Rabs (sin ((a + b) / 2)) <= 1) by (apply Rabs_le, SIN_bound).
  assert (E : Rabs ((a - b) / 2) = Rabs (a - b) / 2) by (unfold Rdiv; rewrite Rabs_mult, (Rabs_pos_eq (/ 2)) by lra; reflexivity). rewrite E in A.
  rewrite (Rabs_left (-2)) by lra. assert (P := Rabs_pos (sin ((a - b) / 2))). assert (P' := Rabs_pos (sin ((a + b) / 2))). assert (Pa := Rabs_pos (a - b)). nra.
Qed.
Lemma sin_lip a b : Rabs (sin a - sin b) <= Rabs (a - b).
Proof.
  rewrite form4. rewrite !Rabs_mult. assert (A := sin_abs ((a - b) / 2)). assert (B : Rabs (cos ((a + b) / 2)) <= 1) by (apply Rabs_le, COS_bound).
  assert (E : Rabs ((a - b) / 2) = Rabs (a - b) / 2) by (unfold Rdiv; rewrite Rabs_mult, (Rabs_pos_eq (/ 2)) by lra; reflexivity). rewrite E in A.
  rewrite (Rabs_pos_eq 2) by lra. assert (P := Rabs_pos (sin ((a - b) / 2))). assert (P' := Rabs_pos (cos ((a + b) / 2))). assert (Pa := Rabs_pos (a - b)). nra.
Qed.

(** one after the other, from the end *)
Definition rsum (l : list R) : R := fold_right (fun a b => rnd (a + b)) 0 l.
Definition tn : R := bpow radix2 (-1020).
Lemma rsum_error l : Rabs (rsum l - Rsum l) <= ((1 + u53) ^ length l - 1) * (Rsum (map Rabs l) + INR (length l) * tn).
Proof.
  assert (U := u53_val). assert (T : 0 < tn) by apply b_pos. induction l as [|a l IH].
  - cbn. rewrite Rminus_0_r, Rabs_R0. lra.
  - change (rsum (a :: l)) with (rnd (a + rsum l)). change (Rsum (a :: l)) with (a + Rsum l). change (map Rabs (a :: l)) with (Rabs a :: map Rabs l).
    change (Rsum (Rabs a :: map Rabs l)) with (Rabs a + Rsum (map Rabs l)). cbn [length]. rewrite S_INR. cbn [pow].
    set (n := length l) in *. set (B := Rsum (map Rabs l) + INR n * tn) in *. set (A := Rsum (map Rabs l)) in *.
    assert (Hab : forall l, Rabs (Rsum l) <= Rsum (map Rabs l) /\ 0 <= Rsum (map Rabs l)).
    { clear. induction l as [|a l [IH IH']]; [cbn; rewrite Rabs_R0; lra|]. change (Rsum (a :: l)) with (a + Rsum l). cbn [map].
      change (Rsum (Rabs a :: map Rabs l)) with (Rabs a + Rsum (map Rabs l)). assert (P := Rabs_pos a). split; [|lra]. eapply Rle_trans; [apply Rabs_triang|]. lra. }
    destruct (Hab l) as [HA HA']. fold A in HA, HA'.
    assert (R := rnd_abs (a + rsum l)). fold tn in R. assert (Pa := Rabs_pos a). assert (Pn := pos_INR n).
    assert (H1 := hi_1 n). set (q := (1 + u53) ^ n) in *.
    assert (S1 : Rabs (a + rsum l) <= Rabs a + A + (q - 1) * B).
    { replace (a + rsum l) with (a + Rsum l + (rsum l - Rsum l)) by ring. eapply Rle_trans; [apply Rabs_triang|]. assert (Q := Rabs_triang a (Rsum l)). lra. }
    replace (rnd (a + rsum l) - (a + Rsum l)) with ((rnd (a + rsum l) - (a + rsum l)) + (rsum l - Rsum l)) by ring. eapply Rle_trans; [apply Rabs_triang|].
    assert (Pnt : 0 <= INR n * tn) by (apply Rmult_le_pos; lra).
    set (B' := Rabs a + A + (INR n + 1) * tn). assert (BB : B <= B') by (unfold B, B'; lra). assert (PB : 0 <= B) by (unfold B; lra).
    assert (X : u53 * (Rabs (a + rsum l) + tn) <= u53 * (B' + (q - 1) * B)) by (apply Rmult_le_compat_l; [rewrite U; lra|]; unfold B'; lra).
    assert (Y : (q - 1) * B <= (q - 1) * B') by (apply Rmult_le_compat_l; lra).
    assert (Z : u53 * ((q - 1) * B) <= u53 * ((q - 1) * B')) by (apply Rmult_le_compat_l; [rewrite U; lra|exact Y]). lra.
Qed.

Section AnyOrder.
Context {So : summation} {Lm : libm}.
(** cos and sin of the library: within 2^-50 of the exact values (4 units in the last place of the results near 1) *)
Definition trig_ok : Prop := forall y, Rabs (l_cos Lm y - cos y) <= 1 / 2 ^ 50 /\ Rabs (l_sin Lm y - sin y) <= 1 / 2 ^ 50.

(** the angle 2 pi j k / n as computed *)
Definition ang (n j k : nat) : R := rnd (rnd (rnd (2 * rnd PI) * INR (j * k)) / INR n).
Lemma ang_error n j k : (2 <= n)%nat -> (Z.of_nat n <= 2 ^ 24)%Z -> (j < n)%nat -> (k < n)%nat ->
  Rabs (ang n j k - 2 * PI * INR (j * k) / INR n) <= 33 * INR n * u53.
Proof.
  intros H2 Hn Hj Hk. assert (P4 := PI_4). assert (P2 := PI2_1). assert (U := u53_val).
  assert (N2 : 2 <= INR n) by (apply (le_INR 2); lia). assert (N24 : INR n <= 16777216) by (rewrite INR_IZR_INZ; apply IZR_le; lia).
  assert (B60 : bpow radix2 (-60) <= / 1000000000) by (cbn; lra).
  assert (Th : forall r, bpow radix2 (-60) <= r -> thr r) by (intros r Hr; right; eapply Rle_trans; [apply bpow_le|exact Hr]; lia).
  assert (R1 : rel 1 PI (rnd PI)) by (apply rel_rnd; [lia|apply Th; lra|apply rel_refl]).
  assert (R2 : rel 2 (2 * PI) (rnd (2 * rnd PI))) by (apply rel_rnd; [lia|apply Th; lra|apply (rel_mul 0 1); [lra|lra|apply rel_refl|exact R1]]).
  assert (Ijk : INR (j * k) = 0 \/ 1 <= INR (j * k)) by (destruct (j * k)%nat as [|q]; [left; reflexivity|right; apply (le_INR 1); lia]).
  assert (Pjk := pos_INR (j * k)).
  assert (Jn : INR (j * k) <= INR n * INR n) by (rewrite <- mult_INR; apply le_INR; nia).
  assert (R3 : rel 3 (2 * PI * INR (j * k)) (rnd (rnd (2 * rnd PI) * INR (j * k)))).
  { apply rel_rnd; [lia| |apply (rel_mul 2 0); [lra|lra|exact R2|apply rel_refl]].
    destruct Ijk as [->|H]; [left; ring|apply Th; nra]. }
  assert (R4 : rel 4 (2 * PI * INR (j * k) / INR n) (ang n j k)).
  { unfold ang. apply rel_rnd; [lia| |apply (rel_div 3 0); [nra|lra|exact R3|apply rel_refl]].
    destruct Ijk as [->|H]; [left; unfold Rdiv; ring|apply Th]. apply le_div; [lra|].
    assert (bpow radix2 (-60) * INR n <= / 1000000000 * 16777216) by (apply Rmult_le_compat; [apply bpow_ge_0|lra|lra|lra]). nra. }
  assert (P0 : 0 <= 2 * PI * INR (j * k) / INR n) by (apply Rmult_le_pos; [nra|apply Rlt_le, Rinv_0_lt_compat; lra]).
  assert (A := rel_abs 4 _ _ ltac:(lia) P0 R4). replace (INR 4) with 4 in A by (cbn; lra). eapply Rle_trans; [exact A|].
  assert (Q : 2 * PI * INR (j * k) / INR n <= 2 * PI * INR n) by (apply div_le; [lra|]; nra).
  assert (2 * PI * INR n <= 8 * INR n) by nra. rewrite U. lra.
Qed.

(** a product with a cosine or sine known up to e *)
Lemma term_error x c c' e : Rabs (c - c') <= e -> Rabs c' <= 1 -> 0 <= e <= 1 / 10 -> Rabs (rnd (x * c) - x * c') <= Rabs x * (e + 6 / 5 * u53) + u53 * tn.
Proof.
  intros H C He. assert (U := u53_val). assert (R := rnd_abs (x * c)). fold tn in R. assert (Px := Rabs_pos x).
  assert (Hc : Rabs c <= 11 / 10).
  { replace c with (c - c' + c') by ring. eapply Rle_trans; [apply Rabs_triang|]. lra. }
  replace (rnd (x * c) - x * c') with ((rnd (x * c) - x * c) + x * (c - c')) by ring. eapply Rle_trans; [apply Rabs_triang|].
  rewrite (Rabs_mult x (c - c')). rewrite Rabs_mult in R. assert (A : Rabs x * Rabs (c - c') <= Rabs x * e) by (apply Rmult_le_compat_l; auto).
  assert (B : Rabs x * Rabs c <= Rabs x * (11 / 10)) by (apply Rmult_le_compat_l; auto).
  assert (Q : u53 * (Rabs x * Rabs c + tn) <= u53 * (Rabs x * (11 / 10) + tn)) by (apply Rmult_le_compat_l; [rewrite U|]; lra).
  assert (0 <= u53 * Rabs x) by (apply Rmult_le_pos; [rewrite U; lra|exact Px]). lra.
Qed.

(** one coefficient *)
Definition re_hat (x : list R) (k : nat) : R := rsum (map (fun j => rnd (nth j x 0 * l_cos Lm (- ang (length x) j k))) (seq 0 (length x))).
Definition im_hat (x : list R) (k : nat) : R := rsum (map (fun j => rnd (nth j x 0 * l_sin Lm (- ang (length x) j k))) (seq 0 (length x))).

Lemma csum_NB {A} (g h : A -> R) (l : list A) : csum (N:=NB) (map (fun j => (Fin (g j), Fin (h j))) l) = (Fin (rsum (map g l)), Fin (rsum (map h l))).
Proof.
  induction l as [|a l IH]; [cbn [map csum fold_right]; unfold c0; rewrite nb_0; reflexivity|]. cbn [map].
  change (csum (N:=NB) ((Fin (g a), Fin (h a)) :: map (fun j => (Fin (g j), Fin (h j))) l)) with (cadd (N:=NB) (Fin (g a), Fin (h a)) (csum (N:=NB) (map (fun j => (Fin (g j), Fin (h j))) l))).
  rewrite IH. unfold cadd, cre, cim. cbn [fst snd]. rewrite !nb_add. reflexivity.
Qed.
Lemma map2_seq {A B} (g : nat -> A -> B) (d : A) (l : list A) : forall a, map2 g (seq a (length l)) l = map (fun j => g j (nth (j - a) l d)) (seq a (length l)).
Proof.
  induction l as [|v l IH]; intros a; [reflexivity|]. cbn [length seq map2 map]. rewrite Nat.sub_diag. cbn [nth]. f_equal. rewrite IH.
  apply map_ext_in. intros j Hj. apply in_seq in Hj. replace (j - a)%nat with (S (j - S a)) by lia. reflexivity.
Qed.
Lemma fft_hat (x : list R) : (2 <= length x)%nat -> (Z.of_nat (length x) <= 2 ^ 24)%Z -> fft_is x (re_hat x) (im_hat x).
Proof.
  intros H2 Hn k Hk. unfold fft. rewrite !map_length, F_length.
  rewrite (nth_indep _ _ (dft_coef (N:=NB) (-1) (map (cofr (N:=NB)) (F x)) 0)) by (rewrite map_length, seq_length; exact Hk).
  rewrite (map_nth (dft_coef (N:=NB) (-1) (map (cofr (N:=NB)) (F x)))), seq_nth by exact Hk. cbn [Nat.add].
  unfold dft_coef. rewrite !map_length, F_length. set (l := map (cofr (N:=NB)) (F x)). assert (Ll : length l = length x) by (unfold l; rewrite map_length, F_length; reflexivity).
  set (g := fun (j : nat) (xj : cpx NB) => cmul (N:=NB) xj (twiddle (N:=NB) (-1) (length x) j k)).
  replace (seq 0 (length x)) with (seq 0 (length l)) by (rewrite Ll; reflexivity). rewrite (map2_seq g (Fin 0, Fin 0) l 0), Ll. unfold g.
  unfold re_hat, im_hat. rewrite <- csum_NB. f_equal. apply map_ext_in. intros j Hj. apply in_seq in Hj. rewrite Nat.sub_0_r.
  assert (Nj : nth j l (Fin 0, Fin 0) = (Fin (nth j x 0), Fin 0)).
  { unfold l. rewrite (nth_indep _ _ (cofr (N:=NB) (Fin 0))) by (rewrite map_length, F_length; lia). rewrite (map_nth (cofr (N:=NB))), F_nth. unfold cofr. rewrite nb_0. reflexivity. }
  rewrite Nj. unfold twiddle. change (-1 * 2)%Z with (-2)%Z. rewrite nb_ofZ by (cbn; lia). rewrite !nb_ofnat by nia.
  change (npi (n:=NB)) with (Fin (rnd PI)). rewrite !nb_mul. rewrite nb_div by (apply not_0_INR; lia).
  assert (EA : rnd (rnd (rnd (-2 * rnd PI) * INR (j * k)) / INR (length x)) = - ang (length x) j k).
  { unfold ang. replace (-2 * rnd PI) with (- (2 * rnd PI)) by ring. rewrite rnd_opp.
    replace (- rnd (2 * rnd PI) * INR (j * k)) with (- (rnd (2 * rnd PI) * INR (j * k))) by ring. rewrite rnd_opp.
    replace (- rnd (rnd (2 * rnd PI) * INR (j * k)) / INR (length x)) with (- (rnd (rnd (2 * rnd PI) * INR (j * k)) / INR (length x))) by (unfold Rdiv; ring). rewrite rnd_opp. reflexivity. }
  rewrite EA. unfold cexpi, cmul, cre, cim. cbn [fst snd]. change (ncos (n:=NB) (Fin ?a)) with (Fin (l_cos Lm a)). change (nsin (n:=NB) (Fin ?a)) with (Fin (l_sin Lm a)).
  rewrite !nb_mul, nb_sub, nb_add. rewrite !Rmult_0_l, (rnd_id 0) by apply float_0. rewrite Rminus_0_r, Rplus_0_r. rewrite !(rnd_id (rnd _)) by apply rnd_float. reflexivity.
Qed.

Lemma sum_error (n : nat) (x : list R) (c c' : nat -> R) : length x = n -> (2 <= n)%nat -> (Z.of_nat n <= 2 ^ 24)%Z ->
  (exists v, In v x /\ bpow radix2 (-300) <= Rabs v) ->
  (forall j, (j < n)%nat -> Rabs (c j - c' j) <= 37 * INR n * u53 /\ Rabs (c' j) <= 1) ->
  Rabs (rsum (map (fun j => rnd (nth j x 0 * c j)) (seq 0 n)) - RS n (fun j => nth j x 0 * c' j)) <= 40 * INR n * u53 * RS n (fun j => Rabs (nth j x 0)).
Proof.
  intros Lx H2 Hn (v & Hv & Bv) Hc. assert (U := u53_val). assert (Uu : 0 < u53) by (rewrite U; lra).
  assert (N2 : 2 <= INR n) by (apply (le_INR 2); lia). assert (N24 : INR n <= 16777216) by (rewrite INR_IZR_INZ; apply IZR_le; lia).
  set (e := 37 * INR n * u53) in *. assert (He : 0 <= e <= 1 / 10) by (unfold e; rewrite U; lra).
  set (A := RS n (fun j => Rabs (nth j x 0))). assert (T : 0 < tn) by apply b_pos.
  assert (LA : bpow radix2 (-300) <= A).
  { apply (In_nth _ _ 0) in Hv. destruct Hv as (j & Hj & <-). rewrite Lx in Hj. eapply Rle_trans; [exact Bv|].
    apply (RS_term n (fun j => Rabs (nth j x 0)) j Hj). intros; apply Rabs_pos. }
  assert (TA : 33554432 * tn <= A).
  { eapply Rle_trans; [|exact LA]. unfold tn. replace 33554432 with (bpow radix2 25) by (cbn; lra). rewrite <- bpow_plus. apply bpow_le. lia. }
  assert (PA : 0 < A) by (assert (B := b_pos (-300)); lra).
  set (a := fun j => rnd (nth j x 0 * c j)). set (b := fun j => nth j x 0 * c' j).
  assert (Tm : forall j, (j < n)%nat -> Rabs (a j - b j) <= (e + 6 / 5 * u53) * Rabs (nth j x 0) + u53 * tn).
  { intros j Hj. destruct (Hc j Hj) as [H1 H2']. assert (Q := term_error (nth j x 0) (c j) (c' j) e H1 H2' He). unfold a, b. lra. }
  assert (AbsRS : forall g, Rabs (RS n g) <= RS n (fun j => Rabs (g j))).
  { intros g. apply Rabs_le. split; [|apply RS_le; intros; apply Rle_abs]. replace (- RS n (fun j => Rabs (g j))) with (-1 * RS n (fun j => Rabs (g j))) by ring. rewrite <- RS_scal. apply RS_le.
    intros j _. assert (Q := Rle_abs (- g j)). rewrite Rabs_Ropp in Q. lra. }
  assert (S1 : Rabs (RS n a - RS n b) <= (e + 6 / 5 * u53) * A + INR n * (u53 * tn)).
  { rewrite <- RS_minus. eapply Rle_trans; [apply AbsRS|]. eapply Rle_trans; [apply RS_le; exact Tm|]. rewrite RS_plus, RS_scal, RS_const. fold A. lra. }
  assert (S2 : RS n (fun j => Rabs (a j)) <= (1 + e + 6 / 5 * u53) * A + INR n * (u53 * tn)).
  { apply Rle_trans with (RS n (fun j => (1 + e + 6 / 5 * u53) * Rabs (nth j x 0) + u53 * tn)); [|rewrite RS_plus, RS_scal, RS_const; fold A; lra].
    apply RS_le. intros j Hj. replace (a j) with (b j + (a j - b j)) by ring. eapply Rle_trans; [apply Rabs_triang|].
    assert (Q : Rabs (b j) <= Rabs (nth j x 0)).
    { unfold b. rewrite Rabs_mult. rewrite <- (Rmult_1_r (Rabs (nth j x 0))) at 2. apply Rmult_le_compat_l; [apply Rabs_pos|apply Hc, Hj]. }
    assert (Q2 := Tm j Hj). lra. }
  assert (Re := rsum_error (map a (seq 0 n))). rewrite map_length, seq_length, map_map in Re.
  change (Rsum (map a (seq 0 n))) with (RS n a) in Re. change (Rsum (map (fun j => Rabs (a j)) (seq 0 n))) with (RS n (fun j => Rabs (a j))) in Re.
  fold a b. change (fun j => rnd (nth j x 0 * c j)) with a. change (fun j => nth j x 0 * c' j) with b.
  set (h := rsum (map a (seq 0 n))) in *.
  assert (Q := hi_up n). assert (Q1 := hi_1 n). set (q := (1 + u53) ^ n) in *. set (nu := INR n * u53) in *.
  assert (Nu : 2 * u53 <= nu <= / 100000000) by (unfold nu; split; [apply Rmult_le_compat_r; lra|rewrite U; lra]).
  assert (Q2 : q - 1 <= 101 / 100 * nu) by nra.
  assert (Pn : 0 <= INR n * tn <= A / 2) by nra.
  assert (Pu : 0 <= INR n * (u53 * tn) <= u53 * A / 2) by (replace (INR n * (u53 * tn)) with (u53 * (INR n * tn)) by ring; split; [apply Rmult_le_pos; lra|]; replace (u53 * A / 2) with (u53 * (A / 2)) by field; apply Rmult_le_compat_l; lra).
  assert (Ee : e = 37 * nu) by (unfold e, nu; ring). rewrite Ee in *. 
  assert (UA : 0 <= u53 * A <= nu * A / 2) by (split; [apply Rmult_le_pos; lra|]; assert (u53 * A <= nu / 2 * A) by (apply Rmult_le_compat_r; lra); lra).
  assert (NA : nu * A <= / 100000000 * A) by (apply Rmult_le_compat_r; lra).
  assert (S3 : RS n (fun j => Rabs (a j)) + INR n * tn <= 16 / 10 * A) by lra.
  assert (S0 : 0 <= RS n (fun j => Rabs (a j))) by (apply RS_nonneg; intros; apply Rabs_pos).
  assert (S4 : (q - 1) * (RS n (fun j => Rabs (a j)) + INR n * tn) <= 101 / 100 * nu * (16 / 10 * A)) by (apply Rmult_le_compat; lra).
  replace (h - RS n b) with ((h - RS n a) + (RS n a - RS n b)) by ring. eapply Rle_trans; [apply Rabs_triang|].
  replace (40 * INR n * u53 * A) with (40 * (nu * A)) by (unfold nu; ring). lra.
Qed.

(** The Fourier sums evaluated term by term are accurate *)
Definition direct_eta (n : nat) : R := INR n * sqrt (INR n) / 2 ^ 47.
Theorem C91_direct_sums (x : list R) : trig_ok -> (2 <= length x)%nat -> (Z.of_nat (length x) <= 2 ^ 24)%Z -> (exists v, In v x /\ bpow radix2 (-300) <= Rabs v) ->
  exists re im, fft_is x re im /\ fft_accurate (direct_eta (length x)) x re im.
Proof.
  intros Ht H2 Hn Hv. exists (re_hat x), (im_hat x). split; [apply fft_hat; auto|]. set (n := length x) in *. assert (U := u53_val). assert (Uu : 0 < u53) by (rewrite U; lra).
  assert (N2 : 2 <= INR n) by (apply (le_INR 2); lia). set (A := RS n (fun j => Rabs (nth j x 0))).
  assert (PA : 0 <= A) by (apply RS_nonneg; intros; apply Rabs_pos).
  assert (E50 : 1 / 2 ^ 50 = 8 * u53) by (rewrite U; lra).
  assert (Cs : forall k, (k < n)%nat -> forall j, (j < n)%nat ->
     (Rabs (l_cos Lm (- ang n j k) - cos (- (2 * PI * INR (j * k) / INR n))) <= 37 * INR n * u53 /\ Rabs (cos (- (2 * PI * INR (j * k) / INR n))) <= 1)
     /\ (Rabs (l_sin Lm (- ang n j k) - sin (- (2 * PI * INR (j * k) / INR n))) <= 37 * INR n * u53 /\ Rabs (sin (- (2 * PI * INR (j * k) / INR n))) <= 1)).
  { intros k Hk j Hj. assert (An := ang_error n j k H2 Hn Hj Hk). set (th := 2 * PI * INR (j * k) / INR n) in *. destruct (Ht (- ang n j k)) as [Tc Ts]. rewrite E50 in Tc, Ts.
    assert (D : Rabs (- ang n j k - - th) <= 33 * INR n * u53) by (replace (- ang n j k - - th) with (- (ang n j k - th)) by ring; rewrite Rabs_Ropp; exact An).
    assert (Lc := cos_lip (- ang n j k) (- th)). assert (Lsn := sin_lip (- ang n j k) (- th)). assert (NU : 2 * u53 <= INR n * u53) by (apply Rmult_le_compat_r; lra).
    split; (split; [|apply Rabs_le; apply COS_bound || apply SIN_bound]).
    - replace (l_cos Lm (- ang n j k) - cos (- th)) with ((l_cos Lm (- ang n j k) - cos (- ang n j k)) + (cos (- ang n j k) - cos (- th))) by ring. eapply Rle_trans; [apply Rabs_triang|]. lra.
    - replace (l_sin Lm (- ang n j k) - sin (- th)) with ((l_sin Lm (- ang n j k) - sin (- ang n j k)) + (sin (- ang n j k) - sin (- th))) by ring. eapply Rle_trans; [apply Rabs_triang|]. lra. }
  set (K := 40 * INR n * u53 * A). assert (PK : 0 <= K) by (unfold K; repeat apply Rmult_le_pos; lra).
  assert (Er : forall k, (k < n)%nat -> Rabs (re_hat x k - fst (coef x k)) <= K /\ Rabs (im_hat x k - snd (coef x k)) <= K).
  { intros k Hk. unfold coef. rewrite Csum_fst, Csum_snd. fold n. split.
    - rewrite (RS_ext n _ (fun j => nth j x 0 * cos (- (2 * PI * INR (j * k) / INR n)))) by (intros j Hj; unfold ei; cbn [fst snd Cmult RtoC]; ring).
      apply (sum_error n x (fun j => l_cos Lm (- ang n j k)) (fun j => cos (- (2 * PI * INR (j * k) / INR n))) eq_refl H2 Hn Hv). intros j Hj. apply (Cs k Hk j Hj).
    - rewrite (RS_ext n _ (fun j => nth j x 0 * sin (- (2 * PI * INR (j * k) / INR n)))) by (intros j Hj; unfold ei; cbn [fst snd Cmult RtoC]; ring).
      apply (sum_error n x (fun j => l_sin Lm (- ang n j k)) (fun j => sin (- (2 * PI * INR (j * k) / INR n))) eq_refl H2 Hn Hv). intros j Hj. apply (Cs k Hk j Hj). }
  unfold fft_accurate. assert (Nx : x <> []) by (intros E; unfold n in H2; rewrite E in H2; cbn in H2; lia). rewrite (parseval_R x Nx). change (length x) with n. set (Q := RS n (fun j => nth j x 0 ^ 2)).
  assert (CS : A ^ 2 <= INR n * Q).
  { assert (C := RS_CS n (fun j => Rabs (nth j x 0)) (fun _ => 1)). cbv beta in C. rewrite (RS_ext n (fun k => Rabs (nth k x 0) * 1) (fun j => Rabs (nth j x 0))) in C by (intros; ring). fold A in C.
    rewrite (RS_ext n (fun k => Rabs (nth k x 0) ^ 2) (fun j => nth j x 0 ^ 2)) in C by (intros; apply pow2_abs). fold Q in C.
    rewrite (RS_ext n (fun _ => 1 ^ 2) (fun _ => 1)), RS_const in C by (intros; ring). lra. }
  apply Rle_trans with (RS n (fun _ => 2 * K ^ 2)).
  - apply RS_le. intros k Hk. destruct (Er k Hk) as [E1 E2]. rewrite <- (pow2_abs (re_hat x k - _)), <- (pow2_abs (im_hat x k - _)).
    assert (P1 := Rabs_pos (re_hat x k - fst (coef x k))). assert (P2 := Rabs_pos (im_hat x k - snd (coef x k))). nra.
  - rewrite RS_const. unfold direct_eta. set (r := sqrt (INR n)). assert (Rr : r * r = INR n) by (apply sqrt_sqrt; lra).
    replace (INR n * (2 * K ^ 2)) with (3200 * (INR n ^ 3 * u53 ^ 2) * A ^ 2) by (unfold K; ring).
    replace ((INR n * r / 2 ^ 47) ^ 2 * (INR n * Q)) with (4096 * (INR n ^ 3 * u53 ^ 2) * (INR n * Q)) by (rewrite U; replace (INR n ^ 3) with (INR n ^ 2 * (r * r)) by (rewrite Rr; ring); field).
    assert (PQ : 0 <= INR n * Q) by (assert (0 <= A ^ 2) by apply pow2_ge_0; lra).
    assert (P3 : 0 <= INR n ^ 3 * u53 ^ 2) by (apply Rmult_le_pos; [apply pow_le; lra|apply pow2_ge_0]).
    set (w := INR n ^ 3 * u53 ^ 2) in *. apply Rle_trans with (3200 * w * (INR n * Q)); [apply Rmult_le_compat_l; lra|]. apply Rmult_le_compat_r; lra.
Qed.

(** (c) The whole chain without any assumption about the FFT: for a record of 4 to 2^24 samples, evenly spaced up to 2^-35 s,
    Series(t, x).get_spectrum_raw().get_Hm0() is evaluated without failure in binary64, and its relative error is at most
    10 n sqrt(n) / 2^47 + (n + 7) / 2^49 *)
Lemma nearly_good t t0 dt : (2 <= length t)%nat -> nearly_uniform t t0 dt (/ 2 ^ 35) -> bpow radix2 (-13) <= dt -> good_axis t.
Proof.
  intros H2 Hu Hd. split; [exact H2|]. intros i Hi. replace (bpow radix2 (-13)) with (/ 8192) in Hd by (cbn; lra).
  assert (A := nearly_step t t0 dt _ i Hu Hi). assert (B := nearly_step t t0 dt _ 0 Hu ltac:(lia)). split; lra.
Qed.
Lemma direct_eta_small n : (4 <= n)%nat -> (Z.of_nat n <= 2 ^ 24)%Z -> 0 < direct_eta n <= / 1024.
Proof.
  intros H4 Hn. assert (N4 : 4 <= INR n) by (replace 4 with (INR 4) by (cbn; lra); apply le_INR; lia). assert (N24 : INR n <= 16777216) by (rewrite INR_IZR_INZ; apply IZR_le; lia).
  assert (S1 : 0 < sqrt (INR n)) by (apply sqrt_lt_R0; lra).
  assert (S2 : sqrt (INR n) <= 4096) by (rewrite <- (sqrt_pow2 4096) by lra; apply sqrt_le_1; lra).
  assert (Pr : 0 < INR n * sqrt (INR n) <= 16777216 * 4096) by (split; [apply Rmult_lt_0_compat; lra|apply Rmult_le_compat; lra]).
  unfold direct_eta. set (v := INR n * sqrt (INR n)) in *. lra.
Qed.
Theorem C91_record (t x : list R) (t0 dt : R) :
  trig_ok -> floats t -> floats x -> length t = length x -> (4 <= length t)%nat -> (Z.of_nat (length t) <= 2 ^ 24)%Z ->
  nearly_uniform t t0 dt (/ 2 ^ 35) -> bpow radix2 (-13) <= dt <= bpow radix2 8 -> INR (length t) * dt <= bpow radix2 27 ->
  (forall v, In v x -> v = 0 \/ / 2 ^ 900 <= Rabs v) -> (exists v, In v x /\ bpow radix2 (-300) <= Rabs v) ->
  exists se sp sx spx H H',
    series_init (N:=NX) (Arr (vec (F t))) (Arr (vec (F x))) = Ok sx
    /\ series_init (N:=NB) (Arr (vec (F t))) (Arr (vec (F x))) = Ok se /\ series_spectrum_raw (N:=NB) se (Fin 0) = Ok sp
    /\ series_spectrum_raw (N:=NX) sx (Fin 0) = Ok spx
    /\ snd (get_Hm0 (N:=NX) (Fin (-1)) (Fin (-1)) spx) = Ok (Fin H) /\ snd (get_Hm0 (N:=NB) (Fin (-1)) (Fin (-1)) sp) = Ok (Fin H')
    /\ 0 < H /\ Rabs (H' - H) <= (10 * (INR (length t) * sqrt (INR (length t)) / 2 ^ 47) + (INR (length t) + 7) / 2 ^ 49) * H.
Proof.
  intros Ht Ft Fx L H4 Hn Hu Hd HT Hx Hv.
  destruct (AxisProps.C16_close_to_uniform_accepted t x t0 dt (/ 2 ^ 35) (Arr (vec (F t))) (Arr (vec (F x))) L ltac:(lia) Hu) as (sx & _ & _ & Hsx & _); [| | |apply hv_flat|apply hv_flat|].
  1-3: assert (B13 : bpow radix2 (-13) = / 8192) by (cbn; lra); lra.
  destruct (C77_whole_chain t x t0 dt Ft Fx L ltac:(lia) ltac:(lia) Hu Hd HT Hx) as (se & sp & r & Hse & Hsp & _ & _ & _).
  destruct (C91_direct_sums x Ht ltac:(lia) ltac:(lia) Hv) as (re & im & HX & HF). rewrite <- L in HF.
  assert (Nx : x <> []) by (destruct x; [cbn in L; lia|discriminate]).
  destruct (C91_height t x (direct_eta (length t)) re im se sx sp (nearly_good t t0 dt ltac:(lia) Hu (proj1 Hd)) Nx H4 ltac:(lia)) as (spx & H & H' & E1 & E2 & E3 & E4 & E5); auto.
  - assert (S1 := nearly_step t t0 dt _ 0 Hu ltac:(lia)). assert (B8 : bpow radix2 8 = 256) by (cbn; lra). assert (B13 : bpow radix2 (-13) = / 8192) by (cbn; lra).
    assert (B14 : bpow radix2 (-14) = / 16384) by (cbn; lra). assert (B9 : bpow radix2 9 = 512) by (cbn; lra). split.
    + apply Rle_trans with (bpow radix2 (-14)); [apply bpow_le; lia|]. apply rnd_ge_float; [apply float_bpow; lia|]. lra.
    + apply Rle_trans with (bpow radix2 9); [|apply bpow_le; lia]. apply rnd_le_float; [apply float_bpow; lia|]. lra.
  - apply direct_eta_small; auto.
  - exists se, sp, sx, spx, H, H'. split; [exact Hsx|]. split; [exact Hse|]. split; [exact Hsp|]. split; [exact E1|]. split; [exact E2|]. split; [exact E3|]. split; [exact E4|exact E5].
Qed.
End AnyOrder.

(** the library that rounds the exact values correctly meets [trig_ok] *)
Lemma rounded_trig_ok : trig_ok (Lm := RoundDisper.rounded_libm).
Proof.
  assert (U := u53_val). assert (K : forall r, Rabs r <= 1 -> Rabs (rnd r - r) <= 1 / 2 ^ 50).
  { intros r Hr. assert (A := rnd_abs r). assert (B : bpow radix2 (-1020) <= bpow radix2 0) by (apply bpow_le; lia). change (bpow radix2 0) with 1 in B.
    assert (u53 * (Rabs r + bpow radix2 (-1020)) <= u53 * 2) by (apply Rmult_le_compat_l; [rewrite U; lra|lra]). rewrite U in *. lra. }
  intros y. split; cbn [l_cos l_sin RoundDisper.rounded_libm]; apply K; apply Rabs_le; [apply COS_bound|apply SIN_bound].
Qed.

(** the hypotheses of the three theorems hold of the samples 1, -3, 2, -1, 1, -5 at whole seconds *)
Definition t6 : list R := [0; 1; 2; 3; 4; 5].
Definition x6 : list R := [1; -3; 2; -1; 1; -5].
Example C91_witness {So : summation} : exists sx,
  trig_ok (Lm := RoundDisper.rounded_libm) /\ floats t6 /\ floats x6 /\ length t6 = length x6 /\ (4 <= length t6)%nat /\ (Z.of_nat (length t6) <= 2 ^ 24)%Z
  /\ nearly_uniform t6 0 1 (/ 2 ^ 35) /\ bpow radix2 (-13) <= 1 <= bpow radix2 8 /\ INR (length t6) * 1 <= bpow radix2 27
  /\ (forall v, In v x6 -> v = 0 \/ / 2 ^ 900 <= Rabs v) /\ (exists v, In v x6 /\ bpow radix2 (-300) <= Rabs v)
  /\ series_init (N:=NX) (Arr (vec (F t6))) (Arr (vec (F x6))) = Ok sx /\ good_axis t6
  /\ bpow radix2 (-20) <= rnd (nth 1 t6 0 - nth 0 t6 0) <= bpow radix2 20
  /\ (exists se sp, series_init (N:=NB (Lm := RoundDisper.rounded_libm)) (Arr (vec (F t6))) (Arr (vec (F x6))) = Ok se
       /\ series_spectrum_raw (N:=NB (Lm := RoundDisper.rounded_libm)) se (Fin 0) = Ok sp)
  /\ exists eta re im, 0 < eta <= / 1024 /\ fft_is (Lm := RoundDisper.rounded_libm) x6 re im /\ fft_accurate eta x6 re im.
Proof.
  assert (Fl : forall z, (Z.abs z <= 2 ^ 53)%Z -> is_float (IZR z)) by (intros z Hz; apply float_Z; exact Hz).
  assert (Ft : floats t6) by (intros v [<-|[<-|[<-|[<-|[<-|[<-|[]]]]]]]; apply Fl; cbn; lia).
  assert (Fx : floats x6) by (intros v [<-|[<-|[<-|[<-|[<-|[<-|[]]]]]]]; apply Fl; cbn; lia).
  assert (Ax : t6 = axis 0 1 (length x6)) by (unfold t6, axis, x6; cbn [length seq map INR]; repeat (apply f_equal2; [lra|]); reflexivity).
  assert (Hu : nearly_uniform t6 0 1 (/ 2 ^ 35)).
  { intros i Hi. rewrite Ax. unfold axis. rewrite (nth_indep _ 0 ((fun k => 0 + INR k * 1) 0%nat)) by (rewrite map_length, seq_length; exact Hi).
    rewrite (map_nth (fun k => 0 + INR k * 1)), seq_nth by exact Hi. cbn [Nat.add]. rewrite Rminus_diag_eq, Rabs_R0 by reflexivity. lra. }
  assert (B1 : bpow radix2 (-13) <= 1 <= bpow radix2 8) by (change 1 with (bpow radix2 0); split; apply bpow_le; lia).
  assert (NT : INR (length t6) * 1 <= bpow radix2 27) by (cbn; lra).
  assert (Hx : forall v, In v x6 -> v = 0 \/ / 2 ^ 900 <= Rabs v).
  { intros v Hv. right. apply Rle_trans with 1; [rewrite <- Rinv_1; apply Rinv_le_contravar; [lra|apply pow_R1_Rle; lra]|].
    destruct Hv as [<-|[<-|[<-|[<-|[<-|[<-|[]]]]]]]; unfold Rabs; destruct (Rcase_abs _); lra. }
  assert (Hv : exists v, In v x6 /\ bpow radix2 (-300) <= Rabs v).
  { exists 1. split; [left; reflexivity|]. rewrite Rabs_R1. change 1 with (bpow radix2 0). apply bpow_le. lia. }
  destruct (C16_uniform_accepted 0 1 x6 (Arr (vec (F t6))) (Arr (vec (F x6))) ltac:(lra) ltac:(cbn; lia)) as (sx & tc & ws & EX & _).
  { rewrite <- Ax. apply hv_flat. } { apply hv_flat. }
  exists sx. split; [exact rounded_trig_ok|]. split; [exact Ft|]. split; [exact Fx|]. split; [reflexivity|]. split; [cbn; lia|]. split; [cbn; lia|].
  split; [exact Hu|]. split; [exact B1|]. split; [exact NT|]. split; [exact Hx|]. split; [exact Hv|]. split; [exact EX|].
  split; [apply (nearly_good t6 0 1); [cbn; lia|exact Hu|apply B1]|]. split.
  { cbn [nth t6]. rewrite rnd_id by (replace (1 - 0) with 1 by ring; apply float_1). replace (1 - 0) with 1 by ring. change 1 with (bpow radix2 0). split; apply bpow_le; lia. }
  split.
  { destruct (C77_whole_chain (Lm := RoundDisper.rounded_libm) t6 x6 0 1 Ft Fx eq_refl ltac:(cbn; lia) ltac:(cbn; lia) Hu B1 NT Hx) as (se & sp & r & Hse & Hsp & _). exists se, sp. split; [exact Hse|exact Hsp]. }
  destruct (C91_direct_sums (Lm := RoundDisper.rounded_libm) x6 rounded_trig_ok ltac:(cbn; lia) ltac:(cbn; lia) Hv) as (re & im & HX & HF).
  exists (direct_eta (length x6)), re, im. split; [apply direct_eta_small; cbn; lia|]. split; [exact HX|exact HF].
Qed.
