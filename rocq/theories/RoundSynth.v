(** * C94: the synthesis of a record in binary64.
    The time axis that spectrum2timeseries makes with np.arange, as floating point makes it; when the samples are numbers; and two
    ways in which they are not what exact arithmetic gives: one sample too many, and a record of nan from a non-negative spectrum. *)

From Coq Require Import Reals ZArith String List Bool Lra Lia Psatz.
From Flocq Require Import Core.
From Flocq Require Import Sterbenz.
From Coquelicot Require Import Complex.
From Verif Require Import SumOrder Num XR Spec XRFacts RoundNum Engine EngineProps Cpx SpectralModel WaveModel SpectrumModel SeriesModel SeriesProps DFT FourierSpec FourierFacts FourierProps
  RSum TimeModel TimeSpec RoundProps RoundWave RoundSpec RoundChain RoundAccuracy RoundRecord RoundFFT RoundTrip SynthProps.
From Verif Require TimeProps RoundDisper.
Import ListNotations.
Open Scope R_scope.
#[local] Instance prec53 : Prec_gt_0 53 := eq_refl.
#[local] Instance fexp64_valid : Valid_exp fexp64 := FLT_exp_valid (-1074) 53.
#[local] Instance fexp64_mono : Monotone_exp fexp64 := FLT_exp_monotone (-1074) 53.

(** evaluation of one rounding: [e] is the binary exponent, [m] the significand *)
Lemma rnd_at (e m : Z) (r : R) : (-1021 <= e)%Z -> bpow radix2 (e - 1) <= Rabs r < bpow radix2 e ->
  Rabs (r * bpow radix2 (53 - e) - IZR m) < / 2 -> rnd r = IZR m * bpow radix2 (e - 53).
Proof.
  intros He Hr Hm. unfold rnd, round, F2R. cbn [Fnum Fexp].
  assert (Mg : mag radix2 r = e :> Z) by (apply mag_unique; exact Hr).
  assert (Fe : fexp64 e = (e - 53)%Z) by (unfold fexp64, FLT_exp; lia).
  unfold scaled_mantissa, cexp. rewrite Mg, Fe. f_equal. f_equal. apply Znearest_imp. replace (- (e - 53))%Z with (53 - e)%Z by lia. exact Hm.
Qed.

(** ties go to the even significand *)
Lemma rnd_tie (e m : Z) (r : R) : (-1021 <= e)%Z -> bpow radix2 (e - 1) <= Rabs r < bpow radix2 e -> Z.even m = true ->
  r * bpow radix2 (53 - e) = IZR m + / 2 \/ r * bpow radix2 (53 - e) = IZR m - / 2 -> rnd r = IZR m * bpow radix2 (e - 53).
Proof.
  intros He Hr Ev Hm. unfold rnd, round, F2R. cbn [Fnum Fexp].
  assert (Mg : mag radix2 r = e :> Z) by (apply mag_unique; exact Hr).
  assert (Fe : fexp64 e = (e - 53)%Z) by (unfold fexp64, FLT_exp; lia).
  unfold scaled_mantissa, cexp. rewrite Mg, Fe. f_equal. f_equal. replace (- (e - 53))%Z with (53 - e)%Z by lia.
  unfold Znearest. destruct Hm as [Hm|Hm]; rewrite Hm.
  - assert (Fl : Zfloor (IZR m + / 2) = m) by (apply Zfloor_imp; rewrite plus_IZR; lra). rewrite Fl. rewrite Rcompare_Eq by lra. rewrite Ev. reflexivity.
  - assert (Fl : Zfloor (IZR m - / 2) = (m - 1)%Z) by (apply Zfloor_imp; rewrite plus_IZR, minus_IZR; lra). rewrite Fl, minus_IZR. rewrite Rcompare_Eq by lra.
    replace (Z.even (m - 1)) with false by (rewrite Z.even_sub, Ev; reflexivity). cbn [negb]. apply Zceil_imp. rewrite minus_IZR. lra.
Qed.

Section AnyOrder.
Context {So : summation} {Lm : libm}.

(** ** np.arange *)
Definition spacing (a h : R) : R := rnd (rnd (a + h) - a).
Definition tick (a h : R) (k : nat) : R :=
  match k with O => a | 1%nat => rnd (a + h) | _ => rnd (a + rnd (INR k * spacing a h)) end.
Lemma ceil_floor q n : ceil_is q n -> Rfloor (- q) = (- Z.of_nat n)%Z.
Proof. intros [A B]. apply Rfloor_unique. rewrite opp_IZR, <- INR_IZR_INZ. lra. Qed.
Lemma arange_NB a b h n : h <> 0 -> (Z.of_nat n <= 2 ^ 53)%Z -> ceil_is (rnd (rnd (b - a) / h)) n ->
  np_arange (N:=NB) (Fin a) (Fin b) (Fin h) = Ok (F (map (tick a h) (seq 0 n))).
Proof.
  intros Hh Hn Hc. unfold np_arange. rewrite nb_0. change (neqb (n:=NB) (Fin h) (Fin 0)) with (Reqb h 0).
  rewrite Reqb_false by exact Hh. rewrite nb_sub, nb_div by exact Hh. unfold nceil.
  change (nopp (n:=NB) (Fin ?r)) with (Fin (- r)). change (nfloor (n:=NB) (Fin ?r)) with (Some (Rfloor r)). cbn match.
  rewrite (ceil_floor _ n Hc), Z.opp_involutive, Nat2Z.id. f_equal. unfold F. rewrite map_map. apply map_ext_in. intros i Hi. apply in_seq in Hi.
  destruct i as [|[|i]]; [reflexivity|reflexivity|]. rewrite nb_ofnat by lia. reflexivity.
Qed.
Lemma ceil_nonneg q : exists n, ceil_is q n \/ q <= -1 \/ (-1 < q <= 0 /\ n = 0%nat).
Proof.
  destruct (Rlt_le_dec (-1) q) as [H|H]; [|exists 0%nat; auto].
  destruct (Rle_lt_dec q 0); [exists 0%nat; right; right; split; [lra|reflexivity]|]. destruct (ceil_exists q ltac:(lra)) as (n & Hn). exists n. auto.
Qed.

(** ** The time axis *)
Record times (a b h : R) : Prop := {
  t_fl : is_float a /\ is_float b /\ is_float h;
  t_a : Rabs a <= bpow radix2 16;
  t_b : Rabs b <= bpow radix2 16;
  t_h : bpow radix2 (-13) <= h <= bpow radix2 8;
  t_ab : a <= b }.

(** the quotient of which the ceiling is the number of samples *)
Definition quot (a b h : R) : R := rnd (rnd (rnd (b + h) - a) / h).
Lemma quot_near a b h : times a b h -> Rabs (quot a b h - ((b - a) / h + 1)) <= / (2 ^ 34 * h) /\ 0 < (b - a) / h + 1 <= bpow radix2 31.
Proof.
  intros [_ Ha Hb [H1 H2] Hab]. assert (P := b_pos (-13)).
  replace (bpow radix2 16) with 65536 in * by (cbn; lra). replace (bpow radix2 8) with 256 in * by (cbn; lra). replace (bpow radix2 (-13)) with (/ 8192) in * by (cbn; lra).
  apply Rabs_le_inv in Ha, Hb. assert (E1 : Rabs (rnd (b + h) - (b + h)) <= bpow radix2 (-37)).
  { change (-37)%Z with (17 - 54)%Z. apply rnd_err; [lia|]. replace (bpow radix2 17) with 131072 by (cbn; lra). apply Rabs_le. lra. }
  replace (bpow radix2 (-37)) with (/ 137438953472) in E1 by (cbn; lra). set (b' := rnd (b + h)) in *. apply Rabs_le_inv in E1.
  assert (E2 : Rabs (rnd (b' - a) - (b' - a)) <= bpow radix2 (-36)).
  { change (-36)%Z with (18 - 54)%Z. apply rnd_err; [lia|]. replace (bpow radix2 18) with 262144 by (cbn; lra). apply Rabs_le. lra. }
  replace (bpow radix2 (-36)) with (/ 68719476736) in E2 by (cbn; lra). set (w := rnd (b' - a)) in *. apply Rabs_le_inv in E2.
  set (i := / h). assert (Hi : / 256 <= i <= 8192).
  { unfold i. split; [apply Rinv_le_contravar; lra|]. rewrite <- (Rinv_inv 8192). apply Rinv_le_contravar; lra. }
  assert (Hh : h * i = 1) by (apply Rinv_r; lra).
  assert (Er : (b - a) / h + 1 = (b + h - a) * i) by (unfold Rdiv, i; field; lra). rewrite Er.
  assert (Q : Rabs (w * i) <= bpow radix2 31).
  { replace (bpow radix2 31) with 2147483648 by (cbn; lra). apply Rabs_le. split; nra. }
  assert (E3 : Rabs (quot a b h - w * i) <= bpow radix2 (-23)) by (change (-23)%Z with (31 - 54)%Z; apply rnd_err; [lia|exact Q]).
  split.
  2:{ split; [apply Rmult_lt_0_compat; lra|]. replace (bpow radix2 31) with 2147483648 by (cbn; lra). nra. }
  assert (E3' : Rabs (quot a b h - w * i) <= u53 * (Rabs (w * i) + bpow radix2 (-1020))) by apply rnd_abs.
  assert (B1020 : bpow radix2 (-1020) <= bpow radix2 (-20)) by (apply bpow_le; lia). replace (bpow radix2 (-20)) with (/ 1048576) in B1020 by (cbn; lra).
  assert (Aw : Rabs (w * i) <= 140000 * i) by (apply Rabs_le; split; nra).
  rewrite u53_val in E3'.
  assert (E4 : Rabs (w * i - (b + h - a) * i) <= 3 / 137438953472 * i).
  { rewrite <- Rmult_minus_distr_r, Rabs_mult, (Rabs_pos_eq i) by lra. apply Rmult_le_compat_r; [lra|]. apply Rabs_le. lra. }
  rewrite Rinv_mult. fold i. replace (quot a b h - (b + h - a) * i) with ((quot a b h - w * i) + (w * i - (b + h - a) * i)) by ring.
  eapply Rle_trans; [apply Rabs_triang|]. lra.
Qed.

Lemma tick_near a b h k : times a b h -> INR k * h <= b - a + 2 * h ->
  Rabs (spacing a h - h) <= / 2 ^ 37 + / 2 ^ 45 /\ Rabs (tick a h k - (a + INR k * spacing a h)) <= 3 / 2 ^ 37 /\ Rabs (tick a h k - (a + INR k * h)) <= (INR k + 2) / 2 ^ 36.
Proof.
  intros [_ Ha Hb [H1 H2] Hab] Hk.
  replace (bpow radix2 16) with 65536 in * by (cbn; lra). replace (bpow radix2 8) with 256 in * by (cbn; lra). replace (bpow radix2 (-13)) with (/ 8192) in * by (cbn; lra).
  apply Rabs_le_inv in Ha, Hb. assert (Pk := pos_INR k).
  assert (E1 : Rabs (rnd (a + h) - (a + h)) <= bpow radix2 (-37)).
  { change (-37)%Z with (17 - 54)%Z. apply rnd_err; [lia|]. replace (bpow radix2 17) with 131072 by (cbn; lra). apply Rabs_le. lra. }
  replace (bpow radix2 (-37)) with (/ 2 ^ 37) in E1 by (cbn; lra).
  assert (E1' := E1). apply Rabs_le_inv in E1'.
  assert (E2 : Rabs (spacing a h - (rnd (a + h) - a)) <= bpow radix2 (-45)).
  { change (-45)%Z with (9 - 54)%Z. apply rnd_err; [lia|]. replace (bpow radix2 9) with 512 by (cbn; lra). apply Rabs_le. lra. }
  replace (bpow radix2 (-45)) with (/ 2 ^ 45) in E2 by (cbn; lra).
  assert (E2' := E2). apply Rabs_le_inv in E2'. unfold tick. set (d := spacing a h) in *. set (a1 := rnd (a + h)) in *. clearbody d a1.
  assert (Ed : Rabs (d - h) <= / 2 ^ 37 + / 2 ^ 45) by (apply Rabs_le; lra). split; [exact Ed|]. apply Rabs_le_inv in Ed.
  assert (K31 : INR k <= 2147483648) by nra.
  assert (Kd : INR k * (d - h) <= INR k * (/ 2 ^ 37 + / 2 ^ 45) /\ - (INR k * (/ 2 ^ 37 + / 2 ^ 45)) <= INR k * (d - h)).
  { split; [apply Rmult_le_compat_l; lra|]. replace (- (INR k * (/ 2 ^ 37 + / 2 ^ 45))) with (INR k * - (/ 2 ^ 37 + / 2 ^ 45)) by ring. apply Rmult_le_compat_l; lra. }
  destruct k as [|[|k]].
  - cbn [INR]. rewrite !Rmult_0_l, Rplus_0_r, Rminus_eq_0, Rabs_R0. split; lra.
  - cbn [INR]. split; apply Rabs_le; lra.
  - set (K := INR (S (S k))) in *. clearbody K.
    assert (Ph : 0 <= K * h) by (apply Rmult_le_pos; lra).
    assert (E3 : Rabs (rnd (K * d) - K * d) <= bpow radix2 (-36)).
    { change (-36)%Z with (18 - 54)%Z. apply rnd_err; [lia|]. replace (bpow radix2 18) with 262144 by (cbn; lra). apply Rabs_le. lra. }
    replace (bpow radix2 (-36)) with (/ 2 ^ 36) in E3 by (cbn; lra). apply Rabs_le_inv in E3.
    assert (E4 : Rabs (rnd (a + rnd (K * d)) - (a + rnd (K * d))) <= bpow radix2 (-37)).
    { change (-37)%Z with (17 - 54)%Z. apply rnd_err; [lia|]. replace (bpow radix2 17) with 131072 by (cbn; lra). apply Rabs_le. lra. }
    replace (bpow radix2 (-37)) with (/ 2 ^ 37) in E4 by (cbn; lra). apply Rabs_le_inv in E4. split; apply Rabs_le; lra.
Qed.
(** counting from 0 the spacing is exactly the step *)
Lemma tick_zero b h k : times 0 b h -> INR k * h <= b + 2 * h -> tick 0 h k = rnd (INR k * h) /\ Rabs (tick 0 h k - INR k * h) <= / 2 ^ 36.
Proof.
  intros [(_ & _ & Fh) _ Hb [H1 H2] Hab] Hk. assert (E : tick 0 h k = rnd (INR k * h)).
  { destruct k as [|[|k]]; unfold tick, spacing.
    - cbn [INR]. rewrite Rmult_0_l, rnd_id by apply float_0. reflexivity.
    - cbn [INR]. rewrite Rplus_0_l, Rmult_1_l. reflexivity.
    - rewrite !Rplus_0_l, Rminus_0_r, (rnd_id h), (rnd_id h) by exact Fh. apply rnd_id, rnd_float. }
  split; [exact E|]. rewrite E. replace (/ 2 ^ 36) with (bpow radix2 (18 - 54)) by (cbn; lra). apply rnd_err; [lia|].
  replace (bpow radix2 16) with 65536 in * by (cbn; lra). replace (bpow radix2 8) with 256 in * by (cbn; lra). replace (bpow radix2 (-13)) with (/ 8192) in * by (cbn; lra).
  apply Rabs_le_inv in Hb. replace (bpow radix2 18) with 262144 by (cbn; lra). assert (Pk := pos_INR k). assert (0 <= INR k * h) by (apply Rmult_le_pos; lra). apply Rabs_le. lra.
Qed.

(** the number of samples that exact arithmetic gives *)
Lemma count_NB a b h : times a b h -> exists n c, ceil_is ((b - a) / h + 1) n /\ ceil_is (quot a b h) c /\ (1 <= c)%nat
  /\ (c = n \/ c = S n \/ n = S c) /\ ((forall k : nat, / (2 ^ 34 * h) < Rabs ((b - a) / h - INR k)) -> c = n)
  /\ (Z.of_nat c <= 2 ^ 32)%Z /\ INR (c - 1) * h <= b - a + 2 * h.
Proof.
  intros H. destruct (quot_near a b h H) as [E [P31 B31]]. destruct H as [_ Ha Hb [H1 H2] Hab].
  assert (Pi : 0 < / h <= 8192).
  { split; [apply Rinv_0_lt_compat; assert (P := b_pos (-13)); lra|]. replace (bpow radix2 (-13)) with (/ 8192) in H1 by (cbn; lra). rewrite <- (Rinv_inv 8192). apply Rinv_le_contravar; lra. }
  assert (Hh : h * / h = 1) by (apply Rinv_r; intros Z; rewrite Z, Rinv_0 in Pi; lra).
  assert (Ph : 0 < h) by (assert (P := b_pos (-13)); lra).
  assert (E0 : / (2 ^ 34 * h) <= / 2 ^ 21) by (rewrite Rinv_mult; lra). assert (Ep : 0 < / (2 ^ 34 * h)) by (rewrite Rinv_mult; apply Rmult_lt_0_compat; lra).
  set (e := / (2 ^ 34 * h)) in *. set (r := (b - a) / h + 1) in *.
  assert (Er : (b - a) / h = r - 1) by (unfold r; lra). assert (R1 : 1 <= r) by (unfold r, Rdiv; assert (0 <= (b - a) * / h) by (apply Rmult_le_pos; lra); lra).
  assert (Eh : b - a + 2 * h = (r + 1) * h) by (unfold r, Rdiv; field; lra). rewrite Er, Eh.
  replace (bpow radix2 31) with 2147483648 in B31 by (cbn; lra). clearbody e r.
  apply Rabs_le_inv in E. destruct (ceil_exists r P31) as (n & Hn). destruct (ceil_exists (quot a b h) ltac:(lra)) as (c & Hc). exists n, c. split; [exact Hn|]. split; [exact Hc|].
  set (q := quot a b h) in *. clearbody q. unfold ceil_is in *.
  assert (C1 : (c < n + 2)%nat) by (apply INR_lt; rewrite plus_INR; cbn [INR]; lra). assert (C2 : (n < c + 2)%nat) by (apply INR_lt; rewrite plus_INR; cbn [INR]; lra).
  assert (C0 : (1 <= c)%nat) by (destruct c; [cbn [INR] in Hc; lra|lia]).
  split; [exact C0|]. split; [lia|]. split; [|split].
  - intros Hk. destruct (Nat.lt_trichotomy c n) as [L|[L|L]]; [|exact L|]; exfalso.
    + assert (n = S c) as -> by lia. rewrite S_INR in Hn. specialize (Hk (c - 1)%nat). rewrite minus_INR in Hk by lia. cbn [INR] in Hk. revert Hk. apply Rle_not_lt, Rabs_le. lra.
    + assert (c = S n) as -> by lia. rewrite S_INR in Hc. specialize (Hk (n - 1)%nat). assert (1 <= n)%nat by (destruct n; [cbn [INR] in Hn; lra|lia]). rewrite minus_INR in Hk by lia. cbn [INR] in Hk. revert Hk. apply Rle_not_lt, Rabs_le. lra.
  - apply le_IZR. rewrite <- INR_IZR_INZ. change (IZR (2 ^ 32)) with 4294967296. lra.
  - rewrite minus_INR by lia. cbn [INR]. apply Rmult_le_compat_r; lra.
Qed.

(** ** Interpolation: when the interpolated density is not negative *)
Lemma float_gap x y : is_float x -> is_float y -> 0 <= x < y -> x * u53 < y - x.
Proof.
  intros Fx Fy [H0 H]. assert (S := succ_le_lt radix2 fexp64 x y Fx Fy H). rewrite succ_eq_pos in S by exact H0.
  assert (G := ulp_FLT_gt radix2 (-1074) 53 x). fold fexp64 in G. rewrite Rabs_pos_eq in G by exact H0. unfold u53 in *. change (- (53))%Z with (-53)%Z in G. lra.
Qed.
(** either the densities do not fall by more than 2^40 times, or both differences of frequencies are exact *)
Definition safe_step (xa xb ya yb : R) : Prop := ya <= bpow radix2 40 * yb \/ xa = 0 \/ xb <= 2 * xa.
Definition line_NB (xa xb ya yb x : R) : R := rnd (rnd (rnd (rnd (yb - ya) / rnd (xb - xa)) * rnd (x - xa)) + ya).
Lemma line_nonneg xa xb ya yb x : is_float xa -> is_float xb -> is_float ya -> is_float yb -> is_float x ->
  0 <= xa -> xa <= x < xb -> xb <= bpow radix2 60 -> 0 <= ya -> 0 <= yb -> (ya = 0 \/ bpow radix2 (-900) <= ya) -> (yb = 0 \/ bpow radix2 (-900) <= yb) ->
  safe_step xa xb ya yb -> 0 <= line_NB xa xb ya yb x.
Proof.
  intros Fa Fb Ga Gb Fx Ha Hx Hb Pa Pb Ta Tb Hs. unfold line_NB. set (X := rnd (x - xa)). set (D := rnd (xb - xa)).
  assert (PX : 0 <= X) by (apply rnd_ge_float; [apply float_0|lra]). assert (PD : 0 < D) by (apply rnd_diff_pos; auto; lra). assert (XD : X <= D) by (apply rnd_le; lra).
  assert (Ui : 0 < / D) by (apply Rinv_0_lt_compat, PD).
  apply rnd_ge_float; [apply float_0|].
  destruct (Rle_lt_dec ya yb) as [L|L].
  { assert (0 <= rnd (yb - ya)) by (apply rnd_ge_float; [apply float_0|lra]).
    assert (0 <= rnd (rnd (yb - ya) / D)) by (apply rnd_ge_float; [apply float_0|apply Rmult_le_pos; lra]).
    assert (0 <= rnd (rnd (rnd (yb - ya) / D) * X)) by (apply rnd_ge_float; [apply float_0|apply Rmult_le_pos; lra]). lra. }
  assert (Ya : bpow radix2 (-900) <= ya) by (destruct Ta; lra). assert (U := u53_val). assert (P900 := b_pos (-900)).
  set (g := rnd (ya - yb)). assert (Eg : rnd (yb - ya) = - g) by (unfold g; rewrite <- rnd_opp; f_equal; ring). rewrite Eg.
  replace (- g / D) with (- (g / D)) by (unfold Rdiv; ring). rewrite rnd_opp. replace (- rnd (g / D) * X) with (- (rnd (g / D) * X)) by ring. rewrite rnd_opp.
  assert (G1 : g <= ya) by (apply rnd_le_float; [exact Ga|lra]).
  assert (Gap : bpow radix2 (-953) <= ya - yb).
  { destruct Tb as [->|Tb]; [apply Rle_trans with (bpow radix2 (-900)); [apply bpow_le; lia|lra]|].
    assert (Q := float_gap yb ya Gb Ga ltac:(lra)). replace (-953)%Z with (-900 + -53)%Z by lia. rewrite bpow_plus. fold u53. assert (bpow radix2 (-900) * u53 <= yb * u53) by (apply Rmult_le_compat_r; lra). lra. }
  assert (G2 : bpow radix2 (-953) <= g) by (apply rnd_ge_float; [apply float_bpow; lia|exact Gap]). assert (P953 := b_pos (-953)).
  assert (D60 : D <= bpow radix2 60) by (apply rnd_le_float; [apply float_bpow; lia|lra]).
  assert (GD : bpow radix2 (-1020) <= g / D).
  { apply Rle_trans with (bpow radix2 (-953) * / bpow radix2 60).
    - rewrite <- bpow_opp, <- bpow_plus. apply bpow_le. lia.
    - unfold Rdiv. apply Rmult_le_compat; try lra; [apply Rlt_le, Rinv_0_lt_compat, b_pos|apply Rinv_le_contravar; lra]. }
  destruct (rnd_rel _ GD) as [_ S]. fold u53 in S. set (s := rnd (g / D)) in *.
  assert (Ps : 0 <= s) by (apply rnd_ge_float; [apply float_0|]; assert (Q := b_pos (-1020)); lra).
  assert (sD : s * D <= g * (1 + u53)).
  { apply Rle_trans with (g / D * (1 + u53) * D); [apply Rmult_le_compat_r; lra|]. right. field. lra. }
  assert (K : s * X <= ya).
  { destruct Hs as [Hs|Hs].
    - assert (g <= ya * (1 - bpow radix2 (-40)) * (1 + u53)).
      { assert (Gy : bpow radix2 (-1020) <= ya - yb) by (eapply Rle_trans; [|exact Gap]; apply bpow_le; lia).
        destruct (rnd_rel _ Gy) as [_ Q]. fold u53 in Q. fold g in Q. eapply Rle_trans; [exact Q|]. apply Rmult_le_compat_r; [lra|].
        assert (Ey : ya * bpow radix2 (-40) <= yb).
        { assert (I40 : bpow radix2 40 * bpow radix2 (-40) = 1) by (rewrite <- bpow_plus; reflexivity). assert (P40 := b_pos (-40)).
          apply Rle_trans with (bpow radix2 40 * yb * bpow radix2 (-40)); [apply Rmult_le_compat_r; lra|]. right. replace (bpow radix2 40 * yb * bpow radix2 (-40)) with (yb * (bpow radix2 40 * bpow radix2 (-40))) by ring. rewrite I40. ring. }
        lra. }
      replace (bpow radix2 (-40)) with (/ 2 ^ 40) in H by (cbn; lra).
      assert (s * X <= s * D) by (apply Rmult_le_compat_l; lra). rewrite U in *. lra.
    - assert (EX : X = x - xa /\ D = xb - xa).
      { destruct Hs as [->|Hs]; [unfold X, D; rewrite !Rminus_0_r, !rnd_id by assumption; auto|].
        split; apply rnd_id; apply sterbenz; try typeclasses eauto; first [assumption|lra]. }
      destruct EX as [EX ED]. assert (Gp := float_gap x xb Fx Fb ltac:(lra)).
      assert (Q : X * (1 + u53) <= D).
      { rewrite EX, ED. assert (0 <= xa * u53) by (apply Rmult_le_pos; lra). lra. }
      apply Rle_trans with g; [|exact G1]. apply Rmult_le_reg_r with (1 + u53); [lra|]. apply Rle_trans with (s * D); [|lra].
      rewrite Rmult_assoc. apply Rmult_le_compat_l; lra. }
  assert (R1 : rnd (s * X) <= ya) by (apply rnd_le_float; [exact Ga|exact K]). lra.
Qed.

Lemma nodes_nonneg : forall f D xa ya x, floats f -> floats D -> is_float xa -> is_float ya -> is_float x -> increasing (xa :: f) -> length D = length f ->
  0 <= xa -> xa <= x -> (forall v, In v f -> v <= bpow radix2 60) -> 0 <= ya -> (ya = 0 \/ bpow radix2 (-900) <= ya) ->
  (forall y, In y D -> y = 0 \/ bpow radix2 (-900) <= y) ->
  (forall i, (S i <= length f)%nat -> safe_step (nth i (xa :: f) 0) (nth (S i) (xa :: f) 0) (nth i (ya :: D) 0) (nth (S i) (ya :: D) 0)) ->
  exists s, interp_from (N:=NB) (Fin x) (Fin xa) (Fin ya) (List.combine (F f) (F D)) = Fin s /\ 0 <= s.
Proof.
  induction f as [|xb f IH]; intros D xa ya x Ff FD Fa Ga Fx Hi Hl H0 Hx H60 Py Ty HD Hs.
  - destruct D; [|discriminate]. cbn [F map List.combine interp_from]. rewrite nb_ltb, nb_0. destruct (Rltb xa x); [exists 0; split; [reflexivity|lra]|exists ya; auto].
  - destruct D as [|yb D]; [discriminate|]. cbn [F map List.combine interp_from]. rewrite nb_leb.
    assert (P900 := b_pos (-900)).
    assert (Hab : xa < xb) by (apply (Hi 0%nat 1%nat); cbn; lia).
    assert (Pyb : 0 <= yb) by (destruct (HD yb (or_introl eq_refl)); lra).
    destruct (Rleb_spec xb x) as [L|L].
    + apply (IH D xb yb x); auto.
      * intros v Hv. apply Ff. right. exact Hv.
      * intros v Hv. apply FD. right. exact Hv.
      * apply Ff. left. reflexivity.
      * apply FD. left. reflexivity.
      * intros k k' Hk. apply (Hi (S k) (S k')). cbn [length] in *. lia.
      * lra.
      * intros v Hv. apply H60. right. exact Hv.
      * apply HD. left. reflexivity.
      * intros y Hy. apply HD. right. exact Hy.
      * intros i Hk. apply (Hs (S i)). cbn [length]. lia.
    + exists (line_NB xa xb ya yb x). split.
      * rewrite !nb_sub. rewrite nb_div by (apply Rgt_not_eq, rnd_diff_pos; first [exact Fa|apply Ff; left; reflexivity|lra]). rewrite nb_mul, nb_add. reflexivity.
      * apply line_nonneg; auto; try (apply Ff; left; reflexivity); try (apply FD; left; reflexivity); try lra.
        -- apply H60. left. reflexivity.
        -- apply HD. left. reflexivity.
        -- apply (Hs 0%nat). cbn [length]. lia.
Qed.
(** the densities a synthesis is given: at increasing frequencies from 0 upwards, neither negative nor tiny *)
Record densities (f D : list R) : Prop := {
  d_fl : floats f /\ floats D;
  d_len : length D = length f /\ f <> [];
  d_inc : increasing f;
  d_pos : forall v, In v f -> 0 <= v <= bpow radix2 60;
  d_val : forall y, In y D -> y = 0 \/ bpow radix2 (-900) <= y;
  d_step : forall i, (S i < length f)%nat -> safe_step (nth i f 0) (nth (S i) f 0) (nth i D 0) (nth (S i) D 0) }.
Lemma interp_NB f D x : densities f D -> is_float x -> exists s, np_interp (N:=NB) (F f) (F D) (Fin x) = Ok (Fin s) /\ 0 <= s.
Proof.
  intros [[Ff FD] [Hl Hn] Hi Hp Hv Hs] Fx. destruct f as [|xa f]; [contradiction|]. destruct D as [|ya D]; [discriminate|].
  unfold np_interp. cbn [F map List.combine]. rewrite nb_ltb, nb_0. destruct (Rltb_spec x xa) as [L|L]; [exists 0; split; [reflexivity|lra]|].
  assert (P900 := b_pos (-900)). assert (Pya : 0 <= ya) by (destruct (Hv ya (or_introl eq_refl)); lra).
  assert (NN : exists s, interp_from (N:=NB) (Fin x) (Fin xa) (Fin ya) (List.combine (F f) (F D)) = Fin s /\ 0 <= s).
  { apply nodes_nonneg.
    - intros v Hw. apply Ff. right. exact Hw.
    - intros v Hw. apply FD. right. exact Hw.
    - apply Ff. left. reflexivity.
    - apply FD. left. reflexivity.
    - exact Fx.
    - exact Hi.
    - apply Nat.succ_inj. exact Hl.
    - apply Hp. left. reflexivity.
    - lra.
    - intros v Hw. apply Hp. right. exact Hw.
    - exact Pya.
    - apply Hv. left. reflexivity.
    - intros y Hy. apply Hv. right. exact Hy.
    - intros i Hk. apply Hs. cbn [length]. lia. }
  destruct NN as (s & E & P). exists s. split; [|exact P]. apply f_equal. exact E.
Qed.

Lemma float_double h : is_float h -> is_float (2 * h).
Proof.
  intros H. apply FLT_format_generic in H; [|typeclasses eauto]. destruct H as [[m e] -> Hm He]. cbn [Fnum Fexp] in *. unfold F2R. cbn [Fnum Fexp].
  replace (2 * (IZR m * bpow radix2 e)) with (IZR m * bpow radix2 (e + 1)) by (rewrite bpow_plus; cbn [bpow]; change (Z.pow_pos radix2 1) with 2%Z; ring).
  apply float_scaled; [|lia]. apply Z.lt_le_incl. exact Hm.
Qed.
(** ** The frequencies that the synthesis uses: half as many as the samples *)
Lemma gen_count h m : is_float h -> bpow radix2 (-13) <= h <= bpow radix2 8 -> (1 <= m)%nat -> (Z.of_nat m <= 2 ^ 32)%Z ->
  let T := rnd (INR (2 * m) * h) in let df := rnd (1 / T) in
  0 < T /\ 0 < df /\ ceil_is (rnd (rnd (rnd (rnd (1 / rnd (2 * h)) + rnd (df / 2)) - df) / df)) m.
Proof.
  intros Fh [H1 H2] Hm Hm'. cbv zeta. unfold ceil_is. assert (U := u53_val). assert (P13 := b_pos (-13)).
  replace (bpow radix2 8) with 256 in * by (cbn; lra). replace (bpow radix2 (-13)) with (/ 8192) in * by (cbn; lra).
  assert (M1 : 1 <= INR m) by (apply (le_INR 1); exact Hm). assert (M2 : INR m <= 4294967296) by (rewrite INR_IZR_INZ; apply IZR_le; exact Hm').
  assert (E2 : rnd (2 * h) = 2 * h).
  { apply rnd_id, float_double, Fh. }
  rewrite E2. assert (EM : INR (2 * m) = 2 * INR m) by (rewrite mult_INR; reflexivity). rewrite EM. set (M := INR m) in *. clearbody M.
  assert (Small : bpow radix2 (-1020) <= / 2 ^ 60) by (replace (/ 2 ^ 60) with (bpow radix2 (-60)) by (cbn; lra); apply bpow_le; lia).
  assert (REL : forall r, / 2 ^ 60 <= r -> r * (1 - u53) <= rnd r <= r * (1 + u53)) by (intros r Hr; apply rnd_rel; lra).
  set (T0 := 2 * M * h). assert (HT0 : / 2 ^ 12 <= T0 <= 2 ^ 41) by (unfold T0; split; nra).
  destruct (REL T0 ltac:(lra)) as [T1 T2]. fold T0. set (T := rnd T0) in *. clearbody T. rewrite U in *.
  assert (PT : / 2 ^ 13 <= T <= 2 ^ 42) by lra. split; [lra|].
  assert (IT : / 2 ^ 42 <= 1 / T).
  { unfold Rdiv. rewrite Rmult_1_l. apply Rinv_le_contravar; lra. }
  destruct (REL (1 / T) ltac:(lra)) as [D1 D2]. set (df := rnd (1 / T)) in *.
  assert (Pdf : / 2 ^ 43 <= df) by lra. split; [lra|].
  assert (Tv : 1 / T * T = 1) by (field; lra). set (iT := 1 / T) in *. clearbody iT df.
  assert (D3 : (1 - 4 * / 9007199254740992) <= df * T0 <= 1 + 4 * / 9007199254740992).
  { assert (A1 : df * T <= 1 + / 9007199254740992) by (apply Rle_trans with (iT * (1 + / 9007199254740992) * T); [apply Rmult_le_compat_r; lra|lra]).
    assert (A2 : 1 - / 9007199254740992 <= df * T) by (apply Rle_trans with (iT * (1 - / 9007199254740992) * T); [lra|apply Rmult_le_compat_r; lra]).
    assert (A3 : df * (T0 * (1 - / 9007199254740992)) <= df * T) by (apply Rmult_le_compat_l; lra).
    assert (A4 : df * T <= df * (T0 * (1 + / 9007199254740992))) by (apply Rmult_le_compat_l; lra).
    clear - A1 A2 A3 A4. set (z := df * T0). replace (df * (T0 * (1 - / 9007199254740992))) with (z * (1 - / 9007199254740992)) in A3 by (unfold z; ring).
    replace (df * (T0 * (1 + / 9007199254740992))) with (z * (1 + / 9007199254740992)) in A4 by (unfold z; ring). clearbody z. lra. }
  assert (IH : / 2 ^ 10 <= 1 / (2 * h)) by (unfold Rdiv; rewrite Rmult_1_l; apply Rinv_le_contravar; lra).
  destruct (REL (1 / (2 * h)) ltac:(lra)) as [N1 N2]. assert (Nv : 1 / (2 * h) * T0 = M) by (unfold T0; field; lra).
  set (fN := rnd (1 / (2 * h))) in *. set (i2 := 1 / (2 * h)) in *. clearbody fN i2.
  assert (N3 : M * (1 - / 9007199254740992) <= fN * T0 <= M * (1 + / 9007199254740992)).
  { split; [apply Rle_trans with (i2 * (1 - / 9007199254740992) * T0)|apply Rle_trans with (i2 * (1 + / 9007199254740992) * T0)]; try (apply Rmult_le_compat_r; lra);
    right; rewrite <- Nv; ring. }
  destruct (REL (df / 2) ltac:(lra)) as [G1 G2]. set (g := rnd (df / 2)) in *. clearbody g.
  assert (G3 : df * T0 / 2 * (1 - / 9007199254740992) <= g * T0 <= df * T0 / 2 * (1 + / 9007199254740992)).
  { split; [apply Rle_trans with (df / 2 * (1 - / 9007199254740992) * T0)|apply Rle_trans with (df / 2 * (1 + / 9007199254740992) * T0)]; try (apply Rmult_le_compat_r; lra); right; field. }
  assert (PfN : / 2 ^ 11 <= fN) by lra.
  destruct (REL (fN + g) ltac:(lra)) as [S1 S2]. set (st := rnd (fN + g)) in *. clearbody st.
  assert (S3 : (fN * T0 + g * T0) * (1 - / 9007199254740992) <= st * T0 <= (fN * T0 + g * T0) * (1 + / 9007199254740992)).
  { split; [apply Rle_trans with ((fN + g) * (1 - / 9007199254740992) * T0)|apply Rle_trans with ((fN + g) * (1 + / 9007199254740992) * T0)]; try (apply Rmult_le_compat_r; lra); right; ring. }
  set (dT := df * T0) in *. set (nT := fN * T0) in *. set (gT := g * T0) in *. set (sT := st * T0) in *.
  assert (W0 : M - 1 / 2 - (M + 1) * / 2 ^ 40 <= sT - dT <= M - 1 / 2 + (M + 1) * / 2 ^ 40) by (clearbody dT nT gT sT; lra).
  assert (Wd : (st - df) * T0 = sT - dT) by (unfold sT, dT; ring).
  assert (Wp : / 2 ^ 44 <= st - df).
  { apply Rmult_le_reg_r with T0; [lra|]. rewrite Wd. clearbody dT nT gT sT. lra. }
  destruct (REL (st - df) ltac:(lra)) as [W1 W2]. set (w := rnd (st - df)) in *. clearbody w.
  assert (W3 : (sT - dT) * (1 - / 9007199254740992) <= w * T0 <= (sT - dT) * (1 + / 9007199254740992)).
  { rewrite <- Wd. split; [apply Rle_trans with ((st - df) * (1 - / 9007199254740992) * T0)|apply Rle_trans with ((st - df) * (1 + / 9007199254740992) * T0)]; try (apply Rmult_le_compat_r; lra); right; ring. }
  assert (Dhi : df <= 2 ^ 13).
  { apply Rmult_le_reg_r with T0; [lra|]. fold dT. clearbody dT nT gT sT. lra. }
  assert (Qv : w / df * df = w) by (field; lra).
  assert (Qp : / 2 ^ 58 <= w / df).
  { apply Rmult_le_reg_r with df; [lra|]. rewrite Qv. lra. }
  destruct (REL (w / df) ltac:(lra)) as [Q1 Q2]. set (q := rnd (w / df)) in *. set (wd := w / df) in *. clearbody q wd.
  assert (Q3 : w * T0 = wd * dT) by (rewrite <- Qv; unfold dT; ring). set (wT := w * T0) in *.
  clearbody wT dT nT gT sT.
  assert (Wb : M - 1 / 2 - (M + 1) * / 2 ^ 39 <= wT <= M - 1 / 2 + (M + 1) * / 2 ^ 39) by lra.
  assert (K : wd - (M + 2) * / 2 ^ 38 <= wT <= wd + (M + 2) * / 2 ^ 38 ).
  { clear - D3 Q3 Wb M1 M2 Qp. assert (A : wd <= 2 * (M + 1)) by nra. rewrite Q3. split; nra. }
  split; lra.
Qed.

(** ** Numbers stay numbers *)
Definition fin_c (z : cpx NB) : Prop := exists p q, z = (Fin p, Fin q).
Lemma fin_cadd z w : fin_c z -> fin_c w -> fin_c (cadd (N:=NB) z w).
Proof. intros (p & q & ->) (p' & q' & ->). eexists _, _. reflexivity. Qed.
Lemma fin_cmul z w : fin_c z -> fin_c w -> fin_c (cmul (N:=NB) z w).
Proof. intros (p & q & ->) (p' & q' & ->). eexists _, _. reflexivity. Qed.
Lemma fin_cconj z : fin_c z -> fin_c (cconj (N:=NB) z).
Proof. intros (p & q & ->). eexists _, _. reflexivity. Qed.
Lemma fin_cscale r z : fin_c z -> fin_c (cscale (N:=NB) (Fin r) z).
Proof. intros (p & q & ->). eexists _, _. reflexivity. Qed.
Lemma fin_cexpi r : fin_c (cexpi (N:=NB) (Fin r)).
Proof. eexists _, _. reflexivity. Qed.
Lemma fin_ofZ z : exists r, nofZ (n:=NB) z = Fin r.
Proof. eexists. reflexivity. Qed.
Lemma fin_c0 : fin_c (c0 (N:=NB)).
Proof. eexists _, _. reflexivity. Qed.
Lemma fin_csum l : (forall z, In z l -> fin_c z) -> fin_c (csum (N:=NB) l).
Proof. induction l as [|z l IH]; intros H; [apply fin_c0|]. apply fin_cadd; [apply H; left; reflexivity|apply IH; intros w Hw; apply H; right; exact Hw]. Qed.
Lemma fin_ifft l : (Z.of_nat (length l) <= 2 ^ 53)%Z -> (forall z, In z l -> fin_c z) -> forall z, In z (ifft (N:=NB) l) -> fin_c z.
Proof.
  intros Hn H z Hz. destruct l as [|z0 l0]; [destruct Hz|]. set (l := z0 :: l0) in *. assert (Ln : (1 <= length l)%nat) by (cbn; lia).
  assert (Nz : INR (length l) <> 0) by (apply not_0_INR; lia).
  apply in_map_iff in Hz as (k & <- & _). rewrite nb_ofnat by exact Hn.
  assert (S : fin_c (dft_coef (N:=NB) 1 l k)).
  { apply fin_csum. intros w Hw. rewrite (map2_seq _ c0) in Hw. apply in_map_iff in Hw as (j & <- & Hj). apply in_seq in Hj. apply fin_cmul; [apply H, nth_In; lia|].
    unfold twiddle. rewrite (nb_ofnat (length l)) by exact Hn. unfold nofnat. destruct (fin_ofZ (1 * 2)) as (r1 & ->). destruct (fin_ofZ (Z.of_nat (j * k))) as (r2 & ->).
    change (npi (n:=NB)) with (Fin (rnd PI)). rewrite !nb_mul, nb_div by exact Nz. apply fin_cexpi. }
  destruct S as (p & q & ->). unfold cdivr, cre, cim. cbn [fst snd]. rewrite !nb_div by exact Nz. eexists _, _. reflexivity.
Qed.
Lemma fin_list (l : list NB) : (forall z, In z l -> exists r, z = Fin r) -> exists x, l = F x.
Proof.
  induction l as [|z l IH]; intros H; [exists []; reflexivity|]. destruct (H z (or_introl eq_refl)) as (r & ->). destruct IH as (x & ->); [intros w Hw; apply H; right; exact Hw|].
  exists (r :: x). reflexivity.
Qed.

(** ** What spectrum2timeseries returns *)
Section Draws.
Context (RS : Type) (rng_seed : Z -> RS) (rng_rand : RS -> nat -> list NB * RS).
Notation synth := (spectrum2timeseries (N:=NB) RS rng_seed rng_rand).

Lemma synth_axis rs (f s : arraylike NB) (a b h : NB) seed t x rs' : synth rs f s a b h seed = Ok (t, x, rs') ->
  np_arange (N:=NB) a (nadd (n:=NB) b h) h = Ok t /\ length x = length t.
Proof.
  intros H. unfold spectrum2timeseries in H. destruct (convert_to_vector f) as [f1 q1]. destruct (convert_to_vector s) as [s1 q2].
  destruct (_ || _); [discriminate H|]. destruct (negb _); [discriminate H|]. apply bind_inv in H. destruct H as (fl & _ & H).
  apply bind_inv in H. destruct H as (t' & Et & H). destruct (neqb _ _); [discriminate H|]. apply bind_inv in H. destruct H as (fg & _ & H).
  apply bind_inv in H. destruct H as (sl & _ & H). apply bind_inv in H. destruct H as (sg & _ & H). destruct (Z.ltb _ _); [discriminate H|].
  destruct (rng_rand _ _) as [u r2]. match type of H with context [Nat.eqb (length ?w) ?m] => set (w0 := w) in *; destruct (Nat.eqb_spec (length w0) m) as [Ew|] end; cbn [negb] in H; [|discriminate H].
  apply Ok_inj in H. injection H as <- <- _. split; [exact Et|]. rewrite firstn_length, map_length. unfold ifft. rewrite map_length, seq_length. rewrite Ew.
  apply Nat.min_l. assert (E := Nat.div_mod (length t' + 1) 2 ltac:(lia)). assert (B := Nat.mod_upper_bound (length t' + 1) 2 ltac:(lia)). lia.
Qed.

(** (a) For any spectrum: how many samples, where, and accepted by the Series constructor *)
Theorem C94_time_axis rs (f s : arraylike NB) (a b h : R) seed t x rs' : times a b h ->
  synth rs f s (Fin a) (Fin b) (Fin h) seed = Ok (t, x, rs') ->
  exists n tt, ceil_is ((b - a) / h + 1) n /\ t = F tt /\ length x = length tt
    /\ (length tt = n \/ length tt = S n \/ n = S (length tt))
    /\ ((forall k : nat, / (2 ^ 34 * h) < Rabs ((b - a) / h - INR k)) -> length tt = n)
    /\ (forall k, (k < length tt)%nat -> Rabs (nth k tt 0 - (a + INR k * h)) <= (INR k + 2) / 2 ^ 36)
    /\ (a = 0 -> forall k, (k < length tt)%nat -> Rabs (nth k tt 0 - INR k * h) <= / 2 ^ 36)
    /\ ((2 <= length tt)%nat -> monotonic_increasing_constant_step (N:=NB) t = Ok true).
Proof.
  intros Ht H. destruct (synth_axis _ _ _ _ _ _ _ _ _ _ H) as [Et Lx]. destruct (count_NB a b h Ht) as (n & c & Hn & Hc & C1 & Cn & Ce & C32 & Ch).
  assert (Ph : 0 < h) by (assert (P := b_pos (-13)); destruct Ht as [_ _ _ [H1 _] _]; lra).
  rewrite nb_add, (arange_NB _ _ _ c) in Et by (auto; lra || lia). apply Ok_inj in Et. subst t.
  set (tt := map (tick a h) (seq 0 c)) in *. assert (Lt : length tt = c) by (unfold tt; rewrite map_length, seq_length; reflexivity).
  exists n, tt. rewrite Lt. split; [exact Hn|]. split; [reflexivity|]. split; [rewrite Lx; change (@length (car NB) (F tt)) with (@length xr (F tt)); rewrite F_length; exact Lt|].
  split; [lia|]. split; [exact Ce|].
  assert (Kb : forall k, (k < c)%nat -> INR k * h <= b - a + 2 * h).
  { intros k Hk. eapply Rle_trans; [|exact Ch]. apply Rmult_le_compat_r; [lra|]. apply le_INR. lia. }
  assert (Nt : forall k, (k < c)%nat -> nth k tt 0 = tick a h k) by (intros k Hk; unfold tt; rewrite map_seq_nth by exact Hk; reflexivity).
  split; [|split].
  - intros k Hk. rewrite Nt by exact Hk. apply (tick_near a b h k Ht (Kb k Hk)).
  - intros -> k Hk. rewrite Nt by exact Hk. apply (tick_zero b h k Ht). assert (Q := Kb k Hk). lra.
  - intros H2. apply (C60_near_uniform_accepted tt a (spacing a h)); [lia| |].
    + assert (Q := proj1 (tick_near a b h 0 Ht (Kb 0%nat ltac:(lia)))). apply Rabs_le_inv in Q. destruct Ht as [_ _ _ [H1 H3] _].
      replace (bpow radix2 8) with 256 in * by (cbn; lra). replace (bpow radix2 (-13)) with (/ 8192) in * by (cbn; lra). split; lra.
    + intros k Hk. rewrite Lt in Hk. rewrite Nt by exact Hk. assert (Q := proj1 (proj2 (tick_near a b h k Ht (Kb k Hk)))). lra.
Qed.

(** (b) When the samples are numbers.  The generator: asked for k draws, it gives k finite numbers. *)
Definition draws (rs : RS) (seed : Z) : Prop := forall k, exists u r', rng_rand (if Z.leb 0 seed then rng_seed seed else rs) k = (F u, r') /\ length u = k.
Lemma mapM_fin (g : NB -> res NB) (P : R -> Prop) : forall l : list NB, (forall v, In v l -> exists s, g v = Ok (Fin s) /\ P s) -> exists sl, mapM g l = Ok (F sl) /\ length sl = length l /\ (forall s, In s sl -> P s).
Proof.
  induction l as [|v l IH]; intros H; [exists []; split; [reflexivity|split; [reflexivity|intros s []]]|].
  destruct (H v (or_introl eq_refl)) as (s & E & Ps). destruct IH as (sl & E' & L & Pl); [intros w Hw; apply H; right; exact Hw|].
  exists (s :: sl). cbn [mapM]. rewrite E. cbn [bind]. rewrite E'. split; [reflexivity|]. split; [cbn [length]; f_equal; exact L|]. intros w [<-|Hw]; [exact Ps|apply Pl, Hw].
Qed.
Theorem C94_numbers rs (f D : list R) (a b h : R) seed (af : arraylike NB) : times a b h -> densities f D -> holds_vector (F f) af -> (seed <= 4294967295)%Z -> draws rs seed ->
  exists t x rs', synth rs af (Arr (vec (F D))) (Fin a) (Fin b) (Fin h) seed = Ok (F t, F x, rs') /\ length x = length t /\ (1 <= length t)%nat /\ floats t /\ floats x.
Proof.
  intros Ht Hd Hf Hs Hu. destruct (count_NB a b h Ht) as (n & c & _ & Hc & C1 & _ & _ & C32 & _).
  assert (Ph : 0 < h) by (assert (P := b_pos (-13)); destruct Ht as [_ _ _ [H1 _] _]; lra).
  assert (Nf : F f <> []) by (destruct f; [destruct Hd as [_ [_ Hn] _ _ _ _]; contradiction|discriminate]).
  destruct (@hv_convert (car NB) (F f) af Nf Hf) as (k1 & K1 & E1). unfold spectrum2timeseries. rewrite E1, vec_convert. cbn [fst snd].
  replace (Nat.ltb 1 k1) with false by (symmetry; apply Nat.ltb_ge; lia). change (Nat.ltb 1 0) with false. cbn [orb].
  change (@length (car NB) (F f)) with (@length xr (F f)). change (@length (car NB) (F D)) with (@length xr (F D)). rewrite !F_length.
  destruct Hd as [[Ff FD] [Ld Hn] Hi Hp Hv Hst]. assert (Hd : densities f D) by (split; auto). rewrite Ld, Nat.eqb_refl. cbn [negb]. rewrite TimeProps.as_list_vec, bind_Ok.
  rewrite nb_add, (arange_NB a (rnd (b + h)) h c) by (auto; lra || lia). rewrite bind_Ok. set (tt := map (tick a h) (seq 0 c)).
  assert (Lt : length tt = c) by (unfold tt; rewrite map_length, seq_length; reflexivity). change (@length (car NB) (F tt)) with (@length xr (F tt)). rewrite F_length, Lt. cbv zeta.
  set (m := ((c + 1) / 2)%nat). assert (Hm : (1 <= m)%nat /\ (c <= 2 * m)%nat /\ (2 * m <= c + 1)%nat).
  { assert (E := Nat.div_mod (c + 1) 2 ltac:(lia)). assert (B := Nat.mod_upper_bound (c + 1) 2 ltac:(lia)). unfold m. lia. }
  destruct Ht as [(Fa & Fb & Fh) Ha Hb [H1 H2] Hab]. destruct (gen_count h m Fh ltac:(lra) ltac:(lia) ltac:(lia)) as (PT & Pdf & Hq). cbv zeta in *.
  rewrite nb_ofnat by lia. rewrite nb_mul. set (T := rnd (INR (2 * m) * h)) in *. rewrite nb_0. change (neqb (n:=NB) (Fin T) (Fin 0)) with (Reqb T 0). rewrite Reqb_false by lra.
  rewrite nb_1, nb_div by lra. set (df := rnd (1 / T)) in *. rewrite nb_ofZ by (cbn; lia). rewrite nb_mul.
  assert (E2 : rnd (2 * h) = 2 * h) by (apply rnd_id, float_double, Fh). rewrite E2 in *. rewrite !nb_div by lra. rewrite nb_add.
  rewrite (arange_NB df _ df m) by (auto; lra || lia). rewrite bind_Ok. cbn [shape vec data]. rewrite bind_Ok.
  set (ff := map (tick df df) (seq 0 m)). assert (Lf : length ff = m) by (unfold ff; rewrite map_length, seq_length; reflexivity).
  assert (Flf : forall v, In v ff -> is_float v).
  { intros v Hw. apply in_map_iff in Hw as ([|[|k]] & <- & _); unfold tick; [apply rnd_float| apply rnd_float|apply rnd_float]. }
  destruct (mapM_fin (np_interp (N:=NB) (F f) (F D)) (fun s => 0 <= s) (F ff)) as (sg & Eg & Lg & Pg).
  { intros v Hw. apply in_map_iff in Hw as (r & <- & Hr). apply interp_NB; auto. }
  rewrite Eg, bind_Ok. replace (Z.ltb 4294967295 seed) with false by (symmetry; apply Z.ltb_ge; lia).
  change (@length (car NB) (F ff)) with (@length xr (F ff)) in *. rewrite F_length, Lf in *.
  destruct (Hu m) as (u & r' & -> & Lu).
  match goal with |- context [map2 ?g (map ?p (F sg)) (map ?q (F u))] => set (comp := map2 g (map p (F sg)) (map q (F u))); assert (Fc : forall z, In z comp -> fin_c z) end.
  { intros z Hz. unfold comp in Hz. apply In_nth with (d := c0) in Hz as (k & Hk & <-). rewrite map2_length, !map_length in Hk.
    change (@length (car NB) (F sg)) with (@length xr (F sg)) in Hk. change (@length (car NB) (F u)) with (@length xr (F u)) in Hk. rewrite !F_length in Hk.
    rewrite (map2_nth _ _ _ _ (Fin 0) (Fin 0)) by (rewrite map_length; change (@length (car NB) (F sg)) with (@length xr (F sg)) || change (@length (car NB) (F u)) with (@length xr (F u)); rewrite F_length; lia).
    rewrite (map_nth' _ _ k (Fin 0) (Fin 0)) by (change (@length (car NB) (F sg)) with (@length xr (F sg)); rewrite F_length; lia).
    rewrite (map_nth' _ _ k (Fin 0) (Fin 0)) by (change (@length (car NB) (F u)) with (@length xr (F u)); rewrite F_length; lia).
    rewrite !F_nth. assert (Ps : 0 <= nth k sg 0) by (apply Pg, nth_In; lia). rewrite !nb_mul.
    assert (A1 : 0 <= rnd (2 * nth k sg 0)) by (apply rnd_ge_float; [apply float_0|lra]).
    rewrite RoundDisper.nb_sqrt by (apply rnd_ge_float; [apply float_0|apply Rmult_le_pos; lra]).
    change (npi (n:=NB)) with (Fin (rnd PI)). rewrite !nb_mul, nb_div by lra. apply fin_cscale, fin_cexpi. }
  assert (Lc : length comp = m).
  { unfold comp. rewrite map2_length, !map_length. change (@length (car NB) (F sg)) with (@length xr (F sg)). change (@length (car NB) (F u)) with (@length xr (F u)). rewrite !F_length. lia. }
  clearbody comp. set (w := firstn m (c0 :: comp) ++ rev (map cconj comp)).
  assert (Lw : length w = (2 * m)%nat) by (unfold w; rewrite app_length, firstn_length, rev_length, map_length; cbn [length]; lia).
  assert (Fw : forall z, In z w -> fin_c z).
  { intros z Hz. unfold w in Hz. apply in_app_or in Hz. destruct Hz as [Hz|Hz].
    - apply firstn_In in Hz. destruct Hz as [<-|Hz]; [apply fin_c0|apply Fc, Hz].
    - apply in_rev, in_map_iff in Hz as (y & <- & Hy). apply fin_cconj, Fc, Hy. }
  clearbody w. rewrite Lw, Nat.eqb_refl. cbn [negb].
  destruct (fin_list (firstn c (map (fun z => cre (cscale (N:=NB) (Fin (INR (2 * m))) z)) (ifft w)))) as (x & Ex).
  { intros z Hz. apply firstn_In in Hz. apply in_map_iff in Hz as (y & <- & Hy). destruct (fin_ifft w ltac:(lia) Fw y Hy) as (p & q & ->). eexists. reflexivity. }
  exists tt, x, r'. split; [rewrite <- Ex; reflexivity|].
  assert (Lx : length x = c).
  { rewrite <- (F_length x). change (@length xr (F x)) with (@length (car NB) (F x)). rewrite <- Ex, firstn_length, map_length. unfold ifft. rewrite map_length, seq_length, Lw. lia. }
  split; [lia|]. split; [lia|]. split.
  - intros v Hw. apply in_map_iff in Hw as ([|[|k]] & <- & _); unfold tick; [exact Fa|apply rnd_float|apply rnd_float].
  - intros v Hw. assert (Hw' : In (Fin v) (F x)) by (apply in_map; exact Hw). rewrite <- Ex in Hw'. apply firstn_In in Hw'. apply in_map_iff in Hw' as (y & Ey & Hy).
    destruct (fin_ifft w ltac:(lia) Fw y Hy) as (p & q & ->). cbn in Ey. injection Ey as <-. apply rnd_float.
Qed.

(** the Series object made of such a record: with more than one sample, each zero or not tiny, it is accepted *)
Lemma synth_ticks rs (f s : arraylike NB) (a b h : R) seed t x rs' : times a b h -> synth rs f s (Fin a) (Fin b) (Fin h) seed = Ok (t, x, rs') ->
  exists c, t = F (map (tick a h) (seq 0 c)) /\ length x = c /\ INR (c - 1) * h <= b - a + 2 * h.
Proof.
  intros Ht H. destruct (synth_axis _ _ _ _ _ _ _ _ _ _ H) as [Et Lx]. destruct (count_NB a b h Ht) as (n & c & _ & Hc & _ & _ & _ & C32 & Ch).
  assert (Ph : 0 < h) by (assert (P := b_pos (-13)); destruct Ht as [_ _ _ [H1 _] _]; lra).
  rewrite nb_add, (arange_NB _ _ _ c) in Et by (auto; lra || lia). apply Ok_inj in Et. exists c. split; [symmetry; exact Et|]. split; [|exact Ch].
  rewrite Lx, <- Et. etransitivity; [apply F_length|]. rewrite map_length, seq_length. reflexivity.
Qed.
Notation make_series := (spectrum2timeseries_object (N:=NB) RS rng_seed rng_rand).
Theorem C94_series rs (f D : list R) (a b h : R) seed (af : arraylike NB) : times a b h -> h <= 128 -> (b - a) / h <= 2 ^ 29 ->
  densities f D -> holds_vector (F f) af -> (seed <= 4294967295)%Z -> draws rs seed ->
  exists t x rs', synth rs af (Arr (vec (F D))) (Fin a) (Fin b) (Fin h) seed = Ok (F t, F x, rs')
    /\ ((2 <= length x)%nat -> (forall v, In v x -> v = 0 \/ / 2 ^ 900 <= Rabs v) ->
        exists se, make_series rs af (Arr (vec (F D))) (Fin a) (Fin b) (Fin h) seed = Ok (se, rs') /\ se_t se = F t /\ se_x se = F x).
Proof.
  intros Ht H128 H29 Hd Hf Hs Hu. destruct (C94_numbers rs f D a b h seed af Ht Hd Hf Hs Hu) as (t & x & rs' & E & L & L1 & Ft & Fx).
  exists t, x, rs'. split; [exact E|]. intros L2 Hx. destruct (synth_ticks _ _ _ _ _ _ _ _ _ _ Ht E) as (c & Et & Lc & Ch). apply F_inj in Et.
  assert (Lx : length x = c) by (rewrite <- Lc; symmetry; apply F_length). assert (Ht' := Ht). destruct Ht' as [_ Ha Hb [H1 H3] Hab].
  replace (bpow radix2 (-13)) with (/ 8192) in H1 by (cbn; lra).
  assert (Kb : forall k, (k < c)%nat -> INR k * h <= b - a + 2 * h).
  { intros k Hk. eapply Rle_trans; [|exact Ch]. apply Rmult_le_compat_r; [lra|]. apply le_INR. lia. }
  destruct (C77_series_accepted t x a (spacing a h) (3 / 2 ^ 37)) as (se & Se); auto.
  - rewrite <- L, Lx. apply le_IZR. rewrite <- INR_IZR_INZ. change (IZR (2 ^ 30)) with 1073741824.
    assert (B : b - a <= 2 ^ 29 * h). { apply Rmult_le_reg_r with (/ h); [apply Rinv_0_lt_compat; lra|]. replace (2 ^ 29 * h * / h) with (2 ^ 29) by (field; lra). exact H29. }
    destruct c as [|c']; [lia|]. rewrite S_INR. replace (S c' - 1)%nat with c' in Ch by lia. assert (INR c' * h <= (2 ^ 29 + 2) * h) by lra. apply Rmult_le_reg_r in H; lra.
  - intros k Hk. assert (Hkc : (k < c)%nat) by lia. rewrite Et, map_seq_nth by exact Hkc. apply (tick_near a b h k Ht (Kb k Hkc)).
  - assert (Q := proj1 (tick_near a b h 0 Ht (Kb 0%nat ltac:(lia)))). apply Rabs_le_inv in Q. lra.
  - assert (Q := proj1 (tick_near a b h 0 Ht (Kb 0%nat ltac:(lia)))). apply Rabs_le_inv in Q. replace (bpow radix2 8) with 256 by (cbn; lra).
    assert (bpow radix2 (-90) <= bpow radix2 (-20)) by (apply bpow_le; lia). replace (bpow radix2 (-20)) with (/ 1048576) in H by (cbn; lra). lra.
  - exists se. split.
    + unfold spectrum2timeseries_object. etransitivity; [apply (f_equal (fun r => bind r _)); exact E|]. cbn [bind]. etransitivity; [apply (f_equal (fun r => bind r (fun s => Ok (s, rs')))); exact Se|reflexivity].
    + apply series_fields_NB in Se; [tauto|destruct t; [cbn in L1; lia|discriminate]|destruct x; [cbn in L2; lia|discriminate]].
Qed.

(** (c) On a grid of dyadic numbers there is no rounding: the samples are those of exact arithmetic *)
Theorem C94_whole_steps rs (f s : arraylike NB) (i j e : Z) (n : nat) seed t x rs' :
  (-1074 <= e)%Z -> (0 < j)%Z -> (Z.abs i + (Z.of_nat n + 2) * j <= 2 ^ 53)%Z ->
  let a := IZR i * bpow radix2 e in let h := IZR j * bpow radix2 e in
  synth rs f s (Fin a) (Fin (a + INR n * h)) (Fin h) seed = Ok (t, x, rs') ->
  t = F (map (fun k => a + INR k * h) (seq 0 (S n))) /\ length x = S n.
Proof.
  intros He Hj Hb a h H. destruct (synth_axis _ _ _ _ _ _ _ _ _ _ H) as [Et Lx].
  assert (Pe := b_pos e). assert (Ph : 0 < h) by (apply Rmult_lt_0_compat; [apply (IZR_lt 0), Hj|exact Pe]).
  assert (G : forall z, (Z.abs z <= 2 ^ 53)%Z -> rnd (IZR z * bpow radix2 e) = IZR z * bpow radix2 e) by (intros z Hz; apply rnd_id, float_scaled; lia).
  assert (Ek : forall k : nat, INR k * h = IZR (Z.of_nat k * j) * bpow radix2 e) by (intros k; unfold h; rewrite mult_IZR, <- INR_IZR_INZ; ring).
  assert (E1 : rnd (a + INR n * h + h) = a + INR n * h + h).
  { replace (a + INR n * h + h) with (IZR (i + (Z.of_nat n + 1) * j) * bpow radix2 e); [apply G; nia|]. rewrite Ek. unfold a, h. rewrite !plus_IZR, !mult_IZR, plus_IZR. ring. }
  assert (E2 : rnd (a + INR n * h + h - a) = INR (S n) * h).
  { replace (a + INR n * h + h - a) with (INR (S n) * h) by (rewrite S_INR; ring). rewrite Ek. apply G. nia. }
  assert (E3 : rnd (INR (S n) * h / h) = INR (S n)).
  { replace (INR (S n) * h / h) with (INR (S n)) by (field; lra). rewrite INR_IZR_INZ. apply rnd_id, float_Z. nia. }
  rewrite nb_add, E1, (arange_NB _ _ _ (S n)) in Et; [|lra|nia|].
  2:{ rewrite E2, E3. unfold ceil_is. lra. }
  apply Ok_inj in Et. assert (T : map (tick a h) (seq 0 (S n)) = map (fun k => a + INR k * h) (seq 0 (S n))).
  { apply map_ext_in. intros k Hk. apply in_seq in Hk.
    assert (Ea : forall k, (k <= S n)%nat -> rnd (a + INR k * h) = a + INR k * h).
    { intros k' Hk'. replace (a + INR k' * h) with (IZR (i + Z.of_nat k' * j) * bpow radix2 e); [apply G; nia|]. rewrite Ek. unfold a. rewrite plus_IZR. ring. }
    assert (E1h : rnd (a + h) = a + h) by (replace (a + h) with (a + INR 1 * h) by (cbn; ring); apply Ea; lia).
    assert (Es : spacing a h = h).
    { unfold spacing. rewrite E1h. replace (a + h - a) with (IZR j * bpow radix2 e) by (unfold h; ring). apply G. nia. }
    destruct k as [|[|k]]; unfold tick.
    - cbn [INR]. ring.
    - rewrite E1h. cbn [INR]. ring.
    - rewrite Es. assert (Rk : rnd (INR (S (S k)) * h) = INR (S (S k)) * h) by (rewrite Ek; apply G; nia). rewrite Rk. apply Ea. lia. }
  rewrite T in Et. split; [symmetry; exact Et|]. rewrite Lx, <- Et. change (@length (car NB) ?l) with (@length xr l). rewrite F_length, map_length, seq_length. reflexivity.
Qed.

(** (d) One sample too many: from 1 to 2 in steps of 0.2, exact arithmetic stops at 2 (6 samples), binary64 goes on to 2.2 (7 samples) *)
Lemma step_fifth : rnd (1 / 5) = 7205759403792794 * bpow radix2 (-55).
Proof. apply (rnd_at (-2) 7205759403792794); [lia| |]; cbn; [rewrite Rabs_pos_eq by lra; lra|apply Rabs_def1; lra]. Qed.
Theorem C94_extra_sample_refuted rs (f s : arraylike NB) seed t x rs' : let h := rnd (1 / 5) in
  times 1 2 h /\ ceil_is ((2 - 1) / h + 1) 6
  /\ (synth rs f s (Fin 1) (Fin 2) (Fin h) seed = Ok (t, x, rs') -> length x = 7%nat /\ exists tt, t = F tt /\ length tt = 7%nat /\ 2 + 19 / 100 < nth 6 tt 0).
Proof.
  cbv zeta. assert (Eh := step_fifth). replace (bpow radix2 (-55)) with (/ 36028797018963968) in Eh by (cbn; lra).
  split.
  { split; try (rewrite Rabs_pos_eq by lra; cbn; lra); [|rewrite Eh; cbn; lra|lra].
    split; [change 1 with (IZR 1); apply float_Z; cbn; lia|]. split; [apply float_Z; cbn; lia|apply rnd_float]. }
  set (h := rnd (1 / 5)) in *. clearbody h.
  assert (Ih : h * / h = 1) by (apply Rinv_r; lra).
  split. { unfold ceil_is. cbn [INR]. unfold Rdiv. replace ((2 - 1) * / h) with (/ h) by ring. rewrite Eh in Ih at 1. lra. }
  intros H. destruct (synth_axis _ _ _ _ _ _ _ _ _ _ H) as [Et Lx].
  assert (R1 : rnd (2 + h) = 4953959590107546 * / 2251799813685248).
  { replace (/ 2251799813685248) with (bpow radix2 (2 - 53)) by (cbn; lra). apply (rnd_at 2 4953959590107546); [lia| |]; rewrite Eh; cbn; [rewrite Rabs_pos_eq by lra; lra|apply Rabs_def1; lra]. }
  assert (R2 : rnd (rnd (2 + h) - 1) = 5404319552844596 * / 4503599627370496).
  { rewrite R1. replace (/ 4503599627370496) with (bpow radix2 (1 - 53)) by (cbn; lra). apply (rnd_at 1 5404319552844596); [lia| |]; cbn; [rewrite Rabs_pos_eq by lra; lra|apply Rabs_def1; lra]. }
  assert (R3 : rnd (5404319552844596 * / 4503599627370496 / h) = 6755399441055745 * / 1125899906842624).
  { replace (/ 1125899906842624) with (bpow radix2 (3 - 53)) by (cbn; lra).
    replace (5404319552844596 * / 4503599627370496 / h) with (5404319552844596 * 8 / 7205759403792794) by (rewrite Eh; field).
    apply (rnd_at 3 6755399441055745); [lia| |]; cbn; [rewrite Rabs_pos_eq by lra; lra|apply Rabs_def1; lra]. }
  rewrite nb_add, (arange_NB 1 (rnd (2 + h)) h 7) in Et; [|lra|cbn; lia|].
  2:{ rewrite R2, R3. unfold ceil_is. cbn [INR]. lra. }
  apply Ok_inj in Et. split; [rewrite Lx, <- Et; reflexivity|].
  exists (map (tick 1 h) (seq 0 7)). split; [symmetry; exact Et|]. split; [reflexivity|].
  assert (S1 : rnd (1 + h) = 5404319552844595 * / 4503599627370496).
  { replace (/ 4503599627370496) with (bpow radix2 (1 - 53)) by (cbn; lra). apply (rnd_at 1 5404319552844595); [lia| |]; rewrite Eh; cbn; [rewrite Rabs_pos_eq by lra; lra|apply Rabs_def1; lra]. }
  assert (S2 : spacing 1 h = 7205759403792792 * / 36028797018963968).
  { unfold spacing. rewrite S1. replace (/ 36028797018963968) with (bpow radix2 (-2 - 53)) by (cbn; lra). apply (rnd_at (-2) 7205759403792792); [lia| |]; cbn; [rewrite Rabs_pos_eq by lra; lra|apply Rabs_def1; lra]. }
  change (nth 6 (map (tick 1 h) (seq 0 7)) 0) with (rnd (1 + rnd (INR 6 * spacing 1 h))). rewrite S2. replace (INR 6) with 6 by (cbn; lra).
  apply Rlt_le_trans with (rnd (2 + 1953 / 10000)).
  2:{ apply rnd_le. assert (rnd (1 + 1953 / 10000 + / 1000) <= rnd (6 * (7205759403792792 * / 36028797018963968))) by (apply rnd_le; lra).
      assert (Q : Rabs (rnd (1 + 1953 / 10000 + / 1000) - (1 + 1953 / 10000 + / 1000)) <= bpow radix2 (2 - 54)) by (apply rnd_err; [lia|cbn; apply Rabs_le; lra]).
      apply Rabs_le_inv in Q. cbn in Q. lra. }
  assert (Q : Rabs (rnd (2 + 1953 / 10000) - (2 + 1953 / 10000)) <= bpow radix2 (2 - 54)) by (apply rnd_err; [lia|cbn; apply Rabs_le; lra]).
  apply Rabs_le_inv in Q. cbn in Q. lra.
Qed.

(** (e) Without the condition on the densities: a non-negative spectrum for which every sample is nan.  The last frequency that the
    synthesis uses is 1 - 2^-53, just below the last frequency 1 of the spectrum, and the density interpolated there is negative. *)
Lemma nan_csum (l : list (cpx NB)) : In (NaN, NaN) l -> csum (N:=NB) l = (NaN, NaN).
Proof.
  assert (Na : forall x, nadd (n:=NB) x NaN = NaN) by (intros [| | |]; reflexivity).
  induction l as [|z l IH]; intros H; [destruct H|]. change (csum (N:=NB) (z :: l)) with (cadd (N:=NB) z (csum (N:=NB) l)). destruct H as [->|H].
  - unfold cadd, cre, cim. cbn [fst snd]. f_equal; reflexivity.
  - rewrite (IH H). unfold cadd, cre, cim. cbn [fst snd]. rewrite !Na. reflexivity.
Qed.
Lemma nan_ifft (l : list (cpx NB)) k : (k < length l)%nat -> nth k l c0 = (NaN, NaN) -> ifft (N:=NB) l = repeat (NaN, NaN) (length l).
Proof.
  intros Hk H. unfold ifft. assert (E : forall q, cdivr (N:=NB) (dft_coef (N:=NB) 1 l q) (nofnat (N:=NB) (length l)) = (NaN, NaN)).
  { intros q. unfold dft_coef. rewrite nan_csum; [reflexivity|]. rewrite (map2_seq _ c0). apply in_map_iff. exists k. split; [|apply in_seq; lia]. rewrite Nat.sub_0_r, H. reflexivity. }
  rewrite (map_ext _ (fun _ => (NaN, NaN)) E). clear. generalize 0%nat as a. induction (length l) as [|n IH]; intros a; [reflexivity|]. cbn [seq map repeat]. f_equal. apply IH.
Qed.
Theorem C94_negative_interpolation_refuted rs seed : (seed <= 4294967295)%Z -> draws rs seed ->
  let f := [rnd (29 / 100); 1] in let D := [3 / 2; 0] in
  floats f /\ floats D /\ increasing f /\ (forall v, In v f -> 0 < v <= 1) /\ (forall y, In y D -> 0 <= y) /\ times 0 (11 / 2) (1 / 2)
  /\ exists t rs', synth rs (Arr (vec (F f))) (Arr (vec (F D))) (Fin 0) (Fin (11 / 2)) (Fin (1 / 2)) seed = Ok (F t, repeat NaN 12, rs') /\ length t = 12%nat.
Proof.
  intros Hs Hu. cbv zeta.
  assert (E29 : rnd (29 / 100) = 5224175567749775 * / 18014398509481984).
  { replace (/ 18014398509481984) with (bpow radix2 (-1 - 53)) by (cbn; lra). apply (rnd_at (-1) 5224175567749775); [lia| |]; cbn; [rewrite Rabs_pos_eq by lra; lra|apply Rabs_def1; lra]. }
  assert (F1 : is_float 1) by (apply (float_Z 1); cbn; lia).
  assert (Fh : is_float (1 / 2)) by (replace (1 / 2) with (IZR 1 * bpow radix2 (-1)) by (cbn; lra); apply float_scaled; cbn; lia).
  assert (Fb : is_float (11 / 2)) by (replace (11 / 2) with (IZR 11 * bpow radix2 (-1)) by (cbn; lra); apply float_scaled; cbn; lia).
  assert (FD : is_float (3 / 2)) by (replace (3 / 2) with (IZR 3 * bpow radix2 (-1)) by (cbn; lra); apply float_scaled; cbn; lia).
  split. { intros v [<-|[<-|[]]]; [apply rnd_float|exact F1]. }
  split. { intros v [<-|[<-|[]]]; [exact FD|apply float_0]. }
  split. { intros [|[|i]] [|[|k]] Hk; cbn [length nth] in *; try lia. rewrite E29. lra. }
  split. { intros v [<-|[<-|[]]]; rewrite ?E29; lra. }
  split. { intros v [<-|[<-|[]]]; lra. }
  split. { split; [split; [apply float_0|split; assumption]| | | |]; cbn; rewrite ?Rabs_R0, ?(Rabs_pos_eq (11 / 2)) by lra; lra. }
  set (f := [rnd (29 / 100); 1]). set (D := [3 / 2; 0]).
  assert (R6 : rnd 6 = 6) by (apply rnd_id; apply (float_Z 6); cbn; lia).
  unfold spectrum2timeseries. rewrite !vec_convert. cbn [fst snd]. change (Nat.ltb 1 0) with false. cbn [orb]. change (Nat.eqb (length (F f)) (length (F D))) with true. cbn [negb].
  rewrite TimeProps.as_list_vec, bind_Ok. rewrite nb_add. replace (11 / 2 + 1 / 2) with 6 by lra. rewrite R6.
  rewrite (arange_NB 0 6 (1 / 2) 12); [|lra|cbn; lia|].
  2:{ rewrite Rminus_0_r, R6. replace (6 / (1 / 2)) with 12 by lra. rewrite rnd_id by (apply (float_Z 12); cbn; lia). unfold ceil_is. cbn [INR]. lra. }
  rewrite bind_Ok. set (tt := map (tick 0 (1 / 2)) (seq 0 12)). change (@length (car NB) (F tt)) with 12%nat. cbv zeta. change (2 * ((12 + 1) / 2))%nat with 12%nat.
  destruct (gen_count (1 / 2) 6 Fh ltac:(cbn; lra) ltac:(lia) ltac:(cbn; lia)) as (PT & Pdf & Hq). cbv zeta in *. change (2 * 6)%nat with 12%nat in *.
  assert (ET : rnd (INR 12 * (1 / 2)) = 6) by (replace (INR 12 * (1 / 2)) with 6 by (cbn [INR]; lra); exact R6).
  assert (E2 : rnd (2 * (1 / 2)) = 1) by (replace (2 * (1 / 2)) with 1 by lra; apply rnd_id, F1). rewrite E2 in Hq.
  rewrite nb_ofnat by (cbn; lia). rewrite nb_mul. rewrite ET in *. rewrite nb_0. change (neqb (n:=NB) (Fin 6) (Fin 0)) with (Reqb 6 0). rewrite Reqb_false by lra.
  rewrite nb_1, nb_div by lra. set (df := rnd (1 / 6)) in *. rewrite nb_ofZ by (cbn; lia). rewrite nb_mul, E2. rewrite !nb_div by lra. rewrite nb_add.
  rewrite (arange_NB df _ df 6) by (auto; lra || (cbn; lia)). rewrite bind_Ok. cbn [shape vec data]. rewrite bind_Ok.
  set (ff := map (tick df df) (seq 0 6)). set (g := fun x : NB => if nltb (n:=NB) x (Fin (rnd (29 / 100))) then n0 (N:=NB) else interp_from (N:=NB) x (Fin (rnd (29 / 100))) (Fin (3 / 2)) [(Fin 1, Fin 0)]).
  rewrite (mapM_Ok _ g (F ff)) by (intros v _; reflexivity). rewrite bind_Ok. replace (Z.ltb 4294967295 seed) with false by (symmetry; apply Z.ltb_ge; lia).
  change (@length (car NB) (F ff)) with 6%nat. destruct (Hu 6%nat) as (u & r' & -> & Lu).
  assert (Edf : df = 6004799503160661 * / 36028797018963968).
  { unfold df. replace (/ 36028797018963968) with (bpow radix2 (-2 - 53)) by (cbn; lra). apply (rnd_at (-2) 6004799503160661); [lia| |]; cbn; [rewrite Rabs_pos_eq by lra; lra|apply Rabs_def1; lra]. }
  assert (Es : spacing df df = df).
  { unfold spacing. replace (df + df) with (2 * df) by ring. rewrite (rnd_id (2 * df)) by (apply float_double, rnd_float). replace (2 * df - df) with df by ring. apply rnd_id, rnd_float. }
  assert (E5 : rnd (df + rnd (INR 5 * spacing df df)) = 9007199254740991 * / 9007199254740992).
  { rewrite Es. assert (K5 : rnd (INR 5 * df) = 7505999378950826 * / 9007199254740992).
    { replace (/ 9007199254740992) with (bpow radix2 (0 - 53)) by (cbn; lra). replace (INR 5) with 5 by (cbn; lra). apply (rnd_at 0 7505999378950826); [lia| |]; rewrite Edf; cbn; [rewrite Rabs_pos_eq by lra; lra|apply Rabs_def1; lra]. }
    rewrite K5. replace (/ 9007199254740992) with (bpow radix2 (0 - 53)) at 2 by (cbn; lra). apply (rnd_at 0 9007199254740991); [lia| |]; rewrite Edf; cbn; [rewrite Rabs_pos_eq by lra; lra|apply Rabs_def1; lra]. }
  set (g5 := rnd (df + rnd (INR 5 * spacing df df))) in *. assert (N5 : nth 5 (F ff) (Fin 0) = Fin g5) by reflexivity.
  assert (Eg : g (Fin g5) = Fin (- (/ 4503599627370496))).
  { unfold g. rewrite nb_ltb. rewrite Rltb_false by (rewrite E29, E5; lra). cbn [interp_from]. rewrite nb_leb, Rleb_false by (rewrite E5; lra). rewrite !nb_sub.
    assert (X1 : rnd (g5 - rnd (29 / 100)) = 6395111470866104 * / 9007199254740992).
    { replace (/ 9007199254740992) with (bpow radix2 (0 - 53)) by (cbn; lra). apply (rnd_tie 0 6395111470866104); [lia| |reflexivity|]; rewrite E5, E29; cbn; [rewrite Rabs_pos_eq by lra; lra|right; lra]. }
    assert (X2 : rnd (1 - rnd (29 / 100)) = 6395111470866104 * / 9007199254740992).
    { replace (/ 9007199254740992) with (bpow radix2 (0 - 53)) by (cbn; lra). apply (rnd_tie 0 6395111470866104); [lia| |reflexivity|]; rewrite E29; cbn; [rewrite Rabs_pos_eq by lra; lra|left; lra]. }
    rewrite X1, X2. assert (X3 : rnd (0 - 3 / 2) = - (3 / 2)) by (replace (0 - 3 / 2) with (- (3 / 2)) by ring; rewrite rnd_opp, rnd_id by exact FD; reflexivity). rewrite X3.
    rewrite nb_div by lra. assert (X4 : rnd (- (3 / 2) / (6395111470866104 * / 9007199254740992)) = -4757323550039257 * / 2251799813685248).
    { replace (/ 2251799813685248) with (bpow radix2 (2 - 53)) by (cbn; lra). apply (rnd_at 2 (-4757323550039257)); [lia| |]; cbn; [rewrite Rabs_left by lra; lra|apply Rabs_def1; lra]. }
    rewrite X4, nb_mul. assert (X5 : rnd (-4757323550039257 * / 2251799813685248 * (6395111470866104 * / 9007199254740992)) = -6755399441055745 * / 4503599627370496).
    { replace (/ 4503599627370496) with (bpow radix2 (1 - 53)) by (cbn; lra). apply (rnd_at 1 (-6755399441055745)); [lia| |]; cbn; [rewrite Rabs_left by lra; lra|apply Rabs_def1; lra]. }
    rewrite X5, nb_add. apply f_equal. replace (-6755399441055745 * / 4503599627370496 + 3 / 2) with (- (IZR 1 * bpow radix2 (-52))) by (cbn; lra).
    rewrite rnd_opp, rnd_id by (apply float_scaled; cbn; lia). cbn. lra. }
  match goal with |- context [map2 ?h (map ?p (map g (F ff))) (map ?q (F u))] => set (comp := map2 h (map p (map g (F ff))) (map q (F u))); assert (Nc : nth 5 comp c0 = (NaN, NaN)) end.
  { unfold comp. rewrite (map2_nth _ _ _ _ (Fin 0) (Fin 0)) by (rewrite !map_length; change (@length (car NB) (F u)) with (@length xr (F u)) || idtac; rewrite ?F_length; cbn; lia).
    rewrite (map_nth' _ _ 5 (Fin 0) (Fin 0)) by (cbn; lia). rewrite (map_nth' g _ 5 (Fin 0) (Fin 0)) by (cbn; lia). change (@nth (car NB) 5 (F ff) (Fin 0)) with (Fin g5). rewrite Eg. rewrite !nb_mul.
    assert (P : rnd (rnd (2 * - / 4503599627370496) * df) < 0).
    { replace (2 * - / 4503599627370496) with (- (IZR 1 * bpow radix2 (-51))) by (cbn; lra). rewrite (rnd_opp (IZR 1 * bpow radix2 (-51))), (rnd_id (IZR 1 * bpow radix2 (-51))) by (apply float_scaled; cbn; lia).
      apply Rle_lt_trans with (- (IZR 1 * bpow radix2 (-60))); [apply rnd_le_float; [apply generic_format_opp, float_scaled; cbn; lia|rewrite Edf; cbn; lra]|cbn; lra]. }
    assert (Sq : nsqrt (n:=NB) (Fin (rnd (rnd (2 * - / 4503599627370496) * df))) = NaN).
    { change (nsqrt (n:=NB) (Fin ?r)) with (xround (xsqrt (Fin r))). unfold xsqrt. destruct (Rlt_dec (rnd (rnd (2 * - / 4503599627370496) * df)) 0); [reflexivity|contradiction]. }
    rewrite Sq. reflexivity. }
  assert (Lc : length comp = 6%nat).
  { unfold comp. rewrite map2_length, !map_length. transitivity (Nat.min (length ff) (length u)); [f_equal; apply F_length|rewrite Lu; reflexivity]. }
  clearbody comp. set (w := firstn 6 (c0 :: comp) ++ rev (map cconj comp)).
  assert (Lw : length w = 12%nat) by (unfold w; rewrite app_length, firstn_length, rev_length, map_length, Lc; cbn [length]; lia).
  assert (Nw : nth 6 w c0 = (NaN, NaN)).
  { unfold w. do 6 (destruct comp as [|? comp]; [discriminate Lc|]). destruct comp; [|discriminate Lc]. cbn in Nc. cbn. rewrite Nc. reflexivity. }
  clearbody w. rewrite Lw. change (Nat.eqb 12 12) with true. cbn [negb]. rewrite (nan_ifft w 6) by (rewrite ?Lw; auto; lia). rewrite Lw.
  exists tt, r'. split; [reflexivity|reflexivity].
Qed.
End Draws.
End AnyOrder.

(** a case: 21 samples of a spectrum with three frequencies *)
Example C94_witness {So : summation} {Lm : libm} :
  let rand := fun (r : unit) (k : nat) => (F (repeat (1 / 2) k), tt) : list NB * unit in
  times 0 10 (1 / 2) /\ 1 / 2 <= 128 /\ (10 - 0) / (1 / 2) <= 2 ^ 29 /\ densities [1 / 16; 1 / 8; 1] [0; 2; 1] /\ draws unit (fun _ => tt) rand tt 7
  /\ exists t x, spectrum2timeseries (N:=NB) unit (fun _ => tt) rand tt (Arr (vec (F [1 / 16; 1 / 8; 1]))) (Arr (vec (F [0; 2; 1]))) (Fin 0) (Fin 10) (Fin (1 / 2)) 7 = Ok (F t, F x, tt)
      /\ length x = 21%nat /\ nth 20 t 0 = 10.
Proof.
  cbv zeta. assert (Fl : forall m e, (Z.abs m <= 2 ^ 53)%Z -> (-1074 <= e)%Z -> forall r, r = IZR m * bpow radix2 e -> is_float r) by (intros m e H1 H2 r ->; apply float_scaled; assumption).
  assert (F16 : is_float (1 / 16)) by (apply (Fl 1%Z (-4)%Z); cbn; lia || lra). assert (F8 : is_float (1 / 8)) by (apply (Fl 1%Z (-3)%Z); cbn; lia || lra).
  assert (F2 : is_float (1 / 2)) by (apply (Fl 1%Z (-1)%Z); cbn; lia || lra). assert (F1 : is_float 1) by (apply (Fl 1%Z 0%Z); cbn; lia || lra).
  assert (F20 : is_float 2) by (apply (Fl 2%Z 0%Z); cbn; lia || lra). assert (F10 : is_float 10) by (apply (Fl 10%Z 0%Z); cbn; lia || lra).
  assert (Ht : times 0 10 (1 / 2)).
  { split; [split; [apply float_0|split; assumption]| | | |]; cbn; rewrite ?Rabs_R0, ?(Rabs_pos_eq 10) by lra; lra. }
  assert (Hd : densities [1 / 16; 1 / 8; 1] [0; 2; 1]).
  { split.
    - split; intros v [<-|[<-|[<-|[]]]]; auto using float_0.
    - split; [reflexivity|discriminate].
    - intros [|[|[|i]]] [|[|[|j]]] H; cbn [length nth] in *; try lia; lra.
    - intros v [<-|[<-|[<-|[]]]]; cbn; lra.
    - assert (bpow radix2 (-900) <= bpow radix2 0) by (apply bpow_le; lia). change (bpow radix2 0) with 1 in H. intros v [<-|[<-|[<-|[]]]]; auto; right; lra.
    - intros [|[|[|i]]] H; cbn [length nth] in *; try lia; left; cbn; lra. }
  assert (Hu : draws unit (fun _ => tt) (fun (r : unit) (k : nat) => (F (repeat (1 / 2) k), tt)) tt 7).
  { intros k. exists (repeat (1 / 2) k), tt. split; [reflexivity|apply repeat_length]. }
  split; [exact Ht|]. split; [lra|]. split; [lra|]. split; [exact Hd|]. split; [exact Hu|].
  destruct (C94_numbers unit (fun _ => tt) _ tt _ _ 0 10 (1 / 2) 7 (Arr (vec (F [1 / 16; 1 / 8; 1]))) Ht Hd (hv_flat _) ltac:(lia) Hu) as (t & x & [] & E & L & _).
  exists t, x. split; [exact E|].
  assert (W := C94_whole_steps unit (fun _ => tt) (fun (r : unit) (k : nat) => (F (repeat (1 / 2) k), tt)) tt (Arr (vec (F [1 / 16; 1 / 8; 1]))) (Arr (vec (F [0; 2; 1]))) 0 1 (-1) 20 7 (F t) (F x) tt ltac:(lia) ltac:(lia) ltac:(cbn; lia)).
  cbv zeta in W. replace (0 * bpow radix2 (-1)) with 0 in W by ring. replace (1 * bpow radix2 (-1)) with (1 / 2) in W by (cbn; lra).
  replace (0 + INR 20 * (1 / 2)) with 10 in W by (rewrite INR_IZR_INZ; cbn; lra). destruct (W E) as [Et Lx]. apply F_inj in Et.
  split; [rewrite <- Lx; symmetry; apply F_length|]. rewrite Et. change (0 + INR 20 * (1 / 2) = 10). rewrite INR_IZR_INZ. cbn. lra.
Qed.
